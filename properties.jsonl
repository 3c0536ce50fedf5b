{"id": "C01", "title": "Script parse round trip", "statement": "Writing any configuration tree (nested blocks, secondary types, settings with one or more values, quoted or bare) in the documented script syntax and giving it to ConfigurationScript::FromString returns exactly that tree, in order, and HasError() is false.", "quantifier": "every finite tree over registered block types, every legal name and value text, every nesting depth and width", "why_tests_cant": "the tree space is infinite and recursive; tests sample a handful of small files", "anchors": ["src/Configuration/Script/Lexer.cpp:Lex,nextc,gettkn,pushbuffer", "src/Configuration/Script/Interpreter.cpp:Interpret", "src/Configuration/Script/ConfigurationScript.cpp:FromString", "src/Configuration/ConfigBlock.cpp:AddSetting,AddSubBlock"]}
{"id": "C02", "title": "Layout insensitivity of the script syntax", "statement": "Spaces, tabs, newlines and newline-terminated comments between tokens never change the token sequence: any two layouts of the same token list are read as the same tokens, and the text inside quotes is preserved byte for byte.", "quantifier": "every token list and every choice of white space and comments between consecutive tokens", "why_tests_cant": "unboundedly many layouts", "anchors": ["src/Configuration/Script/Lexer.cpp:nextc,Lex,pushbuffer"]}
{"id": "C03", "title": "Comment on the last line", "statement": "A comment that is ended by a newline contributes nothing but white space to the parsed text; a comment that runs into the end of the text instead leaks its last character into the configuration, and when that character is itself '#' (or the comment is empty) reading never finishes.", "quantifier": "every comment text and every preceding configuration text", "why_tests_cant": "non-termination cannot be observed by a test, and the leak depends on the exact last byte", "anchors": ["src/Configuration/Script/Lexer.cpp:nextc"]}
{"id": "C04", "title": "Lexer totality", "statement": "Reading characters from a configuration text either finishes after a number of steps bounded by the text length or the text ends in the one hanging pattern of C03; a NUL character ends the text.", "quantifier": "every byte string", "why_tests_cant": "termination over all inputs", "anchors": ["src/Configuration/Script/Lexer.cpp:nextc,Lex"]}
{"id": "C05", "title": "Error flag soundness and completeness", "statement": "FromString leaves HasError() false exactly when the token stream is derivable in the script grammar (settings 'name = v1 v2 ... ;', blocks '@Type name (sec) { ... }'), and in that case the returned tree is the meaning of that derivation.", "quantifier": "every token stream ending in end-of-file", "why_tests_cant": "needs both directions over an infinite language", "anchors": ["src/Configuration/Script/Interpreter.cpp:Interpret,expect,advance,advanceTo"]}
{"id": "C06", "title": "Error recovery stays inside the token stream", "statement": "While reporting and skipping a syntax error the interpreter must never look past the end-of-file token. The code does look past it when the error is detected at the end-of-file token itself (for example for the empty configuration or for 'a').", "quantifier": "every token stream", "why_tests_cant": "the out-of-range read is undefined behaviour and usually goes unnoticed in a test", "anchors": ["src/Configuration/Script/Interpreter.cpp:advanceTo,Interpret"]}
{"id": "C07", "title": "Settings are unique per block and the last definition wins", "statement": "After any sequence of additions, a block holds at most one setting per name and at most one sub-block per (type, name), in order of first definition; a setting has the values of its last definition.", "quantifier": "every sequence of AddSetting / AddSubBlock / GetSetting calls", "why_tests_cant": "invariant over arbitrary histories", "anchors": ["src/Configuration/ConfigBlock.cpp:AddSetting,AddSubBlock,HasSetting,GetSetting"]}
{"id": "C08", "title": "Untouched-settings report", "statement": "A setting that is defined once is reported by GetUntouchedSettings if and only if it has never been retrieved with GetSetting; a setting that is defined twice is never reported, whether or not it was retrieved.", "quantifier": "every history of definitions and retrievals", "why_tests_cant": "history-dependent", "anchors": ["src/Configuration/ConfigBlock.cpp:AddSetting,GetSetting,GetUntouchedSettings,HasUntouchedSettings", "src/Configuration/Setting.cpp:Touch,Touched"]}
{"id": "C09", "title": "Configuration merge", "statement": "Merging B into A overwrites the settings of A that B also has and keeps every other setting of A, at every path. When new settings are not allowed it reports exactly the names of the settings and of the outermost sub-blocks of B that A lacks, at the paths both have; with new settings allowed nothing is reported and A afterwards contains every setting of B.", "quantifier": "every pair of configuration trees", "why_tests_cant": "two unbounded recursive inputs", "anchors": ["src/Configuration/ConfigBlock.cpp:Merge,MergeSetting", "src/Configuration/Configuration.cpp:Merge"]}
{"id": "C10", "title": "Block type registry", "statement": "Registering block types yields consecutive distinct identifiers starting at 1 after the root type, a name can be registered only once, and looking a registered name up returns its identifier forever after; unknown names look up to the root identifier.", "quantifier": "every sequence of RegisterBlockType calls", "why_tests_cant": "invariant over arbitrary histories", "anchors": ["src/Configuration/Configuration.cpp:RegisterBlockType,StringToBlockType,IsBlockType"]}
{"id": "C11", "title": "Boolean settings", "statement": "IsBool is true exactly for one-value settings whose text is one of yes/Yes/YES/true/True/TRUE/no/No/NO/false/False/FALSE, and then GetBool returns true for the first six and false for the others without throwing; for any other text GetBool throws.", "quantifier": "every setting text", "why_tests_cant": "infinite domain of texts", "anchors": ["src/Configuration/Setting.cpp:StringToBool", "src/Configuration/Script/SettingScript.cpp:GetBool,IsBool"]}
{"id": "C12", "title": "Integer settings", "statement": "IsInteger32/IsInteger64 is true exactly when the whole text (after optional leading white space and sign) denotes a decimal integer in range, and then the getter returns that integer. IsUnsignedInteger32 additionally accepts values up to 2^64-1 and negative texts, which the getter silently reduces modulo 2^32.", "quantifier": "every setting text", "why_tests_cant": "infinite domain; overflow boundaries", "anchors": ["src/Configuration/Script/SettingScript.cpp:IsInteger32,GetInteger32,IsInteger64,GetInteger64,IsUnsignedInteger32,GetUnsignedInteger32,IsUnsignedInteger64"]}
{"id": "C13", "title": "Vector settings read from SFile", "statement": "The vector getters of an SFile-backed setting return n values for a setting of n values; the code returns 2n values, the first n of which are zero. Overwriting such a setting doubles it in the same way, and replaces every text by the first one.", "quantifier": "every numeric setting", "why_tests_cant": "length-dependent for all n", "anchors": ["src/Configuration/SFile/SettingSFile.cpp:GetNumericVector,OverwriteValues"]}
{"id": "C14", "title": "Include directive", "statement": "'<file>' splices exactly the tokens of the named file at that point and resumes reading right after the '>', for any depth of nested includes, provided the include graph is acyclic and every included file closes its strings; a file that cannot be opened makes the read throw.", "quantifier": "every finite file system and every nesting depth", "why_tests_cant": "unbounded recursion over file contents", "anchors": ["src/Configuration/Script/Lexer.cpp:include_file,Lex"]}
{"id": "C15", "title": "SDT string round trip", "statement": "A string variable written to an SDT file and loaded back is the same byte string.", "quantifier": "every byte string (including spaces, newlines and bytes above 127) and every variable name without white space", "why_tests_cant": "all byte strings", "anchors": ["src/SFile/SFile_SDT.cpp:WriteString", "src/SFile/SFile_SDT.load.cpp:LoadString,Load"]}
{"id": "C16", "title": "SDT integer matrix round trip", "statement": "An integer matrix with at least one row written to an SDT file and loaded back has the same dimensions and the same elements.", "quantifier": "all dimensions and all integer entries that doubles represent exactly", "why_tests_cant": "unbounded dimensions", "anchors": ["src/SFile/SFile_SDT.cpp:WriteNumArray", "src/SFile/SFile_SDT.load.cpp:LoadMatrix,Load"]}
{"id": "C17", "title": "SDT file with many variables", "statement": "After writing any sequence of variables to an SDT file and loading it, every variable name that was written can be read, with the value of its first definition, and no other name exists.", "quantifier": "every sequence of writes", "why_tests_cant": "histories of writes", "anchors": ["src/SFile/SFile_SDT.load.cpp:Load,LoadMatrix,LoadString", "src/SFile/SFile_SDT.cpp:HasVariable"]}
{"id": "C18", "title": "Reading an SDT variable twice", "statement": "Reading the same variable twice returns the same value. In SDT files this fails: the reader hands out its internal storage and scalar/list reads free it, so a second read is a use after free.", "quantifier": "every file and every sequence of read calls", "why_tests_cant": "use-after-free is undefined behaviour; a test may pass by luck", "anchors": ["src/SFile/SFile_SDT.cpp:GetDoubles,Get_IntArray2D", "src/SFile/SFile.cpp:GetList,GetScalar,__GetSingle"]}
{"id": "C19", "title": "SDT one-dimensional reads", "statement": "GetDoubles1D accepts exactly the 1-by-n and n-by-1 variables and returns their n elements in order. The SDT implementation instead throws for n-by-1 variables (n<>1) and treats a real matrix as a list of its first nrows elements.", "quantifier": "all matrix shapes", "why_tests_cant": "all shapes", "anchors": ["src/SFile/SFile_SDT.cpp:GetDoubles1D"]}
{"id": "C20", "title": "File type detection", "statement": "The file type depends only on the characters after the last '.', and is HDF5 for h5/hdf5, MATLAB for mat, SDT for sdt/out and unknown for everything else, including names without '.'.", "quantifier": "every file name", "why_tests_cant": "all strings", "anchors": ["src/SFile/SFile.cpp:TypeOfFile,GetFileType"]}
{"id": "C21", "title": "List and scalar reads", "statement": "GetList returns the elements of a 1-by-n or n-by-1 variable in order and throws for any other shape; GetScalar returns the element of a 1-by-1 variable and throws otherwise.", "quantifier": "all shapes and contents", "why_tests_cant": "all shapes", "anchors": ["src/SFile/SFile.cpp:GetList,GetScalar,__GetSingle"]}
{"id": "C22", "title": "SDT attributes", "statement": "A scalar attribute written for a data set is read back for that data set and name; distinct (data set, name) pairs should not collide, which fails because the two are joined by '_'.", "quantifier": "all data set and attribute names", "why_tests_cant": "all pairs of names", "anchors": ["src/SFile/SFile_SDT.cpp:GetAttributeName,GetAttributeScalar,WriteAttribute_scalar"]}
{"id": "C23", "title": "SDT loader safety", "statement": "Loading an arbitrary text as SDT either yields variables of the announced shapes or throws, unless some line declares a matrix without rows or with at least 2^64 elements; such headers make the loader write outside its allocations.", "quantifier": "every byte string", "why_tests_cant": "memory safety for all inputs", "anchors": ["src/SFile/SFile_SDT.load.cpp:Load,LoadMatrix"]}
{"id": "C24", "title": "Shapes in HDF5/MAT files", "statement": "A list of n elements is stored with rank 1 and read back by the matrix reader as 1-by-n; an r-by-c array is read back as r-by-c with the same rows; MAT strings without NUL are read back unchanged. Reading a variable that the file does not hold throws; writing an array without rows is undefined.", "quantifier": "all sizes and contents, for a store that returns what was written", "why_tests_cant": "all sizes", "anchors": ["src/SFile/SFile_HDF5.cpp:GetArray2D,WriteNumList,WriteNumArray", "src/SFile/SFile_MAT.HDF5.cpp:GetString,WriteString"]}
{"id": "C25", "title": "Multi-dimensional array tables", "statement": "The nested pointer table returned for an n-dimensional variable gives element [i1][i2]...[ik] the address of the row-major linear index, for every in-range index, and every table entry lies inside its allocation.", "quantifier": "all dimension vectors with at least two dimensions", "why_tests_cant": "unbounded rank and sizes", "anchors": ["src/SFile/SFile.cpp:GetMultiArray"]}
{"id": "C26", "title": "Progress schedule", "statement": "Reporting items 1..n in order with 1<=nprint<=n prints exactly nprint messages, message k at item k*(n/nprint)+min(k, n mod nprint), the last one at n; a loop over 0..n-1 prints one message less. For arbitrary reports the messages are numbered 1, 2, 3, ... and none is early.", "quantifier": "all n and nprint", "why_tests_cant": "all pairs (n,nprint)", "anchors": ["src/General/ProgressTracker.cpp:ProgressTracker,UpdateNext,PrintProgress"]}
{"id": "C27", "title": "Progress reporting from several threads", "statement": "When several threads report items, as many messages are printed as the schedule advances, no message is early, and no label should be printed twice. Because the label is read outside the critical section, an interleaving exists in which two threads print the same label and another label is never printed.", "quantifier": "every interleaving of the reporting threads", "why_tests_cant": "schedules cannot be enumerated by a test", "anchors": ["src/General/ProgressTracker.cpp:PrintProgress"]}
{"id": "C28", "title": "Time formatting", "statement": "The days/hours/minutes/seconds/milliseconds computed by TimeString recompose to the duration for every choice of the largest unit; the text shows the largest non-zero unit first without padding, the following ones padded to two digits, and milliseconds only below ten seconds, with or without colours.", "quantifier": "every non-negative duration", "why_tests_cant": "all durations", "anchors": ["src/General/ProgressTracker.cpp:TimeString,FormattedTimeString"]}
{"id": "C29", "title": "Timer decomposition", "statement": "The fields of GetTimeStruct recompose to the measured duration for durations below 24 hours; from 24 hours on they do not.", "quantifier": "every duration", "why_tests_cant": "a test cannot wait a day", "anchors": ["src/General/Timer.cpp:GetTimeStruct"]}
{"id": "C30", "title": "Timer accumulation", "statement": "Stopping and continuing a timer accumulates exactly the time between each start and stop; stopping twice or continuing while running breaks this.", "quantifier": "every sequence of Reset/Stop/Continue with arbitrary clock readings", "why_tests_cant": "histories and clock values", "anchors": ["src/General/Timer.cpp:Reset,Stop,Continue,GetTime"]}
{"id": "C31", "title": "Vector algebra", "statement": "Vector addition, subtraction, scaling, dot product and norm are the component-wise operations for every dimension; the cross product of 3-vectors is orthogonal to both factors, anti-symmetric and satisfies Lagrange's identity, and the in-place form is wrong when the output aliases an operand.", "quantifier": "all dimensions and all components", "why_tests_cant": "all reals, all dimensions", "anchors": ["include/softlib/General/Vector.tcc:operator+,operator*,Dot,Norm,Cross"]}
{"id": "C32", "title": "Matrix algebra", "statement": "Matrix-matrix and matrix-vector products are the mathematical ones; matrix*scalar, scalar-matrix and the in-place product are not.", "quantifier": "all dimensions and entries", "why_tests_cant": "all reals, all dimensions", "anchors": ["include/softlib/General/Matrix.tcc"]}
{"id": "C33", "title": "Exception messages", "statement": "An exception built from a formatted message shows that message completely. Messages of 1000 or more characters lose their last character.", "quantifier": "every message length", "why_tests_cant": "all lengths", "anchors": ["include/softlib/SOFTLibException.h:ConstructErrorMessage"]}
{"id": "C34", "title": "Integrator storage", "statement": "Reading point i returns the i-th time, solution and derivative stored since the last reset, regardless of how many times the storage was enlarged; setting the initial value forgets all points, but keeps the proposed step size and the state of the step size control. Setting the initial value before the equation, or stepping before the initial value, is undefined.", "quantifier": "every sequence of steps", "why_tests_cant": "histories longer than the allocation block", "anchors": ["include/softlib/Integrator/Integrator.tcc:StoreSolution,TimeAt,SolutionAt,InitialValue"]}
{"id": "C35", "title": "Step size control", "statement": "A step is accepted iff the error estimate is a number not above 1; the next step size is the current one times a factor within the configured limits (default [0.2,10], namely 0.9 err^(-1/5); 0.1 after NaN), never larger than the current one right after a rejection, and strictly smaller after a rejection. The estimate is the root mean square of the component errors in units of the tolerance.", "quantifier": "all error estimates including NaN and all histories of rejections", "why_tests_cant": "all real error values", "anchors": ["include/softlib/Integrator/RungeKutta.tcc:UpdateTimestep,Step"]}
{"id": "C36", "title": "Time is monotone", "statement": "With a positive step size every accepted step strictly increases the stored time by exactly the step actually used, whatever the sequence of rejections.", "quantifier": "all error sequences", "why_tests_cant": "histories", "anchors": ["include/softlib/Integrator/RungeKutta.tcc:Step"]}
{"id": "C37", "title": "Dormand-Prince tableau", "statement": "The coefficients satisfy all order conditions through order 5, the embedded weights all through order 4, every row sums to its node and the error weights sum to zero; hence polynomial right-hand sides in t of degree up to 4 are integrated exactly.", "quantifier": "all right-hand sides of that form, all step sizes", "why_tests_cant": "exactness for all polynomials", "anchors": ["include/softlib/RKDP45.h", "include/softlib/Integrator/RKDP45.tcc:InnerStep"]}
{"id": "C38", "title": "Dense output", "statement": "Dense output interpolates the stored solution and derivative at both ends of every step, so it is continuous with continuous derivative across steps.", "quantifier": "all stored steps and step sizes", "why_tests_cant": "all reals", "anchors": ["include/softlib/Integrator/RKDP45.tcc:PrepareDense,OutputDense"]}
{"id": "C39", "title": "Dense output interval search", "statement": "For output times sorted increasingly and not beyond the last stored time, each requested time is evaluated on the stored interval containing it; a time beyond the last stored time makes the call throw; unsorted times are evaluated on the last interval any request so far belongs to, which can be the wrong one; before the first step the call is undefined.", "quantifier": "all stored time sequences and all request lists", "why_tests_cant": "all lists", "anchors": ["include/softlib/Integrator/RKDP45.tcc:OutputDense"]}
{"id": "C40", "title": "Uniform dense output", "statement": "The nt output times start at tmin, end exactly at tmax, are equally spaced; nt=0 throws and nt=1 requires tmin=tmax.", "quantifier": "all nt, tmin, tmax", "why_tests_cant": "all values", "anchors": ["include/softlib/Integrator/Integrator.tcc:OutputDense"]}
{"id": "C41", "title": "Colormap evaluation", "statement": "With lower limit 0, values at or below 0 map to the first colour, values at or above the upper limit to the last, and values in between to the linear blend of the two neighbouring table colours, rounded down; with lower limit a and upper limit b the covered interval is [a, a+b] instead of [a, b]. No component leaves the range of the table. NaN, a zero upper limit and positions that do not fit in an int are undefined.", "quantifier": "all values, limits and colour tables", "why_tests_cant": "all reals", "anchors": ["include/softlib/ImageGenerator/ImageColormap.h:Eval"]}
{"id": "C42", "title": "PPM output layout", "statement": "The saved PPM can be read back: width is the first array dimension, height the second, and the colour of element [x][y] is found in column x of line y; likewise for the rows handed to libpng. PNG images without rows or columns, or with more than a million of either, are refused. From 2^32 elements on the PPM shows wrong elements and the PNG writer writes beyond its pixel array. Colour components beyond 255 are kept modulo 256 in a PNG. An element missing from the array, or one that is not finite, makes the behaviour undefined in both formats.", "quantifier": "all image sizes and contents", "why_tests_cant": "all sizes", "anchors": ["src/ImageGenerator/ImageGeneratorPPM.cpp:SaveImage"]}
{"id": "C43", "title": "Domain bounding box", "statement": "GetDomainBounds returns the smallest box containing the magnetic axis and all domain points, of the domain that was set when it was first called: after SetDomain replaces the domain it still returns the old box.", "quantifier": "every domain polygon and every history of SetDomain, GetDomainBounds, GetMaxRadius and GetMinRadius calls", "why_tests_cant": "all polygons; history dependence", "anchors": ["src/MagneticField/MagneticField2D.cpp:GetDomainBounds,SetDomain"]}
{"id": "C44", "title": "Domain crossing test", "statement": "CrossesDomain is true exactly if, in the poloidal plane, the segment meets an edge of the contour or is parallel to one (edges that begin in the start of the segment are left out). So no crossing of an edge is missed, but points inside the wall can be reported as outside, and the edge from the last to the first point is not examined. The result does not depend on the toroidal angle.", "quantifier": "every polygon and every point", "why_tests_cant": "all geometric configurations", "anchors": ["src/MagneticField/MagneticField2D.cpp:CrossesDomain"]}
{"id": "C45", "title": "Radial extent of the domain", "statement": "FindMaxRadius is defined exactly if the edge from the last point of the contour to the first does not reach the height of the magnetic axis; otherwise it reads or writes outside its arrays, as for the domain of the built-in analytical field. When defined, it throws iff the contour does not reach that height, and otherwise gives radii of the contour at that height, the largest and smallest if no more than two edges reach it. After a SetDomain that throws the radii of the previous domain are still reported.", "quantifier": "every domain polygon, every height of the axis", "why_tests_cant": "stack overflow by one element goes unnoticed in tests", "anchors": ["src/MagneticField/MagneticField2D.cpp:FindMaxRadius"]}
{"id": "C46", "title": "Segment-domain intersection in 3D", "statement": "IntersectsDomain3D is true whenever the segment meets the surface that a non-horizontal edge of the closed contour describes around the symmetry axis, and does not depend on the toroidal angle. It can be true without an intersection (the whole line through an edge counts), horizontal edges are never noticed, and the form with pointer arguments replaces the start height by the start y coordinate.", "quantifier": "all contours and all segments", "why_tests_cant": "all inputs", "anchors": ["src/MagneticField/MagneticField2D.cpp:IntersectsDomain3D"]}
{"id": "C47", "title": "Numeric field evaluation", "statement": "On its grid the numeric field has the interpolated components along the radial, toroidal and vertical directions, and is axisymmetric: rotating the point rotates the field and keeps its strength (except on the symmetry axis). In the interior the Jacobian, strength, gradient and curl are the true ones of that field. Below and above the grid the edge value is used; inward and outward of it the horizontal field is scaled by the ratio of the radii, the returned Jacobian is wrong there, and the flux is not continued at all.", "quantifier": "all points, all grids, all rotation angles", "why_tests_cant": "all reals", "anchors": ["src/MagneticField/MagneticFieldNumeric2D.cpp:Eval"]}
{"id": "C48", "title": "Numeric field array layout", "statement": "A file whose tables have rows for the heights, or rows for the radii (in a non-square table), is loaded with the same element at the same (r,z) node; contours may have two rows or two columns; disagreeing verification vectors are rejected; transposing is an involution; saving a field with flux and loading it returns the same field. A NaN in a first row makes the saved file unloadable, saving without flux is undefined, square transposed tables are misread, and tables with too few columns are read out of bounds, arrays without rows as well; grids of fewer than four or of not strictly increasing coordinates end the program.", "quantifier": "all grid sizes and values", "why_tests_cant": "all sizes", "anchors": ["src/MagneticField/MagneticFieldNumeric2D.cpp:Load,Save,Transpose"]}
{"id": "C49", "title": "Analytical field is a magnetic field", "statement": "The analytical field is defined where the radius is nonzero and the safety factor is defined and nonzero, and is axisymmetric. EvalDerivatives returns the same field and its true Jacobian, which is divergence free, and its curl, on the magnetic axis too. The flux gradient is the true derivative of the flux and the flux is constant along the field. The poloidal field is however not the one derived from the flux, unless the safety factor is stationary.", "quantifier": "all points, all directions, all profiles and parameters", "why_tests_cant": "identities over the reals", "anchors": ["src/MagneticField/MagneticFieldAnalytical2D.cpp:Eval,__EvalJacobian,EvalDerivatives,EvalFlux,EvalFluxDerivatives", "src/MagneticField/MagneticFieldAnalytical2D.q.cpp"]}
{"id": "C50", "title": "Analytical field strength and its gradient", "statement": "For a positive reference field the returned strength is the norm of the field (for a negative one it is negative). The returned gradient of the strength is the true gradient off the axis exactly where the safety factor is stationary or equals one; on the axis it is zero, which is wrong.", "quantifier": "all points and parameters", "why_tests_cant": "identities over the reals", "anchors": ["src/MagneticField/MagneticFieldAnalytical2D.cpp:EvalDerivatives"]}
{"id": "C51", "title": "Safety factor profiles", "statement": "For each profile type and wherever the safety factor is defined, the quantity r dq/dr is r times the derivative of the safety factor, and zero on the axis. The profiles have the documented values, and the current profile is defined and at least q1 in the plasma.", "quantifier": "all minor radii and profile parameters", "why_tests_cant": "identities over the reals", "anchors": ["src/MagneticField/MagneticFieldAnalytical2D.q.cpp"]}
{"id": "C52", "title": "Radial grid search", "statement": "For a strictly increasing radial grid the search returns the unique index i with r[i] <= r < r[i+1] (the last interval for the last grid point), -1 below the grid and the last index above it; decreasing grids, although accepted, are searched wrongly.", "quantifier": "all grids and radii", "why_tests_cant": "all grid lengths", "anchors": ["src/DistributionFunction/NumericDistributionFunction.cpp:__FindNearestR"]}
{"id": "C53", "title": "Building a radial distribution by insertion", "statement": "Inserting momentum distributions at increasing radii yields a strictly increasing grid in which every distribution sits at its own radius; inserting a radius smaller than an existing one misplaces it.", "quantifier": "every insertion sequence", "why_tests_cant": "histories", "anchors": ["src/DistributionFunction/NumericDistributionFunction.cpp:InsertMomentumSpaceDistribution"]}
{"id": "C54", "title": "Building a radial distribution from a table", "statement": "After Initialize with nr radii, evaluating at the k-th radius gives the k-th momentum distribution; the code drops the first radius, so it gives the (k-1)-th, and with nr=1 it reads outside its arrays.", "quantifier": "all tables", "why_tests_cant": "all sizes", "anchors": ["src/DistributionFunction/NumericDistributionFunction.cpp:Initialize"]}
{"id": "C55", "title": "Radial interpolation", "statement": "Between two neighbouring radii the distribution is the linear interpolation of the two momentum distributions, it equals the tabulated one at every radius, and below the grid it continues the first line; above the grid it does not continue the last line, and a grid starting at radius zero divides by zero.", "quantifier": "all grids, radii and distributions", "why_tests_cant": "all reals", "anchors": ["src/DistributionFunction/NumericDistributionFunction.cpp:Eval"]}
{"id": "C56", "title": "Clones evaluate like the original", "statement": "MinClone of a distribution function returns a function with the same value everywhere. This fails for logarithmic numeric distributions and for the extrapolation permission.", "quantifier": "all distribution functions and points", "why_tests_cant": "all points", "anchors": ["src/DistributionFunction/NumericMomentumSpaceDistributionFunction.cpp:MinClone", "src/DistributionFunction/NumericDistributionFunction.cpp:MinClone"]}
{"id": "C57", "title": "Momentum distribution evaluation", "statement": "Outside its momentum/pitch rectangle a numeric distribution is zero; flipping the pitch sign mirrors it; a logarithmic one is never negative, and logarithmic construction rejects negative data. Both grids must increase strictly and have two points (linear interpolation) or four (cubic), and the table must be large enough; anything else is not accepted. Only grids whose last point lies below the first are answered by an exception: other unusable grids end the program.", "quantifier": "all grids, data and points", "why_tests_cant": "all points", "anchors": ["src/DistributionFunction/NumericMomentumSpaceDistributionFunction.cpp:Eval,Initialize,InitializeLog"]}
{"id": "C58", "title": "Legendre-mode distributions", "statement": "The Legendre modes computed are the Legendre polynomials (value one at one, parity, Legendre's equation) and a CODE distribution evaluates to the positive part of sum_i f_i(p) P_i(-xi); with a single mode the computation writes outside its array. The momenta must increase strictly and be as many as the interpolation method requires; only unknown methods are answered by an exception, other arguments that are not accepted are undefined.", "quantifier": "all mode counts and pitches", "why_tests_cant": "unbounded degree", "anchors": ["src/DistributionFunction/CODEDistributionFunction.cpp:ComputeLegendrePolynomials,Eval"]}
{"id": "C59", "title": "CODE evaluation is history independent", "statement": "Evaluating a CODE distribution depends only on the point, not on earlier evaluations. After ToMomentumSpace a repeated evaluation at the last pitch uses the wrong modes.", "quantifier": "every history of Eval and ToMomentumSpace calls", "why_tests_cant": "histories", "anchors": ["src/DistributionFunction/CODEDistributionFunction.cpp:Eval,ToMomentumSpace"]}
{"id": "C60", "title": "Time slice selection", "statement": "A negative time index counts from the end; every index outside the stored range throws. For DREAM files the index equal to the number of slices is accepted and reads outside the array.", "quantifier": "all indices and slice counts", "why_tests_cant": "all integers", "anchors": ["src/DistributionFunction/CODEDistributionFunction.cpp:Load", "src/DistributionFunction/DREAMDistributionFunction.cpp:__Load", "src/DistributionFunction/GOCODEDistributionFunction.cpp:Load"]}
{"id": "C61", "title": "Radial profiles", "statement": "Every radial profile except the uniform one is zero outside [rmin,rmax) and its constructor throws when rmax<=rmin. Inside, the linear profile, the power profile with a positive exponent and the Bessel profile start from 1 at rmin and lie in (0,1], the first two never increasing; the Gaussian is positive and at most its amplitude. A power profile with exponent 0 is zero everywhere and one with a negative exponent is negative inside (undefined at rmin). The drift shift moves the profile; a clone is the same function.", "quantifier": "all parameters and radii", "why_tests_cant": "all reals", "anchors": ["src/DistributionFunction/LinearRadialProfile.cpp", "src/DistributionFunction/PowerRadialProfile.cpp", "src/DistributionFunction/GaussianRadialProfile.cpp"]}
{"id": "C62", "title": "Analytical momentum distributions", "statement": "The avalanche distribution has the documented value, is positive, even in the pitch and strictly increasing in its absolute value for non-zero momentum. The Connor-Hastie distribution has the documented value, is positive and even for positive momentum and non-zero pitch, and grows with the absolute value of the pitch exactly if Zeff+1 <= (EHat+1)p. The exponential-pitch distribution is exp(C|xi|), so it agrees with the documented exp(C xi) for non-negative pitch only. There is no value at zero momentum (nor at zero pitch for Connor-Hastie). A clone is the same function.", "quantifier": "all parameters and points", "why_tests_cant": "all reals", "anchors": ["src/DistributionFunction/AnalyticalAvalanche.cpp", "src/DistributionFunction/ConnorHastieDistribution.cpp", "src/DistributionFunction/ExponentialPitch.cpp"]}
{"id": "C63", "title": "GO+CODE radial interpolation", "statement": "Inside the grid the GO+CODE distribution interpolates linearly between neighbouring radii; below the grid it uses the outermost distributions instead of the innermost, and a one-radius file is read outside its arrays.", "quantifier": "all grids and radii", "why_tests_cant": "all reals", "anchors": ["src/DistributionFunction/GOCODEDistributionFunction.cpp:Eval,__FindNearestR"]}
{"id": "C64", "title": "Product distributions", "statement": "A radial distribution function is the product of its radial profile and momentum distribution at every point; with the uniform profile it equals the momentum distribution.", "quantifier": "all points and components", "why_tests_cant": "all reals", "anchors": ["src/DistributionFunction/RadialDistributionFunction.cpp:Eval", "src/DistributionFunction/MomentumSpaceDistributionFunction.cpp:ToRadialDistribution"]}
{"id": "C65", "title": "Search for the maximum", "statement": "FindMaximum keeps a bracket inside [0,2 pi], shrinks it by the golden ratio every round, evaluates the function there only, and ends with a point of that interval for every tolerance for which the number of rounds is defined. For a function with a single peak the maximiser stays inside the bracket and the error is below 1.12 times the tolerance, and below the default tolerance if that is used; as the middle of the wrong part of the last bracket is returned, the error can exceed a given tolerance.", "quantifier": "all functions and tolerances", "why_tests_cant": "all functions", "anchors": ["src/Integration/PeakedIntegration.cpp:FindMaximum,Evaluate"]}
{"id": "C66", "title": "SDT numbers keep six significant digits", "statement": "A double written to an SDT file and read back is the number rounded to six significant decimal digits: unchanged if it has no more than six, otherwise off by at most 5 parts in a million.", "quantifier": "every finite double, every file around it", "why_tests_cant": "all doubles; rounding to six digits depends on every digit", "anchors": ["src/SFile/SFile_SDT.cpp:WriteNumArray", "src/SFile/SFile_SDT.load.cpp:LoadMatrix"]}
{"id": "C67", "title": "Header of MAT files", "statement": "A MAT file starts with a 116-byte text header with the date. The month written is the one before the current month, and in January the header construction reads outside its table of names.", "quantifier": "every calendar time", "why_tests_cant": "depends on the date the program runs", "anchors": ["src/SFile/SFile_MAT.HDF5.cpp:CreateMAT"]}
{"id": "C68", "title": "Multi-dimensional integer arrays in MAT files", "statement": "Writing a multi-dimensional integer array to a MAT file always throws, although the data has been stored when the name was new.", "quantifier": "all types, names, shapes and file contents", "why_tests_cant": "all file contents", "anchors": ["src/SFile/SFile_MAT.HDF5.cpp:WriteMultiInt32Array"]}
{"id": "C69", "title": "Containment of syntax errors", "statement": "Stray tokens at which no statement can start, between statements at any depth or right after a setting's name, are skipped: all other statements take effect as if the stray tokens were absent, and HasError() is true. A missing semicolon is not contained: the setting is kept, but the statement after it is lost.", "quantifier": "every token stream of the script grammar with stray tokens inserted, every nesting", "why_tests_cant": "unbounded combinations of errors and positions", "anchors": ["src/Configuration/Script/Interpreter.cpp:Interpret,advanceTo,expect"]}
{"id": "C70", "title": "Copies of configuration blocks", "statement": "Copying a configuration block (as Merge does for new blocks) yields a block with the same types, names, secondary types, settings and values at every depth, in which every setting counts as unused.", "quantifier": "all block trees", "why_tests_cant": "unbounded trees", "anchors": ["src/Configuration/ConfigBlock.cpp:ConfigBlock", "src/Configuration/Script/SettingScript.cpp:Copy"]}
{"id": "C71", "title": "Remaining time estimates", "statement": "The estimate printed with progress message i of m is (m-i) times the last block time, or, when block times grow, the sum of the arithmetic progression that continues the last two block times; it is zero after the last message. An estimate for message 2 or later that is the first one made uses a block time that was never set.", "quantifier": "all counts and block times, all orders of messages", "why_tests_cant": "formula over all integers, and uninitialised reads are invisible to tests", "anchors": ["src/General/ProgressTracker.cpp:EstimateRemainingTimeDeterministic,EstimateRemainingTimeAverage"]}
{"id": "C72", "title": "Scalar operands that are elements of the vector", "statement": "v+=v[k], v-=v[k] and v*=v[k] should combine every element with the value v[k] had before; instead the elements after k are combined with the new value of v[k]. Division by v[k] and assignment of v[k] are right, as are the non-assigning operators.", "quantifier": "all dimensions, vectors and indices", "why_tests_cant": "all dimensions and values", "anchors": ["include/softlib/General/Vector.tcc:operator+=,operator-=,operator*=,operator/="]}
{"id": "C73", "title": "A step ends", "statement": "From any stored time other than zero a call to Step makes finitely many attempts: every rejection shrinks the step by a fixed factor below one, so either an attempt is accepted or the step size falls below the resolution of the time and Step throws.", "quantifier": "all right-hand sides, tolerances and histories of steps", "why_tests_cant": "termination for every right-hand side, including ones that give NaN or infinite error estimates", "anchors": ["include/softlib/Integrator/RungeKutta.tcc:Step,UpdateTimestep"]}
{"id": "C74", "title": "Stored derivatives and points", "statement": "At every stored point the stored derivative is the right-hand side evaluated at the stored time and solution, and every point after the first is one Dormand-Prince step of the stored length from its predecessor, whatever steps were rejected in between.", "quantifier": "all right-hand sides, initial values and histories of calls", "why_tests_cant": "all right-hand sides and histories of rejections", "anchors": ["include/softlib/Integrator/RungeKutta.tcc:Step", "include/softlib/Integrator/RKDP45.tcc:InnerStep"]}
{"id": "C75", "title": "Dense output that was switched off", "statement": "If dense output is switched off before the first step, a later request for a time within the integrated range reads coefficients that were never computed; nothing reports the mistake.", "quantifier": "all histories and requests", "why_tests_cant": "reads outside an allocation are invisible to tests", "anchors": ["include/softlib/Integrator/RungeKutta.tcc:StoreSolution", "include/softlib/Integrator/RKDP45.tcc:OutputDense"]}
{"id": "C76", "title": "Image format and colormap selection", "statement": "Generating an image uses the requested format and colormap; an unknown format or colormap, and PNG in a build without libpng, throw. Calling it without a colormap, which the default argument allows, is undefined for every non-empty image.", "quantifier": "all image sizes, contents, formats and colormaps", "why_tests_cant": "all combinations, including default arguments", "anchors": ["src/ImageGenerator/ImageGenerator.cpp:gen,GetImageGenerator", "include/softlib/ImageGenerator/ImageGenerator.h:SaveImage"]}
{"id": "C77", "title": "Vertical extent of the domain", "statement": "FindMaxZ at a radius gives two heights of points of the contour at that radius, and throws exactly if there are none. They are the largest and smallest height there if no more than two edges of the contour reach the radius and none lies at it; a vertical edge at the radius counts with its upper end only.", "quantifier": "every contour and every radius", "why_tests_cant": "all polygons", "anchors": ["src/MagneticField/MagneticField2D.cpp:FindMaxZ,FindMaxMin"]}
{"id": "C78", "title": "Clones, orientations and reference field of the analytical field", "statement": "A clone of an analytical field describes the same field, also after SetB0; field and flux are proportional to the reference field, and reversing both orientations reverses the field at every point.", "quantifier": "every field, every point, every reference field", "why_tests_cant": "all parameters and points", "anchors": ["src/MagneticField/MagneticFieldAnalytical2D.cpp:Clone,Eval,EvalFlux", "include/softlib/MagneticField/MagneticFieldAnalytical2D.h:SetB0"]}
{"id": "C79", "title": "Converting an analytical field to a numeric one", "statement": "ToNumeric2D tabulates the field on an equidistant grid spanning the plasma, element i+j*nr holding the cylindrical components of the field at node (i,j), valid at every toroidal angle. A grid with a single radius or height holds no finite number.", "quantifier": "every field, every grid size, every node", "why_tests_cant": "all grid sizes and parameters", "anchors": ["src/MagneticField/MagneticFieldAnalytical2D.cpp:ToNumeric2D"]}
{"id": "C80", "title": "Numeric field clone", "statement": "Cloning a numeric field gives a field with the same grid, components, flux, axis, domain and radii. The clone of a field without wall, however, has an empty domain, and asking it whether a path leaves the domain reads outside an array.", "quantifier": "all fields the constructor accepts", "why_tests_cant": "the field without wall is rarely cloned and the failure needs a later query", "anchors": ["src/MagneticField/MagneticFieldNumeric2D.cpp:Clone", "src/MagneticField/MagneticFieldNumeric2D.cpp:Init"]}
{"id": "C81", "title": "LUKE equilibrium loading", "statement": "Loading a LUKE equilibrium gives, at every node of the grid moved to the magnetic axis, the components interpolated at the absolute normalised flux and at the polar angle in [0, 2 pi) of that node; the flux table is scaled, the normalisation uses the original value at the last surface, the separatrix is the last flux surface, and tables of wrong size and malformed walls are rejected.", "quantifier": "all grid sizes, tables, interpolation functions and walls", "why_tests_cant": "all sizes and reals; the normalisation overwrites the array it reads", "anchors": ["src/MagneticField/MagneticFieldLUKE.cpp:Load", "src/MagneticField/MagneticFieldLUKE.cpp:LoadWall"]}
{"id": "C82", "title": "Logarithmic distribution tables", "statement": "Inserting or initialising a radial grid logarithmically stores the logarithms of the data, with zero where the data is not positive, and evaluates to their interpolated exponential; whether the caller's table is overwritten or preserved does not change the object. InitializeLog satisfies this; InsertMomentumSpaceDistributionLog, told to preserve the table, stores the raw data but still exponentiates it.", "quantifier": "all tables, grids and existing objects", "why_tests_cant": "the flag is only used by one loader and every table value matters", "anchors": ["src/DistributionFunction/NumericDistributionFunction.cpp:InitializeLog,InsertMomentumSpaceDistributionLog"]}
{"id": "C83", "title": "A rejected insertion changes nothing", "statement": "When inserting a momentum distribution throws because its grid is invalid, the radial distribution is as it was before. In the code the radius has already been added with a momentum distribution that is zero everywhere, so that values between the radii change, and the object cannot be cloned any more.", "quantifier": "all objects and all rejected tables", "why_tests_cant": "needs the failure followed by further use", "anchors": ["src/DistributionFunction/NumericDistributionFunction.cpp:InsertMomentumSpaceDistribution"]}
{"id": "C84", "title": "CODE distributions as momentum distributions", "statement": "ToMomentumSpace tabulates the Legendre series of a CODE distribution at every momentum of its grid and at a pitch grid that runs from -1 to 1 in increasing order, equidistant in pitch or in pitch angle; a logarithmic table holds the logarithm of the positive part and zero where there is none. Where the interpolation reproduces its data, this is the value of the distribution itself. Cubic tables need four momenta and four pitches; fewer end the program.", "quantifier": "all objects and histories, all grid sizes of at least two", "why_tests_cant": "all grids, modes and histories", "anchors": ["src/DistributionFunction/CODEDistributionFunction.cpp:ToMomentumSpace"]}
{"id": "C85", "title": "CODE and GO+CODE loading", "statement": "Loading refuses files without required variables, two-dimensional grids, tables without one column per momentum and mode, radii out of order and files of another type. A GO+CODE file with an empty grid is read outside the array. Numbers of modes or times that are not integers count without their fraction.", "quantifier": "all files", "why_tests_cant": "every malformed file", "anchors": ["src/DistributionFunction/CODEDistributionFunction.cpp:Load", "src/DistributionFunction/GOCODEDistributionFunction.cpp:Load"]}
{"id": "C86", "title": "SOFT distribution files", "statement": "Loading a SOFT distribution puts the table of each group, with its own momentum and pitch grids, on the radius of that group measured from the symmetry axis, and evaluation at that radius gives that table; reading one radius gives the same table. Files of another type, missing or two-dimensional grids, tables of the wrong size, radii out of order and radius indices outside the file throw; an array without rows (no radii, or an empty table) makes the behaviour undefined. With logarithms, reading one radius refuses negative values, which reading all radii accepts as zero.", "quantifier": "all files, radii and grids", "why_tests_cant": "every file content and size", "anchors": ["src/DistributionFunction/SOFTDistributionFunction.cpp:Load,LoadMomentumSpace,__Load,__LoadRadius"]}
{"id": "C87", "title": "DREAM distribution files", "statement": "The distribution is chosen by name, with or without path; without a name it is the runaway distribution or, failing that, the hot-tail one; the momentum grid follows from the end of the name. Missing variables, other names, tables whose size is not that of the grids and radii out of order throw. An object loaded from any slice but the first cannot be destroyed: the destructor frees a pointer into the middle of the block.", "quantifier": "all files, names and slices", "why_tests_cant": "every file content", "anchors": ["src/DistributionFunction/DREAMDistributionFunction.cpp:__Load,~DREAMDistributionFunction"]}
{"id": "C88", "title": "LUKE distribution files", "statement": "Radii are scaled to the interval from the magnetic axis to the edge and momenta by the thermal momentum. Reading one radius gives its table. Reading all of them drops the first radius, so that evaluation at a radius of the file gives the table of the previous one. Missing or malformed variables throw, but grids without rows that fit an empty table make the behaviour undefined.", "quantifier": "all files and fields", "why_tests_cant": "every file content and size", "anchors": ["src/DistributionFunction/LUKEDistributionFunction.cpp:Load,LoadMomentumSpace,__Load"]}
{"id": "C89", "title": "Old SOFT distribution files", "statement": "A file is accepted iff its table has one of the three documented shapes, each verification vector agrees with the table to double precision, and the momentum unit is known; momenta are converted to units of mc, and all tables are read (with the first radius dropped, as for LUKE files). A table without rows makes the behaviour undefined instead of being refused.", "quantifier": "all files", "why_tests_cant": "every file content", "anchors": ["src/DistributionFunction/deprSOFTDistributionFunction.cpp:__Load,Verify,Load,LoadMomentumSpace"]}
{"id": "C90", "title": "Peaked integration", "statement": "Evaluate returns the trapezoidal sum around a sample point at least as high as the given peak, adding samples on both sides until both are at or below the cut-off; whenever a higher sample is met it starts again from there. It terminates for a positive step, a non-negative cut-off and peak, and a function that exceeds the peak at finitely many grid points only; it scales with positive factors, is invariant under translation and throws exactly for a zero step. It can run forever for a growing function or a negative cut-off, and depends on the function outside the limits.", "quantifier": "all integrands, limits, steps, cut-offs and peaks", "why_tests_cant": "every function and unbounded numbers of steps", "anchors": ["src/Integration/PeakedIntegration.cpp:Evaluate"]}
{"id": "C91", "title": "Floating-point settings of configuration scripts", "statement": "GetScalar returns the longest number at the front of the value: white space is skipped, an optional sign, then decimal or hexadecimal digits with an optional point and exponent, an infinity or not-a-number; the number is converted by its value alone and the text behind it is ignored. It throws when there is no such number, no such value, or the number is out of range. IsScalar and IsNumericVector answer yes exactly when the getters then succeed, and no when a value does not start with a number; for a number that is out of range they throw instead of answering. The number readers agree with the integer readers on integers.", "quantifier": "all value texts, all lists of values, all conversions to floating point", "why_tests_cant": "every text, of any length", "anchors": ["src/Configuration/Script/SettingScript.cpp:GetScalar,GetNumericVector,IsScalar,IsNumericVector"]}
{"id": "C92", "title": "SDT files on disk", "statement": "While one object has an SDT file open for writing and no other object writes it, the file consists of exactly the variables written through that object, in order, whatever else the program does; opened afterwards by an object without variables it gives them back. Reading never changes a file and no call changes another object. Opened for update, new text replaces the beginning of the old text, so that the file may become unreadable. Failures to open are not reported: a missing file reads as one without variables, and writes are lost when the file cannot be opened or the object still has one open. An object used for two files keeps the variables of the first, and after an exception does not read the next file at all.", "quantifier": "all sequences of calls on any number of objects and files, all permissions, all contents", "why_tests_cant": "every history of calls", "anchors": ["src/SFile/SFile_SDT.cpp:Open,Close,WriteNumArray,WriteString,HasVariable", "src/SFile/SFile_SDT.load.cpp:Load"]}
{"id": "C93", "title": "Reading integers from variables of any type", "statement": "GetIntArray, GetIntList and GetInt return the elements of a variable: integers of every stored type unchanged, floating-point numbers rounded toward zero, with the shape of the variable; missing variables and texts throw. In HDF5 and MAT files a matrix is accepted as a list only when it holds integers, unsigned numbers from 2^63 on come out negative, and a matrix without rows, other ranks and floating-point numbers out of range are not read safely. In SDT files one call that reads an array or a number makes the variable unusable, and column vectors are refused as lists.", "quantifier": "all file contents, element types, shapes and names", "why_tests_cant": "every content and type", "anchors": ["src/SFile/SFile.cpp:GetIntArray,GetIntList,GetInt,__Get2DAsType", "src/SFile/SFile_HDF5.cpp:GetDataType", "src/SFile/SFile_SDT.cpp:GetDataType"]}
{"id": "C94", "title": "HDF5 and MAT files on disk", "statement": "What a program writes to an HDF5 or MAT file through one object is read back unchanged by every object that has the file open later, whatever all objects do in between, unless the file is created anew; nothing in a file is changed or removed otherwise, and a file nobody has open for writing stays as it is. Variables and structs can be written exactly under unused names in existing structs. Reading changes nothing; a write that throws changes nothing, except that a MAT file may have stored the data. An Open that throws leaves the object with the file it had before. Close, reads and writes are defined exactly on objects with an open file, and destroying an object is undefined if its Open never succeeded; creating a MAT file is undefined in January.", "quantifier": "all sequences of calls on any number of objects and files, all answers of the HDF5 library, all contents", "why_tests_cant": "every history of calls", "anchors": ["src/SFile/SFile_HDF5.cpp:Open,Close,~SFile_HDF5,CreateStruct,WriteNumArray,WriteNumList,WriteString,GetString", "src/SFile/SFile_MAT.HDF5.cpp:Open,CreateMAT,WriteArray,WriteString", "src/SFile/SFile.cpp:Create"]}
{"id": "C95", "title": "Attributes, texts and MATLAB classes of HDF5 files", "statement": "An attribute can be added exactly to an existing variable that has none of that name; it is read back unchanged, nothing else changes, and missing attributes throw. Texts are read up to the first NUL. Reading a text attribute as a number is undefined, and reading a variable of numbers as text succeeds in HDF5 files and throws in MAT files. In MAT files tables, texts and multi-dimensional tables of doubles carry the class attribute MATLAB needs, for good; lists do not.", "quantifier": "all files, names, values and histories of calls", "why_tests_cant": "every content and history", "anchors": ["src/SFile/SFile_HDF5.cpp:WriteAttribute_scalar,WriteAttribute_string,GetAttributeScalar,GetAttributeString,GetString", "src/SFile/SFile_MAT.HDF5.cpp:WriteMATLAB_class,WriteArray,WriteMultiArray,WriteString"]}
{"id": "C96", "title": "Ownership of the settings of configuration blocks", "statement": "Programs that create, fill, query, copy, merge and delete several configuration block trees see exactly what they would see if every variable held a tree of its own, and never use a freed setting, provided that a block merged into another one with new settings allowed is not used again. A call changes what one variable shows. A merge with new settings makes the two trees share exactly the settings that are new in blocks that were there before: a later change of one tree then appears in the other, and deleting both is undefined. A copy shares nothing. The parent of every block is the block it is in, except in copies, where it is the original's parent.", "quantifier": "all programs over any number of block trees, all trees, paths, names and values", "why_tests_cant": "every history of calls and every object graph", "anchors": ["src/Configuration/ConfigBlock.cpp:ConfigBlock,~ConfigBlock,AddSetting,AddSubBlock,GetSetting,Merge,MergeSetting,GetParent", "src/Configuration/Script/SettingScript.cpp:Copy,OverwriteValues"]}
{"id": "C97", "title": "Positions in messages about configuration scripts", "statement": "A message about a script names the source the reading was started with, a line and a character. The first message is about the first word at which the text stops being the beginning of a valid script (or about the end of the text), and without a message the script is valid or only lacks closing brackets, in which case the exception names the end of the text. Its line should be the line of that word. The line is however one too large for a word without quotes at the end of its line, too small by the newlines inside earlier quotes, and counted in the included file, though the name is that of the including one, for errors in included files. The message about an included file that cannot be opened is placed right after its name.", "quantifier": "every text made of words, quoted texts, punctuation, white space, commas, comments and included files; every set of block types, file system and nesting depth", "why_tests_cant": "the position depends on everything that precedes the error; a test fixes one text", "anchors": ["src/Configuration/Script/Lexer.cpp: Lex, nextc, gettkn, pushbuffer, include_file", "src/Configuration/Script/Interpreter.cpp: Interpret, expect, currline, currcharpos, currfile", "src/Configuration/Script/ConfigurationScript.cpp: FromString"]}
{"id": "C98", "title": "Configuration objects over their lifetime", "statement": "An object opens at most one configuration file, whether or not the script in it can be read; a refused FromFile or registration changes nothing. Its tree is that of the last read that returned, read with the block types registered before; a failed read keeps the tree. The error flag is set once a read has printed a message and then stays set, also after a later read without messages. The file name is the one given to FromFile, except that a missing file inside an included file leaves the name of the latter, so that after FromString has failed in this way FromFile refuses to open any file. FromStdin reads the input, of any length, up to its first NUL, and is undefined the second time. Copies have the same name, types, error flag and tree with all settings untouched, and calls on one object do not change another.", "quantifier": "every sequence of constructions, copies, registrations and reads on any number of objects, and all changes of the files between them", "why_tests_cant": "the state depends on the whole history, including failed reads; a test exercises one history", "anchors": ["src/Configuration/Script/ConfigurationScript.cpp: FromFile, FromStdin, FromString", "src/Configuration/Configuration.cpp: Configuration, RegisterBlockType, SetErrorFlag", "src/Configuration/Script/Lexer.cpp: include_file"]}
{"id": "C99", "title": "Queries of configuration blocks", "statement": "GetAllSubBlocksOfType lists the sub-blocks of that type in order and no others; HasSubBlocks tells whether there are any. Reading a setting with [] returns the first value of the first setting of that name and touches it alone; without one it throws and changes nothing. Two blocks compare as equal exactly if they have the same type and name, whatever they contain.", "quantifier": "every block, type, name and list of settings", "why_tests_cant": "holds for blocks of any size and content; a test checks a few blocks", "anchors": ["src/Configuration/ConfigBlock.cpp: GetAllSubBlocksOfType, HasSubBlocks, operator==, operator[]"]}
{"id": "C100", "title": "Arrays and structures returned by magnetic fields", "statement": "Eval returns the field at the point, in an array that belongs to the object and holds this value until the next Eval of the object, or, for a numeric field, the next EvalDerivatives; likewise for the structures of EvalDerivatives and the flux. Other objects, clones, SetB0, calls that throw and reading the argument do not change it. After the object is deleted the array may not be read. Two results of Eval of the same object cannot both be kept, and copying the structure does not copy the Jacobian.", "quantifier": "every sequence of constructions, clones, evaluations, changes and deletions of any number of analytical and numeric fields, every point", "why_tests_cant": "which value an array holds depends on all calls since it was returned; a test reads it at once", "anchors": ["src/MagneticField/MagneticField2D.cpp: Eval, EvalDerivatives", "src/MagneticField/MagneticFieldAnalytical2D.cpp: Eval, EvalDerivatives, EvalFluxDerivatives, SetB0", "src/MagneticField/MagneticFieldNumeric2D.cpp: Eval, EvalDerivatives, EvalFluxDerivatives, Clone"]}
{"id": "C101", "title": "Ownership of the arrays of numeric fields", "statement": "A program that gives every numeric field arrays of its own, does not release or use them afterwards and uses only fields that were not deleted never touches released memory; every evaluation gives values of the arrays the field was made of, clones are independent, and deleting a field changes no other one. Deleting a field releases exactly the arrays it owns; a second field made of the same arrays makes the second deletion undefined. A field without wall and separatrix is refused; contours that have no points make the constructor read outside its arrays.", "quantifier": "every sequence of allocations, constructions, loads, clones, evaluations, domain queries, releases and deletions", "why_tests_cant": "ownership is a property of whole histories and object graphs", "anchors": ["src/MagneticField/MagneticFieldNumeric2D.cpp: MagneticFieldNumeric2D, ~MagneticFieldNumeric2D, Init, Clone, Load, InitInterpolation", "src/MagneticField/MagneticField2D.cpp: SetDomain, SetSeparatrix, GetDomainBounds"]}
{"id": "C102", "title": "CODE distribution functions over their life", "statement": "An object that loaded a CODE file and its clones share the data. As long as none of them is destroyed with Destroy, each can be evaluated, cloned and turned into a table, and gives values of the file; deleting one changes nothing for the others and gives no data back. Destroying one makes every other use of the others undefined, except deletion and loading again. Tables keep the values of the moment they were made, but cannot be cloned after the data were destroyed. An object whose Load threw because of an unknown interpolation method can be neither evaluated, destroyed nor deleted.", "quantifier": "every sequence of constructions, loads, clones, evaluations, tables, Destroy calls and deletions on any number of objects", "why_tests_cant": "which objects share data depends on the whole history", "anchors": ["src/DistributionFunction/CODEDistributionFunction.cpp: Load, Initialize, InitInterpolation, MinClone, Destroy, ~CODEDistributionFunction, Eval, ToMomentumSpace", "src/DistributionFunction/NumericMomentumSpaceDistributionFunction.cpp: Initialize, MinClone, Eval"]}
{"id": "C103", "title": "Readers and type checks of settings that hold a vector", "statement": "Reading value i of a setting made from a vector gives exactly that value if it is of the sort asked for, and throws otherwise; integer readers give the integer part folded into their range, exactly the number if it fits. Doubles outside the 64-bit range are undefined for all integer readers. The type checks ignore the index: IsInteger32 looks at the first value, IsInteger is true for doubles, IsUnsignedInteger32 also says yes from 2^63 on. After DeleteCurrent no check says yes and every reader throws.", "quantifier": "all element types, vectors, indices and readers", "why_tests_cant": "every value near a type boundary", "anchors": ["src/Configuration/SFile/SettingSFile.cpp", "include/softlib/Configuration/ConfigurationSFile.h"]}
{"id": "C104", "title": "Setting objects as values", "statement": "Programs that make settings of both kinds, copy, overwrite, append to, reset, query and delete them see what they would see if every setting held its own contents, and leak nothing, provided that every vector they make is given to one setting or deleted once. A call changes one setting, and none if it throws. Overwriting a setting that holds a vector takes the first element type the source says yes to, puts as many zeros first as there are values, and so loses fractions, large numbers and all texts but the first. Vectors of doubles or texts cannot be copied. Giving a vector to two settings, or again to the setting that holds it, leads to double deletion or reads of freed memory.", "quantifier": "all programs over the members of the two setting classes", "why_tests_cant": "unboundedly many sequences of calls", "anchors": ["src/Configuration/SFile/SettingSFile.cpp", "src/Configuration/Script/SettingScript.cpp", "src/Configuration/Setting.cpp", "include/softlib/Configuration/ConfigurationSFile.h"]}
{"id": "C105", "title": "Texts of exceptions", "statement": "An exception built from a format and values carries the format with the values filled in: names up to their first NUL, integers in decimal without superfluous zeros. Texts of 1000 characters and more lose their last character, texts of exactly 2^31-1 characters are undefined, and longer ones are replaced by the bare format. Without values the text is kept as it is. Each of the 98 places of the library that throws a text made from values says what it is meant to say, except: three convert a value of the wrong width, matrix indices are shown as signed numbers, three put the file name into the format, and a text with a position is a format even without values.", "quantifier": "all formats and values; all places that throw a text made from values, with all values", "why_tests_cant": "every value that can enter a message", "anchors": ["include/softlib/SOFTLibException.h", "src/General/SOFTLibException.cpp", "include/softlib/ConfigurationException.h", "include/softlib/SFileException.h", "src/Configuration/Script/Interpreter.cpp:ttos"]}
{"id": "C106", "title": "Lines printed by the progress tracker", "statement": "Whatever items are reported and whatever the clock shows, the tracker prints the lines numbered 1, 2, ... in order, each with the time since the beginning, the time since the line before and, if wanted, the expected remaining and total time; nothing else is printed, and reports that are not due do not read the clock. Colours change the look only. If the clock is never set back, no time up to the last line is negative, the times since the beginning do not decrease and the times between lines add up to no more than the time since the beginning on the next line; on the last line nothing remains. Items beyond the total give line numbers beyond the number of lines and negative remaining times, and a negative time loses its whole seconds.", "quantifier": "all totals, numbers of lines, colour and estimate settings, sequences of reported items and sequences of clock readings", "why_tests_cant": "unboundedly many items and clock readings", "anchors": ["src/General/ProgressTracker.cpp:PrintProgress", "src/General/ProgressTracker.cpp:PrintProgressLines", "src/General/ProgressTracker.cpp:PassedTime", "include/softlib/ProgressTracker.h"]}
{"id": "C107", "title": "Numeric magnetic fields in files", "statement": "A numeric magnetic field that has flux and is saved as an HDF5 or MAT file is loaded again exactly as it was (name, description, axis, grid, components, flux, separatrix and wall), whatever the program does in between with other files or reading this one. Saving replaces the whole file, closes it and changes no other file. A field is loaded from every HDF5, MAT or SDT file that holds its variables, whoever wrote it and in whatever order, with rows for heights or for radii; files lacking a required variable, with an axis that is no point or with verification data that do not agree are rejected, and loading never changes a file. Fields without flux cannot be saved, no field can be saved as an SDT file (the file is emptied and an exception thrown), and an optional variable that is a text makes loading fail.", "quantifier": "all field data, grid sizes, file contents and names, states of the program and sequences of calls in between", "why_tests_cant": "unboundedly many file contents, sizes and histories", "anchors": ["src/MagneticField/MagneticFieldNumeric2D.cpp:Load", "src/MagneticField/MagneticFieldNumeric2D.cpp:Save", "src/SFile/SFile.cpp:Create", "src/SFile/SFile.cpp:GetList", "src/SFile/SFile_HDF5.cpp", "src/SFile/SFile_MAT.HDF5.cpp"]}
{"id": "C108", "title": "Times of the integrator with rounding", "statement": "Whatever the equation and however the errors come out, the times the integrator stores never decrease, for every monotone rounding of its arithmetic. With double precision a step that was refused at least once and then accepted ends strictly later than it began, and a step all of whose attempts are refused with shrinking step sizes ends with the exception for step size underflow unless the time is (nearly) zero. Equal times do no harm to the dense output: requested times in order are looked up in intervals of positive length that contain them. The equally spaced times of the dense output, computed in double precision, are in order, start at tmin, end at tmax and do not leave [tmin, tmax]. The underflow of the step size is not noticed when no attempt is refused: with accepted steps that shrink, time stands still and no exception is thrown; and at time zero a step may be tried for ever.", "quantifier": "all equations, error estimates, sequences of attempts and steps, roundings (monotone, or those of binary64), numbers of times and intervals", "why_tests_cant": "floating-point behaviour over unboundedly long histories", "anchors": ["include/softlib/Integrator/RungeKutta.tcc:Step", "include/softlib/Integrator/RungeKutta.tcc:UpdateTimestep", "include/softlib/Integrator/RKDP45.tcc:OutputDense", "include/softlib/Integrator/Integrator.tcc:OutputDense"]}
{"id": "C109", "title": "Sharing of arrays and momentum-space functions", "statement": "In every history of calls, the value of a momentum-space distribution function at a point changes only by calls that name it or that change all functions of a distribution it was inserted into; overwriting or releasing the arrays it was made from does not matter. The same holds for a distribution over radii that is not itself changed. A copy of a distribution has functions of its own, so neither affects the other, and a copy of a function has the same values if the arrays hold what they held. Initialising a new distribution from a block of tables succeeds for radii in order and usable grids, gives every radius its own function interpolating its own table, in order, and changes nothing else; radii out of order throw and leave all functions as they were; using something deleted is undefined. No library call releases memory, and none writes to the caller's arrays except logarithmic insertion and initialisation by default, which replace exactly the numbers of the table. The following fail: a copy is made from the caller's arrays as they are then (undefined once they are released) and is never logarithmic; initialising a function again keeps its logarithmic mark; flipping a distribution flips functions it shares with others; inserting the same table twice takes the logarithm twice; initialising a distribution a second time leaves its new functions uninitialised.", "quantifier": "all histories of creating, overwriting and releasing arrays, creating, initialising, copying, flipping, inserting, deleting and evaluating functions and distributions", "why_tests_cant": "aliasing between objects needs particular histories, and a missing effect cannot be tested for", "anchors": ["src/DistributionFunction/NumericMomentumSpaceDistributionFunction.cpp:Initialize,InitializeLog,MinClone", "src/DistributionFunction/NumericDistributionFunction.cpp:Initialize,InitializeLog,InsertMomentumSpaceDistribution,InsertMomentumSpaceDistributionLog,MinClone", "include/softlib/DistributionFunction/NumericDistributionFunction.h:FlipPitchSign"]}
{"id": "C110", "title": "Numbers in SDT files that are not finite", "statement": "Writing a NaN or an infinity to an SDT file succeeds, in an array, a list, a scalar or a scalar attribute. Afterwards the file cannot be opened for reading: opening throws, whatever was written before and after, so all other variables of the file are lost as well. In particular the round trip of numbers holds for finite ones only.", "quantifier": "all sequences of write calls that contain at least one such number, all positions of the number in its array", "why_tests_cant": "one unusual number among any amount of data at any place must make any file unreadable", "anchors": ["src/SFile/SFile_SDT.cpp:WriteNumArray,WriteAttribute_scalar", "src/SFile/SFile_SDT.load.cpp:Load,LoadMatrix"]}
{"id": "C111", "title": "Colours computed in double precision", "statement": "With the rounding of double precision arithmetic a colormap still gives a colour for every value of moderate size; no component exceeds the largest one of the table, each is within 2^-49 of its interpolated value before the fraction is dropped, and from the second colour of the table on it lies between those of the two neighbours. In the first interval it can fall below both by one: 3/7 of the way between two equal colours of 29 the result is 28. The built-in maps give bytes for all values, and the gray map is gray and never darker for a larger value.", "quantifier": "all doubles, all tables of fewer than 2^31 colours, all limits", "why_tests_cant": "rounding errors show up for isolated values only", "anchors": ["include/softlib/ImageGenerator/ImageColormap.h:Eval", "include/softlib/ImageGenerator/ImageGenerator.h"]}
{"id": "C112", "title": "Distribution functions in files", "statement": "A SOFT, old SOFT or LUKE distribution function written to an HDF5 or MAT file by this library (or stored in any file with the documented variables) is the one that is loaded from it: radii, grids and table values are those of the file for every radius, including the groups r10 and up, the file is left unchanged and closed. SOFT and old SOFT distributions also load from SDT files; LUKE ones never do. A file that cannot be opened is an exception, as is one with another type text, a missing variable, unequal sizes or radii that do not increase. A grid variable of three or more dimensions is undefined behaviour instead.", "quantifier": "all files, all numbers of radii and grid points, all values, both interpolations", "why_tests_cant": "the number of groups and the names and types of the variables in a file are unbounded", "anchors": ["src/DistributionFunction/SOFTDistributionFunction.cpp:Load", "src/DistributionFunction/deprSOFTDistributionFunction.cpp:Load", "src/DistributionFunction/LUKEDistributionFunction.cpp:Load", "src/SFile/SFile.cpp:Create", "src/SFile/SFile_HDF5.cpp:GetDoubles", "src/SFile/SFile_SDT.cpp:GetDoubles"]}
{"id": "C113", "title": "CODE, GO+CODE and DREAM distribution functions in files", "statement": "A CODE distribution function in a file, or in a group of a file whose path may end in a slash or not, has the values of the Legendre series of the chosen time slice; a GO+CODE file with the groups t0/r0, t0/r1, ... gives one CODE distribution for each radius, at the chosen time, and a DREAM file gives the chosen distribution at the chosen time. This holds for files written by this library and for any other with the same variables, the file is not changed, and a file that cannot be opened is an exception. CODE and GO+CODE files may also be SDT files; DREAM files may not, which is an exception. Contrary to the other loaders, those of GO+CODE and DREAM files leave the file open. A grid variable without dimensions or with more than two is undefined behaviour.", "quantifier": "all files, groups, numbers of radii, times and grid points, all values and interpolation methods", "why_tests_cant": "the number of groups and the names, sizes and types of the variables in a file are unbounded", "anchors": ["src/DistributionFunction/CODEDistributionFunction.cpp:Load", "src/DistributionFunction/GOCODEDistributionFunction.cpp:Load", "src/DistributionFunction/DREAMDistributionFunction.cpp:Load", "src/SFile/SFile.cpp:GetScalar", "src/SFile/SFile_HDF5.cpp:GetMultiArray_linear"]}
{"id": "C114", "title": "SDT files not written by softlib", "statement": "An SDT file opens exactly if it is a sequence of definitions with empty lines between them: '@matrix name rows columns' (rows at least one) followed by one line per row that starts with as many decimal numbers as there are columns, or '@string name length' followed by one line of integers. White space around words and numbers, text behind the last number of a line, a sign, a point or an exponent in a number, and carriage returns at the ends of lines that are not empty make no difference, and neither does the newline of the last line. Every variable has the value of its first definition; the length of a string is not used. Contrary to what one expects, a line of white space between two definitions (or the empty lines of a file with carriage returns) makes the file unreadable.", "quantifier": "all texts", "why_tests_cant": "the texts, names, numbers and numbers of definitions are unbounded", "anchors": ["src/SFile/SFile_SDT.load.cpp:Load", "src/SFile/SFile_SDT.load.cpp:LoadMatrix", "src/SFile/SFile_SDT.load.cpp:LoadString", "src/SFile/SFile_SDT.cpp:GetDoubles"]}
{"id": "C115", "title": "The integrator solves the differential equation", "statement": "Let f be Lipschitz with constant L in time and in the components up to a time Tend, and let Y be a solution of y' = f(t, y) with derivatives of at most F. Whatever calls were made on the integrator and whatever steps its step size control chose, if the steps up to Tend are at most H with 50 L H <= 1 and the first point is within delta of Y(0), then every stored point at a time t <= Tend is within (delta + L (5 + 101 F) H t) exp(4 L t) of Y(t), and dense output at a time T is within twice this plus (11 F + 1) H of Y(T). Hence any accuracy is reached by small enough steps. For linear systems y' = A y whose solution stays within B, and L a bound of the row sums of |A|, the error e(t) is of fifth order: (delta + 2 L (L H)^5 B t) exp(4 L t), and dense output at a time T is within 2 e(T) + 2 (L H)^5 B of Y(T). Real arithmetic, without rounding.", "quantifier": "all dimensions, right-hand sides, solutions, initial values, tolerances, step sizes and sequences of calls", "why_tests_cant": "convergence is about all step sizes and all equations, and the number of steps grows without bound as the steps shrink", "anchors": ["include/softlib/Integrator/RKDP45.tcc:InnerStep", "include/softlib/Integrator/RKDP45.tcc:OutputDense", "include/softlib/Integrator/RungeKutta.tcc:Step", "include/softlib/Integrator/Integrator.tcc:InitialValue"]}
{"id": "C116", "title": "The integral of a peaked function is approximated", "statement": "For a function that is not negative, increases up to one peak between the limits a and b and decreases after it (both also a little outside the limits), and changes by at most K per unit length, the integration with the step w > 0 and a cut-off between 0 and 1 ends, from any starting point between the limits, and its value differs from the integral from a to b by at most (K w + cutoff * height) (b - a + 4 w) + 5 w height, where height is the value at the peak. The same holds without a starting point for the limits 0 and 2 pi. Hence any accuracy is reached by small enough steps and cut-offs.", "quantifier": "all functions with one peak, limits, steps, cut-offs and starting points", "why_tests_cant": "the number of samples grows without bound as the step shrinks, and the claim is about all functions", "anchors": ["src/Integration/PeakedIntegration.cpp:Evaluate", "src/Integration/PeakedIntegration.cpp:FindMaximum"]}
{"id": "C117", "title": "Field lines of the analytical field", "statement": "A curve whose velocity is everywhere a multiple of the analytical field keeps its distance from the magnetic axis, and the flux is constant along it. On it the toroidal angle changes q Rm / R times as fast as the poloidal angle, in the direction given by the two orientations, so that in one poloidal turn the field line goes q / sqrt(1 - (r/Rm)^2) times round the torus. That is always more than the value q of the configured profile, and agrees with it only in the limit of a thin torus. There is such a field line through every point at a distance r < Rm from the axis, and the magnetic axis itself is one.", "quantifier": "all analytical fields, profiles, orientations, and all differentiable curves along the field, of any length", "why_tests_cant": "the claim is about all curves along the field and any number of turns", "anchors": ["src/MagneticField/MagneticFieldAnalytical2D.cpp:Eval", "src/MagneticField/MagneticFieldAnalytical2D.cpp:EvalFlux", "src/MagneticField/MagneticFieldAnalytical2D.q.cpp:__GetSafetyFactor"]}
{"id": "C118", "title": "Integrals of distributions over the pitch", "statement": "The Legendre modes of a CODE distribution can be recovered from its values: at every momentum of the grid where the series is not negative, the value times P_l(-xi), integrated over the pitch, is 2/(2l+1) times mode l, and zero for degrees above the number of modes; so the integral of the distribution is twice mode zero. Where the series is negative for some pitch the integral exists and can be larger than that, but never smaller. The integral of the avalanche distribution, times 2 pi p^2, is m c exp(-gamma/gamma0)/gamma0 times 2/(1+exp(-A)), a factor between one and two. The exponential pitch distribution integrates to 2(exp(C)-1)/C and the unit distribution to 2.", "quantifier": "all tables, numbers of modes, interpolation methods, momenta and degrees; all parameters of the analytical distributions", "why_tests_cant": "integrals over a continuum of values, for every table and every degree", "anchors": ["src/DistributionFunction/CODEDistributionFunction.cpp:Eval", "src/DistributionFunction/CODEDistributionFunction.cpp:ComputeLegendrePolynomials", "src/DistributionFunction/AnalyticalAvalanche.cpp:Eval", "src/DistributionFunction/ExponentialPitch.cpp:Eval"]}
{"id": "C119", "title": "Vectors and matrices in double precision", "statement": "In double precision the vector operations stay near the exact ones: sums, differences and multiples round each element once, a quotient by a scalar twice (it multiplies by the rounded reciprocal), and the scalar product, the norm, the cross product and the products of matrices with vectors and matrices are within a bound that grows with the number of terms and is relative to the sum of the absolute values of the terms (plus what underflow loses). Integers are not rounded while the sum of the absolute products is at most 2^53. Without underflow the norm of a normalized vector is one up to an explicit relative error. With underflow the norm of a nonzero vector can be zero, so Normalize can divide by zero.", "quantifier": "all sizes, all vectors and matrices, all roundings with a relative and an absolute error bound, in particular binary64", "why_tests_cant": "the bounds hold for every input and every length", "anchors": ["include/softlib/General/Vector.tcc:Dot", "include/softlib/General/Vector.tcc:Norm", "include/softlib/General/Vector.tcc:Normalize", "include/softlib/General/Vector.tcc:operator/=", "include/softlib/General/Vector.tcc:Cross", "include/softlib/General/Matrix.tcc:operator*"]}
{"id": "C120", "title": "Tables approximate the functions they hold", "statement": "With linear interpolation a numeric momentum distribution is, in every cell of its grid, the bilinear function through the four values at the corners: it is exact at the grid points, never leaves the range of the table, and for a table of a twice differentiable function its error is at most one eighth of the second derivatives times the squared grid distances. Over a radial grid (first radius not zero) the radial error is added. A logarithmic table of positive values has the corresponding relative error; a zero in a logarithmic table makes the distribution vanish in all cells around it, so that neighbouring positive values are lost even at their own grid points. A CODE distribution stays within the errors of its modes of the series of the functions tabulated, a GO+CODE distribution adds the error in the radius, and ToMomentumSpace reproduces it up to the error in the pitch.", "quantifier": "all grids, all tables, all twice differentiable functions, all points", "why_tests_cant": "the bounds hold for every grid and every function", "anchors": ["src/DistributionFunction/NumericMomentumSpaceDistributionFunction.cpp:Eval", "src/DistributionFunction/NumericMomentumSpaceDistributionFunction.cpp:Initialize", "src/DistributionFunction/NumericMomentumSpaceDistributionFunction.cpp:InitializeLog", "src/DistributionFunction/NumericDistributionFunction.cpp:Eval", "src/DistributionFunction/CODEDistributionFunction.cpp:Eval", "src/DistributionFunction/CODEDistributionFunction.cpp:ToMomentumSpace"]}
{"id": "C121", "title": "The integrator in double precision", "statement": "A step of the integrator computed with rounded arithmetic and a right-hand side that is itself only accurate to phi ends near the exact step: the distance is at most a multiple of the step times phi plus the rounding unit times the sizes involved. Along any history of steps between a smallest and a largest size every stored point is near the solution: the error is the sum of the error of the method (of fifth order for linear systems) and of an error of rounding that is inversely proportional to the smallest step, both times the exponential growth of the problem. Smaller steps are not always better: with steps of 2^-60 the integrator advances the time but leaves the solution 1 + t of y' = 1 at its initial value for 2^53 steps.", "quantifier": "all Lipschitz right-hand sides and approximations of them, all roundings of given accuracy, all histories of steps", "why_tests_cant": "the accumulation of rounding errors ranges over all histories", "anchors": ["include/softlib/Integrator/RKDP45.tcc:InnerStep", "include/softlib/RKDP45.h", "include/softlib/Integrator/RungeKutta.tcc:Step", "include/softlib/General/Vector.tcc"]}
{"id": "C122", "title": "The integrator is of fifth order", "statement": "For every system with a Lipschitz right-hand side that has a smooth Jacobian along a smooth solution, a step of size h from the solution misses it by at most a constant times h^6, and the dense output anywhere within the step by at most a constant times h^5; the constant depends on the problem only. Whatever calls were made and whatever steps the step size control chose, every stored point is within order h^5 of the solution, where h is the largest step, and so is the dense output between the points; an error of the start grows at most exponentially. In double precision the error of rounding is added.", "quantifier": "all systems, linear or not, of every dimension with a smooth solution; all sequences of calls, steps, tolerances and query times", "why_tests_cant": "the order is a statement about all step sizes and all right-hand sides", "anchors": ["include/softlib/Integrator/RKDP45.tcc:InnerStep", "include/softlib/Integrator/RKDP45.tcc:OutputDense", "include/softlib/Integrator/RungeKutta.tcc:Step", "include/softlib/Integrator/Integrator.tcc:OutputDense"]}
{"id": "C123", "title": "The memory of integrators", "statement": "Integrators that are not copied do not disturb each other: a program that creates, uses and destroys any number of them in any order behaves as if each were a value of its own. A pointer returned by SolutionAt or LastSolution reads the point of that index as long as the capacity of the integrator has not grown, in particular during the first thousand calls; after it has grown, using the pointer is undefined. A copy of an integrator shares the arrays of the original: what one stores the other one sees, and when one of them grows the other is left with dangling pointers. Destroying an integrator releases none of its memory.", "quantifier": "all programs with any number of integrators and calls; all pointers and indices", "why_tests_cant": "aliasing and lifetimes depend on all interleavings of calls and on more than a thousand points", "anchors": ["include/softlib/Integrator/Integrator.tcc:StoreSolution", "include/softlib/Integrator/Integrator.tcc:SolutionAt", "include/softlib/Integrator/Integrator.tcc:LastSolution", "include/softlib/Integrator/RKDP45.tcc:PrepareDense", "include/softlib/Integrator.h:Integrator"]}
{"id": "C124", "title": "Replacing the equation during an integration", "statement": "SetEquation (or SetDerivative of the equation object) may be called at any time without making anything undefined, and the points stored so far stay. The following steps are Dormand-Prince steps of the new equation, except that the first one starts with the derivative the old equation gave at the last point: for constant right-hand sides 35/384 of the first step still follow the old equation, so that the solution of y' = 0 moves. All later steps belong to the new equation entirely, and after a new InitialValue so do all points.", "quantifier": "all equations, all histories of calls with any number of changes of the equation", "why_tests_cant": "the effect depends on the whole history of steps and changes, for every pair of equations", "anchors": ["include/softlib/Integrator/Integrator.tcc:SetEquation", "include/softlib/Integrator/GeneralEquation.tcc:SetDerivative", "include/softlib/Integrator/RungeKutta.tcc:Step", "include/softlib/Integrator/RungeKutta.tcc:InitialValue", "include/softlib/Integrator/RKDP45.tcc:InnerStep"]}
{"id": "C125", "title": "Copies of numeric fields made by the compiler", "statement": "A numeric field copied as a value (g(f), passing by value) shares all arrays and result buffers with the original, and so do copies of copies. While they exist all of them give the same values and the same answers about the domain. Once one of them is deleted, whatever happened in between, every use of the others is undefined: evaluating, asking about the domain, cloning and deleting; so no defined program destroys two of them. Programs that use Clone only behave as in C101.", "quantifier": "all histories of making, copying, cloning, using and deleting fields and arrays, with any number of copies of copies", "why_tests_cant": "the undefined use may be arbitrarily far from the copy and from the deletion, and typically goes unnoticed when run", "anchors": ["src/MagneticField/MagneticFieldNumeric2D.cpp:MagneticFieldNumeric2D::~MagneticFieldNumeric2D", "src/MagneticField/MagneticFieldNumeric2D.cpp:BaseInit", "include/softlib/MagneticField/MagneticFieldNumeric2D.h:MagneticFieldNumeric2D"]}
