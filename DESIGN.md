# Formal model of softlib: design

## Approach

The C++ code of softlib is modelled function by function as total Gallina
functions in `rocq/theories/`.  For every area there are

* `<Area>Model.v`  – the model; every definition cites file and lines in /repo;
* `<Area>Spec.v`   – (where useful) a small specification that does not mention the model;
* `<Area>Proofs.v` – lemmas;
* `<Area>Props.v`  – only the property theorems (`exact lemma`), each followed by
  `Print Assumptions` and a non-vacuity `Example`.

Conventions

* Undefined behaviour (out-of-range access, use after free, division by zero on
  integers, endless loop) is a separate outcome, never a default value.
  `outcome A := Ok a | Throw | UB` (`Base.v`).
* C++ exceptions are `Throw`.
* Loops are structural recursion or recursion on fuel; running out of fuel is a
  distinct outcome that theorems exclude or characterise.
* Strings are lists of bytes (`ascii`).
* `slibreal_t`/`double` arithmetic is modelled by exact arithmetic over the real numbers `R`
  (over `Q` or `Z` where only those occur), so the quantifiers cover every finite double
  input but rounding and overflow are not modelled.  Infinities and NaN are modelled where
  the code tests for or can produce them (`option R`, `xreal`); exceptions to this are
  listed below under "not modelled".
* Where the code violates the property a user would expect, the model keeps the
  defect, a `..._refuted` theorem exhibits it, and the positive theorem is stated
  under exactly the condition that makes the code right.

## Plan per property

| id | modelled | proof |
|----|----------|-------|
| C01 | lexer, interpreter, block tree (ConfigModel) | induction over trees: parse (print t) = t |
| C02 | lexer | induction over token layouts |
| C03 | `nextc` | exact characterisation of the comment loop; refutation witnesses |
| C04 | `nextc`, `Lex` | fuel bound by induction |
| C05, C69 | interpreter | grammar relation <-> interpreter run; skipping of stray tokens |
| C06 | `advanceTo` with out-of-range outcome | refutation + positive condition |
| C07, C70 | ConfigBlock operations, copy | invariant over operation lists, induction over trees |
| C08 | touched flags | invariant over histories; refutation for redefinition |
| C09 | Merge | induction over trees |
| C10 | block type registry | invariant over registration lists |
| C11 | StringToBool, IsBool | decision rule |
| C12 | stoi/stol/stoul/stod written out in Gallina | parse/print lemmas |
| C13 | SettingSFile vector getters | list lemma, refutation |
| C14 | include_file over a finite file map | induction over include depth |
| C15-C17, C23, C66 | SDT writer and loader on byte lists, number formatting | round trip by induction |
| C18 | SDT reader with an explicit set of freed blocks | refutation + safe histories |
| C19-C22 | SFile helpers | case analysis, induction |
| C24, C67, C68 | HDF5/MAT glue over an abstract dataset store (HDF5 itself is external: assumed to return what was written) | round trip |
| C25 | pointer table construction | induction over rank |
| C26, C27, C71 | ProgressTracker counters and estimates; threads as interleaved steps | closed form by induction over reports; invariant over every interleaving, witness for the duplicate label |
| C28-C30 | time arithmetic over Z, timer state machine | div/mod arithmetic, invariants |
| C31, C32, C72 | Vector/Matrix over R | ring identities, induction on dimension |
| C33 | snprintf on character lists | list lemma |
| C34-C36, C73, C74 | integrator storage, step control | invariants over step histories |
| C37-C38 | Dormand-Prince tableau and dense output | field identities |
| C39-C40, C75 | OutputDense | induction over request list |
| C41-C42, C76 | colormap, PPM and PNG writers | arithmetic, list indexing |
| C43-C46, C77 | MagneticField2D geometry over R | induction over polygons, refutations |
| C47-C48, C80, C81 | numeric field glue and LUKE equilibria (interpolation is external: an oracle) | rotation algebra, derivatives, index arithmetic |
| C49-C51, C78, C79 | analytical field over R | derivatives (Coquelicot's `is_derive`), field |
| C52-C57, C82, C83 | numeric distribution functions (GSL interpolation is an oracle) | binary-search invariant, list induction |
| C58, C59, C63, C84, C85 | Legendre recurrence, CODE cache, GO+CODE | induction on degree, cache invariant over call histories |
| C60, C86-C89 | time slices; loaders of SOFT, DREAM, LUKE and old SOFT files | case analysis, list induction |
| C61, C62, C64 | closed-form profiles, distributions and their products | real analysis |
| C91 | strtod written out in Gallina over exact rationals; conversion to double is a parameter | soundness, completeness and maximality of the reader with respect to a grammar |
| C92 | files and objects of a program as a state machine over SDT calls; std::fstream's open/error state; permissions are a parameter | invariants over call histories, refutations |
| C93 | type dispatch of the integer readers over the HDF5 store and the SDT reader; conversions inside HDF5 are a parameter | case analysis, list induction |
| C94 | files and objects as a state machine over the HDF5/MAT calls (pointer never set, null, open); answers of the HDF5 library and the time are parameters; groups, data sets and attributes of a file | invariants over call histories, refutations |
| C95 | attributes and texts in the same model; bytes of numbers read as text are a parameter | invariants, case analysis, refutations |
| C96 | programs over block trees whose settings are heap objects (OwnModel); freed objects and dangling use are undefined | simulation by programs over values (ConfigModel), separation invariant; refutations by programs |
| C97 | lexer and interpreter with line and column counters, tokens with positions, the log of messages (PosModel) | erasure to ConfigModel; relation between layouts and positions; the reader as an automaton whose states are the viable prefixes |
| C98 | programs over configuration objects, files and the standard input (ConfObjModel), on top of the reader with positions | induction over histories |
| C99 | queries of blocks (ConfObjModel) | induction over the lists of the block |
| C100 | magnetic fields as objects with storage that evaluations write to and return the address of (BufModel) | invariants over histories |
| C101 | arrays of numeric fields: allocation, sharing, release (FieldOwnModel) | ownership invariant over histories |
| C102 | arrays of CODE distribution functions, clones and tables (CodeLifeModel) | invariant about the objects that have the data of one Load |
| C103 | readers and checks over vectors of the seven element types (SetObjModel) | case analysis on the type; folding modulo 2^bits |
| C104 | heap of vectors, setting objects of both kinds, programs (SetObjModel) | refinement to settings as plain values; invariant: every live vector has exactly one owner |
| C105 | printf over typed values, the constructors of the exception classes, one constructor per throwing place (ErrModel) | induction over formats as lists of slots; every place is an instance |
| C106 | the printed lines with an arbitrary sequence of clock readings, one thread (ProgModel) | invariant over reports: which reading each timer holds; texts by case analysis on durations |
| C107 | Save and Load of the numeric field call by call on the files of HdfModel and SessionModel (FieldFileModel) | refinement: a file that holds the variables loads like the abstract file of C48; the writes of Save by induction; frame over histories from C94 |
| C108 | times and step sizes with a rounding after every operation, the error estimates being inputs (RoundModel); binary64 from Flocq's generic formats, without overflow | invariant over attempts for monotone roundings; spacing and relative error of binary64 from Flocq; simulation of the real-number model by RoundModel |
| C109 | memory blocks, momentum-space functions with their pointers and flags, distributions holding pointers; programs of calls (DistShareModel) | frame lemmas per call and induction over programs; soundness invariant of reachable worlds; counterexample programs on constant tables for every interpolation that is right for those |
| C110 | text output of NaN and infinities by the SDT writer (SdtModel) | every element is read in full or refused, induction over the elements and rows up to the one that is not finite, then over the calls before it |
| C111 | `ImageColormap::Eval` with a rounding after every operation and overflow to infinity (ImageRoundModel), binary64 from Flocq | error bounds from Flocq for position and components; both products and their sum as multiples of powers of two for the bound by the neighbours; evaluation of one rounded case for the refutation |
| C112 | the loaders of LoaderModel on top of the readers of HdfModel and SdtModel, in the order in which the variables are read (DistFileModel) | each read equals the variable described by a view of the file (DistFileSpec); views of files written by the library from C91/C92; then C86, C88 and C89 |
| C113 | the loaders of CodeModel and the DREAM loader of LoaderModel on top of the file readers, in the order in which the variables are read (CodeFileModel) | each read equals the variable described by a view of the file (CodeFileSpec, DistFileSpec); then C58, C60, C85 and C87 |
| C114 | the loader of SdtModel on arbitrary texts | the language of SDT files as inductive relations (SdtTextSpec); both inclusions, by induction on the definitions and on the number of lines |
| C115 | IntegratorModel | a step is Lipschitz in its start and within O(h^2) of the solution (mean value theorem; for linear systems O(h^6), Taylor expansion of the solution against the stability polynomial, and O(h^5) for the interpolant, whose weights agree with the expansion to degree four); the errors add up along the history by induction, 1 + x <= exp x |
| C116 | PeakModel | the integral is given by an antiderivative; the sum on either side of the peak against it, cell by cell (mean value theorem); the candidates for the peak stay within one step of the limits, by induction on the rounds |
| C117 | AnalyticalModel | curves along the field in any parametrisation; the squared distance from the axis has derivative zero; the toroidal angle plus a multiple of an antiderivative of 1/(Rm + r cos theta) is constant; explicit field lines |
| C118 | CodeModel, ProfileModel | Riemann integrals (Coquelicot); norm of the Legendre polynomials by induction (orthogonal to the derivatives of lower degree), orthogonality (C58), linearity over the modes; antiderivatives of the exponentials |
| C119 | AlgebraRoundModel | standard model of rounding (relative error u, absolute error eta), instances for binary64 from Flocq; induction over the length for sums of products, perturbation of the square root; exactness for integers; witness 2^-600 for the underflow of the norm |
| C120 | ApproxModel (the linear and bilinear interpolation of the GSL, as documented) with DistributionModel and CodeModel | the bisection finds the cell (invariant); error of a chord from the mean value theorem applied twice; convex combinations for the second and third dimension; arithmetic with infinities for logarithmic tables; witness for the lost values |
| C121 | RoundStepModel (the arithmetic of a step and of the time with a rounding after each operation) | forward error analysis of the stages by induction over the terms of a sum; the error of a history by induction over the steps, with the error of an exact step from C115; at the identity rounding the model is the model of C38; witness with half-way arguments of Flocq |
| C122 | IntegratorModel | Taylor expansion of the solution and of the Jacobian along it; the stages are expanded in h with remainders of stated order (a calculus of sums and products of such terms), the coefficients of the powers of h up to five vanish by the order conditions of the tableau, checked by computation with its rational coefficients; then as C115 and C121 along the history |
| C123 | IntegratorHeapModel (objects as pointers into a heap, with realloc, memberwise copy and destruction) | refinement to independent values by a separation invariant (all pointers live and distinct), induction over the program; addresses are never reused, so a freed one stays freed; counting of the allocated blocks; witnesses computed, and by induction over a thousand steps |
| C124 | IntegratorModel, with SetEquation among the calls (EquationSpec) | invariant of the storage that says nothing about where the points come from; induction over the calls; each step related to the derivative that is stored, not to the one the equation would give; witness y' = 1 replaced by y' = 0 |
| C125 | FieldCopyModel: FieldOwnModel with result buffers and memberwise copies | invariants over all calls (buffers of deleted fields are gone, no two deleted fields shared them; original and copy are the same object until deleted; their arrays are released once one of them is deleted); refinement to C101 for programs without copies |
| C65, C90 | golden-section search and peaked integration | interval invariants; well-founded measure for termination |

## Trusted base

* The kernel of Coq 8.16.1 (and `coqc`'s parser/elaborator for reading the statements).
* Libraries: the standard library and, in some proofs, Coquelicot and (C108, C111) Flocq, which add no axioms;
  for C108 and C111 Flocq's definition of rounding to a format is part of the statement.
* Axioms: none of our own.  `Print Assumptions` follows every property theorem;
  `ASSUMPTIONS.md` lists its output theorem by theorem.  Theorems about configuration files,
  SFile/SDT, time, progress and images are "Closed under the global context".  Theorems that
  mention real numbers use (subsets of) the axioms of the standard library's reals,
  `ClassicalDedekindReals.sig_forall_dec` and `ClassicalDedekindReals.sig_not_dec`, and
  `FunctionalExtensionality.functional_extensionality_dep`; those that use library lemmas on
  limits, integrals or decidability also `Classical_Prop.classic`.
* The correspondence between the C++ code and the Gallina definitions, made by reading; each
  definition cites the lines it models.
* Section variables that stand for external code (GSL interpolation, HDF5, user functions,
  the clock, `gsl_sf_bessel_J0`) are universally quantified in the theorems, with the
  hypotheses visible in the statement.

## What is modelled

| source | model |
|--------|-------|
| src/Configuration/Script/*, ConfigBlock.cpp, Configuration.cpp | ConfigModel |
| src/Configuration/Script/Lexer.cpp, Interpreter.cpp (positions and messages) | PosModel |
| src/Configuration/Script/ConfigurationScript.cpp, Configuration.cpp (objects), queries of ConfigBlock.cpp | ConfObjModel |
| src/Configuration/ConfigBlock.cpp (objects, ownership, parents) | OwnModel |
| src/Configuration/Setting.cpp, Script/SettingScript, SFile/SettingSFile | SettingsModel |
| src/Configuration/Script/SettingScript.cpp, floating-point readers | ScalarModel |
| the two setting classes as objects | SetObjModel |
| exception classes and all texts of exceptions made from values | ErrModel |
| lines of the progress tracker | ProgModel |
| numeric magnetic fields in files on disk | FieldFileModel |
| times and step sizes of the integrator with rounding | RoundModel |
| colormaps with rounding | ImageRoundModel |
| distribution functions read from files | DistFileModel, CodeFileModel |
| arrays and momentum-space functions shared by numeric distributions | DistShareModel |
| src/SFile/SFile.cpp, SFile_HDF5.cpp, SFile_MAT.*.cpp (glue) | SFileModel, TypedModel, HdfModel (not SFile_MAT.Matlab.cpp, which declares GetDoubles twice and uses undeclared names, so that it does not compile; the class of a struct in MAT files) |
| src/SFile/SFile_SDT.cpp, SFile_SDT.load.cpp | SdtModel |
| the same, files on disk and several objects | SessionModel |
| src/SFile/SFile.cpp:175-297 (integer readers) | TypedModel |
| src/General/ProgressTracker.cpp, Timer.cpp, SOFTLibException.cpp | TimeModel |
| include/softlib/Vector.h, Matrix.h, src/General/Vector.cpp | AlgebraModel, AlgebraRoundModel |
| include/softlib/Integrator.h, RungeKutta.h, RKDP45.h | IntegratorModel |
| src/ImageGenerator/* | ImageModel |
| src/MagneticField/MagneticField2D.cpp | DomainModel |
| src/MagneticField/MagneticFieldAnalytical2D.cpp, .q.cpp | AnalyticalModel |
| src/MagneticField/MagneticFieldNumeric2D.cpp, MagneticFieldLUKE.cpp | NumericModel |
| the same, storage of results | BufModel |
| src/MagneticField/MagneticFieldNumeric2D.cpp (arrays) | FieldOwnModel; copies made by the compiler: FieldCopyModel |
| src/DistributionFunction/Numeric*.cpp | DistributionModel |
| src/DistributionFunction/CODE*.cpp, GOCODE*.cpp | CodeModel, CodeLifeModel (arrays and objects) |
| src/DistributionFunction/SOFT*, DREAM*, LUKE*, deprSOFT* | LoaderModel |
| remaining files of src/DistributionFunction | ProfileModel |
| src/Integration/PeakedIntegration.cpp | PeakModel |

## What is not modelled

* Rounding, overflow and underflow of floating-point arithmetic, except the rounding of the
  integrator's times (C108) and of colours (C111).  Sizes and counters are exact
  where the code's integer type can hold them; wrap-around is modelled where a theorem needs
  it (image sizes, SDT headers, DREAM time index, `unsigned` conversions).
* The interpolation of the GSL, the HDF5, Matlab and PNG libraries and the C++ standard library
  containers: they are oracles or are taken to behave as documented (C120 models the linear and
  bilinear interpolation of the GSL as documented).
* Memory that is leaked (for example the Jacobian array of the analytical field, LUKE tables,
  row pointers).  Ownership is modelled only where a property is about it (SDT reads, DREAM
  destruction, integrator storage, configuration blocks, magnetic fields, CODE distribution
  functions, numeric distribution functions).
* Copies made by `operator=` for matrices, `Matrix += Matrix`, `Matrix + Matrix` and
  `Vector * Matrix`: these templates would not compile if they were instantiated.
* The `Integrator(y0)` constructor, which calls `InitialValue` with an uninitialised pointer.
* Default arguments that are null pointers and are dereferenced (`mf` of DREAM files).
* The text printed by error messages, except `SOFTLibException` (C33, C105) and the
  progress messages (C26-C29, C71, C106).
* The form of `delete`: the SOFT loader releases one array with `delete` where `delete[]` is
  required (SOFTDistributionFunction.cpp:230).  The loop of `InitializeLog` that reads numbers
  of a new array before they are set (NumericDistributionFunction.cpp:200-201); they are
  overwritten before use.
* Build configuration (`config.h.in`, CMake files) and platform dependent code paths of
  `SFile_MAT.Matlab.cpp`.

## Disagreements between code and expectation

Every item is a theorem `..._refuted` (or an exact theorem of the property named).

* **C01** – a quoted `;`, `{`, `}` or `=` is read as punctuation; an empty pair of quotes is not a value.
* **C03** – a comment at the very end of a file is not ignored.
* **C06** – error recovery runs past the end of the token list for an empty file and after a trailing name.
* **C08** – a setting defined twice is not reported as unused after one of the two was read.
* **C12** – `IsUnsignedInteger32` accepts values up to 2^64-1 and negative texts.
* **C13** – vector getters of SFile settings return twice as many values, the first half zero; overwriting doubles as well.
* **C14** – a file that includes itself is read forever; an open string leaks into the including file.
* **C18** – reading an SDT variable as a list or number frees it; the next read uses freed memory.
* **C19** – column vectors in SDT files are refused and matrices accepted as lists.
* **C22** – attribute names of different datasets can collide.
* **C23** – SDT headers with zero rows or 2^64 elements make the loader write outside its arrays.
* **C25** – multi-dimensional pointer tables are undefined below rank two or for empty dimensions.
* **C27** – two threads can print the same progress label.
* **C29** – elapsed times of a day or more are misprinted.
* **C30** – stopping twice or continuing twice gives wrong totals.
* **C31, C32, C72** – cross products into an operand, scalar operands that are elements, matrix-scalar products (which add), scalar minus matrix, unary minus.
* **C33** – messages of 1000 characters or more lose the last one.
* **C34, C39, C75** – using the integrator before initialisation or dense output before a step reads uninitialised storage; unsorted requests use a wrong interval.
* **C41, C42, C76** – colour limits other than zero below, images beyond 2^32 pixels, and images without a colormap.
* **C43-C46, C77** – stale domain bounds and radii, parallel segments, the closing edge of a contour and horizontal edges; the built-in analytical domain triggers an out-of-range access.
* **C47, C48, C80** – numeric fields outside the grid and on the axis; vanishing fields; square or short tables; fields without flux or wall.
* **C49, C50, C79** – the analytical field does not belong to its flux; its strength and gradient; tables with one row.
* **C52-C56, C82, C83** – decreasing grids, insertion below the first radius, extrapolation, the dropped first radius, clones of logarithmic or non-extrapolating distributions, logarithmic insertion with allocation, rejected insertions.
* **C57, C84** – momentum or pitch grids with too few points or not strictly increasing make GSL's error handler end the program; only a last point below the first gives an exception.
* **C58, C59, C63** – CODE with one mode, momenta that do not increase (the program ends), stale Legendre polynomials, GO+CODE below the grid.
* **C60, C87** – DREAM time index equal to the number of slices; destroying a DREAM distribution other than slice 0.
* **C86, C88, C89** – the first row of each array is used before it is known to have one, so that a SOFT or old SOFT file with an empty table, a SOFT file without radii and a LUKE file with empty grids give undefined behaviour; SOFTDistributionFunction.cpp:230 frees the row pointers of every table with delete instead of delete[] (undefined by the C++ standard, not modelled).
* **C61, C62** – power profiles with exponents that are not positive; Connor-Hastie growth; documented exponential pitch distribution.
* **C65, C90** – golden-section search returns the middle of the wrong part; peaked integration may not end and samples outside its limits.
* **C66-C69** – six digits in SDT files, wrong month in MAT headers, integer arrays in MAT files, missing semicolons.
* **C91** – `IsScalar` and `IsNumericVector` throw for numbers that are out of range, and accept text behind the number.
* **C92** – failures to open an SDT file are not reported; update mode overwrites from the beginning; objects used twice keep old variables or do not read the second file.
* **C93** – integer readers: unsigned numbers from 2^63 on, matrices without rows or of other ranks, matrices as lists depending on the stored type, SDT variables unusable after one read.
* **C94** – an HDF5/MAT object whose Open failed cannot be destroyed (pointer never set); Close twice dereferences null; a MAT write of an integer multi-array stores the data and throws; creating a MAT file in January reads outside an array.
* **C95** – reading a text attribute as a number writes past or into part of a double; numbers are read as text from HDF5 files; lists in MAT files have no MATLAB class.
* **C96** – Merge with new settings puts the same setting object into both trees, so that later changes appear in both and deleting both is a double free; blocks of a copy have the original's parent.
* **C97** – the line in a message is one too large for a bare word at the end of its line, ignores newlines inside quotes, and for errors in included files is combined with the name of the including file.
* **C98** – after FromString fails on a missing file inside an included file, FromFile claims that a file has already been opened; the error flag stays set after an error-free read; a second FromStdin writes through a null pointer.
* **C99** – operator== of blocks ignores their contents (as its comment says).
* **C100** – two results of Eval of the same object share one array; EvalDerivatives of a numeric field overwrites the array of Eval; a copy of the structure shares the Jacobian.
* **C101** – arrays given to a numeric field are released by it; two fields of the same arrays cannot both be deleted.
* **C102** – Destroy releases data that clones and tables still use; the destructor releases no data; after an unknown interpolation method the object cannot even be deleted.
* **C103** – type checks with an index look at the first value; 18446744073709551615 passes IsInteger32 and IsUnsignedInteger32; GetUnsignedInteger64 of a double from 2^63 on is undefined although IsUnsignedInteger64 says yes.
* **C104** – OverwriteValues doubles the number of values, turns doubles into 32-bit integers and all texts into the first; its branch for SettingSFile sources (typeid of the pointer) is dead; Copy throws for doubles and texts and drops the name.
* **C105** – SFile_SDT.load.cpp:75 prints 64-bit indices with %u; LUKEDistributionFunction.cpp:167 and SOFTDistributionFunction.cpp:233 print unsigned int with %llu; Matrix.tcc prints unsigned indices with %d; MagneticFieldNumeric2D.cpp:543-557 uses the file name as format; the position constructor of ConfigurationException formats texts that have no values; with no radii the radial-index message names 4294967295.
* **C106** – items beyond the total print (k/total) with k > total and negative remaining times; negative times are shown without their whole seconds; the first line may show more time since the line before than since the beginning, because the clock is read once for each.
* **C107** – Save passes a null pointer if there is no flux; Save to .sdt/.out empties the file and throws; Load catches SFileException only, so that an optional variable of text type makes it fail with an exception of the HDF5 library.
* **C108** – the step size is compared with the spacing of doubles only after a refused attempt, so accepted steps that shrink let time stand still without an exception; at time 0 the comparison is with 0 and a step size that is multiplied by more than 1/2 never becomes 0.
* **C109** – MinClone builds the copy from the caller's arrays as they are at that time (dangling once they are released) and does not copy the logarithmic mark; Initialize after InitializeLog keeps the mark; FlipPitchSign of a distribution flips momentum-space functions shared with another one; InsertMomentumSpaceDistributionLog overwrites the table by default, so inserting it twice takes the logarithm twice; a second Initialize initialises the old momentum-space functions and leaves the new ones uninitialised.
* **C110** – the SDT writer writes nan and inf, which the SDT loader refuses; the whole file cannot be opened any more.
* **C111** – interpolating between two equal colours of the first interval can give a component that is one too small, because the fraction is dropped after rounding errors.
* **C112** – a radius or grid variable with three or more dimensions (or none) writes outside a two-element array while being read; LUKE distributions cannot be loaded from SDT files at all.
* **C113** – the loaders of GO+CODE and DREAM files never close the file; a variable without dimensions or with more than two writes outside a two-element array.
* **C101** – contours without points (null excepted) are not refused; the constructor reads outside them.
* **C125** – numeric fields have a destructor that releases their memory but no copy constructor: a field copied by value and its original cannot both be destroyed, and neither can be used once the other is gone.
* **C124** – the first step after SetEquation uses the derivative the previous equation gave at the last point (there is no re-evaluation), so it solves neither equation; InitialValue has to be called as well.
* **C123** – integrators have no copy constructor and no destructor: a copy shares the arrays of the original, which dangle when either grows, and all arrays leak; returned pointers dangle once the capacity grows.
* **C121** – the step size is not compared with the spacing of the numbers: once a step is too small the solution no longer changes although the time advances, and no error is reported.
* **C120** – a zero in a logarithmic table makes the interpolation infinite or not a number in every cell around it; at grid points with a smaller momentum or pitch next to the zero the positive value of the table is evaluated as zero.
* **C119** – the norm of a nonzero vector can underflow to zero; Normalize then divides by zero.
* **C118** – where the Legendre series of a CODE distribution is negative for some pitch, the density (the integral over pitch) of the evaluated distribution exceeds the one of its zeroth mode.
* **C117** – the safety factor given to the analytical field is not the number of toroidal turns per poloidal turn of its field lines; that number is larger by the factor 1/sqrt(1-(r/Rm)^2).
* **C114** – a line of white space between definitions, such as an empty line ended by carriage return and newline, makes an SDT file unreadable.
* **C71** – time estimates with a first message other than the first.

## Wrong programs

`seeded/LOG.jsonl` has one line per edit of the model that imitates a bug: the definition, the
edit, the claim it breaks, the theorems that stopped proving and those that were tightened
because of it.
