(** Model of the image generators and colormaps.
    Sources: include/softlib/ImageGenerator/ImageColormap.h, ImageGenerator.h and
    src/ImageGenerator/ImageGenerator.cpp, ImageGeneratorPPM.cpp, ImageGeneratorPNG.cpp.
    Values are exact rationals; the rounding in the interpolation of a colour is the subject of
    ImageRoundModel. *)
From Coq Require Import QArith Qround.
From Verif Require Import Base SdtModel.
Local Open Scope Z_scope.

(** ImageColormap.h:9-11. *)
Record color : Type := Color { red : Z; green : Z; blue : Z }.
(** ImageColormap.h:14-16; [ncolors] is the length of the table. *)
Record colormap : Type := Colormap { cm_colors : list color; cm_min : Q; cm_max : Q }.

(** [unsigned int] arithmetic, and the conversion of an unsigned int to int
    (ImageGeneratorPPM.cpp:36-39). *)
Definition u32 (z : Z) : Z := z mod 2 ^ 32.
(** ImageGeneratorPPM.cpp:36-39. *)
Definition to_int (z : Z) : Z := if z <? 2 ^ 31 then z else z - 2 ^ 32.

(** [colors[i]]; outside of the array the behaviour is undefined (ImageColormap.h:43-56). *)
Definition color_at (t : list color) (i : Z) : outcome color :=
  if i <? 0 then UB else match nth_error t (Z.to_nat i) with Some c => Ok c | None => UB end.

(** Conversion of a double to int: undefined when the truncated value does not fit
    (ImageColormap.h:39). *)
Definition double_to_int (q : Z) : outcome Z :=
  if ((- 2 ^ 31 <=? q) && (q <? 2 ^ 31))%bool then Ok q else UB.

(** ImageColormap.h:54-56, one colour component. *)
Definition mix (f : Q) (a b : Z) : Z := Qfloor ((1 - f) * inject_Z a + f * inject_Z b).

(** ImageColormap.h:34-60 [Eval].  [None]: the value is NaN or infinite.  If [vmax] is zero
    then [i] is NaN or infinite, and converting it to int is undefined. *)
Definition eval (m : colormap) (v : option Q) : outcome color :=
  match v with
  | None => UB
  | Some v =>
      if Qeq_bool (cm_max m) 0 then UB else
      let ncolors := u32 (Z.of_nat (length (cm_colors m))) in
      let i := ((v - cm_min m) / cm_max m * inject_Z (u32 (ncolors - 1)))%Q in
      obind (double_to_int (Qfloor i)) (fun l =>
      if to_int ncolors - 1 <=? l then color_at (cm_colors m) (u32 (ncolors - 1))
      else if l <? 0 then color_at (cm_colors m) 0
      else let f := (i - inject_Z l)%Q in
           obind (color_at (cm_colors m) l) (fun a =>
           obind (color_at (cm_colors m) (l + 1)) (fun b =>
           Ok (Color (mix f (red a) (red b)) (mix f (green a) (green b)) (mix f (blue a) (blue b))))))
  end.

(** ImageGenerator.h:12-19 and 35-42: the built-in maps. *)
Definition gerimap : colormap :=
  Colormap [Color 0 0 0; Color 38 38 128; Color 76 38 191; Color 153 51 128; Color 255 64 38;
            Color 230 128 0; Color 230 191 26; Color 230 230 128; Color 255 255 255] 0 1.
Definition gray : colormap := Colormap [Color 0 0 0; Color 255 255 255] 0 1.

(** The pixel array given by the caller: [None] beyond its end
    (ImageGeneratorPPM.cpp:16, 39; ImageGeneratorPNG.cpp:11, 23). *)
Definition pixels : Type := Z -> option (option Q).
(** ImageGeneratorPPM.cpp:39, ImageGeneratorPNG.cpp:23. *)
Definition pixel_at (img : pixels) (i : Z) : outcome (option Q) :=
  match img i with Some v => Ok v | None => UB end.
(** [cmap->Eval(img[k])]; a null colormap is dereferenced
    (ImageGeneratorPPM.cpp:39, ImageGeneratorPNG.cpp:23). *)
Definition shade (cm : option colormap) (img : pixels) (k : Z) : outcome color :=
  match cm with
  | None => UB
  | Some m => obind (pixel_at img k) (fun v => eval m v)
  end.

(** * PPM *)
(** A number followed by a blank (ImageGeneratorPPM.cpp:41). *)
Definition show_color (c : color) : str :=
  show_int (red c) ++ [cSP] ++ show_int (green c) ++ [cSP] ++ show_int (blue c) ++ [cSP].
(** ImageGeneratorPPM.cpp:37-42: [n] pixels of line [i], starting with [j]. *)
Fixpoint ppm_line (cm : option colormap) (img : pixels) (ncols i : Z) (n : nat) (j : Z) : outcome str :=
  match n with
  | O => Ok []
  | S n' =>
      obind (shade cm img (u32 (u32 (j * ncols) + i))) (fun c =>
      obind (ppm_line cm img ncols i n' (j + 1)) (fun r => Ok (show_color c ++ r)))
  end.
(** ImageGeneratorPPM.cpp:36-45. *)
Fixpoint ppm_lines (cm : option colormap) (img : pixels) (nrows ncols : Z) (n : nat) (i : Z) : outcome str :=
  match n with
  | O => Ok []
  | S n' =>
      obind (ppm_line cm img ncols i (Z.to_nat nrows) 0) (fun l =>
      obind (ppm_lines cm img nrows ncols n' (i + 1)) (fun r => Ok (l ++ [cNL] ++ r)))
  end.
(** ImageGeneratorPPM.cpp:26-31. *)
Definition ppm_header (nrows ncols : Z) : str :=
  str_of "P3" ++ [cNL] ++ show_int nrows ++ [cSP] ++ show_int ncols ++ [cNL] ++ str_of "255" ++ [cNL].
(** ImageGeneratorPPM.cpp:15-48 [SaveImage]: the text that is written.  Errors of the stream
    (a file that cannot be created) are not reported by the code: then nothing is written. *)
Definition save_ppm (nrows ncols : Z) (img : pixels) (cm : option colormap) : outcome str :=
  obind (ppm_lines cm img nrows ncols (Z.to_nat ncols) 0) (fun r => Ok (ppm_header nrows ncols ++ r)).

(** * PNG *)
(** A stored pixel has 8-bit components (ImageGeneratorPNG.h:11-13). *)
Definition byte_color (c : color) : color := Color (red c mod 256) (green c mod 256) (blue c mod 256).
(** The array [pixels] of ImageGeneratorPNG.cpp:17, [size] elements long. *)
Record bitmap : Type := Bitmap { bm_size : Z; bm_cell : Z -> option color }.
Definition bm_write (b : bitmap) (k : Z) (c : color) : outcome bitmap :=
  if ((0 <=? k) && (k <? bm_size b))%bool
  then Ok (Bitmap (bm_size b) (fun x => if x =? k then Some c else bm_cell b x)) else UB.
Definition bm_read (b : bitmap) (k : Z) : outcome color :=
  if ((0 <=? k) && (k <? bm_size b))%bool
  then match bm_cell b k with Some c => Ok c | None => UB end else UB.
(** ImageGeneratorPNG.cpp:22-28: inner loop; indices are 64-bit here. *)
Fixpoint png_line (cm : option colormap) (img : pixels) (ncols i : Z) (n : nat) (j index : Z) (b : bitmap) : outcome bitmap :=
  match n with
  | O => Ok b
  | S n' =>
      obind (shade cm img (j * ncols + i)) (fun c =>
      obind (bm_write b index (byte_color c)) (fun b' => png_line cm img ncols i n' (j + 1) (index + 1) b'))
  end.
(** ImageGeneratorPNG.cpp:21-29. *)
Fixpoint png_lines (cm : option colormap) (img : pixels) (nrows ncols : Z) (n : nat) (i index : Z) (b : bitmap) : outcome bitmap :=
  match n with
  | O => Ok b
  | S n' => obind (png_line cm img ncols i (Z.to_nat nrows) 0 index b) (fun b' =>
            png_lines cm img nrows ncols n' (i + 1) (index + nrows) b')
  end.
(** ImageGeneratorPNG.cpp:66-72: the pixels of one row, starting with [x]. *)
Fixpoint png_row (b : bitmap) (width y : Z) (n : nat) (x : Z) : outcome (list color) :=
  match n with
  | O => Ok []
  | S n' => obind (bm_read b (y * width + x)) (fun c => obind (png_row b width y n' (x + 1)) (fun r => Ok (c :: r)))
  end.
(** ImageGeneratorPNG.cpp:62-73. *)
Fixpoint png_rows (b : bitmap) (width : Z) (n : nat) (y : Z) : outcome (list (list color)) :=
  match n with
  | O => Ok []
  | S n' => obind (png_row b width y (Z.to_nat width) 0) (fun r =>
            obind (png_rows b width n' (y + 1)) (fun rs => Ok (r :: rs)))
  end.
(** ImageGeneratorPNG.cpp:42-55: [png_set_IHDR] accepts widths and heights from 1 up to the
    limit of the library (1000000 unless it was built differently); for others it jumps back to
    [setjmp] and an exception is thrown. *)
Definition png_limit : Z := 1000000.
Definition png_accepts (width height : Z) : bool :=
  ((1 <=? width) && (width <=? png_limit) && (1 <=? height) && (height <=? png_limit))%bool.
(** ImageGeneratorPNG.cpp:10-86 [SaveImage]: width, height and rows handed to libpng, which is
    otherwise not modelled.  [can_create]: the file could be created and libpng initialised. *)
Definition save_png (can_create : bool) (nrows ncols : Z) (img : pixels) (cm : option colormap)
  : outcome (Z * Z * list (list color)) :=
  obind (png_lines cm img nrows ncols (Z.to_nat ncols) 0 0 (Bitmap (u32 (nrows * ncols)) (fun _ => None))) (fun b =>
  if can_create then
    if png_accepts nrows ncols then obind (png_rows b nrows (Z.to_nat ncols) 0) (fun rows => Ok (nrows, ncols, rows)) else Throw
  else Throw).

(** * The common interface *)
(** ImageGenerator.h:23-30; [Z] is the value of the enumerator that the caller passes. *)
Definition COLORMAP_GERIMAP : Z := 0. Definition COLORMAP_GRAY : Z := 1.
Definition IMAGE_TYPE_PNG : Z := 0. Definition IMAGE_TYPE_PPM : Z := 1.
Inductive image : Type := PngImage (width height : Z) (rows : list (list color)) | PpmText (text : str).
(** ImageGenerator.h:44-58. *)
Definition select_colormap (c : Z) : outcome colormap :=
  if c =? COLORMAP_GERIMAP then Ok gerimap else if c =? COLORMAP_GRAY then Ok gray else Throw.
(** ImageGenerator.cpp:47-62 with the virtual call of [SaveImage]; [has_png]: HAS_LIBPNG. *)
Definition gen_with (has_png can_create : bool) (type nrows ncols : Z) (img : pixels) (cm : outcome (option colormap))
  : outcome image :=
  if ((type =? IMAGE_TYPE_PNG) && has_png)%bool then
    obind cm (fun cm => obind (save_png can_create nrows ncols img cm) (fun r =>
    Ok (PngImage (fst (fst r)) (snd (fst r)) (snd r))))
  else if type =? IMAGE_TYPE_PPM then
    obind cm (fun cm => obind (save_ppm nrows ncols img cm) (fun t => Ok (PpmText t)))
  else Throw.
(** ImageGenerator.cpp:25-32 and 33-40. *)
Definition gen_type (has_png can_create : bool) (type nrows ncols : Z) (img : pixels) (c : Z) : outcome image :=
  gen_with has_png can_create type nrows ncols img (obind (select_colormap c) (fun m => Ok (Some m))).
Definition gen_map (has_png can_create : bool) (type nrows ncols : Z) (img : pixels) (cm : option colormap) : outcome image :=
  gen_with has_png can_create type nrows ncols img (Ok cm).
