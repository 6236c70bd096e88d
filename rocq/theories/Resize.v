(** Model of src/math/utils.rs (resize_dimensions) and of the DynamicImage methods that choose sizes with it:
    resize, thumbnail and resize_to_fill (src/dynimage.rs:744-821).  f64 is Flocq's binary64.
    The resampling itself (imageops::resize / imageops::thumbnail) is the parameter [scale]. *)
From Coq Require Import ZArith Bool.
From Flocq Require Import IEEE754.BinarySingleNaN.
From Verif Require Import Base Float GenImage.
Local Open Scope Z_scope.

(** f64::max, f64::min: the other operand when one is NaN (core) *)
Definition f64_max (a b : f64) : f64 := if is_nan a then b else if is_nan b then a else if Bltb a b then b else a.
Definition f64_min (a b : f64) : f64 := if is_nan a then b else if is_nan b then a else if Bltb b a then b else a.

(** (f64::from(m) * ratio).round() as an unsigned integer with maximum mx, at least 1: utils.rs:28-29, 33, 36 *)
Definition scaled (mx m : Z) (ratio : f64) : Z := Z.max (f64_as 0 mx (f64_round (f64_mul (f64_of_Z m) ratio))) 1.
(** resize_dimensions: utils.rs:12-40 *)
Definition resize_dimensions (width height nwidth nheight : Z) (fill : bool) : Z * Z :=
  let wratio := f64_div (f64_of_Z nwidth) (f64_of_Z width) in
  let hratio := f64_div (f64_of_Z nheight) (f64_of_Z height) in
  let ratio := if fill then f64_max wratio hratio else f64_min wratio hratio in
  let nw := scaled u64_max width ratio in
  let nh := scaled u64_max height ratio in
  if nw >? u32_max then (u32_max, scaled u32_max height (f64_div (f64_of_Z u32_max) (f64_of_Z width)))
  else if nh >? u32_max then (scaled u32_max width (f64_div (f64_of_Z u32_max) (f64_of_Z height)), u32_max)
  else (nw, nh).

Section Dyn.
Context {P : Type} (scale : img P -> Z -> Z -> res (img P)).
(** DynamicImage::resize: dynimage.rs:749-758 *)
Definition dyn_resize (im : img P) (nwidth nheight : Z) : res (img P) :=
  if (nwidth =? iw im) && (nheight =? ih im) then Ok im
  else let '(w2, h2) := resize_dimensions (iw im) (ih im) nwidth nheight false in scale im w2 h2.
(** DynamicImage::thumbnail: dynimage.rs:781-785 *)
Definition dyn_thumbnail (im : img P) (nwidth nheight : Z) : res (img P) :=
  let '(w2, h2) := resize_dimensions (iw im) (ih im) nwidth nheight false in scale im w2 h2.
(** u32 subtraction: panics on underflow with debug assertions, wraps otherwise *)
Definition u32_sub_m (m : mode) (a b : Z) : res Z := if b <=? a then Ok (a - b) else match m with Debug => Panic | Release => Ok (wrap_u32 (a - b)) end.
(** DynamicImage::resize_to_fill: dynimage.rs:805-822; crop is imageops::crop(..).to_image() (dynimage.rs:422-424);
    [zero] is the pixel of a new image *)
Definition resize_to_fill (m : mode) (zero : P) (im : img P) (nwidth nheight : Z) : res (img P) :=
  let '(w2, h2) := resize_dimensions (iw im) (ih im) nwidth nheight true in
  inter <- scale im w2 h2 ;;
  let ratio := iw inter * nheight in
  let nratio := nwidth * ih inter in
  if nratio >? ratio then
    d <- u32_sub_m m (ih inter) nheight ;; to_image m zero inter (crop inter 0 (d / 2) nwidth nheight)
  else
    d <- u32_sub_m m (iw inter) nwidth ;; to_image m zero inter (crop inter (d / 2) 0 nwidth nheight).
End Dyn.
