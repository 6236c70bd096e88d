(** Model of imageops::filter3x3 (src/imageops/sample.rs) and DynamicImage::filter3x3 for images with u8 or u16 samples; f32 is Flocq's binary32 *)
From Coq Require Import ZArith Bool.
From Flocq Require Import IEEE754.BinarySingleNaN.
From Verif Require Import Base Color Float ColorF GenImage Resize Thumb Sample.
Local Open Scope Z_scope.

(** taps: sample.rs:857-867 *)
Definition taps3 : list (Z * Z) := [(-1, -1); (0, -1); (1, -1); (-1, 0); (0, 0); (1, 0); (-1, 1); (0, 1); (1, 1)].
(** sum: sample.rs:877-880 *)
Definition kernel_sum (kern : list f32) : f32 := let s := fsum kern in if f32_eq s f32_zero then f32_one else s.
(** NumCast::from(clamp(t, 0.0, max)).unwrap(): sample.rs:915-920 *)
Definition cut (t : sty) (x : f32) : res Z := cast (smax t) (fclamp x f32_zero (f32_of_Z (smax t))).
(** one output pixel: sample.rs:885-921.  x as isize + a back to u32 is x + a: x >= 1 *)
Definition filter_pixel (t : sty) (im : img (list Z)) (kern : list f32) (x y : Z) : res (list Z) :=
  s <- foldM (fun s '(k, (a, b)) => p <- get_pixel im (x + a) (y + b) ;; Ok (acc4 s (floats4 t p) k)) (combine kern taps3) zero4 ;;
  map_res (fun v => cut t (f32_div v (kernel_sum kern))) s.
(** filter3x3: sample.rs:850-928.  height - 1 is evaluated once, width - 1 in every row *)
Definition filter3x3 (m : mode) (t : sty) (k : kind) (im : img (list Z)) (kern : list f32) : res (img (list Z)) :=
  h1 <- u32_sub_m m (ih im) 1 ;;
  foldM (fun o y => w1 <- u32_sub_m m (iw im) 1 ;;
    foldM (fun o x => c <- filter_pixel t im kern x y ;; put_pixel o x y (from_channels k c)) (zrange 1 (w1 - 1)) o)
    (zrange 1 (h1 - 1)) (new_img (iw im) (ih im) (repeat 0 (Z.to_nat (nch k)))).
(** DynamicImage::filter3x3: dynimage.rs:855-859 *)
Definition dyn_filter3x3 (m : mode) (t : sty) (k : kind) (im : img (list Z)) (kern : list f32) : res (img (list Z)) :=
  if negb (zlen kern =? 9) then Panic else filter3x3 m t k im kern.
