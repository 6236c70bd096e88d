(** Model of vertical_gradient and horizontal_gradient (src/imageops/mod.rs:282-332) with Lerp (src/traits.rs:131-157) for u8 and u16 samples.
    f32 is Flocq's binary32; a pixel is the list of its samples. *)
From Coq Require Import ZArith Bool.
From Flocq Require Import IEEE754.BinarySingleNaN.
From Verif Require Import Base Color Float ColorF.
Local Open Scope Z_scope.

(** Lerp::lerp: traits.rs:134-148 *)
Definition lerp (t : sty) (a b : Z) (ratio : f32) : res Z :=
  let fa := f32_of_Z a in
  let fb := f32_of_Z b in
  let r := f32_add fa (f32_mul (f32_sub fb fa) ratio) in
  if f32_lt (f32_of_Z (smax t)) r then Ok (smax t) else if f32_lt r f32_zero then Ok 0 else cast (smax t) r.
(** start.map2(stop, ..) at step i of n: mod.rs:289-293 and 322-326; map2, apply2: color.rs:362-372 *)
Definition grad_pixel (t : sty) (start stop : list Z) (i n : Z) : res (list Z) :=
  map_res (fun '(a, b) => lerp t a b (f32_div (f32_of_Z i) (f32_of_Z (n - 1)))) (combine start stop).
(** vertical_gradient: mod.rs:282-299 *)
Definition vertical_gradient (t : sty) (im : img (list Z)) (start stop : list Z) : res (img (list Z)) :=
  foldM (fun o y => p <- grad_pixel t start stop y (ih im) ;; foldM (fun o x => put_pixel o x y p) (zrange 0 (iw im)) o) (zrange 0 (ih im)) im.
(** horizontal_gradient: mod.rs:315-332 *)
Definition horizontal_gradient (t : sty) (im : img (list Z)) (start stop : list Z) : res (img (list Z)) :=
  foldM (fun o x => p <- grad_pixel t start stop x (iw im) ;; foldM (fun o y => put_pixel o x y p) (zrange 0 (ih im)) o) (zrange 0 (iw im)) im.
