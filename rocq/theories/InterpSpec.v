(** What point sampling is about, in real numbers *)
From Coq Require Import ZArith Reals.
From Flocq Require Import Core IEEE754.BinarySingleNaN.
From Verif Require Import Base Color Float Thumb ThumbSpec.
Local Open Scope Z_scope.

(** a float that is a number between lo and hi; infinities and NaN are not *)
Definition within (lo hi : R) (x : f32) : Prop := is_finite x = true /\ (lo <= B2R x <= hi)%R.
(** bilinear interpolation of channel i at the real point (x, y), pixel centres at the integers; beyond the last column (row) the last one is repeated *)
Definition bilinear (t : sty) (im : img (list Z)) (i : nat) (x y : R) : R :=
  let u := Zfloor x in let v := Zfloor y in let u1 := Z.min (u + 1) (iw im - 1) in let v1 := Z.min (v + 1) (ih im - 1) in
  let fx := (x - IZR u)%R in let fy := (y - IZR v)%R in let c a b := IZR (chan_at t im i (a, b)) in
  ((1 - fx) * (1 - fy) * c u v + (1 - fx) * fy * c u v1 + fx * (1 - fy) * c u1 v + fx * fy * c u1 v1)%R.
(** where coordinate u in [0, 1] lies in w columns, pixel centres at the integers, kept within the first and the last *)
Definition column_at (w : Z) (u : R) : R := Rmax 0 (Rmin (IZR w - 1) (IZR w * u - / 2)).
