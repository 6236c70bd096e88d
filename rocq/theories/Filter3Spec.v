(** What a 3x3 filter is, in real numbers *)
From Coq Require Import ZArith Reals.
From Flocq Require Import Core IEEE754.BinarySingleNaN.
From Verif Require Import Base Float Color Thumb ThumbSpec.
Local Open Scope Z_scope.

(** f 0 + ... + f 8 *)
Definition sum9 (f : nat -> R) : R := (f 0%nat + f 1%nat + f 2%nat + f 3%nat + f 4%nat + f 5%nat + f 6%nat + f 7%nat + f 8%nat)%R.
(** channel i of the pixel that entry j of the kernel stands for when the filter is at (x, y): the kernel is given row by row *)
Definition neighbour (t : sty) (im : img (list Z)) (i : nat) (x y : Z) (j : nat) : Z :=
  chan_at t im i (x - 1 + Z.of_nat j mod 3, y - 1 + Z.of_nat j / 3).
(** the filtered value before the division by the sum of the kernel, and the same with absolute values *)
Definition conv (k : nat -> R) (t : sty) (im : img (list Z)) (i : nat) (x y : Z) : R := sum9 (fun j => k j * IZR (neighbour t im i x y j))%R.
Definition conv_abs (k : nat -> R) (t : sty) (im : img (list Z)) (i : nat) (x y : Z) : R := sum9 (fun j => Rabs (k j) * IZR (neighbour t im i x y j))%R.
(** [v] limited to lo .. hi *)
Definition limited (lo hi v : R) : R := Rmin hi (Rmax lo v).
(** not on the rim of the image *)
Definition interior (im : img (list Z)) (x y : Z) : Prop := 1 <= x < iw im - 1 /\ 1 <= y < ih im - 1.
(** what the filtered value is divided by: the sum of the kernel as f32 computes it, or 1 if that is 0 *)
Definition divisor_of (k : nat -> R) (D : R) : Prop :=
  let s := sum9 k in let e := (10 / 16777216 * sum9 (fun j => Rabs (k j)))%R in (D <> 0 /\ ((Rabs (D - s) <= e) \/ (D = 1 /\ Rabs s <= e)))%R.
(** the same sum over the integers *)
Definition zsum9 (f : nat -> Z) : Z := f 0%nat + f 1%nat + f 2%nat + f 3%nat + f 4%nat + f 5%nat + f 6%nat + f 7%nat + f 8%nat.
