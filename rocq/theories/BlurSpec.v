(** What blur and unsharpen are about, in real numbers *)
From Coq Require Import ZArith Reals.
From Flocq Require Import Core IEEE754.BinarySingleNaN.
From Verif Require Import Base Float ColorF Color GenImage Thumb ThumbSpec Sample SampleSpec.
Local Open Scope Z_scope.

(** the standard deviation blur works with for an argument [sigma]: that of a positive number, 1 for the others *)
Definition deviation (sigma : f32) (s : R) : Prop :=
  is_finite sigma = true /\ (0 < B2R sigma)%R /\ s = B2R sigma \/ is_finite sigma = true /\ (B2R sigma <= 0)%R /\ s = 1%R \/ sigma = B754_infinity true /\ s = 1%R.
(** the bell curve of deviation s around x *)
Definition bell (s : R) (x i : Z) : R := exp (- (IZR (i - x) * IZR (i - x)) / (2 * (s * s))).
(** a .. a + n - 1 are the columns (rows) of a source of [size] that are within 2 s of column (row) x, give or take 3/4 *)
Definition window (s : R) (size x a n : Z) : Prop := 0 <= a /\ a <= x < a + n /\ a + n <= size /\
  (forall j, a <= j < a + n -> (Rabs (IZR (j - x)) <= 2 * s + 3 / 4)%R) /\ (forall j, 0 <= j < size -> (Rabs (IZR (j - x)) <= 2 * s - 3 / 4)%R -> a <= j < a + n).
(** the mean of channel i over a window, weighted by the bell of its column and of its row *)
Definition bell_mean (t : sty) (im : img (list Z)) (i : nat) (s : R) (x ax nx y ay ny : Z) : R :=
  mean (bell s x) (fun x' => mean (bell s y) (fun y' => IZR (chan_at t im i (x', y'))) ay ny) ax nx.
