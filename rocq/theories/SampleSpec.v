(** What resize, blur and unsharpen are about, in real numbers *)
From Coq Require Import ZArith Reals.
From Flocq Require Import Core IEEE754.BinarySingleNaN.
From Verif Require Import Base Float ColorF Color GenImage Thumb ThumbSpec Sample.
Local Open Scope Z_scope.

(** where the centre of output column (row) [out] of [ns] lies in a source of [size] columns (rows); source column i covers i .. i + 1 *)
Definition position (size ns out : Z) : R := ((IZR out + / 2) * (IZR size / IZR ns))%R.
(** the stretch of a filter: more than 1 when the image is made smaller *)
Definition stretch (size ns : Z) : R := Rmax 1 (IZR size / IZR ns).
(** source column i is within [s] stretched units, and 2 columns more, of output column [out] *)
Definition close_to (s : R) (size ns out i : Z) : Prop := (Rabs (IZR i + / 2 - position size ns out) <= s * stretch size ns + 2)%R.
(** what is asked of the platform's expf: on non-positive arguments a value in [0, 1] within 2^-20 of the exponential *)
Definition exp_accurate (lm : libm) : Prop :=
  forall x, is_finite x = true -> (B2R x <= 0)%R -> is_finite (exp32 lm x) = true /\ (0 <= B2R (exp32 lm x) <= 1)%R /\ (Rabs (B2R (exp32 lm x) - exp (B2R x)) <= / 1048576)%R.
(** f a + f (a + 1) + ... + f (a + n - 1), and the mean of v with weights w over the same indices *)
Definition sumr (f : Z -> R) (a n : Z) : R := fold_right Rplus 0%R (map f (zrange a n)).
Definition mean (w v : Z -> R) (a n : Z) : R := (sumr (fun i => v i * w i)%R a n / sumr w a n)%R.
(** the linear interpolation kernel, 1 at the centre c, 0 at a distance of s: the weight of source column i *)
Definition tent (c s : R) (i : Z) : R := Rmax 0 (1 - Rabs (IZR i + / 2 - c) / s).
(** linear interpolation (when enlarging) or averaging (when reducing): the mean of channel i of all source pixels, each weighted by its column's and its row's tent *)
Definition tent_mean (t : sty) (im : img (list Z)) (i : nat) (cx sx cy sy : R) : R :=
  mean (tent cx sx) (fun x' => mean (tent cy sy) (fun y' => IZR (chan_at t im i (x', y'))) 0 (ih im)) 0 (iw im).
