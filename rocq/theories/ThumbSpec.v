(** What a thumbnail's pixels are, in terms of the source pixels and the window of source columns and rows of each output pixel *)
From Coq Require Import ZArith Reals.
From Flocq Require Import Core IEEE754.BinarySingleNaN.
From Verif Require Import Base Color Thumb.
Local Open Scope Z_scope.

Definition zsum (l : list Z) : Z := fold_right Z.add 0 l.
(** channel i of the source pixel at c: the missing channels count as the maximum *)
Definition chan_at (t : sty) (im : img (list Z)) (i : nat) (c : Z * Z) : Z :=
  match pixel im (fst c) (snd c) with Some p => nth i p (smax t) | None => 0 end.
(** an image whose pixels are pixels *)
Definition img_ok (t : sty) (k : kind) (im : img (list Z)) : Prop := wf im /\ Forall (is_pixel t k) (px im).
Definition inside (im : img (list Z)) (c : Z * Z) : Prop := 0 <= fst c < iw im /\ 0 <= snd c < ih im.

(** the source pixels of a rectangle, row by row *)
Definition rect (l r b t : Z) : list (Z * Z) := flat_map (fun y => map (fun x => (x, y)) (zrange l (r - l))) (zrange b (t - b)).
(** the sum of channel i over a rectangle *)
Definition total (t : sty) (im : img (list Z)) (i : nat) (l r b u : Z) : Z := zsum (map (chan_at t im i) (rect l r b u)).
(** [z] is V rounded down, where V is within 1/4 of T *)
Definition floor_near (z : Z) (T : R) : Prop := (T - / 4 < IZR z + 1)%R /\ (IZR z <= T + / 4)%R.
(** what one channel of an output pixel is *)
Inductive chan_res (t : sty) (im : img (list Z)) (i : nat) (wx wy : window) (z : Z) : Prop :=
| CBlock : low wx < high wx -> low wy < high wy -> let n := (high wx - low wx) * (high wy - low wy) in z = (total t im i (low wx) (high wx) (low wy) (high wy) + n / 2) / n -> chan_res t im i wx wy z
| CHor : low wx = high wx -> low wy < high wy -> let f := B2R (mid (lowf wx) (highf wx)) in let n := high wy - low wy in (0 <= f <= 1)%R ->
    floor_near z ((1 - f) * (IZR (total t im i (low wx - 1) (low wx) (low wy) (high wy)) / IZR n) + f * (IZR (total t im i (low wx) (low wx + 1) (low wy) (high wy)) / IZR n)) -> chan_res t im i wx wy z
| CVer : low wx < high wx -> low wy = high wy -> let f := B2R (mid (highf wy) (lowf wy)) in let n := high wx - low wx in (0 <= f <= 1)%R ->
    floor_near z ((1 - f) * (IZR (total t im i (low wx) (high wx) (low wy - 1) (low wy)) / IZR n) + f * (IZR (total t im i (low wx) (high wx) (low wy) (low wy + 1)) / IZR n)) -> chan_res t im i wx wy z
| CBoth : low wx = high wx -> low wy = high wy -> let h := B2R (mid (lowf wx) (highf wx)) in let v := B2R (mid (highf wy) (lowf wy)) in (0 <= h <= 1)%R -> (0 <= v <= 1)%R ->
    let c x y := IZR (chan_at t im i (low wx - x, low wy - y)) in floor_near z (((1 - v) * h) * c 0 1 + (v * h) * c 0 0 + ((1 - v) * (1 - h)) * c 1 1 + (v * (1 - h)) * c 1 0) -> chan_res t im i wx wy z.

(** the fractional part *)
Definition frac (r : R) : R := (r - IZR (Zfloor r))%R.
(** the columns (or rows) an output pixel is made from: those of its window, or the two around an empty window *)
Definition src_lo (w : window) : Z := if low w =? high w then low w - 1 else low w.
Definition src_hi (w : window) : Z := if low w =? high w then low w + 1 else high w.
