(** What a box blur with clamped borders is *)
From Coq Require Import ZArith Reals.
From Verif Require Import Base ThumbSpec.
Local Open Scope Z_scope.

(** channel c of the pixel at (x, y) of an image of width w with n samples to a pixel, stored row by row *)
Definition sample (n w : Z) (s : list Z) (c x y : Z) : Z := nth (Z.to_nat (n * (y * w + x) + c)) s 0.
(** the 2 r + 1 offsets of a box *)
Definition offsets (r : Z) : list Z := zrange (- r) (2 * r + 1).
(** the mean over 2 r + 1 pixels of a row (of a column), rounded down; pixels outside the image repeat the border *)
Definition hbox (w r : Z) (f : Z -> Z -> Z) (x y : Z) : Z := zsum (map (fun d => f (clampz 0 (w - 1) (x + d)) y) (offsets r)) / (2 * r + 1).
Definition vbox (h r : Z) (f : Z -> Z -> Z) (x y : Z) : Z := zsum (map (fun d => f x (clampz 0 (h - 1) (y + d))) (offsets r)) / (2 * r + 1).
(** for each radius in turn, along the rows and then along the columns *)
Definition boxes (w h : Z) (rs : list Z) (f : Z -> Z -> Z) : Z -> Z -> Z := fold_left (fun g r => vbox h r (hbox w r g)) rs f.

(** the same without the rounding *)
Definition rsum (l : list R) : R := fold_right Rplus 0%R l.
Definition hmean (w r : Z) (f : Z -> Z -> R) (x y : Z) : R := (rsum (map (fun d => f (clampz 0 (w - 1) (x + d)) y) (offsets r)) / IZR (2 * r + 1))%R.
Definition vmean (h r : Z) (f : Z -> Z -> R) (x y : Z) : R := (rsum (map (fun d => f x (clampz 0 (h - 1) (y + d))) (offsets r)) / IZR (2 * r + 1))%R.
Definition means (w h : Z) (rs : list Z) (f : Z -> Z -> R) : Z -> Z -> R := fold_left (fun g r => vmean h r (hmean w r g)) rs f.
(** the variance of a box of width b, times 12 *)
Definition variance12 (b : Z) : Z := b * b - 1.
(** the box widths for a standard deviation s: three consecutive odd choices k or k + 2 whose variances add up to s^2, within 0.18 (k + 1) *)
Definition gauss_widths (s : R) (ws : list Z) : Prop := exists k m : Z, Z.odd k = true /\ 1 <= k /\ (IZR k <= 2 * Rabs s + 1.01)%R /\ 0 <= m <= 3 /\
  ws = repeat k (Z.to_nat m) ++ repeat (k + 2) (Z.to_nat (3 - m)) /\ (Rabs (IZR (zsum (map variance12 ws)) / 12 - s * s) <= 0.18 * IZR (k + 1))%R.
