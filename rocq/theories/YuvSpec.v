(** What an AVIF picture looks like: ITU-T H.273, in real numbers, without reference to the converter. *)
From Coq Require Import ZArith Reals List.
From Verif Require Import Base Yuv.
Import ListNotations.
Local Open Scope Z_scope.

(** the luma weights of red and blue for a value of MatrixCoefficients (H.273, table 4) *)
Definition h273 (c : coefficients) : option (R * R) :=
  match c with
  | MCBT709 => Some (0.2126, 0.0722)%R
  | MCUnspecified => Some (0.2126, 0.0722)%R       (* the reader's choice *)
  | MCBT470M => Some (0.30, 0.11)%R
  | MCBT470BG => Some (0.299, 0.114)%R
  | MCST170M => Some (0.299, 0.114)%R
  | MCST240M => Some (0.212, 0.087)%R
  | MCBT2020NCL => Some (0.2627, 0.0593)%R
  | _ => None
  end.
(** what the converter uses instead *)
Definition used (c : coefficients) : option (R * R) :=
  match c with
  | MCBT470M => Some (0.2220, 0.0713)%R
  | MCST170M | MCST240M => Some (0.087, 0.212)%R
  | _ => h273 c
  end.

(** how much light a sample stands for: luma in 0..2^d - 1 and chroma around 0, from the sample's code *)
Definition white (d : Z) : R := IZR (2 ^ d - 1).
Definition luma (d : Z) (r : yuv_range) (y : Z) : R :=
  match r with
  | Pc => IZR y
  | Tv => ((IZR y - 16 * IZR (2 ^ (d - 8))) * white d / (219 * IZR (2 ^ (d - 8))))%R
  end.
Definition chroma (d : Z) (r : yuv_range) (c : Z) : R :=
  match r with
  | Pc => (IZR c - IZR (2 ^ (d - 1)))%R
  | Tv => ((IZR c - IZR (2 ^ (d - 1))) * white d / (224 * IZR (2 ^ (d - 8))))%R
  end.
(** red, green and blue: the solution of  Y = kr R + kg G + kb B,  Cb = (B - Y) / (2 (1 - kb)),  Cr = (R - Y) / (2 (1 - kr)) *)
Definition red (kr kb Y Cb Cr : R) : R := (Y + 2 * (1 - kr) * Cr)%R.
Definition blue (kr kb Y Cb Cr : R) : R := (Y + 2 * (1 - kb) * Cb)%R.
Definition green (kr kb Y Cb Cr : R) : R := (Y - (2 * (1 - kr) * kr * Cr + 2 * (1 - kb) * kb * Cb) / (1 - kr - kb))%R.
Definition limit (d : Z) (x : R) : R := Rmax 0 (Rmin (white d) x).
(** how far a computed sample may be: half a step for rounding, and the error of coefficients kept to 1/2048 *)
Definition tol (d : Z) : R := (1 / 2 + IZR (2 ^ d) / 1024)%R.
Definition close (d v : Z) (x : R) : Prop := (Rabs (IZR v - limit d x) <= tol d)%R.

(** planes: the sample at column x of row y, for 8 bits one byte, otherwise two *)
Definition sample (big : bool) (d : Z) (p : plane) (x y : Z) : Z :=
  if d =? 8 then nth (Z.to_nat (y * stride p + x)) (data p) 0
  else let i := Z.to_nat (y * stride p + 2 * x) in
       let a := nth i (data p) 0 in let b := nth (i + 1) (data p) 0 in
       if big then 256 * a + b else a + 256 * b.
(** the picture's colours at (x, y): chroma samples are shared by 2 columns (4:2:2, 4:2:0) and 2 rows (4:2:0) *)
Definition cx (l : layout) (x : Z) : Z := match l with I420 | I422 => x / 2 | _ => x end.
Definition cy (l : layout) (y : Z) : Z := match l with I420 => y / 2 | _ => y end.
Definition Yat big (p : picture) x y : Z := sample big (depth p) (py p) x y.
Definition Uat big (p : picture) x y : Z := sample big (depth p) (pu p) (cx (lay p) x) (cy (lay p) y).
Definition Vat big (p : picture) x y : Z := sample big (depth p) (pv p) (cx (lay p) x) (cy (lay p) y).
(** what a pixel [r; g; b] may be, in samples of d bits *)
Definition colour (big : bool) (p : picture) (x y r g b : Z) : Prop :=
  let d := depth p in let Y := luma d (rng p) (Yat big p x y) in
  match mc p, lay p, used (mc p) with
  | _, I400, Some _ => close d r Y /\ g = r /\ b = r /\ (rng p = Pc -> r = Yat big p x y)
  | MCIdentity, _, _ =>
      close d g Y /\ close d b (luma d (rng p) (Uat big p x y)) /\ close d r (luma d (rng p) (Vat big p x y)) /\
      (rng p = Pc -> r = Vat big p x y /\ g = Yat big p x y /\ b = Uat big p x y)
  | _, _, Some (kr, kb) =>
      let Cb := chroma d (rng p) (Uat big p x y) in let Cr := chroma d (rng p) (Vat big p x y) in
      close d r (red kr kb Y Cb Cr) /\ close d g (green kr kb Y Cb Cr) /\ close d b (blue kr kb Y Cb Cr) /\
      (* without chroma: grey, and in full range the luma sample itself *)
      (Uat big p x y = 2 ^ (d - 1) -> Vat big p x y = 2 ^ (d - 1) -> g = r /\ b = r /\ (rng p = Pc -> r = Yat big p x y))
  | _, _, None => False
  end.

(** pictures dav1d may return: a depth of 8, 10 or 12; rows at least as long as the picture; as many rows as the picture (or
    half of them); samples of at most d bits *)
Definition plane_ok (big : bool) (d : Z) (p : plane) (w h : Z) : Prop :=
  zlen (data p) = stride p * h /\ w * (if d =? 8 then 1 else 2) <= stride p /\ Forall (fun b => 0 <= b <= 255) (data p) /\
  (forall x y, 0 <= x < w -> 0 <= y < h -> sample big d p x y < 2 ^ d).
Definition picture_ok (big : bool) (p : picture) : Prop :=
  let d := depth p in let w := pw p in let h := ph p in
  (d = 8 \/ d = 10 \/ d = 12) /\ 0 < w /\ 0 < h /\ plane_ok big d (py p) w h /\
  (lay p <> I400 -> plane_ok big d (pu p) ((if is_444 (lay p) then w else (w + 1) / 2)) (match lay p with I420 => (h + 1) / 2 | _ => h end) /\
                    plane_ok big d (pv p) ((if is_444 (lay p) then w else (w + 1) / 2)) (match lay p with I420 => (h + 1) / 2 | _ => h end)) /\
  ((mc p = MCIdentity /\ lay p = I444) \/ used (mc p) <> None) /\
  (forall l a, alpha p = Some (l, a) -> l = I400 /\ plane_ok big d a w h).

(** the sample of the decoded image: RGBA, one byte or two (in the machine's order) per channel *)
Definition out_at (big : bool) (d w : Z) (out : list Z) (x y c : Z) : Z :=
  if d =? 8 then nth (Z.to_nat ((y * w + x) * 4 + c)) out 0
  else let i := Z.to_nat (2 * ((y * w + x) * 4 + c)) in
       if big then 256 * nth i out 0 + nth (i + 1) out 0 else nth i out 0 + 256 * nth (i + 1) out 0.
Definition alpha_at (big : bool) (p : picture) (x y : Z) : Z :=
  match alpha p with Some (_, a) => sample big (depth p) a x y | None => 2 ^ depth p - 1 end.
