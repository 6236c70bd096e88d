(** Model of the point sampling functions of imageops (src/imageops/sample.rs:319-470) for images with u8 or u16 samples:
    sample_bilinear, sample_nearest, interpolate_nearest, interpolate_bilinear.  f32 is Flocq's binary32. *)
From Coq Require Import ZArith Bool.
From Flocq Require Import IEEE754.BinarySingleNaN.
From Verif Require Import Base Color Float ColorF GenImage Thumb Sample.
Local Open Scope Z_scope.

(** (lo..=hi).contains(&x) *)
Definition contains (lo hi x : f32) : bool := f32_le lo x && f32_le x hi.
(** f32::min: the other operand when one is NaN *)
Definition f32_min (a b : f32) : f32 := if is_nan a then b else if is_nan b then a else if f32_lt b a then b else a.
(** 1e-3 as f32 = 0x3a83126f *)
Definition f32_milli : f32 := f32_dyadic 8589935 (-33).

(** interpolate_nearest: sample.rs:368-385.  None is the None of the code. *)
Definition interpolate_nearest (im : img (list Z)) (x y : f32) : res (option (list Z)) :=
  if (iw im =? 0) || (ih im =? 0) then Ok None
  else if negb (contains f32_zero (f32_of_Z (iw im - 1)) x) then Ok None
  else if negb (contains f32_zero (f32_of_Z (ih im - 1)) y) then Ok None
  else p <- get_pixel im (f32_as 0 u32_max (f32_round x)) (f32_as 0 u32_max (f32_round y)) ;; Ok (Some p).

(** the value of one channel from the four weights and the four samples: sample.rs:455-467, for integer samples ([is_float] is false) *)
Definition mix (t : sty) (wff wfc wcf wcc : f32) (a b c d : Z) : Z :=
  let v := f32_add (f32_add (f32_add (f32_mul wff (f32_of_Z a)) (f32_mul wfc (f32_of_Z b))) (f32_mul wcf (f32_of_Z c))) (f32_mul wcc (f32_of_Z d)) in
  match float_cast 24 128 0 (smax t) (f32_round v) with Some z => z | None => if f32_lt v f32_zero then 0 else smax t end.
Fixpoint mix4 (f : Z -> Z -> Z -> Z -> Z) (a b c d : list Z) : list Z :=
  match a, b, c, d with a0 :: a', b0 :: b', c0 :: c', d0 :: d' => f a0 b0 c0 d0 :: mix4 f a' b' c' d' | _, _, _, _ => [] end.
(** interpolate_bilinear: sample.rs:388-470.  [m]: the overflow check of uf + 1 and vf + 1, evaluated before any pixel is read, and the debug_assert *)
Definition interpolate_bilinear (m : mode) (t : sty) (im : img (list Z)) (x y : f32) : res (option (list Z)) :=
  if (iw im =? 0) || (ih im =? 0) then Ok None
  else if negb (contains f32_zero (f32_of_Z (iw im - 1)) x) then Ok None
  else if negb (contains f32_zero (f32_of_Z (ih im - 1)) y) then Ok None
  else
    let uf := f32_as 0 u32_max (f32_floor x) in
    let vf := f32_as 0 u32_max (f32_floor y) in
    u1 <- u32_add_m m uf 1 ;; v1 <- u32_add_m m vf 1 ;;
    let uc := Z.min u1 (iw im - 1) in
    let vc := Z.min v1 (ih im - 1) in
    ff <- get_pixel im uf vf ;; fc <- get_pixel im uf vc ;; cf <- get_pixel im uc vf ;; cc <- get_pixel im uc vc ;;
    let ufw := f32_sub x (f32_of_Z uf) in
    let vfw := f32_sub y (f32_of_Z vf) in
    let ucw := f32_sub (f32_of_Z u1) x in
    let vcw := f32_sub (f32_of_Z v1) y in
    let wff := f32_mul ucw vcw in
    let wfc := f32_mul ucw vfw in
    let wcf := f32_mul ufw vcw in
    let wcc := f32_mul ufw vfw in
    let off := f32_abs (f32_sub (f32_add (f32_add (f32_add wff wfc) wcf) wcc) f32_one) in
    match m, f32_lt off f32_milli with
    | Debug, false => Panic
    | _, _ => Ok (Some (mix4 (mix t wff wfc wcf wcc) ff fc cf cc))
    end.

(** (w as f32 * u - 0.5).max(0.).min(last as f32): sample.rs:334-340, 354-358 *)
Definition coordinate (w last : Z) (u : f32) : f32 :=
  f32_min (f32_max (f32_sub (f32_mul (f32_of_Z w) u) f32_half) f32_zero) (f32_of_Z last).
(** sample_bilinear: sample.rs:320-341 *)
Definition sample_bilinear (m : mode) (t : sty) (im : img (list Z)) (u v : f32) : res (option (list Z)) :=
  if negb (contains f32_zero f32_one u && contains f32_zero f32_one v) then Ok None
  else if (iw im =? 0) || (ih im =? 0) then Ok None
  else interpolate_bilinear m t im (coordinate (iw im) (iw im - 1) u) (coordinate (ih im) (ih im - 1) v).
(** sample_nearest: sample.rs:344-360; saturating_sub *)
Definition sample_nearest (im : img (list Z)) (u v : f32) : res (option (list Z)) :=
  if negb (contains f32_zero f32_one u && contains f32_zero f32_one v) then Ok None
  else interpolate_nearest im (coordinate (iw im) (Z.max 0 (iw im - 1)) u) (coordinate (ih im) (Z.max 0 (ih im - 1)) v).
