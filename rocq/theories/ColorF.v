(** Model of the floating-point parts of src/color.rs: conversions between integer samples and f32 samples
    (FromPrimitive), and Pixel::blend (the Blend implementations).  [mx] is T::DEFAULT_MAX_VALUE of the integer sample
    type (255 for u8, 65535 for u16, 4294967295 for u32); NumCast::from(..).unwrap() is [cast]. *)
From Coq Require Import ZArith Bool.
From Flocq Require Import IEEE754.BinarySingleNaN.
From Verif Require Import Base Color Float.
Local Open Scope Z_scope.

Definition f32_zero : f32 := f32_of_Z 0.
Definition f32_one : f32 := f32_of_Z 1.
(** a < b and a == b (false when an operand is NaN) *)
Definition f32_lt (a b : f32) : bool := Bltb a b.
Definition f32_eq (a b : f32) : bool := Beqb a b.
(** f32::max(a, b): the other operand when one is NaN *)
Definition f32_max (a b : f32) : f32 := if is_nan a then b else if is_nan b then a else if f32_lt a b then b else a.
(** f32::clamp(lo, hi): core, `if self < min {..} if self > max {..}` *)
Definition f32_clamp (lo hi a : f32) : f32 := let a := if f32_lt a lo then lo else a in if f32_lt hi a then hi else a.
(** NumCast::from(x).unwrap() into an unsigned integer type with maximum mx *)
Definition cast (mx : Z) (x : f32) : res Z := match float_cast 24 128 0 mx x with Some v => Ok v | None => Panic end.

(** normalize_float: color.rs:443-447 *)
Definition normalize_float (x mx : f32) : f32 :=
  let clamped := if negb (f32_lt x f32_one) then f32_one else f32_max x f32_zero in
  f32_round (f32_mul clamped mx).
(** FromPrimitive<f32> for u8 and u16: color.rs:449-459 *)
Definition f32_to_int (t : sty) (x : f32) : res Z := cast (smax t) (normalize_float x (f32_of_Z (smax t))).
(** FromPrimitive<u16> for f32 and FromPrimitive<u8> for f32: color.rs:478-490 *)
Definition int_to_f32 (t : sty) (v : Z) : f32 := f32_clamp f32_zero f32_one (f32_div (f32_of_Z v) (f32_of_Z (smax t))).

(** ** Blend: color.rs:753-860 *)
(** v.to_f32().unwrap() / max_t: color.rs:760-767, 809-820 *)
Definition norm (mx v : Z) : f32 := f32_div (f32_of_Z v) (f32_of_Z mx).
(** alpha_final: color.rs:769, 823 *)
Definition alpha_final (ba fa : f32) : f32 := f32_sub (f32_add ba fa) (f32_mul ba fa).
(** one colour channel: premultiply, src-over, unmultiply: color.rs:773-777, 829-844 *)
Definition over (b ba f fa af : f32) : f32 :=
  let b_a := f32_mul b ba in
  let f_a := f32_mul f fa in
  let out_a := f32_add f_a (f32_mul b_a (f32_sub f32_one fa)) in
  f32_div out_a af.
(** LumaA::blend: color.rs:753-784 *)
Definition blend_lumaa (mx : Z) (bg fg : list Z) : res (list Z) :=
  match bg, fg with
  | [bl; ba], [fl; fa] =>
      let n := norm mx in
      let af := alpha_final (n ba) (n fa) in
      if f32_eq af f32_zero then Ok bg
      else
        l <- cast mx (f32_mul (f32_of_Z mx) (over (n bl) (n ba) (n fl) (n fa) af)) ;;
        a <- cast mx (f32_mul (f32_of_Z mx) af) ;;
        Ok [l; a]
  | _, _ => Panic
  end.
(** Rgba::blend: color.rs:792-854 *)
Definition blend_rgba (mx : Z) (bg fg : list Z) : res (list Z) :=
  match bg, fg with
  | [br; bg_; bb; ba], [fr; fg_; fb; fa] =>
      if fa =? 0 then Ok bg
      else if fa =? mx then Ok fg
      else
        let n := norm mx in
        let af := alpha_final (n ba) (n fa) in
        if f32_eq af f32_zero then Ok bg
        else
          let out b f := cast mx (f32_mul (f32_of_Z mx) (over (n b) (n ba) (n f) (n fa) af)) in
          r <- out br fr ;; g <- out bg_ fg_ ;; b <- out bb fb ;;
          a <- cast mx (f32_mul (f32_of_Z mx) af) ;;
          Ok [r; g; b; a]
  | _, _ => Panic
  end.
(** Luma::blend and Rgb::blend: color.rs:786-790, 856-860 *)
Definition blend_opaque (bg fg : list Z) : res (list Z) := Ok fg.
(** Pixel::blend for the four pixel kinds with integer samples *)
Definition blend (mx : Z) (k : kind) (bg fg : list Z) : res (list Z) :=
  match k with Luma | Rgb => blend_opaque bg fg | LumaA => blend_lumaa mx bg fg | Rgba => blend_rgba mx bg fg end.
