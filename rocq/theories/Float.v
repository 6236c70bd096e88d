(** IEEE-754 binary32 and binary64 as used by Rust's f32 and f64, from Flocq (BinarySingleNaN: one NaN).
    Rust's arithmetic rounds to nearest, ties to even. *)
From Coq Require Import ZArith Bool.
From Flocq Require Import IEEE754.BinarySingleNaN Core.FLX.
From Verif Require Import Base.
Local Open Scope Z_scope.

Definition f32 := binary_float 24 128.
Definition f64 := binary_float 53 1024.
Global Instance f32_prec : Prec_gt_0 24 := eq_refl.
Global Instance f32_emax : Prec_lt_emax 24 128 := eq_refl.
Global Instance f64_prec : Prec_gt_0 53 := eq_refl.
Global Instance f64_emax : Prec_lt_emax 53 1024 := eq_refl.

(** integer as f32 / f64 (correctly rounded) *)
Definition f32_of_Z (n : Z) : f32 := binary_normalize 24 128 _ _ mode_NE n 0 false.
Definition f64_of_Z (n : Z) : f64 := binary_normalize 53 1024 _ _ mode_NE n 0 false.
Definition f32_div (a b : f32) : f32 := Bdiv mode_NE a b.
Definition f32_mul (a b : f32) : f32 := Bmult mode_NE a b.
Definition f32_add (a b : f32) : f32 := Bplus mode_NE a b.
Definition f32_sub (a b : f32) : f32 := Bminus mode_NE a b.
Definition f64_div (a b : f64) : f64 := Bdiv mode_NE a b.
Definition f64_mul (a b : f64) : f64 := Bmult mode_NE a b.
Definition f64_add (a b : f64) : f64 := Bplus mode_NE a b.
Definition f64_sub (a b : f64) : f64 := Bminus mode_NE a b.
(** f32::round, f64::round: to the nearest integer, halves away from zero *)
Definition f32_round (a : f32) : f32 := Bnearbyint mode_NA a.
Definition f64_round (a : f64) : f64 := Bnearbyint mode_NA a.
(** float as integer: truncates, saturates, NaN gives 0 *)
Definition float_as (prec emax lo hi : Z) (a : binary_float prec emax) : Z :=
  match a with
  | B754_nan => 0
  | B754_infinity s => if s then lo else hi
  | _ => clampz lo hi (Btrunc a)
  end.
Definition f32_as (lo hi : Z) (a : f32) : Z := float_as 24 128 lo hi a.
Definition f64_as (lo hi : Z) (a : f64) : Z := float_as 53 1024 lo hi a.
(** NumCast::from(float) into an integer type with range lo..hi (num-traits): None for NaN, infinities and values whose
    truncation is out of range *)
Definition float_cast (prec emax lo hi : Z) (a : binary_float prec emax) : option Z :=
  match a with
  | B754_nan | B754_infinity _ => None
  | _ => let t := Btrunc a in if (lo <=? t) && (t <=? hi) then Some t else None
  end.
