(** Radiance HDR: conversion between RGBE pixels and f32 colours.
    /repo/src/codecs/hdr/decoder.rs and encoder.rs. *)
From Coq Require Import ZArith Bool List.
From Flocq Require Import IEEE754.BinarySingleNaN.
From Verif Require Import Base GenImage Float Color ColorF Thumb Sample Hdr.
Import ListNotations.
Local Open Scope Z_scope.

(** f32::log2, f32::exp2 and f32::powi(2.0, n), calls into the platform's libm / compiler runtime: parameters *)
Record hdr_libm := mkHdrLibm { log2_32 : f32 -> f32; exp2_32 : f32 -> f32; powi_2 : Z -> f32 }.
(** compiler-rt's __powisf2(2.0, n): square and multiply, then the reciprocal for a negative exponent (an example of powi_2;
    not in /repo) *)
Fixpoint powi_loop (fuel : nat) (a r : f32) (b : Z) : f32 :=
  match fuel with
  | O => r
  | S k => let r' := if Z.odd b then f32_mul r a else r in
           let b' := Z.quot b 2 in if b' =? 0 then r' else powi_loop k (f32_mul a a) r' b'
  end.
Definition powi_rt (n : Z) : f32 := let r := powi_loop 32 (f32_of_Z 2) f32_one n in if n <? 0 then f32_div f32_one r else r.

(** Rgbe8Pixel::to_hdr: decoder.rs:143-161 *)
Definition to_hdr (lm : hdr_libm) (p : rgbe) : list f32 :=
  if pe p =? 0 then [f32_zero; f32_zero; f32_zero]
  else let x := exp2_32 lm (f32_sub (f32_of_Z (pe p)) (f32_add (f32_of_Z 128) (f32_of_Z 8))) in
       [f32_mul x (f32_of_Z (p0 p)); f32_mul x (f32_of_Z (p1 p)); f32_mul x (f32_of_Z (p2 p))].

(** i32 + i32: panics on overflow in a build with overflow checks, wraps otherwise *)
Definition i32_add_m (m : mode) (a b : Z) : res Z :=
  if (-2147483648 <=? a + b) && (a + b <=? 2147483647) then Ok (a + b) else match m with Debug => Panic | Release => Ok (wrap_i32 (a + b)) end.
(** one component: encoder.rs:288-290 *)
Definition mantissa (mul v : f32) : Z := f32_as 0 255 (f32_trunc (f32_mul (f32_div v mul) (f32_of_Z 256))).
(** to_rgbe8: encoder.rs:278-296 *)
Definition to_rgbe8 (lm : hdr_libm) (m : mode) (r g b : f32) : res rgbe :=
  let mx := f32_max r (f32_max g b) in
  if f32_le mx f32_zero then Ok (mkRgbe 0 0 0 0)
  else ex <- i32_add_m m (f32_as (-2147483648) 2147483647 (f32_floor (log2_32 lm mx))) 1 ;;
       let mul := powi_2 lm ex in
       e <- i32_add_m m ex 128 ;;
       Ok (mkRgbe (mantissa mul r) (mantissa mul g) (mantissa mul b) (wrap_u8 e)).

(** HdrEncoder::encode, write_image for Rgb32F (the bytes already read as f32): encoder.rs:15-38, 49-51.  The pixels are
    converted lazily there, one at a time, and a panic in a conversion ends the call all the same. *)
Definition hdr_encode (lm : hdr_libm) (m : mode) (px : list (f32 * f32 * f32)) (w h : Z) : res (list Z) :=
  ps <- map_res (fun '(r, g, b) => to_rgbe8 lm m r g b) px ;; encode_pixels ps w h.
