(** What is assumed about the platform's log2, exp2 and powi(2.0, n), and the words used in C59. *)
From Coq Require Import ZArith Reals List.
From Flocq Require Import Core IEEE754.BinarySingleNaN.
From Verif Require Import Base Float Hdr Rgbe.
Import ListNotations.

(** exp2 is exact at integers, log2 exact at powers of two and within 2^-16 elsewhere, powi(2.0, n) is 2^n while that and its
    reciprocal are in range; an overflow gives infinity, an underflow anything between 0 and 2^n *)
Record hdr_accurate (lm : hdr_libm) : Prop := {
  exp2_exact : forall x n, is_finite x = true -> B2R x = IZR n -> (-149 <= n <= 127)%Z ->
    is_finite (exp2_32 lm x) = true /\ B2R (exp2_32 lm x) = bpow radix2 n;
  log2_near : forall x, is_finite x = true -> (0 < B2R x)%R ->
    is_finite (log2_32 lm x) = true /\ (Rpower 2 (B2R (log2_32 lm x) - / 65536) <= B2R x <= Rpower 2 (B2R (log2_32 lm x) + / 65536))%R;
  log2_exact : forall x n, is_finite x = true -> B2R x = bpow radix2 n -> B2R (log2_32 lm x) = IZR n;
  log2_inf : log2_32 lm (B754_infinity false) = B754_infinity false;
  log2_nan : log2_32 lm B754_nan = B754_nan;
  powi_exact : forall n, (-127 <= n <= 127)%Z -> is_finite (powi_2 lm n) = true /\ B2R (powi_2 lm n) = bpow radix2 n;
  powi_over : forall n, (128 <= n)%Z -> powi_2 lm n = B754_infinity false;
  powi_under : forall n, (n <= -128)%Z -> is_finite (powi_2 lm n) = true /\ Bsign (powi_2 lm n) = false /\ (B2R (powi_2 lm n) <= bpow radix2 n)%R }.

(** mx is finite and the largest of the components that are numbers *)
Definition largest (mx : f32) (l : list f32) : Prop :=
  In mx l /\ is_finite mx = true /\ forall v, In v l -> v = B754_nan \/ Bleb v mx = true.
(** a component that holds a positive amount of light *)
Definition lit (v : f32) : Prop := is_finite v = true /\ (0 < B2R v)%R.
(** u is a finite float with value x *)
Definition is (u : f32) (x : R) : Prop := is_finite u = true /\ B2R u = x.
(** the value a Radiance pixel stands for: component * 2^(e - 136), black for e = 0 *)
Definition light (c e : Z) : R := if Z.eqb e 0 then 0%R else (IZR c * bpow radix2 (e - 136))%R.
(** decoded component u of a component v: a lit component loses at most tol and never gains, anything else (zero, negative,
    -infinity, NaN) becomes 0 *)
Definition kept (tol : R) (v u : f32) : Prop :=
  is_finite u = true /\ (lit v -> (B2R v - tol <= B2R u <= B2R v)%R) /\ (~ lit v -> B2R u = 0%R).
(** colours an RGBE pixel can hold, and the loss allowed: none for black, 1/127 of the largest component otherwise *)
Definition storable (l : list f32) (tol : R) : Prop :=
  (tol = 0%R /\ forall v, In v l -> ~ lit v /\ v <> B754_infinity false) \/
  (exists mx, largest mx l /\ (bpow radix2 (-127) <= B2R mx <= 65535 / 65536 * bpow radix2 127)%R /\ tol = (B2R mx / 127)%R).
