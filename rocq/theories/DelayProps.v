(** C31, C32: frame delays. *)
From Verif Require Import Base Delay DelayProofs.

(** C31.  [M] = 10^6 nanoseconds per millisecond; a duration of N ns is N/M ms.

    For every duration except those of at least u32::MAX ms whose sub-millisecond part exceeds
    half a millisecond, the conversion succeeds with a u32 ratio; durations of at least u32::MAX
    ms saturate to u32::MAX ms; below, the ratio is the closest one to the exact value among all
    fractions p/q with q <= B (|numer/denom - N/M| <= |p/q - N/M|, cross-multiplied), where B is
    the largest denominator for which millis+1 ms is representable. *)
Theorem C31_closest_approximation : forall N,
  0 <= N -> ~ (u32_max <= N / M /\ M < 2 * (N mod M)) ->
  exists r, from_saturating_duration N = Ok r /\
    is_u32 (numer r) /\ 1 <= denom r <= u32_max /\
    (u32_max <= N / M -> r = mkRatio u32_max 1) /\
    (N / M < u32_max ->
     let B := if N / M =? 0 then u32_max else (u32_max + 1) / (N / M + 1) in
     denom r <= B /\
     forall p q, 1 <= q <= B ->
       Z.abs (numer r * M - N * denom r) * q <= Z.abs (p * M - N * q) * denom r).
Proof. exact from_saturating_duration_ok. Qed.
Print Assumptions C31_closest_approximation.

(** whenever the exact value is a fraction within that bound, it is returned exactly *)
Theorem C31_exact_when_representable : forall N r p q,
  0 <= N -> N / M < u32_max -> from_saturating_duration N = Ok r ->
  1 <= q <= (if N / M =? 0 then u32_max else (u32_max + 1) / (N / M + 1)) ->
  p * M = N * q -> numer r * M = N * denom r.
Proof. exact exact_when_representable. Qed.
Print Assumptions C31_exact_when_representable.

(** The clamping promised by the documentation fails: every duration of at least u32::MAX ms
    with more than half a millisecond left over overflows `a + b * millis`. *)
Theorem C31_saturation_refuted : forall N,
  u32_max <= N / M -> M < 2 * (N mod M) -> from_saturating_duration N = Panic.
Proof. exact from_saturating_duration_panics. Qed.
Print Assumptions C31_saturation_refuted.

(** back to Duration: never panics and rounds the ratio down to whole nanoseconds *)
Theorem C31_to_duration : forall r, is_u32 (numer r) -> 1 <= denom r <= u32_max ->
  duration_of_delay r = Ok (numer r * M / denom r).
Proof. exact duration_of_delay_floor. Qed.
Print Assumptions C31_to_duration.

Theorem C31_whole_ms_roundtrip : forall m, 0 <= m <= u32_max ->
  exists r, from_saturating_duration (m * M) = Ok r /\ r = mkRatio m 1 /\
            duration_of_delay r = Ok (m * M).
Proof. exact whole_ms_roundtrip. Qed.
Print Assumptions C31_whole_ms_roundtrip.

(** 16.5 ms, and the counterexample 2^32-1 ms + 0.6 ms *)
Example ex_60fps : from_saturating_duration 16500000 = Ok (mkRatio 33 2).
Proof. vm_compute. reflexivity. Qed.
Example ex_large : from_saturating_duration 123456789123457 = Ok (mkRatio 987654313 8).
Proof. vm_compute. reflexivity. Qed.
Example ex_overflow : from_saturating_duration (4294967295 * 1000000 + 600000) = Panic.
Proof. vm_compute. reflexivity. Qed.

(** C32: comparing delays is comparing the rational numbers numer/denom; no overflow. *)
Theorem C32_cmp_is_rational_order : forall x y, ratio_ok x -> ratio_ok y ->
  ratio_cmp x y = Ok (QArith_base.Qcompare (qval x) (qval y)).
Proof. exact ratio_cmp_Q. Qed.
Print Assumptions C32_cmp_is_rational_order.

(** hence a total preorder, with == the equality of values *)
Theorem C32_order_laws : forall x y z, ratio_ok x -> ratio_ok y -> ratio_ok z ->
  ratio_cmp x x = Ok Eq /\
  (forall c, ratio_cmp x y = Ok c -> ratio_cmp y x = Ok (CompOpp c)) /\
  (ratio_cmp x y <> Ok Gt -> ratio_cmp y z <> Ok Gt -> ratio_cmp x z <> Ok Gt) /\
  (ratio_eq x y = Ok true <-> QArith_base.Qeq (qval x) (qval y)).
Proof. exact ratio_order_laws. Qed.
Print Assumptions C32_order_laws.
Example ex_cmp : ratio_eq (mkRatio 2 4) (mkRatio 1 2) = Ok true /\
  ratio_cmp (mkRatio u32_max 1) (mkRatio u32_max 2) = Ok Gt. Proof. split; reflexivity. Qed.
