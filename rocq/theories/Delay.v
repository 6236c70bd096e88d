(** Model of Delay / Ratio (src/animation.rs:67-70, 131-363).  u32/u64 arithmetic is exact in Z;
    every operation that could overflow is checked and yields [Panic] (debug build). *)
From Verif Require Import Base.

(** Ratio { numer, denom }: animation.rs:307-311; a Delay is just a Ratio (67-70) *)
Record ratio : Type := mkRatio { numer : Z; denom : Z }.

(** Ratio::new: animation.rs:315-321 (assert_ne!(denominator, 0)) *)
Definition ratio_new (n d : Z) : res ratio := if d =? 0 then Panic else Ok (mkRatio n d).
(** Delay::from_numer_denom_ms: animation.rs:141-145 *)
Definition from_numer_denom_ms (n d : Z) : res ratio := ratio_new n d.

Definition mul_u64 (a b : Z) : res Z := if a * b <=? u64_max then Ok (a * b) else Panic.
Definition sub_u64 (a b : Z) : res Z := if b <=? a then Ok (a - b) else Panic.
Definition add_u64 (a b : Z) : res Z := if a + b <=? u64_max then Ok (a + b) else Panic.
Definition mul_u32 (a b : Z) : res Z := if a * b <=? u32_max then Ok (a * b) else Panic.
Definition add_u32 (a b : Z) : res Z := if a + b <=? u32_max then Ok (a + b) else Panic.

(** compare_fraction: animation.rs:219-221 *)
Definition compare_fraction (a b : Z * Z) : res comparison :=
  x <- mul_u64 (fst a) (snd b) ;; y <- mul_u64 (fst b) (snd a) ;; Ok (x ?= y).
(** abs_diff_nom: animation.rs:224-231 *)
Definition abs_diff_nom (a b : Z * Z) : res Z :=
  c0 <- mul_u64 (fst a) (snd b) ;; c1 <- mul_u64 (snd a) (fst b) ;;
  sub_u64 (Z.max c0 c1) (Z.min c0 c1).

Record farey : Type := mkFarey { lower : Z * Z; upper : Z * Z; guess : Z * Z }.

(** second half of the loop body: animation.rs:254-291 *)
Definition farey_next (exact : Z * Z) (s : farey) : res farey :=
  n0 <- add_u64 (fst (lower s)) (fst (upper s)) ;;
  n1 <- add_u64 (snd (lower s)) (snd (upper s)) ;;
  let next := (n0, n1) in
  c2 <- compare_fraction exact next ;;
  let lo := match c2 with Lt => lower s | _ => next end in
  let up := match c2 with Lt => next | _ => upper s end in
  g_diff_nom <- abs_diff_nom (guess s) exact ;;
  n_diff_nom <- abs_diff_nom next exact ;;
  better <- match (n_diff_nom / snd next) ?= (g_diff_nom / snd (guess s)) with
            | Lt => Ok true
            | Gt => Ok false
            | Eq => c3 <- compare_fraction (n_diff_nom mod snd next, snd next)
                                           (g_diff_nom mod snd (guess s), snd (guess s)) ;;
                    Ok (match c3 with Lt => true | _ => false end)
            end ;;
  Ok (mkFarey lo up (if better : bool then next else guess s)).
(** body of the loop: animation.rs:243-253 and the rest above; inl = continue, inr = break *)
Definition farey_body (denom_bound : Z) (exact : Z * Z) (s : farey) : res (farey + (Z * Z)) :=
  c <- compare_fraction (guess s) exact ;;
  if (match c with Eq => true | _ => false end) then Ok (inr (guess s)) else
  room <- sub_u64 denom_bound (snd (lower s)) ;;
  if room <? snd (upper s) then Ok (inr (guess s)) else
  s' <- farey_next exact s ;; Ok (inl s').
Definition farey_step (B : Z) (exact : Z * Z) (s : farey) : farey + res (Z * Z) :=
  match farey_body B exact s with
  | Ok (inl s') => inl s'
  | Ok (inr g) => inr (Ok g)
  | Err e => inr (Err e)
  | Panic => inr Panic
  end.
(** closest_bounded_fraction: animation.rs:208-294; `as u32` truncates *)
Definition closest_bounded_fraction (denom_bound nom den : Z) : res (Z * Z) :=
  if negb (0 <? den) || negb (0 <? denom_bound) || negb (nom <? den) then Panic else
  twice <- mul_u32 nom 2 ;;
  match loopk 33 (farey_step denom_bound (nom, den))
          (mkFarey (0, 1) (1, 1) ((if den <? twice then 1 else 0), 1)) with
  | inl _ => Err EFuel
  | inr r => g <- r ;; Ok (wrap_u32 (fst g), wrap_u32 (snd g))
  end.

(** Delay::from_saturating_duration: animation.rs:162-185; the Duration is given as its total
    number of nanoseconds (as_nanos, u128, exact) *)
Definition from_saturating_duration (nanos : Z) : res ratio :=
  let millis := Z.min (nanos / 1000000) u32_max in
  let submillis := nanos mod 1000000 in
  let max_b := if 0 <? millis then (u32_max + 1) / (millis + 1) else u32_max in
  '(a, b) <- closest_bounded_fraction (wrap_u32 max_b) submillis 1000000 ;;
  m <- mul_u32 b millis ;;
  n <- add_u32 a m ;;
  from_numer_denom_ms n b.

(** impl From<Delay> for Duration: animation.rs:297-305; result in nanoseconds *)
Definition duration_of_delay (r : ratio) : res Z :=
  let ms := numer r / denom r in
  let rest := numer r mod denom r in
  x <- mul_u64 rest 1000000 ;;
  let nanos := x / denom r in
  Ok (ms * 1000000 + nanos).

(** Ord for Ratio: animation.rs:343-363; PartialEq 329-333 *)
Definition ratio_cmp (x y : ratio) : res comparison :=
  a <- mul_u64 (numer x) (denom y) ;; b <- mul_u64 (numer y) (denom x) ;; Ok (a ?= b).
Definition ratio_eq (x y : ratio) : res bool :=
  c <- ratio_cmp x y ;; Ok (match c with Eq => true | _ => false end).
