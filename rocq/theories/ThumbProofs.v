From Coq Require Import ZArith Bool Reals Lia Lra.
From Flocq Require Import Core IEEE754.BinarySingleNaN Relative.
From Verif Require Import Base BaseLemmas ListMore Color ColorProofs Float FloatProofs JpegQuant ColorF ColorFProofs GenImage Thumb.
Local Open Scope Z_scope.

(** ** floats far from overflow *)
Lemma repr32_pow2 k : 0 <= k <= 100 -> repr 24 128 (IZR (2 ^ k)).
Proof. intros Hk. replace (IZR (2 ^ k)) with (bpow radix2 k) by (symmetry; apply (IZR_Zpower radix2); lia). apply generic_format_bpow. unfold SpecFloat.fexp, SpecFloat.emin. lia. Qed.
Definition B100 : R := IZR (2 ^ 100).
Lemma RN_B100 x : (0 <= x <= B100)%R -> (0 <= RN32 x <= B100)%R.
Proof. intros [A B]. split; [apply RN_nonneg; exact A|]. apply RN_le_r; [exact eq_refl|apply repr32_pow2; lia|exact B]. Qed.
Lemma no_overflow32 x : (0 <= x <= B100)%R -> Rlt_bool (Rabs (RN32 x)) (bpow radix2 128) = true.
Proof.
  intros H. apply RN_B100 in H. apply Rlt_bool_true. rewrite Rabs_pos_eq by lra. apply Rle_lt_trans with B100; [lra|]. unfold B100. replace (IZR (2 ^ 100)) with (bpow radix2 100) by (symmetry; apply (IZR_Zpower radix2); lia). apply bpow_lt. lia.
Qed.
Lemma fb_mul x y r s : isf x r -> isf y s -> (0 <= r * s <= B100)%R -> isf (f32_mul x y) (RN32 (r * s)).
Proof.
  intros (E1 & F1) (E2 & F2) HB. pose proof (Bmult_correct 24 128 f32_prec f32_emax mode_NE x y) as C. cbn [round_mode] in C. rewrite E1, E2 in C. pose proof (no_overflow32 _ HB) as NO. unfold RN in NO. rewrite NO in C. destruct C as (C & F & _). unfold isf, f32_mul. rewrite F, F1, F2. auto.
Qed.
Lemma fb_add x y r s : isf x r -> isf y s -> (0 <= r + s <= B100)%R -> isf (f32_add x y) (RN32 (r + s)).
Proof.
  intros (E1 & F1) (E2 & F2) HB. pose proof (Bplus_correct 24 128 f32_prec f32_emax mode_NE x y F1 F2) as C. cbn [round_mode] in C. rewrite E1, E2 in C. pose proof (no_overflow32 _ HB) as NO. unfold RN in NO. rewrite NO in C. destruct C as (C & F & _). split; assumption.
Qed.
Lemma fb_sub x y r s : isf x r -> isf y s -> (0 <= r - s <= B100)%R -> isf (f32_sub x y) (RN32 (r - s)).
Proof.
  intros (E1 & F1) (E2 & F2) HB. pose proof (Bminus_correct 24 128 f32_prec f32_emax mode_NE x y F1 F2) as C. cbn [round_mode] in C. rewrite E1, E2 in C. pose proof (no_overflow32 _ HB) as NO. unfold RN in NO. rewrite NO in C. destruct C as (C & F & _). split; assumption.
Qed.
Lemma fb_div x y r s : isf x r -> isf y s -> s <> 0%R -> (0 <= r / s <= B100)%R -> isf (f32_div x y) (RN32 (r / s)).
Proof.
  intros (E1 & F1) (E2 & F2) N HB. pose proof (Bdiv_correct 24 128 f32_prec f32_emax mode_NE x y) as C. cbn [round_mode] in C. rewrite E1, E2 in C. specialize (C N). pose proof (no_overflow32 _ HB) as NO. unfold RN in NO. rewrite NO in C. destruct C as (C & F & _). split; [exact C|]. unfold f32_div. rewrite F. exact F1.
Qed.
Lemma fb_ofZ n : 0 <= n <= u32_max -> isf (f32_of_Z n) (RN32 (IZR n)).
Proof.
  intros Hn. pose proof (binary_normalize_correct 24 128 f32_prec f32_emax mode_NE n 0 false) as C. cbv zeta in C. cbn [round_mode] in C.
  replace (F2R {| Fnum := n; Fexp := 0 |}) with (IZR n) in C by (unfold F2R; cbn; ring). pose proof (no_overflow32 (IZR n)) as NO. unfold RN in NO. rewrite NO in C by (split; [apply IZR_le; lia|unfold B100; apply IZR_le; unfold u32_max in Hn; lia]). destruct C as (C & F & _). split; assumption.
Qed.
Lemma ceil_ok x r : isf x r -> isf (f32_ceil x) (IZR (Zceil r)).
Proof. intros (E & F). pose proof (Bnearbyint_correct 24 128 f32_emax mode_UP x) as (C & G & _). unfold isf, f32_ceil. rewrite C, G. cbn [round_mode]. rewrite round_FIX_IZR, E. auto. Qed.
Lemma trunc_f_ok x r : isf x r -> isf (f32_trunc x) (IZR (Ztrunc r)).
Proof. intros (E & F). pose proof (Bnearbyint_correct 24 128 f32_emax mode_ZR x) as (C & G & _). unfold isf, f32_trunc. rewrite C, G. cbn [round_mode]. rewrite round_FIX_IZR, E. auto. Qed.
Lemma as32_ok lo hi x r : isf x r -> f32_as lo hi x = clampz lo hi (Ztrunc r).
Proof. intros (E & F). unfold f32_as. rewrite (as_ok 24 128 f32_emax lo hi x F), E. reflexivity. Qed.
Lemma fract_ok x r : isf x r -> (0 <= r <= B100)%R -> isf (f32_fract x) (RN32 (r - IZR (Ztrunc r))) /\ (0 <= r - IZR (Ztrunc r) <= 1)%R.
Proof.
  intros H HB. pose proof (trunc_f_ok x r H) as T. assert (FL : (0 <= r - IZR (Ztrunc r) <= 1)%R). { rewrite Ztrunc_floor by lra. pose proof (Zfloor_lb r). pose proof (Zfloor_ub r). lra. }
  split; [|exact FL]. unfold f32_fract. apply fb_sub; [exact H|exact T|]. unfold B100. assert (1 <= IZR (2 ^ 100))%R by (apply IZR_le; lia). lra.
Qed.
Lemma big_B : (1024 <= B100)%R. Proof. unfold B100. apply IZR_le. lia. Qed.
(** the interpolation weight lies in 0..1 *)
Lemma mid_ok x y r s : isf x r -> isf y s -> (0 <= r <= B100)%R -> (0 <= s <= B100)%R -> exists f, isf (mid x y) f /\ (0 <= f <= 1)%R.
Proof.
  intros Hx Hy Hr Hs. pose proof big_B. destruct (fract_ok x r Hx Hr) as (I1 & B1). destruct (fract_ok y s Hy Hs) as (I2 & B2). apply RN_01 in B1, B2.
  pose proof (fb_add _ _ _ _ I1 I2 ltac:(lra)) as I3. assert (B3 : (0 <= RN32 (RN32 (r - IZR (Ztrunc r)) + RN32 (s - IZR (Ztrunc s))) <= 2)%R) by (split; [apply RN_nonneg; lra|apply RN_le_r; [exact eq_refl|apply (repr_Z 24 128 f32_prec f32_emax 2); lia|lra]]).
  pose proof (of_Z_ok 2 ltac:(lia)) as I4. pose proof (fb_div _ _ _ _ I3 I4 ltac:(lra) ltac:(lra)) as I5. eexists. split; [exact I5|]. apply RN_01. lra.
Qed.

(** ** windows *)
Definition ratio (size ns : Z) : R := RN32 (RN32 (IZR size) / RN32 (IZR ns)).
Definition lo_real (size ns x : Z) : R := RN32 (RN32 (IZR x) * ratio size ns).
Definition hi_real (size ns x : Z) : R := RN32 (lo_real size ns x + ratio size ns).
Lemma RN_Z_range n : 1 <= n <= u32_max -> (1 <= RN32 (IZR n) <= IZR (2 ^ 32))%R.
Proof.
  intros H. split; [apply RN_ge; [exact eq_refl|apply (repr_Z 24 128 f32_prec f32_emax 1); lia|apply IZR_le; lia]|]. apply RN_le_r; [exact eq_refl|apply repr32_pow2; lia|apply IZR_le; unfold u32_max in H; lia].
Qed.
Lemma ratio_range size ns : 1 <= size <= u32_max -> 1 <= ns <= u32_max -> (/ IZR (2 ^ 32) <= ratio size ns <= IZR (2 ^ 32))%R.
Proof.
  intros H1 H2. apply RN_Z_range in H1, H2. unfold ratio. set (a := RN32 (IZR size)) in *. set (b := RN32 (IZR ns)) in *. clearbody a b. assert (P : (0 < / IZR (2 ^ 32))%R) by (apply Rinv_0_lt_compat; apply IZR_lt; lia).
  assert (IB : (/ IZR (2 ^ 32) <= / b <= 1)%R) by (split; [apply Rinv_le_contravar; lra|rewrite <- Rinv_1; apply Rinv_le_contravar; lra]).
  split; [apply RN_ge; [exact eq_refl|apply repr_pow; lia|]|apply RN_le_r; [exact eq_refl|apply repr32_pow2; lia|]]; unfold Rdiv.
  - apply Rle_trans with (1 * / IZR (2 ^ 32))%R; [lra|]. apply Rmult_le_compat; lra.
  - apply Rle_trans with (IZR (2 ^ 32) * 1)%R; [|lra]. apply Rmult_le_compat; lra.
Qed.
Lemma RN_repr_ratio size ns : RN32 (ratio size ns) = ratio size ns.
Proof. apply RN_repr. unfold ratio, RN, repr. apply generic_format_round; [apply (fexp_correct 24 128); exact eq_refl|apply valid_rnd_N]. Qed.
Lemma win_real size ns x : 1 <= size <= u32_max -> 1 <= ns <= u32_max -> 0 <= x <= u32_max ->
  isf (lowf (win size ns x)) (lo_real size ns x) /\ isf (highf (win size ns x)) (hi_real size ns x) /\ (0 <= lo_real size ns x <= B100)%R /\ (ratio size ns <= hi_real size ns x <= B100)%R.
Proof.
  intros H1 H2 H3. pose proof (ratio_range size ns H1 H2) as RR. assert (P : (0 < / IZR (2 ^ 32))%R) by (apply Rinv_0_lt_compat; apply IZR_lt; lia).
  pose proof (RN_Z_range size H1) as R1. pose proof (RN_Z_range ns H2) as R2. assert (R3 : (0 <= RN32 (IZR x) <= IZR (2 ^ 32))%R). { destruct (Z.eq_dec x 0) as [->|]; [rewrite RN_0; split; [lra|apply IZR_le; lia]|]. pose proof (RN_Z_range x ltac:(lia)). lra. }
  assert (I1 : isf (f32_div (f32_of_Z size) (f32_of_Z ns)) (ratio size ns)).
  { apply fb_div; [apply fb_ofZ; lia|apply fb_ofZ; lia|lra|]. split; [apply Rle_mult_inv_pos; lra|]. apply Rle_trans with (IZR (2 ^ 32) * 1)%R; [unfold Rdiv; apply Rmult_le_compat; [lra| |lra|]|rewrite Rmult_1_r; unfold B100; apply IZR_le; lia]; [apply Rlt_le; apply Rinv_0_lt_compat; lra|]. rewrite <- Rinv_1. apply Rinv_le_contravar; lra. }
  assert (L64 : (IZR (2 ^ 32) * IZR (2 ^ 32) <= IZR (2 ^ 64))%R) by (rewrite <- mult_IZR; apply IZR_le; lia). assert (C64 : (IZR (2 ^ 64) + IZR (2 ^ 32) <= B100)%R) by (rewrite <- plus_IZR; unfold B100; apply IZR_le; lia). assert (P32 : (0 < IZR (2 ^ 32))%R) by (apply IZR_lt; lia).
  assert (B1 : (0 <= RN32 (IZR x) * ratio size ns <= IZR (2 ^ 64))%R). { split; [apply Rmult_le_pos; lra|]. apply Rle_trans with (IZR (2 ^ 32) * IZR (2 ^ 32))%R; [apply Rmult_le_compat; lra|exact L64]. }
  pose proof (fb_mul _ _ _ _ (fb_ofZ x H3) I1 ltac:(lra)) as I2. fold (lo_real size ns x) in I2.
  assert (B2 : (0 <= lo_real size ns x <= IZR (2 ^ 64))%R) by (unfold lo_real; split; [apply RN_nonneg; lra|apply RN_le_r; [exact eq_refl|apply repr32_pow2; lia|lra]]).
  pose proof (fb_add _ _ _ _ I2 I1 ltac:(lra)) as I3. fold (hi_real size ns x) in I3. split; [exact I2|]. split; [exact I3|]. split; [lra|]. unfold hi_real. split.
  - rewrite <- (RN_repr_ratio size ns) at 1. apply RN_le; [exact eq_refl|]. lra.
  - apply RN_B100. lra.
Qed.
Lemma clamp_range a lo hi : lo <= hi -> lo <= clamp a lo hi <= hi.
Proof. intros H. unfold clamp. destruct (Z.ltb_spec a lo); [lia|]. destruct (Z.gtb_spec a hi); lia. Qed.
Lemma win_ints size ns x : 1 <= size <= u32_max -> 1 <= ns <= u32_max -> 0 <= x <= u32_max -> let w := win size ns x in
  low w = clamp (clampz 0 u32_max (Zceil (lo_real size ns x))) 0 (size - 1) /\ high w = clamp (clampz 0 u32_max (Zceil (hi_real size ns x))) (low w) size.
Proof.
  intros H1 H2 H3 w. destruct (win_real size ns x H1 H2 H3) as (I1 & I2 & _). unfold w, win in *. cbv zeta in *. cbn [low high lowf highf] in *. rewrite (as32_ok _ _ _ _ (ceil_ok _ _ I1)), (as32_ok _ _ _ _ (ceil_ok _ _ I2)). rewrite !Ztrunc_IZR. auto.
Qed.
(** accesses stay in bounds and the first column always has a pixel *)
Lemma win_ok size ns x : 1 <= size <= u32_max -> 1 <= ns <= u32_max -> 0 <= x <= u32_max -> let w := win size ns x in 0 <= low w <= size - 1 /\ low w <= high w <= size /\ (low w = high w -> 1 <= low w).
Proof.
  intros H1 H2 H3 w. destruct (win_ints size ns x H1 H2 H3) as (EL & EH). fold w in EL, EH. pose proof (clamp_range (clampz 0 u32_max (Zceil (lo_real size ns x))) 0 (size - 1) ltac:(lia)) as C1. rewrite <- EL in C1.
  pose proof (clamp_range (clampz 0 u32_max (Zceil (hi_real size ns x))) (low w) size ltac:(lia)) as C2. rewrite <- EH in C2. split; [exact C1|]. split; [exact C2|]. intros E. destruct (Z.eq_dec (low w) 0) as [L0|]; [|lia]. exfalso.
  destruct (win_real size ns x H1 H2 H3) as (_ & _ & _ & HR). pose proof (ratio_range size ns H1 H2) as RR. assert (P : (0 < / IZR (2 ^ 32))%R) by (apply Rinv_0_lt_compat; apply IZR_lt; lia).
  assert (ZC : 1 <= Zceil (hi_real size ns x)). { assert (0 < Zceil (hi_real size ns x)); [|lia]. apply lt_IZR. apply Rlt_le_trans with (hi_real size ns x); [lra|apply Zceil_ub]. }
  assert (HH : high w = 0) by lia. rewrite L0 in EH. clear - EH HH ZC H1. unfold clamp, clampz, u32_max in *. destruct (Z.ltb_spec (Z.max 0 (Z.min 4294967295 (Zceil (hi_real size ns x)))) 0); destruct (Z.gtb_spec (Z.max 0 (Z.min 4294967295 (Zceil (hi_real size ns x)))) size); lia.
Qed.
