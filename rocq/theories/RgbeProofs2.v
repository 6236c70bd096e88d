From Coq Require Import Reals Lra ZArith Lia Bool List.
From Flocq Require Import Core IEEE754.BinarySingleNaN.
From Verif Require Import Base BaseLemmas GenImage Float FloatProofs ColorF ColorFProofs Thumb ThumbProofs Sample SampleProofs SampleProofs4 SampleProofs5 Interp InterpProofs Hdr Rgbe RgbeSpec RgbeProofs.
Import ListNotations.
Local Open Scope Z_scope.

(** ** one component *)
Lemma of256 : isf (f32_of_Z 256) 256. Proof. apply of_Z_ok. lia. Qed.
Lemma b256 : 256%R = bpow radix2 8. Proof. reflexivity. Qed.
Lemma mantissa_lit mul v V n : isf v V -> isf mul (bpow radix2 n) -> (0 < V <= 2 * bpow radix2 n)%R ->
  mantissa mul v = Z.min 255 (Zfloor (256 * (V * bpow radix2 (- n)))).
Proof.
  intros IV IM HV. pose proof (bpow_gt_0 radix2 n) as BN. pose proof (bpow_gt_0 radix2 (- n)) as BN'. assert (NE : bpow radix2 n <> 0%R) by lra.
  assert (DIV : (V / bpow radix2 n = V * bpow radix2 (- n))%R) by (unfold Rdiv; rewrite bpow_opp; reflexivity).
  set (q := (V * bpow radix2 (- n))%R) in *. assert (Q : (0 < q <= 2)%R).
  { unfold q. split; [apply Rmult_lt_0_compat; lra|]. apply Rle_trans with (2 * bpow radix2 n * bpow radix2 (- n))%R; [apply Rmult_le_compat_r; lra|]. rewrite Rmult_assoc, <- bpow_plus. replace (n + - n) with 0 by lia. cbn. lra. }
  pose proof (fs_div _ _ _ _ IV IM NE) as ID. rewrite DIV in ID. assert (BQ : (Rabs q <= B100)%R) by (rewrite Rabs_pos_eq by lra; unfold B100; apply Rle_trans with 2%R; [lra|apply IZR_le; lia]). specialize (ID BQ).
  unfold mantissa. rewrite (as32_ok 0 255 _ _ (trunc_f_ok _ _ (fs_mul _ _ _ _ ID of256 ltac:(
    assert (0 <= RN32 q <= 2)%R by (split; [apply RN_nonneg; lra|apply RN_le_r; [exact eq_refl|apply (repr_Z 24 128 f32_prec f32_emax 2); lia|lra]]);
    rewrite Rabs_pos_eq by lra; unfold B100; apply Rle_trans with 512%R; [lra|apply IZR_le; lia])))).
  rewrite Ztrunc_IZR. destruct (Rle_lt_dec (bpow radix2 (-126)) q) as [G|G].
  - rewrite (RN_repr 24 128 q). 2:{ unfold q. apply repr_shift; [apply (isf_repr _ _ IV)|]. fold q. rewrite Rabs_pos_eq by lra. exact G. }
    rewrite (RN_repr 24 128 (q * 256)).
    2:{ rewrite b256. apply repr_shift. { unfold q. apply repr_shift; [apply (isf_repr _ _ IV)|]. fold q. rewrite Rabs_pos_eq by lra. exact G. } rewrite Rabs_pos_eq by (apply Rmult_le_pos; [lra|apply bpow_ge_0]). rewrite <- b256. lra. }
    rewrite (Rmult_comm q). rewrite Ztrunc_floor by lra. assert (0 <= Zfloor (256 * q)) by (apply Zfloor_lub; lra). unfold clampz. lia.
  - assert (T : (bpow radix2 (-126) <= / 1048576)%R). { change (/ 1048576)%R with (bpow radix2 (-20)). apply bpow_le. lia. }
    assert (R1 : (0 <= RN32 q <= / 1048576)%R). { split; [apply RN_nonneg; lra|]. apply RN_le_r; [exact eq_refl| |lra]. change (/ 1048576)%R with (bpow radix2 (-20)). apply repr_ipow. lia. }
    assert (R2 : (0 <= RN32 (RN32 q * 256) <= / 2)%R). { split; [apply RN_nonneg; lra|]. apply RN_le_r; [exact eq_refl| |lra]. change (/ 2)%R with (bpow radix2 (-1)). apply repr_ipow. lia. }
    rewrite Ztrunc_floor by lra. rewrite (Zfloor_imp 0 (RN32 (RN32 q * 256))) by (change (IZR (0 + 1)) with 1%R; lra). rewrite (Zfloor_imp 0 (256 * q)) by (change (IZR (0 + 1)) with 1%R; lra). reflexivity.
Qed.
(** a component that is not positive gives 0 *)
Definition np (x : f32) : Prop := match x with B754_infinity false | B754_finite false _ _ _ => False | _ => True end.
Lemma np_fin (x : f32) : is_finite x = true -> (B2R x <= 0)%R -> np x.
Proof. destruct x as [|[|]| |[|] m e p]; cbn [np]; auto; try discriminate. intros _ H. cbn [B2R cond_Zopp] in H. pose proof (F2R_gt_0 radix2 (Float radix2 (Z.pos m) e) ltac:(reflexivity)). lra. Qed.
Lemma np_le (x : f32) : np x -> (B2R x <= 0)%R.
Proof. destruct x as [|[|]| |[|] m e p]; cbn [np B2R cond_Zopp]; try lra; try tauto. intros _. apply F2R_le_0. cbn. lia. Qed.
Lemma B2SF_inf (x : f32) s : B2SF x = SpecFloat.S754_infinity s -> x = B754_infinity s.
Proof. destruct x; cbn; intros H; try discriminate. congruence. Qed.
Lemma np_mul (x y : f32) Y : np x -> isf y Y -> (0 < Y)%R -> np (f32_mul x y).
Proof.
  intros N IY HY. assert (SY : exists m e p, y = B754_finite false m e p). { destruct IY as (E & F). destruct y as [|s| |[|] m e p]; try discriminate; cbn [B2R cond_Zopp] in E; [lra| |eauto]. pose proof (F2R_lt_0 radix2 (Float radix2 (Z.neg m) e) ltac:(reflexivity)). cbn [Z.opp] in *. lra. }
  destruct (is_finite x) eqn:FX; [|destruct x as [|[|]| |]; try discriminate; cbn [np] in N; try tauto; destruct SY as (? & ? & ? & ->); exact I].
  pose proof (Bmult_correct 24 128 f32_prec f32_emax mode_NE x y) as C. destruct (Rlt_bool _ _) in C.
  - destruct C as (C & F & _). apply np_fin; [unfold f32_mul; rewrite F, FX; apply IY|]. unfold f32_mul. rewrite C. cbn [round_mode]. destruct IY as (-> & _). apply RN_le_r; [exact eq_refl|apply (repr_Z 24 128 f32_prec f32_emax 0); lia|]. pose proof (np_le x N). nra.
  - destruct SY as (m & e & p & ->). unfold f32_mul. cbn [Bsign] in C. destruct x as [s|[|]| |[|] mm ee pp]; cbn [np] in N; try tauto; try discriminate; try exact I.
    cbn [Bsign xorb] in C. apply (B2SF_inf _ true) in C. rewrite C. exact I.
Qed.
Lemma np_div (x y : f32) Y : np x -> isf y Y -> (0 < Y)%R -> np (f32_div x y).
Proof.
  intros N IY HY. assert (SY : exists m e p, y = B754_finite false m e p). { destruct IY as (E & F). destruct y as [|s| |[|] m e p]; try discriminate; cbn [B2R cond_Zopp] in E; [lra| |eauto]. pose proof (F2R_lt_0 radix2 (Float radix2 (Z.neg m) e) ltac:(reflexivity)). cbn [Z.opp] in *. lra. }
  destruct (is_finite x) eqn:FX; [|destruct x as [|[|]| |]; try discriminate; cbn [np] in N; try tauto; destruct SY as (? & ? & ? & ->); exact I].
  pose proof (Bdiv_correct 24 128 f32_prec f32_emax mode_NE x y ltac:(destruct IY; lra)) as C. destruct (Rlt_bool _ _) in C.
  - destruct C as (C & F & _). apply np_fin; [unfold f32_div; rewrite F; exact FX|]. unfold f32_div. rewrite C. cbn [round_mode]. destruct IY as (-> & _). apply RN_le_r; [exact eq_refl|apply (repr_Z 24 128 f32_prec f32_emax 0); lia|]. pose proof (np_le x N). unfold Rdiv. assert (0 < / Y)%R by (apply Rinv_0_lt_compat; exact HY). nra.
  - destruct SY as (m & e & p & ->). unfold f32_div. cbn [Bsign] in C. destruct x as [s|[|]| |[|] mm ee pp]; cbn [np] in N; try tauto; try discriminate; try exact I.
    cbn [Bsign xorb] in C. apply (B2SF_inf _ true) in C. rewrite C. exact I.
Qed.
Lemma np_as x : np x -> f32_as 0 255 (f32_trunc x) = 0.
Proof.
  intros N. destruct (is_finite x) eqn:F; [|destruct x as [|[|]| |]; try discriminate; try tauto; reflexivity].
  rewrite (as32_ok 0 255 _ _ (trunc_f_ok x _ (conj eq_refl F))), Ztrunc_IZR. pose proof (np_le x N) as H. apply Ztrunc_le in H. rewrite (Ztrunc_IZR 0) in H. unfold clampz. lia.
Qed.
Lemma mantissa_np mul v n : isf mul (bpow radix2 n) -> np v -> mantissa mul v = 0.
Proof. intros IM N. unfold mantissa. apply np_as. apply np_mul with 256%R; [|exact of256|lra]. apply np_div with (bpow radix2 n); [exact N|exact IM|apply bpow_gt_0]. Qed.
Lemma mantissa_inf v : mantissa (B754_infinity false) v = 0.
Proof. destruct v as [s|s| |s m e p]; try destruct s; reflexivity. Qed.
Lemma not_lit_np v mx : is_finite mx = true -> v = B754_nan \/ Bleb v mx = true -> ~ lit v -> np v.
Proof.
  intros FM [->|L] NL; [exact I|]. destruct v as [s|[|]| |[|] m e p]; cbn [np]; auto.
  - destruct mx as [|[|]| |[|] ? ? ?]; try discriminate.
  - apply NL. split; [reflexivity|]. cbn [B2R cond_Zopp]. apply F2R_gt_0. reflexivity.
Qed.
Lemma le_fin (v mx : f32) : is_finite mx = true -> Bleb v mx = true -> is_finite v = true -> (B2R v <= B2R mx)%R.
Proof. intros FM L F. rewrite (Bleb_correct _ _ v mx F FM) in L. destruct (Rle_bool_spec (B2R v) (B2R mx)); [assumption|discriminate]. Qed.

(** ** the exponent *)
Lemma Rpower2_Z n : Rpower 2 (IZR n) = bpow radix2 n.
Proof. rewrite bpow_powerRZ, powerRZ_Rpower by (cbn; lra). reflexivity. Qed.
Lemma ln2_lt_1 : (0 < ln 2 < 1)%R.
Proof. split; [rewrite <- ln_1; apply ln_increasing; lra|]. replace 1%R with (ln (exp 1)) by apply ln_exp. apply ln_increasing; [lra|]. pose proof (exp_ineq1 1 ltac:(lra)). lra. Qed.
Lemma Rpower2_lo t : (0 < t < 1)%R -> (1 - t < Rpower 2 (- t))%R.
Proof. intros H. unfold Rpower. pose proof ln2_lt_1. pose proof (exp_ineq1 (- t * ln 2) ltac:(nra)). nra. Qed.
Lemma Rpower2_hi t : (0 < t < 1)%R -> (Rpower 2 t < / (1 - t))%R.
Proof. intros H. rewrite <- (Ropp_involutive t) at 1. rewrite Rpower_Ropp. pose proof (Rpower2_lo t H). apply Rinv_lt_contravar; [|exact H0]. apply Rmult_lt_0_compat; lra. Qed.
Lemma log2_range lm x : hdr_accurate lm -> is_finite x = true -> (0 < B2R x)%R -> exists L, isf (log2_32 lm x) L /\
  (forall n, (IZR n <= L)%R -> (bpow radix2 n * (1 - / 65536) < B2R x)%R) /\ (forall n, (L <= IZR n)%R -> (B2R x < bpow radix2 n * / (1 - / 65536))%R).
Proof.
  intros A F P. destruct (log2_near lm A x F P) as (FL & LO & HI). exists (B2R (log2_32 lm x)). split; [split; [reflexivity|exact FL]|]. set (L := B2R (log2_32 lm x)) in *. split; intros n HN.
  - apply Rlt_le_trans with (Rpower 2 (IZR n - / 65536)).
    + unfold Rminus. rewrite Rpower_plus, Rpower2_Z. apply Rmult_lt_compat_l; [apply bpow_gt_0|]. apply Rpower2_lo. lra.
    + apply Rle_trans with (Rpower 2 (L - / 65536)); [|exact LO]. apply Rle_Rpower; lra.
  - apply Rle_lt_trans with (Rpower 2 (IZR n + / 65536)).
    + apply Rle_trans with (Rpower 2 (L + / 65536)); [exact HI|]. apply Rle_Rpower; lra.
    + rewrite Rpower_plus, Rpower2_Z. apply Rmult_lt_compat_l; [apply bpow_gt_0|]. apply Rpower2_hi. lra.
Qed.
Lemma bp n : bpow radix2 (n + 1) = (2 * bpow radix2 n)%R.
Proof. rewrite bpow_plus. change (bpow radix2 1) with 2%R. ring. Qed.
Lemma as_i32 x n : isf x (IZR n) -> -2147483648 <= n <= 2147483647 -> f32_as (-2147483648) 2147483647 x = n.
Proof. intros I H. rewrite (as32_ok _ _ _ _ I), Ztrunc_IZR. unfold clampz. lia. Qed.
Lemma strict_of (x : f32) : is_finite x = true -> (0 < B2R x)%R -> is_finite_strict x = true.
Proof. destruct x; intros F P; try discriminate; try reflexivity. cbn in P. lra. Qed.
(** the encoder for a positive finite maximum: the exponent k is within one of the true one *)
Lemma encode_fin lm m r g b mx : hdr_accurate lm -> largest mx [r; g; b] -> (0 < B2R mx)%R -> exists k, -150 <= k <= 128 /\
  (bpow radix2 k * (1 - / 65536) < B2R mx < bpow radix2 (k + 1) * / (1 - / 65536))%R /\
  (forall x, isf x (B2R mx) -> exists L, isf (log2_32 lm x) L /\ k = Zfloor L) /\
  let mul := powi_2 lm (k + 1) in to_rgbe8 lm m r g b = Ok (mkRgbe (mantissa mul r) (mantissa mul g) (mantissa mul b) (wrap_u8 (k + 129))).
Proof.
  intros A HM P. pose proof (largest_max _ _ _ _ HM) as IM. destruct HM as (HI & FM & HL). unfold to_rgbe8. set (M := f32_max r (f32_max g b)) in *.
  assert (LE : f32_le M f32_zero = false). { rewrite (le_ok _ _ _ _ IM isf_zero). apply Rle_bool_false. exact P. }
  rewrite LE. destruct IM as (EM & FM'). destruct (log2_range lm M A FM' ltac:(lra)) as (L & IL & LO & HI'). rewrite EM in LO, HI'.
  pose proof (Zfloor_lb L) as Z1. pose proof (Zfloor_ub L) as Z2. set (k := Zfloor L) in *. assert (Z2' : (L <= IZR (k + 1))%R) by (rewrite plus_IZR; lra).
  pose proof (LO k Z1) as B1. pose proof (HI' (k + 1) Z2') as B2.
  assert (KR : -150 <= k <= 128).
  { pose proof (fin_bound mx) as FB. split.
    - destruct (Z_lt_le_dec k (-150)) as [G|G]; [|exact G]. exfalso. assert (bpow radix2 (k + 1) <= bpow radix2 (-150))%R by (apply bpow_le; lia).
      assert (bpow radix2 (-149) <= B2R mx)%R. { pose proof (abs_B2R_ge_emin 24 128 mx) as Q. rewrite Rabs_pos_eq in Q by lra. apply Q. destruct mx as [|[|]| |[|] ? ? ?]; try discriminate; cbn in P |- *; try reflexivity; lra. }
      pose proof (bp (-150)) as Q. change (-150 + 1) with (-149) in Q. pose proof (bpow_gt_0 radix2 (-150)). replace (/ (1 - / 65536))%R with (65536 / 65535)%R in B2 by field. lra.
    - destruct (Z_lt_le_dec 128 k) as [G|G]; [|exact G]. exfalso. assert (bpow radix2 129 <= bpow radix2 k)%R by (apply bpow_le; lia). pose proof (bp 128) as Q. change (128 + 1) with 129 in Q. pose proof (bpow_gt_0 radix2 128). lra. }
  exists k. split; [exact KR|]. split; [split; assumption|]. split.
  { intros x IX. assert (EX : x = M). { destruct IX as (EX & FX). apply B2R_inj; [apply strict_of; [exact FX|lra]|apply strict_of; [exact FM'|lra]|congruence]. } rewrite EX. exists L. split; [exact IL|reflexivity]. }
  cbv zeta. rewrite (as_i32 _ k (floor_ok _ _ IL)) by lia. unfold i32_add_m. replace (_ && _) with true by (symmetry; apply andb_true_iff; lia). cbn [bind]. replace (_ && _) with true by (symmetry; apply andb_true_iff; lia). cbn [bind]. replace (k + 1 + 128) with (k + 129) by lia. reflexivity.
Qed.
