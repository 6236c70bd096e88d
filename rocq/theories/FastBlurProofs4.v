(** fast_blur: extreme standard deviations; the widths and their variances *)
From Coq Require Import ZArith Bool Reals Psatz.
From Flocq Require Import Core IEEE754.BinarySingleNaN.
From Verif Require Import Base BaseLemmas ListLemmas Color Float FloatProofs ColorF ColorFProofs GenImage Buffer Thumb ThumbSpec ThumbProofs ThumbProofs2 ThumbProofs4 Sample SampleProofs SampleProofs2 SampleProofs4 SampleProofs5 InterpProofs Filter3 Filter3Spec Filter3Proofs FastBlur FastBlurSpec FastBlurProofs FastBlurProofs2 FastBlurProofs3.
Local Open Scope Z_scope.

Lemma widths_ok sigma s : isf sigma s -> (Rabs s <= 32768)%R -> exists k m, Z.odd k = true /\ 1 <= k <= 65540 /\ 0 <= m <= 3 /\ boxes_for_gauss sigma = repeat k (Z.to_nat m) ++ repeat (k + 2) (Z.to_nat (3 - m)) /\
  (IZR k * IZR k <= (1 + 8 * uu) * (4 * (s * s) + 1))%R /\ (Rabs (IZR m - count_real (s * s) (IZR k)) <= 0.53)%R.
Proof.
  intros HS BS. destruct (box_low_ok sigma s HS BS) as (k & OD & KB & LOW & SQ & L1 & L2). destruct (box_count_ok sigma s k LOW KB SQ BS L1 L2) as (m & MB & CE & CN). exists k, m. repeat (split; [assumption|]). split; [|split; assumption].
  unfold boxes_for_gauss. rewrite CE. assert (E1 : f32_as 0 u64_max (box_low sigma) = k) by (rewrite (as32_ok _ _ _ _ LOW), Ztrunc_IZR; unfold clampz, u64_max; lia). assert (E2 : f32_as 0 u64_max (f32_add (box_low sigma) (f32_of_Z 2)) = k + 2). { pose proof (isf_add_int (box_low sigma) (f32_of_Z 2) k 2 LOW (int_isf 2 ltac:(lia)) ltac:(lia)) as I. rewrite (as32_ok _ _ _ _ I), Ztrunc_IZR. unfold clampz, u64_max. lia. } rewrite E1, E2. clear - MB.
  assert (C : m = 0 \/ m = 1 \/ m = 2 \/ m = 3) by lia. destruct C as [-> | [-> | [-> | ->]]]; reflexivity.
Qed.
Lemma var_sum k m : 0 <= m <= 3 -> zsum (map variance12 (repeat k (Z.to_nat m) ++ repeat (k + 2) (Z.to_nat (3 - m)))) = 3 * (k + 1) * (k + 3) - 4 * m * (k + 1).
Proof.
  intros H. assert (C : m = 0 \/ m = 1 \/ m = 2 \/ m = 3) by lia. destruct C as [-> | [-> | [-> | ->]]].
  - change (variance12 (k + 2) + (variance12 (k + 2) + (variance12 (k + 2) + 0)) = 3 * (k + 1) * (k + 3) - 4 * 0 * (k + 1)). unfold variance12. ring.
  - change (variance12 k + (variance12 (k + 2) + (variance12 (k + 2) + 0)) = 3 * (k + 1) * (k + 3) - 4 * 1 * (k + 1)). unfold variance12. ring.
  - change (variance12 k + (variance12 k + (variance12 (k + 2) + 0)) = 3 * (k + 1) * (k + 3) - 4 * 2 * (k + 1)). unfold variance12. ring.
  - change (variance12 k + (variance12 k + (variance12 k + 0)) = 3 * (k + 1) * (k + 3) - 4 * 3 * (k + 1)). unfold variance12. ring.
Qed.
Lemma gauss_ok sigma s : isf sigma s -> (Rabs s <= 32768)%R -> gauss_widths s (boxes_for_gauss sigma).
Proof.
  intros HS BS. destruct (widths_ok sigma s HS BS) as (k & m & OD & KB & MB & E & K2 & C). exists k, m. split; [exact OD|]. split; [lia|]. assert (KR : (1 <= IZR k)%R) by (apply IZR_le; lia).
  split. { destruct uu_small as ((U0 & U1) & _). assert (SQ : (s * s = Rabs s * Rabs s)%R) by (rewrite <- Rabs_mult; symmetry; apply Rabs_pos_eq; nra). rewrite SQ in K2. pose proof (Rabs_pos s) as A0. set (a := Rabs s) in *. clearbody a. destruct (Rle_or_lt (IZR k) (2 * a + 1.01)) as [L|L]; [exact L|exfalso]. assert ((2 * a + 1.01) * (2 * a + 1.01) < IZR k * IZR k)%R by (apply Rmult_le_0_lt_compat; lra). assert (AA : (a * a <= 32768 * a)%R) by (apply Rmult_le_compat_r; lra). assert (uu * (4 * (a * a) + 1) <= / 16777216 * (4 * (32768 * a) + 1))%R by (apply Rmult_le_compat; try lra; nra). nra. }
  split; [exact MB|]. split; [exact E|]. rewrite E, var_sum by exact MB. unfold count_real in C. rewrite minus_IZR, !mult_IZR, !plus_IZR. set (K := (IZR k + 1)%R) in *. replace (3 * K * (IZR k + 3) - 4 * IZR m * K)%R with (12 * (s * s) - 4 * K * (IZR m - (3 / 4 * (IZR k + 3) - 3 * (s * s) / K)))%R by (field; unfold K; lra). apply Rabs_le_inv in C. set (d := (IZR m - (3 / 4 * (IZR k + 3) - 3 * (s * s) / K))%R) in *. clearbody d. assert (K0 : (2 <= K)%R) by (unfold K; lra). clearbody K. replace ((12 * (s * s) - 4 * K * d) / 12 - s * s)%R with (- (K * d) / 3)%R by field. apply Rabs_le. assert (K * (-0.53) <= K * d <= K * 0.53)%R by (split; apply Rmult_le_compat_l; lra). lra.
Qed.
Lemma small_widths sigma s : isf sigma s -> (Rabs s <= 0.55)%R -> boxes_for_gauss sigma = [1; 1; 1].
Proof.
  intros HS BS. destruct (widths_ok sigma s HS ltac:(lra)) as (k & m & OD & KB & MB & E & K2 & C). destruct uu_small as ((U0 & U1) & _). assert (SS : (0 <= s * s <= 0.3025)%R) by (apply Rabs_le_inv in BS; split; nra). assert (K1 : k = 1). { assert (k < 2); [|lia]. apply lt_IZR. apply Rnot_le_lt. intros G. assert (2 * 2 <= IZR k * IZR k)%R by (apply Rmult_le_compat; lra). nra. } subst k.
  assert (m = 3). { assert (2 < m); [|lia]. apply lt_IZR. unfold count_real in C. apply Rabs_le_inv in C. lra. } subst m. exact E.
Qed.
(** the largest standard deviation for which the sums are exact *)
Definition sigma_max (t : sty) : R := match t with U8 => 32768 | U16 => 126 end.
Lemma widths_fit t sigma s : isf sigma s -> (Rabs s <= sigma_max t)%R -> Forall (fits t) (boxes_for_gauss sigma) /\ length (boxes_for_gauss sigma) = 3%nat.
Proof.
  intros HS BS. assert (B : (Rabs s <= 32768)%R) by (destruct t; cbn in BS; lra). destruct (widths_ok sigma s HS B) as (k & m & OD & KB & MB & E & K2 & C). rewrite E. assert (F : fits t k /\ fits t (k + 2)).
  { assert (Q : smax t * (k + 2) < 2 ^ 24). { destruct t; unfold smax, u8_max, u16_max; [lia|]. cbn in BS. assert (k <= 253); [|lia]. destruct uu_small as ((U0 & U1) & _). assert (SS : (0 <= s * s <= 15876)%R) by (apply Rabs_le_inv in BS; split; nra). assert (k < 254); [|lia]. apply lt_IZR. apply Rnot_le_lt. intros G. assert (254 * 254 <= IZR k * IZR k)%R by (apply Rmult_le_compat; lra). nra. } pose proof (smax_range t). unfold fits. repeat split; nia. }
  destruct F as (F1 & F2). split; [apply Forall_app; split; apply Forall_forall; intros x Hx; apply repeat_spec in Hx; subst x; assumption|]. rewrite app_length, !repeat_length. lia.
Qed.

(** ** standard deviations whose square is not a finite f32 *)
Lemma boxes_inf sigma : powi2 sigma = B754_infinity false -> boxes_for_gauss sigma = [u64_max; u64_max; u64_max].
Proof. intros E. unfold boxes_for_gauss, box_count, box_low. rewrite E. vm_compute. reflexivity. Qed.
Lemma boxes_nan sigma : powi2 sigma = B754_nan -> boxes_for_gauss sigma = [0; 0; 0].
Proof. intros E. unfold boxes_for_gauss, box_count, box_low. rewrite E. vm_compute. reflexivity. Qed.
Lemma square_inf sigma : is_nan sigma = false -> is_finite sigma = false \/ (IZR (2 ^ 64) <= Rabs (B2R sigma))%R -> powi2 sigma = B754_infinity false.
Proof.
  intros NN [H|H]. { destruct sigma as [b|b| |b m e B]; try discriminate. destruct b; reflexivity. }
  unfold powi2, f32_mul. pose proof (Bmult_correct 24 128 f32_prec f32_emax mode_NE sigma sigma) as C. rewrite Rlt_bool_false in C.
  - change (binary_overflow 24 128 mode_NE (xorb (Bsign sigma) (Bsign sigma))) with (SpecFloat.S754_infinity (xorb (Bsign sigma) (Bsign sigma))) in C. rewrite xorb_nilpotent in C. destruct (Bmult mode_NE sigma sigma) as [b|b| |b m e B]; try discriminate C. cbn in C. injection C as ->. reflexivity.
  - assert (Q : (bpow radix2 128 <= B2R sigma * B2R sigma)%R). { replace (B2R sigma * B2R sigma)%R with (Rabs (B2R sigma) * Rabs (B2R sigma))%R by (rewrite <- Rabs_mult; apply Rabs_pos_eq; nra). change 128 with (64 + 64). rewrite bpow_plus. replace (bpow radix2 64) with (IZR (2 ^ 64)) by (apply (IZR_Zpower radix2); lia). apply Rmult_le_compat; try (apply IZR_le; lia); exact H. }
    rewrite Rabs_pos_eq. { apply round_ge_generic; [apply FLT_exp_valid; exact f32_prec|apply valid_rnd_round_mode| |exact Q]. apply generic_format_bpow. cbv. discriminate. } { apply Rle_trans with (bpow radix2 128); [apply bpow_ge_0|]. apply round_ge_generic; [apply FLT_exp_valid; exact f32_prec|apply valid_rnd_round_mode| |exact Q]. apply generic_format_bpow. cbv. discriminate. }
Qed.
Definition huge : Z := 9223372036854775807.
Lemma half_black t s w h n : 1 <= w <= u32_max -> 1 <= h <= u32_max -> 1 <= n -> n * (w * h) <= zlen s -> Forall (is_sample t) s -> half t s w h huge n = Ok (repeat 0 (Z.to_nat (n * (w * h)))).
Proof.
  intros W H N L F. unfold u32_max in W, H.
  destruct (loops_ok t s w h huge n (fun _ _ _ => 0) (fun _ _ _ => 0) W H N) as (o & E & LO & G).
  - intros row c R C. exists f32_zero. split; [reflexivity|exact isf_zero].
  - intros row c col v R C V. assert (D : isf (f32_add (f32_mul (f32_of_Z 2) (f32_of_Z huge)) f32_one) (bpow radix2 64)).
    { replace (f32_add (f32_mul (f32_of_Z 2) (f32_of_Z huge)) f32_one) with (f32_dyadic 1 64). { pose proof (isf_dyadic 1 64 ltac:(lia) ltac:(lia)) as I. rewrite Rmult_1_l in I. exact I. } apply B2SF_inj. vm_compute. reflexivity. }
    destruct (cut_div t v _ _ _ V D) as (Q & _). { pose proof (bpow_gt_0 radix2 64). lra. } rewrite Q. f_equal. unfold Rdiv. rewrite Rmult_0_l. rewrite (RN_int 0 ltac:(lia)). pose proof (smax_range t). assert (X : limited 0 (IZR (smax t)) 0 = 0%R). { unfold limited. rewrite Rmax_left by lra. apply Rmin_right. apply IZR_le. lia. } rewrite X. apply Zfloor_IZR.
  - intros row c col v R C K V. assert (A : as_isize (col + huge + 1) < 0). { unfold as_isize, huge, i64_max. destruct (col + 9223372036854775807 + 1 <=? 9223372036854775807) eqn:X; lia. }
    exists (sample n w s c 0 row), (sample n w s c 0 row). rewrite !extended_ok by (assumption || lia). replace (clampz 0 (w - 1) (col - huge)) with 0 by (unfold clampz, huge; lia). replace (clampz 0 (w - 1) (as_isize (col + huge + 1))) with 0 by (revert A; generalize (as_isize (col + huge + 1)); unfold clampz; lia). split; [reflexivity|]. split; [reflexivity|].
    pose proof (sample_in (is_sample t) n w h s c 0 row F C ltac:(lia) R L) as SM. unfold is_sample in SM. pose proof (smax_range t). set (a := sample n w s c 0 row) in *. clearbody a. assert (I : isf (f32_of_Z a) (IZR a)) by (apply of_Z_ok; lia). pose proof (isf_sub_int v (f32_of_Z a) 0 a V I ltac:(lia)) as I2. pose proof (isf_add_int _ _ _ a I2 I ltac:(lia)) as I3. replace (0 - a + a) with 0 in I3 by lia. exact I3.
  - unfold FastBlurProofs.N in LO, G. rewrite E. f_equal. apply zget_ext; [rewrite LO, zlen_repeat; nia|]. intros i Hi. rewrite LO in Hi. rewrite G by exact Hi. rewrite zget_repeat; [reflexivity|]. lia.
Qed.
