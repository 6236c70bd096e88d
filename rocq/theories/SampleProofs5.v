From Coq Require Import ZArith Bool Reals Lia Lra.
From Flocq Require Import Core IEEE754.BinarySingleNaN.
From Verif Require Import Base BaseLemmas ListMore Color ColorProofs Float FloatProofs JpegQuant ColorF ColorFProofs GenImage Thumb ThumbSpec ThumbProofs ThumbProofs2 ThumbProofs3 ThumbProofs4 Sample SampleSpec SampleProofs SampleProofs2 SampleProofs3 SampleProofs4.
Local Open Scope Z_scope.

Lemma RN_absr x m : repr 24 128 m -> (Rabs x <= m)%R -> (Rabs (RN32 x) <= m)%R.
Proof.
  intros RR H. apply Rabs_le_inv in H. apply Rabs_le. split; [|apply RN_le_r; [exact eq_refl|exact RR|lra]]. rewrite <- (Ropp_involutive (RN32 _)), <- RN_opp by exact eq_refl. apply Ropp_le_contravar. apply RN_le_r; [exact eq_refl|exact RR|lra].
Qed.
Lemma repr_16 k : 0 <= k < 1000 -> repr 24 128 (IZR k / 16).
Proof. intros H. apply (repr_dyadic 24 128 k 4); lia. Qed.
(** ** the argument of the kernel *)
Definition kernel_arg (size ns out i : Z) : f32 := f32_div (f32_sub (f32_of_Z i) (f32_sub (centre size ns out) f32_half)) (scale1 size ns).
Lemma raw_map f size ns out : raw_weights f size ns out = map (fun i => kernel f (kernel_arg size ns out i)) (zrange (left_tap f size ns out) (ntaps f size ns out)).
Proof. reflexivity. Qed.
Lemma arg_ok size ns out C S1 i : 1 <= size <= 524288 -> 0 <= i < size -> isf (centre size ns out) C -> (0 < C <= 530000)%R -> isf (scale1 size ns) S1 -> (1 <= S1)%R ->
  exists A, isf (kernel_arg size ns out i) A /\ A = RN32 (RN32 (IZR i - RN32 (C - / 2)) / S1) /\ (Rabs A <= 2097152)%R.
Proof.
  intros HS HI IC HC IS HS1. assert (BB : (4000000 <= B100)%R) by (unfold B100; apply IZR_le; vm_compute; discriminate). assert (II : (0 <= IZR i <= 524288)%R) by (split; apply IZR_le; lia).
  pose proof (fb_ofZ i ltac:(unfold u32_max; lia)) as I1. rewrite (RN_small i) in I1 by lia. pose proof (fs_sub _ _ _ _ IC half_ok ltac:(apply Rabs_le; lra)) as I2.
  assert (C2 : (Rabs (RN32 (C - / 2)) <= IZR 1000000)%R) by (apply RN_abs; [exact eq_refl|exact eq_refl|lia|]; apply Rabs_le; lra). apply Rabs_le_inv in C2.
  pose proof (fs_sub _ _ _ _ I1 I2 ltac:(apply Rabs_le; lra)) as I3. assert (D2 : (Rabs (RN32 (IZR i - RN32 (C - / 2))) <= IZR 2097152)%R) by (apply RN_abs; [exact eq_refl|exact eq_refl|lia|]; apply Rabs_le; lra).
  set (D := RN32 (IZR i - RN32 (C - / 2))) in *. assert (Q : (Rabs (D / S1) <= IZR 2097152)%R). { unfold Rdiv. rewrite Rabs_mult. assert (N : (0 < / S1 <= 1)%R) by (split; [apply Rinv_0_lt_compat; lra|rewrite <- Rinv_1; apply Rinv_le_contravar; lra]). rewrite (Rabs_pos_eq (/ S1)) by lra. rewrite <- (Rmult_1_r (IZR 2097152)). apply Rmult_le_compat; try lra. apply Rabs_pos. }
  exists (RN32 (D / S1)). split; [apply fs_div; [exact I3|exact IS|lra|lra]|]. split; [reflexivity|]. apply RN_abs; [exact eq_refl|exact eq_refl|lia|exact Q].
Qed.
Definition good_kernel (d : R) (k : f32 -> f32) : Prop := forall x r, isf x r -> (Rabs r <= 2097152)%R -> exists v, isf (k x) v /\ (0 <= v <= B60)%R /\ ((Rabs r <= d)%R -> (/ B60 <= v)%R).
(** kernels that are positive near 0 *)
Lemma good_taps_kernel f d size ns out C S1 i0 : 1 <= size <= 524288 -> good_kernel d (kernel f) -> isf (centre size ns out) C -> (0 < C <= 530000)%R -> isf (scale1 size ns) S1 -> (1 <= S1)%R ->
  left_tap f size ns out <= i0 < right_tap f size ns out -> (Rabs (RN32 (RN32 (IZR i0 - RN32 (C - / 2)) / S1)) <= d)%R -> good_taps f size ns out.
Proof.
  intros HS GK IC HC IS HS1 HI HD. pose proof (taps_range f size ns out ltac:(lia)) as TR. unfold good_taps. rewrite raw_map.
  assert (G : forall l, (forall i, In i l -> 0 <= i < size) -> exists ks, Forall2 isf (map (fun i => kernel f (kernel_arg size ns out i)) l) ks /\ Forall (fun k => 0 <= k <= B60)%R ks /\ (In i0 l -> Exists (fun k => / B60 <= k)%R ks)).
  { induction l as [|i l IH]; intros HL; [exists []; split; [constructor|]; split; [constructor|]; intros []|]. destruct IH as (ks & F1 & F2 & F3); [intros j Hj; apply HL; right; exact Hj|].
    destruct (arg_ok size ns out C S1 i HS (HL i (or_introl eq_refl)) IC HC IS HS1) as (A & IA & EA & BA). destruct (GK _ A IA BA) as (v & Iv & Bv & Pv). exists (v :: ks). cbn [map]. split; [constructor; assumption|]. split; [constructor; assumption|].
    intros [->|J]; [apply Exists_cons_hd; apply Pv; rewrite EA; exact HD|apply Exists_cons_tl; apply F3; exact J]. }
  destruct (G (zrange (left_tap f size ns out) (ntaps f size ns out))) as (ks & F1 & F2 & F3).
  - intros i Hi. apply In_zrange in Hi. unfold ntaps in Hi. lia.
  - exists ks. split; [exact F1|]. split; [exact F2|]. apply F3. apply In_zrange. unfold ntaps. lia.
Qed.
(** with a support of at least 1, the pixel under the centre is a tap, and its argument is at most 15/16 *)
Lemma good_taps_support f size ns out s : 1 <= size <= 524288 -> 1 <= ns <= u32_max -> 0 <= out < ns -> isf (support f) s -> (1 <= s <= 3)%R -> good_kernel (15 / 16) (kernel f) -> good_taps f size ns out.
Proof.
  intros HS HN HO IS SS GK. assert (HS' : 1 <= size <= u32_max) by (unfold u32_max; lia). destruct (centre_ok size ns out HS' HN HO) as (C & IC & NC & CB & _). destruct (scale1_ok size ns HS' HN) as (S1 & I1 & SB & NS).
  destruct uu_val as [U0 U1]. pose proof (position_range size ns out ltac:(lia) ltac:(lia) HO) as PR. set (pos := position size ns out) in *. assert (SZ : (1 <= IZR size <= 524288)%R) by (split; apply IZR_le; lia).
  apply near_iff in NC. assert (UP : (uu * pos <= / 31)%R) by (apply Rle_trans with (/ 16700000 * 524288)%R; [apply Rmult_le_compat; lra|lra]). replace (12 * uu * pos)%R with (12 * (uu * pos))%R in NC by ring.
  assert (BB : (IZR (2 ^ 36) <= B100)%R) by (unfold B100; apply IZR_le; vm_compute; discriminate). assert (P36 : (IZR (2 ^ 36) = 68719476736)%R) by (apply f_equal; reflexivity). assert (P32 : (IZR (2 ^ 32) = 4294967296)%R) by (apply f_equal; reflexivity). assert (PS : (1 <= s * S1 <= IZR (2 ^ 36))%R) by (split; [rewrite <- (Rmult_1_r 1); apply Rmult_le_compat; lra|]; apply Rle_trans with (3 * IZR (2 ^ 32))%R; [apply Rmult_le_compat; lra|lra]).
  pose proof (fb_mul _ _ _ _ IS I1 ltac:(lra)) as IP. assert (R36 : (RN32 (s * S1) <= IZR (2 ^ 36))%R) by (apply RN_le_r; [exact eq_refl|apply repr32_pow2; lia|lra]). assert (R1 : (1 <= RN32 (s * S1))%R) by (apply RN_ge; [exact eq_refl|apply (repr_Z 24 128 f32_prec f32_emax 1); lia|lra]).
  assert (HR : reach f size ns (RN32 (s * S1))). { split; [exact IP|]. split; [lra|]. apply Rle_trans with (IZR (2 ^ 36)); [exact R36|apply IZR_le; vm_compute; discriminate]. }
  set (i0 := Z.min (size - 1) (Zfloor C)). assert (CB' : (0 < C <= 530000)%R) by lra.
  assert (T : left_tap f size ns out <= i0 < right_tap f size ns out) by (apply (tap_centre f size ns out C (RN32 (s * S1)) HS' IC CB HR); left; right; split; [exact R1|lra]).
  apply (good_taps_kernel f (15 / 16) size ns out C S1 i0 HS GK IC CB' I1 ltac:(lra) T).
  assert (FB := Zfloor_lb C). assert (FU := Zfloor_ub C). assert (I0 : (0 <= C - IZR i0 <= 1.3875)%R).
  { unfold i0. destruct (Z.min_spec (size - 1) (Zfloor C)) as [[G ->]|[G ->]]; [|lra]. assert (G' : size <= Zfloor C) by lia. apply IZR_le in G'. rewrite minus_IZR. split; lra. }
  pose proof (RN_aes (C - / 2)) as E1. assert (A1 : (Rabs (C - / 2) <= 530001)%R) by (apply Rabs_le; lra). assert (UA : (uu * Rabs (C - / 2) <= 0.03175)%R) by (apply Rle_trans with (/ 16700000 * 530001)%R; [apply Rmult_le_compat; try lra; apply Rabs_pos|lra]).
  pose proof eta_uu as ET. apply Rabs_le_inv in E1. set (D := RN32 (C - / 2)) in *. clearbody D.
  assert (I1' : (Rabs (IZR i0 - D) <= 15 / 16)%R) by (apply Rabs_le; lra).
  assert (I2 : (Rabs (RN32 (IZR i0 - D)) <= 15 / 16)%R).
  { apply RN_absr; [apply (repr_16 15); lia|exact I1']. }
  assert (I3 : (Rabs (RN32 (IZR i0 - D) / S1) <= 15 / 16)%R). { unfold Rdiv at 1. rewrite Rabs_mult. assert (N : (0 < / S1 <= 1)%R) by (split; [apply Rinv_0_lt_compat; lra|rewrite <- Rinv_1; apply Rinv_le_contravar; lra]). rewrite (Rabs_pos_eq (/ S1)) by lra. rewrite <- (Rmult_1_r (15 / 16)). apply Rmult_le_compat; try lra. apply Rabs_pos. }
  set (E := (RN32 (IZR i0 - D) / S1)%R) in *. clearbody E. apply RN_absr; [apply (repr_16 15); lia|exact I3].
Qed.
Lemma triangle_good : good_kernel (15 / 16) triangle_kernel.
Proof.
  intros x r I B. unfold triangle_kernel. rewrite (lt_ok _ _ _ _ (isf_abs _ _ I) isf_one). pose proof (Rabs_pos r) as P. assert (B1 : (16 <= B60)%R) by (unfold B60; apply IZR_le; vm_compute; discriminate). pose proof e60 as E.
  destruct (Rlt_bool_spec (Rabs r) 1) as [G|G].
  - exists (RN32 (1 - Rabs r)). split; [apply fs_sub; [exact isf_one|exact (isf_abs _ _ I)|]; apply Rabs_le; assert (16 <= B100)%R by (unfold B100; apply IZR_le; vm_compute; discriminate); lra|]. pose proof (RN_01 (1 - Rabs r) ltac:(lra)). split; [lra|]. intros K. apply Rle_trans with (1 / 16)%R; [lra|]. apply RN_ge; [exact eq_refl|apply (repr_16 1); lia|lra].
  - exists 0%R. split; [exact isf_zero|]. split; [lra|]. intros K. lra.
Qed.

(** ** the gaussian kernel *)
Lemma isf_neg x r : isf x r -> isf (f32_neg x) (- r)%R.
Proof. intros [E F]. split; [unfold f32_neg; rewrite B2R_Bopp, E; reflexivity|unfold f32_neg; rewrite is_finite_Bopp; exact F]. Qed.
Lemma isf_dyadic m e : Z.abs m < 2 ^ 24 -> -140 <= e <= 90 -> isf (f32_dyadic m e) (IZR m * bpow radix2 e).
Proof.
  intros HM HE. pose proof (binary_normalize_correct 24 128 f32_prec f32_emax mode_NE m e false) as H. cbv zeta in H.
  assert (FR : generic_format radix2 (SpecFloat.fexp 24 128) (F2R (Float radix2 m e))).
  { apply generic_format_FLT. exists (Float radix2 m e); [reflexivity|exact HM|]. cbn. lia. }
  rewrite round_generic in H; [|apply valid_rnd_N|exact FR]. rewrite Rlt_bool_true in H.
  - destruct H as (E & F & _). split; [exact E|exact F].
  - apply Rlt_le_trans with (bpow radix2 (24 + e)); [|apply bpow_le; lia]. unfold F2R. cbn [Fnum Fexp]. rewrite Rabs_mult, (Rabs_pos_eq (bpow radix2 e)) by apply bpow_ge_0. rewrite bpow_plus. apply Rmult_lt_compat_r; [apply bpow_gt_0|]. rewrite <- abs_IZR, <- IZR_Zpower by lia. apply IZR_lt. exact HM.
Qed.
Lemma sqrt_ok x r : isf x r -> isf (f32_sqrt x) (RN32 (sqrt r)) \/ (r < 0)%R.
Proof.
  intros [E F]. destruct (Rlt_or_le r 0) as [G|G]; [right; exact G|left]. pose proof (Bsqrt_correct 24 128 f32_prec f32_emax mode_NE x) as (H1 & H2 & _). split; [unfold f32_sqrt; rewrite H1, E; reflexivity|]. unfold f32_sqrt. rewrite H2. destruct x as [s|s| |s m e B]; try reflexivity; try discriminate F. destruct s; [|reflexivity]. exfalso. cbn in E. assert (F2R (Float radix2 (Z.neg m) e) < 0)%R by (apply F2R_lt_0; cbn; lia). lra.
Qed.
(** sqrt(2 * pi) as computed *)
Lemma root_ok : exists c, isf (f32_sqrt (f32_mul (f32_of_Z 2) f32_pi)) c /\ (2 <= c <= 3)%R.
Proof.
  assert (B1 : (1000 <= B100)%R) by (unfold B100; apply IZR_le; vm_compute; discriminate).
  pose proof (fb_ofZ 2 ltac:(unfold u32_max; lia)) as I2. rewrite (RN_small 2) in I2 by lia. pose proof (isf_dyadic 13176795 (-22) ltac:(lia) ltac:(lia)) as IP. fold f32_pi in IP. change (bpow radix2 (-22)) with (/ 4194304)%R in IP.
  pose proof (fb_mul _ _ _ _ I2 IP ltac:(lra)) as I3. destruct (sqrt_ok _ _ I3) as [K|K]; [|exfalso; assert (0 <= RN32 (2 * (13176795 * / 4194304)))%R by (apply RN_nonneg; lra); lra].
  eexists. split; [exact K|]. assert (B : (4 <= RN32 (2 * (13176795 * / 4194304)) <= 9)%R) by (split; [apply RN_ge; [exact eq_refl|apply (repr_Z 24 128 f32_prec f32_emax 4); lia|lra]|apply RN_le_r; [exact eq_refl|apply (repr_Z 24 128 f32_prec f32_emax 9); lia|lra]]).
  set (q := RN32 (2 * (13176795 * / 4194304))) in *. clearbody q. assert (SQ : (2 <= sqrt q <= 3)%R).
  { split; [replace 2%R with (sqrt (2 * 2)) by (apply sqrt_square; lra)|replace 3%R with (sqrt (3 * 3)) by (apply sqrt_square; lra)]; apply sqrt_le_1; lra. }
  split; [apply RN_ge; [exact eq_refl|apply (repr_Z 24 128 f32_prec f32_emax 2); lia|lra]|apply RN_le_r; [exact eq_refl|apply (repr_Z 24 128 f32_prec f32_emax 3); lia|lra]].
Qed.
Lemma exp_acc lm x r : exp_accurate lm -> isf x r -> (r <= 0)%R -> exists v, isf (exp32 lm x) v /\ (0 <= v <= 1)%R /\ (Rabs (v - exp r) <= / 1048576)%R.
Proof. intros H [E F] HR. rewrite <- E in *. destruct (H x F HR) as (A & B & C). exists (B2R (exp32 lm x)). split; [split; [reflexivity|exact A]|]. split; assumption. Qed.
Lemma repr_ipow k : -100 <= k <= 100 -> repr 24 128 (bpow radix2 k).
Proof.
  intros H. destruct (Z.le_gt_cases 0 k) as [G|G].
  - rewrite <- IZR_Zpower by lia. apply repr32_pow2. lia.
  - replace k with (- (- k)) by lia. rewrite bpow_opp, <- IZR_Zpower by lia. apply repr_pow. lia.
Qed.
(** the factors of the gaussian *)
Lemma gaussian_ok lm sg s x r : exp_accurate lm -> isf sg s -> (bpow radix2 (-20) <= s <= bpow radix2 20)%R -> isf x r -> (Rabs r <= bpow radix2 21)%R ->
  exists c A v, (bpow radix2 (-22) <= c <= bpow radix2 20)%R /\ A = RN32 (- RN32 (r * r) / RN32 (2 * RN32 (s * s))) /\ (A <= 0)%R /\ (0 <= v <= 1)%R /\ (Rabs (v - exp A) <= / 1048576)%R /\ isf (gaussian lm x sg) (RN32 (c * v)) /\ c = B2R (f32_recip (f32_mul (f32_sqrt (f32_mul (f32_of_Z 2) f32_pi)) sg)).
Proof.
  intros HL IS HS IX HX. unfold gaussian. destruct root_ok as (c0 & I0 & C0). assert (P20 : (bpow radix2 20 = 1048576)%R) by reflexivity. assert (M20 : (bpow radix2 (-20) = / 1048576)%R) by reflexivity. assert (P21 : (bpow radix2 21 = 2097152)%R) by reflexivity. assert (M22 : (bpow radix2 (-22) = / 4194304)%R) by reflexivity.
  assert (B1 : (IZR (2 ^ 99) <= B100)%R) by (unfold B100; apply IZR_le; vm_compute; discriminate). assert (P99 : (IZR (2 ^ 99) = 633825300114114700748351602688)%R) by (apply f_equal; reflexivity).
  assert (CS : (bpow radix2 (-20) <= c0 * s <= bpow radix2 22)%R). { change (bpow radix2 22) with (4194304)%R. split; [apply Rle_trans with (1 * s)%R; [lra|apply Rmult_le_compat_r; lra]|apply Rle_trans with (3 * s)%R; [apply Rmult_le_compat_r; lra|lra]]. }
  assert (P22 : (bpow radix2 22 = 4194304)%R) by reflexivity.
  pose proof (fb_mul _ _ _ _ I0 IS ltac:(lra)) as I1. assert (C1 : (bpow radix2 (-20) <= RN32 (c0 * s) <= bpow radix2 22)%R) by (split; [apply RN_ge|apply RN_le_r]; try exact eq_refl; try (apply repr_ipow; lia); lra).
  set (c1 := RN32 (c0 * s)) in *. clearbody c1. assert (C2 : (bpow radix2 (-22) <= 1 / c1 <= bpow radix2 20)%R). { unfold Rdiv. rewrite Rmult_1_l. split; [rewrite M22, <- P22|rewrite P20, <- (Rinv_inv 1048576), <- M20]; apply Rinv_le_contravar; lra. }
  pose proof (fb_div _ _ _ _ isf_one I1 ltac:(lra) ltac:(lra)) as I2. assert (C3 : (bpow radix2 (-22) <= RN32 (1 / c1) <= bpow radix2 20)%R) by (split; [apply RN_ge|apply RN_le_r]; try exact eq_refl; try (apply repr_ipow; lia); lra).
  assert (X2 : (0 <= r * r <= bpow radix2 42)%R). { split; [apply Rle_0_sqr|]. replace (r * r)%R with (Rabs r * Rabs r)%R by (rewrite <- Rabs_mult; apply Rabs_pos_eq; apply Rle_0_sqr). change 42%Z with (21 + 21)%Z. rewrite bpow_plus. pose proof (Rabs_pos r). apply Rmult_le_compat; lra. } assert (P42 : (bpow radix2 42 = 4398046511104)%R) by reflexivity.
  pose proof (fb_mul _ _ _ _ IX IX ltac:(lra)) as I3. assert (X3 : (0 <= RN32 (r * r) <= bpow radix2 42)%R) by (split; [apply RN_nonneg; lra|apply RN_le_r; [exact eq_refl|apply repr_ipow; lia|lra]]). pose proof (isf_neg _ _ I3) as I4.
  assert (S2 : (bpow radix2 (-40) <= s * s <= bpow radix2 40)%R). { change (-40)%Z with (-20 + -20)%Z. change 40%Z with (20 + 20)%Z. rewrite !bpow_plus. pose proof (bpow_ge_0 radix2 (-20)). split; apply Rmult_le_compat; lra. } assert (P40 : (bpow radix2 40 = 1099511627776)%R) by reflexivity. assert (M40 : (bpow radix2 (-40) = / 1099511627776)%R) by reflexivity.
  pose proof (fb_mul _ _ _ _ IS IS ltac:(lra)) as I5. assert (S3 : (bpow radix2 (-40) <= RN32 (s * s) <= bpow radix2 40)%R) by (split; [apply RN_ge|apply RN_le_r]; try exact eq_refl; try (apply repr_ipow; lia); lra).
  pose proof (fb_ofZ 2 ltac:(unfold u32_max; lia)) as ID. rewrite (RN_small 2) in ID by lia. pose proof (fb_mul _ _ _ _ ID I5 ltac:(lra)) as I6. assert (S4 : (bpow radix2 (-40) <= RN32 (2 * RN32 (s * s)))%R) by (apply RN_ge; [exact eq_refl|apply repr_ipow; lia|lra]).
  set (d := RN32 (2 * RN32 (s * s))) in *. set (n := RN32 (r * r)) in *. assert (DI : (0 < / d <= bpow radix2 40)%R) by (split; [apply Rinv_0_lt_compat; lra|]; rewrite P40, <- (Rinv_inv 1099511627776), <- M40; apply Rinv_le_contravar; lra).
  assert (Q : (- bpow radix2 82 <= - n / d <= 0)%R). { unfold Rdiv. rewrite Ropp_mult_distr_l_reverse. assert (0 <= n * / d <= bpow radix2 82)%R; [|lra]. split; [apply Rmult_le_pos; lra|]. change 82%Z with (42 + 40)%Z. rewrite bpow_plus. apply Rmult_le_compat; lra. }
  assert (B2 : (bpow radix2 82 <= IZR (2 ^ 99))%R) by (rewrite <- IZR_Zpower by lia; apply IZR_le; vm_compute; discriminate). assert (ND : d <> 0%R) by lra. pose proof (fs_div _ _ _ _ I4 I6 ND ltac:(apply Rabs_le; lra)) as I7. assert (A0 : (RN32 (- n / d) <= 0)%R) by (apply RN_le_r; [exact eq_refl|apply (repr_Z 24 128 f32_prec f32_emax 0); lia|lra]).
  destruct (exp_acc lm _ _ HL I7 A0) as (v & Iv & V1 & V2). exists (RN32 (1 / c1)), (RN32 (- n / d)), v. split; [exact C3|]. split; [reflexivity|]. split; [exact A0|]. split; [exact V1|]. split; [exact V2|].
  split; [|symmetry; exact (proj1 I2)]. apply fb_mul; [exact I2|exact Iv|]. split; [apply Rmult_le_pos; lra|]. apply Rle_trans with (bpow radix2 20 * 1)%R; [apply Rmult_le_compat; lra|lra].
Qed.
Lemma exp_m2 : (/ 9 <= exp (-2))%R.
Proof. replace (-2)%R with (- (2))%R by lra. rewrite exp_Ropp. apply Rinv_le_contravar; [apply exp_pos|]. replace 2%R with (1 + 1)%R by ring. rewrite exp_plus. pose proof exp_le_3. pose proof (exp_pos 1). replace 9%R with (3 * 3)%R by ring. apply Rmult_le_compat; lra. Qed.
Lemma gaussian_good lm sg s d : exp_accurate lm -> isf sg s -> (bpow radix2 (-20) <= s <= bpow radix2 20)%R -> (forall r, (Rabs r <= d)%R -> (-2 <= RN32 (- RN32 (r * r) / RN32 (2 * RN32 (s * s))))%R) -> good_kernel d (fun x => gaussian lm x sg).
Proof.
  intros HL IS HS HD x r IX HX. destruct (gaussian_ok lm sg s x r HL IS HS IX HX) as (c & A & v & HC & EA & HA & HV & HE & IG & _). exists (RN32 (c * v)). split; [exact IG|].
  assert (M22 : (bpow radix2 (-22) = / 4194304)%R) by reflexivity. assert (CV : (0 <= c * v <= bpow radix2 20)%R) by (split; [apply Rmult_le_pos; lra|]; rewrite <- (Rmult_1_r (bpow radix2 20)); apply Rmult_le_compat; lra).
  split. { split; [apply RN_nonneg; lra|]. apply Rle_trans with (bpow radix2 20); [apply RN_le_r; [exact eq_refl|apply repr_ipow; lia|lra]|]. unfold B60. rewrite <- IZR_Zpower by lia. apply IZR_le. vm_compute. discriminate. }
  intros HR. specialize (HD r HR). rewrite <- EA in HD. assert (EX : (/ 9 <= exp A)%R) by (apply Rle_trans with (exp (-2)); [exact exp_m2|]; destruct (Rle_lt_or_eq_dec _ _ HD) as [G|G]; [left; apply exp_increasing; exact G|right; rewrite G; reflexivity]).
  apply Rabs_le_inv in HE. assert (VB : (/ 16 <= v)%R) by lra. apply Rle_trans with (bpow radix2 (-26)).
  - change (bpow radix2 (-26)) with (/ 67108864)%R. unfold B60. apply Rinv_le_contravar; [lra|apply IZR_le; vm_compute; discriminate].
  - apply RN_ge; [exact eq_refl|apply repr_ipow; lia|]. change (-26)%Z with (-22 + -4)%Z. rewrite bpow_plus. change (bpow radix2 (-4)) with (/ 16)%R. apply Rmult_le_compat; lra.
Qed.
Lemma gaussian_half lm : exp_accurate lm -> good_kernel (15 / 16) (fun x => gaussian lm x f32_half).
Proof.
  intros HL. apply (gaussian_good lm _ (/ 2)%R); [exact HL|exact half_ok|change (bpow radix2 (-20)) with (/ 1048576)%R; change (bpow radix2 20) with 1048576%R; lra|].
  intros r HR. assert (H2 : RN32 (/ 2 * / 2) = (/ 4)%R) by (replace (/ 2 * / 2)%R with (/ IZR (2 ^ 2))%R by (change (IZR (2 ^ 2)) with 4%R; lra); rewrite RN_repr; [reflexivity|apply repr_pow; lia]). rewrite H2.
  assert (H3 : RN32 (2 * / 4) = (/ 2)%R) by (replace (2 * / 4)%R with (/ IZR (2 ^ 1))%R by (change (IZR (2 ^ 1)) with 2%R; lra); rewrite RN_repr; [reflexivity|apply repr_pow; lia]). rewrite H3.
  assert (RR : (0 <= r * r <= 1)%R). { split; [apply Rle_0_sqr|]. replace (r * r)%R with (Rabs r * Rabs r)%R by (rewrite <- Rabs_mult; apply Rabs_pos_eq; apply Rle_0_sqr). pose proof (Rabs_pos r). rewrite <- (Rmult_1_r 1). apply Rmult_le_compat; lra. }
  pose proof (RN_01 _ RR) as R1. apply RN_ge; [exact eq_refl|apply (repr_Z 24 128 f32_prec f32_emax (-2)); lia|]. unfold Rdiv. rewrite Rinv_inv. lra.
Qed.
