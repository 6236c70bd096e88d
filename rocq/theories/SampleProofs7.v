From Coq Require Import ZArith Bool Reals Lia Lra.
From Flocq Require Import Core IEEE754.BinarySingleNaN.
From Verif Require Import Base BaseLemmas ListLemmas ListMore Color ColorProofs Float FloatProofs JpegQuant ColorF ColorFProofs GenImage Thumb ThumbSpec ThumbProofs ThumbProofs2 ThumbProofs3 ThumbProofs4 Sample SampleSpec SampleProofs SampleProofs2 SampleProofs3 SampleProofs4 SampleProofs5.
Local Open Scope Z_scope.

(** ** weighted means *)
Definition wsum (vr ks : list R) : R := rsum (rmul2 vr ks).
Lemma wsum_nil : wsum [] [] = 0%R. Proof. reflexivity. Qed.
Lemma wsum_cons v vr k ks : wsum (v :: vr) (k :: ks) = (v * k + wsum vr ks)%R. Proof. reflexivity. Qed.
Lemma rsum_cons k ks : rsum (k :: ks) = (k + rsum ks)%R. Proof. reflexivity. Qed.
(** rounded quotients as weights *)
Lemma wsum_RN_div vr : forall ks R0 b, length vr = length ks -> (0 < R0)%R -> Forall (fun v => 0 <= v <= b)%R vr -> Forall (fun k => 0 <= k)%R ks ->
  (wsum vr ks / R0 * pp - INR (length ks) * (b * eta) <= wsum vr (map (fun k => RN32 (k / R0)) ks) <= wsum vr ks / R0 * qq + INR (length ks) * (b * eta))%R.
Proof.
  induction vr as [|v vr IH]; intros [|k ks] R0 b HL HR FV FK; try discriminate HL; [cbn [map length]; rewrite wsum_nil; cbn [INR]; unfold Rdiv; lra|]. cbn [length] in HL. apply Nat.succ_inj in HL. inversion_clear FV as [|? ? V1 V2]. inversion_clear FK as [|? ? K1 K2].
  cbn [map]. rewrite !wsum_cons. cbn [length]. rewrite S_INR. specialize (IH ks R0 b HL HR V2 K2). assert (Z0 : (0 <= k / R0)%R) by (unfold Rdiv; apply Rmult_le_pos; [lra|]; apply Rlt_le; apply Rinv_0_lt_compat; exact HR). pose proof (RN_up _ Z0) as UP. pose proof (RN_dn _ Z0) as DN. destruct eta_val as [T0 _].
  assert (A1 : (v * (k / R0 * pp - eta) <= v * RN32 (k / R0))%R) by (apply Rmult_le_compat_l; lra). assert (A2 : (v * RN32 (k / R0) <= v * (k / R0 * qq + eta))%R) by (apply Rmult_le_compat_l; lra). assert (A3 : (v * eta <= b * eta)%R) by (apply Rmult_le_compat_r; lra).
  replace ((v * k + wsum vr ks) / R0 * pp)%R with (v * (k / R0 * pp) + wsum vr ks / R0 * pp)%R by (unfold Rdiv; ring). replace ((v * k + wsum vr ks) / R0 * qq)%R with (v * (k / R0 * qq) + wsum vr ks / R0 * qq)%R by (unfold Rdiv; ring).
  rewrite Rmult_minus_distr_l in A1. rewrite Rmult_plus_distr_l in A2. lra.
Qed.
Lemma wsum_bounds vr : forall ks a b, length vr = length ks -> Forall (fun v => a <= v <= b)%R vr -> Forall (fun k => 0 <= k)%R ks -> (a * rsum ks <= wsum vr ks <= b * rsum ks)%R.
Proof.
  induction vr as [|v vr IH]; intros [|k ks] a b HL FV FK; try discriminate HL; [rewrite wsum_nil; cbn; lra|]. cbn [length] in HL. apply Nat.succ_inj in HL. inversion_clear FV as [|? ? V1 V2]. inversion_clear FK as [|? ? K1 K2]. rewrite wsum_cons, rsum_cons, !Rmult_plus_distr_l. specialize (IH ks a b HL V2 K2). assert (a * k <= v * k)%R by (apply Rmult_le_compat_r; lra). assert (v * k <= b * k)%R by (apply Rmult_le_compat_r; lra). lra.
Qed.
Lemma wsum_mono vr : forall vr' ks c e, length vr = length ks -> Forall2 (fun v v' => v <= v' * c + e)%R vr vr' -> Forall (fun k => 0 <= k)%R ks -> (wsum vr ks <= wsum vr' ks * c + e * rsum ks)%R.
Proof.
  induction vr as [|v vr IH]; intros vr' [|k ks] c e HL F2 FK; try discriminate HL; [inversion F2; rewrite wsum_nil; cbn; lra|]. cbn [length] in HL. apply Nat.succ_inj in HL. inversion F2 as [|? v' ? vs' V1 V2]; subst. inversion_clear FK as [|? ? K1 K2]. rewrite !wsum_cons, rsum_cons. specialize (IH vs' ks c e HL V2 K2). assert (v * k <= (v' * c + e) * k)%R by (apply Rmult_le_compat_r; lra). lra.
Qed.
Lemma wsum_mono_lo vr : forall vr' ks c e, length vr = length ks -> Forall2 (fun v v' => v' * c - e <= v)%R vr vr' -> Forall (fun k => 0 <= k)%R ks -> (wsum vr' ks * c - e * rsum ks <= wsum vr ks)%R.
Proof.
  induction vr as [|v vr IH]; intros vr' [|k ks] c e HL F2 FK; try discriminate HL; [inversion F2; rewrite wsum_nil; cbn; lra|]. cbn [length] in HL. apply Nat.succ_inj in HL. inversion F2 as [|? v' ? vs' V1 V2]; subst. inversion_clear FK as [|? ? K1 K2]. rewrite !wsum_cons, rsum_cons. specialize (IH vs' ks c e HL V2 K2). assert ((v' * c - e) * k <= v * k)%R by (apply Rmult_le_compat_r; lra). lra.
Qed.

(** the computed weights, one by one *)
Lemma normal_weights_each l ks : Forall2 isf l ks -> Forall (fun k => 0 <= k <= B60)%R ks -> zlen l <= 1048000 -> Exists (fun k => / B60 <= k)%R ks ->
  exists R0 s, (0 < R0)%R /\ rsum ks = (s * R0)%R /\ (pp ^ (length l + 1) <= s <= qq ^ (length l + 1))%R /\ Forall2 isf (map (fun w => f32_div w (fsum l)) l) (map (fun k => RN32 (k / R0)) ks) /\ Forall (fun w => 0 <= w <= 2)%R (map (fun k => RN32 (k / R0)) ks).
Proof.
  intros F2 FB HL EX. destruct (raw_sum l ks F2 FB ltac:(lia) EX) as (R & HR & RB & SS). cbv zeta in RB. destruct B60_val as [B1 B2]. destruct uu_val as [U0 U1]. set (n := length l) in *. assert (HN : Z.of_nat n <= 1048000) by exact HL.
  assert (F0 : Forall (fun r => 0 <= r)%R ks) by (eapply Forall_impl; [|exact FB]; intros k Hk; cbv beta in Hk; lra).
  assert (P0 : (0 < / B60)%R) by (apply Rinv_0_lt_compat; lra). pose proof (pp_half (n + 1) ltac:(lia)) as PH. pose proof (qq_two (n + 1) ltac:(lia)) as QH. pose proof (pq (n + 1)) as PQ. pose proof (pp1 (n + 1)) as P1. pose proof (qq1 (n + 1)) as Q1.
  assert (RP : (0 < R)%R) by (apply Rlt_le_trans with (rsum ks * pp ^ (n + 1))%R; [apply Rmult_lt_0_compat; lra|lra]). assert (RI : (0 < / R)%R) by (apply Rinv_0_lt_compat; exact RP).
  set (s := (rsum ks / R)%R). assert (SR : (rsum ks = s * R)%R) by (unfold s; field; lra). assert (S0 : (0 <= s)%R) by (unfold s, Rdiv; apply Rmult_le_pos; lra).
  assert (SB : (pp ^ (n + 1) <= s <= qq ^ (n + 1))%R).
  { split; apply Rmult_le_reg_r with R; try exact RP; rewrite <- SR.
    - apply Rle_trans with (pp ^ (n + 1) * (rsum ks * qq ^ (n + 1)))%R; [apply Rmult_le_compat_l; lra|]. replace (pp ^ (n + 1) * (rsum ks * qq ^ (n + 1)))%R with (rsum ks * (pp ^ (n + 1) * qq ^ (n + 1)))%R by ring. rewrite PQ. lra.
    - apply Rle_trans with (qq ^ (n + 1) * (rsum ks * pp ^ (n + 1)))%R; [|apply Rmult_le_compat_l; lra]. replace (qq ^ (n + 1) * (rsum ks * pp ^ (n + 1)))%R with (rsum ks * (pp ^ (n + 1) * qq ^ (n + 1)))%R by ring. rewrite PQ. lra. }
  assert (KB : forall k, In k ks -> (0 <= k / R <= 1.2)%R).
  { intros k I. pose proof (rsum_in ks k F0 I). pose proof (proj1 (Forall_forall _ _) F0 k I) as K0. cbv beta in K0. unfold Rdiv. split; [apply Rmult_le_pos; lra|]. apply Rle_trans with (rsum ks * / R)%R; [apply Rmult_le_compat_r; lra|]. fold s. unfold s, Rdiv in SB. lra. }
  exists R, s. split; [exact RP|]. split; [exact SR|]. split; [exact SB|]. split.
  - apply (Forall2_isf_map _ (fun k => RN32 (k / R)) l ks F2). intros x k I HX. apply fb_div; [exact HX|exact HR|lra|]. specialize (KB k I). pose proof big_B. lra.
  - apply Forall_forall. intros r I. apply in_map_iff in I. destruct I as (k & <- & I). specialize (KB k I). split; [apply RN_nonneg; lra|]. apply RN_le_r; [exact eq_refl|apply (repr_Z 24 128 f32_prec f32_emax 2); lia|lra].
Qed.
(** the computed weighted sum is the weighted mean, up to relative and tiny absolute errors *)
Lemma dot_mean l ks vs vr b : Forall2 isf l ks -> Forall (fun k => 0 <= k <= B60)%R ks -> zlen l <= 1048000 -> Exists (fun k => / B60 <= k)%R ks -> Forall2 isf vs vr -> length vs = length l -> Forall (fun v => 0 <= v <= b)%R vr -> (b <= 100000)%R ->
  let n := length l in let M := (wsum vr ks / rsum ks)%R in exists T, isf (dot vs (map (fun w => f32_div w (fsum l)) l)) T /\ (0 <= T)%R /\ (M * pp ^ (2 * n + 4) - / B60 <= T <= M * qq ^ (2 * n + 4) + / B60)%R.
Proof.
  intros F2 FB HL EX FV LV BV BB n M. destruct (normal_weights_each l ks F2 FB HL EX) as (R0 & s & R0P & SR & SB & FW & BW). fold n in SB. set (ws := map (fun w => f32_div w (fsum l)) l) in *. set (wr := map (fun k => RN32 (k / R0)) ks) in *. assert (HN : Z.of_nat n <= 1048000) by exact HL.
  assert (Lks : length ks = n) by (symmetry; apply (f2_length _ _ _ F2)). assert (Lvr : length vr = n) by (rewrite <- (f2_length _ _ _ FV); exact LV). assert (Lwr : length wr = n) by (unfold wr; rewrite map_length; exact Lks). assert (Lws : length ws = n) by (unfold ws; rewrite map_length; reflexivity).
  destruct (rmul2_bounds 0 b vr wr ltac:(lia) BV BW ltac:(lra)) as [_ FB2]. assert (F0 : Forall (fun r => 0 <= r)%R ks) by (eapply Forall_impl; [|exact FB]; intros k Hk; cbv beta in Hk; lra).
  destruct uu_val as [U0 U1]. destruct (eta_n n ltac:(lia)) as [[E0 E1] _]. destruct B60_val as [B1 B2]. assert (P0 : (0 < / B60)%R) by (apply Rinv_0_lt_compat; lra). destruct eta_val as [T0 _].
  assert (LR : length (rmul2 vr wr) = n) by (unfold rmul2; rewrite map_length, combine_length, Lvr, Lwr, Nat.min_id; reflexivity).
  assert (FB' : Forall (fun r => 0 <= r <= 200000)%R (rmul2 vr wr)) by (eapply Forall_impl; [|exact FB2]; intros r Hr; cbv beta in Hr; lra).
  assert (B200 : (200001 <= B61)%R) by (unfold B61; apply IZR_le; vm_compute; discriminate). assert (B2100 : (200001 <= B100)%R) by (unfold B100; apply IZR_le; vm_compute; discriminate).
  pose proof (rmul2_isf vs vr ws wr FV FW) as FI. specialize (FI ltac:(eapply Forall_impl; [|exact FB']; intros r Hr; cbv beta in Hr; lra)). unfold dot.
  set (l' := map (fun '(v, w) => f32_mul v w) (combine vs ws)) in *. assert (LL : length l' = n) by (unfold l'; rewrite map_length, combine_length, Lws, LV; apply Nat.min_id).
  destruct (addsum l' (map RN32 (rmul2 vr wr)) FI) as (T & HT & TP & TB).
  { apply Forall_forall. intros r I. apply in_map_iff in I. destruct I as (z & <- & I). pose proof (proj1 (Forall_forall _ _) FB' z I) as HS. cbv beta in HS. split; [apply RN_nonneg; lra|]. apply Rle_trans with 200000%R; [|lra]. apply RN_le_r; [exact eq_refl|apply (repr_Z 24 128 f32_prec f32_emax 200000); lia|lra]. }
  { unfold zlen. rewrite LL. lia. }
  exists T. split; [exact HT|]. split; [exact TP|]. cbv zeta in TB. rewrite LL in TB.
  assert (F0' : Forall (fun r => 0 <= r)%R (rmul2 vr wr)) by (eapply Forall_impl; [|exact FB']; intros r Hr; cbv beta in Hr; lra).
  pose proof (rsum_RN _ F0') as RR. rewrite LR in RR. pose proof (wsum_RN_div vr ks R0 b ltac:(lia) R0P BV F0) as WD. fold wr in WD. change (wsum vr wr) with (rsum (rmul2 vr wr)) in WD. rewrite Lks in WD.
  assert (S1 : (0 < s)%R) by (pose proof (pp1 (n + 1)); lra). assert (KS : (0 < rsum ks)%R) by (rewrite SR; apply Rmult_lt_0_compat; lra). assert (ME : (wsum vr ks / R0 = M * s)%R) by (unfold M; rewrite SR; field; lra). rewrite ME in WD.
  assert (M0 : (0 <= M)%R). { pose proof (wsum_bounds vr ks 0 b ltac:(lia) BV F0). unfold M, Rdiv. apply Rmult_le_pos; [lra|]. apply Rlt_le. apply Rinv_0_lt_compat. exact KS. }
  set (X := rsum (map RN32 (rmul2 vr wr))) in *. set (Y := rsum (rmul2 vr wr)) in *. clearbody X Y l' M. clear FI FW BW FB2 FB' F0' ME KS SR.
  pose proof (pp1 n) as P1. pose proof (qq1 n) as Q1. pose proof (qq_two n ltac:(lia)) as Q2. pose proof pp_val as PV. pose proof qq_val as QV.
  assert (AW : (M * pp ^ (n + 1) <= M * s)%R) by (apply Rmult_le_compat_l; lra). assert (BW' : (M * s <= M * qq ^ (n + 1))%R) by (apply Rmult_le_compat_l; lra).
  (** 2 n + 4 = n + 1 + 1 + 1 + n + 1: one factor to spare *)
  replace (2 * n + 4)%nat with (1 + (n + 1 + (2 + n)))%nat by lia. rewrite (pow_add pp 1), (pow_add qq 1), (pow_add pp (n + 1)), (pow_add qq (n + 1)), (pow_add pp 2), (pow_add qq 2), !pow_1. change (pp ^ 2)%R with (pp * (pp * 1))%R. change (qq ^ 2)%R with (qq * (qq * 1))%R. rewrite !Rmult_1_r.
  set (e := (INR n * (2 * eta))%R) in *. replace (INR n * eta)%R with (e / 2)%R in RR by (unfold e; field). replace (INR n * (b * eta))%R with (b * (e / 2))%R in WD by (unfold e; field). clearbody e.
  assert (BE : (b * (e / 2) <= 100000 * (e / 2))%R) by (apply Rmult_le_compat_r; lra). assert (EU : (e <= / B60 * / 66800000)%R) by (apply Rle_trans with (/ B60 * (uu * / 4))%R; [lra|]; apply Rmult_le_compat_l; lra). assert (EU' : (50000 * e <= / B60 * / 1000)%R) by lra.
  assert (PN : (0 < pp ^ (n + 1) <= 1)%R) by apply pp1. assert (QN : (1 <= qq ^ (n + 1))%R) by apply qq1.
  split.
  - assert (Y1 : (M * pp ^ (n + 1) * pp - 50000 * e <= Y)%R) by (assert (M * pp ^ (n + 1) * pp <= M * s * pp)%R by (apply Rmult_le_compat_r; lra); lra).
    assert (Z1 : ((M * pp ^ (n + 1) * pp - 50000 * e) * pp <= Y * pp)%R) by (apply Rmult_le_compat_r; lra). assert (Z4 : (50000 * e * pp <= 50000 * e * 1)%R) by (apply Rmult_le_compat_l; lra). assert (Z2 : ((M * pp ^ (n + 1) * pp * pp - 50001 * e) * pp ^ n <= X * pp ^ n)%R) by (apply Rmult_le_compat_r; lra).
    assert (Z3 : (50001 * e * pp ^ n <= 50001 * e * 1)%R) by (apply Rmult_le_compat_l; lra). set (G := (M * pp ^ (n + 1) * pp * pp * pp ^ n)%R). assert (G0 : (0 <= G)%R) by (unfold G; repeat (apply Rmult_le_pos; try lra)). replace (M * (pp * (pp ^ (n + 1) * (pp * pp * pp ^ n))))%R with (pp * G)%R by (unfold G; ring). assert (pp * G <= 1 * G)%R by (apply Rmult_le_compat_r; lra). replace ((M * pp ^ (n + 1) * pp * pp - 50001 * e) * pp ^ n)%R with (G - 50001 * e * pp ^ n)%R in Z2 by (unfold G; ring). lra.
  - assert (Y0 : (M * s * qq <= M * qq ^ (n + 1) * qq)%R) by (apply Rmult_le_compat_r; lra). assert (Y1 : (Y <= M * qq ^ (n + 1) * qq + 50000 * e)%R) by lra.
    assert (Z1 : (Y * qq <= (M * qq ^ (n + 1) * qq + 50000 * e) * qq)%R) by (apply Rmult_le_compat_r; lra). assert (Z4 : (50000 * e * qq <= 50000 * e * 2)%R) by (apply Rmult_le_compat_l; lra). assert (Z2 : (X * qq ^ n <= (M * qq ^ (n + 1) * qq * qq + 100001 * e) * qq ^ n)%R) by (apply Rmult_le_compat_r; lra).
    assert (Z3 : (100001 * e * qq ^ n <= 100001 * e * 2)%R) by (apply Rmult_le_compat_l; lra). set (G := (M * qq ^ (n + 1) * qq * qq * qq ^ n)%R). assert (G0 : (0 <= G)%R) by (unfold G; repeat (apply Rmult_le_pos; try lra)). replace (M * (qq * (qq ^ (n + 1) * (qq * qq * qq ^ n))))%R with (qq * G)%R by (unfold G; ring). assert (1 * G <= qq * G)%R by (apply Rmult_le_compat_r; lra). replace ((M * qq ^ (n + 1) * qq * qq + 100001 * e) * qq ^ n)%R with (G + 100001 * e * qq ^ n)%R in Z2 by (unfold G; ring). lra.
Qed.

(** ** the value of an output channel *)
Definition taps_val (f : filter) (size ns out : Z) (K : Z -> R) : Prop :=
  (forall i, left_tap f size ns out <= i < right_tap f size ns out -> isf (kernel f (kernel_arg size ns out i)) (K i) /\ (0 <= K i <= B60)%R) /\ exists i, left_tap f size ns out <= i < right_tap f size ns out /\ (/ B60 <= K i)%R.
Lemma taps_val_raw f size ns out K : taps_val f size ns out K ->
  let ks := map K (zrange (left_tap f size ns out) (ntaps f size ns out)) in Forall2 isf (raw_weights f size ns out) ks /\ Forall (fun k => 0 <= k <= B60)%R ks /\ Exists (fun k => / B60 <= k)%R ks.
Proof.
  intros (H1 & i0 & HI & HK) ks. unfold ks. assert (G : forall i, In i (zrange (left_tap f size ns out) (ntaps f size ns out)) -> left_tap f size ns out <= i < right_tap f size ns out) by (intros i Hi; apply In_zrange in Hi; unfold ntaps in Hi; lia). rewrite raw_map. split; [|split].
  - apply Forall2_map_isf. intros i Hi. apply (H1 i (G i Hi)).
  - apply Forall_forall. intros r Hr. apply in_map_iff in Hr. destruct Hr as (i & <- & Hi). apply (H1 i (G i Hi)).
  - apply Exists_exists. exists (K i0). split; [|exact HK]. apply in_map. apply In_zrange. unfold ntaps. lia.
Qed.
Lemma taps_val_good f size ns out K : taps_val f size ns out K -> good_taps f size ns out.
Proof. intros H. eexists. apply (taps_val_raw f size ns out K H). Qed.
Lemma wsum_mean (v K : Z -> R) a n : wsum (map v (zrange a n)) (map K (zrange a n)) = sumr (fun i => v i * K i)%R a n.
Proof.
  unfold sumr. induction (zrange a n) as [|i l IH]; [reflexivity|]. cbn [map]. rewrite wsum_cons, IH. reflexivity.
Qed.
(** one pass over one row or column *)
Lemma pass_mean f size ns out K (vs : Z -> f32) (vr : Z -> R) b : 1 <= size -> ntaps f size ns out <= 1048000 -> taps_val f size ns out K -> (forall i, left_tap f size ns out <= i < right_tap f size ns out -> isf (vs i) (vr i) /\ (0 <= vr i <= b)%R) -> (b <= 100000)%R ->
  let n := Z.to_nat (ntaps f size ns out) in let M := mean K vr (left_tap f size ns out) (ntaps f size ns out) in
  exists T, isf (dot (map (fun j => vs (left_tap f size ns out + j)) (zrange 0 (ntaps f size ns out))) (weights f size ns out)) T /\ (0 <= T)%R /\ (M * pp ^ (2 * n + 4) - / B60 <= T <= M * qq ^ (2 * n + 4) + / B60)%R.
Proof.
  intros HS HN TV HV BB n M. destruct (taps_val_raw f size ns out K TV) as (F2 & FB & EX). pose proof (zlen_raw f size ns out HS) as LR. pose proof (taps_range f size ns out HS) as TR. assert (NR : length (raw_weights f size ns out) = n) by (unfold zlen in LR; unfold n; lia).
  set (l := left_tap f size ns out) in *. set (m := ntaps f size ns out) in *. rewrite <- (map_zrange_shift vs l m). unfold weights. cbv zeta.
  assert (G : forall i, In i (zrange l m) -> l <= i < right_tap f size ns out) by (intros i Hi; apply In_zrange in Hi; unfold m, ntaps in Hi; fold l in Hi; lia).
  destruct (dot_mean (raw_weights f size ns out) (map K (zrange l m)) (map vs (zrange l m)) (map vr (zrange l m)) b F2 FB ltac:(lia) EX) as (T & H1 & H2 & H3).
  - apply Forall2_map_isf. intros i Hi. apply (HV i (G i Hi)).
  - rewrite map_length, NR. assert (Z := zlen_zrange l m). unfold zlen in Z. unfold n. lia.
  - apply Forall_forall. intros r Hr. apply in_map_iff in Hr. destruct Hr as (i & <- & Hi). apply (HV i (G i Hi)).
  - exact BB.
  - cbv zeta in H3. rewrite NR, wsum_mean in H3. exists T. split; [exact H1|]. split; [exact H2|]. exact H3.
Qed.
Lemma sumr_nonneg K a n : (forall i, a <= i < a + n -> (0 <= K i)%R) -> (0 <= sumr K a n)%R.
Proof. intros H. unfold sumr. apply (rsum_nonneg (map K (zrange a n))). apply Forall_forall. intros r Hr. apply in_map_iff in Hr. destruct Hr as (i & <- & Hi). apply In_zrange in Hi. apply H. lia. Qed.
Lemma taps_sum f size ns out K : taps_val f size ns out K -> (0 < sumr K (left_tap f size ns out) (ntaps f size ns out))%R.
Proof.
  intros TV. destruct (taps_val_raw f size ns out K TV) as (_ & FB & EX). apply Exists_exists in EX. destruct EX as (k & I & HK). assert (F0 : Forall (fun r => 0 <= r)%R (map K (zrange (left_tap f size ns out) (ntaps f size ns out)))) by (eapply Forall_impl; [|exact FB]; intros r Hr; cbv beta in Hr; lra). pose proof (rsum_in _ k F0 I) as P. destruct e60 as [E0 _]. unfold sumr. unfold rsum in P. lra.
Qed.
Lemma mean_range K v a n lo hi : (forall i, a <= i < a + n -> (0 <= K i)%R) -> (0 < sumr K a n)%R -> (forall i, a <= i < a + n -> (lo <= v i <= hi)%R) -> (lo <= mean K v a n <= hi)%R.
Proof.
  intros HK HS HV. unfold mean. rewrite <- wsum_mean. pose proof (wsum_bounds (map v (zrange a n)) (map K (zrange a n)) lo hi) as W. rewrite !map_length in W. specialize (W eq_refl).
  assert (W1 : Forall (fun x => lo <= x <= hi)%R (map v (zrange a n))) by (apply Forall_forall; intros r Hr; apply in_map_iff in Hr; destruct Hr as (i & <- & Hi); apply In_zrange in Hi; apply HV; lia). assert (W2 : Forall (fun k => 0 <= k)%R (map K (zrange a n))) by (apply Forall_forall; intros r Hr; apply in_map_iff in Hr; destruct Hr as (i & <- & Hi); apply In_zrange in Hi; apply HK; lia). specialize (W W1 W2). change (rsum (map K (zrange a n))) with (sumr K a n) in W.
  unfold Rdiv. split; apply Rmult_le_reg_r with (sumr K a n); try exact HS; rewrite Rmult_assoc, Rinv_l, Rmult_1_r by lra; lra.
Qed.
Lemma mean_scaled_hi K v w a n c e : (forall i, a <= i < a + n -> (0 <= K i)%R) -> (0 < sumr K a n)%R -> (forall i, a <= i < a + n -> (v i <= w i * c + e)%R) -> (mean K v a n <= mean K w a n * c + e)%R.
Proof.
  intros HK HS HV. unfold mean. rewrite <- !wsum_mean. pose proof (wsum_mono (map v (zrange a n)) (map w (zrange a n)) (map K (zrange a n)) c e) as W. rewrite !map_length in W. specialize (W eq_refl).
  assert (W1 : Forall2 (fun x y => x <= y * c + e)%R (map v (zrange a n)) (map w (zrange a n))). { assert (G : forall l, (forall i, In i l -> a <= i < a + n) -> Forall2 (fun x y => x <= y * c + e)%R (map v l) (map w l)). { induction l as [|i l IH]; intros HL; cbn [map]; constructor; [apply HV; apply HL; left; reflexivity|apply IH; intros; apply HL; right; assumption]. } apply G. intros i Hi. apply In_zrange in Hi. lia. }
  assert (W2 : Forall (fun k => 0 <= k)%R (map K (zrange a n))) by (apply Forall_forall; intros r Hr; apply in_map_iff in Hr; destruct Hr as (i & <- & Hi); apply In_zrange in Hi; apply HK; lia). specialize (W W1 W2). change (rsum (map K (zrange a n))) with (sumr K a n) in W. set (X := wsum (map v (zrange a n)) (map K (zrange a n))) in *. set (Y := wsum (map w (zrange a n)) (map K (zrange a n))) in *.
  apply Rmult_le_reg_r with (sumr K a n); [exact HS|]. replace (X / sumr K a n * sumr K a n)%R with X by (field; lra). replace ((Y / sumr K a n * c + e) * sumr K a n)%R with (Y * c + e * sumr K a n)%R by (field; lra). exact W.
Qed.
Lemma mean_opp K v a n : mean K (fun i => - v i)%R a n = (- mean K v a n)%R.
Proof.
  assert (E : (sumr (fun i => - v i * K i) a n = - sumr (fun i => v i * K i) a n)%R) by (unfold sumr; induction (zrange a n) as [|i l IH]; cbn [map fold_right]; [ring|rewrite IH; ring]). unfold mean. rewrite E. unfold Rdiv. ring.
Qed.
Lemma mean_scaled_lo K v w a n c e : (forall i, a <= i < a + n -> (0 <= K i)%R) -> (0 < sumr K a n)%R -> (forall i, a <= i < a + n -> (w i * c - e <= v i)%R) -> (mean K w a n * c - e <= mean K v a n)%R.
Proof.
  intros HK HS HV. pose proof (mean_scaled_hi K (fun i => - v i)%R (fun i => - w i)%R a n c e HK HS) as H. rewrite !mean_opp in H. assert (G : forall i, a <= i < a + n -> (- v i <= - w i * c + e)%R) by (intros i Hi; specialize (HV i Hi); lra). specialize (H G). lra.
Qed.
