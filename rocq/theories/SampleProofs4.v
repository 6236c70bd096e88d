From Coq Require Import ZArith Bool Reals Lia Lra.
From Flocq Require Import Core IEEE754.BinarySingleNaN.
From Verif Require Import Base BaseLemmas ListMore Color ColorProofs Float FloatProofs JpegQuant ColorF ColorFProofs GenImage Thumb ThumbSpec ThumbProofs ThumbProofs2 ThumbProofs3 ThumbProofs4 Sample SampleSpec SampleProofs SampleProofs2 SampleProofs3.
Local Open Scope Z_scope.

Lemma scale_ok size ns : 1 <= size <= u32_max -> 1 <= ns <= u32_max -> isf (scale size ns) (ratio size ns).
Proof.
  intros H1 H2. pose proof (RN_Z_range size H1) as R1. pose proof (RN_Z_range ns H2) as R2. unfold scale, ratio. apply fb_div; [apply fb_ofZ; lia|apply fb_ofZ; lia|lra|].
  assert (I : (0 < / RN32 (IZR ns) <= 1)%R) by (split; [apply Rinv_0_lt_compat; lra|rewrite <- Rinv_1; apply Rinv_le_contravar; lra]). unfold Rdiv. split; [apply Rmult_le_pos; lra|]. apply Rle_trans with (IZR (2 ^ 32) * 1)%R; [apply Rmult_le_compat; lra|]. unfold B100. rewrite Rmult_1_r. apply IZR_le. vm_compute. discriminate.
Qed.
Lemma ratio_near size ns : 1 <= size <= u32_max -> 1 <= ns <= u32_max -> near 6 (ratio size ns) (IZR size / IZR ns) (IZR size / IZR ns).
Proof.
  intros H1 H2. assert (P1 : (1 <= IZR size)%R) by (apply IZR_le; lia). assert (P2 : (1 <= IZR ns)%R) by (apply IZR_le; lia).
  pose proof (near_RN _ (big_Z ns ltac:(lia))) as N1. pose proof (near_RN _ (big_Z size ltac:(lia))) as N2. pose proof (near_div 1 (IZR ns) _ ltac:(lra) P2 N1) as N3.
  assert (I0 : (0 <= 1 / IZR ns)%R) by (apply Rle_mult_inv_pos; lra). assert (S0 : (0 <= IZR size)%R) by lra. pose proof (near_mul 1 2 _ _ _ _ ltac:(lra) ltac:(lra) S0 I0 N2 N3) as N4.
  pose proof (RN_Z_range size H1) as R1. pose proof (RN_Z_range ns H2) as R2. replace (IZR size * (1 / IZR ns))%R with (IZR size / IZR ns)%R in N4 by (field; lra). replace (RN32 (IZR size) * (1 / RN32 (IZR ns)))%R with (RN32 (IZR size) / RN32 (IZR ns))%R in N4 by (field; lra).
  assert (Q0 : (0 <= IZR size / IZR ns)%R) by (apply Rle_mult_inv_pos; lra). unfold ratio. replace 6%R with (1 + 2 + 1 + 2)%R by ring. apply near_RN_rel; [lra|exact Q0| |exact N4].
  right. apply Rle_trans with (1 * / IZR (2 ^ 32))%R; [rewrite Rmult_1_l; apply Rinv_le_contravar; [apply IZR_lt; lia|apply IZR_le; vm_compute; discriminate]|]. unfold Rdiv. apply Rmult_le_compat; [lra|apply Rlt_le; apply Rinv_0_lt_compat; apply IZR_lt; lia|lra|]. apply Rinv_le_contravar; lra.
Qed.
Lemma position_range size ns out : 1 <= size -> 1 <= ns -> 0 <= out < ns -> (0 < position size ns out < IZR size)%R.
Proof.
  intros H1 H2 H3. unfold position. assert (P1 : (1 <= IZR size)%R) by (apply IZR_le; lia). assert (P2 : (1 <= IZR ns)%R) by (apply IZR_le; lia). assert (P3 : (0 <= IZR out <= IZR ns - 1)%R) by (rewrite <- minus_IZR; split; apply IZR_le; lia).
  assert (Q0 : (0 < IZR size / IZR ns)%R) by (apply Rdiv_lt_0_compat; lra). split; [apply Rmult_lt_0_compat; lra|]. assert (E : (IZR ns * (IZR size / IZR ns) = IZR size)%R) by (field; lra). rewrite <- E at 2. apply Rmult_lt_compat_r; lra.
Qed.
Lemma centre_ok size ns out : 1 <= size <= u32_max -> 1 <= ns <= u32_max -> 0 <= out < ns -> exists C, isf (centre size ns out) C /\ near 12 C (position size ns out) (position size ns out) /\ (0 < C <= IZR (2 ^ 65))%R /\ C = RN32 (RN32 (RN32 (IZR out) + / 2) * ratio size ns).
Proof.
  intros H1 H2 H3. pose proof (ratio_range size ns H1 H2) as RR. assert (P : (0 < / IZR (2 ^ 32))%R) by (apply Rinv_0_lt_compat; apply IZR_lt; lia). assert (P32 : (IZR (2 ^ 32) = 4294967296)%R) by (apply f_equal; reflexivity).
  assert (O : (0 <= RN32 (IZR out) <= IZR (2 ^ 32))%R). { destruct (Z.eq_dec out 0) as [->|]; [rewrite RN_0, P32; lra|]. pose proof (RN_Z_range out ltac:(lia)). lra. }
  pose proof (fb_ofZ out ltac:(lia)) as I1. assert (B64 : (IZR (2 ^ 80) <= B100)%R) by (unfold B100; apply IZR_le; vm_compute; discriminate). assert (P80 : (IZR (2 ^ 80) = 1208925819614629174706176)%R) by (apply f_equal; reflexivity).
  pose proof (fb_add _ _ _ _ I1 half_ok ltac:(lra)) as I2. assert (P33 : (IZR (2 ^ 33) = 8589934592)%R) by (apply f_equal; reflexivity).
  assert (O2 : (/ 2 <= RN32 (RN32 (IZR out) + / 2) <= IZR (2 ^ 33))%R).
  { split; [apply RN_ge; [exact eq_refl|replace (/ 2)%R with (/ IZR (2 ^ 1))%R by reflexivity; apply repr_pow; lia|lra]|]. apply RN_le_r; [exact eq_refl|apply repr32_pow2; lia|lra]. }
  assert (PR : (0 < RN32 (RN32 (IZR out) + / 2) * ratio size ns <= IZR (2 ^ 65))%R). { split; [apply Rmult_lt_0_compat; lra|]. replace (IZR (2 ^ 65)) with (IZR (2 ^ 33) * IZR (2 ^ 32))%R by (rewrite <- mult_IZR; apply f_equal; reflexivity). apply Rmult_le_compat; lra. }
  assert (B65 : (IZR (2 ^ 65) <= B100)%R) by (unfold B100; apply IZR_le; vm_compute; discriminate).
  pose proof (fb_mul _ _ _ _ I2 (scale_ok size ns H1 H2) ltac:(lra)) as I3. eexists. split; [exact I3|].
  assert (BB : big 33 (RN32 (RN32 (IZR out) + / 2) * ratio size ns)). { apply (big_mul 1 32); [lia|lia|right; change (/ IZR (2 ^ 1))%R with (/ 2)%R; lra|right; lra]. }
  assert (PO : (0 <= IZR out)%R) by (apply IZR_le; lia). assert (P1 : (1 <= IZR size)%R) by (apply IZR_le; lia). assert (P2 : (1 <= IZR ns)%R) by (apply IZR_le; lia). assert (Q0 : (0 <= IZR size / IZR ns)%R) by (apply Rle_mult_inv_pos; lra). destruct uu_val as [U0 U1].
  split; [|split; [split|reflexivity]].
  - pose proof (near_RN _ (big_Z out ltac:(lia))) as N1. assert (N2 : near 1 (RN32 (IZR out) + / 2) (IZR out + / 2) (IZR out + / 2)) by (apply near_iff in N1; apply near_iff; lra).
    assert (N3 : near 3 (RN32 (RN32 (IZR out) + / 2)) (IZR out + / 2) (IZR out + / 2)). { replace 3%R with (1 + 2)%R by ring. apply near_RN_rel; [lra|lra| |exact N2]. right. apply Rle_trans with (/ 2)%R; [|lra]. apply Rinv_le_contravar; [lra|]. apply IZR_le. vm_compute. discriminate. }
    assert (PH : (0 <= IZR out + / 2)%R) by lra. pose proof (near_mul 3 6 _ _ _ _ ltac:(lra) ltac:(lra) PH Q0 N3 (ratio_near size ns H1 H2)) as N4. unfold position. replace 12%R with (3 + 6 + 1 + 2)%R by ring. apply near_RN_rel; [lra|apply Rmult_le_pos; lra| |exact N4]. apply (big_le 33 100); [lia|exact BB].
  - pose proof (big_RN 33 _ ltac:(lia) BB) as [E|E]; [|pose proof (inv_pos 33 ltac:(lia)); lra]. exfalso. destruct BB as [BB|BB]; [lra|]. assert (HR : (/ IZR (2 ^ 33) <= RN32 (RN32 (RN32 (IZR out) + / 2) * ratio size ns))%R) by (apply RN_ge; [exact eq_refl|apply repr_pow; lia|exact BB]). pose proof (inv_pos 33 ltac:(lia)). lra.
  - apply RN_le_r; [exact eq_refl|apply repr32_pow2; lia|lra].
Qed.
Lemma scale1_ok size ns : 1 <= size <= u32_max -> 1 <= ns <= u32_max -> exists S1, isf (scale1 size ns) S1 /\ (1 <= S1 <= IZR (2 ^ 32))%R /\ near 6 S1 (Rmax 1 (IZR size / IZR ns)) (Rmax 1 (IZR size / IZR ns)).
Proof.
  intros H1 H2. pose proof (scale_ok size ns H1 H2) as I. pose proof (ratio_range size ns H1 H2) as RR. pose proof (ratio_near size ns H1 H2) as N. unfold scale1. cbv zeta. rewrite (lt_ok _ _ _ _ I isf_one). assert (P32 : (IZR (2 ^ 32) = 4294967296)%R) by (apply f_equal; reflexivity). destruct uu_val as [U0 U1]. set (q := (IZR size / IZR ns)%R) in *.
  apply near_iff in N. destruct (Rlt_bool_spec (ratio size ns) 1) as [G|G].
  - exists 1%R. split; [exact isf_one|]. split; [lra|]. apply near_iff. destruct (Rle_or_lt q 1) as [K|K]; [rewrite Rmax_left by lra; lra|rewrite Rmax_right by lra; lra].
  - exists (ratio size ns). split; [exact I|]. split; [lra|]. apply near_iff. destruct (Rle_or_lt q 1) as [K|K]; [rewrite Rmax_left by lra|rewrite Rmax_right by lra; lra]. assert (uu * q <= uu * 1)%R by (apply Rmult_le_compat_l; lra). lra.
Qed.

(** ** the taps *)
Lemma isf_repr x r : isf x r -> repr 24 128 r.
Proof. intros (E & _). rewrite <- E. apply (generic_format_B2R 24 128). Qed.
Lemma as64_ok x r : isf x r -> (IZR i64_min <= r <= IZR i64_max)%R -> f32_as i64_min i64_max x = Ztrunc r.
Proof.
  intros I H. rewrite (as32_ok _ _ _ _ I). unfold clampz. assert (i64_min <= Ztrunc r <= i64_max); [|lia]. rewrite <- (Ztrunc_IZR i64_min), <- (Ztrunc_IZR i64_max) at 1. split; apply Ztrunc_le; lra.
Qed.
Lemma as64_clamp x z lo hi : isf x (IZR z) -> - 2 ^ 60 <= lo -> lo <= hi -> hi <= 2 ^ 60 -> clamp (f32_as i64_min i64_max x) lo hi = Z.max lo (Z.min hi z).
Proof.
  intros I H1 H2 H3. rewrite (as32_ok _ _ _ _ I), Ztrunc_IZR. unfold clamp, clampz, i64_min, i64_max. destruct (Z.ltb_spec (Z.max (-9223372036854775808) (Z.min 9223372036854775807 z)) lo); [lia|]. destruct (Z.gtb_spec (Z.max (-9223372036854775808) (Z.min 9223372036854775807 z)) hi); lia.
Qed.
(** the reach of the filter on either side, as computed *)
Definition reach (f : filter) (size ns : Z) (P : R) : Prop := isf (f32_mul (support f) (scale1 size ns)) P /\ (0 <= P <= IZR (2 ^ 90))%R.
Lemma taps_eq f size ns out C P : 1 <= size <= u32_max -> isf (centre size ns out) C -> (0 < C <= IZR (2 ^ 65))%R -> reach f size ns P ->
  left_tap f size ns out = Z.max 0 (Z.min (size - 1) (Zfloor (RN32 (C - P)))) /\ right_tap f size ns out = Z.max (left_tap f size ns out + 1) (Z.min size (Zceil (RN32 (C + P)))).
Proof.
  intros HS IC HC (IP & HP). assert (E : (IZR (2 ^ 65) + IZR (2 ^ 90) <= B100)%R) by (unfold B100; rewrite <- plus_IZR; apply IZR_le; vm_compute; discriminate). assert (Z0 : (0 <= IZR (2 ^ 65))%R) by (apply IZR_le; lia). assert (Z1 : (0 <= IZR (2 ^ 90))%R) by (apply IZR_le; lia).
  assert (EL : left_tap f size ns out = Z.max 0 (Z.min (size - 1) (Zfloor (RN32 (C - P))))).
  { unfold left_tap. apply as64_clamp; [|lia|lia|unfold u32_max in HS; lia]. apply floor_ok. apply fs_sub; [exact IC|exact IP|]. apply Rabs_le. lra. }
  split; [exact EL|]. unfold right_tap. apply as64_clamp; [|lia|lia|unfold u32_max in HS; lia]. apply ceil_ok. apply fs_add; [exact IC|exact IP|]. apply Rabs_le. lra.
Qed.
(** the pixel under the centre is among the taps *)
Lemma tap_centre f size ns out C P : 1 <= size <= u32_max -> isf (centre size ns out) C -> (0 < C <= IZR (2 ^ 65))%R -> reach f size ns P -> (P = 0 \/ (1 <= P /\ C <= 8388608))%R \/ Zfloor C <> Zceil C ->
  left_tap f size ns out <= Z.min (size - 1) (Zfloor C) < right_tap f size ns out.
Proof.
  intros HS IC HC HR HP1. destruct (taps_eq f size ns out C P HS IC HC HR) as [EL ER]. destruct HR as (IP & HP). pose proof (isf_repr _ _ IC) as RC.
  assert (L : (RN32 (C - P) <= C)%R) by (apply RN_le_r; [exact eq_refl|exact RC|lra]). assert (U : (C <= RN32 (C + P))%R) by (apply RN_ge; [exact eq_refl|exact RC|lra]).
  apply Zfloor_le in L. apply Zceil_le in U. assert (F0 : 0 <= Zfloor C) by (apply Zfloor_lub; lra). assert (FC : Zfloor C <= Zceil C) by (apply le_IZR; pose proof (Zfloor_lb C); pose proof (Zceil_ub C); lra). split; [lia|].
  destruct HP1 as [[HP1|[HP1 HC1]]|HP1]; [| |lia].
  - rewrite HP1, Rminus_0_r in EL. rewrite (RN_repr 24 128 C RC) in EL. lia.
  - assert (U1 : (IZR (Zfloor C + 1) <= RN32 (C + P))%R). { pose proof (Zfloor_lb C) as FL. assert (Zfloor C <= 8388608) by (apply le_IZR; lra). apply RN_ge; [exact eq_refl|apply (repr_Z 24 128 f32_prec f32_emax); lia|rewrite plus_IZR; lra]. }
    apply Zceil_le in U1. rewrite Zceil_IZR in U1. lia.
Qed.
(** where the taps are: [s] is the support *)
Lemma taps_where f size ns out s : 1 <= size <= 524288 -> 1 <= ns <= u32_max -> 0 <= out < ns -> isf (support f) s -> (0 <= s <= 3)%R ->
  let pos := position size ns out in let S := Rmax 1 (IZR size / IZR ns) in
  (pos - s * S - 2 <= IZR (left_tap f size ns out) + / 2)%R /\ (IZR (right_tap f size ns out - 1) + / 2 <= pos + s * S + 2)%R /\ (IZR (ntaps f size ns out) <= 2 * s * S + 4.6)%R.
Proof.
  intros HS HN HO IS SS pos S. assert (HS' : 1 <= size <= u32_max) by (unfold u32_max; lia). destruct (centre_ok size ns out HS' HN HO) as (C & IC & NC & CB & _). destruct (scale1_ok size ns HS' HN) as (S1 & I1 & SB & NS). fold S in NS. fold pos in NC.
  destruct uu_val as [U0 U1]. pose proof (position_range size ns out ltac:(lia) ltac:(lia) HO) as PR. fold pos in PR. assert (SZ : (1 <= IZR size <= 524288)%R) by (split; apply IZR_le; lia).
  assert (S0 : (1 <= S <= 524288)%R). { unfold S. split; [apply Rmax_l|]. apply Rmax_lub; [lra|]. assert (1 <= IZR ns)%R by (apply IZR_le; lia). apply Rle_trans with (IZR size / 1)%R; [|lra]. unfold Rdiv. apply Rmult_le_compat_l; [lra|]. apply Rinv_le_contravar; lra. }
  apply near_iff in NC, NS. assert (US : (uu * S <= / 31)%R) by (apply Rle_trans with (/ 16700000 * 524288)%R; [apply Rmult_le_compat; lra|lra]). assert (UP : (uu * pos <= / 31)%R) by (apply Rle_trans with (/ 16700000 * 524288)%R; [apply Rmult_le_compat; lra|lra]).
  replace (12 * uu * pos)%R with (12 * (uu * pos))%R in NC by ring. replace (6 * uu * S)%R with (6 * (uu * S))%R in NS by ring.
  assert (UM : forall x, (0 <= x <= 3000000 -> uu * x <= / 5)%R) by (intros x Hx; apply Rle_trans with (/ 16700000 * 3000000)%R; [apply Rmult_le_compat; lra|lra]).
  assert (SS1 : (0 <= s * S1 <= 1600000)%R) by (split; [apply Rmult_le_pos; lra|]; apply Rle_trans with (3 * 524900)%R; [apply Rmult_le_compat; lra|lra]).
  assert (BB : (4000000 <= B100)%R) by (unfold B100; apply IZR_le; vm_compute; discriminate). pose proof (fb_mul _ _ _ _ IS I1 ltac:(lra)) as IP. pose proof (RN_ae (s * S1) ltac:(lra)) as EP. pose proof eta_uu as ET. assert (P0 : (0 <= RN32 (s * S1))%R) by (apply RN_nonneg; lra). set (P := RN32 (s * S1)) in *.
  pose proof (UM (s * S1)%R ltac:(lra)) as UMS. assert (UMS' : (uu * (s * S1) <= / 16700000 * 1600000)%R) by (apply Rmult_le_compat; lra). apply Rabs_le_inv in EP.
  assert (R90 : (4000000 <= IZR (2 ^ 90))%R) by (apply IZR_le; vm_compute; discriminate). assert (HR : reach f size ns P) by (split; [exact IP|lra]). destruct (taps_eq f size ns out C P HS' IC CB HR) as [EL ER].
  assert (SE : (Rabs (s * S1 - s * S) <= 18 * (uu * S))%R). { rewrite <- Rmult_minus_distr_l, Rabs_mult, (Rabs_pos_eq s) by lra. replace (18 * (uu * S))%R with (3 * (6 * (uu * S)))%R by ring. apply Rmult_le_compat; [lra|apply Rabs_pos|lra|apply Rabs_le; lra]. } apply Rabs_le_inv in SE.
  pose proof (RN_aes (C - P)) as E1. pose proof (RN_aes (C + P)) as E2. clearbody P.
  assert (DC : (RN32 (C - P) <= C)%R) by (apply RN_le_r; [exact eq_refl|exact (isf_repr _ _ IC)|lra]).
  assert (A1 : (Rabs (C - P) <= 2200000)%R) by (apply Rabs_le; lra). assert (A2 : (Rabs (C + P) <= 2200000)%R) by (apply Rabs_le; lra).
  assert (UA : forall x, (Rabs x <= 2200000 -> uu * Rabs x <= 0.14)%R) by (intros x Hx; apply Rle_trans with (/ 16700000 * 2200000)%R; [apply Rmult_le_compat; try lra; apply Rabs_pos|lra]).
  pose proof (UA _ A1) as UA1. pose proof (UA _ A2) as UA2. apply Rabs_le_inv in E1, E2. set (D := RN32 (C - P)) in *. set (U := RN32 (C + P)) in *. clearbody D U.
  pose proof (Zfloor_lb D) as F1. pose proof (Zfloor_ub D) as F2. pose proof (Zceil_ub U) as K1. pose proof (Zceil_lb U) as K2.
  assert (LB : (IZR (left_tap f size ns out) = IZR size - 1 /\ right_tap f size ns out = size \/ D - 1 <= IZR (left_tap f size ns out))%R).
  { pose proof (taps_range f size ns out ltac:(lia)) as TR. destruct (Z.le_gt_cases (Zfloor D) (size - 1)) as [G|G]; [right; assert (Zfloor D <= left_tap f size ns out) as K by lia; apply IZR_le in K; lra|left]. assert (left_tap f size ns out = size - 1) as K by lia. split; [rewrite K, minus_IZR; reflexivity|lia]. }
  assert (LU : (IZR (left_tap f size ns out) <= C)%R). { apply Zfloor_le in DC. assert (0 <= Zfloor C) by (apply Zfloor_lub; lra). assert (left_tap f size ns out <= Zfloor C) as K by lia. apply IZR_le in K. pose proof (Zfloor_lb C). lra. }
  assert (RB : (IZR (right_tap f size ns out) = IZR (left_tap f size ns out) + 1 \/ IZR (right_tap f size ns out) <= U + 1)%R).
  { destruct (Z.eq_dec (right_tap f size ns out) (left_tap f size ns out + 1)) as [G|G]; [left; rewrite G, plus_IZR; reflexivity|right]. assert (right_tap f size ns out <= Zceil U) as K by lia. apply IZR_le in K. lra. }
  unfold ntaps. rewrite !minus_IZR. set (l := IZR (left_tap f size ns out)) in *. assert (RI : IZR (right_tap f size ns out) = IZR size \/ True) by (right; exact I). set (r := IZR (right_tap f size ns out)) in *.
  assert (LB' : (l = IZR size - 1 /\ r = l + 1 \/ D - 1 <= l)%R). { destruct LB as [[L1 L2]|L]; [left; split; [exact L1|]; unfold r; rewrite L2, L1; ring|right; exact L]. } assert (PS : (0 <= s * S)%R) by (apply Rmult_le_pos; lra). clear LB. clearbody l r.
  split; [destruct LB' as [[L _]|L]; lra|]. split; [destruct RB as [R|R]; lra|]. destruct LB' as [[L1 L2]|L]; [lra|]. destruct RB as [R|R]; lra.
Qed.
