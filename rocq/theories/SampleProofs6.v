From Coq Require Import ZArith Bool Reals Lia Lra.
From Flocq Require Import Core IEEE754.BinarySingleNaN.
From Verif Require Import Base BaseLemmas ListMore Color ColorProofs Float FloatProofs JpegQuant ColorF ColorFProofs GenImage Thumb ThumbSpec ThumbProofs ThumbProofs2 ThumbProofs3 ThumbProofs4 Sample SampleSpec SampleProofs SampleProofs2 SampleProofs3 SampleProofs4 SampleProofs5.
Local Open Scope Z_scope.

(** ** nearest: one tap *)
Definition nearest_filter : filter := mkFilter box_kernel f32_zero.
(** the source column (row) of output column (row) [out] *)
Definition pick (size ns out : Z) : Z := left_tap nearest_filter size ns out.
Lemma zero_reach size ns : 1 <= size <= u32_max -> 1 <= ns <= u32_max -> reach nearest_filter size ns 0.
Proof.
  intros H1 H2. destruct (scale1_ok size ns H1 H2) as (S1 & I1 & _). split; [|split; [lra|apply IZR_le; lia]]. cbn [support nearest_filter]. replace 0%R with (RN32 (0 * S1)) by (rewrite Rmult_0_l; apply RN_0). apply fs_mul; [exact isf_zero|exact I1|]. rewrite Rmult_0_l, Rabs_R0. unfold B100. apply IZR_le. lia.
Qed.
Lemma pick_eq size ns out C : 1 <= size <= u32_max -> 1 <= ns <= u32_max -> 0 <= out < ns -> isf (centre size ns out) C -> (0 < C <= IZR (2 ^ 65))%R -> pick size ns out = Z.min (size - 1) (Zfloor C) /\ right_tap nearest_filter size ns out = pick size ns out + 1.
Proof.
  intros H1 H2 H3 IC HC. destruct (taps_eq nearest_filter size ns out C 0 H1 IC HC (zero_reach size ns H1 H2)) as [EL ER]. rewrite Rminus_0_r in EL. rewrite Rplus_0_r in ER. rewrite (RN_repr 24 128 C (isf_repr _ _ IC)) in EL, ER. unfold pick. rewrite ER, EL.
  assert (F0 : 0 <= Zfloor C) by (apply Zfloor_lub; lra). assert (FC : Zceil C <= Zfloor C + 1) by (apply Zceil_glb; rewrite plus_IZR; pose proof (Zfloor_ub C); lra). lia.
Qed.
Lemma nearest_good size ns out : 1 <= size <= u32_max -> 1 <= ns <= u32_max -> 0 <= out < ns -> good_taps nearest_filter size ns out /\ ntaps nearest_filter size ns out = 1.
Proof.
  intros H1 H2 H3. destruct (centre_ok size ns out H1 H2 H3) as (C & IC & _ & CB & _). destruct (pick_eq size ns out C H1 H2 H3 IC CB) as [E1 E2]. assert (N1 : ntaps nearest_filter size ns out = 1) by (unfold ntaps; rewrite E2; unfold pick; lia). split; [|exact N1].
  unfold good_taps. rewrite raw_map, N1, (zrange_cons _ 1) by lia. exists [1%R]. destruct B60_val as [B1 _]. split; [|split].
  - cbn. constructor; [exact isf_one|constructor].
  - constructor; [lra|constructor].
  - apply Exists_cons_hd. rewrite <- Rinv_1. apply Rinv_le_contravar; lra.
Qed.
Lemma pick_range size ns out : 1 <= size <= u32_max -> 0 <= pick size ns out < size.
Proof. intros H. pose proof (taps_range nearest_filter size ns out ltac:(lia)). unfold pick. lia. Qed.
Lemma pick_near size ns out : 1 <= size <= u32_max -> 1 <= ns <= u32_max -> 0 <= out < ns -> (Rabs (IZR (pick size ns out) + / 2 - position size ns out) <= / 2 + 12 * uu * position size ns out)%R.
Proof.
  intros H1 H2 H3. destruct (centre_ok size ns out H1 H2 H3) as (C & IC & NC & CB & _). destruct (pick_eq size ns out C H1 H2 H3 IC CB) as [E1 _]. pose proof (position_range size ns out ltac:(lia) ltac:(lia) H3) as PR. apply near_iff in NC. set (pos := position size ns out) in *. set (e := (12 * uu * pos)%R) in *. destruct uu_val as [U0 U1]. assert (E0 : (0 <= e)%R) by (unfold e; apply Rmult_le_pos; [|lra]; apply Rmult_le_pos; lra).
  pose proof (Zfloor_lb C). pose proof (Zfloor_ub C). rewrite E1. destruct (Z.min_spec (size - 1) (Zfloor C)) as [[G ->]|[G ->]].
  - assert (G' : size <= Zfloor C) by lia. apply IZR_le in G'. rewrite minus_IZR. apply Rabs_le. split; lra.
  - apply Rabs_le. split; lra.
Qed.
Lemma centre_mono size ns o o' C C' : 1 <= size <= u32_max -> 1 <= ns <= u32_max -> o <= o' -> C = RN32 (RN32 (RN32 (IZR o) + / 2) * ratio size ns) -> C' = RN32 (RN32 (RN32 (IZR o') + / 2) * ratio size ns) -> (C <= C')%R.
Proof.
  intros H1 H2 H E E'. subst C C'. apply RN_le; [exact eq_refl|]. pose proof (ratio_range size ns H1 H2) as RR. pose proof (inv_pos 32 ltac:(lia)). apply Rmult_le_compat_r; [lra|]. apply RN_le; [exact eq_refl|]. apply Rplus_le_compat_r. apply RN_le; [exact eq_refl|]. apply IZR_le. exact H.
Qed.
Lemma pick_mono size ns o o' : 1 <= size <= u32_max -> 1 <= ns <= u32_max -> 0 <= o -> o <= o' -> o' < ns -> pick size ns o <= pick size ns o'.
Proof.
  intros H1 H2 H3 H4 H5. destruct (centre_ok size ns o H1 H2 ltac:(lia)) as (C & IC & _ & CB & EC). destruct (centre_ok size ns o' H1 H2 ltac:(lia)) as (C' & IC' & _ & CB' & EC'). destruct (pick_eq size ns o C H1 H2 ltac:(lia) IC CB) as [-> _]. destruct (pick_eq size ns o' C' H1 H2 ltac:(lia) IC' CB') as [-> _]. pose proof (centre_mono size ns o o' C C' H1 H2 H4 EC EC') as K. apply Zfloor_le in K. lia.
Qed.
(** small sizes: two roundings *)
Lemma half_repr k : 0 <= k < 16777216 -> repr 24 128 (IZR k / 2).
Proof. intros H. change 2%R with (IZR (2 ^ 1)). apply (repr_dyadic 24 128 k 1); lia. Qed.
Lemma position_ratio size ns out : 1 <= ns -> position size ns out = (IZR ((2 * out + 1) * size) / IZR (2 * ns))%R.
Proof. intros H. assert (1 <= IZR ns)%R by (apply IZR_le; lia). unfold position. rewrite !mult_IZR, plus_IZR, mult_IZR. field. lra. Qed.
Lemma centre_small size ns out C : 1 <= size <= 8388608 -> 1 <= ns <= 8388608 -> 0 <= out < ns -> C = RN32 (RN32 (RN32 (IZR out) + / 2) * ratio size ns) -> C = RN32 ((IZR out + / 2) * RN32 (IZR size / IZR ns)).
Proof.
  intros H1 H2 H3 E. rewrite E. unfold ratio. rewrite !RN_small by lia. replace (IZR out + / 2)%R with (IZR (2 * out + 1) / 2)%R by (rewrite plus_IZR, mult_IZR; field). rewrite (RN_repr 24 128 (IZR (2 * out + 1) / 2)) by (apply half_repr; lia). reflexivity.
Qed.
Lemma centre_close size ns out C : 1 <= size <= 8388608 -> 1 <= ns <= 8388608 -> 0 <= out < ns -> C = RN32 (RN32 (RN32 (IZR out) + / 2) * ratio size ns) -> (Rabs (C - position size ns out) <= 2.01 * uu * position size ns out)%R.
Proof.
  intros H1 H2 H3 E. rewrite (centre_small size ns out C H1 H2 H3 E). pose proof (position_range size ns out ltac:(lia) ltac:(lia) H3) as PR. assert (P1 : (1 <= IZR size)%R) by (apply IZR_le; lia). assert (P2 : (1 <= IZR ns <= 8388608)%R) by (split; apply IZR_le; lia). assert (P3 : (0 <= IZR out)%R) by (apply IZR_le; lia). destruct uu_val as [U0 U1].
  assert (QI : (/ 8388608 <= IZR size / IZR ns)%R). { unfold Rdiv. rewrite <- (Rmult_1_l (/ 8388608)). apply Rmult_le_compat; try lra. apply Rinv_le_contravar; lra. }
  assert (BG : forall x, (/ 100000000 <= x)%R -> big 100 x). { intros x Hx. right. apply Rle_trans with (/ 100000000)%R; [|exact Hx]. apply Rinv_le_contravar; [lra|]. apply IZR_le. vm_compute. discriminate. }
  assert (G1 : big 100 (IZR size / IZR ns)) by (apply BG; lra). pose proof (RN_rel _ G1) as N1. unfold position in *. set (q := (IZR size / IZR ns)%R) in *. set (q' := RN32 q) in *. apply Rabs_le_inv in N1. assert (UQ : (uu * q <= / 16700000 * q)%R) by (apply Rmult_le_compat_r; lra).
  set (h := (IZR out + / 2)%R) in *. assert (HQ : (h * q - uu * (h * q) <= h * q' <= h * q + uu * (h * q))%R). { replace (h * q - uu * (h * q))%R with (h * (q - uu * q))%R by ring. replace (h * q + uu * (h * q))%R with (h * (q + uu * q))%R by ring. split; apply Rmult_le_compat_l; unfold h; lra. }
  assert (HP : (/ 20000000 <= h * q)%R) by (apply Rle_trans with (/ 2 * / 8388608)%R; [lra|]; apply Rmult_le_compat; unfold h; lra). set (p := (h * q)%R) in *. assert (UP : (uu * p <= / 16700000 * p)%R) by (apply Rmult_le_compat_r; lra).
  assert (G2 : big 100 (h * q')) by (apply BG; lra). pose proof (RN_rel _ G2) as N2. set (m := (h * q')%R) in *. apply Rabs_le_inv in N2. assert (UM : (uu * m <= uu * (1.001 * p))%R) by (apply Rmult_le_compat_l; lra). apply Rabs_le. split; lra.
Qed.
(** the pixel under the centre, in integers *)
Lemma pick_exact size ns out : 1 <= size -> 1 <= ns -> size * ns <= 4000000 -> 0 <= out < ns -> ((2 * out + 1) * size) mod (2 * ns) <> 0 -> pick size ns out = (2 * out + 1) * size / (2 * ns).
Proof.
  intros H1 H2 H3 H4 H5. assert (B1 : size <= 4000000) by nia. assert (B2 : ns <= 4000000) by nia. assert (U1 : 1 <= size <= u32_max) by (unfold u32_max; lia). assert (U2 : 1 <= ns <= u32_max) by (unfold u32_max; lia).
  destruct (centre_ok size ns out U1 U2 H4) as (C & IC & _ & CB & EC). destruct (pick_eq size ns out C U1 U2 H4 IC CB) as [-> _]. pose proof (centre_close size ns out C ltac:(lia) ltac:(lia) H4 EC) as CC. pose proof (position_range size ns out H1 H2 H4) as PR. rewrite (position_ratio size ns out H2) in *.
  set (n := (2 * out + 1) * size) in *. set (d := 2 * ns) in *. assert (D0 : 0 < d) by lia. pose proof (Z.div_mod n d ltac:(lia)) as DM. pose proof (Z.mod_pos_bound n d D0) as MB. set (k := n / d) in *. assert (R0 : 1 <= n mod d <= d - 1) by lia.
  assert (DP : (2 <= IZR d)%R) by (apply IZR_le; lia). assert (ID : (0 < / IZR d)%R) by (apply Rinv_0_lt_compat; lra). assert (DE : (IZR n / IZR d = IZR k + IZR (n mod d) * / IZR d)%R) by (rewrite DM at 1; rewrite plus_IZR, mult_IZR; field; lra).
  assert (LO : (/ IZR d <= IZR (n mod d) * / IZR d)%R) by (rewrite <- (Rmult_1_l (/ IZR d)) at 1; apply Rmult_le_compat_r; [lra|apply IZR_le; lia]). assert (HI : (IZR (n mod d) * / IZR d <= 1 - / IZR d)%R). { replace (1 - / IZR d)%R with ((IZR d - 1) * / IZR d)%R by (field; lra). apply Rmult_le_compat_r; [lra|]. rewrite <- minus_IZR. apply IZR_le. lia. }
  destruct uu_val as [V0 V1]. assert (ER : (2.01 * uu * (IZR n / IZR d) < / IZR d)%R).
  { apply Rlt_le_trans with (2.01 * uu * IZR size)%R; [apply Rmult_lt_compat_l; lra|]. apply Rmult_le_reg_r with (IZR d); [lra|]. rewrite Rinv_l by lra. assert (SD : (IZR size * IZR d <= 8000000)%R) by (rewrite <- mult_IZR; apply IZR_le; unfold d; lia). replace (2.01 * uu * IZR size * IZR d)%R with (2.01 * uu * (IZR size * IZR d))%R by ring. assert (SP : (0 <= IZR size * IZR d)%R) by (rewrite <- mult_IZR; apply IZR_le; nia).
    apply Rle_trans with (2.01 * / 16700000 * 8000000)%R; [|lra]. apply Rmult_le_compat; lra. }
  apply Rabs_le_inv in CC. assert (FC : Zfloor C = k) by (apply Zfloor_imp; rewrite plus_IZR; lra). rewrite FC. assert (k < size); [|lia]. apply Z.div_lt_upper_bound; [lia|]. unfold n, d. nia.
Qed.
Lemma pick_divides size ns out : 1 <= size <= 8388608 -> 1 <= ns -> 0 <= out < ns -> size mod ns = 0 -> pick size ns out = (2 * out + 1) * (size / ns) / 2.
Proof.
  intros H1 H2 H3 H4. apply Z.mod_divide in H4; [|lia]. destruct H4 as (q & EQ). assert (Q1 : 1 <= q) by nia. assert (NB : ns <= 8388608) by nia. rewrite EQ. rewrite Z.div_mul by lia. rewrite <- EQ. assert (U1 : 1 <= size <= u32_max) by (unfold u32_max; lia). assert (U2 : 1 <= ns <= u32_max) by (unfold u32_max; lia).
  destruct (centre_ok size ns out U1 U2 H3) as (C & IC & _ & CB & EC). destruct (pick_eq size ns out C U1 U2 H3 IC CB) as [-> _]. rewrite (centre_small size ns out C ltac:(lia) ltac:(lia) H3 EC). assert (P2 : (1 <= IZR ns)%R) by (apply IZR_le; lia). replace (IZR size / IZR ns)%R with (IZR q) by (rewrite EQ, mult_IZR; field; lra). rewrite RN_small by nia.
  replace ((IZR out + / 2) * IZR q)%R with (IZR ((2 * out + 1) * q) / 2)%R by (rewrite mult_IZR, plus_IZR, mult_IZR; field). rewrite (RN_repr 24 128) by (apply half_repr; nia).
  assert (F : Zfloor (IZR ((2 * out + 1) * q) / 2) = (2 * out + 1) * q / 2). { apply (Zfloor_div _ 2). lia. } rewrite F. assert ((2 * out + 1) * q / 2 < size); [|lia]. apply Z.div_lt_upper_bound; [lia|]. nia.
Qed.
Lemma nearest_ok t k im nw nh : img_ok t k im -> 1 <= iw im <= u32_max -> 1 <= ih im <= u32_max -> 0 <= nw <= u32_max -> 0 <= nh <= u32_max ->
  exists r, resample t k nearest_filter im nw nh = Ok r /\ wf r /\ iw r = nw /\ ih r = nh /\ forall x y, 0 <= x < nw -> 0 <= y < nh -> exists p, pixel r x y = Some p /\ is_pixel t k p /\ forall i, (i < Z.to_nat (nch k))%nat -> nth i p 0 = chan_at t im i (pick (iw im) nw x, pick (ih im) nh y).
Proof.
  intros HI HW HH HNW HNH. destruct (resample_ok t k nearest_filter im nw nh HI ltac:(lia) ltac:(lia) ltac:(lia) ltac:(lia)) as (r & E & W & EW & EH & P).
  - intros x Hx. destruct (nearest_good (iw im) nw x HW ltac:(lia) Hx) as [G N]. split; [exact G|lia].
  - intros y Hy. destruct (nearest_good (ih im) nh y HH ltac:(lia) Hy) as [G N]. split; [exact G|lia].
  - exists r. split; [exact E|]. split; [exact W|]. split; [exact EW|]. split; [exact EH|]. intros x y Hx Hy. destruct (P x y Hx Hy) as (p & PX & IP & B). exists p. split; [exact PX|]. split; [exact IP|]. intros i Hi.
    destruct (nearest_good (iw im) nw x HW ltac:(lia) Hx) as [_ NX]. destruct (nearest_good (ih im) nh y HH ltac:(lia) Hy) as [_ NY].
    set (v := chan_at t im i (pick (iw im) nw x, pick (ih im) nh y)). assert (VB : 0 <= v <= smax t) by (apply (chan_sample t k im i); [exact HI|]; split; apply pick_range; assumption).
    assert (v <= nth i p 0 <= v); [|lia]. apply (B i v v Hi ltac:(lia) ltac:(lia) ltac:(lia)); [rewrite NX, NY; pose proof (smax_range t); change (2 ^ 24) with 16777216; destruct t; cbn; lia|].
    intros x' y' Hx' Hy'. unfold ntaps in NX, NY. replace x' with (pick (iw im) nw x) by (unfold pick; lia). replace y' with (pick (ih im) nh y) by (unfold pick; lia). fold v. lia.
Qed.

Lemma same_pixel t k p q : is_pixel t k p -> is_pixel t k q -> (forall i, (i < Z.to_nat (nch k))%nat -> nth i p 0 = nth i q 0) -> p = q.
Proof.
  intros [L1 _] [L2 _] H. apply (nth_ext p q 0 0); [unfold zlen in *; lia|]. intros n Hn. apply H. unfold zlen in *. lia.
Qed.
Lemma nearest_pixel t k im nw nh : img_ok t k im -> 1 <= iw im <= u32_max -> 1 <= ih im <= u32_max -> 0 <= nw <= u32_max -> 0 <= nh <= u32_max ->
  exists r, resample t k nearest_filter im nw nh = Ok r /\ wf r /\ iw r = nw /\ ih r = nh /\ forall x y, 0 <= x < nw -> 0 <= y < nh -> pixel r x y = pixel im (pick (iw im) nw x) (pick (ih im) nh y).
Proof.
  intros HI HW HH HNW HNH. destruct (nearest_ok t k im nw nh HI HW HH HNW HNH) as (r & E & W & EW & EH & P). exists r. split; [exact E|]. split; [exact W|]. split; [exact EW|]. split; [exact EH|]. intros x y Hx Hy. destruct (P x y Hx Hy) as (p & PX & IP & B).
  assert (IN : inside im (pick (iw im) nw x, pick (ih im) nh y)) by (split; apply pick_range; assumption). destruct (pixel_at t k im _ HI IN) as (q & _ & EQ & IQ). cbn [fst snd] in EQ. rewrite PX, EQ. f_equal. apply (same_pixel t k _ _ IP IQ). intros i Hi. rewrite (B i Hi). unfold chan_at. cbn [fst snd]. rewrite EQ. apply nth_indep. destruct IQ as [L _]. unfold zlen in L. lia.
Qed.
