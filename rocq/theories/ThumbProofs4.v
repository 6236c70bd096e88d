From Coq Require Import ZArith Bool Reals Lia Lra.
From Flocq Require Import Core IEEE754.BinarySingleNaN Relative.
From Verif Require Import Base BaseLemmas ListMore Color ColorProofs Float FloatProofs JpegQuant ColorF ColorFProofs GenImage Thumb ThumbSpec ThumbProofs ThumbProofs2 ThumbProofs3.
Local Open Scope Z_scope.

(** ** where the windows are *)
Lemma big_Z k : 0 <= k -> big 100 (IZR k).
Proof. intros Hk. destruct (Z.eq_dec k 0) as [->|]; [left; reflexivity|right]. apply Rle_trans with 1%R; [|apply IZR_le; lia]. rewrite <- Rinv_1. apply Rinv_le_contravar; [lra|apply IZR_le; lia]. Qed.
Lemma RN_small k : 0 <= k < 16777216 -> RN32 (IZR k) = IZR k.
Proof. intros H. apply RN_repr. apply (repr_Z 24 128 f32_prec f32_emax). lia. Qed.
Lemma near_div s n n' : (0 <= s)%R -> (1 <= n)%R -> near 1 n' n n -> near 2 (s / n') (s / n) (s / n).
Proof.
  intros Hs Hn H. destruct uu_val as [U0 U1]. apply near_iff in H. assert (UN : (uu * n <= / 100 * n)%R) by (apply Rmult_le_compat_r; lra). assert (N2 : (/ 2 * n <= n')%R) by lra. unfold near.
  assert (E : (s / n' - s / n = s / n * ((n - n') / n'))%R) by (field; lra). rewrite E. rewrite Rabs_mult. assert (SN : (0 <= s / n)%R) by (apply Rle_mult_inv_pos; lra). rewrite (Rabs_pos_eq _ SN). rewrite (Rmult_comm (2 * uu) (s / n)). apply Rmult_le_compat_l; [exact SN|].
  unfold Rdiv. rewrite Rabs_mult. rewrite (Rabs_pos_eq (/ n')) by (apply Rlt_le; apply Rinv_0_lt_compat; lra). apply Rmult_le_reg_r with n'; [lra|]. rewrite Rmult_assoc, Rinv_l, Rmult_1_r by lra. assert (Rabs (n - n') <= uu * n)%R by (apply Rabs_le; lra). assert (2 * uu * (/ 2 * n) <= 2 * uu * n')%R by (apply Rmult_le_compat_l; lra). lra.
Qed.
Lemma win_rel size ns x : 1 <= size < 16777216 -> 1 <= ns <= u32_max -> 0 <= x < ns -> let R1 := (IZR size / IZR ns)%R in
  (Rabs (lo_real size ns x - IZR x * R1) <= 8 * uu * (IZR x * R1))%R /\ (Rabs (hi_real size ns x - (IZR x + 1) * R1) <= 12 * uu * ((IZR x + 1) * R1))%R /\ (hi_real size ns x - lo_real size ns x <= R1 + 12 * uu * ((IZR x + 1) * R1))%R.
Proof.
  intros H1 H2 H3 R1. destruct uu_val as [U0 U1]. assert (P1 : (1 <= IZR size <= 16777216)%R) by (split; apply IZR_le; lia). assert (P2 : (1 <= IZR ns)%R) by (apply IZR_le; lia). assert (P3 : (0 <= IZR x)%R) by (apply IZR_le; lia).
  assert (R0 : (0 <= R1)%R) by (apply Rle_mult_inv_pos; lra). assert (XR : (IZR x * R1 <= IZR size - R1)%R). { assert (X1 : (IZR x <= IZR ns - 1)%R) by (rewrite <- minus_IZR; apply IZR_le; lia). assert (NR : (IZR ns * R1 = IZR size)%R) by (unfold R1; field; lra). assert ((IZR x) * R1 <= (IZR ns - 1) * R1)%R by (apply Rmult_le_compat_r; lra). lra. }
  unfold hi_real, lo_real, ratio. rewrite (RN_small size) by lia.
  pose proof (near_RN _ (big_Z ns ltac:(lia))) as N1. pose proof (near_RN _ (big_Z x ltac:(lia))) as N2. pose proof (near_div (IZR size) (IZR ns) _ ltac:(lra) P2 N1) as N3. fold R1 in N3.
  assert (BR : big 100 (IZR size / RN32 (IZR ns))%R).
  { right. pose proof (RN_Z_range ns H2) as RZ. apply Rle_trans with (1 * / IZR (2 ^ 32))%R. - rewrite Rmult_1_l. apply Rinv_le_contravar; [apply IZR_lt; lia|apply IZR_le; lia]. - unfold Rdiv. apply Rmult_le_compat; [lra|apply Rlt_le; apply Rinv_0_lt_compat; apply IZR_lt; lia|lra|]. apply Rinv_le_contravar; lra. }
  pose proof (near_RN_rel 2 _ _ ltac:(lra) R0 BR N3) as N4. assert (BR2 : big 100 (RN32 (IZR size / RN32 (IZR ns)))) by (apply big_RN; [lia|exact BR]). set (r := RN32 (IZR size / RN32 (IZR ns))) in *. assert (BRS : big 32 r).
  { right. unfold r. pose proof (RN_Z_range ns H2) as RZ. apply RN_ge; [exact eq_refl|apply repr_pow; lia|]. apply Rle_trans with (1 * / IZR (2 ^ 32))%R; [lra|]. unfold Rdiv. apply Rmult_le_compat; [lra|apply Rlt_le; apply Rinv_0_lt_compat; apply IZR_lt; lia|lra|]. apply Rinv_le_contravar; lra. }
  assert (BX : big 0 (RN32 (IZR x))). { apply big_RN; [lia|]. destruct (Z.eq_dec x 0) as [->|]; [left; reflexivity|right]. change (2 ^ 0) with 1. rewrite Rinv_1. apply IZR_le. lia. }
  clearbody r. pose proof (near_mul 1 (2 + 2) _ _ _ _ ltac:(lra) ltac:(lra) P3 R0 N2 N4) as N5.
  pose proof (big_mul 0 32 _ _ ltac:(lia) ltac:(lia) BX BRS) as B6. pose proof (near_RN_rel (1 + (2 + 2) + 1) (RN32 (IZR x) * r) (IZR x * R1) ltac:(lra) ltac:(apply Rmult_le_pos; lra) (big_le (0 + 32) 100 _ ltac:(lia) B6) N5) as N6. pose proof (big_RN (0 + 32) _ ltac:(lia) B6) as B7. pose proof (big_add 32 _ _ ltac:(lia) B7 BRS) as B8. pose proof (near_RN _ (big_le 32 100 _ ltac:(lia) B8)) as N7.
  set (lo := RN32 (RN32 (IZR x) * r)) in *. clearbody lo. set (hi := RN32 (lo + r)) in *. clearbody hi. apply near_iff in N4, N6, N7.
  set (xr := (IZR x * R1)%R) in *. assert (XR0 : (0 <= xr)%R) by (unfold xr; apply Rmult_le_pos; lra). replace ((IZR x + 1) * R1)%R with (xr + R1)%R by (unfold xr; ring). clearbody xr R1.
  assert (UXR : (0 <= uu * xr)%R) by (apply Rmult_le_pos; lra). assert (URR : (0 <= uu * R1)%R) by (apply Rmult_le_pos; lra).
  replace ((1 + (2 + 2) + 1 + 2) * uu * xr)%R with (8 * (uu * xr))%R in N6 by ring. replace ((2 + 2) * uu * R1)%R with (4 * (uu * R1))%R in N4 by ring. replace (1 * uu * (lo + r))%R with (uu * (lo + r))%R in N7 by ring.
  assert (UL : (uu * (lo + r) <= uu * (2 * (xr + R1)))%R). { apply Rmult_le_compat_l; [lra|]. assert (uu * xr <= / 100 * xr)%R by (apply Rmult_le_compat_r; lra). assert (uu * R1 <= / 100 * R1)%R by (apply Rmult_le_compat_r; lra). lra. }
  replace (uu * (2 * (xr + R1)))%R with (2 * (uu * xr) + 2 * (uu * R1))%R in UL by ring.
  assert (L0 : (0 <= uu * (lo + r))%R) by (apply Rmult_le_pos; [lra|]; apply (big_nonneg 32) in B8; [exact B8|lia]).
  replace (8 * uu * xr)%R with (8 * (uu * xr))%R by ring. replace (12 * uu * (xr + R1))%R with (12 * (uu * xr) + 12 * (uu * R1))%R by ring.
  split; [apply Rabs_le; lra|]. split; [apply Rabs_le; lra|lra].
Qed.
Lemma win_near size ns x : 1 <= size <= 524288 -> 1 <= ns <= u32_max -> 0 <= x < ns -> let R1 := (IZR size / IZR ns)%R in
  (Rabs (lo_real size ns x - IZR x * R1) <= / 2)%R /\ (Rabs (hi_real size ns x - (IZR x + 1) * R1) <= / 2)%R /\ (hi_real size ns x - lo_real size ns x <= R1 + / 2)%R.
Proof.
  intros H1 H2 H3 R1. destruct (win_rel size ns x ltac:(lia) H2 H3) as (A & B & C). cbv zeta in *. fold R1 in A, B, C. destruct uu_val as [U0 U1]. assert (P1 : (1 <= IZR size <= 524288)%R) by (split; apply IZR_le; lia). assert (P2 : (1 <= IZR ns)%R) by (apply IZR_le; lia). assert (P3 : (0 <= IZR x)%R) by (apply IZR_le; lia).
  assert (R0 : (0 <= R1)%R) by (apply Rle_mult_inv_pos; lra). assert (X1 : (IZR x + 1 <= IZR ns)%R) by (change 1%R with (IZR 1); rewrite <- plus_IZR; apply IZR_le; lia). assert (NR : (IZR ns * R1 = IZR size)%R) by (unfold R1; field; lra). assert (XR : ((IZR x + 1) * R1 <= IZR ns * R1)%R) by (apply Rmult_le_compat_r; lra). assert (XP : (0 <= IZR x * R1)%R) by (apply Rmult_le_pos; lra).
  assert (UX : (uu * ((IZR x + 1) * R1) <= / 16700000 * 524288)%R) by (apply Rmult_le_compat; lra). assert (UY : (uu * (IZR x * R1) <= uu * ((IZR x + 1) * R1))%R) by (apply Rmult_le_compat_l; lra).
  rewrite (Rmult_assoc 8) in A. rewrite (Rmult_assoc 12) in B, C. apply Rabs_le_inv in A, B. split; [apply Rabs_le; lra|]. split; [apply Rabs_le; lra|]. apply Rle_trans with (1 := C). lra.
Qed.
(** [k] is n / d rounded up, up to an error of half *)
Definition ceil_near (k n d : Z) : Prop := 2 * n - d <= 2 * k * d /\ 2 * k * d < 2 * n + 3 * d.
Lemma ceil_near_ok y n d : 1 <= d -> (Rabs (y - IZR n * (1 / IZR d)) <= / 2)%R -> ceil_near (Zceil y) n d.
Proof.
  intros Hd H. apply Rabs_le_inv in H. assert (D : (0 < IZR d)%R) by (apply IZR_lt; lia). pose proof (Zceil_ub y) as U. assert (L : (IZR (Zceil y) < y + 1)%R) by (pose proof (Zceil_lb y); lra).
  assert (E : (IZR n * (1 / IZR d) * IZR d = IZR n)%R) by (field; lra). set (q := (IZR n * (1 / IZR d))%R) in *. clearbody q. set (k := Zceil y) in *. clearbody k. split.
  - apply le_IZR. rewrite minus_IZR, !mult_IZR. rewrite <- E. assert ((q - / 2) * IZR d <= IZR k * IZR d)%R by (apply Rmult_le_compat_r; lra). lra.
  - apply lt_IZR. rewrite plus_IZR, !mult_IZR. rewrite <- E. assert (IZR k * IZR d < (q + / 2 + 1) * IZR d)%R by (apply Rmult_lt_compat_r; lra). lra.
Qed.
Lemma clamp_eq a lo hi : lo <= hi -> clamp a lo hi = Z.max lo (Z.min hi a).
Proof. intros H. unfold clamp. destruct (Z.ltb_spec a lo); [lia|]. destruct (Z.gtb_spec a hi); lia. Qed.
(** the window of output column x: from ceil(x size / ns) to ceil((x + 1) size / ns), up to half a pixel *)
Lemma win_where size ns x : 1 <= size <= 524288 -> 1 <= ns <= u32_max -> 0 <= x < ns -> exists a b, ceil_near a (x * size) ns /\ ceil_near b ((x + 1) * size) ns /\
  low (win size ns x) = Z.min (size - 1) (Z.max 0 a) /\ high (win size ns x) = Z.max (low (win size ns x)) (Z.min size b) /\ a <= b /\ b - a <= size / ns + 2.
Proof.
  intros H1 H2 H3. destruct (win_near size ns x H1 H2 H3) as (A & B & C). cbv zeta in *. destruct (win_ints size ns x) as (EL & EH); [unfold u32_max in *; lia|lia|lia|]. cbv zeta in *.
  assert (HLO : low (win size ns x) <= size - 1) by (pose proof (win_ok size ns x ltac:(unfold u32_max in *; lia) H2 ltac:(lia)); cbv zeta in *; lia).
  rewrite clamp_eq in EL, EH by lia. pose proof (Zceil_ub (hi_real size ns x)) as U1. assert (L1 : (IZR (Zceil (hi_real size ns x)) < hi_real size ns x + 1)%R) by (pose proof (Zceil_lb (hi_real size ns x)); lra). pose proof (Zceil_ub (lo_real size ns x)) as U2.
  assert (CA : ceil_near (Zceil (lo_real size ns x)) (x * size) ns) by (apply ceil_near_ok; [lia|]; rewrite mult_IZR; replace (IZR x * IZR size * (1 / IZR ns))%R with (IZR x * (IZR size / IZR ns))%R by (unfold Rdiv; ring); exact A).
  assert (CB : ceil_near (Zceil (hi_real size ns x)) ((x + 1) * size) ns) by (apply ceil_near_ok; [lia|]; rewrite mult_IZR, plus_IZR; replace ((IZR x + 1) * IZR size * (1 / IZR ns))%R with ((IZR x + 1) * (IZR size / IZR ns))%R by (unfold Rdiv; ring); exact B).
  exists (Zceil (lo_real size ns x)), (Zceil (hi_real size ns x)). split; [exact CA|]. split; [exact CB|].
  assert (BND : Zceil (lo_real size ns x) <= u32_max /\ 0 <= Zceil (hi_real size ns x) <= u32_max).
  { unfold ceil_near, u32_max in *. split; [|split].
    - destruct (Z_le_gt_dec (Zceil (lo_real size ns x)) 4294967295); [assumption|exfalso]. nia.
    - destruct (Z_le_gt_dec 0 (Zceil (hi_real size ns x))); [assumption|exfalso]. nia.
    - destruct (Z_le_gt_dec (Zceil (hi_real size ns x)) 4294967295); [assumption|exfalso]. nia. }
  split; [rewrite EL; unfold clampz; lia|]. split; [rewrite EH; unfold clampz; lia|].
  assert (LH : Zceil (lo_real size ns x) <= Zceil (hi_real size ns x)). { apply Zceil_le. unfold hi_real. apply RN_ge; [exact eq_refl|unfold lo_real; apply generic_format_round; [apply (fexp_correct 24 128); reflexivity|apply valid_rnd_N]|]. pose proof (ratio_range size ns ltac:(unfold u32_max in *; lia) H2) as RR. assert (P : (0 < / IZR (2 ^ 32))%R) by (apply Rinv_0_lt_compat; apply IZR_lt; lia). lra. }
  split; [exact LH|]. assert (D : (IZR (Zceil (hi_real size ns x)) - IZR (Zceil (lo_real size ns x)) < IZR size / IZR ns + 3 / 2)%R) by lra. rewrite <- minus_IZR in D. set (dd := Zceil (hi_real size ns x) - Zceil (lo_real size ns x)) in *. clearbody dd.
  assert (NS : (0 < IZR ns)%R) by (apply IZR_lt; lia). assert (D4 : 4 * (dd * ns) < 4 * size + 6 * ns). { apply lt_IZR. rewrite plus_IZR, !mult_IZR. assert (E : (IZR size / IZR ns * IZR ns = IZR size)%R) by (field; lra). assert (IZR dd * IZR ns < (IZR size / IZR ns + 3 / 2) * IZR ns)%R by (apply Rmult_lt_compat_r; lra). lra. }
  pose proof (Z.div_mod size ns ltac:(lia)) as DM. pose proof (Z.mod_pos_bound size ns ltac:(lia)) as MB. set (qq := size / ns) in *. clearbody qq. destruct (Z_le_gt_dec dd (qq + 2)); [assumption|exfalso]. assert (ns * (qq + 3) <= ns * dd) by (apply Z.mul_le_mono_nonneg_l; lia). nia.
Qed.
Lemma win_count size ns x : 1 <= size <= 524288 -> 1 <= ns <= u32_max -> 0 <= x < ns -> count (win size ns x) <= size / ns + 2.
Proof.
  intros H1 H2 H3. destruct (win_where size ns x H1 H2 H3) as (a & b & _ & _ & EL & EH & _ & D). assert (0 <= size / ns) by (apply Z.div_pos; lia). unfold count. lia.
Qed.
(** the windows follow each other, up to one column *)
Lemma win_next size ns x : 1 <= size <= 524288 -> 1 <= ns <= u32_max -> 0 <= x < ns -> (x = 0 -> low (win size ns x) = 0) /\ (x = ns - 1 -> high (win size ns x) = size) /\ (x < ns - 1 -> -1 <= high (win size ns x) - low (win size ns (x + 1)) <= 1).
Proof.
  intros H1 H2 H3. destruct (win_where size ns x H1 H2 H3) as (a & b & CA & CB & EL & EH & AB & _). split; [|split].
  - intros ->. destruct (win_ints size ns 0) as (E0 & _); [unfold u32_max in *; lia|lia|lia|]. cbv zeta in E0. rewrite clamp_eq in E0 by lia. rewrite E0. unfold lo_real. rewrite RN_0, Rmult_0_l, RN_0. rewrite Zceil_IZR. unfold clampz, u32_max. lia.
  - intros ->. replace (ns - 1 + 1) with ns in CB by lia. unfold ceil_near in CB. assert (size <= b) by nia. lia.
  - intros H. destruct (win_where size ns (x + 1) H1 H2 ltac:(lia)) as (a' & b' & CA' & _ & EL' & _). unfold ceil_near in CB, CA'. assert (b <= a' + 1) by nia. assert (a' <= b + 1) by nia. assert (0 <= b) by nia. rewrite EH, EL, EL'. lia.
Qed.
(** exact when the new size divides the old one *)
Lemma win_exact k ns x : 1 <= k -> 1 <= ns -> k * ns < 16777216 -> 0 <= x < ns -> low (win (k * ns) ns x) = x * k /\ high (win (k * ns) ns x) = (x + 1) * k.
Proof.
  intros Hk Hn HB Hx. assert (KN : k <= k * ns /\ ns <= k * ns) by nia. destruct (win_ints (k * ns) ns x) as (EL & EH); [unfold u32_max; lia|unfold u32_max; lia|unfold u32_max; lia|]. cbv zeta in *.
  assert (NZ : IZR ns <> 0%R) by (apply not_0_IZR; lia).
  assert (RT : ratio (k * ns) ns = IZR k) by (unfold ratio; rewrite !RN_small by lia; replace (IZR (k * ns) / IZR ns)%R with (IZR k) by (rewrite mult_IZR; field; exact NZ); apply RN_small; lia).
  assert (XK : x * k + k <= k * ns) by nia. assert (XP : 0 <= x * k) by nia.
  assert (LO : lo_real (k * ns) ns x = IZR (x * k)) by (unfold lo_real; rewrite RT, (RN_small x) by lia; rewrite <- mult_IZR; apply RN_small; lia).
  assert (HI : hi_real (k * ns) ns x = IZR ((x + 1) * k)) by (unfold hi_real; rewrite LO, RT; rewrite <- plus_IZR; replace (x * k + k) with ((x + 1) * k) by ring; apply RN_small; lia).
  rewrite LO, Zceil_IZR in EL. rewrite HI, Zceil_IZR in EH. rewrite clamp_eq in EL by lia. assert (LV : low (win (k * ns) ns x) = x * k) by (rewrite EL; unfold clampz, u32_max; lia). rewrite clamp_eq in EH by lia. split; [exact LV|]. rewrite EH, LV. unfold clampz, u32_max. lia.
Qed.
