From Coq Require Import ZArith Bool Reals Lia Lra.
From Flocq Require Import Core IEEE754.BinarySingleNaN.
From Verif Require Import Base BaseLemmas ListMore Color ColorProofs Float FloatProofs JpegQuant ColorF ColorFProofs GenImage Thumb ThumbSpec ThumbProofs ThumbProofs2 ThumbProofs3 ThumbProofs4 Sample SampleSpec SampleProofs SampleProofs2 SampleProofs3 SampleProofs4 SampleProofs5 SampleProofs7 SampleProofs8 SampleProofs9.
Local Open Scope Z_scope.

(** ** the linear kernel, computed and exact *)
Definition kern (A : R) : R := if Rlt_bool (Rabs A) 1 then RN32 (1 - Rabs A) else 0%R.
Lemma triangle_kern x r : isf x r -> (Rabs r <= 2097152)%R -> isf (triangle_kernel x) (kern r) /\ (0 <= kern r <= 1)%R.
Proof.
  intros I B. unfold triangle_kernel, kern. rewrite (lt_ok _ _ _ _ (isf_abs _ _ I) isf_one). pose proof (Rabs_pos r) as P.
  destruct (Rlt_bool_spec (Rabs r) 1) as [G|G].
  - split; [apply fs_sub; [exact isf_one|exact (isf_abs _ _ I)|]; apply Rabs_le; assert (16 <= B100)%R by (unfold B100; apply IZR_le; vm_compute; discriminate); lra|]. apply RN_01. lra.
  - split; [exact isf_zero|lra].
Qed.
Lemma kern_near D s i : (1 <= s)%R -> (Rabs (IZR i - D) <= 200000)%R -> (Rabs (kern (RN32 (RN32 (IZR i - D) / s)) - tent (D + / 2) s i) <= 4 * uu)%R.
Proof.
  intros HS HD. destruct uu_val as [U0 U1]. pose proof eta_uu as ET. destruct eta_val as [T0 _]. set (d := (IZR i - D)%R) in *. pose proof (RN_aes d) as E1. set (d1 := RN32 d) in *. clearbody d1.
  pose proof (RN_aes (d1 / s)) as E2. set (A := RN32 (d1 / s)) in *. clearbody A. assert (IS : (0 < / s <= 1)%R) by (split; [apply Rinv_0_lt_compat; lra|rewrite <- Rinv_1; apply Rinv_le_contravar; lra]).
  set (a := (d / s)%R). assert (EA : (Rabs (d1 / s - a) <= uu * Rabs a + eta)%R).
  { unfold a, Rdiv. rewrite <- Rmult_minus_distr_r, Rabs_mult, (Rabs_mult d), (Rabs_pos_eq (/ s)) by lra. apply Rle_trans with ((uu * Rabs d + eta) * / s)%R; [apply Rmult_le_compat_r; lra|]. rewrite Rmult_plus_distr_r. assert (eta * / s <= eta * 1)%R by (apply Rmult_le_compat_l; lra). lra. }
  assert (TE : tent (D + / 2) s i = Rmax 0 (1 - Rabs a)). { unfold tent, a. f_equal. f_equal. unfold Rdiv. rewrite Rabs_mult, (Rabs_pos_eq (/ s)) by lra. f_equal. f_equal. unfold d. ring. } rewrite TE.
  set (b := (d1 / s)%R) in *. clearbody b a. pose proof (Rabs_pos a) as PA. pose proof (Rabs_pos b) as PB.
  assert (B1 : (Rabs b <= Rabs a + (uu * Rabs a + eta))%R) by (replace b with (a + (b - a))%R by ring; eapply Rle_trans; [apply Rabs_triang|]; lra).
  assert (DA : (Rabs (Rabs A - Rabs a) <= uu * Rabs a + eta + (uu * Rabs b + eta))%R). { eapply Rle_trans; [apply Rabs_triang_inv2|]. replace (A - a)%R with ((b - a) + (A - b))%R by ring. eapply Rle_trans; [apply Rabs_triang|]. lra. }
  assert (UB : (uu * Rabs b <= uu * (Rabs a + (uu * Rabs a + eta)))%R) by (apply Rmult_le_compat_l; lra). assert (UA : (0 <= uu * Rabs a)%R) by (apply Rmult_le_pos; lra). assert (UU : (uu * (uu * Rabs a) <= / 16700000 * (uu * Rabs a))%R) by (apply Rmult_le_compat_r; lra). assert (UE : (uu * eta <= 1 * eta)%R) by (apply Rmult_le_compat_r; lra). rewrite !Rmult_plus_distr_l in UB.
  assert (DB : (Rabs (Rabs A - Rabs a) <= 2.0001 * (uu * Rabs a) + 3 * eta)%R) by lra. apply Rabs_le_inv in DB. pose proof (Rabs_pos A) as PAA. set (x := Rabs A) in *. set (y := Rabs a) in *. unfold kern. fold x. clearbody x y. clear - U0 U1 ET T0 DB PA PAA UA.
  destruct (Rlt_bool_spec x 1) as [G|G].
  - assert (Y : (uu * y <= uu * 1.001)%R). { apply Rmult_le_compat_l; [lra|]. destruct (Rle_or_lt y 1.001) as [?|K]; [assumption|exfalso]. assert (uu * y <= / 16700000 * y)%R by (apply Rmult_le_compat_r; lra). lra. }
    pose proof (RN_ae (1 - x) ltac:(lra)) as E3. assert (U3 : (uu * (1 - x) <= uu * 1)%R) by (apply Rmult_le_compat_l; lra). apply Rabs_le_inv in E3. assert (Rabs (Rmax 0 (1 - y) - (1 - x)) <= 2.01 * uu)%R.
    { unfold Rmax. destruct (Rle_dec 0 (1 - y)) as [K|K]; apply Rabs_le; lra. }
    apply Rabs_le_inv in H. apply Rabs_le. lra.
  - replace (0 - Rmax 0 (1 - y))%R with (- Rmax 0 (1 - y))%R by ring. rewrite Rabs_Ropp, Rabs_pos_eq by apply Rmax_l. apply Rmax_lub; [lra|]. destruct (Rle_or_lt 1 y) as [?|K]; [lra|]. assert (uu * y <= uu * 1)%R by (apply Rmult_le_compat_l; lra). lra.
Qed.
Lemma all_or_one (g : Z -> R) e l : (forall i, In i l -> (g i <= e)%R) \/ exists i, In i l /\ (e < g i)%R.
Proof.
  induction l as [|j l IH]; [left; intros i []|]. destruct (Rle_or_lt (g j) e) as [G|G]; [|right; exists j; split; [left; reflexivity|exact G]].
  destruct IH as [IH|(i & I & H)]; [left; intros i [<-|I]; [exact G|apply IH; exact I]|right; exists i; split; [right; exact I|exact H]].
Qed.
Definition axis (f : filter) (size ns out : Z) (c s : R) (K : Z -> R) : Prop :=
  (Rabs (c - position size ns out) <= (position size ns out + 1) / 1048576)%R /\ (1 <= s)%R /\ (Rabs (s - stretch size ns) <= stretch size ns / 1048576)%R /\ taps_val f size ns out K /\
  (forall i, left_tap f size ns out <= i < right_tap f size ns out -> (Rabs (K i - tent c s i) <= 4 * uu)%R) /\ (forall i, 0 <= i < size -> ~ left_tap f size ns out <= i < right_tap f size ns out -> tent c s i = 0%R) /\
  (IZR (ntaps f size ns out) <= 48 * sumr (tent c s) 0 size)%R /\ (IZR (ntaps f size ns out) <= 2 * stretch size ns + 4.6)%R.
Lemma triangle_axis f size ns out : kernel f = triangle_kernel -> isf (support f) 1 -> 1 <= size <= 65536 -> 1 <= ns <= u32_max -> 0 <= out < ns -> exists c s K, axis f size ns out c s K.
Proof.
  intros KF SF HS HN HO. assert (HS' : 1 <= size <= u32_max) by (unfold u32_max; lia). destruct (centre_ok size ns out HS' HN HO) as (C & IC & NC & CB & _). destruct (scale1_ok size ns HS' HN) as (S1 & I1 & SB & NS). fold (stretch size ns) in NS.
  destruct (taps_where f size ns out 1%R ltac:(lia) HN HO SF ltac:(lra)) as (_ & _ & NT). fold (stretch size ns) in NT. rewrite Rmult_1_r in NT.
  destruct uu_val as [U0 U1]. pose proof eta_uu as ET. destruct eta_val as [T0 _]. pose proof (position_range size ns out ltac:(lia) ltac:(lia) HO) as PR. set (pos := position size ns out) in *. assert (SZ : (1 <= IZR size <= 65536)%R) by (split; apply IZR_le; lia). set (st := stretch size ns) in *.
  assert (ST : (1 <= st <= IZR size)%R). { unfold st, stretch. split; [apply Rmax_l|]. apply Rmax_lub; [lra|]. assert (1 <= IZR ns)%R by (apply IZR_le; lia). apply Rle_trans with (IZR size / 1)%R; [|lra]. unfold Rdiv. apply Rmult_le_compat_l; [lra|]. apply Rinv_le_contravar; lra. }
  apply near_iff in NC, NS. assert (US : (0 <= uu * st <= / 16700000 * st)%R) by (split; [apply Rmult_le_pos; lra|apply Rmult_le_compat_r; lra]). assert (UP : (0 <= uu * pos <= / 16700000 * pos)%R) by (split; [apply Rmult_le_pos; lra|apply Rmult_le_compat_r; lra]).
  replace (12 * uu * pos)%R with (12 * (uu * pos))%R in NC by ring. replace (6 * uu * st)%R with (6 * (uu * st))%R in NS by ring.
  assert (CB' : (0 < C <= 530000)%R) by lra. pose proof (isf_repr _ _ I1) as RS. assert (B90 : (4000000 <= IZR (2 ^ 90))%R) by (apply IZR_le; vm_compute; discriminate). assert (BB : (4000000 <= B100)%R) by (unfold B100; apply IZR_le; vm_compute; discriminate).
  assert (HR : reach f size ns S1). { split; [|lra]. pose proof (fb_mul _ _ _ _ SF I1 ltac:(lra)) as IP. rewrite Rmult_1_l, RN_repr in IP; [exact IP|exact RS]. }
  destruct (taps_eq f size ns out C S1 HS' IC CB HR) as [EL ER]. pose proof (taps_range f size ns out ltac:(lia)) as TR.
  pose proof (RN_aes (C - / 2)) as ED. assert (UC : (uu * Rabs (C - / 2) <= uu * pos + 12 * (uu * pos) / 1000 + uu * / 2)%R). { assert (Rabs (C - / 2) <= pos + 12 * (uu * pos) + / 2)%R by (apply Rabs_le; lra). apply Rle_trans with (uu * (pos + 12 * (uu * pos) + / 2))%R; [apply Rmult_le_compat_l; lra|]. rewrite !Rmult_plus_distr_l. assert (uu * (12 * (uu * pos)) <= / 1000 * (12 * (uu * pos)))%R by (apply Rmult_le_compat_r; lra). lra. }
  set (D := RN32 (C - / 2)) in *. assert (DB : (Rabs (D - (C - / 2)) <= 0.1)%R) by (apply Rabs_le_inv in ED; apply Rabs_le; lra). apply Rabs_le_inv in ED, DB.
  set (K := fun i : Z => kern (RN32 (RN32 (IZR i - D) / S1))). exists (D + / 2)%R, S1, K.
  assert (KV : forall i, 0 <= i < size -> isf (kernel f (kernel_arg size ns out i)) (K i) /\ (0 <= K i <= 1)%R). { intros i Hi. destruct (arg_ok size ns out C S1 i ltac:(lia) Hi IC CB' I1 ltac:(lra)) as (A & IA & EA & BA). rewrite KF. unfold K. fold D in EA. rewrite <- EA. apply triangle_kern; assumption. }
  assert (KT : forall i, 0 <= i < size -> (Rabs (K i - tent (D + / 2) S1 i) <= 4 * uu)%R). { intros i Hi. unfold K. apply kern_near; [lra|]. assert (0 <= IZR i <= 65536)%R by (split; apply IZR_le; lia). apply Rabs_le. lra. }
  assert (TZ : forall i, 0 <= i < size -> ~ left_tap f size ns out <= i < right_tap f size ns out -> tent (D + / 2) S1 i = 0%R).
  { intros i Hi NI. apply tent_zero; [lra|]. assert (UX : forall x, (Rabs x <= 140000 -> uu * Rabs x + eta <= 0.01)%R) by (intros x Hx; assert (uu * Rabs x <= / 16700000 * 140000)%R by (apply Rmult_le_compat; try lra; apply Rabs_pos); lra).
    destruct (Z.lt_ge_cases i (left_tap f size ns out)) as [G|G].
    - assert (G1 : i + 1 <= Zfloor (RN32 (C - S1))) by lia. apply IZR_le in G1. rewrite plus_IZR in G1. pose proof (Zfloor_lb (RN32 (C - S1))) as FL. pose proof (RN_aes (C - S1)) as E1. pose proof (UX (C - S1)%R ltac:(apply Rabs_le; lra)) as E2. apply Rabs_le_inv in E1. rewrite Rabs_left1 by lra. lra.
    - assert (G1 : Zceil (RN32 (C + S1)) <= i) by lia. apply IZR_le in G1. pose proof (Zceil_ub (RN32 (C + S1))) as FL. pose proof (RN_aes (C + S1)) as E1. pose proof (UX (C + S1)%R ltac:(apply Rabs_le; lra)) as E2. apply Rabs_le_inv in E1. rewrite Rabs_pos_eq by lra. lra. }
  pose proof (tent_sum size (D + / 2) S1 ltac:(lia) ltac:(lra) ltac:(lra) ltac:(lra)) as TS. assert (NS48 : (IZR (ntaps f size ns out) <= 48 * sumr (tent (D + / 2) S1) 0 size)%R) by lra.
  unfold axis. fold pos st. split; [apply Rabs_le; lra|]. split; [lra|]. split; [apply Rabs_le; lra|]. split; [|split; [intros i Hi; apply KT; lia|split; [exact TZ|split; [exact NS48|exact NT]]]].
  assert (B1 : (1000 <= B60)%R) by (unfold B60; apply IZR_le; vm_compute; discriminate). split; [intros i Hi; destruct (KV i ltac:(lia)); split; [assumption|lra]|].
  assert (NP : 1 <= ntaps f size ns out) by (unfold ntaps; lia). rewrite (sumr_restrict _ (left_tap f size ns out) (ntaps f size ns out)) in NS48; [|lia|lia|unfold ntaps; lia|intros i Hi NI; apply TZ; [lia|]; unfold ntaps in NI; lia].
  destruct (all_or_one (tent (D + / 2) S1) (/ 50) (zrange (left_tap f size ns out) (ntaps f size ns out))) as [G|(i & I & G)].
  - exfalso. assert (L : (sumr (tent (D + / 2) S1) (left_tap f size ns out) (ntaps f size ns out) <= IZR (ntaps f size ns out) * / 50)%R) by (rewrite <- (sumr_const (/ 50) (left_tap f size ns out)) by lia; apply sumr_le; intros i Hi; apply G; apply In_zrange; lia). apply IZR_le in NP. lra.
  - apply In_zrange in I. unfold ntaps in I. exists i. split; [lia|]. specialize (KT i ltac:(lia)). apply Rabs_le_inv in KT. assert (/ B60 <= / 1000)%R by (apply Rinv_le_contravar; lra). lra.
Qed.
(** the mean with computed weights, and the mean with the exact ones *)
Lemma axis_mean f size ns out c s K v V : 1 <= size -> axis f size ns out c s K -> (0 <= V)%R -> (forall i, 0 <= i < size -> (0 <= v i <= V)%R) ->
  (Rabs (mean K v (left_tap f size ns out) (ntaps f size ns out) - mean (tent c s) v 0 size) <= V * (193 * uu))%R.
Proof.
  intros HS (_ & S1 & _ & TV & KT & TZ & N48 & _) V0 HV. pose proof (taps_range f size ns out HS) as TR. destruct uu_val as [U0 U1]. set (l := left_tap f size ns out) in *. assert (NE : l + ntaps f size ns out = right_tap f size ns out) by (unfold ntaps, l; lia). set (n := ntaps f size ns out) in *.
  assert (N1 : (1 <= IZR n)%R) by (apply IZR_le; lia). assert (R1 : sumr (tent c s) 0 size = sumr (tent c s) l n) by (apply sumr_restrict; [lia|lia|lia|]; intros i Hi NI; apply TZ; [lia|]; rewrite <- NE; exact NI).
  assert (R2 : sumr (fun i => v i * tent c s i)%R 0 size = sumr (fun i => v i * tent c s i)%R l n) by (apply sumr_restrict; [lia|lia|lia|]; intros i Hi NI; rewrite TZ; [ring|lia|]; rewrite <- NE; exact NI).
  replace (mean (tent c s) v 0 size) with (mean (tent c s) v l n) by (unfold mean; rewrite R1, R2; reflexivity). rewrite R1 in N48. pose proof (taps_sum f size ns out K TV) as KP. fold l n in KP.
  assert (KG : (sumr (tent c s) l n - IZR n * (4 * uu) <= sumr K l n)%R). { rewrite <- (sumr_const (4 * uu) l n) by lia. apply Rplus_le_reg_r with (sumr (fun _ => 4 * uu) l n)%R. rewrite <- (sumr_plus K). ring_simplify. apply sumr_le. intros i Hi. specialize (KT i ltac:(lia)). apply Rabs_le_inv in KT. lra. }
  assert (UN : (IZR n * (4 * uu) <= IZR n * / 100000)%R) by (apply Rmult_le_compat_l; lra).
  eapply Rle_trans; [apply (mean_weights K (tent c s) v l n V (4 * uu)); [lia|exact V0|exact KP|lra| | |]|].
  - intros i Hi. apply tent_range. lra.
  - intros i Hi. apply HV. lia.
  - intros i Hi. apply KT. lia.
  - unfold Rdiv. apply Rmult_le_reg_r with (sumr K l n); [exact KP|]. rewrite Rmult_assoc, Rinv_l, Rmult_1_r by lra. rewrite Rmult_assoc. apply Rmult_le_compat_l; [exact V0|]. assert (193 * uu * (IZR n * / 48.1) <= 193 * uu * sumr K l n)%R by (apply Rmult_le_compat_l; lra). assert (0 <= IZR n * uu)%R by (apply Rmult_le_pos; lra). lra.
Qed.
Lemma axes_mean t k im i fx nw x cx sx Kx fy nh y cy sy Ky : img_ok t k im -> 1 <= iw im -> 1 <= ih im -> axis fx (iw im) nw x cx sx Kx -> axis fy (ih im) nh y cy sy Ky ->
  (Rabs (mean2 t im i Kx Ky (left_tap fx (iw im) nw x) (ntaps fx (iw im) nw x) (left_tap fy (ih im) nh y) (ntaps fy (ih im) nh y) - mean2 t im i (tent cx sx) (tent cy sy) 0 (iw im) 0 (ih im)) <= IZR (smax t) * (386 * uu))%R.
Proof.
  intros HI HW HH AX AY. pose proof (smax_range t) as SM. unfold mean2. set (v := fun x' y' => IZR (chan_at t im i (x', y'))). assert (V0 : (0 <= IZR (smax t))%R) by (apply IZR_le; destruct t; cbn; unfold u8_max, u16_max; lia). set (V := IZR (smax t)) in *. destruct uu_val as [U0 _].
  assert (VB : forall x' y', 0 <= x' < iw im -> 0 <= y' < ih im -> (0 <= v x' y' <= V)%R) by (intros x' y' Hx Hy; assert (CS : 0 <= chan_at t im i (x', y') <= smax t) by (apply (chan_sample t k im i); [exact HI|split; assumption]); split; apply IZR_le; lia).
  pose proof AX as (_ & SX1 & _ & TX & _ & TZX & NX48 & _). pose proof AY as (_ & SY1 & _ & TY & _ & TZY & NY48 & _). pose proof (taps_range fx (iw im) nw x HW) as TRX. pose proof (taps_range fy (ih im) nh y HH) as TRY.
  assert (SYP : (0 < sumr (tent cy sy) 0 (ih im))%R) by (assert (1 <= IZR (ntaps fy (ih im) nh y))%R by (apply IZR_le; unfold ntaps; lia); lra).
  set (w := fun x' => mean (tent cy sy) (fun y' => v x' y') 0 (ih im)). assert (WB : forall x', 0 <= x' < iw im -> (0 <= w x' <= V)%R) by (intros x' Hx; apply mean_range; [intros j _; apply tent_range; lra|exact SYP|intros j Hj; apply VB; lia]).
  pose proof (axis_mean fx (iw im) nw x cx sx Kx w V HW AX ltac:(lra) WB) as E1. fold w.
  set (u := fun x' => mean Ky (fun y' => v x' y') (left_tap fy (ih im) nh y) (ntaps fy (ih im) nh y)). assert (E2 : forall x', 0 <= x' < iw im -> (Rabs (u x' - w x') <= V * (193 * uu))%R) by (intros x' Hx; apply (axis_mean fy (ih im) nh y cy sy Ky); [exact HH|exact AY|lra|intros j Hj; apply VB; assumption]).
  assert (KP : forall j, left_tap fx (iw im) nw x <= j < left_tap fx (iw im) nw x + ntaps fx (iw im) nw x -> (0 <= Kx j)%R) by (intros j Hj; apply (proj1 TX); unfold ntaps in Hj; lia). pose proof (taps_sum fx (iw im) nw x Kx TX) as KS.
  pose proof (mean_scaled_hi Kx u w _ _ 1 (V * (193 * uu)) KP KS) as HI1. pose proof (mean_scaled_lo Kx u w _ _ 1 (V * (193 * uu)) KP KS) as LO1. assert (G : forall j, left_tap fx (iw im) nw x <= j < left_tap fx (iw im) nw x + ntaps fx (iw im) nw x -> (- (V * (193 * uu)) <= u j - w j <= V * (193 * uu))%R) by (intros j Hj; apply Rabs_le_inv; apply E2; unfold ntaps in Hj; lia).
  specialize (HI1 ltac:(intros j Hj; specialize (G j Hj); lra)). specialize (LO1 ltac:(intros j Hj; specialize (G j Hj); lra)). change (mean Kx (fun x' => mean Ky (fun y' => IZR (chan_at t im i (x', y'))) (left_tap fy (ih im) nh y) (ntaps fy (ih im) nh y)) (left_tap fx (iw im) nw x) (ntaps fx (iw im) nw x)) with (mean Kx u (left_tap fx (iw im) nw x) (ntaps fx (iw im) nw x)).
  change (mean (tent cx sx) (fun x' => mean (tent cy sy) (fun y' => IZR (chan_at t im i (x', y'))) 0 (ih im)) 0 (iw im)) with (mean (tent cx sx) w 0 (iw im)). apply Rabs_le_inv in E1. apply Rabs_le. lra.
Qed.
(** the computed weights as a function *)
Definition computed (f : filter) (size ns out i : Z) : R := B2R (kernel f (kernel_arg size ns out i)).
Lemma axis_computed f size ns out c s K : axis f size ns out c s K -> axis f size ns out c s (computed f size ns out).
Proof.
  intros (H1 & H2 & H3 & (T1 & i0 & I0 & T2) & H5 & H6 & H7 & H8). assert (E : forall i, left_tap f size ns out <= i < right_tap f size ns out -> computed f size ns out i = K i) by (intros i Hi; apply (proj1 (T1 i Hi))).
  split; [exact H1|]. split; [exact H2|]. split; [exact H3|]. split; [|split; [intros i Hi; rewrite (E i Hi); apply H5; exact Hi|split; [exact H6|split; [exact H7|exact H8]]]].
  split; [intros i Hi; rewrite (E i Hi); apply T1; exact Hi|exists i0; split; [exact I0|rewrite (E i0 I0); exact T2]].
Qed.
