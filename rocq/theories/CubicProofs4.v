From Coq Require Import ZArith Bool Reals Lia Lra.
From Flocq Require Import Core IEEE754.BinarySingleNaN.
From Verif Require Import Base BaseLemmas ListMore Color ColorProofs Float FloatProofs JpegQuant ColorF ColorFProofs GenImage Thumb ThumbSpec ThumbProofs ThumbProofs2 ThumbProofs3 ThumbProofs4 Sample SampleSpec SampleProofs SampleProofs2 SampleProofs3 SampleProofs4 SampleProofs5 SampleProofs7 SampleProofs8 SampleProofs9 SampleProofs10 Filter3Proofs CubicSpec CubicProofs CubicProofs2 CubicProofs3.
Local Open Scope Z_scope.

(** the rounded argument of the kernel *)
Lemma arg_near D s i : (1 <= s)%R -> let a := Rabs ((IZR i - D) / s) in let x := Rabs (RN32 (RN32 (IZR i - D) / s)) in (Rabs (x - a) <= 2.0001 * (uu * a) + 3 * eta)%R.
Proof.
  intros HS. destruct uu_val as [U0 U1]. pose proof eta_uu as ET. destruct eta_val as [T0 _]. set (d := (IZR i - D)%R) in *. pose proof (RN_aes d) as E1. set (d1 := RN32 d) in *. clearbody d1.
  pose proof (RN_aes (d1 / s)) as E2. set (A := RN32 (d1 / s)) in *. clearbody A. assert (IS : (0 < / s <= 1)%R) by (split; [apply Rinv_0_lt_compat; lra|rewrite <- Rinv_1; apply Rinv_le_contravar; lra]).
  set (a := (d / s)%R). cbv zeta. assert (EA : (Rabs (d1 / s - a) <= uu * Rabs a + eta)%R).
  { unfold a, Rdiv. rewrite <- Rmult_minus_distr_r, Rabs_mult, (Rabs_mult d), (Rabs_pos_eq (/ s)) by lra. apply Rle_trans with ((uu * Rabs d + eta) * / s)%R; [apply Rmult_le_compat_r; lra|]. rewrite Rmult_plus_distr_r. assert (eta * / s <= eta * 1)%R by (apply Rmult_le_compat_l; lra). lra. }
  set (b := (d1 / s)%R) in *. clearbody b a. pose proof (Rabs_pos a) as PA. pose proof (Rabs_pos b) as PB.
  assert (B1 : (Rabs b <= Rabs a + (uu * Rabs a + eta))%R) by (replace b with (a + (b - a))%R by ring; eapply Rle_trans; [apply Rabs_triang|]; lra).
  assert (DA : (Rabs (Rabs A - Rabs a) <= uu * Rabs a + eta + (uu * Rabs b + eta))%R). { eapply Rle_trans; [apply Rabs_triang_inv2|]. replace (A - a)%R with ((b - a) + (A - b))%R by ring. eapply Rle_trans; [apply Rabs_triang|]. lra. }
  assert (UB : (uu * Rabs b <= uu * (Rabs a + (uu * Rabs a + eta)))%R) by (apply Rmult_le_compat_l; lra). assert (UA : (0 <= uu * Rabs a)%R) by (apply Rmult_le_pos; lra). assert (UU : (uu * (uu * Rabs a) <= / 16700000 * (uu * Rabs a))%R) by (apply Rmult_le_compat_r; lra). assert (UE : (uu * eta <= 1 * eta)%R) by (apply Rmult_le_compat_r; lra). rewrite !Rmult_plus_distr_l in UB. lra.
Qed.
Lemma cubic_near D s i : (1 <= s)%R -> (Rabs (cubic (RN32 (RN32 (IZR i - D) / s)) - cubic_at (D + / 2) s i) <= 7 * uu)%R.
Proof.
  intros HS. pose proof (arg_near D s i HS) as E. cbv zeta in E. unfold cubic_at. replace (IZR i + / 2 - (D + / 2))%R with (IZR i - D)%R by ring. set (X := ((IZR i - D) / s)%R) in *. set (A := RN32 (RN32 (IZR i - D) / s)) in *. clearbody A X.
  destruct uu_val as [U0 U1]. pose proof eta_uu as ET. destruct eta_val as [T0 _]. pose proof (Rabs_pos X) as PX. destruct (Rle_or_lt (Rabs X) 2.1) as [G|G].
  - eapply Rle_trans; [apply cubic_lip|]. assert (uu * Rabs X <= uu * 2.1)%R by (apply Rmult_le_compat_l; lra). lra.
  - assert (uu * Rabs X <= / 16700000 * Rabs X)%R by (apply Rmult_le_compat_r; lra). apply Rabs_le_inv in E. rewrite !cubic_zero by lra. rewrite Rminus_0_r, Rabs_R0. lra.
Qed.
(** one axis *)
Definition caxis (f : filter) (size ns out : Z) (c s : R) (K : Z -> R) : Prop :=
  let l := left_tap f size ns out in let n := ntaps f size ns out in let S := sumr K l n in
  (Rabs (c - position size ns out) <= (position size ns out + 1) / 1048576)%R /\ (1 <= s)%R /\ (Rabs (s - stretch size ns) <= stretch size ns / 1048576)%R /\
  (forall i, l <= i < l + n -> isf (kernel f (kernel_arg size ns out i)) (K i) /\ (Rabs (K i - cubic_at c s i) <= 100 * uu)%R) /\ (forall i, 0 <= i < size -> ~ l <= i < l + n -> cubic_at c s i = 0%R) /\
  (IZR n <= 136 * S)%R /\ (sumr (fun i => Rabs (K i)) l n <= 4.4 * S)%R /\ (IZR n <= 4 * stretch size ns + 4.6)%R.
Lemma cubic_axis f size ns out : kernel f = catmullrom_kernel -> isf (support f) 2 -> 1 <= size <= 65536 -> 1 <= ns <= u32_max -> 0 <= out < ns -> exists c s, caxis f size ns out c s (computed f size ns out).
Proof.
  intros KF SF HS HN HO. assert (HS' : 1 <= size <= u32_max) by (unfold u32_max; lia). destruct (centre_ok size ns out HS' HN HO) as (C & IC & NC & CB & _). destruct (scale1_ok size ns HS' HN) as (S1 & I1 & SB & NS). fold (stretch size ns) in NS.
  destruct (taps_where f size ns out 2%R ltac:(lia) HN HO SF ltac:(lra)) as (_ & _ & NT). fold (stretch size ns) in NT.
  destruct uu_val as [U0 U1]. pose proof eta_uu as ET. destruct eta_val as [T0 _]. pose proof (position_range size ns out ltac:(lia) ltac:(lia) HO) as PR. set (pos := position size ns out) in *. assert (SZ : (1 <= IZR size <= 65536)%R) by (split; apply IZR_le; lia). set (st := stretch size ns) in *.
  assert (ST : (1 <= st <= IZR size)%R). { unfold st, stretch. split; [apply Rmax_l|]. apply Rmax_lub; [lra|]. assert (1 <= IZR ns)%R by (apply IZR_le; lia). apply Rle_trans with (IZR size / 1)%R; [|lra]. unfold Rdiv. apply Rmult_le_compat_l; [lra|]. apply Rinv_le_contravar; lra. }
  apply near_iff in NC, NS. assert (US : (0 <= uu * st <= / 16700000 * st)%R) by (split; [apply Rmult_le_pos; lra|apply Rmult_le_compat_r; lra]). assert (UP : (0 <= uu * pos <= / 16700000 * pos)%R) by (split; [apply Rmult_le_pos; lra|apply Rmult_le_compat_r; lra]).
  replace (12 * uu * pos)%R with (12 * (uu * pos))%R in NC by ring. replace (6 * uu * st)%R with (6 * (uu * st))%R in NS by ring.
  assert (CB' : (0 < C <= 530000)%R) by lra. assert (B90 : (4000000 <= IZR (2 ^ 90))%R) by (apply IZR_le; vm_compute; discriminate). assert (BB : (4000000 <= B100)%R) by (unfold B100; apply IZR_le; vm_compute; discriminate).
  assert (PE : (Rabs (2 * S1) <= 131100)%R) by (apply Rabs_le; lra). pose proof (RNb _ _ PE) as EP. set (P := RN32 (2 * S1)) in *.
  assert (HR : reach f size ns P). { split; [|lra]. exact (fb_mul _ _ _ _ SF I1 ltac:(lra)). }
  destruct (taps_eq f size ns out C P HS' IC CB HR) as [EL ER]. pose proof (taps_range f size ns out ltac:(lia)) as TR.
  pose proof (RN_aes (C - / 2)) as ED. assert (UC : (uu * Rabs (C - / 2) <= uu * pos + 12 * (uu * pos) / 1000 + uu * / 2)%R). { assert (Rabs (C - / 2) <= pos + 12 * (uu * pos) + / 2)%R by (apply Rabs_le; lra). apply Rle_trans with (uu * (pos + 12 * (uu * pos) + / 2))%R; [apply Rmult_le_compat_l; lra|]. rewrite !Rmult_plus_distr_l. assert (uu * (12 * (uu * pos)) <= / 1000 * (12 * (uu * pos)))%R by (apply Rmult_le_compat_r; lra). lra. }
  set (D := RN32 (C - / 2)) in *. assert (DB : (Rabs (D - (C - / 2)) <= 0.01)%R) by (apply Rabs_le_inv in ED; apply Rabs_le; lra). apply Rabs_le_inv in ED, DB.
  exists (D + / 2)%R, S1. set (K := computed f size ns out).
  assert (KV : forall i, 0 <= i < size -> isf (kernel f (kernel_arg size ns out i)) (K i) /\ (Rabs (K i - cubic_at (D + / 2) S1 i) <= 100 * uu)%R).
  { intros i Hi. destruct (arg_ok size ns out C S1 i ltac:(lia) Hi IC CB' I1 ltac:(lra)) as (A & IA & EA & BA). destruct (catmull_eval _ _ IA BA) as (k & IK & EK). rewrite <- KF in IK. assert (E : K i = k) by (unfold K, computed; exact (proj1 IK)). rewrite E. split; [exact IK|]. pose proof (cubic_near D S1 i ltac:(lra)) as EC. fold D in EA. rewrite <- EA in EC. apply Rabs_le_inv in EK, EC. apply Rabs_le. lra. }
  assert (NE : left_tap f size ns out + ntaps f size ns out = right_tap f size ns out) by (unfold ntaps; lia). assert (NP : 1 <= ntaps f size ns out) by (unfold ntaps; lia).
  assert (TZ : forall i, 0 <= i < size -> ~ left_tap f size ns out <= i < left_tap f size ns out + ntaps f size ns out -> cubic_at (D + / 2) S1 i = 0%R).
  { intros i Hi NI. rewrite NE in NI. apply cubic_zero. assert (UX : forall x, (Rabs x <= 240000 -> uu * Rabs x + eta <= 0.02)%R) by (intros x Hx; assert (uu * Rabs x <= / 16700000 * 240000)%R by (apply Rmult_le_compat; try lra; apply Rabs_pos); lra). unfold Rdiv. rewrite Rabs_mult, (Rabs_pos_eq (/ S1)) by (left; apply Rinv_0_lt_compat; lra). apply Rmult_le_reg_r with S1; [lra|]. rewrite Rmult_assoc, Rinv_l, Rmult_1_r by lra.
    destruct (Z.lt_ge_cases i (left_tap f size ns out)) as [G|G].
    - assert (G1 : i + 1 <= Zfloor (RN32 (C - P))) by lia. apply IZR_le in G1. rewrite plus_IZR in G1. pose proof (Zfloor_lb (RN32 (C - P))) as FL. pose proof (RN_aes (C - P)) as E1. pose proof (UX (C - P)%R ltac:(apply Rabs_le; lra)) as E2. apply Rabs_le_inv in E1. rewrite Rabs_left1 by lra. lra.
    - assert (G1 : Zceil (RN32 (C + P)) <= i) by lia. apply IZR_le in G1. pose proof (Zceil_ub (RN32 (C + P))) as FL. pose proof (RN_aes (C + P)) as E1. pose proof (UX (C + P)%R ltac:(apply Rabs_le; lra)) as E2. apply Rabs_le_inv in E1. rewrite Rabs_pos_eq by lra. lra. }
  destruct (cubic_sum size (D + / 2) S1 ltac:(lia) ltac:(lra) ltac:(lra) ltac:(lra)) as (g & G1 & G24 & GS & GA).
  set (l := left_tap f size ns out) in *. set (n := ntaps f size ns out) in *.
  rewrite (sumr_restrict (fun i => Rabs (cubic_at (D + / 2) S1 i)) l n) in GA; [|lia|lia|lia|intros i Hi NI; rewrite (TZ i) by (try lia; exact NI); apply Rabs_R0].
  rewrite (sumr_restrict (cubic_at (D + / 2) S1) l n) in GS, GA; try lia; [|intros i Hi NI; apply TZ; [lia|exact NI]..].
  unfold caxis. fold pos st l n. split; [apply Rabs_le; lra|]. split; [lra|]. split; [apply Rabs_le; lra|]. split; [intros i Hi; apply KV; lia|]. split; [exact TZ|].
  assert (N0 : (1 <= IZR n)%R) by (apply IZR_le; lia). assert (NG : (IZR n <= 24 * g)%R) by lra. assert (NU : (0 <= IZR n * (100 * uu) <= 24 * g * (100 * / 16700000))%R) by (split; [apply Rmult_le_pos; lra|apply Rmult_le_compat; lra]).
  assert (SK : (sumr (cubic_at (D + / 2) S1) l n - IZR n * (100 * uu) <= sumr K l n)%R). { rewrite <- (sumr_const (100 * uu) l n) by lia. apply Rplus_le_reg_r with (sumr (fun _ => 100 * uu) l n)%R. rewrite <- (sumr_plus K). ring_simplify. apply sumr_le. intros i Hi. destruct (KV i ltac:(lia)) as [_ KT]. apply Rabs_le_inv in KT. lra. }
  assert (AK : (sumr (fun i => Rabs (K i)) l n <= sumr (fun i => Rabs (cubic_at (D + / 2) S1 i)) l n + IZR n * (100 * uu))%R). { rewrite <- (sumr_const (100 * uu) l n) by lia. rewrite <- sumr_plus. apply sumr_le. intros i Hi. destruct (KV i ltac:(lia)) as [_ KT]. pose proof (Rabs_triang (K i - cubic_at (D + / 2) S1 i) (cubic_at (D + / 2) S1 i)) as T. replace (K i - cubic_at (D + / 2) S1 i + cubic_at (D + / 2) S1 i)%R with (K i) in T by ring. lra. }
  split; [lra|]. split; [lra|]. lra.
Qed.
