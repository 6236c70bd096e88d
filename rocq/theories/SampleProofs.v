From Coq Require Import ZArith Bool Reals Lia Lra.
From Flocq Require Import Core IEEE754.BinarySingleNaN.
From Verif Require Import Base BaseLemmas ListMore Color ColorProofs Float FloatProofs JpegQuant ColorF ColorFProofs GenImage Thumb ThumbSpec ThumbProofs ThumbProofs2 Sample.
Local Open Scope Z_scope.

(** ** signed operations *)
Lemma RN_B100s x : (Rabs x <= B100)%R -> (Rabs (RN32 x) <= B100)%R.
Proof.
  intros H. apply Rabs_le_inv in H. apply Rabs_le. split; [|apply RN_le_r; [exact eq_refl|apply repr32_pow2; lia|lra]].
  rewrite <- (Ropp_involutive x), RN_opp. apply Ropp_le_contravar. apply RN_le_r; [exact eq_refl|apply repr32_pow2; lia|lra].
Qed.
Lemma no_overflow32s x : (Rabs x <= B100)%R -> Rlt_bool (Rabs (RN32 x)) (bpow radix2 128) = true.
Proof.
  intros H. apply RN_B100s in H. apply Rlt_bool_true. apply Rle_lt_trans with B100; [exact H|]. unfold B100. replace (IZR (2 ^ 100)) with (bpow radix2 100) by (symmetry; apply (IZR_Zpower radix2); lia). apply bpow_lt. lia.
Qed.
Lemma fs_mul x y r s : isf x r -> isf y s -> (Rabs (r * s) <= B100)%R -> isf (f32_mul x y) (RN32 (r * s)).
Proof.
  intros (E1 & F1) (E2 & F2) HB. pose proof (Bmult_correct 24 128 f32_prec f32_emax mode_NE x y) as C. cbn [round_mode] in C. rewrite E1, E2 in C. pose proof (no_overflow32s _ HB) as NO. unfold RN in NO. change (round_mode mode_NE) with ZnearestE in *. rewrite NO in C. destruct C as (C & F & _). split; [exact C|]. unfold f32_mul. rewrite F, F1, F2. reflexivity.
Qed.
Lemma fs_add x y r s : isf x r -> isf y s -> (Rabs (r + s) <= B100)%R -> isf (f32_add x y) (RN32 (r + s)).
Proof.
  intros (E1 & F1) (E2 & F2) HB. pose proof (Bplus_correct 24 128 f32_prec f32_emax mode_NE x y F1 F2) as C. cbn [round_mode] in C. rewrite E1, E2 in C. pose proof (no_overflow32s _ HB) as NO. unfold RN in NO. change (round_mode mode_NE) with ZnearestE in *. rewrite NO in C. destruct C as (C & F & _). split; [exact C|]. exact F.
Qed.
Lemma fs_sub x y r s : isf x r -> isf y s -> (Rabs (r - s) <= B100)%R -> isf (f32_sub x y) (RN32 (r - s)).
Proof.
  intros (E1 & F1) (E2 & F2) HB. pose proof (Bminus_correct 24 128 f32_prec f32_emax mode_NE x y F1 F2) as C. cbn [round_mode] in C. rewrite E1, E2 in C. pose proof (no_overflow32s _ HB) as NO. unfold RN in NO. change (round_mode mode_NE) with ZnearestE in *. rewrite NO in C. destruct C as (C & F & _). split; [exact C|]. exact F.
Qed.
Lemma fs_div x y r s : isf x r -> isf y s -> s <> 0%R -> (Rabs (r / s) <= B100)%R -> isf (f32_div x y) (RN32 (r / s)).
Proof.
  intros (E1 & F1) (E2 & F2) N HB. pose proof (Bdiv_correct 24 128 f32_prec f32_emax mode_NE x y) as C. cbn [round_mode] in C. rewrite E1, E2 in C. specialize (C N). pose proof (no_overflow32s _ HB) as NO. unfold RN in NO. change (round_mode mode_NE) with ZnearestE in *. rewrite NO in C. destruct C as (C & F & _). split; [exact C|]. unfold f32_div. rewrite F. exact F1.
Qed.
Lemma RN_aes x : (Rabs (RN32 x - x) <= uu * Rabs x + eta)%R.
Proof.
  destruct (Rle_or_lt 0 x) as [H|H]; [rewrite (Rabs_pos_eq x H); apply RN_ae; exact H|]. rewrite (Rabs_left x H). pose proof (RN_ae (- x) ltac:(lra)) as E. rewrite RN_opp in E. replace (- RN32 x - - x)%R with (- (RN32 x - x))%R in E by ring. rewrite Rabs_Ropp in E. exact E.
Qed.
Lemma floor_ok x r : isf x r -> isf (f32_floor x) (IZR (Zfloor r)).
Proof. intros (E & F). pose proof (Bnearbyint_correct 24 128 f32_emax mode_DN x) as (C & G & _). unfold isf, f32_floor. rewrite C, G. cbn [round_mode]. rewrite round_FIX_IZR, E. split; [reflexivity|exact F]. Qed.
Lemma lt_ok x y r s : isf x r -> isf y s -> f32_lt x y = Rlt_bool r s.
Proof. intros (E & F) (E' & F'). unfold f32_lt. rewrite (Bltb_correct _ _ x y F F'), E, E'. reflexivity. Qed.
Lemma isf_abs x r : isf x r -> isf (f32_abs x) (Rabs r).
Proof. intros (E & F). split; [unfold f32_abs; rewrite B2R_Babs, E; reflexivity|unfold f32_abs; rewrite is_finite_Babs; exact F]. Qed.
Lemma half_ok : isf f32_half (/ 2)%R.
Proof. split; [|reflexivity]. unfold f32_half, f32_dyadic. vm_compute (binary_normalize _ _ _ _ _ _ _ _). cbn [B2R]. unfold F2R. cbn. lra. Qed.
Lemma isf_one : isf f32_one 1%R. Proof. exact one_ok. Qed.
Lemma isf_zero : isf f32_zero 0%R. Proof. exact zero_ok. Qed.

(** ** float sums of non-negative terms *)
Definition pp : R := (1 - uu)%R.
Definition qq : R := (/ pp)%R.
Definition rsum (l : list R) : R := fold_right Rplus 0%R l.
Definition B61 : R := IZR (2 ^ 61).
Lemma pp_val : (0.9 <= pp < 1)%R. Proof. destruct uu_val. unfold pp. lra. Qed.
Lemma qq_val : (1 + uu <= qq <= 2)%R.
Proof.
  pose proof pp_val as P. destruct uu_val as [U0 U1]. unfold qq. split.
  - apply Rmult_le_reg_r with pp; [lra|]. rewrite Rinv_l by lra. unfold pp. assert (0 <= uu * uu)%R by (apply Rmult_le_pos; lra). replace ((1 + uu) * (1 - uu))%R with (1 - uu * uu)%R by ring. lra.
  - rewrite <- (Rinv_inv 2). apply Rinv_le_contravar; lra.
Qed.
Lemma qq1 n : (1 <= qq ^ n)%R. Proof. apply pow_R1_Rle. pose proof qq_val. destruct uu_val. lra. Qed.
Lemma pp1 n : (0 < pp ^ n <= 1)%R.
Proof. pose proof pp_val. split; [apply pow_lt; lra|]. rewrite <- (pow1 n). apply pow_incr. lra. Qed.
Lemma pq n : (pp ^ n * qq ^ n = 1)%R.
Proof. rewrite <- Rpow_mult_distr. unfold qq. rewrite Rinv_r by (pose proof pp_val; lra). apply pow1. Qed.
Lemma pp_bern n : (1 - INR n * uu <= pp ^ n)%R.
Proof.
  induction n as [|n IH]; [cbn; lra|]. rewrite S_INR. cbn [pow]. unfold pp at 1. pose proof (pp1 n) as P. destruct uu_val as [U0 U1]. assert (uu * pp ^ n <= uu * 1)%R by (apply Rmult_le_compat_l; lra). lra.
Qed.
Lemma INR20 n : Z.of_nat n <= 1048576 -> (0 <= INR n <= 1048576)%R /\ (INR n * uu <= / 10)%R.
Proof.
  intros H. assert (A : (0 <= INR n <= 1048576)%R) by (rewrite INR_IZR_INZ; split; apply IZR_le; lia). split; [exact A|]. destruct uu_val as [U0 U1]. apply Rle_trans with (1048576 * / 16700000)%R; [apply Rmult_le_compat; lra|lra].
Qed.
Lemma pp_half n : Z.of_nat n <= 1048576 -> (0.9 <= pp ^ n)%R.
Proof. intros H. pose proof (pp_bern n). destruct (INR20 n H). lra. Qed.
Lemma qq_two n : Z.of_nat n <= 1048576 -> (qq ^ n <= 1.2)%R.
Proof. intros H. pose proof (pp_half n H) as P. pose proof (pq n) as E. pose proof (qq1 n) as Q. assert (0.9 * qq ^ n <= 1)%R by (rewrite <- E; apply Rmult_le_compat_r; lra). lra. Qed.
Lemma rsum_nonneg l : Forall (fun r => 0 <= r)%R l -> (0 <= rsum l)%R.
Proof. induction 1; cbn [rsum fold_right]; [lra|]. fold (rsum l). lra. Qed.
Lemma RN_up y : (0 <= y)%R -> (RN32 y <= qq * y + eta)%R.
Proof. intros H. pose proof (RN_ae y H) as E. apply Rabs_le_inv in E. pose proof qq_val. assert ((1 + uu) * y <= qq * y)%R by (apply Rmult_le_compat_r; lra). lra. Qed.
Lemma RN_dn y : (0 <= y)%R -> (pp * y - eta <= RN32 y)%R.
Proof. intros H. pose proof (RN_ae y H) as E. apply Rabs_le_inv in E. unfold pp. lra. Qed.
Lemma B61_100 : (1048576 * B61 * 1.2 + 1 <= B100)%R /\ (1 <= B61)%R.
Proof.
  assert (E : (B100 = IZR (2 ^ 39) * B61)%R) by (unfold B100, B61; rewrite <- mult_IZR; f_equal). assert (P : (1 <= B61)%R) by (unfold B61; apply IZR_le; lia). split; [|exact P]. rewrite E. generalize dependent B61. intros B _ P. replace (IZR (2 ^ 39)) with 549755813888%R by (apply f_equal; reflexivity). lra.
Qed.
Lemma addsum_gen l : forall rs a A X i, Forall2 isf l rs -> Forall (fun r => 0 <= r <= B61)%R rs -> Z.of_nat (i + length l) <= 1048576 -> isf a A -> (0 <= A)%R -> (0 <= X <= INR i * B61)%R ->
  (X * pp ^ i - INR i * (2 * eta) <= A <= X * qq ^ i + INR i * (2 * eta))%R ->
  exists R, isf (fold_left f32_add l a) R /\ (0 <= R)%R /\ let n := (i + length l)%nat in ((X + rsum rs) * pp ^ n - INR n * (2 * eta) <= R <= (X + rsum rs) * qq ^ n + INR n * (2 * eta))%R.
Proof.
  induction l as [|x l IH]; intros rs a A X i F2 FB HL HA A0 HX HB.
  - inversion F2. subst rs. exists A. cbn [fold_left length rsum fold_right]. rewrite Nat.add_0_r, Rplus_0_r. auto.
  - inversion F2 as [|? r ? rs' Hx F2']. subst rs. inversion_clear FB as [|? ? Hr FB']. cbn [length] in HL. cbn [fold_left length rsum fold_right]. fold (rsum rs').
    destruct (INR20 i ltac:(lia)) as [I0 I1]. destruct B61_100 as [BB B1]. destruct eta_val as [T0 T1]. destruct uu_val as [U0 U1].
    pose proof (qq_two i ltac:(lia)) as Q2. pose proof (qq1 i) as Q1. pose proof (pp1 i) as P1. pose proof (S_INR i) as SI. destruct (INR20 (S i) ltac:(lia)) as [S0 _].
    assert (ET : (INR i * (2 * eta) <= / 2)%R). { apply Rle_trans with (1048576 * (2 * eta))%R; [apply Rmult_le_compat_r; lra|]. replace (IZR (2 ^ 32)) with 4294967296%R in T1 by (apply f_equal; reflexivity). lra. }
    assert (XQ : (X * qq ^ i <= INR i * B61 * 1.2)%R) by (apply Rmult_le_compat; lra). assert (IB : (INR (S i) * B61 <= 1048576 * B61)%R) by (apply Rmult_le_compat_r; lra). rewrite SI in IB.
    assert (YB : (0 <= A + r <= B100)%R) by (split; lra). pose proof (fb_add a x A r HA Hx YB) as HA'.
    destruct (IH rs' _ _ (X + r)%R (S i) F2' FB' ltac:(lia) HA') as (R & HR & R0 & RB).
    + apply RN_nonneg. lra.
    + rewrite SI. rewrite Rmult_plus_distr_r. lra.
    + rewrite SI. cbn [pow]. pose proof (RN_up (A + r) ltac:(lra)) as UP. pose proof (RN_dn (A + r) ltac:(lra)) as DN.
      assert (RP : (r * pp ^ i <= r * 1)%R) by (apply Rmult_le_compat_l; lra). assert (RQ : (r * 1 <= r * qq ^ i)%R) by (apply Rmult_le_compat_l; lra).
      assert (L1 : ((X + r) * pp ^ i - INR i * (2 * eta) <= A + r)%R) by (rewrite Rmult_plus_distr_r; lra). assert (L2 : (A + r <= (X + r) * qq ^ i + INR i * (2 * eta))%R) by (rewrite Rmult_plus_distr_r; lra).
      pose proof pp_val as PV. pose proof qq_val as QV. apply (Rmult_le_compat_l pp) in L1; [|lra]. apply (Rmult_le_compat_l qq) in L2; [|lra].
      assert (K1 : (pp * (INR i * (2 * eta)) <= 1 * (INR i * (2 * eta)))%R) by (apply Rmult_le_compat_r; [apply Rmult_le_pos; lra|lra]).
      assert (K2 : (qq * (INR i * (2 * eta)) + eta <= INR i * (2 * eta) + 2 * eta)%R).
      { assert (QU : (qq <= 1 + 2 * uu)%R). { unfold qq. apply Rmult_le_reg_r with pp; [lra|]. rewrite Rinv_l by lra. unfold pp. replace ((1 + 2 * uu) * (1 - uu))%R with (1 + uu * (1 - 2 * uu))%R by ring. assert (0 <= uu * (1 - 2 * uu))%R by (apply Rmult_le_pos; lra). lra. }
        assert (qq * (INR i * (2 * eta)) <= (1 + 2 * uu) * (INR i * (2 * eta)))%R by (apply Rmult_le_compat_r; [apply Rmult_le_pos; lra|lra]). replace ((1 + 2 * uu) * (INR i * (2 * eta)))%R with (INR i * (2 * eta) + 4 * ((INR i * uu) * eta))%R in H by ring. assert (INR i * uu * eta <= / 10 * eta)%R by (apply Rmult_le_compat_r; lra). lra. }
      split; [replace ((X + r) * (pp * pp ^ i))%R with (pp * ((X + r) * pp ^ i))%R by ring|replace ((X + r) * (qq * qq ^ i))%R with (qq * ((X + r) * qq ^ i))%R by ring]; lra.
    + exists R. split; [exact HR|]. split; [exact R0|]. cbv zeta in *. rewrite Nat.add_succ_r. replace (X + (r + rsum rs'))%R with (X + r + rsum rs')%R by ring. exact RB.
Qed.
Lemma addsum l rs : Forall2 isf l rs -> Forall (fun r => 0 <= r <= B61)%R rs -> zlen l <= 1048576 ->
  exists R, isf (fsum l) R /\ (0 <= R)%R /\ let n := length l in (rsum rs * pp ^ n - INR n * (2 * eta) <= R <= rsum rs * qq ^ n + INR n * (2 * eta))%R.
Proof.
  intros F2 FB HL. destruct (addsum_gen l rs f32_zero 0%R 0%R 0%nat F2 FB) as (R & H1 & H2 & H3); [unfold zlen in HL; cbn [Nat.add]; lia|exact isf_zero|lra|cbn; lra|cbn; lra|]. exists R. split; [exact H1|]. split; [exact H2|]. cbv zeta in *. cbn [Nat.add] in H3. rewrite Rplus_0_l in H3. exact H3.
Qed.

(** ** normalised weights *)
Definition B60 : R := IZR (2 ^ 60).
Lemma B60_val : (1 <= B60)%R /\ (B60 <= B61)%R.
Proof. unfold B60, B61. split; apply IZR_le; lia. Qed.
Lemma eta_n n : Z.of_nat n <= 1048576 -> (0 <= INR n * (2 * eta) <= / B60 * (uu * / 4))%R /\ (INR n * (2 * eta) <= uu * / 4)%R.
Proof.
  intros H. destruct (INR20 n H) as [A _]. destruct eta_val as [T0 _]. destruct uu_val as [U0 U1].
  assert (E : (eta <= / B60 * uu * / IZR (2 ^ 50))%R).
  { unfold eta, B60, uu. rewrite <- !Rinv_mult, <- !mult_IZR. apply Rinv_le_contravar; [apply IZR_lt; reflexivity|apply IZR_le]. vm_compute. discriminate. }
  assert (B : (0 < / B60 <= 1)%R). { destruct B60_val. split; [apply Rinv_0_lt_compat; lra|rewrite <- Rinv_1; apply Rinv_le_contravar; lra]. }
  assert (P : (0 <= / B60 * uu)%R) by (apply Rmult_le_pos; lra). assert (Q : (/ B60 * uu <= 1 * uu)%R) by (apply Rmult_le_compat_r; lra).
  assert (G : (INR n * (2 * eta) <= 1048576 * (2 * (/ B60 * uu * / IZR (2 ^ 50))))%R) by (apply Rmult_le_compat; lra). replace (IZR (2 ^ 50)) with 1125899906842624%R in G by (apply f_equal; reflexivity).
  split; [split; [apply Rmult_le_pos; lra|]|]; lra.
Qed.
Lemma rsum_in l r : Forall (fun r => 0 <= r)%R l -> In r l -> (r <= rsum l)%R.
Proof. induction 1 as [|a l H F IH]; [intros []|]. cbn [rsum fold_right]. fold (rsum l). pose proof (rsum_nonneg l F). intros [->|I]; [lra|]. specialize (IH I). lra. Qed.
Lemma rsum_div l s : (rsum (map (fun k => k / s) l) = rsum l / s)%R.
Proof. induction l as [|a l IH]; cbn [map rsum fold_right]; [unfold Rdiv; ring|]. fold (rsum l). fold (rsum (map (fun k => k / s)%R l)). rewrite IH. unfold Rdiv. ring. Qed.
Lemma rsum_RN l : Forall (fun r => 0 <= r)%R l -> (rsum l * pp - INR (length l) * eta <= rsum (map RN32 l) <= rsum l * qq + INR (length l) * eta)%R.
Proof.
  induction 1 as [|a l H F IH]; [cbn; lra|]. cbn [map length]. rewrite S_INR. cbn [rsum fold_right]. fold (rsum l). fold (rsum (map RN32 l)). pose proof (RN_up a H). pose proof (RN_dn a H). rewrite !Rmult_plus_distr_r. lra.
Qed.
Lemma raw_sum l ks : Forall2 isf l ks -> Forall (fun k => 0 <= k <= B60)%R ks -> zlen l <= 1048576 -> Exists (fun k => / B60 <= k)%R ks ->
  exists R, isf (fsum l) R /\ let n := length l in (rsum ks * pp ^ (n + 1) <= R <= rsum ks * qq ^ (n + 1))%R /\ (/ B60 <= rsum ks)%R.
Proof.
  intros F2 FB HL EX. destruct B60_val as [B1 B2]. destruct (addsum l ks F2) as (R & H1 & H2 & H3); [eapply Forall_impl; [|exact FB]; intros k Hk; cbv beta in Hk; lra|exact HL|].
  assert (F0 : Forall (fun r => 0 <= r)%R ks) by (eapply Forall_impl; [|exact FB]; intros k Hk; cbv beta in Hk; lra).
  assert (SS : (/ B60 <= rsum ks)%R). { apply Exists_exists in EX. destruct EX as (k & I & HK). pose proof (rsum_in ks k F0 I). lra. }
  exists R. split; [exact H1|]. cbv zeta in *. split; [|exact SS]. destruct (eta_n (length l) ltac:(unfold zlen in HL; lia)) as [[E0 E1] _]. destruct uu_val as [U0 U1].
  assert (P0 : (0 < / B60)%R) by (apply Rinv_0_lt_compat; lra). assert (E2 : (/ B60 * (uu * / 4) <= rsum ks * (uu * / 4))%R) by (apply Rmult_le_compat_r; lra).
  rewrite !pow_add, !pow_1. pose proof (pp_half (length l) ltac:(unfold zlen in HL; lia)) as PH. pose proof (qq1 (length l)) as Q1. pose proof qq_val as QV.
  assert (G1 : (rsum ks * (uu * / 4) <= rsum ks * (pp ^ length l * uu))%R). { apply Rmult_le_compat_l; [lra|]. rewrite (Rmult_comm uu). apply Rmult_le_compat_r; lra. }
  assert (G2 : (rsum ks * (uu * / 4) <= rsum ks * (qq ^ length l * (qq - 1)))%R). { apply Rmult_le_compat_l; [lra|]. apply Rle_trans with (1 * (qq - 1))%R; [lra|]. apply Rmult_le_compat_r; lra. }
  unfold pp at 2. split; [replace (rsum ks * (pp ^ length l * (1 - uu)))%R with (rsum ks * pp ^ length l - rsum ks * (pp ^ length l * uu))%R by ring|replace (rsum ks * (qq ^ length l * qq))%R with (rsum ks * qq ^ length l + rsum ks * (qq ^ length l * (qq - 1)))%R by ring]; lra.
Qed.
Lemma f2_length {A B} (P : A -> B -> Prop) l m : Forall2 P l m -> length l = length m.
Proof. induction 1; cbn [length]; congruence. Qed.
Lemma Forall2_map_isf {A} (f : A -> f32) (g : A -> R) l : (forall a, In a l -> isf (f a) (g a)) -> Forall2 isf (map f l) (map g l).
Proof. induction l as [|a l IH]; intros H; cbn [map]; constructor; [apply H; left; reflexivity|apply IH; intros; apply H; right; assumption]. Qed.
Lemma Forall2_isf_map (f : f32 -> f32) (g : R -> R) l ks : Forall2 isf l ks -> (forall x k, In k ks -> isf x k -> isf (f x) (g k)) -> Forall2 isf (map f l) (map g ks).
Proof. induction 1 as [|x k l ks H F IH]; intros G; cbn [map]; constructor; [apply G; [left; reflexivity|exact H]|apply IH; intros; apply G; [right|]; assumption]. Qed.
Lemma normal_weights l ks : Forall2 isf l ks -> Forall (fun k => 0 <= k <= B60)%R ks -> zlen l <= 1048000 -> Exists (fun k => / B60 <= k)%R ks ->
  exists wr, Forall2 isf (map (fun w => f32_div w (fsum l)) l) wr /\ Forall (fun w => 0 <= w <= 2)%R wr /\ (pp ^ (length l + 3) <= rsum wr <= qq ^ (length l + 3))%R.
Proof.
  intros F2 FB HL EX. destruct (raw_sum l ks F2 FB ltac:(lia) EX) as (R & HR & RB & SS). cbv zeta in RB. destruct B60_val as [B1 B2]. destruct uu_val as [U0 U1]. set (n := length l) in *. assert (HN : Z.of_nat n <= 1048000) by exact HL.
  assert (F0 : Forall (fun r => 0 <= r)%R ks) by (eapply Forall_impl; [|exact FB]; intros k Hk; cbv beta in Hk; lra).
  assert (P0 : (0 < / B60)%R) by (apply Rinv_0_lt_compat; lra). pose proof (pp_half (n + 1) ltac:(lia)) as PH. pose proof (qq_two (n + 1) ltac:(lia)) as QH. pose proof (pq (n + 1)) as PQ. pose proof (pp1 (n + 1)) as P1. pose proof (qq1 (n + 1)) as Q1.
  assert (RP : (0 < R)%R) by (apply Rlt_le_trans with (rsum ks * pp ^ (n + 1))%R; [apply Rmult_lt_0_compat; lra|lra]). assert (RI : (0 < / R)%R) by (apply Rinv_0_lt_compat; exact RP).
  set (s := (rsum ks / R)%R). assert (SR : (rsum ks = s * R)%R) by (unfold s; field; lra). assert (S0 : (0 <= s)%R) by (unfold s, Rdiv; apply Rmult_le_pos; lra).
  assert (SB : (pp ^ (n + 1) <= s <= qq ^ (n + 1))%R).
  { split; apply Rmult_le_reg_r with R; try exact RP; rewrite <- SR.
    - apply Rle_trans with (pp ^ (n + 1) * (rsum ks * qq ^ (n + 1)))%R; [apply Rmult_le_compat_l; lra|]. replace (pp ^ (n + 1) * (rsum ks * qq ^ (n + 1)))%R with (rsum ks * (pp ^ (n + 1) * qq ^ (n + 1)))%R by ring. rewrite PQ. lra.
    - apply Rle_trans with (qq ^ (n + 1) * (rsum ks * pp ^ (n + 1)))%R; [|apply Rmult_le_compat_l; lra]. replace (qq ^ (n + 1) * (rsum ks * pp ^ (n + 1)))%R with (rsum ks * (pp ^ (n + 1) * qq ^ (n + 1)))%R by ring. rewrite PQ. lra. }
  assert (KB : forall k, In k ks -> (0 <= k / R <= 1.2)%R).
  { intros k I. pose proof (rsum_in ks k F0 I). pose proof (proj1 (Forall_forall _ _) F0 k I) as K0. cbv beta in K0. unfold Rdiv. split; [apply Rmult_le_pos; lra|]. apply Rle_trans with (rsum ks * / R)%R; [apply Rmult_le_compat_r; lra|]. fold s. unfold s, Rdiv in SB. lra. }
  exists (map RN32 (map (fun k => k / R)%R ks)). assert (FK : Forall (fun r => 0 <= r)%R (map (fun k => k / R)%R ks)) by (apply Forall_forall; intros r I; apply in_map_iff in I; destruct I as (k & <- & I); apply (KB k I)).
  split; [|split].
  - rewrite map_map. apply (Forall2_isf_map _ (fun k => RN32 (k / R)) l ks F2). intros x k I HX. apply fb_div; [exact HX|exact HR|lra|]. specialize (KB k I). pose proof big_B. lra.
  - rewrite map_map. apply Forall_forall. intros r I. apply in_map_iff in I. destruct I as (k & <- & I). specialize (KB k I). split; [apply RN_nonneg; lra|]. apply RN_le_r; [exact eq_refl|apply (repr_Z 24 128 f32_prec f32_emax 2); lia|lra].
  - pose proof (rsum_RN _ FK) as RR. rewrite rsum_div in RR. fold s in RR. rewrite map_length in RR. rewrite <- (f2_length _ _ _ F2) in RR. fold n in RR. destruct (eta_n n ltac:(lia)) as [[E0 _] E1]. pose proof pp_val as PV. pose proof qq_val as QV.
    replace (n + 3)%nat with (n + 1 + 2)%nat by lia. rewrite (pow_add pp (n + 1) 2), (pow_add qq (n + 1) 2). change (pp ^ 2)%R with (pp * (pp * 1))%R. change (qq ^ 2)%R with (qq * (qq * 1))%R. rewrite !Rmult_1_r.
    assert (L1 : (pp ^ (n + 1) * pp <= s * pp)%R) by (apply Rmult_le_compat_r; lra). assert (L2 : (s * qq <= qq ^ (n + 1) * qq)%R) by (apply Rmult_le_compat_r; lra).
    assert (L3 : (uu * / 4 <= pp ^ (n + 1) * pp * uu)%R). { rewrite (Rmult_comm uu). apply Rmult_le_compat_r; [lra|]. apply Rle_trans with (0.9 * 0.9)%R; [lra|apply Rmult_le_compat; lra]. }
    assert (L4 : (uu * / 4 <= qq ^ (n + 1) * qq * (qq - 1))%R). { apply Rle_trans with (1 * (qq - 1))%R; [lra|]. apply Rmult_le_compat_r; [lra|]. apply Rle_trans with (1 * 1)%R; [lra|apply Rmult_le_compat; lra]. }
    split; [replace (pp ^ (n + 1) * (pp * pp))%R with (pp ^ (n + 1) * pp - pp ^ (n + 1) * pp * (1 - pp))%R by ring; replace (1 - pp)%R with uu by (unfold pp; ring)|replace (qq ^ (n + 1) * (qq * qq))%R with (qq ^ (n + 1) * qq + qq ^ (n + 1) * qq * (qq - 1))%R by ring]; lra.
Qed.

(** ** weighted sums *)
Definition dot (vs ws : list f32) : f32 := fsum (map (fun '(v, w) => f32_mul v w) (combine vs ws)).
Definition rmul2 (vr wr : list R) : list R := map (fun '(v, w) => v * w)%R (combine vr wr).
Lemma rmul2_bounds a b vr : forall wr, length vr = length wr -> Forall (fun v => a <= v <= b)%R vr -> Forall (fun w => 0 <= w <= 2)%R wr -> (0 <= a)%R ->
  (a * rsum wr <= rsum (rmul2 vr wr) <= b * rsum wr)%R /\ Forall (fun r => 0 <= r <= b * 2)%R (rmul2 vr wr).
Proof.
  induction vr as [|v vr IH]; intros [|w wr] HL FV FW A; try discriminate HL; [split; [cbn; lra|constructor]|]. cbn [length] in HL. apply Nat.succ_inj in HL. inversion_clear FV as [|? ? V1 V2]. inversion_clear FW as [|? ? W1 W2].
  destruct (IH wr HL V2 W2 A) as [I1 I2]. unfold rmul2 in *. cbn [combine map rsum fold_right] in *. fold (rsum wr) in *. fold (rsum (map (fun '(v, w) => v * w)%R (combine vr wr))) in *.
  assert (a * w <= v * w)%R by (apply Rmult_le_compat_r; lra). assert (v * w <= b * w)%R by (apply Rmult_le_compat_r; lra). split; [rewrite !Rmult_plus_distr_l; lra|]. constructor; [|exact I2]. split; [apply Rmult_le_pos; lra|apply Rmult_le_compat; lra].
Qed.
Lemma rmul2_isf vs : forall vr ws wr, Forall2 isf vs vr -> Forall2 isf ws wr -> Forall (fun r => 0 <= r <= B100)%R (rmul2 vr wr) -> Forall2 isf (map (fun '(v, w) => f32_mul v w) (combine vs ws)) (map RN32 (rmul2 vr wr)).
Proof.
  induction vs as [|v vs IH]; intros vr ws wr F1 F2 FB; inversion F1 as [|? r ? vr' V1 V2]; subst; [constructor|]. inversion F2 as [|? s ? wr' W1 W2]; subst; [constructor|]. unfold rmul2 in *. cbn [combine map] in *. inversion_clear FB as [|? ? B1 B2]. constructor; [apply fb_mul; assumption|apply IH; assumption].
Qed.
Lemma dot_ok vs vr ws wr a b : Forall2 isf vs vr -> Forall2 isf ws wr -> length vs = length ws -> Z.of_nat (length ws) <= 1048000 -> Forall (fun v => a <= v <= b)%R vr -> Forall (fun w => 0 <= w <= 2)%R wr -> (0 <= a)%R -> (a <= b)%R -> (b <= 100000)%R ->
  let n := length ws in (pp ^ (n + 3) <= rsum wr <= qq ^ (n + 3))%R -> exists T, isf (dot vs ws) T /\ (0 <= T)%R /\ (a * pp ^ (2 * n + 4) - / B60 <= T <= b * qq ^ (2 * n + 4) + / B60)%R.
Proof.
  intros FV FW HL HN BV BW A AB BB n SW. assert (L1 : length vr = length wr) by (rewrite <- (f2_length _ _ _ FV), <- (f2_length _ _ _ FW); exact HL). destruct (rmul2_bounds a b vr wr L1 BV BW A) as [SB FB].
  destruct uu_val as [U0 U1]. destruct (eta_n n ltac:(unfold n; lia)) as [[E0 E1] _]. destruct B60_val as [B1 B2]. assert (P0 : (0 < / B60)%R) by (apply Rinv_0_lt_compat; lra).
  assert (LR : length (rmul2 vr wr) = n). { unfold rmul2. rewrite map_length, combine_length, L1, Nat.min_id. unfold n. symmetry. apply (f2_length _ _ _ FW). }
  assert (FB' : Forall (fun r => 0 <= r <= 200000)%R (rmul2 vr wr)) by (eapply Forall_impl; [|exact FB]; intros r Hr; cbv beta in Hr; lra).
  assert (B200 : (200001 <= B61)%R) by (unfold B61; apply IZR_le; vm_compute; discriminate). assert (B2100 : (200001 <= B100)%R) by (unfold B100; apply IZR_le; vm_compute; discriminate).
  pose proof (rmul2_isf vs vr ws wr FV FW) as FI. specialize (FI ltac:(eapply Forall_impl; [|exact FB']; intros r Hr; cbv beta in Hr; lra)).
  set (l := map (fun '(v, w) => f32_mul v w) (combine vs ws)) in *. assert (LL : length l = n) by (unfold l; rewrite map_length, combine_length, HL, Nat.min_id; reflexivity).
  destruct (addsum l (map RN32 (rmul2 vr wr)) FI) as (T & HT & T0 & TB).
  { apply Forall_forall. intros r I. apply in_map_iff in I. destruct I as (s & <- & I). pose proof (proj1 (Forall_forall _ _) FB' s I) as HS. cbv beta in HS. split; [apply RN_nonneg; lra|]. apply Rle_trans with 200000%R; [|lra]. apply RN_le_r; [exact eq_refl|apply (repr_Z 24 128 f32_prec f32_emax 200000); lia|lra]. }
  { unfold zlen. rewrite LL. unfold n. lia. }
  exists T. split; [exact HT|]. split; [exact T0|]. cbv zeta in TB. rewrite LL in TB.
  assert (F0 : Forall (fun r => 0 <= r)%R (rmul2 vr wr)) by (eapply Forall_impl; [|exact FB]; intros r Hr; cbv beta in Hr; lra).
  pose proof (rsum_RN _ F0) as RR. rewrite LR in RR. set (X := rsum (map RN32 (rmul2 vr wr))) in *. set (Y := rsum (rmul2 vr wr)) in *. set (W := rsum wr) in *. clearbody X Y W l.
  pose proof (pp1 n) as P1. pose proof (qq1 n) as Q1. pose proof (qq_two n ltac:(unfold n; lia)) as Q2. pose proof pp_val as PV. pose proof qq_val as QV.
  assert (AW : (a * pp ^ (n + 3) <= a * W)%R) by (apply Rmult_le_compat_l; lra). assert (BW' : (b * W <= b * qq ^ (n + 3))%R) by (apply Rmult_le_compat_l; lra).
  replace (2 * n + 4)%nat with (n + 3 + (1 + n))%nat by lia. rewrite (pow_add pp (n + 3)), (pow_add qq (n + 3)), (pow_add pp 1), (pow_add qq 1), !pow_1.
  set (e := (INR n * (2 * eta))%R) in *. replace (INR n * eta)%R with (e / 2)%R in RR by (unfold e; field). clearbody e.
  assert (UB : (/ B60 * (uu * / 4) <= / B60 * / 4)%R) by (apply Rmult_le_compat_l; lra).
  split.
  - assert (Z1 : (a * pp ^ (n + 3) * pp <= Y * pp)%R) by (apply Rmult_le_compat_r; lra). assert (Z2 : (X * pp ^ n >= (a * pp ^ (n + 3) * pp - e / 2) * pp ^ n)%R) by (apply Rle_ge; apply Rmult_le_compat_r; lra).
    assert (Z3 : (e / 2 * pp ^ n <= e / 2 * 1)%R) by (apply Rmult_le_compat_l; lra). replace (a * (pp ^ (n + 3) * (pp * pp ^ n)))%R with (a * pp ^ (n + 3) * pp * pp ^ n)%R by ring. lra.
  - assert (Z1 : (Y * qq <= b * qq ^ (n + 3) * qq)%R) by (apply Rmult_le_compat_r; lra). assert (Z2 : (X * qq ^ n <= (b * qq ^ (n + 3) * qq + e / 2) * qq ^ n)%R) by (apply Rmult_le_compat_r; lra).
    assert (Z3 : (e / 2 * qq ^ n <= e / 2 * 2)%R) by (apply Rmult_le_compat_l; lra). replace (b * (qq ^ (n + 3) * (qq * qq ^ n)))%R with (b * qq ^ (n + 3) * qq * qq ^ n)%R by ring. lra.
Qed.
