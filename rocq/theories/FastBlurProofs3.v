(** fast_blur: the widths of the boxes *)
From Coq Require Import ZArith Bool Reals Psatz.
From Flocq Require Import Core IEEE754.BinarySingleNaN.
From Verif Require Import Base BaseLemmas Color Float FloatProofs ColorF ColorFProofs GenImage Thumb ThumbProofs ThumbProofs2 ThumbProofs4 Sample SampleProofs SampleProofs2 SampleProofs4 SampleProofs5 InterpProofs Filter3Proofs FastBlur FastBlurSpec FastBlurProofs FastBlurProofs2.
Local Open Scope Z_scope.

Lemma RN_pos x : (0 <= x)%R -> (x - uu * x - eta <= RN32 x <= x + uu * x + eta)%R /\ (0 <= RN32 x)%R.
Proof. intros H. pose proof (RN_ae x H) as E. apply Rabs_le_inv in E. split; [lra|apply RN_nonneg; exact H]. Qed.
Lemma uu_small : (0 < uu <= / 16777216)%R /\ (0 < eta)%R /\ (eta * 4294967296 <= uu * / 1000)%R.
Proof. destruct uu_val as [A B]. destruct eta_val as [C D]. split; [|split; [exact C|exact D]]. unfold uu in *. split; [exact A|]. right. reflexivity. Qed.

(** the chain of roundings up to the ideal width *)
Lemma ideal_chain S q x y z : (0 <= S <= 1073741824)%R -> q = RN32 S -> x = RN32 (12 * q) -> y = RN32 (x / 3) -> z = RN32 (y + 1) ->
  (Rabs (q - S) <= uu * S + eta)%R /\ (0 <= q <= 1.001 * S + eta)%R /\ (0 <= x <= 12.1 * S + 1)%R /\ (0 <= y <= 4.1 * S + 1)%R /\ (1 <= z <= 4.2 * S + 3)%R /\ (Rabs (z - (4 * S + 1)) <= 5 * uu * (4 * S + 1))%R.
Proof.
  intros HS -> -> -> ->. destruct uu_small as ((U0 & U1) & T0 & T1).
  assert (T2 : (eta <= uu * / 1000)%R) by lra.
  destruct (RN_pos S ltac:(lra)) as (Q1 & Q2). set (q := RN32 S) in *. clearbody q. assert (a0 : (0 <= uu * S <= / 1000 * S)%R) by nra. assert (Qu : (0 <= uu * q <= uu * S + / 1000 * (uu * S) + eta)%R) by nra.
  destruct (RN_pos (12 * q) ltac:(lra)) as (X1 & X2). set (x := RN32 (12 * q)) in *. clearbody x. replace (uu * (12 * q))%R with (12 * (uu * q))%R in X1 by ring. assert (Xu : (0 <= uu * x <= 12 * (uu * q) + / 1000 * (12 * (uu * q)) + eta)%R) by nra.
  destruct (RN_pos (x / 3) ltac:(lra)) as (Y1 & Y2). set (y := RN32 (x / 3)) in *. clearbody y. replace (uu * (x / 3))%R with (uu * x / 3)%R in Y1 by field. assert (Yu : (0 <= uu * y <= uu * x / 3 + / 1000 * (uu * x / 3) + eta)%R) by nra.
  destruct (RN_pos (y + 1) ltac:(lra)) as (Z1 & _). assert (Z2 : (1 <= RN32 (y + 1))%R). { apply RN_ge; [exact eq_refl| |lra]. apply (isf_repr f32_one). exact isf_one. } set (z := RN32 (y + 1)) in *. clearbody z. replace (uu * (y + 1))%R with (uu * y + uu)%R in Z1 by ring.
  split; [apply Rabs_le; lra|]. repeat (split; [lra|]). apply Rabs_le. replace (5 * uu * (4 * S + 1))%R with (20 * (uu * S) + 5 * uu)%R by ring. lra.
Qed.
Lemma ideal_square S z g : (0 <= S <= 1073741824)%R -> (1 <= z)%R -> (Rabs (z - (4 * S + 1)) <= 5 * uu * (4 * S + 1))%R -> g = RN32 (sqrt z) -> (1 <= g <= 65540)%R /\ (Rabs (g * g - (4 * S + 1)) <= 8 * uu * (4 * S + 1))%R.
Proof.
  intros HS HZ HE ->. destruct uu_small as ((U0 & U1) & T0 & T1). assert (T2 : (eta <= uu * / 1000)%R) by lra.
  assert (V0 : (1 <= sqrt z)%R) by (rewrite <- sqrt_1; apply sqrt_le_1; lra). pose proof (sqrt_sqrt z ltac:(lra)) as VV. set (v := sqrt z) in *. clearbody v. destruct (RN_pos v ltac:(lra)) as (G1 & _). assert (G2 : (1 <= RN32 v)%R). { apply RN_ge; [exact eq_refl| |lra]. apply (isf_repr f32_one). exact isf_one. } set (g := RN32 v) in *. clearbody g.
  apply Rabs_le_inv in HE. set (Z0 := (4 * S + 1)%R) in *. assert (HZ0 : (1 <= Z0 <= 4294967297)%R) by (unfold Z0; lra). clearbody Z0.
  assert (D : (Rabs (g - v) <= 1.01 * (uu * v))%R). { apply Rabs_le. assert (uu <= uu * v)%R by nra. lra. } apply Rabs_le_inv in D. set (e := (uu * v)%R) in *. assert (E0 : (0 <= e <= / 1000 * v)%R) by (unfold e; nra).
  assert (EV : (e * v = uu * z)%R) by (unfold e; rewrite <- VV; ring). assert (UZ : (0 <= uu * z <= uu * Z0 + / 100 * (uu * Z0))%R). { split; [nra|]. assert (z <= Z0 + 5 * uu * Z0)%R by lra. assert (uu * z <= uu * (Z0 + 5 * uu * Z0))%R by (apply Rmult_le_compat_l; lra). nra. }
  assert (GG : (Rabs (g * g - z) <= 2.03 * (uu * z))%R). { rewrite <- VV. replace (g * g - v * v)%R with ((g - v) * (2 * v + (g - v)))%R by ring. rewrite Rabs_mult. assert (A1 : (Rabs (g - v) <= 1.01 * e)%R) by (apply Rabs_le; lra). assert (A2 : (Rabs (2 * v + (g - v)) <= 2.002 * v)%R) by (apply Rabs_le; lra). rewrite VV. rewrite <- EV. apply Rle_trans with (1.01 * e * (2.002 * v))%R; [apply Rmult_le_compat; try apply Rabs_pos; assumption|]. nra. }
  apply Rabs_le_inv in GG. assert (F : (- (8 * uu * Z0) <= g * g - Z0 <= 8 * uu * Z0)%R) by lra. split; [|apply Rabs_le; exact F]. split; [exact G2|]. destruct (Rle_or_lt g 65540) as [L|L]; [exact L|exfalso]. assert (65540 * 65540 < g * g)%R by (apply Rmult_le_0_lt_compat; lra). assert (uu * Z0 <= / 16777216 * 4294967297)%R by (apply Rmult_le_compat; lra). lra.
Qed.

(** the widths: k is the largest odd integer not above the ideal width *)
Lemma even_ok (x : f32) W : isf x (IZR W) -> f32_even x = Z.even W.
Proof.
  intros H. unfold f32_even. destruct (trunc_f_ok x _ H) as (T1 & T2). destruct H as (E & F). rewrite F. cbn [andb]. unfold f32_eq. rewrite (Beqb_correct _ _ _ _ T2 F). rewrite T1, E, Ztrunc_IZR. rewrite Req_bool_true by reflexivity. cbn [andb]. rewrite (trunc_ok 24 128 f32_emax), E, Ztrunc_IZR. reflexivity.
Qed.
Lemma B100_big r : (Rabs r <= 100000000000)%R -> (Rabs r <= B100)%R.
Proof. intros H. eapply Rle_trans; [exact H|]. unfold B100. apply IZR_le. vm_compute. discriminate. Qed.
Lemma int_isf k : 0 <= k <= 16777215 -> isf (f32_of_Z k) (IZR k). Proof. intros H. apply int_ok. lia. Qed.
Lemma low_high a b g u Z0 : (0 <= a <= g)%R -> (g < b)%R -> (- (8 * u * Z0) <= g * g - Z0 <= 8 * u * Z0)%R -> ((1 - 8 * u) * Z0 < b * b)%R /\ (a * a <= (1 + 8 * u) * Z0)%R.
Proof. intros A B C. assert (a * a <= g * g)%R by (apply Rmult_le_compat; lra). assert (g * g < b * b)%R by (apply Rmult_le_0_lt_compat; lra). split; lra. Qed.
Lemma box_low_ok sigma s : isf sigma s -> (Rabs s <= 32768)%R -> exists k, Z.odd k = true /\ 1 <= k <= 65540 /\ isf (box_low sigma) (IZR k) /\ isf (powi2 sigma) (RN32 (s * s)) /\
  ((1 - 8 * uu) * (4 * (s * s) + 1) < IZR (k + 2) * IZR (k + 2))%R /\ (IZR k * IZR k <= (1 + 8 * uu) * (4 * (s * s) + 1))%R.
Proof.
  intros HS BS. assert (SS : (0 <= s * s <= 1073741824)%R). { apply Rabs_le_inv in BS. split; [nra|]. nra. }
  assert (Q : isf (powi2 sigma) (RN32 (s * s))) by (unfold powi2; apply fs_mul; [exact HS|exact HS|]; apply B100_big; apply Rabs_le; lra).
  destruct (ideal_chain (s * s) _ _ _ _ SS eq_refl eq_refl eq_refl eq_refl) as (C1 & C2 & C3 & C4 & C5 & C6). destruct uu_small as ((U0 & U1) & T0 & T1).
  assert (X : isf (f32_mul (f32_of_Z 12) (powi2 sigma)) (RN32 (12 * RN32 (s * s)))). { apply fs_mul; [apply (int_isf 12); lia|exact Q|]. apply B100_big. apply Rabs_le. lra. }
  assert (Y : isf (f32_div (f32_mul (f32_of_Z 12) (powi2 sigma)) (f32_of_Z 3)) (RN32 (RN32 (12 * RN32 (s * s)) / 3))). { apply fs_div; [exact X|apply (int_isf 3); lia|lra|]. apply B100_big. apply Rabs_le. lra. }
  assert (Z0 : isf (f32_add (f32_div (f32_mul (f32_of_Z 12) (powi2 sigma)) (f32_of_Z 3)) f32_one) (RN32 (RN32 (RN32 (12 * RN32 (s * s)) / 3) + 1))). { apply fs_add; [exact Y|exact isf_one|]. apply B100_big. apply Rabs_le. lra. }
  set (z := RN32 (RN32 (RN32 (12 * RN32 (s * s)) / 3) + 1)) in *. clearbody z. destruct (ideal_square (s * s) z _ SS ltac:(lra) C6 eq_refl) as (G1 & G2).
  destruct (sqrt_ok _ _ Z0) as [G|G]; [|exfalso; lra]. set (g := RN32 (sqrt z)) in *. clearbody g. pose proof (floor_ok _ _ G) as FL. pose proof (Zfloor_lb g) as F1. pose proof (Zfloor_ub g) as F2. assert (W1 : 1 <= Zfloor g) by (apply Zfloor_lub; lra). assert (W2 : Zfloor g <= 65540) by (apply le_IZR; lra).
  apply Rabs_le_inv in G2. unfold box_low. cbv zeta. rewrite (even_ok _ _ FL). destruct (Z.even (Zfloor g)) eqn:EV.
  - assert (W3 : 2 <= Zfloor g). { destruct (Z.eq_dec (Zfloor g) 1) as [E|E]; [rewrite E in EV; discriminate EV|lia]. } exists (Zfloor g - 1). split; [rewrite Z.odd_sub, <- Z.negb_even, EV; reflexivity|]. split; [lia|]. split; [apply (isf_sub_int _ _ (Zfloor g) 1); [exact FL|exact isf_one|lia]|]. split; [exact Q|]. replace (Zfloor g - 1 + 2) with (Zfloor g + 1) by lia. rewrite plus_IZR, minus_IZR. assert (2 <= IZR (Zfloor g))%R by (apply IZR_le; lia). apply (low_high _ _ g); lra.
  - exists (Zfloor g). split; [rewrite <- Z.negb_even, EV; reflexivity|]. split; [lia|]. split; [exact FL|]. split; [exact Q|]. rewrite plus_IZR. assert (1 <= IZR (Zfloor g))%R by (apply IZR_le; lia). apply (low_high _ _ g); lra.
Qed.

(** the number of narrow boxes *)
Definition count_real (S k : R) : R := (3 / 4 * (k + 3) - 3 * S / (k + 1))%R.
Lemma count_range S k : (0 <= S)%R -> (1 <= k <= 65540)%R -> ((1 - 8 * uu) * (4 * S + 1) < (k + 2) * (k + 2))%R -> (k * k <= (1 + 8 * uu) * (4 * S + 1))%R -> let D := (S / (k + 1))%R in (0 <= D <= 17000)%R /\ (- / 30 < count_real S k < 3 + / 30)%R.
Proof.
  intros HS HK L1 L2 D. destruct uu_small as ((U0 & U1) & _). assert (K1 : (0 < k + 1)%R) by lra. assert (ED : (S = D * (k + 1))%R) by (unfold D; field; lra). assert (CR : (count_real S k = 3 / 4 * (k + 3) - 3 * D)%R) by (unfold count_real, D; field; lra). clearbody D. rewrite CR. clear CR. subst S.
  assert (D0 : (0 <= D)%R) by (apply Rmult_le_reg_r with (k + 1)%R; lra).
  assert (A1 : ((1 - 8 * uu) * (4 * D) < k + 3 + 8 * uu)%R). { apply Rmult_lt_reg_r with (k + 1)%R; [lra|]. assert (0 <= 8 * uu * k)%R by nra. lra. }
  assert (A2 : (k - 1 <= (1 + 8 * uu) * (4 * D) + 8 * uu)%R). { apply Rmult_le_reg_r with (k + 1)%R; [lra|]. assert (0 <= 8 * uu * k)%R by nra. lra. }
  assert (D1 : (D <= 17000)%R). { apply Rnot_lt_le. intros G. assert (G2 : (17000 <= D)%R) by lra. assert ((1 - 8 * / 16777216) * (4 * D) <= (1 - 8 * uu) * (4 * D))%R by (apply Rmult_le_compat_r; lra). lra. }
  assert (UD : (0 <= uu * D <= / 16777216 * 17000)%R) by (split; [apply Rmult_le_pos; lra|apply Rmult_le_compat; lra]). split; [lra|]. lra.
Qed.
Lemma box_count_ok sigma s k : isf (box_low sigma) (IZR k) -> 1 <= k <= 65540 -> isf (powi2 sigma) (RN32 (s * s)) -> (Rabs s <= 32768)%R -> ((1 - 8 * uu) * (4 * (s * s) + 1) < IZR (k + 2) * IZR (k + 2))%R -> (IZR k * IZR k <= (1 + 8 * uu) * (4 * (s * s) + 1))%R ->
  exists m, 0 <= m <= 3 /\ box_count sigma = m /\ (Rabs (IZR m - count_real (s * s) (IZR k)) <= 0.53)%R.
Proof.
  intros HK KB HQ BS L1 L2. assert (SS : (0 <= s * s <= 1073741824)%R) by (apply Rabs_le_inv in BS; split; nra). destruct (ideal_chain (s * s) _ _ _ _ SS eq_refl eq_refl eq_refl eq_refl) as (C1 & C2 & _). set (q := RN32 (s * s)) in *. clearbody q. set (S := (s * s)%R) in *. clearbody S. destruct uu_small as ((U0 & U1) & T0 & T1). rewrite plus_IZR in L1.
  assert (KR : (1 <= IZR k <= 65540)%R) by (split; apply IZR_le; lia). destruct (count_range S (IZR k) ltac:(lra) KR L1 L2) as (DB & CB). set (D := (S / (IZR k + 1))%R) in *.
  assert (A1 : isf (f32_mul (f32_mul (f32_dyadic 1 (-2)) (f32_of_Z 3)) (f32_add (box_low sigma) (f32_of_Z 3))) (3 / 4 * (IZR k + 3))).
  { assert (E1 : isf (f32_mul (f32_dyadic 1 (-2)) (f32_of_Z 3)) (3 / 4)). { assert (R0 : RN32 (1 * bpow radix2 (-2) * 3) = (3 / 4)%R). { replace (1 * bpow radix2 (-2) * 3)%R with (IZR 3 / IZR (2 ^ 2))%R by (cbn; lra). replace (3 / 4)%R with (IZR 3 / IZR (2 ^ 2))%R by (cbn; lra). apply RN_repr. apply (repr_dyadic 24 128); lia. } rewrite <- R0. apply fs_mul; [apply isf_dyadic; lia|apply (int_isf 3); lia|]. apply B100_big. apply Rabs_le. cbn; lra. }
    assert (E2 : isf (f32_add (box_low sigma) (f32_of_Z 3)) (IZR k + 3)). { rewrite <- (plus_IZR k 3). apply isf_add_int; [exact HK|apply (int_isf 3); lia|lia]. }
    assert (R0 : RN32 (3 / 4 * (IZR k + 3)) = (3 / 4 * (IZR k + 3))%R). { replace (3 / 4 * (IZR k + 3))%R with (IZR (3 * (k + 3)) / IZR (2 ^ 2))%R by (rewrite mult_IZR, plus_IZR; change (IZR (2 ^ 2)) with 4%R; field). apply RN_repr. apply (repr_dyadic 24 128); lia. } rewrite <- R0 at 1. apply fs_mul; [exact E1|exact E2|]. apply B100_big. apply Rabs_le. lra. }
  destruct (RN_pos (3 * q) ltac:(lra)) as (T2 & T3). assert (A2 : isf (f32_mul (f32_of_Z 3) (powi2 sigma)) (RN32 (3 * q))) by (apply fs_mul; [apply (int_isf 3); lia|exact HQ|]; apply B100_big; apply Rabs_le; lra). set (t2 := RN32 (3 * q)) in *. clearbody t2.
  set (p := (/ (IZR k + 1))%R) in *. assert (PB : (/ 65541 <= p <= / 2)%R) by (unfold p; split; apply Rinv_le_contravar; lra).
  assert (A3 : isf (f32_recip (f32_add (box_low sigma) f32_one)) (RN32 p)). { unfold f32_recip. replace p with (1 / (IZR k + 1))%R by (unfold p; field; lra). apply fs_div; [exact isf_one|rewrite <- (plus_IZR k 1); apply isf_add_int; [exact HK|exact isf_one|lia]|lra|]. replace (1 / (IZR k + 1))%R with p by (unfold p; field; lra). apply B100_big. apply Rabs_le. lra. }
  destruct (RN_pos p ltac:(lra)) as (P1 & P2). set (t3 := RN32 p) in *. clearbody t3.
  assert (DE : (D = S * p)%R) by (unfold D, p, Rdiv; reflexivity). assert (CE : (count_real S (IZR k) = 3 / 4 * (IZR k + 3) - 3 * D)%R) by (unfold count_real, D; field; lra). rewrite CE in *. clear CE. clearbody D p.
  (** the product *)
  apply Rabs_le_inv in C1. assert (us : (0 <= uu * S <= / 1000 * S)%R) by (split; [apply Rmult_le_pos; lra|apply Rmult_le_compat_r; lra]). assert (uq : (0 <= uu * q <= 1.002 * (uu * S) + eta)%R). { split; [apply Rmult_le_pos; lra|]. assert (uu * q <= uu * (1.001 * S + eta))%R by (apply Rmult_le_compat_l; lra). assert (uu * eta <= 1 * eta)%R by (apply Rmult_le_compat_r; lra). lra. }
  assert (E1 : (Rabs (t2 - 3 * S) <= 6.1 * (uu * S) + 8 * eta)%R) by (apply Rabs_le; lra).
  assert (up : (/ 16777216 * 0 <= uu * p)%R) by (rewrite Rmult_0_r; apply Rmult_le_pos; lra). assert (ep : (eta <= / 100 * (uu * p))%R). { assert (uu * / 65541 <= uu * p)%R by (apply Rmult_le_compat_l; lra). lra. }
  assert (E2 : (Rabs (t3 - p) <= 1.01 * (uu * p))%R) by (apply Rabs_le; lra). assert (E3 : (Rabs t3 <= 1.01 * p)%R) by (apply Rabs_le; assert (uu * p <= / 1000 * p)%R by (apply Rmult_le_compat_r; lra); lra).
  assert (uD : (0 <= uu * D <= / 16777216 * 17000)%R) by (split; [apply Rmult_le_pos; lra|apply Rmult_le_compat; lra]).
  assert (E4 : (Rabs (t2 * t3 - 3 * D) <= 0.01)%R). { replace (t2 * t3 - 3 * D)%R with ((t2 - 3 * S) * t3 + 3 * S * (t3 - p))%R by (rewrite DE; ring). eapply Rle_trans; [apply Rabs_triang|]. rewrite !Rabs_mult. rewrite (Rabs_pos_eq 3), (Rabs_pos_eq S) by lra.
    assert (Rabs (t2 - 3 * S) * Rabs t3 <= (6.1 * (uu * S) + 8 * eta) * (1.01 * p))%R by (apply Rmult_le_compat; try apply Rabs_pos; assumption). assert (3 * S * Rabs (t3 - p) <= 3 * S * (1.01 * (uu * p)))%R by (apply Rmult_le_compat_l; lra). assert (eta * p <= eta * 1)%R by (apply Rmult_le_compat_l; lra). replace ((6.1 * (uu * S) + 8 * eta) * (1.01 * p))%R with (6.161 * (uu * D) + 8.08 * (eta * p))%R in H by (rewrite DE; lra). replace (3 * S * (1.01 * (uu * p)))%R with (3.03 * (uu * D))%R in H0 by (rewrite DE; lra). lra. }
  apply Rabs_le_inv in E4. assert (PR : (0 <= t2 * t3)%R) by (apply Rmult_le_pos; lra).
  assert (A4 : isf (f32_mul (f32_mul (f32_of_Z 3) (powi2 sigma)) (f32_recip (f32_add (box_low sigma) f32_one))) (RN32 (t2 * t3))) by (apply fs_mul; [exact A2|exact A3|]; apply B100_big; apply Rabs_le; lra).
  destruct (RN_pos (t2 * t3) PR) as (V1 & V2). assert (uv : (uu * (t2 * t3) <= / 16777216 * 52000)%R) by (apply Rmult_le_compat; lra). set (t4 := RN32 (t2 * t3)) in *. clearbody t4.
  assert (A5 : isf (f32_sub (f32_mul (f32_mul (f32_dyadic 1 (-2)) (f32_of_Z 3)) (f32_add (box_low sigma) (f32_of_Z 3))) (f32_mul (f32_mul (f32_of_Z 3) (powi2 sigma)) (f32_recip (f32_add (box_low sigma) f32_one)))) (RN32 (3 / 4 * (IZR k + 3) - t4))) by (apply fs_sub; [exact A1|exact A4|]; apply B100_big; apply Rabs_le; lra).
  pose proof (RN_aes (3 / 4 * (IZR k + 3) - t4)) as E5. assert (E6 : (Rabs (3 / 4 * (IZR k + 3) - t4) <= 4)%R) by (apply Rabs_le; lra). assert (E7 : (uu * Rabs (3 / 4 * (IZR k + 3) - t4) <= / 16777216 * 4)%R) by (apply Rmult_le_compat; try lra; apply Rabs_pos). set (M := RN32 (3 / 4 * (IZR k + 3) - t4)) in *. apply Rabs_le_inv in E5.
  assert (ZH : (Rabs (M - IZR (ZnearestA M)) <= / 2)%R) by apply Znearest_half. apply Rabs_le_inv in ZH. exists (ZnearestA M).
  assert (RG : 0 <= ZnearestA M <= 3). { split; [apply Z.lt_succ_r; apply lt_IZR|apply Z.lt_succ_r; apply lt_IZR]; rewrite ?succ_IZR; lra. }
  split; [exact RG|]. split; [|apply Rabs_le; lra]. unfold box_count. cbv zeta. rewrite (as32_ok _ _ _ _ (round_isf _ _ A5)). rewrite Ztrunc_IZR. unfold clampz, u64_max. fold M. lia.
Qed.
