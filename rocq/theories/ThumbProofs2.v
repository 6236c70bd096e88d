From Coq Require Import ZArith Bool Reals Lia Lra.
From Flocq Require Import Core IEEE754.BinarySingleNaN Relative.
From Verif Require Import Base BaseLemmas ListMore Color ColorProofs Float FloatProofs JpegQuant ColorF ColorFProofs GenImage Thumb ThumbSpec ThumbProofs.
Local Open Scope Z_scope.

(** ** rounding errors *)
Definition eta : R := (/ IZR (2 ^ 140))%R.
Lemma eta_val : (0 < eta)%R /\ (eta * IZR (2 ^ 32) <= uu * / 1000)%R.
Proof.
  unfold eta, uu. split; [apply Rinv_0_lt_compat; apply IZR_lt; lia|]. replace (IZR (2 ^ 140)) with (IZR (2 ^ 32) * (IZR (2 ^ 24) * IZR (2 ^ 84)))%R by (rewrite <- !mult_IZR; f_equal).
  assert (P1 : (0 < IZR (2 ^ 32))%R) by (apply IZR_lt; lia). assert (P2 : (0 < IZR (2 ^ 24))%R) by (apply IZR_lt; lia). assert (P3 : (1000 <= IZR (2 ^ 84))%R) by (apply IZR_le; lia).
  replace (/ (IZR (2 ^ 32) * (IZR (2 ^ 24) * IZR (2 ^ 84))) * IZR (2 ^ 32))%R with (/ IZR (2 ^ 24) * / IZR (2 ^ 84))%R by (field; lra). apply Rmult_le_compat_l; [apply Rlt_le; apply Rinv_0_lt_compat; exact P2|]. apply Rinv_le_contravar; lra.
Qed.
Lemma RN_ae x : (0 <= x)%R -> (Rabs (RN32 x - x) <= uu * x + eta)%R.
Proof.
  intros Hx. destruct (error_N_FLT radix2 (SpecFloat.emin 24 128) 24 eq_refl (fun x => negb (Z.even x)) x) as (e & h & He & Hh & _ & E).
  unfold RN. change (SpecFloat.fexp 24 128) with (FLT_exp (SpecFloat.emin 24 128) 24). change (round_mode mode_NE) with ZnearestE. unfold ZnearestE in *. rewrite E. replace (x * (1 + e) + h - x)%R with (x * e + h)%R by ring. eapply Rle_trans; [apply Rabs_triang|]. rewrite Rabs_mult, (Rabs_pos_eq x Hx). apply Rplus_le_compat.
  - rewrite Rmult_comm. apply Rmult_le_compat_r; [exact Hx|]. eapply Rle_trans; [exact He|]. change (bpow radix2 (- (24) + 1)) with (/ IZR (2 ^ 23))%R. unfold uu. change (2 ^ 24) with (2 * 2 ^ 23). rewrite mult_IZR, Rinv_mult. lra.
  - eapply Rle_trans; [exact Hh|]. change (SpecFloat.emin 24 128) with (-149). apply Rle_trans with (bpow radix2 (-149)); [pose proof (bpow_gt_0 radix2 (-149)); lra|]. apply Rle_trans with (bpow radix2 (-140)); [apply bpow_le; lia|]. change (bpow radix2 (-140)) with (/ IZR (2 ^ 140))%R. unfold eta. lra.
Qed.
(** a / n for a weight a, multiplied back *)
Lemma fact_ok a n n' : (0 <= a <= 1)%R -> (1 <= n <= IZR (2 ^ 32))%R -> (Rabs (n' - n) <= uu * n)%R -> let F := RN32 (a / n') in (/ 2 <= n')%R /\ (0 <= a / n' <= 2)%R /\ (0 <= F)%R /\ (Rabs (n * F - a) <= 4 * uu)%R.
Proof.
  intros Ha Hn Hn' F. destruct uu_val as [U0 U1]. destruct eta_val as [T0 T1]. apply Rabs_le_inv in Hn'.
  assert (UN : (uu * n <= / 100 * n)%R) by (apply Rmult_le_compat_r; lra). assert (N2 : (/ 2 <= n')%R) by lra. split; [exact N2|].
  assert (IN : (0 < / n' <= 2)%R) by (split; [apply Rinv_0_lt_compat; lra|rewrite <- (Rinv_inv 2); apply Rinv_le_contravar; lra]).
  assert (G : (0 <= a / n' <= 2)%R) by (unfold Rdiv; split; [apply Rmult_le_pos; lra|replace 2%R with (1 * 2)%R by ring; apply Rmult_le_compat; lra]). split; [exact G|]. split; [unfold F; apply RN_nonneg; lra|].
  pose proof (RN_ae (a / n') ltac:(lra)) as E. fold F in E. set (g := (a / n')%R) in *. assert (AG : (a = g * n')%R) by (unfold g; field; lra). clearbody g F. apply Rabs_le_inv in E.
  assert (NG : (n * g <= 2 * a)%R) by (rewrite AG; replace (2 * (g * n'))%R with (g * (2 * n'))%R by ring; rewrite (Rmult_comm n g); apply Rmult_le_compat_l; lra).
  assert (D : (Rabs (n * g - a) <= uu * (n * g))%R). { rewrite AG. replace (n * g - g * n')%R with (g * (n - n'))%R by ring. rewrite Rabs_mult, (Rabs_pos_eq g) by lra. replace (uu * (n * g))%R with (g * (uu * n))%R by ring. apply Rmult_le_compat_l; [lra|]. apply Rabs_le. lra. }
  assert (UG : (uu * (n * g) <= uu * (1 + 2 * uu))%R). { apply Rabs_le_inv in D. apply Rmult_le_compat_l; [lra|]. assert (uu * (n * g) <= uu * 2)%R by (apply Rmult_le_compat_l; lra). lra. }
  assert (UU : (uu * (2 * uu) <= uu * / 100)%R) by (apply Rmult_le_compat_l; lra). rewrite Rmult_plus_distr_l in UG. rewrite Rmult_1_r in UG.
  assert (NE : (Rabs (n * (F - g)) <= n * (uu * g + eta))%R) by (rewrite Rabs_mult, (Rabs_pos_eq n) by lra; apply Rmult_le_compat_l; [lra|]; apply Rabs_le; lra).
  assert (NT : (n * eta <= uu * / 1000)%R) by (apply Rle_trans with (eta * IZR (2 ^ 32))%R; [rewrite Rmult_comm; apply Rmult_le_compat_l; lra|exact T1]).
  rewrite Rmult_plus_distr_l in NE. replace (n * (uu * g))%R with (uu * (n * g))%R in NE by ring. apply Rabs_le_inv in NE, D. apply Rabs_le. replace (n * F - a)%R with (n * (F - g) + (n * g - a))%R by ring. lra.
Qed.
(** one product of a weight and a sum: l is the mean of the samples *)
Lemma prod_ok M a n L' l F : (1 <= M <= 65535)%R -> (0 <= a <= 1)%R -> (1 <= n <= IZR (2 ^ 32))%R -> (0 <= F)%R -> (Rabs (n * F - a) <= 5 * uu)%R -> (0 <= l <= M)%R -> (0 <= L')%R -> (Rabs (L' - n * l) <= uu * (n * l))%R ->
  (0 <= F * L' <= 2 * M)%R /\ (Rabs (RN32 (F * L') - a * l) <= 9 * uu * M)%R.
Proof.
  intros HM Ha Hn HF EF Hl HL EL. destruct uu_val as [U0 U1]. destruct eta_val as [T0 T1].
  set (k := (L' / n)%R). assert (LK : (L' = n * k)%R) by (unfold k; field; lra). assert (EK : (Rabs (k - l) <= uu * l)%R). { apply Rmult_le_reg_l with n; [lra|]. rewrite <- (Rabs_pos_eq n) at 1 by lra. rewrite <- Rabs_mult. replace (n * (k - l))%R with (L' - n * l)%R by (rewrite LK; ring). replace (n * (uu * l))%R with (uu * (n * l))%R by ring. exact EL. }
  clearbody k. apply Rabs_le_inv in EK. assert (UL : (uu * l <= uu * M)%R) by (apply Rmult_le_compat_l; lra). assert (UM : (uu * M <= / 250)%R) by (apply Rle_trans with (/ 16700000 * 65535)%R; [apply Rmult_le_compat; lra|lra]).
  assert (K2 : (0 <= k)%R). { assert (uu * l <= 1 * l)%R by (apply Rmult_le_compat_r; lra). lra. }
  set (b := (n * F)%R) in *. assert (PB : (F * L' = b * k)%R) by (unfold b; rewrite LK; ring). assert (B0 : (0 <= b)%R) by (unfold b; apply Rmult_le_pos; lra). clearbody b. rewrite PB. apply Rabs_le_inv in EF.
  assert (KM : (k <= M + uu * M)%R) by lra. assert (BK : (b * k <= (1 + 5 * uu) * (M + uu * M))%R) by (apply Rmult_le_compat; lra).
  assert (EX : ((1 + 5 * uu) * (M + uu * M) = M + 6 * (uu * M) + 5 * uu * (uu * M))%R) by ring. assert (UUM : (5 * uu * (uu * M) <= / 100 * (uu * M))%R) by (apply Rmult_le_compat_r; [apply Rmult_le_pos; lra|lra]).
  assert (BK0 : (0 <= b * k)%R) by (apply Rmult_le_pos; lra). split; [lra|].
  pose proof (RN_ae (b * k) BK0) as E. apply Rabs_le_inv in E. assert (UB : (uu * (b * k) <= uu * (M + 1))%R) by (apply Rmult_le_compat_l; lra). assert (ET : (eta <= uu * / 1000)%R). { eapply Rle_trans; [|exact T1]. assert (1 <= IZR (2 ^ 32))%R by (apply IZR_le; lia). apply Rle_trans with (eta * 1)%R; [lra|]. apply Rmult_le_compat_l; lra. }
  assert (D1 : (Rabs ((b - a) * k) <= 5 * uu * (M + uu * M))%R) by (rewrite Rabs_mult, (Rabs_pos_eq k) by lra; apply Rmult_le_compat; [apply Rabs_pos|lra|apply Rabs_le; lra|lra]).
  assert (D2 : (Rabs (a * (k - l)) <= 1 * (uu * M))%R) by (rewrite Rabs_mult, (Rabs_pos_eq a) by lra; apply Rmult_le_compat; [lra|apply Rabs_pos|lra|apply Rabs_le; lra]).
  apply Rabs_le_inv in D1, D2. replace (5 * uu * (M + uu * M))%R with (5 * (uu * M) + 5 * uu * (uu * M))%R in D1 by ring.
  assert (U1M : (uu * 1 <= uu * M)%R) by (apply Rmult_le_compat_l; lra). rewrite Rmult_plus_distr_l in UB.
  apply Rabs_le. replace (RN32 (b * k) - a * l)%R with ((RN32 (b * k) - b * k) + (b - a) * k + a * (k - l))%R by ring. replace (9 * uu * M)%R with (9 * (uu * M))%R by ring. lra.
Qed.

Lemma cast_floor mx x V : 0 <= mx -> isf x V -> (0 <= V < IZR mx + 1)%R -> cast mx x = Ok (Zfloor V) /\ 0 <= Zfloor V <= mx.
Proof.
  intros Hm (E & F) HV. assert (R : 0 <= Zfloor V <= mx). { split; [apply Zfloor_lub; lra|]. assert (Zfloor V < mx + 1); [|lia]. apply lt_IZR. rewrite plus_IZR. pose proof (Zfloor_lb V). lra. }
  split; [|exact R]. unfold cast. rewrite (cast_ok 24 128 f32_emax 0 mx x F). cbv zeta. rewrite E, Ztrunc_floor by lra. replace ((0 <=? Zfloor V) && (Zfloor V <=? mx)) with true by lia. reflexivity.
Qed.
Lemma floor_near_ok V T : (Rabs (V - T) <= / 4)%R -> floor_near (Zfloor V) T.
Proof. intros H. apply Rabs_le_inv in H. pose proof (Zfloor_lb V). pose proof (Zfloor_ub V). split; lra. Qed.
Lemma eta_uu : (eta <= uu * / 1000)%R.
Proof. destruct eta_val as [T0 T1]. eapply Rle_trans; [|exact T1]. assert (1 <= IZR (2 ^ 32))%R by (apply IZR_le; lia). apply Rle_trans with (eta * 1)%R; [lra|]. apply Rmult_le_compat_l; lra. Qed.
(** sums of products, one rounding *)
Lemma sum_ok M p P T U k l : (1 <= M <= 65535)%R -> (0 <= P)%R -> (0 <= p)%R -> (Rabs (p - T) <= k * uu * M)%R -> (Rabs (P - U) <= l * uu * M)%R -> (p + P <= 8 * M)%R -> (Rabs (RN32 (p + P) - (T + U)) <= (k + l + 9) * uu * M)%R.
Proof.
  intros HM H0 H1 H2 H3 H4. destruct uu_val as [U0 U1]. pose proof (RN_ae (p + P) ltac:(lra)) as E. pose proof eta_uu as ET. assert (UP : (uu * (p + P) <= uu * (8 * M))%R) by (apply Rmult_le_compat_l; lra). assert (U1M : (uu * 1 <= uu * M)%R) by (apply Rmult_le_compat_l; lra).
  apply Rabs_le_inv in E, H2, H3. apply Rabs_le. replace ((k + l + 9) * uu * M)%R with (k * uu * M + l * uu * M + 9 * (uu * M))%R by ring. replace (uu * (8 * M))%R with (8 * (uu * M))%R in UP by ring. lra.
Qed.
Lemma one_sub f : (0 <= f <= 1)%R -> (0 <= RN32 (1 - f) <= 1)%R /\ (Rabs (RN32 (1 - f) - (1 - f)) <= uu)%R.
Proof.
  intros H. split; [apply RN_01; lra|]. destruct (Req_dec f 0) as [->|N]; [rewrite Rminus_0_r; rewrite (RN_repr 24 128 1) by (apply (repr_Z 24 128 f32_prec f32_emax 1); lia); rewrite Rminus_eq_0, Rabs_R0; destruct uu_val; lra|].
  pose proof (RN_err 24 128 f32_prec 1 (1 - f) ltac:(lia) ltac:(cbn; rewrite Rabs_pos_eq; lra)) as E. eapply Rle_trans; [exact E|]. change (bpow radix2 (1 - 24 - 1)) with (/ IZR (2 ^ 24))%R. unfold uu. lra.
Qed.
Lemma small_exact n : 0 <= n <= 65535 -> isf (f32_of_Z n) (IZR n).
Proof. apply of_Z_ok. Qed.
Lemma isf_one : isf f32_one 1%R.
Proof. apply (of_Z_ok 1). lia. Qed.
Lemma div_range a b : (0 <= a)%R -> (/ 2 <= b)%R -> (0 <= a / b)%R.
Proof. intros H1 H2. apply Rle_mult_inv_pos; lra. Qed.

Lemma mix2_one t fr f n L R0 : isf fr f -> (0 <= f <= 1)%R -> 1 <= n <= u32_max -> 0 <= L <= n * smax t -> 0 <= R0 <= n * smax t -> n * smax t <= u32_max ->
  exists z, cast (smax t) (f32_add (f32_mul (f32_div (f32_sub f32_one fr) (f32_of_Z n)) (f32_of_Z L)) (f32_mul (f32_div fr (f32_of_Z n)) (f32_of_Z R0))) = Ok z /\ 0 <= z <= smax t /\
    floor_near z ((1 - f) * (IZR L / IZR n) + f * (IZR R0 / IZR n))%R.
Proof.
  intros If Hf Hn HL HR HU. destruct uu_val as [U0 U1]. pose proof (smax_range t) as SM. set (M := smax t) in *. clearbody M. assert (RM : (1 <= IZR M <= 65535)%R) by (split; apply IZR_le; lia). pose proof big_B as BB.
  assert (N1 : (1 <= IZR n <= IZR (2 ^ 32))%R) by (split; apply IZR_le; unfold u32_max in *; lia).
  assert (BG : forall k, 0 <= k -> big 100 (IZR k)). { intros k Hk. destruct (Z.eq_dec k 0) as [->|]; [left; reflexivity|right]. apply Rle_trans with 1%R; [|apply IZR_le; lia]. rewrite <- Rinv_1. apply Rinv_le_contravar; [lra|apply IZR_le; lia]. }
  pose proof (RN_rel _ (BG n ltac:(lia))) as EN. pose proof (RN_rel _ (BG L ltac:(lia))) as EL. pose proof (RN_rel _ (BG R0 ltac:(lia))) as ER.
  destruct (one_sub f Hf) as (A01 & EA). pose proof (fb_sub _ _ _ _ isf_one If ltac:(lra)) as I1. set (A := RN32 (1 - f)) in *. clearbody A.
  pose proof (fb_ofZ n ltac:(lia)) as In. pose proof (fb_ofZ L ltac:(nia)) as IL. pose proof (fb_ofZ R0 ltac:(nia)) as IR.
  assert (PL : (0 <= RN32 (IZR L))%R) by (apply RN_nonneg; apply IZR_le; lia). assert (PR : (0 <= RN32 (IZR R0))%R) by (apply RN_nonneg; apply IZR_le; lia).
  set (n' := RN32 (IZR n)) in *. set (L' := RN32 (IZR L)) in *. set (R' := RN32 (IZR R0)) in *. clearbody n' L' R'.
  destruct (fact_ok A (IZR n) n' A01 N1 EN) as (N2 & G1 & F1 & D1). destruct (fact_ok f (IZR n) n' Hf N1 EN) as (_ & G2 & F2 & D2).
  pose proof (fb_div _ _ _ _ I1 In ltac:(lra) ltac:(lra)) as I2. pose proof (fb_div _ _ _ _ If In ltac:(lra) ltac:(lra)) as I3.
  set (FA := RN32 (A / n')) in *. set (FB := RN32 (f / n')) in *. clearbody FA FB.
  assert (DA : (Rabs (IZR n * FA - (1 - f)) <= 5 * uu)%R) by (apply Rabs_le_inv in D1, EA; apply Rabs_le; lra). assert (DB : (Rabs (IZR n * FB - f) <= 5 * uu)%R) by (apply Rabs_le_inv in D2; apply Rabs_le; lra).
  assert (ML : forall k, 0 <= k <= n * M -> (0 <= IZR k / IZR n <= IZR M)%R /\ (IZR n * (IZR k / IZR n) = IZR k)%R).
  { intros k Hk. assert (0 <= IZR k <= IZR n * IZR M)%R by (rewrite <- mult_IZR; split; apply IZR_le; lia). split; [|field; lra]. split; [apply Rle_mult_inv_pos; lra|]. apply Rmult_le_reg_r with (IZR n); [lra|]. replace (IZR k / IZR n * IZR n)%R with (IZR k) by (field; lra). lra. }
  destruct (ML L HL) as (BL & QL). destruct (ML R0 HR) as (BR & QR). set (lL := (IZR L / IZR n)%R) in *. set (lR := (IZR R0 / IZR n)%R) in *. rewrite <- QL in EL. rewrite <- QR in ER. clearbody lL lR.
  destruct (prod_ok (IZR M) (1 - f) (IZR n) L' lL FA RM ltac:(lra) N1 F1 DA BL PL EL) as (X1 & Y1). destruct (prod_ok (IZR M) f (IZR n) R' lR FB RM ltac:(lra) N1 F2 DB BR PR ER) as (X2 & Y2).
  assert (B2 : (131070 <= B100)%R) by (unfold B100; apply IZR_le; lia). assert (B4 : (524280 <= B100)%R) by (unfold B100; apply IZR_le; lia).
  pose proof (fb_mul _ _ _ _ I2 IL ltac:(lra)) as I4. pose proof (fb_mul _ _ _ _ I3 IR ltac:(lra)) as I5. pose proof (RN_nonneg _ (proj1 X1)) as P1. pose proof (RN_nonneg _ (proj1 X2)) as P2.
  set (p1 := RN32 (FA * L')) in *. set (p2 := RN32 (FB * R')) in *. clearbody p1 p2.
  assert (UM : (uu * IZR M <= / 254)%R) by (apply Rle_trans with (/ 16700000 * 65535)%R; [apply Rmult_le_compat; lra|lra]). assert (UM0 : (0 <= uu * IZR M)%R) by (apply Rmult_le_pos; lra).
  assert (AL : (0 <= (1 - f) * lL)%R) by (apply Rmult_le_pos; lra). assert (AR : (0 <= f * lR)%R) by (apply Rmult_le_pos; lra). assert (CONV : ((1 - f) * lL + f * lR <= IZR M)%R).
  { apply Rle_trans with ((1 - f) * IZR M + f * IZR M)%R; [|lra]. apply Rplus_le_compat; apply Rmult_le_compat_l; lra. }
  assert (S8 : (p1 + p2 <= 8 * IZR M)%R) by (apply Rabs_le_inv in Y1, Y2; lra). pose proof (sum_ok (IZR M) p1 p2 _ _ 9 9 RM P2 P1 Y1 Y2 S8) as E.
  pose proof (fb_add _ _ _ _ I4 I5 ltac:(lra)) as I6. assert (E4 : (Rabs (RN32 (p1 + p2) - ((1 - f) * lL + f * lR)) <= / 4)%R) by (eapply Rle_trans; [exact E|]; replace ((9 + 9 + 9) * uu * IZR M)%R with (27 * (uu * IZR M))%R by ring; lra).
  destruct (cast_floor M _ _ ltac:(lia) I6) as (C1 & C2). { split; [apply RN_nonneg; lra|]. apply Rabs_le_inv in E4. lra. }
  exists (Zfloor (RN32 (p1 + p2))). split; [exact C1|]. split; [exact C2|]. apply floor_near_ok. exact E4.
Qed.
(** four pixels *)
Lemma weight_ok a b a' b' : (0 <= a <= 1)%R -> (0 <= b <= 1)%R -> (0 <= a' <= 1)%R -> (0 <= b' <= 1)%R -> (Rabs (a' - a) <= uu)%R -> (Rabs (b' - b) <= uu)%R ->
  (0 <= a' * b' <= 1)%R /\ (0 <= RN32 (a' * b') <= 1)%R /\ (Rabs (1 * RN32 (a' * b') - a * b) <= 5 * uu)%R.
Proof.
  intros Ha Hb Ha' Hb' Ea Eb. destruct uu_val as [U0 U1]. pose proof eta_uu as ET. pose proof (mul01 a' b' Ha' Hb') as P. assert (P0 : (0 <= a' * b')%R) by (apply Rmult_le_pos; lra). split; [lra|]. split; [apply RN_01; lra|].
  pose proof (RN_ae _ P0) as E. assert (UP : (uu * (a' * b') <= uu * 1)%R) by (apply Rmult_le_compat_l; lra).
  assert (D1 : (Rabs ((a' - a) * b') <= uu * 1)%R) by (rewrite Rabs_mult, (Rabs_pos_eq b') by lra; apply Rmult_le_compat; [apply Rabs_pos|lra|exact Ea|lra]). assert (D2 : (Rabs (a * (b' - b)) <= 1 * uu)%R) by (rewrite Rabs_mult, (Rabs_pos_eq a) by lra; apply Rmult_le_compat; [lra|apply Rabs_pos|lra|exact Eb]).
  apply Rabs_le_inv in E, D1, D2. apply Rabs_le. replace (1 * RN32 (a' * b') - a * b)%R with ((RN32 (a' * b') - a' * b') + (a' - a) * b' + a * (b' - b))%R by ring. lra.
Qed.
Lemma both_one t fv fh v h br tr bl tl : isf fv v -> isf fh h -> (0 <= v <= 1)%R -> (0 <= h <= 1)%R -> is_sample t br -> is_sample t tr -> is_sample t bl -> is_sample t tl ->
  exists z, cast (smax t) (f32_add (f32_add (f32_add (f32_mul (f32_mul (f32_sub f32_one fv) fh) (f32_of_Z br)) (f32_mul (f32_mul fv fh) (f32_of_Z tr))) (f32_mul (f32_mul (f32_sub f32_one fv) (f32_sub f32_one fh)) (f32_of_Z bl))) (f32_mul (f32_mul fv (f32_sub f32_one fh)) (f32_of_Z tl))) = Ok z /\ 0 <= z <= smax t /\
    floor_near z (((1 - v) * h) * IZR br + (v * h) * IZR tr + ((1 - v) * (1 - h)) * IZR bl + (v * (1 - h)) * IZR tl)%R.
Proof.
  intros Iv Ih Hv Hh S1 S2 S3 S4. unfold is_sample in *. destruct uu_val as [U0 U1]. pose proof (smax_range t) as SM. set (M := smax t) in *. clearbody M. assert (RM : (1 <= IZR M <= 65535)%R) by (split; apply IZR_le; lia). pose proof big_B as BB. assert (B8 : (1048560 <= B100)%R) by (unfold B100; apply IZR_le; lia).
  destruct (one_sub v Hv) as (V01 & EV). destruct (one_sub h Hh) as (H01 & EH). pose proof (fb_sub _ _ _ _ isf_one Iv ltac:(lra)) as Iv1. pose proof (fb_sub _ _ _ _ isf_one Ih ltac:(lra)) as Ih1. set (v1 := RN32 (1 - v)) in *. set (h1 := RN32 (1 - h)) in *. clearbody v1 h1.
  assert (Zv : (Rabs (v - v) <= uu)%R) by (rewrite Rminus_eq_0, Rabs_R0; lra). assert (Zh : (Rabs (h - h) <= uu)%R) by (rewrite Rminus_eq_0, Rabs_R0; lra).
  assert (ONE : (1 <= 1 <= IZR (2 ^ 32))%R) by (split; [lra|apply IZR_le; lia]).
  assert (TERM : forall fa fb a' b' a b s, isf fa a' -> isf fb b' -> (0 <= a <= 1)%R -> (0 <= b <= 1)%R -> (0 <= a' <= 1)%R -> (0 <= b' <= 1)%R -> (Rabs (a' - a) <= uu)%R -> (Rabs (b' - b) <= uu)%R -> 0 <= s <= M ->
    exists p, isf (f32_mul (f32_mul fa fb) (f32_of_Z s)) p /\ (0 <= p <= 2 * IZR M)%R /\ (Rabs (p - a * b * IZR s) <= 9 * uu * IZR M)%R).
  { intros fa fb a' b' a b s Ia Ib Ha Hb Ha' Hb' Ea Eb Hs. destruct (weight_ok a b a' b' Ha Hb Ha' Hb' Ea Eb) as (P1 & P2 & P3). pose proof (fb_mul _ _ _ _ Ia Ib ltac:(lra)) as I1. assert (RS : (0 <= IZR s <= IZR M)%R) by (split; apply IZR_le; lia).
    destruct (prod_ok (IZR M) (a * b) 1 (IZR s) (IZR s) (RN32 (a' * b')) RM) as (X & Y); try lra; [pose proof (mul01 a b Ha Hb); split; [apply Rmult_le_pos; lra|lra]|rewrite Rmult_1_l, Rminus_eq_0, Rabs_R0; apply Rmult_le_pos; lra|].
    pose proof (fb_mul _ _ _ _ I1 (small_exact s ltac:(lia)) ltac:(lra)) as I2. exists (RN32 (RN32 (a' * b') * IZR s)). split; [exact I2|]. split; [|exact Y]. split; [apply RN_nonneg; lra|]. rewrite <- mult_IZR. apply RN_le_r; [exact eq_refl|apply (repr_Z 24 128 f32_prec f32_emax); lia|rewrite mult_IZR; lra]. }
  destruct (TERM _ _ v1 h (1 - v)%R h br Iv1 Ih ltac:(lra) Hh V01 Hh EV Zh S1) as (p1 & J1 & K1 & L1). destruct (TERM _ _ v h v h tr Iv Ih Hv Hh Hv Hh Zv Zh S2) as (p2 & J2 & K2 & L2).
  destruct (TERM _ _ v1 h1 (1 - v)%R (1 - h)%R bl Iv1 Ih1 ltac:(lra) ltac:(lra) V01 H01 EV EH S3) as (p3 & J3 & K3 & L3). destruct (TERM _ _ v h1 v (1 - h)%R tl Iv Ih1 Hv ltac:(lra) Hv H01 Zv EH S4) as (p4 & J4 & K4 & L4). clear TERM.
  assert (UM : (uu * IZR M <= / 254)%R) by (apply Rle_trans with (/ 16700000 * 65535)%R; [apply Rmult_le_compat; lra|lra]). assert (UM0 : (0 <= uu * IZR M)%R) by (apply Rmult_le_pos; lra).
  assert (R1 : (0 <= IZR br <= IZR M)%R) by (split; apply IZR_le; lia). assert (R2 : (0 <= IZR tr <= IZR M)%R) by (split; apply IZR_le; lia). assert (R3 : (0 <= IZR bl <= IZR M)%R) by (split; apply IZR_le; lia). assert (R4 : (0 <= IZR tl <= IZR M)%R) by (split; apply IZR_le; lia).
  set (w1 := ((1 - v) * h)%R) in *. set (w2 := (v * h)%R) in *. set (w3 := ((1 - v) * (1 - h))%R) in *. set (w4 := (v * (1 - h))%R) in *.
  assert (WS : (w1 + w2 + w3 + w4 = 1)%R) by (unfold w1, w2, w3, w4; ring). assert (W1 : (0 <= w1)%R) by (unfold w1; apply Rmult_le_pos; lra). assert (W2 : (0 <= w2)%R) by (unfold w2; apply Rmult_le_pos; lra). assert (W3 : (0 <= w3)%R) by (unfold w3; apply Rmult_le_pos; lra). assert (W4 : (0 <= w4)%R) by (unfold w4; apply Rmult_le_pos; lra). clearbody w1 w2 w3 w4.
  assert (Q : forall w s, (0 <= w)%R -> (0 <= s <= IZR M)%R -> (0 <= w * s <= w * IZR M)%R) by (intros w s Hw Hs; split; [apply Rmult_le_pos; lra|apply Rmult_le_compat_l; lra]).
  pose proof (Q _ _ W1 R1) as Q1. pose proof (Q _ _ W2 R2) as Q2. pose proof (Q _ _ W3 R3) as Q3. pose proof (Q _ _ W4 R4) as Q4. clear Q. assert (WM : (w1 * IZR M + w2 * IZR M + w3 * IZR M + w4 * IZR M = IZR M)%R) by (replace (w1 * IZR M + w2 * IZR M + w3 * IZR M + w4 * IZR M)%R with ((w1 + w2 + w3 + w4) * IZR M)%R by ring; rewrite WS; ring).
  set (m1 := (w1 * IZR br)%R) in *. set (m2 := (w2 * IZR tr)%R) in *. set (m3 := (w3 * IZR bl)%R) in *. set (m4 := (w4 * IZR tl)%R) in *. clearbody m1 m2 m3 m4.
  pose proof (fb_add _ _ _ _ J1 J2 ltac:(lra)) as J5. pose proof (sum_ok (IZR M) p1 p2 m1 m2 9 9 RM ltac:(lra) ltac:(lra) L1 L2 ltac:(lra)) as L5. assert (K5 : (0 <= RN32 (p1 + p2) <= 4 * IZR M)%R) by (split; [apply RN_nonneg; lra|rewrite <- mult_IZR; apply RN_le_r; [exact eq_refl|apply (repr_Z 24 128 f32_prec f32_emax); lia|rewrite mult_IZR; lra]]). set (q5 := RN32 (p1 + p2)) in *. clearbody q5.
  pose proof (fb_add _ _ _ _ J5 J3 ltac:(lra)) as J6. pose proof (sum_ok (IZR M) q5 p3 (m1 + m2) m3 _ 9 RM ltac:(lra) ltac:(lra) L5 L3 ltac:(lra)) as L6. assert (K6 : (0 <= RN32 (q5 + p3) <= 6 * IZR M)%R) by (split; [apply RN_nonneg; lra|rewrite <- mult_IZR; apply RN_le_r; [exact eq_refl|apply (repr_Z 24 128 f32_prec f32_emax); lia|rewrite mult_IZR; lra]]). set (q6 := RN32 (q5 + p3)) in *. clearbody q6.
  pose proof (fb_add _ _ _ _ J6 J4 ltac:(lra)) as J7. pose proof (sum_ok (IZR M) q6 p4 (m1 + m2 + m3) m4 _ 9 RM ltac:(lra) ltac:(lra) L6 L4 ltac:(lra)) as L7.
  assert (E4 : (Rabs (RN32 (q6 + p4) - (m1 + m2 + m3 + m4)) <= / 4)%R) by (eapply Rle_trans; [exact L7|]; replace ((9 + 9 + 9 + 9 + 9 + 9 + 9) * uu * IZR M)%R with (63 * (uu * IZR M))%R by ring; lra).
  destruct (cast_floor M _ _ ltac:(lia) J7) as (C1 & C2). { split; [apply RN_nonneg; lra|]. apply Rabs_le_inv in E4. lra. }
  exists (Zfloor (RN32 (q6 + p4))). split; [exact C1|]. split; [exact C2|]. apply floor_near_ok. exact E4.
Qed.
