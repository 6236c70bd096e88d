From Coq Require Import ZArith Bool Reals Lia Lra.
From Flocq Require Import Core IEEE754.BinarySingleNaN.
From Verif Require Import Base BaseLemmas ListMore Color ColorProofs Float FloatProofs JpegQuant ColorF ColorFProofs GenImage Thumb ThumbSpec ThumbProofs ThumbProofs2 ThumbProofs3 ThumbProofs4 Sample SampleSpec SampleProofs SampleProofs2 SampleProofs3 SampleProofs4 SampleProofs5 SampleProofs7 SampleProofs8 SampleProofs9 SampleProofs10 BlurSpec.
Local Open Scope Z_scope.

(** ** the exponential of a slightly wrong argument *)
Lemma exp_le_exp x y : (x <= y)%R -> (exp x <= exp y)%R.
Proof. intros [H|H]; [left; apply exp_increasing; exact H|right; rewrite H; reflexivity]. Qed.
Lemma exp_lin x : (1 + x <= exp x)%R.
Proof. destruct (Req_dec x 0) as [->|H]; [rewrite exp_0; lra|left; apply exp_ineq1; exact H]. Qed.
Lemma exp_decay y : (0 <= y)%R -> (y * exp (- y) <= 1)%R.
Proof. intros H. rewrite exp_Ropp. pose proof (exp_lin y) as E. apply Rmult_le_reg_r with (exp y); [apply exp_pos|]. rewrite Rmult_assoc, Rinv_l by (pose proof (exp_pos y); lra). lra. Qed.
Lemma exp_shift a b d : (a <= b)%R -> (b - a <= d * - b)%R -> (0 <= d)%R -> (b <= 0)%R -> (exp b - exp a <= d)%R.
Proof.
  intros H1 H2 Hd Hb. replace (exp a) with (exp b * exp (a - b))%R by (rewrite <- exp_plus; f_equal; ring). pose proof (exp_lin (a - b)) as E. pose proof (exp_pos b) as P. pose proof (exp_decay (- b) ltac:(lra)) as D. rewrite Ropp_involutive in D.
  assert (exp b * (1 + (a - b)) <= exp b * exp (a - b))%R by (apply Rmult_le_compat_l; lra). assert (exp b * (b - a) <= exp b * (d * - b))%R by (apply Rmult_le_compat_l; lra). assert (d * (- b * exp b) <= d * 1)%R by (apply Rmult_le_compat_l; lra). lra.
Qed.
Lemma exp_near A a : (A <= 0)%R -> (0 <= - a)%R -> near 7 (- A) (- a) (- a) -> (Rabs (exp A - exp a) <= 8 * uu)%R.
Proof.
  intros HA Ha N. apply near_iff in N. destruct uu_val as [U0 U1]. assert (UA : (0 <= uu * - a <= / 1000 * - a)%R) by (split; [apply Rmult_le_pos; lra|apply Rmult_le_compat_r; lra]). replace (7 * uu * - a)%R with (7 * (uu * - a))%R in N by ring.
  destruct (Rle_or_lt a A) as [G|G].
  - pose proof (exp_le_exp _ _ G). rewrite Rabs_pos_eq by lra. apply (exp_shift a A); try lra. assert (UA2 : (uu * - a <= uu * (1.01 * - A))%R) by (apply Rmult_le_compat_l; lra). lra.
  - pose proof (exp_le_exp A a ltac:(lra)). rewrite Rabs_left1 by lra. assert (exp a - exp A <= 7 * uu)%R by (apply exp_shift; lra). lra.
Qed.
(** ** a weight of the gaussian *)
Definition factor (sg : f32) : R := B2R (f32_recip (f32_mul (f32_sqrt (f32_mul (f32_of_Z 2) f32_pi)) sg)).
Lemma gauss_weight lm sg s x k : exp_accurate lm -> isf sg s -> (bpow radix2 (-20) <= s <= bpow radix2 20)%R -> isf x (IZR k) -> Z.abs k <= 1048576 ->
  (bpow radix2 (-22) <= factor sg <= bpow radix2 20)%R /\ exists w, isf (gaussian lm x sg) w /\ (0 <= w <= bpow radix2 20)%R /\ (Rabs (w / factor sg - exp (- (IZR k * IZR k) / (2 * (s * s)))) <= 26 * uu)%R.
Proof.
  intros HL IS HS IX HK. assert (P21 : (bpow radix2 21 = 2097152)%R) by reflexivity. assert (KB : (Rabs (IZR k) <= 1048576)%R) by (rewrite <- abs_IZR; apply IZR_le; exact HK).
  destruct (gaussian_ok lm sg s x (IZR k) HL IS HS IX ltac:(lra)) as (c & A & v & HC & EA & HA & HV & HE & IG & EC). fold (factor sg) in EC. rewrite <- EC. clear EC.
  assert (M22 : (bpow radix2 (-22) = / 4194304)%R) by reflexivity. assert (P20 : (bpow radix2 20 = 1048576)%R) by reflexivity. assert (M20 : (bpow radix2 (-20) = / 1048576)%R) by reflexivity. split; [exact HC|]. exists (RN32 (c * v)). split; [exact IG|].
  assert (CV : (0 <= c * v <= bpow radix2 20)%R) by (split; [apply Rmult_le_pos; lra|]; rewrite <- (Rmult_1_r (bpow radix2 20)); apply Rmult_le_compat; lra). split; [split; [apply RN_nonneg; lra|apply RN_le_r; [exact eq_refl|apply repr_ipow; lia|lra]]|].
  set (K2 := (IZR k * IZR k)%R) in *. assert (K2B : big 0 K2). { unfold K2. rewrite <- mult_IZR. destruct (Z.eq_dec k 0) as [->|]; [left; reflexivity|right]. change (/ IZR (2 ^ 0))%R with (/ 1)%R. rewrite Rinv_1. apply IZR_le. nia. }
  assert (K0 : (0 <= K2)%R) by (unfold K2; apply Rle_0_sqr). assert (BB : forall j z, j <= 100 -> 0 <= j -> big j z -> big 100 z). { intros j z Hj Hj0 [Hz|Hz]; [left; exact Hz|right]. apply Rle_trans with (/ IZR (2 ^ j))%R; [|exact Hz]. apply Rinv_le_contravar; [apply IZR_lt; lia|apply IZR_le; apply Z.pow_le_mono_r; lia]. }
  assert (S2 : (bpow radix2 (-40) <= s * s <= bpow radix2 40)%R). { change (-40)%Z with (-20 + -20)%Z. change 40%Z with (20 + 20)%Z. rewrite !bpow_plus. pose proof (bpow_ge_0 radix2 (-20)). split; apply Rmult_le_compat; lra. } assert (P40 : (bpow radix2 40 = 1099511627776)%R) by reflexivity. assert (M40 : (bpow radix2 (-40) = / 1099511627776)%R) by reflexivity.
  assert (N1 : near 1 (RN32 (s * s)) (s * s) (s * s)) by (apply near_RN; apply (BB 40); [lia|lia|right; change (IZR (2 ^ 40)) with 1099511627776%R; lra]).
  assert (S3 : (bpow radix2 (-40) <= RN32 (s * s) <= bpow radix2 40)%R) by (split; [apply RN_ge|apply RN_le_r]; try exact eq_refl; try (apply repr_ipow; lia); lra).
  assert (N2 : near 3 (RN32 (2 * RN32 (s * s))) (2 * (s * s)) (2 * (s * s))). { replace 3%R with (1 + 2)%R by ring. apply near_RN_rel; [lra|lra|apply (BB 40); [lia|lia|right; change (IZR (2 ^ 40)) with 1099511627776%R; lra]|]. apply near_iff. apply near_iff in N1. lra. }
  assert (S4 : (bpow radix2 (-40) <= RN32 (2 * RN32 (s * s)) <= bpow radix2 41)%R). { assert (P41 : (bpow radix2 41 = 2199023255552)%R) by reflexivity. split; [apply RN_ge|apply RN_le_r]; try exact eq_refl; try (apply repr_ipow; lia); lra. } assert (P41 : (bpow radix2 41 = 2199023255552)%R) by reflexivity.
  pose proof (near_RN K2 (BB 0 _ ltac:(lia) ltac:(lia) K2B)) as N3. assert (K3 : big 0 (RN32 K2)). { destruct K2B as [Z|Z]; [left; rewrite Z; apply RN_0|right]. change (/ IZR (2 ^ 0))%R with (/ 1)%R in *. rewrite Rinv_1 in *. apply RN_ge; [exact eq_refl|apply (repr_Z 24 128 f32_prec f32_emax 1); lia|exact Z]. }
  set (n := RN32 K2) in *. set (d := RN32 (2 * RN32 (s * s))) in *. set (D := (2 * (s * s))%R) in *. assert (D0 : (0 < D)%R) by (unfold D; lra). destruct uu_val as [U0 U1]. clearbody n d. assert (DI : (0 < / d)%R) by (apply Rinv_0_lt_compat; lra).
  assert (N4 : near 5 (n / d) (K2 / D) (K2 / D)).
  { assert (Q0 : (0 <= K2 / D)%R) by (apply Rle_mult_inv_pos; lra). set (q := (K2 / D)%R) in *. assert (KQ : K2 = (q * D)%R) by (unfold q; field; lra). clearbody q. rewrite KQ in N3. apply near_iff in N2, N3. assert (UD : (0 <= uu * D)%R) by (apply Rmult_le_pos; lra). assert (UD1 : (uu * D <= / 1000 * D)%R) by (apply Rmult_le_compat_r; lra).
    replace (3 * uu * D)%R with (3 * (uu * D))%R in N2 by ring. assert (UQ : (0 <= uu * q <= / 1000 * q)%R) by (split; [apply Rmult_le_pos; lra|apply Rmult_le_compat_r; lra]). assert (UUQ : (0 <= uu * (uu * q) <= / 1000 * (uu * q))%R) by (split; [apply Rmult_le_pos; lra|apply Rmult_le_compat_r; lra]). assert (QD : (0 <= q * D)%R) by (apply Rmult_le_pos; lra). assert (UQD : (0 <= uu * (q * D))%R) by (apply Rmult_le_pos; lra). assert (UUQD : (0 <= uu * (uu * (q * D)) <= / 1000 * (uu * (q * D)))%R) by (split; [apply Rmult_le_pos; lra|apply Rmult_le_compat_r; lra]).
    apply near_iff. split; [apply Rmult_le_reg_r with d; [lra|]|apply Rmult_le_reg_r with d; [lra|]]; unfold Rdiv; rewrite (Rmult_assoc n), Rinv_l, Rmult_1_r by lra.
    - apply Rle_trans with ((q - 5 * uu * q) * (D + 3 * (uu * D)))%R; [apply Rmult_le_compat_l; lra|]. lra.
    - apply Rle_trans with ((q + 5 * uu * q) * (D - 3 * (uu * D)))%R; [lra|]. apply Rmult_le_compat_l; lra. }
  assert (N5 : near 7 (RN32 (n / d)) (K2 / D) (K2 / D)). { replace 7%R with (5 + 2)%R by ring. apply near_RN_rel; [lra|apply Rle_mult_inv_pos; lra| |exact N4]. apply (BB 41); [lia|lia|]. destruct K3 as [Z|Z]; [left; rewrite Z; unfold Rdiv; ring|right]. change (/ IZR (2 ^ 0))%R with (/ 1)%R in Z. rewrite Rinv_1 in Z. apply Rle_trans with (1 * / bpow radix2 41)%R; [rewrite P41, Rmult_1_l; change (IZR (2 ^ 41)) with 2199023255552%R; lra|]. unfold Rdiv. assert (0 < / bpow radix2 41)%R by (apply Rinv_0_lt_compat; lra). apply Rmult_le_compat; try lra. apply Rinv_le_contravar; lra. }
  assert (EA' : (- A = RN32 (n / d))%R). { rewrite EA. rewrite <- RN_opp by exact eq_refl. f_equal. unfold Rdiv. ring. } rewrite <- EA' in N5.
  assert (NA : (- K2 / D = - (K2 / D))%R) by (unfold Rdiv; ring). pose proof (exp_near A (- K2 / D) HA ltac:(rewrite NA, Ropp_involutive; apply Rle_mult_inv_pos; lra) ltac:(rewrite NA, Ropp_involutive; exact N5)) as EN.
  set (e := exp (- K2 / D)) in *. pose proof (RN_ae (c * v) ltac:(lra)) as RE. pose proof eta_val as [ET0 ET1]. assert (CI : (0 < / c <= 4194304)%R) by (split; [apply Rinv_0_lt_compat; lra|]; rewrite <- (Rinv_inv 4194304); apply Rinv_le_contravar; lra).
  assert (W : (Rabs (RN32 (c * v) / c - v) <= 1.01 * uu)%R).
  { replace (RN32 (c * v) / c - v)%R with ((RN32 (c * v) - c * v) * / c)%R by (field; lra). rewrite Rabs_mult, (Rabs_pos_eq (/ c)) by lra. apply Rle_trans with ((uu * (c * v) + eta) * / c)%R; [apply Rmult_le_compat_r; lra|]. rewrite Rmult_plus_distr_r. replace (uu * (c * v) * / c)%R with (uu * v)%R by (field; lra). assert (uu * v <= uu * 1)%R by (apply Rmult_le_compat_l; lra).
    assert (eta * / c <= eta * 4194304)%R by (apply Rmult_le_compat_l; lra). change (IZR (2 ^ 32)) with 4294967296%R in ET1. lra. }
  assert (UE : uu = (/ 16777216)%R) by (unfold uu; reflexivity). apply Rabs_le_inv in W, EN, HE. apply Rabs_le. lra.
Qed.
(** ** the taps of a blur *)
Definition blur_filter (lm : libm) (sg : f32) : filter := mkFilter (fun x => gaussian lm x sg) (f32_mul (f32_of_Z 2) sg).
Lemma repr_double s : repr 24 128 s -> repr 24 128 (2 * s)%R.
Proof.
  intros H. unfold repr in *. apply FLT_format_generic in H; [|reflexivity]. destruct H as [[m e] E1 E2 E3]. apply generic_format_FLT. exists (Float radix2 m (e + 1)); [|exact E2|cbn in *; lia]. rewrite E1. unfold F2R. cbn [Fnum Fexp]. rewrite bpow_plus. change (bpow radix2 1) with 2%R. ring.
Qed.
Lemma own_scale size : 1 <= size <= u32_max -> isf (scale size size) 1 /\ ratio size size = 1%R /\ isf (scale1 size size) 1.
Proof.
  intros H. pose proof (RN_Z_range size H) as R1. assert (E : ratio size size = 1%R). { unfold ratio. unfold Rdiv. rewrite Rinv_r by lra. apply RN_repr. apply (repr_Z 24 128 f32_prec f32_emax 1). lia. } pose proof (scale_ok size size H H) as I. rewrite E in I. split; [exact I|]. split; [exact E|].
  unfold scale1. cbv zeta. rewrite (lt_ok _ _ _ _ I isf_one). rewrite Rlt_bool_false by lra. exact I.
Qed.
Lemma own_centre size x : 1 <= size <= 524288 -> 0 <= x < size -> isf (centre size size x) (IZR x + / 2).
Proof.
  intros HS HX. destruct (centre_ok size size x ltac:(unfold u32_max; lia) ltac:(unfold u32_max; lia) HX) as (C & IC & _ & _ & E). destruct (own_scale size ltac:(unfold u32_max; lia)) as (_ & ER & _). rewrite ER, Rmult_1_r, (RN_small x) in E by lia.
  assert (RH : repr 24 128 (IZR x + / 2)). { replace (IZR x + / 2)%R with (IZR (2 * x + 1) / 2)%R by (rewrite plus_IZR, mult_IZR; lra). apply (repr_dyadic 24 128 (2 * x + 1) 1); lia. } rewrite !RN_repr in E by (try exact RH; rewrite RN_repr by exact RH; exact RH). rewrite <- E. exact IC.
Qed.
Lemma blur_reach lm sg s size : isf sg s -> (0 <= s <= bpow radix2 20)%R -> 1 <= size <= u32_max -> reach (blur_filter lm sg) size size (2 * s).
Proof.
  intros IS HS HZ. assert (P20 : (bpow radix2 20 = 1048576)%R) by reflexivity. assert (BB : (4000000 <= B100)%R) by (unfold B100; apply IZR_le; vm_compute; discriminate). assert (B90 : (4000000 <= IZR (2 ^ 90))%R) by (apply IZR_le; vm_compute; discriminate). split; [|lra].
  pose proof (fb_ofZ 2 ltac:(unfold u32_max; lia)) as ID. rewrite (RN_small 2) in ID by lia. pose proof (repr_double s (isf_repr _ _ IS)) as R2. pose proof (fb_mul _ _ _ _ ID IS ltac:(lra)) as I1. rewrite (RN_repr 24 128 _ R2) in I1. destruct (own_scale size HZ) as (_ & _ & I2). pose proof (fb_mul _ _ _ _ I1 I2 ltac:(lra)) as I3. rewrite Rmult_1_r, (RN_repr 24 128 _ R2) in I3. exact I3.
Qed.
Lemma blur_window lm sg s size x : isf sg s -> (0 <= s <= bpow radix2 20)%R -> 1 <= size <= 524288 -> 0 <= x < size -> window s size x (left_tap (blur_filter lm sg) size size x) (ntaps (blur_filter lm sg) size size x).
Proof.
  intros IS HS HZ HX. set (f := blur_filter lm sg). assert (P20 : (bpow radix2 20 = 1048576)%R) by reflexivity. assert (HZ' : 1 <= size <= u32_max) by (unfold u32_max; lia). pose proof (own_centre size x HZ HX) as IC. pose proof (blur_reach lm sg s size IS HS HZ') as HR. fold f in HR.
  assert (X0 : (0 <= IZR x <= 524287)%R) by (split; apply IZR_le; lia). assert (B65 : (4000000 <= IZR (2 ^ 65))%R) by (apply IZR_le; vm_compute; discriminate). assert (CB : (0 < IZR x + / 2 <= IZR (2 ^ 65))%R) by lra.
  destruct (taps_eq f size size x _ _ HZ' IC CB HR) as [EL ER]. pose proof (taps_range f size size x ltac:(lia)) as TR.
  assert (FX : Zfloor (IZR x + / 2) = x) by (apply Zfloor_imp; rewrite plus_IZR; lra). assert (CX : Zceil (IZR x + / 2) = x + 1) by (apply Zceil_imp; rewrite minus_IZR, plus_IZR; lra).
  pose proof (tap_centre f size size x _ _ HZ' IC CB HR ltac:(right; rewrite FX, CX; lia)) as TC. rewrite FX in TC. replace (Z.min (size - 1) x) with x in TC by lia.
  destruct uu_val as [U0 U1]. pose proof eta_uu as ET. assert (UA : forall z, (Rabs z <= 2700000 -> uu * Rabs z <= 0.163)%R) by (intros z Hz; apply Rle_trans with (/ 16700000 * 2700000)%R; [apply Rmult_le_compat; try lra; apply Rabs_pos|lra]).
  pose proof (RN_aes (IZR x + / 2 - 2 * s)) as E1. pose proof (RN_aes (IZR x + / 2 + 2 * s)) as E2. pose proof (UA (IZR x + / 2 - 2 * s)%R ltac:(apply Rabs_le; lra)) as A1. pose proof (UA (IZR x + / 2 + 2 * s)%R ltac:(apply Rabs_le; lra)) as A2. apply Rabs_le_inv in E1, E2.
  set (L := RN32 (IZR x + / 2 - 2 * s)) in *. set (U := RN32 (IZR x + / 2 + 2 * s)) in *. assert (LB : (IZR x + / 2 - 2 * s - / 4 <= L <= IZR x + / 2 - 2 * s + / 4)%R) by lra. assert (UB : (IZR x + / 2 + 2 * s - / 4 <= U <= IZR x + / 2 + 2 * s + / 4)%R) by lra. clear E1 E2 A1 A2. clearbody L U.
  pose proof (Zfloor_lb L) as F1. pose proof (Zfloor_ub L) as F2. pose proof (Zceil_ub U) as K1. pose proof (Zceil_lb U) as K2. unfold ntaps. set (l := left_tap f size size x) in *. set (r := right_tap f size size x) in *.
  assert (FL : Zfloor L < x + 1) by (apply lt_IZR; rewrite plus_IZR; lra).
  split; [lia|]. split; [lia|]. split; [lia|]. split.
  - intros j Hj. rewrite minus_IZR. assert (J1 : Zfloor L <= j) by lia. apply IZR_le in J1. assert (J2 : j <= Zceil U - 1 \/ j = x) by lia. apply Rabs_le. destruct J2 as [J2| ->]; [apply IZR_le in J2; rewrite minus_IZR in J2; lra|lra].
  - intros j Hj HB. rewrite minus_IZR in HB. apply Rabs_le_inv in HB. assert (J1 : Zfloor L <= j). { apply Z.lt_succ_r. apply lt_IZR. unfold Z.succ. rewrite plus_IZR. lra. } assert (J2 : j < Zceil U) by (apply lt_IZR; lra). lia.
Qed.
(** ** weights and bells *)
Lemma bell_pos s x i : (0 < bell s x i)%R.
Proof. apply exp_pos. Qed.
Lemma bell_own s x : bell s x x = 1%R.
Proof. unfold bell. rewrite Z.sub_diag. replace (- (0 * 0) / (2 * (s * s)))%R with 0%R by (unfold Rdiv; ring). apply exp_0. Qed.
Lemma bell_half s x i : (0 < s)%R -> (Rabs (IZR (i - x)) <= s)%R -> (/ 2 <= bell s x i)%R.
Proof.
  intros HS H. unfold bell. set (k := IZR (i - x)) in *. assert (K : (k * k <= s * s)%R). { replace (k * k)%R with (Rabs k * Rabs k)%R by (rewrite <- Rabs_mult; apply Rabs_pos_eq; apply Rle_0_sqr). pose proof (Rabs_pos k). apply Rmult_le_compat; lra. }
  eapply Rle_trans; [|apply exp_lin]. assert (S2 : (0 < s * s)%R) by (apply Rmult_lt_0_compat; lra). assert (k * k / (2 * (s * s)) <= / 2)%R. { apply Rmult_le_reg_r with (2 * (s * s))%R; [lra|]. unfold Rdiv. rewrite Rmult_assoc, Rinv_l by lra. lra. } replace (- (k * k) / (2 * (s * s)))%R with (- (k * k / (2 * (s * s))))%R by (unfold Rdiv; ring). lra.
Qed.
Lemma bell_sum s size x a n : (0 < s)%R -> window s size x a n -> (IZR n <= 8 * sumr (bell s x) a n)%R.
Proof.
  intros HS (W1 & W2 & W3 & W4 & W5). set (m := Zfloor s). assert (M0 : 0 <= m) by (apply Zfloor_lub; lra). pose proof (Zfloor_lb s) as M1. pose proof (Zfloor_ub s) as M2. fold m in M1, M2.
  assert (PL : (Rabs (IZR (a - x)) <= 2 * s + 3 / 4)%R) by (apply W4; lia). assert (PR : (Rabs (IZR (a + n - 1 - x)) <= 2 * s + 3 / 4)%R) by (apply W4; lia). rewrite <- abs_IZR in PL, PR.
  assert (L4 : x - a <= 2 * m + 2). { apply Z.lt_succ_r. apply lt_IZR. unfold Z.succ. rewrite !plus_IZR, mult_IZR. rewrite Z.abs_neq in PL by lia. replace (- (a - x)) with (x - a) in PL by lia. lra. }
  assert (R4 : a + n - 1 - x <= 2 * m + 2). { apply Z.lt_succ_r. apply lt_IZR. unfold Z.succ. rewrite !plus_IZR, mult_IZR. rewrite Z.abs_eq in PR by lia. lra. }
  (** the columns within the deviation *)
  set (l := Z.min (x - a) m). set (r := Z.min (a + n - 1 - x) m). assert (N : n <= 5 \/ n <= 4 * (l + r) + 1) by (unfold l, r; lia).
  assert (SS : (sumr (bell s x) (x - l) (l + 1 + r) <= sumr (bell s x) a n)%R) by (apply sumr_sub; [lia|lia|lia|intros i _; left; apply bell_pos]).
  assert (B : (1 + / 2 * IZR (l + r) <= sumr (bell s x) (x - l) (l + 1 + r))%R).
  { replace (sumr (bell s x) (x - l) (l + 1 + r)) with (sumr (bell s x) (x - l) l + (bell s x x + sumr (bell s x) (x + 1) r))%R.
    - rewrite bell_own. assert (A1 : (sumr (fun _ => / 2) (x - l) l <= sumr (bell s x) (x - l) l)%R). { apply sumr_le. intros i Hi. apply bell_half; [exact HS|]. rewrite <- abs_IZR. apply Rle_trans with (IZR m); [apply IZR_le; lia|exact M1]. }
      assert (A2 : (sumr (fun _ => / 2) (x + 1) r <= sumr (bell s x) (x + 1) r)%R). { apply sumr_le. intros i Hi. apply bell_half; [exact HS|]. rewrite <- abs_IZR. apply Rle_trans with (IZR m); [apply IZR_le; lia|exact M1]. }
      rewrite sumr_const in A1, A2 by lia. rewrite plus_IZR. lra.
    - rewrite <- Z.add_assoc, (sumr_app _ (x - l) l (1 + r)) by lia. replace (x - l + l) with x by lia. rewrite (sumr_app _ x 1 r) by lia. f_equal. f_equal. unfold sumr. rewrite (zrange_cons x 1) by lia. cbn. ring. }
  assert (LR : 0 <= l + r) by lia. apply IZR_le in LR. destruct N as [N|N]; apply IZR_le in N; [lra|]. rewrite plus_IZR, mult_IZR in N. lra.
Qed.
(** ** one axis *)
Lemma blur_weights lm sg s size x : exp_accurate lm -> isf sg s -> (bpow radix2 (-20) <= s <= bpow radix2 20)%R -> 1 <= size <= 524288 -> 0 <= x < size -> let f := blur_filter lm sg in let K := computed f size size x in
  (0 < factor sg)%R /\ taps_val f size size x K /\ forall i, 0 <= i < size -> (Rabs (K i / factor sg - bell s x i) <= 26 * uu)%R.
Proof.
  intros HL IS HS HZ HX f K. assert (M20 : (bpow radix2 (-20) = / 1048576)%R) by reflexivity. assert (P20 : (bpow radix2 20 = 1048576)%R) by reflexivity. assert (M22 : (bpow radix2 (-22) = / 4194304)%R) by reflexivity. pose proof (own_centre size x HZ HX) as IC. destruct (own_scale size ltac:(unfold u32_max; lia)) as (_ & _ & I1). assert (X0 : (0 <= IZR x <= 524287)%R) by (split; apply IZR_le; lia).
  assert (W : forall i, 0 <= i < size -> (bpow radix2 (-22) <= factor sg <= bpow radix2 20)%R /\ isf (kernel f (kernel_arg size size x i)) (K i) /\ (0 <= K i <= bpow radix2 20)%R /\ (Rabs (K i / factor sg - bell s x i) <= 26 * uu)%R).
  { intros i Hi. destruct (arg_ok size size x _ 1 i HZ Hi IC ltac:(lra) I1 ltac:(lra)) as (A & IA & EA & _). replace (IZR x + / 2 - / 2)%R with (IZR x) in EA by ring. rewrite (RN_small x) in EA by lia. rewrite <- minus_IZR in EA. unfold Rdiv in EA. rewrite Rinv_1, Rmult_1_r in EA.
    assert (RI : RN32 (IZR (i - x)) = IZR (i - x)) by (apply RN_repr; apply (repr_Z 24 128 f32_prec f32_emax); lia). rewrite !RI in EA. rewrite EA in IA. destruct (gauss_weight lm sg s _ (i - x) HL IS HS IA ltac:(lia)) as (C & w & IW & WB & WE). assert (EK : K i = w) by (exact (proj1 IW)). rewrite EK. split; [exact C|]. split; [exact IW|]. split; [exact WB|exact WE]. }
  destruct (W x HX) as (C & _ & KB & KE). pose proof (blur_window lm sg s size x IS ltac:(lra) HZ HX) as (WN1 & WN2 & WN3 & _). fold f in WN1, WN2, WN3. unfold ntaps in WN2, WN3. split; [lra|]. split; [|intros i Hi; apply W; exact Hi].
  assert (B1 : (1048576 <= B60)%R) by (unfold B60; apply IZR_le; vm_compute; discriminate). split.
  - intros i Hi. destruct (W i ltac:(lia)) as (_ & IW & WB & _). split; [exact IW|lra].
  - exists x. split; [lia|]. rewrite bell_own in KE. destruct uu_val as [U0 U1]. apply Rabs_le_inv in KE. assert (KH : (/ 2 <= K x / factor sg)%R) by lra. assert (KM : (/ 2 * factor sg <= K x)%R). { apply (Rmult_le_compat_r (factor sg)) in KH; [|lra]. unfold Rdiv in KH. rewrite (Rmult_assoc (K x)), Rinv_l, Rmult_1_r in KH by lra. exact KH. }
    assert (/ B60 <= / 16777216)%R; [|lra]. apply Rinv_le_contravar; [lra|]. unfold B60. apply IZR_le. vm_compute. discriminate.
Qed.
Lemma mean_factor c K v a n : (c <> 0)%R -> mean (fun i => K i / c)%R v a n = mean K v a n.
Proof.
  intros H. unfold mean. rewrite (sumr_ext (fun i => v i * (K i / c))%R (fun i => / c * (v i * K i))%R) by (intros; unfold Rdiv; ring). rewrite (sumr_ext (fun i => K i / c)%R (fun i => / c * K i)%R) by (intros; unfold Rdiv; ring). rewrite !sumr_scale. unfold Rdiv. destruct (Req_dec (sumr K a n) 0) as [->|E]; [rewrite Rmult_0_r, Rinv_0; ring|]. field. split; assumption.
Qed.
Lemma blur_axis_mean lm sg s size x v V : exp_accurate lm -> isf sg s -> (bpow radix2 (-20) <= s <= bpow radix2 20)%R -> 1 <= size <= 524288 -> 0 <= x < size -> (0 <= V)%R -> (forall i, 0 <= i < size -> (0 <= v i <= V)%R) ->
  let f := blur_filter lm sg in (Rabs (mean (computed f size size x) v (left_tap f size size x) (ntaps f size size x) - mean (bell s x) v (left_tap f size size x) (ntaps f size size x)) <= V * (209 * uu))%R.
Proof.
  intros HL IS HS HZ HX HV0 HV f. destruct (blur_weights lm sg s size x HL IS HS HZ HX) as (C & TV & KE). fold f in TV, KE. set (K := computed f size size x) in *. assert (M20 : (bpow radix2 (-20) = / 1048576)%R) by reflexivity. pose proof (blur_window lm sg s size x IS ltac:(lra) HZ HX) as W. fold f in W. pose proof (taps_sum f size size x K TV) as KP.
  set (l := left_tap f size size x) in *. set (n := ntaps f size size x) in *. pose proof (bell_sum s size x l n ltac:(lra) W) as BS. destruct W as (W1 & W2 & W3 & _). rewrite <- (mean_factor (factor sg) K v l n) by lra. set (c := factor sg) in *. destruct uu_val as [U0 U1].
  assert (N1 : (1 <= IZR n)%R) by (apply IZR_le; lia). set (K' := fun i => (K i / c)%R) in *.
  assert (KG : (sumr (bell s x) l n - IZR n * (26 * uu) <= sumr K' l n)%R). { rewrite <- (sumr_const (26 * uu) l n) by lia. apply Rplus_le_reg_r with (sumr (fun _ => 26 * uu) l n)%R. rewrite <- (sumr_plus K'). ring_simplify. apply sumr_le. intros i Hi. specialize (KE i ltac:(lia)). apply Rabs_le_inv in KE. unfold K'. lra. }
  assert (UN : (IZR n * (26 * uu) <= IZR n * / 600000)%R) by (apply Rmult_le_compat_l; lra). assert (SP : (IZR n * / 8.001 <= sumr K' l n)%R) by lra.
  eapply Rle_trans; [apply (mean_weights K' (bell s x) v l n V (26 * uu)); [lia|exact HV0|lra|lra| | |]|].
  - intros i _. left. apply bell_pos.
  - intros i Hi. apply HV. lia.
  - intros i Hi. apply KE. lia.
  - unfold Rdiv. apply Rmult_le_reg_r with (sumr K' l n); [lra|]. rewrite Rmult_assoc, Rinv_l, Rmult_1_r by lra. rewrite Rmult_assoc. apply Rmult_le_compat_l; [exact HV0|]. assert (209 * uu * (IZR n * / 8.001) <= 209 * uu * sumr K' l n)%R by (apply Rmult_le_compat_l; lra). assert (0 <= IZR n * uu)%R by (apply Rmult_le_pos; lra). lra.
Qed.
(** ** both axes *)
Lemma blur_means lm sg s t k im i x y : exp_accurate lm -> isf sg s -> (bpow radix2 (-20) <= s <= bpow radix2 20)%R -> img_ok t k im -> 1 <= iw im <= 524288 -> 1 <= ih im <= 524288 -> 0 <= x < iw im -> 0 <= y < ih im -> let f := blur_filter lm sg in
  (Rabs (mean2 t im i (computed f (iw im) (iw im) x) (computed f (ih im) (ih im) y) (left_tap f (iw im) (iw im) x) (ntaps f (iw im) (iw im) x) (left_tap f (ih im) (ih im) y) (ntaps f (ih im) (ih im) y)
         - bell_mean t im i s x (left_tap f (iw im) (iw im) x) (ntaps f (iw im) (iw im) x) y (left_tap f (ih im) (ih im) y) (ntaps f (ih im) (ih im) y)) <= IZR (smax t) * (418 * uu))%R.
Proof.
  intros HL IS HS HI HW HH HX HY f. unfold mean2, bell_mean. set (v := fun x' y' => IZR (chan_at t im i (x', y'))). assert (V0 : (0 <= IZR (smax t))%R) by (apply IZR_le; destruct t; cbn; unfold u8_max, u16_max; lia). set (V := IZR (smax t)) in *. destruct uu_val as [U0 _].
  assert (VB : forall x' y', 0 <= x' < iw im -> 0 <= y' < ih im -> (0 <= v x' y' <= V)%R) by (intros x' y' Hx Hy; assert (CS : 0 <= chan_at t im i (x', y') <= smax t) by (apply (chan_sample t k im i); [exact HI|split; assumption]); split; apply IZR_le; lia).
  pose proof (taps_range f (iw im) (iw im) x ltac:(lia)) as TRX. pose proof (taps_range f (ih im) (ih im) y ltac:(lia)) as TRY. set (lx := left_tap f (iw im) (iw im) x) in *. set (ly := left_tap f (ih im) (ih im) y) in *.
  destruct (blur_weights lm sg s (iw im) x HL IS HS HW HX) as (_ & TX & _). fold f in TX. set (Kx := computed f (iw im) (iw im) x) in *. set (Ky := computed f (ih im) (ih im) y) in *. assert (M20 : (bpow radix2 (-20) = / 1048576)%R) by reflexivity. pose proof (blur_window lm sg s (ih im) y IS ltac:(lra) HH HY) as WY. fold f ly in WY.
  assert (NX : lx + ntaps f (iw im) (iw im) x = right_tap f (iw im) (iw im) x) by (unfold ntaps, lx; lia). assert (NY : ly + ntaps f (ih im) (ih im) y = right_tap f (ih im) (ih im) y) by (unfold ntaps, ly; lia). set (nx := ntaps f (iw im) (iw im) x) in *. set (ny := ntaps f (ih im) (ih im) y) in *.
  pose proof (bell_sum s _ y ly ny ltac:(lra) WY) as BS. assert (N1 : (1 <= IZR ny)%R) by (apply IZR_le; lia).
  set (w := fun x' => mean (bell s y) (fun y' => v x' y') ly ny). assert (WB : forall x', 0 <= x' < iw im -> (0 <= w x' <= V)%R) by (intros x' Hx; apply mean_range; [intros j _; left; apply bell_pos|lra|intros j Hj; apply VB; lia]).
  pose proof (blur_axis_mean lm sg s (iw im) x w V HL IS HS HW HX V0 WB) as E1. cbv zeta in E1. fold f lx nx Kx in E1.
  set (u := fun x' => mean Ky (fun y' => v x' y') ly ny). assert (E2 : forall x', 0 <= x' < iw im -> (Rabs (u x' - w x') <= V * (209 * uu))%R) by (intros x' Hx; apply (blur_axis_mean lm sg s (ih im) y); [exact HL|exact IS|exact HS|exact HH|exact HY|exact V0|intros j Hj; apply VB; assumption]).
  assert (KP : forall j, lx <= j < lx + nx -> (0 <= Kx j)%R) by (intros j Hj; apply (proj1 TX); fold lx; lia). pose proof (taps_sum f (iw im) (iw im) x Kx TX) as KS. fold lx nx in KS.
  pose proof (mean_scaled_hi Kx u w lx nx 1 (V * (209 * uu)) KP KS) as HI1. pose proof (mean_scaled_lo Kx u w lx nx 1 (V * (209 * uu)) KP KS) as LO1. assert (G : forall j, lx <= j < lx + nx -> (- (V * (209 * uu)) <= u j - w j <= V * (209 * uu))%R) by (intros j Hj; apply Rabs_le_inv; apply E2; lia).
  specialize (HI1 ltac:(intros j Hj; specialize (G j Hj); lra)). specialize (LO1 ltac:(intros j Hj; specialize (G j Hj); lra)). change (Rabs (mean Kx u lx nx - mean (bell s x) w lx nx) <= V * (418 * uu))%R. apply Rabs_le_inv in E1. apply Rabs_le. lra.
Qed.
