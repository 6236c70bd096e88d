From Coq Require Import ZArith Bool Reals Lia Lra.
From Flocq Require Import Core IEEE754.BinarySingleNaN Relative.
From Verif Require Import Base BaseLemmas Float FloatProofs JpegQuant ColorFProofs Resize.
Local Open Scope Z_scope.

Notation RN64 := (RN 53 1024).
Definition u64r : R := (/ IZR (2 ^ 53))%R.
Lemma u64r_val : (0 < u64r)%R /\ (u64r <= / 9000000000000000)%R.
Proof. unfold u64r. change (2 ^ 53) with 9007199254740992. split; [lra|]. apply Rinv_le_contravar; lra. Qed.
Lemma RN64_rel x : big 100 x -> (Rabs (RN64 x - x) <= u64r * x)%R.
Proof.
  intros [->|H]; [rewrite RN_0, Rminus_0_r, Rabs_R0; lra|]. pose proof (inv_pos 100 ltac:(lia)).
  pose proof (relative_error_N_FLT radix2 (SpecFloat.emin 53 1024) 53 eq_refl (fun x => negb (Z.even x)) x) as E.
  rewrite (Rabs_pos_eq x) in E by lra.
  replace u64r with (/ 2 * bpow radix2 (- (53) + 1))%R; [apply E|].
  - eapply Rle_trans; [|exact H]. change (SpecFloat.emin 53 1024 + 53 - 1) with (-1022). apply Rle_trans with (bpow radix2 (-126)); [apply bpow_le; lia|]. change (bpow radix2 (-126)) with (/ IZR (2 ^ 126))%R. apply Rinv_le_contravar; [apply IZR_lt; lia|apply IZR_le; lia].
  - change (bpow radix2 (- (53) + 1)) with (/ IZR (2 ^ 52))%R. unfold u64r. change (2 ^ 53) with (2 * 2 ^ 52). rewrite mult_IZR, Rinv_mult. reflexivity.
Qed.
Lemma repr64_pow2 k : 0 <= k <= 200 -> repr 53 1024 (IZR (2 ^ k)).
Proof.
  intros Hk. replace (IZR (2 ^ k)) with (bpow radix2 k) by (symmetry; apply (IZR_Zpower radix2); lia). apply generic_format_bpow. unfold SpecFloat.fexp, SpecFloat.emin. lia.
Qed.
Lemma no_overflow_pow k x : 0 <= k <= 200 -> (Rabs x <= IZR (2 ^ k))%R -> Rlt_bool (Rabs (RN64 x)) (bpow radix2 1024) = true.
Proof.
  intros Hk H. apply Rlt_bool_true. apply Rle_lt_trans with (bpow radix2 200); [|apply bpow_lt; lia]. apply Rle_trans with (IZR (2 ^ k)).
  - apply Rabs_le. apply Rabs_le_inv in H. split.
    + assert (E : (RN64 (- IZR (2 ^ k)) = - IZR (2 ^ k))%R) by (rewrite RN_opp; f_equal; apply RN_repr; apply repr64_pow2; lia). rewrite <- E. apply RN_le; [exact eq_refl|lra].
    + apply RN_le_r; [exact eq_refl|apply repr64_pow2; lia|lra].
  - replace (IZR (2 ^ k)) with (bpow radix2 k) by (symmetry; apply (IZR_Zpower radix2); lia). apply bpow_le. lia.
Qed.
Lemma mul64_ok (x y : f64) k : is_finite x = true -> is_finite y = true -> 0 <= k <= 200 -> (Rabs (B2R x * B2R y) <= IZR (2 ^ k))%R ->
  B2R (f64_mul x y) = RN64 (B2R x * B2R y) /\ is_finite (f64_mul x y) = true.
Proof.
  intros Fx Fy HM HB. pose proof (Bmult_correct 53 1024 f64_prec f64_emax mode_NE x y) as C. cbn [round_mode] in C. pose proof (no_overflow_pow k _ HM HB) as NO. unfold RN in NO. rewrite NO in C. destruct C as (C & F & _). unfold f64_mul. rewrite F, Fx, Fy. auto.
Qed.
Lemma of64_ok n : 0 <= n <= u32_max -> B2R (f64_of_Z n) = IZR n /\ is_finite (f64_of_Z n) = true.
Proof. intros H. apply (ofZ_ok 53 1024 f64_prec f64_emax n). unfold u32_max in H. change (2 ^ 53) with 9007199254740992. lia. Qed.
Lemma RN64_nonneg x : (0 <= x)%R -> (0 <= RN64 x)%R.
Proof. intros H. rewrite <- (RN_0 53 1024). apply RN_le; [exact eq_refl|exact H]. Qed.

(** the quotient n / d *)
Definition q (n d : Z) : R := RN64 (IZR n / IZR d).
Lemma q_exact_le n d : 0 <= n <= u32_max -> 1 <= d -> (0 <= IZR n / IZR d <= IZR u32_max)%R.
Proof.
  intros Hn Hd. assert (0 <= IZR n)%R by (apply IZR_le; lia). assert (1 <= IZR d)%R by (apply IZR_le; lia). assert (IZR n <= IZR u32_max)%R by (apply IZR_le; lia). split; [apply Rle_mult_inv_pos; lra|]. apply Rle_trans with (IZR n / 1)%R; [|unfold Rdiv; rewrite Rinv_1; lra].
  unfold Rdiv. apply Rmult_le_compat_l; [assumption|]. apply Rinv_le_contravar; lra.
Qed.
Lemma q_ok n d : 0 <= n <= u32_max -> 1 <= d <= u32_max -> B2R (f64_div (f64_of_Z n) (f64_of_Z d)) = q n d /\ is_finite (f64_div (f64_of_Z n) (f64_of_Z d)) = true /\ (0 <= q n d <= IZR u32_max)%R.
Proof.
  intros Hn Hd. destruct (of64_ok n Hn) as (En & Fn). destruct (of64_ok d ltac:(lia)) as (Ed & Fd). pose proof (q_exact_le n d Hn ltac:(lia)) as B.
  assert (Nd : IZR d <> 0%R) by (apply not_0_IZR; lia). assert (1 <= IZR d)%R by (apply IZR_le; lia).
  destruct (div_ok 53 1024 f64_prec f64_emax (f64_of_Z n) (f64_of_Z d) u32_max Fn) as (E & F).
  - rewrite Ed. exact Nd.
  - unfold u32_max. change (2 ^ 53) with 9007199254740992. lia.
  - rewrite En, Ed. rewrite Rabs_pos_eq; lra.
  - rewrite En, Ed in E. split; [exact E|]. split; [exact F|]. unfold q. split; [apply RN64_nonneg; lra|]. apply RN_le_r; [exact eq_refl|apply (repr_Z 53 1024 f64_prec f64_emax); unfold u32_max; lia|lra].
Qed.
(** m * ratio, rounded *)
Definition v (m : Z) (r : R) : Z := ZnearestA (RN64 (IZR m * r)).
Lemma v_nonneg m r : 0 <= m -> (0 <= r)%R -> 0 <= v m r.
Proof. intros Hm Hr. pose proof (ZnearestA_Z 0) as Z0. assert (L : ZnearestA (IZR 0) <= v m r); [|rewrite Z0 in L; exact L]. unfold v. apply ZnearestA_le. apply RN64_nonneg. apply Rmult_le_pos; [apply IZR_le; lia|exact Hr]. Qed.
Lemma v_le m r s : 0 <= m -> (r <= s)%R -> v m r <= v m s.
Proof. intros Hm H. unfold v. apply ZnearestA_le. apply RN_le; [exact eq_refl|]. apply Rmult_le_compat_l; [apply IZR_le; lia|exact H]. Qed.
Lemma scaled_ok mx m (f : f64) : 0 <= m <= u32_max -> is_finite f = true -> (0 <= B2R f <= IZR u32_max)%R -> scaled mx m f = Z.max (clampz 0 mx (v m (B2R f))) 1.
Proof.
  intros Hm Ff Hf. destruct (of64_ok m Hm) as (Em & Fm). assert (0 <= IZR m <= IZR u32_max)%R by (split; apply IZR_le; lia).
  destruct (mul64_ok (f64_of_Z m) f 64 Fm Ff ltac:(lia)) as (E & F).
  - rewrite Em. rewrite Rabs_pos_eq by (apply Rmult_le_pos; lra). apply Rle_trans with (IZR u32_max * IZR u32_max)%R; [apply Rmult_le_compat; lra|]. rewrite <- mult_IZR. apply IZR_le. unfold u32_max. lia.
  - rewrite Em in E. destruct (round_ok 53 1024 f64_emax (f64_mul (f64_of_Z m) f)) as (Er & Fr). rewrite F in Fr. unfold scaled, f64_as, f64_round. rewrite (as_ok 53 1024 f64_emax 0 mx _ Fr). rewrite Er, E. rewrite Ztrunc_IZR. reflexivity.
Qed.

(** error of m * (n / d) *)
Lemma v_err m n d : 0 <= m <= u32_max -> 0 <= n <= u32_max -> 1 <= d <= u32_max -> (Rabs (RN64 (IZR m * q n d) - IZR m * (IZR n / IZR d)) <= 3 * u64r * (IZR m * (IZR n / IZR d)))%R.
Proof.
  intros Hm Hn Hd. destruct u64r_val as [U0 U1]. assert (M0 : (0 <= IZR m)%R) by (apply IZR_le; lia). pose proof (q_exact_le n d Hn ltac:(lia)) as B.
  assert (BG : big 32 (IZR n / IZR d)).
  { destruct (Z.eq_dec n 0) as [->|]; [left; unfold Rdiv; ring|right]. assert (1 <= IZR n)%R by (apply IZR_le; lia). assert (0 < IZR d)%R by (apply IZR_lt; lia). assert (IZR d <= IZR (2 ^ 32))%R by (apply IZR_le; unfold u32_max in Hd; lia).
    apply Rle_trans with (1 * / IZR (2 ^ 32))%R; [lra|]. unfold Rdiv. apply Rmult_le_compat; [lra| |lra|apply Rinv_le_contravar; assumption]. apply Rlt_le. apply Rinv_0_lt_compat. apply IZR_lt. lia. }
  assert (BM : big 0 (IZR m)) by (destruct (Z.eq_dec m 0) as [->|]; [left; reflexivity|right; change (2 ^ 0) with 1; rewrite Rinv_1; apply IZR_le; lia]).
  assert (BQ : big 32 (q n d)).
  { unfold q. destruct BG as [E0|BG]; [left; rewrite E0; apply RN_0|right]. apply RN_ge; [exact eq_refl| |exact BG]. replace (/ IZR (2 ^ 32))%R with (IZR 1 / IZR (2 ^ 32))%R by (unfold Rdiv; ring). apply (repr_dyadic 53 1024); lia. }
  pose proof (big_mul 0 32 _ _ ltac:(lia) ltac:(lia) BM BQ) as BP. pose proof (RN64_rel _ (big_le (0 + 32) 100 _ ltac:(lia) BP)) as E2. pose proof (RN64_rel _ (big_le 32 100 _ ltac:(lia) BG)) as E1. fold (q n d) in E1.
  generalize dependent (q n d). intros k BQ BP E2 E1. generalize dependent (IZR n / IZR d)%R. intros x B BG E1. set (y := (IZR m * k)%R) in *. set (M := IZR m) in *. generalize dependent (RN64 y). intros z E2.
  assert (EY : (Rabs (y - M * x) <= u64r * (M * x))%R). { unfold y. replace (M * k - M * x)%R with (M * (k - x))%R by ring. rewrite Rabs_mult, (Rabs_pos_eq M M0). replace (u64r * (M * x))%R with (M * (u64r * x))%R by ring. apply Rmult_le_compat_l; assumption. }
  clearbody y. assert (MX : (0 <= M * x)%R) by (apply Rmult_le_pos; lra). set (P := (M * x)%R) in *. clearbody P. clear - E2 EY MX U0 U1. apply Rabs_le_inv in E2, EY. apply Rabs_le.
  assert (UP : (0 <= u64r * P)%R) by (apply Rmult_le_pos; lra). assert (UU : (u64r * (u64r * P) <= u64r * P)%R) by (apply Rle_trans with (1 * (u64r * P))%R; [apply Rmult_le_compat_r; lra|lra]).
  assert (UY : (u64r * y <= u64r * (P + u64r * P))%R) by (apply Rmult_le_compat_l; lra). rewrite Rmult_plus_distr_l in UY. lra.
Qed.
(** the nearest integer, up to 2^-19 *)
Lemma v_near m n d : 0 <= m <= u32_max -> 0 <= n <= u32_max -> 1 <= d <= u32_max -> m * n <= 4294967297 * d -> 524288 * Z.abs (v m (q n d) * d - m * n) <= 262145 * d.
Proof.
  intros Hm Hn Hd HB. pose proof (v_err m n d Hm Hn Hd) as E. destruct u64r_val as [U0 U1]. pose proof (Znearest_half (Z.leb 0) (RN64 (IZR m * q n d))) as N. fold (v m (q n d)) in N.
  set (k := v m (q n d)) in *. clearbody k. set (z := RN64 (IZR m * q n d)) in *. clearbody z. assert (D0 : (0 < IZR d)%R) by (apply IZR_lt; lia).
  set (x := (IZR m * (IZR n / IZR d))%R) in *. assert (XD : (x * IZR d = IZR (m * n))%R) by (unfold x; rewrite mult_IZR; field; lra). assert (X0 : (0 <= x)%R) by (unfold x; apply Rmult_le_pos; [apply IZR_le; lia|apply Rle_mult_inv_pos; [apply IZR_le; lia|lra]]). clearbody x.
  assert (XB : (x <= 4294967297)%R). { apply Rmult_le_reg_r with (IZR d); [exact D0|]. rewrite XD. rewrite <- mult_IZR. apply IZR_le. exact HB. }
  assert (K : (Rabs (IZR k - x) <= / 2 + / 524288)%R). { replace (IZR k - x)%R with (- (z - IZR k) + (z - x))%R by ring. eapply Rle_trans; [apply Rabs_triang|]. rewrite Rabs_Ropp. apply Rplus_le_compat; [exact N|]. eapply Rle_trans; [exact E|]. apply Rle_trans with (3 * / 9000000000000000 * 4294967297)%R; [apply Rmult_le_compat; lra|lra]. }
  apply le_IZR. rewrite !mult_IZR. rewrite abs_IZR. rewrite minus_IZR. rewrite mult_IZR. rewrite <- XD. replace (IZR k * IZR d - x * IZR d)%R with ((IZR k - x) * IZR d)%R by ring. rewrite Rabs_mult. rewrite (Rabs_pos_eq (IZR d)) by lra.
  apply Rle_trans with (524288 * ((/ 2 + / 524288) * IZR d))%R; [|lra]. apply Rmult_le_compat_l; [lra|]. apply Rmult_le_compat_r; lra.
Qed.
Lemma v_same m n : 1 <= m <= u32_max -> 0 <= n <= u32_max -> v m (q n m) = n.
Proof.
  intros Hm Hn. pose proof (v_near m n m ltac:(lia) Hn Hm ltac:(unfold u32_max in *; nia)) as N. set (k := v m (q n m)) in *. clearbody k. replace (k * m - m * n) with ((k - n) * m) in N by ring. rewrite Z.abs_mul, (Z.abs_eq m) in N by lia. nia.
Qed.
Lemma q_le n1 d1 n2 d2 : 1 <= d1 -> 1 <= d2 -> n1 * d2 <= n2 * d1 -> (q n1 d1 <= q n2 d2)%R.
Proof.
  intros H1 H2 H. unfold q. apply RN_le; [exact eq_refl|]. assert (0 < IZR d1)%R by (apply IZR_lt; lia). assert (0 < IZR d2)%R by (apply IZR_lt; lia). apply IZR_le in H. rewrite !mult_IZR in H.
  apply Rmult_le_reg_r with (IZR d1 * IZR d2)%R; [apply Rmult_lt_0_compat; assumption|]. replace (IZR n1 / IZR d1 * (IZR d1 * IZR d2))%R with (IZR n1 * IZR d2)%R by (field; lra). replace (IZR n2 / IZR d2 * (IZR d1 * IZR d2))%R with (IZR n2 * IZR d1)%R by (field; lra). exact H.
Qed.

Definition fits (x : Z) : Z := Z.max (clampz 0 u64_max x) 1.
Definition fits32 (x : Z) : Z := Z.max (clampz 0 u32_max x) 1.
(** the result when the ratio is known and no dimension is zero *)
Definition dims_of (w h : Z) (r : R) : Z * Z :=
  if fits (v w r) >? u32_max then (u32_max, fits32 (v h (q u32_max w)))
  else if fits (v h r) >? u32_max then (fits32 (v w (q u32_max h)), u32_max)
  else (fits (v w r), fits (v h r)).
Lemma ratio_ok (a b : f64) (fill : bool) : is_finite a = true -> is_finite b = true -> let r := if fill then f64_max a b else f64_min a b in
  (r = a \/ r = b) /\ B2R r = (if fill then Rmax (B2R a) (B2R b) else Rmin (B2R a) (B2R b)).
Proof.
  intros Fa Fb. assert (Na : is_nan a = false) by (destruct a; try discriminate Fa; reflexivity). assert (Nb : is_nan b = false) by (destruct b; try discriminate Fb; reflexivity).
  destruct fill; cbv zeta; unfold f64_max, f64_min; rewrite Na, Nb.
  - rewrite (Bltb_correct 53 1024 a b Fa Fb). destruct (Rlt_bool_spec (B2R a) (B2R b)); (split; [auto|]); [rewrite Rmax_right; lra|rewrite Rmax_left; lra].
  - rewrite (Bltb_correct 53 1024 b a Fb Fa). destruct (Rlt_bool_spec (B2R b) (B2R a)); (split; [auto|]); [rewrite Rmin_right; lra|rewrite Rmin_left; lra].
Qed.
Lemma rd_ok w h nw nh (fill : bool) : 1 <= w <= u32_max -> 1 <= h <= u32_max -> 0 <= nw <= u32_max -> 0 <= nh <= u32_max ->
  resize_dimensions w h nw nh fill = dims_of w h (if fill then Rmax (q nw w) (q nh h) else Rmin (q nw w) (q nh h)).
Proof.
  intros Hw Hh Hnw Hnh. destruct (q_ok nw w Hnw Hw) as (E1 & F1 & B1). destruct (q_ok nh h Hnh Hh) as (E2 & F2 & B2).
  assert (HU : 0 <= u32_max <= u32_max) by (unfold u32_max; lia). destruct (q_ok u32_max w HU Hw) as (E3 & F3 & B3). destruct (q_ok u32_max h HU Hh) as (E4 & F4 & B4).
  unfold resize_dimensions. cbv zeta. destruct (ratio_ok _ _ fill F1 F2) as (RR & RV). cbv zeta in RR, RV. rewrite E1, E2 in RV.
  set (r := if fill then f64_max _ _ else f64_min _ _) in *. assert (FR : is_finite r = true) by (destruct RR as [-> | ->]; assumption). assert (BR : (0 <= B2R r <= IZR u32_max)%R) by (destruct RR as [-> | ->]; [rewrite E1|rewrite E2]; assumption).
  clearbody r. rewrite (scaled_ok u64_max w r ltac:(lia) FR BR), (scaled_ok u64_max h r ltac:(lia) FR BR). rewrite (scaled_ok u32_max h _ ltac:(lia) F3 ltac:(rewrite E3; exact B3)), (scaled_ok u32_max w _ ltac:(lia) F4 ltac:(rewrite E4; exact B4)). rewrite E3, E4, RV. reflexivity.
Qed.
Lemma fits_id x : 0 <= x <= u32_max -> fits x = Z.max 1 x.
Proof. intros H. unfold fits, clampz. unfold u32_max, u64_max in *. lia. Qed.
Lemma fits_mono x y : x <= y -> fits x <= fits y.
Proof. intros H. unfold fits, clampz. lia. Qed.
Lemma fits32_id x : 0 <= x <= u32_max -> fits32 x = Z.max 1 x.
Proof. intros H. unfold fits32, clampz. lia. Qed.
(** a zero dimension *)
Lemma zero_mul mx (r : f64) : f64_as 0 mx (f64_round (f64_mul (f64_of_Z 0) r)) <= 0.
Proof. destruct r as [[]|[]| |[] mm e B]; cbn; unfold clampz; cbn; lia. Qed.
Lemma scaled_zero mx r : 0 <= mx -> scaled mx 0 r = 1.
Proof. intros H. unfold scaled. pose proof (zero_mul mx r). lia. Qed.
Lemma div_zero n : 0 <= n <= u32_max -> f64_div (f64_of_Z n) (f64_of_Z 0) = B754_nan \/ f64_div (f64_of_Z n) (f64_of_Z 0) = B754_infinity false.
Proof.
  intros Hn. destruct (of64_ok n Hn) as (E & F). assert (0 <= IZR n)%R by (apply IZR_le; lia). destruct (f64_of_Z n) as [s|s| |s mm e B]; try discriminate F; [left; destruct s; reflexivity|]. right. destruct s; [|reflexivity]. exfalso.
  cbn in E. assert (L : (F2R (Float radix2 (Z.neg mm) e) < 0)%R) by (apply F2R_lt_0; cbn; lia). cbn [cond_Zopp] in E. change (Z.opp (Z.pos mm)) with (Z.neg mm) in E. lra.
Qed.
Lemma min_weird_l (a b : f64) : a = B754_nan \/ a = B754_infinity false -> is_finite b = true -> f64_min a b = b.
Proof. intros [-> | ->] Fb; [reflexivity|]. unfold f64_min. destruct b as [[]|[]| |[] ? ? ?]; try discriminate Fb; reflexivity. Qed.
Lemma min_weird_r (a b : f64) : b = B754_nan \/ b = B754_infinity false -> is_finite a = true -> f64_min a b = a.
Proof. intros [-> | ->] Fb; unfold f64_min; destruct a as [[]|[]| |[] ? ? ?]; try discriminate Fb; reflexivity. Qed.
(** bounds that hold for every input *)
Lemma scaled_range mx m r : 1 <= mx -> 1 <= scaled mx m r <= mx.
Proof. intros H. unfold scaled, f64_as, float_as. destruct (f64_round (f64_mul (f64_of_Z m) r)) as [[]|[]| |? ? ? ?]; unfold clampz; lia. Qed.
Lemma rd_range w h nw nh fill : let '(a, b) := resize_dimensions w h nw nh fill in 1 <= a <= u32_max /\ 1 <= b <= u32_max.
Proof.
  unfold resize_dimensions. cbv zeta. set (r := if fill then _ else _). clearbody r. set (r1 := f64_div (f64_of_Z u32_max) (f64_of_Z w)). set (r2 := f64_div (f64_of_Z u32_max) (f64_of_Z h)). clearbody r1 r2.
  assert (U : 1 <= u32_max) by (unfold u32_max; lia). assert (U2 : 1 <= u64_max) by (unfold u64_max; lia).
  pose proof (scaled_range u64_max w r U2). pose proof (scaled_range u64_max h r U2). pose proof (scaled_range u32_max h r1 U). pose proof (scaled_range u32_max w r2 U).
  destruct (Z.gtb_spec (scaled u64_max w r) u32_max); [lia|]. destruct (Z.gtb_spec (scaled u64_max h r) u32_max); lia.
Qed.
