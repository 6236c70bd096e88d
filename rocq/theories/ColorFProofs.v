(** Floating-point facts for the sample conversions and for blending. *)
From Coq Require Import ZArith Reals Lra Lia.
From Flocq Require Import IEEE754.BinarySingleNaN Core.Core Relative.
From Verif Require Import Base BaseLemmas Float FloatProofs Color ColorF JpegQuant.
Local Open Scope Z_scope.

(** ** relative error of rounding to f32 *)
Definition uu : R := (/ IZR (2 ^ 24))%R.
Lemma uu_val : (0 < uu)%R /\ (uu <= / 16700000)%R.
Proof. unfold uu. change (2 ^ 24) with 16777216. split; [lra|]. apply Rinv_le_contravar; lra. Qed.
(** zero, or at least 2^-k *)
Definition big (k : Z) (x : R) : Prop := (x = 0 \/ / IZR (2 ^ k) <= x)%R.
Lemma pow_pos k : (0 < IZR (2 ^ k))%R \/ k < 0.
Proof. destruct (Z.neg_nonneg_cases k) as [H|H]; [right; exact H|left]. apply IZR_lt. apply Z.pow_pos_nonneg; lia. Qed.
Lemma inv_pos k : 0 <= k -> (0 < / IZR (2 ^ k))%R.
Proof. intros H. apply Rinv_0_lt_compat. destruct (pow_pos k); [assumption|lia]. Qed.
Lemma big_nonneg k x : 0 <= k -> big k x -> (0 <= x)%R.
Proof. intros Hk [->|H]; [lra|]. pose proof (inv_pos k Hk). lra. Qed.
Lemma big_le k l x : 0 <= k <= l -> big k x -> big l x.
Proof.
  intros Hk [H|H]; [left; exact H|right]. eapply Rle_trans; [|exact H]. apply Rinv_le_contravar; [destruct (pow_pos k); [assumption|lia]|]. apply IZR_le. apply Z.pow_le_mono_r; lia.
Qed.
Lemma big_mul k l x y : 0 <= k -> 0 <= l -> big k x -> big l y -> big (k + l) (x * y).
Proof.
  intros Hk Hl [->|H1] [->|H2]; try (left; lra). right. rewrite Z.pow_add_r by lia. rewrite mult_IZR, Rinv_mult.
  pose proof (inv_pos k Hk). pose proof (inv_pos l Hl). apply Rmult_le_compat; lra.
Qed.
Lemma big_add k x y : 0 <= k -> big k x -> big k y -> big k (x + y).
Proof. intros Hk H1 H2. pose proof (big_nonneg k x Hk H1). pose proof (big_nonneg k y Hk H2). destruct H1 as [->|H1]; [rewrite Rplus_0_l; exact H2|]. right. lra. Qed.
Notation RN32 := (RN 24 128).
Lemma repr_pow k : 0 <= k <= 100 -> repr 24 128 (/ IZR (2 ^ k)).
Proof. intros H. replace (/ IZR (2 ^ k))%R with (IZR 1 / IZR (2 ^ k))%R by (unfold Rdiv; apply Rmult_1_l). apply repr_dyadic; lia. Qed.
Lemma big_RN k x : 0 <= k <= 100 -> big k x -> big k (RN32 x).
Proof. intros Hk [->|H]; [left; apply RN_0|right]. apply RN_ge; [exact eq_refl|apply repr_pow; lia|exact H]. Qed.
Lemma RN_rel x : big 100 x -> (Rabs (RN32 x - x) <= uu * x)%R.
Proof.
  intros [->|H]; [rewrite RN_0, Rminus_0_r, Rabs_R0; lra|]. pose proof (inv_pos 100 ltac:(lia)).
  pose proof (relative_error_N_FLT radix2 (SpecFloat.emin 24 128) 24 eq_refl (fun x => negb (Z.even x)) x) as E.
  change (RN32 x) with (round radix2 (FLT_exp (SpecFloat.emin 24 128) 24) ZnearestE x). rewrite (Rabs_pos_eq x) in E by lra.
  replace uu with (/ 2 * bpow radix2 (- (24) + 1))%R; [apply E|].
  - eapply Rle_trans; [|exact H]. change (SpecFloat.emin 24 128 + 24 - 1) with (-126). change (bpow radix2 (-126)) with (/ IZR (2 ^ 126))%R. apply Rinv_le_contravar; [apply IZR_lt; lia|apply IZR_le; lia].
  - change (bpow radix2 (- (24) + 1)) with (/ IZR (2 ^ 23))%R. unfold uu. change (2 ^ 24) with (2 * 2 ^ 23). rewrite mult_IZR, Rinv_mult. reflexivity.
Qed.
Lemma RN_01 x : (0 <= x <= 1)%R -> (0 <= RN32 x <= 1)%R.
Proof. intros [A B]. split; [rewrite <- (RN_0 24 128); apply RN_le; [exact eq_refl|exact A]|apply RN_le_r; [exact eq_refl|apply (repr_Z 24 128 f32_prec f32_emax 1); lia|exact B]]. Qed.
Lemma RN_nonneg x : (0 <= x)%R -> (0 <= RN32 x)%R.
Proof. intros A. rewrite <- (RN_0 24 128). apply RN_le; [exact eq_refl|exact A]. Qed.

(** ** samples as floats *)
Lemma of_Z_ok n : 0 <= n <= 65535 -> B2R (f32_of_Z n) = IZR n /\ is_finite (f32_of_Z n) = true.
Proof. intros H. apply (ofZ_ok 24 128 f32_prec f32_emax n). lia. Qed.
Lemma frac_01 M v : 1 <= M -> 0 <= v <= M -> (0 <= IZR v / IZR M <= 1)%R.
Proof.
  intros HM Hv. assert (1 <= IZR M)%R by (apply IZR_le; lia). assert (0 <= IZR v <= IZR M)%R by (split; apply IZR_le; lia). split.
  - apply Rmult_le_pos; [lra|]. left. apply Rinv_0_lt_compat. lra.
  - apply Rmult_le_reg_r with (IZR M); [lra|]. unfold Rdiv. rewrite Rmult_assoc, Rinv_l by lra. lra.
Qed.
Lemma norm_ok M v : 1 <= M <= 65535 -> 0 <= v <= M -> B2R (norm M v) = RN32 (IZR v / IZR M) /\ is_finite (norm M v) = true /\ (0 <= B2R (norm M v) <= 1)%R.
Proof.
  intros HM Hv. destruct (of_Z_ok v ltac:(lia)) as (E1 & F1). destruct (of_Z_ok M ltac:(lia)) as (E2 & F2). pose proof (frac_01 M v ltac:(lia) Hv) as B.
  assert (1 <= IZR M)%R by (apply IZR_le; lia).
  destruct (div_ok 24 128 f32_prec f32_emax (f32_of_Z v) (f32_of_Z M) 1 F1) as (E & F); [rewrite E2; lra|lia|rewrite E1, E2; apply Rabs_le; lra|]. rewrite E1, E2 in E. unfold norm, f32_div. split; [exact E|]. split; [exact F|]. rewrite E. apply RN_01. exact B.
Qed.
Lemma frac_big M v : 1 <= M <= 65535 -> 0 <= v <= M -> big 16 (IZR v / IZR M).
Proof.
  intros HM Hv. destruct (Z.eq_dec v 0) as [->|N]; [left; unfold Rdiv; ring|right]. assert (1 <= IZR M)%R by (apply IZR_le; lia).
  apply Rle_trans with (/ IZR M)%R; [apply Rinv_le_contravar; [lra|apply IZR_le; lia]|]. rewrite <- (Rmult_1_l (/ IZR M)). unfold Rdiv. apply Rmult_le_compat_r; [left; apply Rinv_0_lt_compat; lra|apply IZR_le; lia].
Qed.

(** ** C21: f32 samples *)
Definition clamped01 (x : f32) : R :=
  match x with
  | B754_nan => 1
  | B754_infinity true => 0
  | B754_infinity false => 1
  | _ => Rmin 1 (Rmax 0 (B2R x))
  end.
Lemma one_ok : B2R f32_one = 1%R /\ is_finite f32_one = true.
Proof. apply (of_Z_ok 1). lia. Qed.
Lemma zero_ok : B2R f32_zero = 0%R /\ is_finite f32_zero = true.
Proof. apply (of_Z_ok 0). lia. Qed.
Lemma clamp_ok x : let c := if negb (f32_lt x f32_one) then f32_one else f32_max x f32_zero in B2R c = clamped01 x /\ is_finite c = true.
Proof.
  cbv zeta. destruct one_ok as (E1 & F1). destruct zero_ok as (E0 & F0). destruct (is_finite x) eqn:F.
  - assert (C : clamped01 x = Rmin 1 (Rmax 0 (B2R x))) by (destruct x; [reflexivity|discriminate|discriminate|reflexivity]). rewrite C. unfold f32_lt. rewrite (Bltb_correct _ _ x f32_one F F1), E1. destruct (Rlt_bool_spec (B2R x) 1) as [L|L]; cbn [negb].
    + unfold f32_max. assert (Nx : is_nan x = false) by (destruct x; try discriminate; reflexivity). assert (Nz : is_nan f32_zero = false) by reflexivity. rewrite Nx, Nz. unfold f32_lt. rewrite (Bltb_correct _ _ x f32_zero F F0), E0. destruct (Rlt_bool_spec (B2R x) 0) as [L0|L0].
      * split; [|exact F0]. rewrite E0, Rmax_left, Rmin_right by lra. reflexivity.
      * split; [|exact F]. rewrite Rmax_right, Rmin_right by lra. reflexivity.
    + split; [|exact F1]. rewrite E1, Rmax_right, Rmin_left by lra. reflexivity.
  - destruct x as [s|s| |s mm e B]; try discriminate F.
    + destruct s; [split; [|reflexivity]; unfold f32_max, f32_lt; exact E0|split; [exact E1|exact F1]].
    + split; [exact E1|exact F1].
Qed.
Lemma clamped01_range x : (0 <= clamped01 x <= 1)%R.
Proof. destruct x as [s|[]| |s mm e B]; cbn [clamped01]; try lra; (split; [apply Rmin_glb; [lra|apply Rmax_l]|apply Rmin_l]). Qed.
Lemma ZnearestA_le x y : (x <= y)%R -> ZnearestA x <= ZnearestA y.
Proof. intros H. apply (@Zrnd_le ZnearestA _); exact H. Qed.
Lemma ZnearestA_Z n : ZnearestA (IZR n) = n.
Proof. apply (@Zrnd_IZR ZnearestA _). Qed.
Lemma smax_range t : 1 <= smax t <= 65535.
Proof. destruct t; cbn; unfold u8_max, u16_max; lia. Qed.
Lemma f32_to_int_ok t x : let r := ZnearestA (RN32 (clamped01 x * IZR (smax t))) in f32_to_int t x = Ok r /\ 0 <= r <= smax t.
Proof.
  intros r. pose proof (smax_range t) as HM. set (M := smax t) in *. destruct (of_Z_ok M ltac:(lia)) as (EM & FM). destruct (clamp_ok x) as (EC & FC). cbv zeta in EC, FC. pose proof (clamped01_range x) as CR.
  assert (M1 : (1 <= IZR M)%R) by (apply IZR_le; lia). assert (B : (0 <= clamped01 x * IZR M <= IZR M)%R) by nra.
  assert (R : 0 <= r <= M). { unfold r. pose proof (ZnearestA_Z 0) as Z0. pose proof (ZnearestA_Z M) as ZM. pose proof (ZnearestA_le (IZR 0) (RN32 (clamped01 x * IZR M)) (RN_nonneg _ (proj1 B))) as L0. assert (LM : ZnearestA (RN32 (clamped01 x * IZR M)) <= ZnearestA (IZR M)) by (apply ZnearestA_le; apply RN_le_r; [exact eq_refl|apply (repr_Z 24 128 f32_prec f32_emax); lia|lra]). rewrite Z0 in L0. rewrite ZM in LM. split; assumption. }
  split; [|exact R]. unfold f32_to_int, normalize_float, cast. fold M. set (c := if negb (f32_lt x f32_one) then f32_one else f32_max x f32_zero) in *. cbv zeta.
  destruct (mul_ok 24 128 f32_prec f32_emax c (f32_of_Z M) M FC FM) as (Em & Fm); [lia|rewrite EC, EM; apply Rabs_le; lra|]. rewrite EC, EM in Em.
  destruct (round_ok 24 128 f32_emax (Bmult mode_NE c (f32_of_Z M))) as (Er & Fr). rewrite Fm in Fr. rewrite Em in Er. unfold f32_round, f32_mul.
  rewrite (cast_ok 24 128 f32_emax _ _ _ Fr). cbv zeta. rewrite Er, Ztrunc_IZR. fold r. replace ((0 <=? r) && (r <=? M)) with true by lia. reflexivity.
Qed.
Lemma int_to_f32_ok t v : 0 <= v <= smax t -> B2R (int_to_f32 t v) = RN32 (IZR v / IZR (smax t)) /\ is_finite (int_to_f32 t v) = true.
Proof.
  intros Hv. pose proof (smax_range t) as HM. destruct (norm_ok (smax t) v HM Hv) as (E & F & B). destruct one_ok as (E1 & F1). destruct zero_ok as (E0 & F0).
  unfold int_to_f32, f32_clamp. fold (norm (smax t) v). cbv zeta. assert (L0 : f32_lt (norm (smax t) v) f32_zero = false) by (unfold f32_lt; rewrite (Bltb_correct _ _ _ _ F F0), E0; apply Rlt_bool_false; lra). rewrite L0. assert (L1 : f32_lt f32_one (norm (smax t) v) = false) by (unfold f32_lt; rewrite (Bltb_correct _ _ _ _ F1 F), E1; apply Rlt_bool_false; lra). rewrite L1. split; [exact E|exact F].
Qed.
Lemma clamped01_finite x : is_finite x = true -> clamped01 x = Rmin 1 (Rmax 0 (B2R x)).
Proof. destruct x; try discriminate; reflexivity. Qed.
Lemma scale_err t x : (0 <= x <= 1)%R -> (Rabs (RN32 (x * IZR (smax t)) - x * IZR (smax t)) <= / 512)%R.
Proof.
  intros H. pose proof (smax_range t) as HM. assert (1 <= IZR (smax t) <= 65535)%R by (split; apply IZR_le; lia).
  pose proof (RN_err 24 128 f32_prec 16 (x * IZR (smax t)) ltac:(lia)) as E. change (bpow radix2 (16 - 24 - 1)) with (/ 512)%R in E. apply E. change (bpow radix2 16) with 65536%R. rewrite Rabs_pos_eq by nra. nra.
Qed.

(** ** blending *)
(** |x - y| <= k uu z *)
Definition near (k : R) (x y z : R) : Prop := (Rabs (x - y) <= k * uu * z)%R.
Lemma near_iff k x y z : near k x y z <-> (y - k * uu * z <= x <= y + k * uu * z)%R.
Proof. unfold near. split; intros H; [apply Rabs_le_inv in H; lra|apply Rabs_le; lra]. Qed.
Lemma near_RN x : big 100 x -> near 1 (RN32 x) x x.
Proof. intros H. unfold near. rewrite Rmult_1_l. apply RN_rel. exact H. Qed.
(** products of relatively close numbers *)
Lemma near_mul k l x y z w : (0 <= k <= 100)%R -> (0 <= l <= 100)%R -> (0 <= y)%R -> (0 <= w)%R -> near k x y y -> near l z w w -> near (k + l + 1) (x * z) (y * w) (y * w).
Proof.
  intros Hk Hl Hy Hw H1 H2. destruct uu_val as [U0 U1]. unfold near in *. replace (x * z - y * w)%R with ((x - y) * w + y * (z - w) + (x - y) * (z - w))%R by ring.
  pose proof (Rabs_triang ((x - y) * w + y * (z - w)) ((x - y) * (z - w))) as T1. pose proof (Rabs_triang ((x - y) * w) (y * (z - w))) as T2. rewrite (Rabs_mult (x - y) (z - w)) in T1. rewrite (Rabs_mult (x - y) w), (Rabs_mult y (z - w)) in T2. rewrite (Rabs_pos_eq w Hw), (Rabs_pos_eq y Hy) in T2.
  set (a := Rabs (x - y)) in *. set (b := Rabs (z - w)) in *. assert (A0 : (0 <= a)%R) by apply Rabs_pos. assert (B0 : (0 <= b)%R) by apply Rabs_pos.
  assert (P1 : (a * w <= k * uu * y * w)%R) by (apply Rmult_le_compat_r; assumption). assert (P2 : (y * b <= y * (l * uu * w))%R) by (apply Rmult_le_compat_l; assumption).
  assert (P3 : (a * b <= (k * uu * y) * (l * uu * w))%R) by (apply Rmult_le_compat; assumption).
  assert (P4 : ((k * uu * y) * (l * uu * w) <= uu * (y * w))%R).
  { replace ((k * uu * y) * (l * uu * w))%R with ((k * l * uu) * (uu * (y * w)))%R by ring. assert (YW : (0 <= uu * (y * w))%R) by (apply Rmult_le_pos; [lra|apply Rmult_le_pos; assumption]). assert (KL : (0 <= k * l <= 10000)%R) by (split; [apply Rmult_le_pos; lra|replace 10000%R with (100 * 100)%R by ring; apply Rmult_le_compat; lra]).
    assert (KU : (k * l * uu <= 1)%R) by (apply Rle_trans with (10000 * / 16700000)%R; [apply Rmult_le_compat; lra|lra]). apply Rle_trans with (1 * (uu * (y * w)))%R; [apply Rmult_le_compat_r; assumption|lra]. }
  eapply Rle_trans; [exact T1|]. replace ((k + l + 1) * uu * (y * w))%R with (k * uu * y * w + y * (l * uu * w) + uu * (y * w))%R by ring. lra.
Qed.
Lemma near_RN_rel k x y : (0 <= k <= 1000)%R -> (0 <= y)%R -> big 100 x -> near k x y y -> near (k + 2) (RN32 x) y y.
Proof.
  intros Hk Hy B H. destruct uu_val as [U0 U1]. pose proof (RN_rel x B) as E. unfold near in *. replace (RN32 x - y)%R with ((RN32 x - x) + (x - y))%R by ring. eapply Rle_trans; [apply Rabs_triang|].
  apply Rabs_le_inv in H. assert (X : (x <= 2 * y)%R). { assert (k * uu <= 1)%R by (apply Rle_trans with (1000 * / 16700000)%R; [apply Rmult_le_compat; lra|lra]). assert (k * uu * y <= 1 * y)%R by (apply Rmult_le_compat_r; assumption). lra. }
  assert (XU : (uu * x <= uu * (2 * y))%R) by (apply Rmult_le_compat_l; lra). assert (Rabs (x - y) <= k * uu * y)%R by (apply Rabs_le; lra). lra.
Qed.

Section Over.
(** exact operands: background colour and alpha, foreground colour and alpha, all in 0..1; and their roundings *)
Variables (b a f g B A F G : R).
Hypothesis (Hb : (0 <= b <= 1)%R) (Ha : (0 <= a <= 1)%R) (Hf : (0 <= f <= 1)%R) (Hg : (0 <= g <= 1)%R).
Hypothesis (Bb : big 16 b) (Ba : big 16 a) (Bf : big 16 f) (Bg : big 16 g).
Hypothesis (Hg1 : g = 1%R \/ (g <= 1 - / IZR (2 ^ 16))%R).
Hypothesis (EB : B = RN32 b) (EA : A = RN32 a) (EF : F = RN32 f) (EG : G = RN32 g).
Let D : R := (a + g - a * g)%R.
Let N : R := (f * g + b * a * (1 - g))%R.
Lemma D_ge : (a <= D)%R /\ (g <= D)%R /\ (D <= 1)%R.
Proof. unfold D. assert (0 <= a * (1 - g))%R by (apply Rmult_le_pos; lra). assert (0 <= g * (1 - a))%R by (apply Rmult_le_pos; lra). assert (0 <= (1 - a) * (1 - g))%R by (apply Rmult_le_pos; lra). repeat split; lra. Qed.
Lemma N_le : (0 <= N <= D)%R.
Proof.
  unfold N, D. assert (0 <= f * g)%R by (apply Rmult_le_pos; lra). assert (0 <= b * a)%R by (apply Rmult_le_pos; lra). assert (0 <= b * a * (1 - g))%R by (apply Rmult_le_pos; lra).
  assert (0 <= (1 - f) * g)%R by (apply Rmult_le_pos; lra). assert (0 <= (1 - b) * a * (1 - g))%R by (apply Rmult_le_pos; [apply Rmult_le_pos|]; lra). lra.
Qed.
Lemma near1 x X : X = RN32 x -> big 16 x -> near 1 X x x.
Proof. intros -> H. apply near_RN. apply (big_le 16); [lia|exact H]. Qed.
Lemma rn01 x X : X = RN32 x -> (0 <= x <= 1)%R -> (0 <= X <= 1)%R.
Proof. intros -> H. apply RN_01. exact H. Qed.
Lemma bigX x X : X = RN32 x -> big 16 x -> big 16 X.
Proof. intros -> H. apply big_RN; [lia|exact H]. Qed.
(** the rounded alpha sum *)
Lemma alpha_near : (0 < D)%R -> near 9 (RN32 (RN32 (A + G) - RN32 (A * G))) D D /\ (0 <= RN32 (A + G) - RN32 (A * G) <= 2)%R /\ big 30 (RN32 (A + G) - RN32 (A * G)).
Proof.
  intros DP. destruct uu_val as [U0 U1]. destruct D_ge as (D1 & D2 & D3). pose proof (rn01 a A EA Ha) as RA. pose proof (rn01 g G EG Hg) as RG.
  pose proof (proj1 (near_iff _ _ _ _) (near1 a A EA Ba)) as NA. pose proof (proj1 (near_iff _ _ _ _) (near1 g G EG Bg)) as NG.
  assert (DB : (/ IZR (2 ^ 16) <= D)%R). { destruct Ba as [Z1|Z1]; [|lra]. destruct Bg as [Z2|Z2]; [|lra]. unfold D in DP. rewrite Z1, Z2 in DP. lra. }
  pose proof (bigX a A EA Ba) as BA. pose proof (bigX g G EG Bg) as BG.
  pose proof (RN_rel (A + G) (big_le 16 100 _ ltac:(lia) (big_add 16 _ _ ltac:(lia) BA BG))) as ES. pose proof (RN_rel (A * G) (big_le 32 100 _ ltac:(lia) (big_mul 16 16 _ _ ltac:(lia) ltac:(lia) BA BG))) as EP.
  apply Rabs_le_inv in ES. apply Rabs_le_inv in EP. set (s := RN32 (A + G)) in *. set (p := RN32 (A * G)) in *. clearbody s p.
  assert (AG : (0 <= A * G <= A)%R) by (split; [apply Rmult_le_pos; lra|rewrite <- (Rmult_1_r A) at 2; apply Rmult_le_compat_l; lra]).
  assert (A2 : (uu * a <= uu * D)%R) by (apply Rmult_le_compat_l; lra). assert (G2 : (uu * g <= uu * D)%R) by (apply Rmult_le_compat_l; lra).
  assert (UD : (uu * (uu * D) <= / 100 * (uu * D))%R) by (apply Rmult_le_compat_r; [apply Rmult_le_pos; lra|lra]).
  assert (A3 : (uu * A <= uu * D + / 100 * (uu * D))%R) by (apply Rle_trans with (uu * (a + uu * D))%R; [apply Rmult_le_compat_l; lra|lra]). assert (G3 : (uu * G <= uu * D + / 100 * (uu * D))%R) by (apply Rle_trans with (uu * (g + uu * D))%R; [apply Rmult_le_compat_l; lra|lra]).
  assert (UAG : (0 <= uu * (A * G) <= uu * A)%R) by (split; [apply Rmult_le_pos; lra|apply Rmult_le_compat_l; lra]).
  (* A + G - A G against D *)
  assert (M1 : (- (uu * D) <= (A - a) * (1 - G) <= uu * D)%R). { assert (Rabs ((A - a) * (1 - G)) <= uu * D)%R; [|apply Rabs_le_inv; assumption]. rewrite Rabs_mult. apply Rle_trans with (uu * D * 1)%R; [|lra]. apply Rmult_le_compat; try apply Rabs_pos; apply Rabs_le; lra. }
  assert (M2 : (- (uu * D) <= (G - g) * (1 - a) <= uu * D)%R). { assert (Rabs ((G - g) * (1 - a)) <= uu * D)%R; [|apply Rabs_le_inv; assumption]. rewrite Rabs_mult. apply Rle_trans with (uu * D * 1)%R; [|lra]. apply Rmult_le_compat; try apply Rabs_pos; apply Rabs_le; lra. }
  assert (M3 : (A + G - A * G - D = (A - a) * (1 - G) + (G - g) * (1 - a))%R) by (unfold D; ring).
  assert (SP : (D - 6 * (uu * D) <= s - p <= D + 6 * (uu * D))%R) by lra.
  assert (U6 : (0 <= 6 * (uu * D) <= / 100 * D)%R). { split; [assert (0 <= uu * D)%R by (apply Rmult_le_pos; lra); lra|]. rewrite <- Rmult_assoc. apply Rmult_le_compat_r; lra. }
  assert (DQ : (/ IZR (2 ^ 30) <= s - p)%R). { apply Rle_trans with (/ 2 * / IZR (2 ^ 16))%R; [|lra]. rewrite <- Rinv_mult, <- mult_IZR. apply Rinv_le_contravar; [apply IZR_lt; lia|apply IZR_le; lia]. }
  assert (BSP : big 100 (s - p)) by (apply (big_le 30); [lia|right; exact DQ]).
  split; [|split; [pose proof (inv_pos 30 ltac:(lia)); lra|right; exact DQ]]. apply near_iff. pose proof (RN_rel _ BSP) as ER. apply Rabs_le_inv in ER.
  assert (US : (uu * (s - p) <= uu * (2 * D))%R) by (apply Rmult_le_compat_l; lra). lra.
Qed.
(** the rounded premultiplied colour *)
Let Q : R := RN32 (1 - G).
Let O : R := RN32 (RN32 (F * G) + RN32 (RN32 (B * A) * Q)).
Lemma out_near : near 17 O N D /\ (0 <= O <= 3)%R /\ big 60 O /\ (0 <= Q <= 1)%R /\ (0 <= RN32 (B * A) <= 1)%R /\ (0 <= RN32 (F * G) <= 1)%R /\ (0 <= RN32 (RN32 (B * A) * Q) <= 1)%R.
Proof.
  destruct uu_val as [U0 U1]. destruct D_ge as (D1 & D2 & D3). pose proof (rn01 a A EA Ha) as RA. pose proof (rn01 g G EG Hg) as RG. pose proof (rn01 b B EB Hb) as RB. pose proof (rn01 f F EF Hf) as RF.
  pose proof (proj1 (near_iff _ _ _ _) (near1 g G EG Bg)) as NG. pose proof (bigX a A EA Ba) as BA. pose proof (bigX g G EG Bg) as BG. pose proof (bigX b B EB Bb) as BB. pose proof (bigX f F EF Bf) as BF.
  (* 1 - G *)
  assert (B1G : big 16 (1 - G)). { destruct Hg1 as [E|L]; [left; rewrite EG, E, (RN_repr 24 128 1); [lra|apply (repr_Z 24 128 f32_prec f32_emax 1); lia]|right]. assert (G <= 1 - / IZR (2 ^ 16))%R; [|lra]. rewrite EG. apply RN_le_r; [exact eq_refl| |exact L]. replace (1 - / IZR (2 ^ 16))%R with (IZR 65535 / IZR (2 ^ 16))%R by (change (2 ^ 16) with 65536; lra). apply repr_dyadic; lia. }
  assert (RQ : (0 <= Q <= 1)%R) by (apply RN_01; lra). pose proof (RN_rel _ (big_le 16 100 _ ltac:(lia) B1G)) as EQ. fold Q in EQ. apply Rabs_le_inv in EQ. assert (BQ : big 16 Q) by (apply big_RN; [lia|exact B1G]).
  assert (U1G : (0 <= uu * (1 - G) <= uu * 1)%R) by (split; [apply Rmult_le_pos; lra|apply Rmult_le_compat_l; lra]). assert (UG : (0 <= uu * g <= uu * 1)%R) by (split; [apply Rmult_le_pos; lra|apply Rmult_le_compat_l; lra]).
  assert (NQ : (Rabs (Q - (1 - g)) <= 2 * uu)%R) by (apply Rabs_le; lra).
  (* F G *)
  assert (FG01 : (0 <= F * G <= 1)%R) by (split; [apply Rmult_le_pos; lra|replace 1%R with (1 * 1)%R by ring; apply Rmult_le_compat; lra]). assert (BA01 : (0 <= B * A <= 1)%R) by (split; [apply Rmult_le_pos; lra|replace 1%R with (1 * 1)%R by ring; apply Rmult_le_compat; lra]).
  assert (fg0 : (0 <= f * g <= g)%R) by (split; [apply Rmult_le_pos; lra|rewrite <- (Rmult_1_l g) at 2; apply Rmult_le_compat_r; lra]). assert (ba0 : (0 <= b * a <= a)%R) by (split; [apply Rmult_le_pos; lra|rewrite <- (Rmult_1_l a) at 2; apply Rmult_le_compat_r; lra]).
  pose proof (near_mul 1 1 F f G g ltac:(lra) ltac:(lra) ltac:(lra) ltac:(lra) (near1 f F EF Bf) (near1 g G EG Bg)) as NFG. pose proof (near_mul 1 1 B b A a ltac:(lra) ltac:(lra) ltac:(lra) ltac:(lra) (near1 b B EB Bb) (near1 a A EA Ba)) as NBA.
  assert (BFG : big 32 (F * G)) by (apply (big_mul 16 16); try lia; assumption). assert (BBA : big 32 (B * A)) by (apply (big_mul 16 16); try lia; assumption).
  apply near_RN_rel in NFG; [|lra|lra|apply (big_le 32); [lia|exact BFG]]. apply near_RN_rel in NBA; [|lra|lra|apply (big_le 32); [lia|exact BBA]].
  pose proof (RN_01 _ FG01) as RFG. pose proof (RN_01 _ BA01) as RBA. pose proof (big_RN 32 _ ltac:(lia) BFG) as BFG'. pose proof (big_RN 32 _ ltac:(lia) BBA) as BBA'.
  set (FG := RN32 (F * G)) in *. set (BA' := RN32 (B * A)) in *.
  assert (BQ01 : (0 <= BA' * Q <= 1)%R) by (split; [apply Rmult_le_pos; lra|replace 1%R with (1 * 1)%R by ring; apply Rmult_le_compat; lra]).
  assert (BBQ : big 48 (BA' * Q)) by (apply (big_mul 32 16); try lia; assumption). pose proof (RN_01 _ BQ01) as RBQ. pose proof (big_RN 48 _ ltac:(lia) BBQ) as BBQ'. pose proof (RN_rel _ (big_le 48 100 _ ltac:(lia) BBQ)) as EBQ. apply Rabs_le_inv in EBQ.
  unfold near in NFG, NBA. assert (uba : (0 <= uu * (b * a) <= uu * a)%R) by (split; [apply Rmult_le_pos; lra|apply Rmult_le_compat_l; lra]). assert (ufg : (0 <= uu * (f * g) <= uu * g)%R) by (split; [apply Rmult_le_pos; lra|apply Rmult_le_compat_l; lra]).
  assert (ua : (uu * a <= uu * D)%R) by (apply Rmult_le_compat_l; lra). assert (ug : (uu * g <= uu * D)%R) by (apply Rmult_le_compat_l; lra). assert (uD : (0 <= uu * D <= / 1000 * D)%R) by (split; [apply Rmult_le_pos; lra|apply Rmult_le_compat_r; lra]).
  (* BA' Q against b a (1 - g) *)
  assert (NBQ : (Rabs (BA' * Q - b * a * (1 - g)) <= 7 * (uu * D))%R).
  { replace (BA' * Q - b * a * (1 - g))%R with ((BA' - b * a) * Q + b * a * (Q - (1 - g)))%R by ring. eapply Rle_trans; [apply Rabs_triang|]. rewrite (Rabs_mult (BA' - b * a) Q), (Rabs_mult (b * a) (Q - (1 - g))). rewrite (Rabs_pos_eq Q), (Rabs_pos_eq (b * a)) by lra.
    assert (Rabs (BA' - b * a) * Q <= 5 * (uu * D) * 1)%R by (apply Rmult_le_compat; [apply Rabs_pos|lra|lra|lra]). assert (b * a * Rabs (Q - (1 - g)) <= a * (2 * uu))%R by (apply Rmult_le_compat; [lra|apply Rabs_pos|lra|lra]). lra. }
  apply Rabs_le_inv in NBQ. set (BQ' := RN32 (BA' * Q)) in *. apply Rabs_le_inv in NFG. apply Rabs_le_inv in NBA.
  assert (BQu : (uu * (BA' * Q) <= uu * (2 * D))%R). { apply Rmult_le_compat_l; [lra|]. assert (BA' * Q <= BA' * 1)%R by (apply Rmult_le_compat_l; lra). lra. }
  assert (N1 : (N - 14 * (uu * D) <= FG + BQ' <= N + 14 * (uu * D))%R) by (unfold N; lra).
  pose proof N_le as NL. assert (SB : big 48 (FG + BQ')) by (apply big_add; [lia|apply (big_le 32); [lia|exact BFG']|exact BBQ']).
  pose proof (RN_rel _ (big_le 48 100 _ ltac:(lia) SB)) as EO. fold O in EO. apply Rabs_le_inv in EO. assert (uS : (uu * (FG + BQ') <= uu * (3 * D))%R) by (apply Rmult_le_compat_l; lra).
  split; [apply near_iff; lra|]. split; [split; [apply RN_nonneg; lra|apply RN_le_r; [exact eq_refl|apply (repr_Z 24 128 f32_prec f32_emax 3); lia|lra]]|]. split; [apply (big_le 48); [lia|apply big_RN; [lia|exact SB]]|]. split; [exact RQ|]. split; [exact RBA|]. split; [exact RFG|exact RBQ].
Qed.
Let AF : R := RN32 (RN32 (A + G) - RN32 (A * G)).
Lemma quot_near : (0 < D)%R -> (0 < AF)%R /\ (Rabs (RN32 (O / AF) - N / D) <= 29 * uu)%R /\ (0 <= O / AF <= 2)%R /\ big 100 (O / AF) /\ (AF <= 2)%R.
Proof.
  intros DP. destruct uu_val as [U0 U1]. destruct (alpha_near DP) as (NA & RA & BAF). fold AF in NA. destruct out_near as (NO & RO & BO & _). apply near_iff in NA. apply near_iff in NO. destruct D_ge as (D1 & D2 & D3). pose proof N_le as NL.
  assert (uD : (0 <= uu * D <= / 10000 * D)%R) by (split; [apply Rmult_le_pos; lra|apply Rmult_le_compat_r; lra]).
  assert (AP : (0 < AF)%R) by lra. split; [exact AP|]. set (X := (N / D)%R). assert (EX : (N = X * D)%R) by (unfold X; field; lra). assert (RX : (0 <= X <= 1)%R). { split; [apply Rmult_le_reg_r with D; lra|apply Rmult_le_reg_r with D; lra]. }
  set (Y := (O / AF)%R). assert (EY : (O = Y * AF)%R) by (unfold Y; field; lra).
  assert (YX : (X - 27 * uu <= Y <= X + 27 * uu)%R).
  { assert (E1 : (Rabs (X * (AF - D)) <= 9 * (uu * D))%R). { rewrite Rabs_mult, (Rabs_pos_eq X) by lra. apply Rle_trans with (1 * (9 * (uu * D)))%R; [|lra]. apply Rmult_le_compat; [lra|apply Rabs_pos|lra|apply Rabs_le; lra]. } apply Rabs_le_inv in E1.
    assert (E2 : (- (26 * (uu * D)) <= (Y - X) * AF <= 26 * (uu * D))%R). { replace ((Y - X) * AF)%R with (O - X * D - X * (AF - D))%R by (rewrite EY; ring). rewrite <- EX. lra. }
    assert (E3 : (26 * (uu * D) <= 27 * uu * AF)%R). { assert (K : (0 <= uu * (AF - 99 / 100 * D))%R) by (apply Rmult_le_pos; lra). lra. }
    assert (L : (- (27 * uu) * AF <= (Y - X) * AF)%R) by lra. assert (H : ((Y - X) * AF <= 27 * uu * AF)%R) by lra. apply Rmult_le_reg_r in L; [|exact AP]. apply Rmult_le_reg_r in H; [|exact AP]. lra. }
  assert (AF2 : (AF <= 2)%R) by (apply RN_le_r; [exact eq_refl|apply (repr_Z 24 128 f32_prec f32_emax 2); lia|lra]).
  assert (Y0 : (0 <= Y)%R) by (unfold Y; apply Rmult_le_pos; [lra|left; apply Rinv_0_lt_compat; exact AP]).
  assert (YB : big 100 Y). { apply (big_le (60 + 1)); [lia|]. unfold Y, Rdiv. apply big_mul; [lia|lia|exact BO|]. right. change (2 ^ 1) with 2. apply Rinv_le_contravar; lra. }
  pose proof (RN_rel Y YB) as EYr. apply Rabs_le_inv in EYr. assert (UY : (uu * Y <= uu * 2)%R) by (apply Rmult_le_compat_l; lra).
  split; [apply Rabs_le; lra|]. split; [lra|]. split; [exact YB|exact AF2].
Qed.
End Over.
(** ** the same for the floats of the model *)
Lemma mul01 x y : (0 <= x <= 1)%R -> (0 <= y <= 1)%R -> (x * y <= 1)%R.
Proof. intros H1 H2. apply Rle_trans with (1 * 1)%R; [apply Rmult_le_compat; lra|lra]. Qed.
Lemma frac_one M v : 1 <= M <= 65535 -> 0 <= v <= M -> (IZR v / IZR M)%R = 1%R \/ (IZR v / IZR M <= 1 - / IZR (2 ^ 16))%R.
Proof.
  intros HM Hv. assert (M1 : (1 <= IZR M <= 65535)%R) by (split; apply IZR_le; lia). destruct (Z.eq_dec v M) as [->|N]; [left; field; lra|right].
  assert (V : (IZR v <= IZR M - 1)%R) by (rewrite <- minus_IZR; apply IZR_le; lia). change (2 ^ 16) with 65536. apply Rmult_le_reg_r with (IZR M); [lra|]. unfold Rdiv. rewrite Rmult_assoc, Rinv_l by lra. lra.
Qed.
(** exact source-over result times the alpha: integers *)
Definition over_num (M b ba f fa : Z) : Z := f * fa * M + b * ba * (M - fa).
Definition over_den (M ba fa : Z) : Z := (fa + ba) * M - fa * ba.
Lemma over_real M b ba f fa : 1 <= M -> 0 < over_den M ba fa ->
  let r v := (IZR v / IZR M)%R in
  (0 < r ba + r fa - r ba * r fa)%R /\ (IZR M * ((r f * r fa + r b * r ba * (1 - r fa)) / (r ba + r fa - r ba * r fa)) = IZR (over_num M b ba f fa) / IZR (over_den M ba fa))%R /\
  (IZR M * (r ba + r fa - r ba * r fa) = IZR (over_den M ba fa) / IZR M)%R.
Proof.
  intros HM HD r. assert (M1 : (1 <= IZR M)%R) by (apply IZR_le; lia). assert (D1 : (0 < IZR (over_den M ba fa))%R) by (apply IZR_lt; lia).
  assert (ED : (r ba + r fa - r ba * r fa = IZR (over_den M ba fa) / (IZR M * IZR M))%R) by (unfold over_den; rewrite minus_IZR, !mult_IZR, plus_IZR; unfold r; field; lra).
  split; [rewrite ED; apply Rdiv_lt_0_compat; [lra|apply Rmult_lt_0_compat; lra]|]. split.
  - rewrite ED. unfold over_num. rewrite plus_IZR, !mult_IZR, minus_IZR. unfold r. field. lra.
  - rewrite ED. field. lra.
Qed.
(** a float and its (finite) value *)
Definition isf (x : f32) (r : R) : Prop := B2R x = r /\ is_finite x = true.
Lemma isf_add x y r s : isf x r -> isf y s -> (0 <= r + s <= 131070)%R -> isf (f32_add x y) (RN32 (r + s)).
Proof. intros (E1 & F1) (E2 & F2) H. destruct (add_ok 24 128 f32_prec f32_emax x y 131070 F1 F2) as (E & F); [lia|rewrite E1, E2; apply Rabs_le; lra|]. rewrite E1, E2 in E. split; assumption. Qed.
Lemma isf_sub x y r s : isf x r -> isf y s -> (0 <= r - s <= 131070)%R -> isf (f32_sub x y) (RN32 (r - s)).
Proof. intros (E1 & F1) (E2 & F2) H. destruct (sub_ok 24 128 f32_prec f32_emax x y 131070 F1 F2) as (E & F); [lia|rewrite E1, E2; apply Rabs_le; lra|]. rewrite E1, E2 in E. split; assumption. Qed.
Lemma isf_mul x y r s : isf x r -> isf y s -> (0 <= r * s <= 131070)%R -> isf (f32_mul x y) (RN32 (r * s)).
Proof. intros (E1 & F1) (E2 & F2) H. destruct (mul_ok 24 128 f32_prec f32_emax x y 131070 F1 F2) as (E & F); [lia|rewrite E1, E2; apply Rabs_le; lra|]. rewrite E1, E2 in E. split; assumption. Qed.
Lemma isf_div x y r s : isf x r -> isf y s -> (s <> 0)%R -> (0 <= r / s <= 131070)%R -> isf (f32_div x y) (RN32 (r / s)).
Proof. intros (E1 & F1) (E2 & F2) N H. destruct (div_ok 24 128 f32_prec f32_emax x y 131070 F1) as (E & F); [rewrite E2; exact N|lia|rewrite E1, E2; apply Rabs_le; lra|]. rewrite E1, E2 in E. split; assumption. Qed.
Lemma isf_norm M v : 1 <= M <= 65535 -> 0 <= v <= M -> isf (norm M v) (RN32 (IZR v / IZR M)).
Proof. intros HM Hv. destruct (norm_ok M v HM Hv) as (E & F & _). split; assumption. Qed.
(** max_t * x, for x close to r *)
Lemma scaled M y Y r k : 1 <= M <= 65535 -> isf y Y -> (0 <= Y <= 2)%R -> big 100 Y -> (Rabs (Y - r) <= k * uu)%R -> (0 <= k <= 29)%R ->
  let x := f32_mul (f32_of_Z M) y in is_finite x = true /\ (0 <= B2R x)%R /\ (Rabs (B2R x - IZR M * r) <= / 8)%R.
Proof.
  intros HM Iy RY BY NY Hk. destruct uu_val as [U0 U1]. assert (M1 : (1 <= IZR M <= 65535)%R) by (split; apply IZR_le; lia). pose proof (of_Z_ok M ltac:(lia)) as IM.
  assert (MB : (0 <= IZR M * Y <= 65535 * 2)%R) by (split; [apply Rmult_le_pos; lra|apply Rmult_le_compat; lra]).
  destruct (isf_mul _ _ _ _ IM Iy ltac:(lra)) as (EX & FX). cbv zeta. set (x := f32_mul (f32_of_Z M) y) in *. clearbody x. split; [exact FX|]. split; [rewrite EX; apply RN_nonneg; lra|].
  assert (BM : big 100 (IZR M * Y)). { replace 100 with (0 + 100) by lia. apply big_mul; [lia|lia|right; change (2 ^ 0) with 1; lra|exact BY]. }
  pose proof (RN_rel _ BM) as ER. rewrite <- EX in ER. apply Rabs_le_inv in ER. assert (UM : (uu * (IZR M * Y) <= / 16700000 * (65535 * 2))%R) by (apply Rmult_le_compat; lra).
  assert (KU : (k * uu <= 29 * / 16700000)%R) by (apply Rmult_le_compat; lra).
  assert (MN : (Rabs (IZR M * (Y - r)) <= 65535 * (k * uu))%R). { rewrite Rabs_mult, (Rabs_pos_eq (IZR M)) by lra. apply Rmult_le_compat; [lra|apply Rabs_pos|lra|exact NY]. }
  apply Rabs_le_inv in MN. apply Rabs_le. lra.
Qed.
Lemma alpha_ok M ba fa : 1 <= M <= 65535 -> 0 <= ba <= M -> 0 <= fa <= M -> 0 < over_den M ba fa ->
  let af := alpha_final (norm M ba) (norm M fa) in let x := f32_mul (f32_of_Z M) af in
  isf af (RN32 (RN32 (RN32 (IZR ba / IZR M) + RN32 (IZR fa / IZR M)) - RN32 (RN32 (IZR ba / IZR M) * RN32 (IZR fa / IZR M)))) /\ f32_eq af f32_zero = false /\
  is_finite x = true /\ (0 <= B2R x)%R /\ (Rabs (B2R x - IZR (over_den M ba fa) / IZR M) <= / 8)%R.
Proof.
  intros HM Hba Hfa HD. pose proof (isf_norm M ba HM Hba) as Ia. pose proof (isf_norm M fa HM Hfa) as Ig. destruct uu_val as [U0 U1].
  destruct (over_real M 0 ba 0 fa ltac:(lia) HD) as (DP & _ & MD). cbv zeta in DP, MD. rewrite <- MD.
  pose proof (frac_01 M ba ltac:(lia) Hba) as Ha. pose proof (frac_01 M fa ltac:(lia) Hfa) as Hg. pose proof (frac_big M ba HM Hba) as Ba. pose proof (frac_big M fa HM Hfa) as Bg. cbv zeta. clear MD. unfold alpha_final.
  generalize dependent (norm M fa). generalize dependent (norm M ba). generalize dependent (IZR ba / IZR M)%R. generalize dependent (IZR fa / IZR M)%R. intros g Hg Bg a DP Ha Ba na Ia ng Ig.
  destruct (alpha_near a g (RN32 a) (RN32 g) Ha Hg Ba Bg eq_refl eq_refl DP) as (NA & RS & BS). pose proof (RN_01 a Ha) as Ra. pose proof (RN_01 g Hg) as Rg.
  pose proof (isf_add _ _ _ _ Ia Ig ltac:(lra)) as I1. pose proof (isf_mul _ _ _ _ Ia Ig ltac:(split; [apply Rmult_le_pos; lra|pose proof (mul01 _ _ Ra Rg); lra])) as I2.
  pose proof (isf_sub _ _ _ _ I1 I2 ltac:(lra)) as I3. set (AF := RN32 (RN32 (RN32 a + RN32 g) - RN32 (RN32 a * RN32 g))) in *.
  assert (DL : (a + g - a * g <= 1)%R) by (assert (0 <= (1 - a) * (1 - g))%R by (apply Rmult_le_pos; lra); lra). set (D := (a + g - a * g)%R) in *.
  assert (BAF : big 100 AF) by (apply (big_le 30); [lia|apply big_RN; [lia|exact BS]]). apply near_iff in NA. clearbody AF.
  assert (uD : (0 <= uu * D <= / 10000 * D)%R) by (split; [apply Rmult_le_pos; lra|apply Rmult_le_compat_r; lra]). assert (uD1 : (uu * D <= uu * 1)%R) by (apply Rmult_le_compat_l; lra).
  set (af := f32_sub (f32_add na ng) (f32_mul na ng)) in *. clearbody af. split; [exact I3|]. split.
  - destruct zero_ok as (Ez & Fz). destruct I3 as (E3 & F3). unfold f32_eq. rewrite (Beqb_correct _ _ _ _ F3 Fz), Ez, E3. apply Req_bool_false. lra.
  - apply (scaled M af AF D 9 HM I3); [lra|exact BAF|apply Rabs_le; lra|lra].
Qed.
Lemma over_ok M b ba f fa : 1 <= M <= 65535 -> 0 <= b <= M -> 0 <= ba <= M -> 0 <= f <= M -> 0 <= fa <= M -> 0 < over_den M ba fa ->
  let x := f32_mul (f32_of_Z M) (over (norm M b) (norm M ba) (norm M f) (norm M fa) (alpha_final (norm M ba) (norm M fa))) in
  is_finite x = true /\ (0 <= B2R x)%R /\ (Rabs (B2R x - IZR (over_num M b ba f fa) / IZR (over_den M ba fa)) <= / 8)%R.
Proof.
  intros HM Hb Hba Hf Hfa HD. destruct (alpha_ok M ba fa HM Hba Hfa HD) as (IAF & _). cbv zeta in *.
  destruct (over_real M b ba f fa ltac:(lia) HD) as (DP & MX & _). cbv zeta in DP, MX. rewrite <- MX. clear MX.
  pose proof (frac_01 M b ltac:(lia) Hb) as Kb. pose proof (frac_01 M ba ltac:(lia) Hba) as Ka. pose proof (frac_01 M f ltac:(lia) Hf) as Kf. pose proof (frac_01 M fa ltac:(lia) Hfa) as Kg.
  pose proof (frac_big M b HM Hb) as Bb. pose proof (frac_big M ba HM Hba) as Ba. pose proof (frac_big M f HM Hf) as Bf. pose proof (frac_big M fa HM Hfa) as Bg. pose proof (frac_one M fa HM Hfa) as G1.
  pose proof (isf_norm M b HM Hb) as Ib. pose proof (isf_norm M ba HM Hba) as Ia. pose proof (isf_norm M f HM Hf) as If. pose proof (isf_norm M fa HM Hfa) as Ig.
  generalize dependent (alpha_final (norm M ba) (norm M fa)). generalize dependent (norm M fa). generalize dependent (norm M f). generalize dependent (norm M ba). generalize dependent (norm M b).
  generalize dependent (IZR fa / IZR M)%R. generalize dependent (IZR f / IZR M)%R. generalize dependent (IZR ba / IZR M)%R. generalize dependent (IZR b / IZR M)%R.
  intros rb Kb Bb ra Ka Ba rf Kf Bf rg DP Kg Bg G1 nb Ib na Ia nf If ng Ig af IAF. clear Hb Hba Hf Hfa HD.
  destruct (out_near rb ra rf rg _ _ _ _ Kb Ka Kf Kg Bb Ba Bf Bg G1 eq_refl eq_refl eq_refl eq_refl) as (_ & RO & _ & RQ & RBA & RFG & RBQ).
  destruct (quot_near rb ra rf rg _ _ _ _ Kb Ka Kf Kg Bb Ba Bf Bg G1 eq_refl eq_refl eq_refl eq_refl DP) as (AP & NQ & RQt & BQt & _).
  pose proof (RN_01 rb Kb) as Rb. pose proof (RN_01 ra Ka) as Ra. pose proof (RN_01 rf Kf) as Rf. pose proof (RN_01 rg Kg) as Rg.
  pose proof (isf_sub _ _ _ _ one_ok Ig ltac:(lra)) as I2. pose proof (isf_mul _ _ _ _ Ib Ia ltac:(split; [apply Rmult_le_pos; lra|pose proof (mul01 _ _ Rb Ra); lra])) as I3. pose proof (isf_mul _ _ _ _ If Ig ltac:(split; [apply Rmult_le_pos; lra|pose proof (mul01 _ _ Rf Rg); lra])) as I4.
  pose proof (isf_mul _ _ _ _ I3 I2 ltac:(split; [apply Rmult_le_pos; lra|pose proof (mul01 _ _ RBA RQ); lra])) as I5. pose proof (isf_add _ _ _ _ I4 I5 ltac:(lra)) as I6. pose proof (isf_div _ _ _ _ I6 IAF ltac:(lra) ltac:(lra)) as I7.
  unfold over. cbv zeta. set (x := f32_div _ af) in *. clearbody x. 
  apply (scaled M x _ _ 29 HM I7); [|apply big_RN; [lia|exact BQt]|exact NQ|lra].
  split; [apply RN_nonneg; lra|apply RN_le_r; [exact eq_refl|apply (repr_Z 24 128 f32_prec f32_emax 2); lia|lra]].
Qed.
(** truncation *)
Lemma cast_near M (x : f32) n d : 1 <= M -> is_finite x = true -> (0 <= B2R x)%R -> 0 < d -> n <= M * d -> (Rabs (B2R x - IZR n / IZR d) <= / 8)%R ->
  exists z, cast M x = Ok z /\ 0 <= z <= M /\ 8 * (z * d - n) <= d /\ 8 * (n - z * d) < 9 * d.
Proof.
  intros HM F P Hd Hn E. apply Rabs_le_inv in E. assert (D1 : (0 < IZR d)%R) by (apply IZR_lt; lia). set (q := (IZR n / IZR d)%R) in *. assert (EQ : (IZR n = q * IZR d)%R) by (unfold q; field; lra).
  pose proof (Zfloor_lb (B2R x)) as L. pose proof (Zfloor_ub (B2R x)) as U. exists (Zfloor (B2R x)). set (z := Zfloor (B2R x)) in *.
  assert (Z0 : 0 <= z) by (unfold z; apply Zfloor_lub; exact P).
  assert (UB : (IZR z <= q + / 8)%R) by lra. assert (LB : (q < IZR z + 1 + / 8)%R) by lra.
  assert (I1 : 8 * (z * d - n) <= d). { apply le_IZR. rewrite mult_IZR, minus_IZR, mult_IZR, EQ. assert ((IZR z - q) * IZR d <= / 8 * IZR d)%R by (apply Rmult_le_compat_r; lra). lra. }
  assert (I2 : 8 * (n - z * d) < 9 * d). { apply lt_IZR. rewrite !mult_IZR, minus_IZR, mult_IZR, EQ. assert ((q - IZR z) * IZR d < 9 / 8 * IZR d)%R by (apply Rmult_lt_compat_r; lra). lra. }
  assert (ZM : z <= M) by nia. split; [|split; [lia|split; assumption]].
  unfold cast. rewrite (cast_ok 24 128 f32_emax _ _ _ F). cbv zeta. rewrite Ztrunc_floor by exact P. fold z. replace ((0 <=? z) && (z <=? M)) with true by lia. reflexivity.
Qed.
