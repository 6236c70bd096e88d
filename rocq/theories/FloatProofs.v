(** Lemmas about Float.v: values of the operations as correctly rounded real numbers. *)
From Coq Require Import ZArith Reals Lra Lia.
From Flocq Require Import IEEE754.BinarySingleNaN Core.Core.
From Verif Require Import Base Float.
Local Open Scope Z_scope.

Section Fmt.
Variables (prec emax : Z).
Context (Hp : Prec_gt_0 prec) (He : Prec_lt_emax prec emax).
Definition RN (x : R) : R := round radix2 (SpecFloat.fexp prec emax) ZnearestE x.
Instance fexp_valid : Valid_exp (SpecFloat.fexp prec emax).
Proof. apply (fexp_correct prec emax). exact Hp. Qed.
Definition repr (x : R) : Prop := generic_format radix2 (SpecFloat.fexp prec emax) x.
(** k / 2^e is a floating-point number if k has at most prec bits *)
Lemma repr_dyadic k e : Z.abs k < 2 ^ prec -> 0 <= e <= emax + prec - 3 -> repr (IZR k / IZR (2 ^ e))%R.
Proof.
  intros Hk Hx. apply (generic_format_FLT radix2 (3 - emax - prec) prec). exists (Float radix2 k (- e)).
  - unfold F2R. cbn [Fnum Fexp]. rewrite bpow_opp. unfold Rdiv. f_equal. f_equal. rewrite <- IZR_Zpower by lia. reflexivity.
  - cbn [Fnum]. exact Hk.
  - cbn [Fexp]. lia.
Qed.
Lemma repr_Z k : Z.abs k < 2 ^ prec -> repr (IZR k).
Proof.
  intros Hk. replace (IZR k) with (IZR k / IZR (2 ^ 0))%R by (change (2 ^ 0) with 1; field). apply repr_dyadic; [exact Hk|]. red in Hp, He. lia.
Qed.
Lemma RN_le x y : (x <= y)%R -> (RN x <= RN y)%R.
Proof. apply round_le; [exact fexp_valid|apply valid_rnd_N]. Qed.
Lemma RN_repr x : repr x -> RN x = x.
Proof. intros H. apply round_generic; [apply valid_rnd_N|exact H]. Qed.
Lemma RN_ge x y : repr x -> (x <= y)%R -> (x <= RN y)%R.
Proof. intros R H. rewrite <- (RN_repr x R). apply RN_le. exact H. Qed.
Lemma RN_le_r x y : repr y -> (x <= y)%R -> (RN x <= y)%R.
Proof. intros R H. rewrite <- (RN_repr y R). apply RN_le. exact H. Qed.
Lemma RN_0 : RN 0 = 0%R.
Proof. apply round_0. apply valid_rnd_N. Qed.
Lemma RN_abs M x : 0 <= M < 2 ^ prec -> (Rabs x <= IZR M)%R -> (Rabs (RN x) <= IZR M)%R.
Proof.
  intros HM H. apply Rabs_le. apply Rabs_le_inv in H. split.
  - rewrite <- opp_IZR. apply RN_ge; [apply repr_Z; lia|rewrite opp_IZR; lra].
  - apply RN_le_r; [apply repr_Z; lia|lra].
Qed.
Lemma no_overflow M x : 0 <= M < 2 ^ prec -> (Rabs x <= IZR M)%R -> Rlt_bool (Rabs (RN x)) (bpow radix2 emax) = true.
Proof.
  intros HM H. apply Rlt_bool_true. apply Rle_lt_trans with (IZR M); [apply RN_abs; assumption|]. red in Hp, He. rewrite <- IZR_Zpower by lia. apply IZR_lt. change (M < 2 ^ emax). apply Z.lt_trans with (2 ^ prec); [lia|]. apply Z.pow_lt_mono_r; lia.
Qed.
Lemma ofZ_ok n : Z.abs n < 2 ^ prec -> let z := binary_normalize prec emax Hp He mode_NE n 0 false in B2R z = IZR n /\ is_finite z = true.
Proof.
  intros Hn z. pose proof (binary_normalize_correct prec emax Hp He mode_NE n 0 false) as C. cbv zeta in C. fold z in C. cbn [round_mode] in C.
  replace (F2R {| Fnum := n; Fexp := 0 |}) with (IZR n) in C by (unfold F2R; cbn; ring). pose proof (no_overflow (Z.abs n) (IZR n) ltac:(lia)) as NO. unfold RN in NO. rewrite NO in C by (rewrite abs_IZR; lra).
  destruct C as (C & F & _). split; [|exact F]. rewrite C. apply RN_repr. apply repr_Z. exact Hn.
Qed.
Lemma div_ok (x y : binary_float prec emax) M : is_finite x = true -> B2R y <> 0%R -> 0 <= M < 2 ^ prec -> (Rabs (B2R x / B2R y) <= IZR M)%R ->
  B2R (Bdiv mode_NE x y) = RN (B2R x / B2R y) /\ is_finite (Bdiv mode_NE x y) = true.
Proof.
  intros Fx Ny HM HB. pose proof (Bdiv_correct prec emax Hp He mode_NE x y Ny) as C. cbn [round_mode] in C. pose proof (no_overflow M _ HM HB) as NO. unfold RN in NO. rewrite NO in C. destruct C as (C & F & _). rewrite F. auto.
Qed.
Lemma mul_ok (x y : binary_float prec emax) M : is_finite x = true -> is_finite y = true -> 0 <= M < 2 ^ prec -> (Rabs (B2R x * B2R y) <= IZR M)%R ->
  B2R (Bmult mode_NE x y) = RN (B2R x * B2R y) /\ is_finite (Bmult mode_NE x y) = true.
Proof.
  intros Fx Fy HM HB. pose proof (Bmult_correct prec emax Hp He mode_NE x y) as C. cbn [round_mode] in C. pose proof (no_overflow M _ HM HB) as NO. unfold RN in NO. rewrite NO in C. destruct C as (C & F & _). rewrite F, Fx, Fy. auto.
Qed.
Lemma add_ok (x y : binary_float prec emax) M : is_finite x = true -> is_finite y = true -> 0 <= M < 2 ^ prec -> (Rabs (B2R x + B2R y) <= IZR M)%R ->
  B2R (Bplus mode_NE x y) = RN (B2R x + B2R y) /\ is_finite (Bplus mode_NE x y) = true.
Proof.
  intros Fx Fy HM HB. pose proof (Bplus_correct prec emax Hp He mode_NE x y Fx Fy) as C. cbn [round_mode] in C. pose proof (no_overflow M _ HM HB) as NO. unfold RN in NO. rewrite NO in C. destruct C as (C & F & _). auto.
Qed.
Lemma sub_ok (x y : binary_float prec emax) M : is_finite x = true -> is_finite y = true -> 0 <= M < 2 ^ prec -> (Rabs (B2R x - B2R y) <= IZR M)%R ->
  B2R (Bminus mode_NE x y) = RN (B2R x - B2R y) /\ is_finite (Bminus mode_NE x y) = true.
Proof.
  intros Fx Fy HM HB. pose proof (Bminus_correct prec emax Hp He mode_NE x y Fx Fy) as C. cbn [round_mode] in C. pose proof (no_overflow M _ HM HB) as NO. unfold RN in NO. rewrite NO in C. destruct C as (C & F & _). auto.
Qed.
Lemma round_ok (x : binary_float prec emax) : B2R (Bnearbyint mode_NA x) = IZR (ZnearestA (B2R x)) /\ is_finite (Bnearbyint mode_NA x) = is_finite x.
Proof. pose proof (Bnearbyint_correct prec emax He mode_NA x) as (C & F & _). rewrite C, F. split; [apply round_FIX_IZR|reflexivity]. Qed.
Lemma trunc_ok (x : binary_float prec emax) : Btrunc x = Ztrunc (B2R x).
Proof. apply eq_IZR. rewrite (Btrunc_correct prec emax He x). apply round_FIX_IZR. Qed.
Lemma as_ok lo hi (x : binary_float prec emax) : is_finite x = true -> float_as prec emax lo hi x = clampz lo hi (Ztrunc (B2R x)).
Proof. intros F. destruct x; try discriminate; unfold float_as; rewrite trunc_ok; reflexivity. Qed.
Lemma cast_ok lo hi (x : binary_float prec emax) : is_finite x = true -> float_cast prec emax lo hi x = let t := Ztrunc (B2R x) in if (lo <=? t) && (t <=? hi) then Some t else None.
Proof. intros F. destruct x; try discriminate; unfold float_cast; rewrite trunc_ok; reflexivity. Qed.
Lemma RN_opp x : RN (- x) = (- RN x)%R.
Proof. unfold RN. apply round_NE_opp. Qed.
(** absolute error below a power of two *)
Lemma RN_err e x : 3 - emax <= e -> (Rabs x < bpow radix2 e)%R -> (Rabs (RN x - x) <= bpow radix2 (e - prec - 1))%R.
Proof.
  intros H0 Hx. destruct (Req_dec x 0) as [->|Nx]; [rewrite RN_0, Rminus_0_r, Rabs_R0; apply bpow_ge_0|].
  unfold RN. pose proof (error_le_half_ulp radix2 (SpecFloat.fexp prec emax) (fun x => negb (Z.even x)) x) as E. eapply Rle_trans; [exact E|].
  replace (bpow radix2 (e - prec - 1)) with (/ 2 * bpow radix2 (e - prec))%R.
  - apply Rmult_le_compat_l; [lra|]. rewrite ulp_neq_0 by exact Nx. apply bpow_le. unfold cexp, SpecFloat.fexp, SpecFloat.emin. pose proof (mag_le_bpow radix2 x e Nx Hx). lia.
  - change (/ 2)%R with (bpow radix2 (-1)). rewrite <- bpow_plus. f_equal. lia.
Qed.
End Fmt.
