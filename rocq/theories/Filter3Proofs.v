From Coq Require Import ZArith Bool Reals Lia Lra.
From Flocq Require Import Core Relative IEEE754.BinarySingleNaN.
From Verif Require Import Base BaseLemmas ListMore Color ColorProofs Float FloatProofs JpegQuant ColorF ColorFProofs GenImage Resize Thumb ThumbSpec ThumbProofs ThumbProofs2 ThumbProofs3 ThumbProofs4 ThumbProofs5 Sample SampleProofs SampleProofs2 SampleProofs4 SampleProofs5 InterpSpec InterpProofs Filter3 Filter3Spec.
Local Open Scope Z_scope.

(** ** sums and products of floats have no underflow *)
Definition grid (r : R) : Prop := exists m, r = (IZR m * bpow radix2 (-149))%R.
Lemma grid_repr r : repr 24 128 r -> grid r.
Proof.
  intros H. unfold repr in H. rewrite H. set (m := Ztrunc (scaled_mantissa radix2 (SpecFloat.fexp 24 128) r)). set (e := cexp radix2 (SpecFloat.fexp 24 128) r). assert (-149 <= e) by (unfold e, cexp, SpecFloat.fexp, SpecFloat.emin; lia).
  exists (m * 2 ^ (e + 149)). unfold F2R. cbn [Fnum Fexp]. rewrite mult_IZR. replace (IZR (2 ^ (e + 149))) with (bpow radix2 (e + 149)) by (symmetry; apply (IZR_Zpower radix2); lia). rewrite Rmult_assoc, <- bpow_plus. f_equal. f_equal. lia.
Qed.
Lemma grid_isf x r : isf x r -> grid r. Proof. intros H. apply grid_repr. exact (isf_repr x r H). Qed.
Lemma grid_add a b : grid a -> grid b -> grid (a + b). Proof. intros (m & ->) (n & ->). exists (m + n). rewrite plus_IZR. ring. Qed.
Lemma grid_mulZ a k : grid a -> grid (IZR k * a). Proof. intros (m & ->). exists (k * m). rewrite mult_IZR. ring. Qed.
Lemma RN_grid x : grid x -> (Rabs (RN32 x - x) <= uu * Rabs x)%R.
Proof.
  intros (m & E). destruct (Z.lt_ge_cases (Z.abs m) (2 ^ 24)) as [L|L].
  - rewrite RN_repr; [rewrite Rminus_diag_eq, Rabs_R0 by reflexivity; apply Rmult_le_pos; [destruct uu_val; lra|apply Rabs_pos]|]. unfold repr. apply (generic_format_FLT radix2 (-149) 24). exists (Float radix2 m (-149)); [exact E|exact L|cbn; lia].
  - unfold RN. assert (H : (Rabs (round radix2 (FLT_exp (-149) 24) ZnearestE x - x) <= / 2 * bpow radix2 (- (24) + 1) * Rabs x)%R).
    { apply relative_error_N_FLT; [reflexivity|]. rewrite E, Rabs_mult, (Rabs_pos_eq (bpow radix2 (-149))) by apply bpow_ge_0. rewrite <- abs_IZR. apply IZR_le in L. replace (IZR (2 ^ 24)) with (bpow radix2 24) in L by (symmetry; apply (IZR_Zpower radix2); lia). apply (Rmult_le_compat_r (bpow radix2 (-149))) in L; [|apply bpow_ge_0]. rewrite <- bpow_plus in L. eapply Rle_trans; [|exact L]. apply bpow_le. lia. }
    eapply Rle_trans; [exact H|]. right. f_equal. unfold uu. change (- (24) + 1) with (-23). cbn [bpow]. change (Z.pow_pos radix2 23) with 8388608. change (2 ^ 24) with 16777216. lra.
Qed.
Definition rsum' (l : list R) : R := fold_right Rplus 0%R l.
Definition abssum (l : list R) : R := fold_right (fun r s => Rabs r + s)%R 0%R l.
Lemma abssum_pos l : (0 <= abssum l)%R. Proof. induction l as [|r l IH]; cbn [abssum fold_right]; [lra|]. pose proof (Rabs_pos r). unfold abssum in IH. lra. Qed.
Lemma up1 n : (1 <= (1 + uu) ^ n)%R. Proof. apply pow_R1_Rle. destruct uu_val. lra. Qed.
Lemma up_bound n : (n <= 10)%nat -> ((1 + uu) ^ n <= 1 + INR n * (1.001 * uu))%R.
Proof.
  intros H. destruct uu_val as [U0 U1]. induction n as [|n IH]; [cbn; lra|]. specialize (IH ltac:(lia)). rewrite S_INR. cbn [pow]. assert (N : (INR n <= 10)%R) by (rewrite INR_IZR_INZ; apply IZR_le; lia). assert (N0 : (0 <= INR n)%R) by apply pos_INR.
  apply Rle_trans with ((1 + uu) * (1 + INR n * (1.001 * uu)))%R; [apply Rmult_le_compat_l; lra|]. assert (INR n * uu <= 10 * / 16700000)%R by (apply Rmult_le_compat; lra). assert (INR n * uu * (1.001 * uu) <= 10 * / 16700000 * (1.001 * uu))%R by (apply Rmult_le_compat_r; lra). lra.
Qed.
Lemma sum_err l : forall rs a A, Forall2 isf l rs -> isf a A -> ((Rabs A + abssum rs) * (1 + uu) ^ length l <= B100)%R ->
  exists R0, isf (fold_left f32_add l a) R0 /\ (Rabs (R0 - (A + rsum' rs)) <= ((1 + uu) ^ length l - 1) * (Rabs A + abssum rs))%R.
Proof.
  destruct uu_val as [U0 U1]. induction l as [|x l IH]; intros rs a A F HA HB; inversion F as [|? r ? rs' Hr F']; subst.
  - exists A. split; [exact HA|]. cbn. rewrite Rplus_0_r, Rminus_diag_eq, Rabs_R0 by reflexivity. lra.
  - cbn [fold_left abssum fold_right rsum' length] in *. fold (abssum rs') in *. fold (rsum' rs'). set (q := ((1 + uu) ^ length l)%R) in *. change ((1 + uu) ^ S (length l))%R with ((1 + uu) * q)%R in *. assert (Q : (1 <= q)%R) by apply up1. pose proof (abssum_pos rs') as P. pose proof (Rabs_pos A) as PA. pose proof (Rabs_pos r) as PR. pose proof (Rabs_triang A r) as TR.
    assert (PQ : (0 <= (Rabs A + Rabs r) * uu)%R) by (apply Rmult_le_pos; lra).
    assert (BQ : ((Rabs A + (Rabs r + abssum rs')) * (1 * 1) <= (Rabs A + (Rabs r + abssum rs')) * ((1 + uu) * q))%R) by (apply Rmult_le_compat_l; [lra|apply Rmult_le_compat; lra]).
    assert (H1 : isf (f32_add a x) (RN32 (A + r))) by (apply fs_add; [exact HA|exact Hr|lra]). set (R1 := RN32 (A + r)) in *. pose proof (RN_grid (A + r) (grid_add _ _ (grid_isf _ _ HA) (grid_isf _ _ Hr))) as E1. fold R1 in E1. assert (UA : (uu * Rabs (A + r) <= uu * (Rabs A + Rabs r))%R) by (apply Rmult_le_compat_l; lra).
    assert (B1 : (Rabs R1 <= (1 + uu) * (Rabs A + Rabs r))%R). { pose proof (Rabs_triang (R1 - (A + r)) (A + r)) as T. replace (R1 - (A + r) + (A + r))%R with R1 in T by ring. lra. }
    destruct (IH rs' _ _ F' H1) as (R0 & I0 & E0). { eapply Rle_trans; [|exact HB]. apply Rle_trans with ((1 + uu) * (Rabs A + (Rabs r + abssum rs')) * q)%R; [apply Rmult_le_compat_r; [lra|]|right; ring]. assert (0 <= uu * abssum rs')%R by (apply Rmult_le_pos; lra). lra. }
    exists R0. split; [exact I0|]. pose proof (Rabs_triang (R0 - (R1 + rsum' rs')) (R1 - (A + r))) as T. replace (R0 - (R1 + rsum' rs') + (R1 - (A + r)))%R with (R0 - (A + (r + rsum' rs')))%R in T by ring.
    assert (M1 : ((q - 1) * (Rabs R1 + abssum rs') <= (q - 1) * ((1 + uu) * (Rabs A + Rabs r) + abssum rs'))%R) by (apply Rmult_le_compat_l; lra). assert (M2 : (0 <= uu * q * abssum rs')%R) by (apply Rmult_le_pos; [apply Rmult_le_pos; lra|lra]). 
    replace (((1 + uu) * q - 1) * (Rabs A + (Rabs r + abssum rs')))%R with ((q - 1) * ((1 + uu) * (Rabs A + Rabs r) + abssum rs') + uu * (Rabs A + Rabs r) + uu * q * abssum rs')%R by ring. lra.
Qed.
(** products of samples with kernel entries *)
Lemma prods_ok vs zs ks kr : Forall2 (fun v z => isf v (IZR z) /\ 0 <= z <= 65535) vs zs -> Forall2 isf ks kr -> Forall (fun k => Rabs k <= IZR (2 ^ 70))%R kr -> length vs = length ks ->
  exists rs, Forall2 isf (map (fun '(v, w) => f32_mul v w) (combine vs ks)) rs /\ let ps := map (fun '(z, k) => IZR z * k)%R (combine zs kr) in length rs = length vs /\ (abssum rs <= (1 + uu) * abssum ps)%R /\ (Rabs (rsum' rs - rsum' ps) <= uu * abssum ps)%R /\ (abssum ps <= IZR (Z.of_nat (length vs)) * IZR (65535 * 2 ^ 70))%R.
Proof.
  intros FV. revert ks kr. destruct uu_val as [U0 U1]. induction FV as [|v z vs zs (Hv & Hz) FV IH]; intros ks kr FK BK HL.
  - destruct ks; [|discriminate HL]. exists []. split; [constructor|]. cbn. rewrite Rminus_0_r, Rabs_R0. repeat split; lra.
  - inversion FK as [|k r ks' kr' Hk FK']; subst; [discriminate HL|]. apply Forall_cons_iff in BK. destruct BK as [Bk BK]. cbn [length] in HL. injection HL as HL. destruct (IH ks' kr' FK' BK HL) as (rs & FR & LR & H1 & H2 & H3). cbn [combine map].
    assert (PB : (Rabs (IZR z * r) <= IZR (65535 * 2 ^ 70))%R). { rewrite Rabs_mult, mult_IZR. rewrite (Rabs_pos_eq (IZR z)) by (apply IZR_le; lia). apply Rmult_le_compat; [apply IZR_le; lia|apply Rabs_pos|apply IZR_le; lia|exact Bk]. }
    assert (Hp : isf (f32_mul v k) (RN32 (IZR z * r))). { apply fs_mul; [exact Hv|exact Hk|]. eapply Rle_trans; [exact PB|]. unfold B100. apply IZR_le. lia. }
    pose proof (RN_grid (IZR z * r) (grid_mulZ _ _ (grid_isf _ _ Hk))) as E. set (p := (IZR z * r)%R) in *. exists (RN32 p :: rs). split; [constructor; assumption|]. cbn [length abssum rsum' fold_right]. set (ps := map (fun '(z, k) => (IZR z * k)%R) (combine zs kr')) in *. fold (abssum rs) (abssum ps) (rsum' rs) (rsum' ps).
    split; [rewrite LR; reflexivity|]. pose proof (Rabs_triang (RN32 p - p) p) as T. replace (RN32 p - p + p)%R with (RN32 p) in T by ring. split; [lra|]. split.
    + replace (RN32 p + rsum' rs - (p + rsum' ps))%R with (RN32 p - p + (rsum' rs - rsum' ps))%R by ring. pose proof (Rabs_triang (RN32 p - p) (rsum' rs - rsum' ps)). lra.
    + rewrite Nat2Z.inj_succ, succ_IZR. lra.
Qed.
Lemma dot_err vs zs ks kr : Forall2 (fun v z => isf v (IZR z) /\ 0 <= z <= 65535) vs zs -> Forall2 isf ks kr -> Forall (fun k => Rabs k <= IZR (2 ^ 70))%R kr -> length vs = length ks -> (length ks <= 9)%nat ->
  let ps := map (fun '(z, k) => IZR z * k)%R (combine zs kr) in exists T, isf (dot vs ks) T /\ (Rabs (T - rsum' ps) <= 10.02 * uu * abssum ps)%R.
Proof.
  intros FV FK BK HL H9 ps. destruct uu_val as [U0 U1]. destruct (prods_ok vs zs ks kr FV FK BK HL) as (rs & FR & LR & H1 & H2 & H3). fold ps in H1, H2, H3. set (l := map (fun '(v, w) => f32_mul v w) (combine vs ks)) in *. assert (LL : length l = length ks) by (unfold l; rewrite map_length, combine_length, HL; apply Nat.min_id).
  assert (U9 : ((1 + uu) ^ length l <= 1 + 9.01 * uu)%R). { eapply Rle_trans; [apply up_bound; lia|]. assert (INR (length l) <= 9)%R by (rewrite INR_IZR_INZ; apply IZR_le; lia). assert (INR (length l) * (1.001 * uu) <= 9 * (1.001 * uu))%R by (apply Rmult_le_compat_r; lra). lra. }
  pose proof (up1 (length l)) as U10. pose proof (abssum_pos ps) as P0. pose proof (abssum_pos rs) as P1.
  assert (A9 : (abssum ps <= 9 * IZR (65535 * 2 ^ 70))%R). { eapply Rle_trans; [exact H3|]. apply Rmult_le_compat_r; [apply IZR_le; lia|apply IZR_le; lia]. }
  assert (US : (uu * abssum ps <= / 16700000 * abssum ps)%R) by (apply Rmult_le_compat_r; lra).
  destruct (sum_err l rs f32_zero 0 FR isf_zero) as (T & IT & ET).
  { rewrite Rabs_R0, Rplus_0_l. apply Rle_trans with (2 * (9 * IZR (65535 * 2 ^ 70)) * 2)%R; [apply Rmult_le_compat; lra|]. unfold B100. rewrite <- !mult_IZR. apply IZR_le. lia. }
  exists T. split; [exact IT|]. rewrite Rabs_R0, !Rplus_0_l in ET. pose proof (Rabs_triang (T - rsum' rs) (rsum' rs - rsum' ps)) as TR. replace (T - rsum' rs + (rsum' rs - rsum' ps))%R with (T - rsum' ps)%R in TR by ring.
  assert (M : (((1 + uu) ^ length l - 1) * abssum rs <= 9.01 * uu * (1.001 * abssum ps))%R) by (apply Rmult_le_compat; lra). assert (0 <= uu * abssum ps)%R by (apply Rmult_le_pos; lra). lra.
Qed.
Lemma fsum_err ks kr : Forall2 isf ks kr -> Forall (fun k => Rabs k <= IZR (2 ^ 70))%R kr -> (length ks <= 9)%nat -> exists R0, isf (fsum ks) R0 /\ (Rabs (R0 - rsum' kr) <= 10 * uu * abssum kr)%R.
Proof.
  intros FK BK H9. destruct uu_val as [U0 U1]. pose proof (f2_length _ _ _ FK) as LK. pose proof (abssum_pos kr) as P.
  assert (U9 : ((1 + uu) ^ length ks <= 1 + 9.01 * uu)%R). { eapply Rle_trans; [apply up_bound; lia|]. assert (INR (length ks) <= 9)%R by (rewrite INR_IZR_INZ; apply IZR_le; lia). assert (INR (length ks) * (1.001 * uu) <= 9 * (1.001 * uu))%R by (apply Rmult_le_compat_r; lra). lra. }
  pose proof (up1 (length ks)) as U10.
  assert (A : (abssum kr <= IZR (Z.of_nat (length kr)) * IZR (2 ^ 70))%R). { clear - BK. induction BK as [|k kr Hk BK IH]; [cbn; lra|]. cbn [abssum fold_right length]. fold (abssum kr). rewrite Nat2Z.inj_succ, succ_IZR. lra. }
  assert (A9 : (abssum kr <= 9 * IZR (2 ^ 70))%R) by (eapply Rle_trans; [exact A|]; apply Rmult_le_compat_r; apply IZR_le; lia).
  destruct (sum_err ks kr f32_zero 0 FK isf_zero) as (R0 & I0 & E0). { rewrite Rabs_R0, Rplus_0_l. apply Rle_trans with (9 * IZR (2 ^ 70) * 2)%R; [apply Rmult_le_compat; lra|]. unfold B100. rewrite <- !mult_IZR. apply IZR_le. lia. }
  exists R0. split; [exact I0|]. rewrite Rabs_R0, !Rplus_0_l in E0. assert (M : (((1 + uu) ^ length ks - 1) * abssum kr <= 10 * uu * abssum kr)%R) by (apply Rmult_le_compat_r; lra). lra.
Qed.

(** ** the division and the cut *)
Lemma limited_range mx q : (0 <= mx)%R -> (0 <= limited 0 mx q <= mx)%R.
Proof. intros H. unfold limited. split; [apply Rmin_glb; [exact H|apply Rmax_l]|apply Rmin_l]. Qed.
Lemma limited_lip mx a b e : (0 <= mx)%R -> (Rabs (a - b) <= e)%R -> (Rabs (limited 0 mx a - limited 0 mx b) <= e)%R.
Proof.
  intros M H. apply Rabs_le_inv in H. unfold limited, Rmin, Rmax. destruct (Rle_dec 0 a), (Rle_dec 0 b); repeat match goal with |- context [Rle_dec ?u ?v] => destruct (Rle_dec u v) end; apply Rabs_le; lra.
Qed.
Lemma cut_div t x y r s : isf x r -> isf y s -> s <> 0%R -> let z := Zfloor (limited 0 (IZR (smax t)) (RN32 (r / s))) in cut t (f32_div x y) = Ok z /\ is_sample t z.
Proof.
  intros HX HY N z. pose proof (smax_range t) as SM. pose proof (of_Z_ok (smax t) ltac:(lia)) as HM. assert (M1 : (0 <= IZR (smax t))%R) by (apply IZR_le; lia). pose proof (limited_range _ (RN32 (r / s)) M1) as LR.
  assert (G : forall c, isf c (limited 0 (IZR (smax t)) (RN32 (r / s))) -> fclamp (f32_div x y) f32_zero (f32_of_Z (smax t)) = c -> cut t (f32_div x y) = Ok z /\ is_sample t z).
  { intros c HC E. unfold cut. rewrite E. apply (cast_floor (smax t) c _ ltac:(lia) HC). lra. }
  destruct HX as (E1 & F1). destruct HY as (E2 & F2). pose proof (Bdiv_correct 24 128 f32_prec f32_emax mode_NE x y) as C. cbn [round_mode] in C. rewrite E1, E2 in C. specialize (C N). fold (RN 24 128 (r / s)) in C. change (round radix2 (SpecFloat.fexp 24 128) (round_mode mode_NE) (r / s)) with (RN32 (r / s)) in C.
  destruct (Rlt_bool_spec (Rabs (RN32 (r / s))) (bpow radix2 128)) as [L|L].
  - destruct C as (C & F & _). apply (G (fclamp (f32_div x y) f32_zero (f32_of_Z (smax t)))); [|reflexivity]. unfold limited. apply fclamp_ok; [split; [exact C|unfold f32_div; rewrite F; exact F1]|exact HM|exact M1].
  - change (binary_overflow 24 128 mode_NE (xorb (Bsign x) (Bsign y))) with (SpecFloat.S754_infinity (xorb (Bsign x) (Bsign y))) in C.
    assert (BG : (IZR (smax t) < bpow radix2 128)%R). { apply Rlt_trans with (IZR (2 ^ 20)); [apply IZR_lt; lia|]. replace (IZR (2 ^ 20)) with (bpow radix2 20) by (symmetry; apply (IZR_Zpower radix2); lia). apply bpow_lt. lia. }
    assert (INF : Bdiv mode_NE x y = B754_infinity (xorb (Bsign x) (Bsign y))). { destruct (Bdiv mode_NE x y); try discriminate C. cbn in C. injection C as ->. reflexivity. }
    assert (SG : (xorb (Bsign x) (Bsign y) = true -> r / s <= 0)%R /\ (xorb (Bsign x) (Bsign y) = false -> 0 <= r / s)%R).
    { assert (SX : (Bsign x = true -> r <= 0)%R /\ (Bsign x = false -> 0 <= r)%R). { subst r. destruct x as [b|b| |b mm ee p]; try discriminate F1; cbn [Bsign B2R]; [split; lra|]. split; intros ->; [apply F2R_le_0; cbn; lia|apply F2R_ge_0; cbn; lia]. }
      assert (SY : (Bsign y = true -> s < 0)%R /\ (Bsign y = false -> 0 < s)%R). { subst s. destruct y as [b|b| |b mm ee p]; try discriminate F2; cbn [Bsign B2R] in *; [lra|]. split; intros ->; [apply F2R_lt_0; cbn; lia|apply F2R_gt_0; cbn; lia]. }
      unfold Rdiv. destruct (Bsign x), (Bsign y); cbn [xorb]; split; intros H; try discriminate H; destruct SX as [X1 X2]; destruct SY as [Y1 Y2]; try specialize (X1 eq_refl); try specialize (X2 eq_refl); try specialize (Y1 eq_refl); try specialize (Y2 eq_refl).
      - assert (/ s < 0)%R by (apply Rinv_lt_0_compat; lra). replace (r * / s)%R with ((- r) * (- / s))%R by ring. apply Rmult_le_pos; lra.
      - assert (0 < / s)%R by (apply Rinv_0_lt_compat; lra). assert (0 <= (- r) * / s)%R by (apply Rmult_le_pos; lra). lra.
      - assert (/ s < 0)%R by (apply Rinv_lt_0_compat; lra). assert (0 <= r * - / s)%R by (apply Rmult_le_pos; lra). lra.
      - assert (0 < / s)%R by (apply Rinv_0_lt_compat; lra). apply Rmult_le_pos; lra. }
    unfold f32_div in G |- *. rewrite INF in G |- *. destruct (xorb (Bsign x) (Bsign y)).
    + apply (G f32_zero); [|reflexivity]. assert (RNG : (RN32 (r / s) <= 0)%R) by (apply RN_le_r; [exact eq_refl|apply (repr_Z 24 128 f32_prec f32_emax 0); lia|apply SG; reflexivity]). unfold limited. rewrite Rmax_left, Rmin_right by lra. exact isf_zero.
    + apply (G (f32_of_Z (smax t))). * assert (RNG : (0 <= RN32 (r / s))%R) by (apply RN_nonneg; apply SG; reflexivity). rewrite Rabs_pos_eq in L by exact RNG. unfold limited. rewrite Rmax_right, Rmin_left by lra. exact HM.
      * unfold fclamp. destruct HM as (_ & FM). destruct (f32_of_Z (smax t)) as [b|b| |b mm ee p]; try discriminate FM; reflexivity.
Qed.
(** the value cut down to an integer is the filtered value rounded down, up to the error of the sum and the division *)
Lemma cut_near mx T T' A D : (0 <= mx)%R -> D <> 0%R -> (Rabs T <= A)%R -> (Rabs (T' - T) <= 10.02 * uu * A)%R -> let E := (12 * uu * A / Rabs D)%R in let z := Zfloor (limited 0 mx (RN32 (T' / D))) in (- E <= limited 0 mx (T / D) - IZR z < 1 + E)%R.
Proof.
  intros M0 ND TA TE E z. destruct uu_val as [U0 U1]. destruct eta_val as [E0 E1]. assert (DP : (0 < Rabs D)%R) by (apply Rabs_pos_lt; exact ND). assert (DI : (0 < / Rabs D)%R) by (apply Rinv_0_lt_compat; exact DP). pose proof (Rabs_pos T) as TP.
  set (e := (A * / Rabs D)%R). assert (EP : (0 <= e)%R) by (apply Rmult_le_pos; lra). assert (EE : E = (12 * uu * e)%R) by (unfold E, e; unfold Rdiv; ring). rewrite EE. clear EE E. set (q := (T / D)%R). set (q' := (T' / D)%R) in *.
  assert (Q1 : (Rabs (q' - q) <= 10.02 * uu * e)%R). { unfold q', q, e. replace (T' / D - T / D)%R with ((T' - T) * / D)%R by (unfold Rdiv; ring). rewrite Rabs_mult, Rabs_inv. replace (10.02 * uu * (A * / Rabs D))%R with (10.02 * uu * A * / Rabs D)%R by ring. apply Rmult_le_compat_r; lra. }
  assert (Q2 : (Rabs q <= e)%R). { unfold q, e, Rdiv. rewrite Rabs_mult, Rabs_inv. apply Rmult_le_compat_r; lra. }
  assert (UE : (0 <= uu * e)%R) by (apply Rmult_le_pos; lra). assert (UE' : (uu * e <= / 16700000 * e)%R) by (apply Rmult_le_compat_r; lra).
  assert (Q3 : (Rabs q' <= 1.001 * e)%R). { pose proof (Rabs_triang (q' - q) q) as T1. replace (q' - q + q)%R with q' in T1 by ring. lra. }
  pose proof (limited_range mx (RN32 q') M0) as LR. pose proof (Zfloor_lb (limited 0 mx (RN32 q'))) as Z1. pose proof (Zfloor_ub (limited 0 mx (RN32 q'))) as Z2. fold z in Z1, Z2.
  destruct (Rlt_or_le (Rabs q') (/ 2)) as [L|L].
  - assert (RA : (Rabs (RN32 q') <= / 2)%R) by (apply RN_absr; [exact (isf_repr _ _ half_ok)|lra]). assert (Z0 : z = 0). { unfold z. apply Zfloor_imp. split; [exact (proj1 LR)|]. apply Rabs_le_inv in RA. unfold limited in *. eapply Rle_lt_trans; [apply Rmin_r|]. apply Rmax_lub_lt; cbn; lra. }
    rewrite Z0. pose proof (limited_range mx q M0). split; [lra|]. apply Rabs_le_inv in Q1. apply Rabs_def2 in L. unfold limited. eapply Rle_lt_trans; [apply Rplus_le_compat_r; apply Rmin_r|]. apply Rle_lt_trans with (Rmax 0 (/ 2 + 10.02 * (uu * e)))%R; [unfold Rminus; rewrite Ropp_0, Rplus_0_r; apply Rle_max_compat_l; lra|]. apply Rmax_lub_lt; lra.
  - pose proof (RN_aes q') as RE. assert (ET : (eta <= 0.001 * uu * Rabs q')%R). { assert (P32 : (1000 <= IZR (2 ^ 32))%R) by (apply IZR_le; lia). assert (eta * 1000 <= eta * IZR (2 ^ 32))%R by (apply Rmult_le_compat_l; lra). assert (uu * / 2 <= uu * Rabs q')%R by (apply Rmult_le_compat_l; lra). lra. }
    assert (UQ : (uu * Rabs q' <= uu * (1.001 * e))%R) by (apply Rmult_le_compat_l; lra).
    assert (D1 : (Rabs (q - RN32 q') <= 12 * uu * e)%R). { pose proof (Rabs_triang (RN32 q' - q') (q' - q)) as T1. replace (RN32 q' - q' + (q' - q))%R with (RN32 q' - q)%R in T1 by ring. rewrite (Rabs_minus_sym q). lra. }
    pose proof (limited_lip mx q (RN32 q') _ M0 D1) as LL. apply Rabs_le_inv in LL. lra.
Qed.

(** ** one pixel *)
Lemma acc_zip {A} (g : A -> res (list f32)) (c : nat -> A -> f32) : forall (ws : list f32) (l : list A) t0 t1 t2 t3, length ws = length l -> (forall a, In a l -> g a = Ok [c 0%nat a; c 1%nat a; c 2%nat a; c 3%nat a]) ->
  let r i t := fold_left f32_add (map (fun '(v, w) => f32_mul v w) (combine (map (c i) l) ws)) t in
  foldM (fun st '(w, a) => p <- g a ;; Ok (acc4 st p w)) (combine ws l) [t0; t1; t2; t3] = Ok [r 0%nat t0; r 1%nat t1; r 2%nat t2; r 3%nat t3].
Proof.
  induction ws as [|w ws IH]; intros [|a l] t0 t1 t2 t3 HL HG r; try discriminate HL; [reflexivity|]. unfold r. clear r. cbn [combine foldM map]. rewrite (HG a) by (left; reflexivity). cbn [bind]. rewrite acc4_eq. rewrite IH; [reflexivity|injection HL as HL; exact HL|intros b Hb; apply HG; right; exact Hb].
Qed.
Definition fwithin (kern : list f32) : Prop := length kern = 9%nat /\ Forall (within (- IZR (2 ^ 70)) (IZR (2 ^ 70))) kern.
Lemma fwithin_isf kern : fwithin kern -> Forall2 isf kern (map B2R kern) /\ Forall (fun k => Rabs k <= IZR (2 ^ 70))%R (map B2R kern).
Proof.
  intros (_ & F). induction F as [|k kern (HF & HB) F (IH1 & IH2)]; [split; constructor|]. cbn [map]. split; constructor; try assumption; [split; [reflexivity|exact HF]|apply Rabs_le; exact HB].
Qed.
(** the divisor: the computed sum of the kernel, or 1 *)
Definition divisor (kern : list f32) (D : R) : Prop :=
  let k j := B2R (nth j kern f32_zero) in let s := sum9 k in let e := (10 * uu * sum9 (fun j => Rabs (k j)))%R in
  (D <> 0 /\ ((Rabs (D - s) <= e) \/ (D = 1 /\ Rabs s <= e)))%R.
Lemma sum_ok kern : fwithin kern -> exists D, isf (kernel_sum kern) D /\ divisor kern D.
Proof.
  intros HK. destruct (fwithin_isf kern HK) as (FI & FB). destruct HK as (L9 & _). destruct (fsum_err kern _ FI FB ltac:(lia)) as (R0 & I0 & E0).
  assert (S9 : rsum' (map B2R kern) = sum9 (fun j => B2R (nth j kern f32_zero)) /\ abssum (map B2R kern) = sum9 (fun j => Rabs (B2R (nth j kern f32_zero)))). { destruct kern as [|k0 [|k1 [|k2 [|k3 [|k4 [|k5 [|k6 [|k7 [|k8 [|]]]]]]]]]]; try discriminate L9. unfold rsum', abssum, sum9. cbn [map fold_right nth]. split; ring. }
  destruct S9 as (S1 & S2). rewrite S1, S2 in E0. unfold kernel_sum. cbv zeta.
  assert (EQ : f32_eq (fsum kern) f32_zero = Req_bool R0 0). { unfold f32_eq. rewrite Beqb_correct by (try exact (proj2 I0); reflexivity). rewrite (proj1 I0), (proj1 isf_zero). reflexivity. }
  rewrite EQ. destruct (Req_bool_spec R0 0) as [Z|Z].
  - exists 1%R. split; [exact isf_one|]. split; [lra|]. right. split; [reflexivity|]. rewrite Z, Rminus_0_l, Rabs_Ropp in E0. exact E0.
  - exists R0. split; [exact I0|]. split; [exact Z|]. left. exact E0.
Qed.
Lemma floats_at t k im c p : img_ok t k im -> inside im c -> get_pixel im (fst c) (snd c) = Ok p -> floats4 t p = map (fun i => f32_of_Z (chan_at t im i c)) [0; 1; 2; 3]%nat.
Proof.
  intros HI HC E. destruct (pixel_at t k im c HI HC) as (q & E' & EP & KP). rewrite E in E'. apply Ok_inj in E'. subst q. unfold floats4. rewrite (proj1 (channels4_ok t k p KP)). unfold chan_at. rewrite EP. reflexivity.
Qed.
(** the offsets, in the order of the kernel *)
Lemma near_inside im x y a : interior im x y -> In a taps3 -> inside im (x + fst a, y + snd a).
Proof. intros (HX & HY) HA. unfold inside. cbn [fst snd]. cbn in HA. repeat (destruct HA as [<-|HA]; [cbn [fst snd]; lia|]). destruct HA. Qed.
Definition nine (t : sty) (im : img (list Z)) (i : nat) (x y : Z) : list Z := map (fun a => chan_at t im i (x + fst a, y + snd a)) taps3.
Lemma nine_eq t im i x y : nine t im i x y = map (neighbour t im i x y) [0; 1; 2; 3; 4; 5; 6; 7; 8]%nat.
Proof.
  unfold nine, taps3, neighbour. cbn [map fst snd]. repeat match goal with |- _ :: _ = _ :: _ => apply f_equal2 end; try reflexivity; apply (f_equal (chan_at t im i)); apply f_equal2; lia.
Qed.
Lemma nine_sum t im i x y kern : length kern = 9%nat -> let ps := map (fun '(z, k) => IZR z * k)%R (combine (nine t im i x y) (map B2R kern)) in (forall j, 0 <= neighbour t im i x y j) ->
  rsum' ps = conv (fun j => B2R (nth j kern f32_zero)) t im i x y /\ abssum ps = conv_abs (fun j => B2R (nth j kern f32_zero)) t im i x y.
Proof.
  intros L9 ps HN. unfold ps. rewrite nine_eq. destruct kern as [|k0 [|k1 [|k2 [|k3 [|k4 [|k5 [|k6 [|k7 [|k8 [|]]]]]]]]]]; try discriminate L9. unfold conv, conv_abs, rsum', abssum, sum9. cbn [map combine fold_right nth]. split; [ring|].
  assert (AB : forall j k, (Rabs (IZR (neighbour t im i x y j) * k) = Rabs k * IZR (neighbour t im i x y j))%R) by (intros j k; rewrite Rabs_mult, (Rabs_pos_eq (IZR _)) by (apply IZR_le; apply HN); ring). rewrite !AB. ring.
Qed.
Lemma neighbour_sample t k im i x y j : img_ok t k im -> interior im x y -> (j < 9)%nat -> is_sample t (neighbour t im i x y j).
Proof. intros HI (HX & HY) HJ. unfold neighbour. apply (chan_sample t k im i _ HI). unfold inside. cbn [fst snd]. lia. Qed.
Lemma filter_pixel_eq t k im kern x y : img_ok t k im -> length kern = 9%nat -> interior im x y ->
  filter_pixel t im kern x y = map_res (fun v => cut t (f32_div v (kernel_sum kern))) (map (fun i => dot (map f32_of_Z (nine t im i x y)) kern) [0; 1; 2; 3]%nat).
Proof.
  intros HI L9 HN. unfold filter_pixel. set (g := fun a : Z * Z => p <- get_pixel im (x + fst a) (y + snd a) ;; Ok (floats4 t p)). set (c := fun i (a : Z * Z) => f32_of_Z (chan_at t im i (x + fst a, y + snd a))).
  rewrite (foldM_ext _ (fun s '(w, a) => p <- g a ;; Ok (acc4 s p w))) by (intros s (w & (a & b)) _; unfold g; cbn [fst snd]; destruct (get_pixel im (x + a) (y + b)); reflexivity).
  unfold zero4. rewrite (acc_zip g c kern taps3); [|rewrite L9; reflexivity|].
  - cbn [bind]. assert (M : forall i, map (c i) taps3 = map f32_of_Z (nine t im i x y)) by (intros i; unfold nine; rewrite map_map; reflexivity). rewrite !M. reflexivity.
  - intros a HA. pose proof (near_inside im x y a HN HA) as IN. destruct (pixel_at t k im _ HI IN) as (p & E & _). cbn [fst snd] in E. unfold g. rewrite E. cbn [bind]. rewrite (floats_at t k im (x + fst a, y + snd a) p HI IN E). reflexivity.
Qed.
Lemma floats_isf t k im i x y : img_ok t k im -> interior im x y -> Forall2 (fun v z => isf v (IZR z) /\ 0 <= z <= 65535) (map f32_of_Z (nine t im i x y)) (nine t im i x y).
Proof.
  intros HI HN. assert (F : Forall (is_sample t) (nine t im i x y)). { unfold nine. apply Forall_forall. intros z Hz. apply in_map_iff in Hz. destruct Hz as (a & <- & HA). apply (chan_sample t k im i _ HI). apply near_inside; assumption. }
  induction F as [|z l Hz F IH]; [constructor|]. cbn [map]. constructor; [|exact IH]. pose proof (smax_range t). unfold is_sample in Hz. split; [apply of_Z_ok; lia|lia].
Qed.
(** what one channel is *)
Definition filtered (t : sty) (im : img (list Z)) (kern : list f32) (D : R) (i : nat) (x y z : Z) : Prop :=
  let k j := B2R (nth j kern f32_zero) in let E := (12 * uu * conv_abs k t im i x y / Rabs D)%R in
  (- E <= limited 0 (IZR (smax t)) (conv k t im i x y / D) - IZR z < 1 + E)%R.
Lemma filter_pixel_ok t k im kern x y D : img_ok t k im -> fwithin kern -> isf (kernel_sum kern) D -> D <> 0%R -> interior im x y ->
  exists c, filter_pixel t im kern x y = Ok c /\ Forall2 (fun i z => is_sample t z /\ filtered t im kern D i x y z) [0; 1; 2; 3]%nat c.
Proof.
  intros HI HK ID ND HN. rewrite (filter_pixel_eq t k) by (try assumption; apply HK). destruct (fwithin_isf kern HK) as (FI & FB). pose proof (smax_range t) as SM.
  assert (G : forall i, exists z, cut t (f32_div (dot (map f32_of_Z (nine t im i x y)) kern) (kernel_sum kern)) = Ok z /\ is_sample t z /\ filtered t im kern D i x y z).
  { intros i. destruct (dot_err _ _ kern _ (floats_isf t k im i x y HI HN) FI FB) as (T & IT & ET); [rewrite map_length; unfold nine; rewrite map_length, (proj1 HK); reflexivity|rewrite (proj1 HK); lia|].
    destruct (cut_div t _ _ T D IT ID ND) as (EC & SC). cbv zeta in EC, SC. eexists. split; [exact EC|]. split; [exact SC|]. unfold filtered. cbv zeta.
    assert (HP : forall j, (j < 9)%nat -> 0 <= neighbour t im i x y j) by (intros j Hj; pose proof (neighbour_sample t k im i x y j HI HN Hj) as N; unfold is_sample in N; lia).
    destruct (nine_sum t im i x y kern (proj1 HK)) as (N1 & N2). { intros j. unfold neighbour, chan_at. destruct (pixel im _ _) as [p|] eqn:EP; [|lia]. assert (KP : is_pixel t k p). { unfold pixel in EP. destruct (inb im _ _); [|discriminate EP]. apply zget_In in EP. exact (proj1 (Forall_forall _ _) (proj2 HI) _ EP). } pose proof (proj2 (channels4_ok t k p KP) i) as N. unfold is_sample in N. lia. }
    set (ps := map (fun '(z, k0) => (IZR z * k0)%R) (combine (nine t im i x y) (map B2R kern))) in *. assert (TA : (Rabs (rsum' ps) <= abssum ps)%R). { clearbody ps. clear. induction ps as [|r l IH]; [cbn; rewrite Rabs_R0; lra|]. cbn [rsum' abssum fold_right]. fold (rsum' l) (abssum l). pose proof (Rabs_triang r (rsum' l)). lra. }
    rewrite N1, N2 in TA. rewrite N1, N2 in ET. apply (cut_near (IZR (smax t)) _ T _ D); [apply IZR_le; lia|exact ND|exact TA|exact ET]. }
  destruct (G 0%nat) as (z0 & G0 & P0). destruct (G 1%nat) as (z1 & G1 & P1). destruct (G 2%nat) as (z2 & G2 & P2). destruct (G 3%nat) as (z3 & G3 & P3). exists [z0; z1; z2; z3]. cbn [map]. split; [apply map_res4; assumption|]. repeat (constructor; [assumption|]). constructor.
Qed.

(** ** the image *)
Lemma In_pixel {P} (im : img P) p : wf im -> In p (px im) -> exists x y, 0 <= x < iw im /\ 0 <= y < ih im /\ pixel im x y = Some p.
Proof.
  intros (W & H & L) HP. apply In_zget in HP. destruct HP as (i & E). pose proof (zget_range _ _ _ E) as R. rewrite L in R. assert (0 < iw im) by (destruct (Z.eq_dec (iw im) 0) as [Z|Z]; [rewrite Z in R; lia|lia]). pose proof (Z.div_mod i (iw im) ltac:(lia)) as DM. pose proof (Z.mod_pos_bound i (iw im) ltac:(lia)) as MB.
  assert (D : 0 <= i / iw im < ih im) by (split; [apply Z.div_pos; lia|apply Z.div_lt_upper_bound; lia]). exists (i mod iw im), (i / iw im). split; [exact MB|]. split; [exact D|]. unfold pixel. replace (inb _ _ _) with true by (unfold inb; lia). rewrite <- E. f_equal. lia.
Qed.
Definition inner (w h : Z) : list (Z * Z) := flat_map (fun y => map (fun x => (x, y)) (zrange 1 (w - 2))) (zrange 1 (h - 2)).
Lemma In_inner w h x y : In (x, y) (inner w h) <-> 1 <= x < w - 1 /\ 1 <= y < h - 1.
Proof.
  unfold inner. rewrite in_flat_map. split.
  - intros (y' & HY & HX). apply in_map_iff in HX. destruct HX as (x' & E & HX). injection E as <- <-. apply In_zrange in HX, HY. lia.
  - intros (HX & HY). exists y. split; [apply In_zrange; lia|]. apply in_map_iff. exists x. split; [reflexivity|apply In_zrange; lia].
Qed.
Lemma filter_loop m t k im kern (Q : Z -> Z -> nat -> Z -> Prop) : img_ok t k im -> 1 <= iw im <= u32_max -> 1 <= ih im <= u32_max ->
  (forall x y, interior im x y -> exists c, filter_pixel t im kern x y = Ok c /\ Forall2 (fun i z => is_sample t z /\ Q x y i z) [0; 1; 2; 3]%nat c) ->
  exists r, filter3x3 m t k im kern = Ok r /\ iw r = iw im /\ ih r = ih im /\ img_ok t k r /\
    (forall x y, 0 <= x < iw im -> 0 <= y < ih im -> ~ interior im x y -> pixel r x y = Some (repeat 0 (Z.to_nat (nch k)))) /\
    (forall x y, interior im x y -> exists p, pixel r x y = Some p /\ is_pixel t k p /\ forall i, (i < Z.to_nat (nch k))%nat -> Q x y i (nth i p 0)).
Proof.
  intros HI HW HH HP. unfold filter3x3, u32_sub_m. replace (1 <=? ih im) with true by lia. replace (1 <=? iw im) with true by lia. cbn [bind]. set (z := repeat 0 (Z.to_nat (nch k))). set (v := fun c : Z * Z => match filter_pixel t im kern (fst c) (snd c) with Ok p => from_channels k p | _ => z end).
  assert (W0 : wf (new_img (iw im) (ih im) z)) by (apply wf_new_img; lia).
  destruct (put_loop fst snd v (inner (iw im) (ih im)) _ W0) as (r & E & W & E1 & E2 & GN & GP). { intros [x y] H. apply In_inner in H. cbn [fst snd new_img iw ih]. lia. }
  exists r. cbn [new_img iw ih] in E1, E2.
  assert (B : forall x y, 0 <= x < iw im -> 0 <= y < ih im -> ~ interior im x y -> pixel r x y = Some z). { intros x y HX HY N. rewrite GN; [|intros [x' y'] H (X & Y); cbn [fst snd] in X, Y; subst; apply In_inner in H; apply N; exact H]. apply pixel_new_img; lia. }
  assert (I : forall x y, interior im x y -> exists p, pixel r x y = Some p /\ is_pixel t k p /\ forall i, (i < Z.to_nat (nch k))%nat -> Q x y i (nth i p 0)).
  { intros x y N. destruct (HP x y N) as (c & EC & FC). destruct (from_channels_ok t k _ c FC) as (K & QC). exists (from_channels k c). split; [|split; assumption]. assert (IN : In (x, y) (inner (iw im) (ih im))) by (apply In_inner; exact N). specialize (GP (x, y) IN). cbn [fst snd] in GP. rewrite GP; [unfold v; cbn [fst snd]; rewrite EC; reflexivity|]. intros [x' y'] _ X Y. cbn [fst snd] in X, Y. subst. reflexivity. }
  split; [|split; [exact E1|split; [exact E2|split; [split; [exact W|]|split; [exact B|exact I]]]]].
  - rewrite <- E. unfold inner. rewrite foldM_flat_map. replace (ih im - 1 - 1) with (ih im - 2) by lia. replace (iw im - 1 - 1) with (iw im - 2) by lia. apply foldM_ext. intros o y HY. apply In_zrange in HY. rewrite foldM_map. apply foldM_ext. intros o' x HX. apply In_zrange in HX. destruct (HP x y) as (c & EC & _); [split; lia|]. unfold v. cbn [fst snd]. rewrite EC. reflexivity.
  - apply Forall_forall. intros p HIn. apply (In_pixel r) in HIn; [|exact W]. destruct HIn as (x & y & HX & HY & EP). rewrite E1 in HX. rewrite E2 in HY. destruct (Z_lt_ge_dec 0 x); [destruct (Z_lt_ge_dec 0 y); [destruct (Z_lt_ge_dec x (iw im - 1)); [destruct (Z_lt_ge_dec y (ih im - 1))|]|]|].
    1: { destruct (I x y) as (q & EQ & K & _); [split; lia|]. rewrite EP in EQ. apply Some_inj in EQ. subst q. exact K. }
    all: rewrite (B x y HX HY) in EP by (intros (A1 & A2); lia); apply Some_inj in EP; subst p; unfold z; split; [unfold zlen; rewrite repeat_length; destruct k; reflexivity|apply Forall_forall; intros s Hs; apply repeat_spec in Hs; subst s; pose proof (smax_range t); unfold is_sample; lia].
Qed.

(** ** integer kernels are exact *)
Definition zsum' (l : list Z) : Z := fold_right Z.add 0 l.
Definition zabs_sum (l : list Z) : Z := fold_right (fun z s => Z.abs z + s) 0 l.
Lemma of_Z_signed k : Z.abs k < 2 ^ 24 -> isf (f32_of_Z k) (IZR k).
Proof. intros H. pose proof (isf_dyadic k 0 H ltac:(lia)) as I. cbn [bpow] in I. rewrite Rmult_1_r in I. exact I. Qed.
Lemma RN_int_signed k : Z.abs k < 2 ^ 24 -> RN32 (IZR k) = IZR k.
Proof. intros H. apply RN_repr. apply (repr_Z 24 128 f32_prec f32_emax). exact H. Qed.
Lemma abs_B100 k : Z.abs k < 2 ^ 24 -> (Rabs (IZR k) <= B100)%R.
Proof. intros H. rewrite <- abs_IZR. unfold B100. apply IZR_le. lia. Qed.
Lemma isum l : forall zs a A, Forall2 isf l (map IZR zs) -> isf a (IZR A) -> Z.abs A + zabs_sum zs < 2 ^ 24 -> isf (fold_left f32_add l a) (IZR (A + zsum' zs)).
Proof.
  induction l as [|x l IH]; intros [|z zs] a A F HA HB; inversion F as [|? ? ? ? Hx F']; subst.
  - cbn [fold_left zsum' fold_right]. rewrite Z.add_0_r. exact HA.
  - cbn [fold_left zsum' zabs_sum fold_right] in *. fold (zsum' zs) (zabs_sum zs) in *. assert (0 <= zabs_sum zs) by (clear; induction zs as [|w zs IH]; cbn; [lia|fold (zabs_sum zs); lia]). replace (A + (z + zsum' zs)) with (A + z + zsum' zs) by lia. apply IH; [exact F'| |lia].
    assert (S : Z.abs (A + z) < 2 ^ 24) by lia. rewrite <- (RN_int_signed (A + z) S). rewrite plus_IZR. apply fs_add; [exact HA|exact Hx|]. rewrite <- plus_IZR. apply abs_B100. exact S.
Qed.
Lemma iprods vs zs ks : Forall2 (fun v z => isf v (IZR z) /\ 0 <= z <= 65535) vs zs -> Forall (fun k => Z.abs k < 2 ^ 24) ks -> Forall (fun p => Z.abs p < 2 ^ 24) (map (fun '(z, k) => z * k) (combine zs ks)) ->
  Forall2 isf (map (fun '(v, w) => f32_mul v w) (combine vs (map f32_of_Z ks))) (map IZR (map (fun '(z, k) => z * k) (combine zs ks))).
Proof.
  intros F. revert ks. induction F as [|v z vs zs (Hv & _) F IH]; intros [|k ks] HK HP; try constructor; cbn [combine map] in *; apply Forall_cons_iff in HK; apply Forall_cons_iff in HP; [|apply IH; tauto].
  rewrite <- (RN_int_signed (z * k)) by apply HP. rewrite mult_IZR. apply fs_mul; [exact Hv|apply of_Z_signed; apply HK|]. rewrite <- mult_IZR. apply abs_B100. apply HP.
Qed.
Lemma floor_div_exact mx T D : 0 <= mx <= 65535 -> Z.abs T < 2 ^ 24 -> D <> 0 -> Z.abs D < 2 ^ 24 -> Zfloor (limited 0 (IZR mx) (RN32 (IZR T / IZR D))) = clampz 0 mx (T / D).
Proof.
  intros HM HT ND HD. set (n := T / D). set (q := (IZR T / IZR D)%R). assert (DR : IZR D <> 0%R) by (apply not_0_IZR; exact ND). pose proof (Z.div_mod T D ND) as DM. fold n in DM.
  assert (AD : (0 < Rabs (IZR D))%R) by (apply Rabs_pos_lt; exact DR). assert (AI : (0 < / Rabs (IZR D))%R) by (apply Rinv_0_lt_compat; exact AD).
  assert (NB : Z.abs n < 2 ^ 24 + 1). { clearbody n q. clear - DM HT ND. assert (HT' : - (2 ^ 24) < T < 2 ^ 24) by lia. destruct (Z.lt_ge_cases 0 D) as [P|P]; [pose proof (Z.mod_pos_bound T D P) as B|pose proof (Z.mod_neg_bound T D ltac:(lia)) as B]; set (r := T mod D) in *; clearbody r; assert (- (2 ^ 24) <= n <= 2 ^ 24); try lia; split; nia. }
  (** the fraction *)
  assert (Q : (IZR n <= q)%R /\ (q <= IZR n + 1 - / Rabs (IZR D))%R).
  { assert (EQ : (q = IZR n + IZR (T mod D) / IZR D)%R). { unfold q. rewrite DM at 1. rewrite plus_IZR, mult_IZR. field. exact DR. } destruct (Z.lt_ge_cases 0 D) as [P|P].
    - pose proof (Z.mod_pos_bound T D P) as MB. assert (DP : (0 < IZR D)%R) by (apply IZR_lt; exact P). rewrite (Rabs_pos_eq (IZR D)) in * by lra. assert (0 <= IZR (T mod D) * / IZR D)%R by (apply Rmult_le_pos; [apply IZR_le; lia|lra]). assert (IZR (T mod D) * / IZR D <= (IZR D - 1) * / IZR D)%R by (apply Rmult_le_compat_r; [lra|rewrite <- minus_IZR; apply IZR_le; lia]). replace ((IZR D - 1) * / IZR D)%R with (1 - / IZR D)%R in H0 by (field; exact DR). unfold Rdiv in EQ. lra.
    - pose proof (Z.mod_neg_bound T D ltac:(lia)) as MB. assert (DP : (IZR D < 0)%R) by (apply IZR_lt; lia). rewrite (Rabs_left (IZR D)) in * by exact DP. set (d := (- IZR D)%R) in *. assert (DD : (IZR (T mod D) / IZR D = IZR (- (T mod D)) * / d)%R) by (unfold d; rewrite opp_IZR; field; exact DR). rewrite DD in EQ. assert (0 <= IZR (- (T mod D)) * / d)%R by (apply Rmult_le_pos; [apply IZR_le; lia|lra]). assert (IZR (- (T mod D)) * / d <= (d - 1) * / d)%R by (apply Rmult_le_compat_r; [lra|unfold d; rewrite <- opp_IZR, <- minus_IZR; apply IZR_le; lia]). replace ((d - 1) * / d)%R with (1 - / d)%R in H0 by (field; lra). lra. }
  destruct Q as (Q1 & Q2).
  (** rounding stays below the next integer *)
  assert (R2 : (RN32 q < IZR n + 1)%R).
  { destruct uu_val as [U0 U1]. destruct eta_val as [E0 E1]. pose proof (RN_aes q) as RE. apply Rabs_le_inv in RE. assert (AQ : (Rabs q = Rabs (IZR T) * / Rabs (IZR D))%R) by (unfold q, Rdiv; rewrite Rabs_mult, Rabs_inv; reflexivity).
    assert (AT : (Rabs (IZR T) <= / uu - 1)%R) by (rewrite <- abs_IZR; unfold uu; rewrite Rinv_inv, <- minus_IZR; apply IZR_le; lia). assert (UA : (uu * Rabs (IZR T) <= 1 - uu)%R). { apply (Rmult_le_compat_l uu) in AT; [|lra]. replace (uu * (/ uu - 1))%R with (1 - uu)%R in AT by (field; lra). exact AT. }
    assert (UQ : (uu * Rabs q <= (1 - uu) * / Rabs (IZR D))%R) by (rewrite AQ, <- Rmult_assoc; apply Rmult_le_compat_r; lra).
    assert (DU : (uu <= / Rabs (IZR D))%R). { unfold uu. apply Rinv_le_contravar; [exact AD|]. rewrite <- abs_IZR. apply IZR_le. lia. } assert (UD : (uu * uu <= uu * / Rabs (IZR D))%R) by (apply Rmult_le_compat_l; lra).
    assert (ET : (eta < uu * uu)%R). { assert (E2 : (eta = uu * uu * / IZR (2 ^ 92))%R) by (unfold eta, uu; rewrite <- !Rinv_mult, <- !mult_IZR; reflexivity). rewrite E2. assert (/ IZR (2 ^ 92) < 1)%R by (rewrite <- Rinv_1; apply Rinv_lt_contravar; [rewrite Rmult_1_l; apply IZR_lt; lia|apply IZR_lt; lia]). assert (0 < uu * uu)%R by (apply Rmult_lt_0_compat; lra). assert (uu * uu * / IZR (2 ^ 92) < uu * uu * 1)%R by (apply Rmult_lt_compat_l; lra). lra. }
    lra. }
  assert (R1 : (IZR n <= RN32 q)%R). { apply RN_ge; [exact eq_refl| |exact Q1]. destruct (Z.lt_ge_cases (Z.abs n) (2 ^ 24)) as [A|A]; [apply (repr_Z 24 128 f32_prec f32_emax); exact A|]. assert (n = 2 ^ 24 \/ n = - 2 ^ 24) as [-> | ->] by lia; unfold repr; apply (generic_format_FLT radix2 (-149) 24); [exists (Float radix2 1 24)|exists (Float radix2 (-1) 24)]; cbn; try lia; unfold F2R; cbn; lra. }
  clearbody q n. clear Q1 Q2 DM. unfold limited, clampz. assert (M0 : (0 <= IZR mx)%R) by (apply IZR_le; lia).
  destruct (Z.lt_ge_cases n 0) as [N|N].
  - assert (IZR n + 1 <= 0)%R by (rewrite <- plus_IZR; apply IZR_le; lia). rewrite Rmax_left, Rmin_right by lra. rewrite (Zfloor_IZR 0). lia.
  - assert (0 <= IZR n)%R by (apply IZR_le; lia). rewrite (Rmax_right 0) by lra. destruct (Z.lt_ge_cases n mx) as [L|L].
    + assert (IZR n + 1 <= IZR mx)%R by (rewrite <- plus_IZR; apply IZR_le; lia). rewrite Rmin_right by lra. rewrite (Zfloor_imp n); [lia|]. rewrite plus_IZR. lra.
    + assert (IZR mx <= IZR n)%R by (apply IZR_le; lia). rewrite Rmin_left by lra. rewrite Zfloor_IZR. lia.
Qed.
Lemma filter_pixel_int t k im ks x y : img_ok t k im -> length ks = 9%nat -> zsum9 (fun j => Z.abs (nth j ks 0)) * smax t < 2 ^ 24 -> interior im x y ->
  let s := zsum9 (fun j => nth j ks 0) in let D := if s =? 0 then 1 else s in
  exists c, filter_pixel t im (map f32_of_Z ks) x y = Ok c /\ Forall2 (fun i z => is_sample t z /\ z = clampz 0 (smax t) (zsum9 (fun j => nth j ks 0 * neighbour t im i x y j) / D)) [0; 1; 2; 3]%nat c.
Proof.
  intros HI L9 HB HN s D. pose proof (smax_range t) as SM. rewrite (filter_pixel_eq t k) by (try assumption; rewrite map_length; exact L9).
  assert (HS : forall i, Forall (is_sample t) (nine t im i x y)). { intros i. unfold nine. apply Forall_forall. intros z Hz. apply in_map_iff in Hz. destruct Hz as (a & <- & HA). apply (chan_sample t k im i _ HI). apply near_inside; assumption. }
  assert (KB : Forall (fun k => Z.abs k < 2 ^ 24) ks /\ zsum' ks = s /\ zabs_sum ks < 2 ^ 24). { unfold s. destruct ks as [|k0 [|k1 [|k2 [|k3 [|k4 [|k5 [|k6 [|k7 [|k8 [|]]]]]]]]]]; try discriminate L9. unfold zsum9 in *. cbn [nth] in *. cbn [zsum' zabs_sum fold_right]. assert (Z.abs k0 + Z.abs k1 + Z.abs k2 + Z.abs k3 + Z.abs k4 + Z.abs k5 + Z.abs k6 + Z.abs k7 + Z.abs k8 < 2 ^ 24) by (set (a := Z.abs k0 + Z.abs k1 + Z.abs k2 + Z.abs k3 + Z.abs k4 + Z.abs k5 + Z.abs k6 + Z.abs k7 + Z.abs k8) in *; assert (0 <= a) by lia; clearbody a; assert (a * 1 <= a * smax t) by (apply Z.mul_le_mono_nonneg_l; lia); lia). clear HB. split; [repeat (constructor; [lia|]); constructor|lia]. }
  destruct KB as (KB & KS & KA). assert (SB : Z.abs s < 2 ^ 24) by (rewrite <- KS; clear - KA; assert (Z.abs (zsum' ks) <= zabs_sum ks); [induction ks as [|w ks IH]; cbn; [lia|fold (zsum' ks) (zabs_sum ks); cbn in KA; fold (zabs_sum ks) in KA; lia]|lia]).
  assert (FK : Forall2 isf (map f32_of_Z ks) (map IZR ks)) by (clear - KB; induction KB as [|w ks Hw KB IH]; cbn [map]; constructor; [apply of_Z_signed; exact Hw|exact IH]).
  assert (IS : isf (kernel_sum (map f32_of_Z ks)) (IZR D)). { unfold kernel_sum. cbv zeta. pose proof (isum _ ks f32_zero 0 FK isf_zero ltac:(cbn [Z.abs]; lia)) as I0. rewrite Z.add_0_l, KS in I0. fold (fsum (map f32_of_Z ks)) in I0. assert (EQ : f32_eq (fsum (map f32_of_Z ks)) f32_zero = Req_bool (IZR s) 0). { unfold f32_eq. rewrite Beqb_correct by (try exact (proj2 I0); reflexivity). rewrite (proj1 I0), (proj1 isf_zero). reflexivity. } rewrite EQ. unfold D. destruct (Z.eqb_spec s 0) as [E|E]; [rewrite E, Req_bool_true by reflexivity; exact isf_one|]. rewrite Req_bool_false by (apply not_0_IZR; exact E). exact I0. }
  assert (ND : D <> 0) by (unfold D; destruct (Z.eqb_spec s 0); lia). assert (DB : Z.abs D < 2 ^ 24) by (unfold D; destruct (Z.eqb_spec s 0); lia).
  assert (G : forall i, exists z, cut t (f32_div (dot (map f32_of_Z (nine t im i x y)) (map f32_of_Z ks)) (kernel_sum (map f32_of_Z ks))) = Ok z /\ is_sample t z /\ z = clampz 0 (smax t) (zsum9 (fun j => nth j ks 0 * neighbour t im i x y j) / D)).
  { intros i. set (ps := map (fun '(z, k) => z * k) (combine (nine t im i x y) ks)).
    assert (PS : zsum' ps = zsum9 (fun j => nth j ks 0 * neighbour t im i x y j) /\ zabs_sum ps < 2 ^ 24 /\ Forall (fun p => Z.abs p < 2 ^ 24) ps).
    { specialize (HS i). unfold ps. rewrite nine_eq in *. destruct ks as [|k0 [|k1 [|k2 [|k3 [|k4 [|k5 [|k6 [|k7 [|k8 [|]]]]]]]]]]; try discriminate L9. clear - HS HB SM. cbn [map] in HS. unfold zsum9 in *. cbn [map combine nth zsum' zabs_sum fold_right] in *.
      repeat match goal with H : Forall _ (_ :: _) |- _ => apply Forall_cons_iff in H; let A := fresh "A" in destruct H as (A & H); unfold is_sample in A end.
      set (c0 := neighbour t im i x y 0) in *. set (c1 := neighbour t im i x y 1) in *. set (c2 := neighbour t im i x y 2) in *. set (c3 := neighbour t im i x y 3) in *. set (c4 := neighbour t im i x y 4) in *. set (c5 := neighbour t im i x y 5) in *. set (c6 := neighbour t im i x y 6) in *. set (c7 := neighbour t im i x y 7) in *. set (c8 := neighbour t im i x y 8) in *. clearbody c0 c1 c2 c3 c4 c5 c6 c7 c8. set (M := smax t) in *. clearbody M.
      assert (AB : forall c k, 0 <= c <= M -> 0 <= Z.abs (c * k) <= Z.abs k * M) by (intros c k Hc; rewrite Z.abs_mul; split; [lia|rewrite (Z.abs_eq c) by lia; rewrite Z.mul_comm; apply Z.mul_le_mono_nonneg_l; lia]).
      pose proof (AB c0 k0 ltac:(assumption)). pose proof (AB c1 k1 ltac:(assumption)). pose proof (AB c2 k2 ltac:(assumption)). pose proof (AB c3 k3 ltac:(assumption)). pose proof (AB c4 k4 ltac:(assumption)). pose proof (AB c5 k5 ltac:(assumption)). pose proof (AB c6 k6 ltac:(assumption)). pose proof (AB c7 k7 ltac:(assumption)). pose proof (AB c8 k8 ltac:(assumption)). rewrite !Z.mul_add_distr_r in HB.
      split; [ring|]. change (2 ^ 24) with 16777216 in *. clear - H H0 H1 H2 H3 H4 H5 H6 H7 HB. match goal with |- ?a /\ ?b => assert (GG : (a /\ (Z.abs (c0 * k0) < 16777216 /\ Z.abs (c1 * k1) < 16777216 /\ Z.abs (c2 * k2) < 16777216 /\ Z.abs (c3 * k3) < 16777216 /\ Z.abs (c4 * k4) < 16777216 /\ Z.abs (c5 * k5) < 16777216 /\ Z.abs (c6 * k6) < 16777216 /\ Z.abs (c7 * k7) < 16777216 /\ Z.abs (c8 * k8) < 16777216))) end.
      { revert H H0 H1 H2 H3 H4 H5 H6 H7 HB. generalize (Z.abs (c0 * k0)) (Z.abs k0 * M). generalize (Z.abs (c1 * k1)) (Z.abs k1 * M). generalize (Z.abs (c2 * k2)) (Z.abs k2 * M). generalize (Z.abs (c3 * k3)) (Z.abs k3 * M). generalize (Z.abs (c4 * k4)) (Z.abs k4 * M). generalize (Z.abs (c5 * k5)) (Z.abs k5 * M). generalize (Z.abs (c6 * k6)) (Z.abs k6 * M). generalize (Z.abs (c7 * k7)) (Z.abs k7 * M). generalize (Z.abs (c8 * k8)) (Z.abs k8 * M). intros. lia. }
      destruct GG as (G0 & G1 & G2 & G3 & G4 & G5 & G6 & G7 & G8 & G9). split; [exact G0|]. repeat (constructor; [assumption|]). constructor. }
    destruct PS as (P1 & P2 & P3). pose proof (iprods _ _ ks (floats_isf t k im i x y HI HN) KB P3) as FP. pose proof (isum _ ps f32_zero 0 FP isf_zero ltac:(cbn [Z.abs]; lia)) as IT. rewrite Z.add_0_l in IT. fold (fsum (map (fun '(v, w) => f32_mul v w) (combine (map f32_of_Z (nine t im i x y)) (map f32_of_Z ks)))) in IT. fold (dot (map f32_of_Z (nine t im i x y)) (map f32_of_Z ks)) in IT.
    destruct (cut_div t _ _ _ _ IT IS ltac:(apply not_0_IZR; exact ND)) as (EC & SC). cbv zeta in EC, SC. eexists. split; [exact EC|]. split; [exact SC|]. rewrite <- P1. apply floor_div_exact; [lia| |exact ND|exact DB]. clear - P2. assert (Z.abs (zsum' ps) <= zabs_sum ps); [|lia]. induction ps as [|w ps IH]; cbn in *; [lia|]. fold (zsum' ps) (zabs_sum ps) in *. lia. }
  destruct (G 0%nat) as (z0 & G0 & P0). destruct (G 1%nat) as (z1 & G1 & P1). destruct (G 2%nat) as (z2 & G2 & P2). destruct (G 3%nat) as (z3 & G3 & P3). exists [z0; z1; z2; z3]. cbn [map]. split; [apply map_res4; assumption|]. repeat (constructor; [assumption|]). constructor.
Qed.
(** ** kernels without negative entries *)
Lemma filtered_range t im kern D i x y z lo hi : (forall j, (j < 9)%nat -> 0 <= B2R (nth j kern f32_zero))%R -> (0 < sum9 (fun j => B2R (nth j kern f32_zero)))%R -> divisor kern D -> 0 <= lo -> hi <= smax t -> (forall j, (j < 9)%nat -> lo <= neighbour t im i x y j <= hi) -> filtered t im kern D i x y z -> lo - 1 <= z <= hi.
Proof.
  intros KP SP (ND & HD) LO HI HN HF. unfold filtered in HF. cbv zeta in HD, HF. set (k := fun j => B2R (nth j kern f32_zero)) in *. pose proof (smax_range t) as SM. destruct uu_val as [U0 U1].
  assert (AS : sum9 (fun j => Rabs (k j)) = sum9 k) by (unfold sum9; rewrite !Rabs_pos_eq by (apply KP; lia); reflexivity). assert (AC : conv_abs k t im i x y = conv k t im i x y) by (unfold conv_abs, conv, sum9; rewrite !Rabs_pos_eq by (apply KP; lia); reflexivity).
  change ((Rabs (D - sum9 k) <= 10 * uu * sum9 (fun j => Rabs (k j))) \/ (D = 1 /\ Rabs (sum9 k) <= 10 * uu * sum9 (fun j => Rabs (k j))))%R in HD. change (- (12 * uu * conv_abs k t im i x y / Rabs D) <= limited 0 (IZR (smax t)) (conv k t im i x y / D) - IZR z < 1 + 12 * uu * conv_abs k t im i x y / Rabs D)%R in HF. rewrite AS in HD. rewrite AC in HF. set (s := sum9 k) in *.
  assert (TB : (IZR lo * s <= conv k t im i x y <= IZR hi * s)%R).
  { assert (B : forall j, (j < 9)%nat -> (IZR lo * k j <= k j * IZR (neighbour t im i x y j) <= IZR hi * k j)%R). { intros j Hj. specialize (HN j Hj). specialize (KP j Hj). fold (k j) in KP. rewrite (Rmult_comm (k j)). split; apply Rmult_le_compat_r; try exact KP; apply IZR_le; lia. }
    unfold conv, s, sum9. pose proof (B 0%nat ltac:(lia)). pose proof (B 1%nat ltac:(lia)). pose proof (B 2%nat ltac:(lia)). pose proof (B 3%nat ltac:(lia)). pose proof (B 4%nat ltac:(lia)). pose proof (B 5%nat ltac:(lia)). pose proof (B 6%nat ltac:(lia)). pose proof (B 7%nat ltac:(lia)). pose proof (B 8%nat ltac:(lia)). lra. }
  set (T := conv k t im i x y) in *. clearbody T. assert (US : (0 < uu * s)%R) by (apply Rmult_lt_0_compat; lra). assert (US' : (uu * s <= / 16700000 * s)%R) by (apply Rmult_le_compat_r; lra).
  destruct HD as [HD|(_ & HD)]; [|exfalso; rewrite Rabs_pos_eq in HD by lra; lra]. apply Rabs_le_inv in HD. assert (DP : (0 < D)%R) by lra. rewrite (Rabs_pos_eq D) in HF by lra. assert (DI : (0 < / D)%R) by (apply Rinv_0_lt_compat; exact DP).
  set (rho := (s * / D)%R). assert (RH : (1 - 11 * uu <= rho <= 1 + 11 * uu)%R).
  { assert (DD : (D * / D = 1)%R) by (apply Rinv_r; lra). unfold rho. split; apply (Rmult_le_reg_r D); try exact DP; rewrite Rmult_assoc, (Rmult_comm (/ D)), DD, Rmult_1_r.
    - assert (uu * ((1 - 10 * uu) * s) <= uu * D)%R by (apply Rmult_le_compat_l; lra). assert (uu * (uu * s) <= / 16700000 * (uu * s))%R by (apply Rmult_le_compat_r; lra). lra.
    - assert (uu * ((1 - 10 * uu) * s) <= uu * D)%R by (apply Rmult_le_compat_l; lra). assert (uu * (uu * s) <= / 16700000 * (uu * s))%R by (apply Rmult_le_compat_r; lra). lra. }
  assert (LH : lo <= hi) by (specialize (HN 0%nat ltac:(lia)); lia). assert (L0 : (0 <= IZR lo <= 65535)%R) by (split; apply IZR_le; lia). assert (H0 : (0 <= IZR hi <= 65535)%R) by (split; apply IZR_le; lia). assert (HM : (IZR hi <= IZR (smax t))%R) by (apply IZR_le; lia). assert (LHR : (IZR lo <= IZR hi)%R) by (apply IZR_le; lia).
  assert (Q : (IZR lo * rho <= T / D <= IZR hi * rho)%R) by (unfold rho, Rdiv; rewrite <- !Rmult_assoc; split; apply Rmult_le_compat_r; lra).
  assert (Q1 : (IZR lo - 0.05 <= T / D)%R) by (assert (IZR lo * (1 - 11 * uu) <= IZR lo * rho)%R by (apply Rmult_le_compat_l; lra); assert (IZR lo * uu <= 65535 * uu)%R by (apply Rmult_le_compat_r; lra); lra).
  assert (Q2 : (T / D <= IZR hi + 0.05)%R) by (assert (IZR hi * rho <= IZR hi * (1 + 11 * uu))%R by (apply Rmult_le_compat_l; lra); assert (IZR hi * uu <= 65535 * uu)%R by (apply Rmult_le_compat_r; lra); lra).
  replace (12 * uu * T / D)%R with (12 * uu * (T / D))%R in HF by (unfold Rdiv; ring). set (q := (T / D)%R) in *. clearbody q. assert (EB : (uu * q <= uu * 65536)%R) by (apply Rmult_le_compat_l; lra).
  unfold limited in HF. assert (M1 : (Rmin (IZR (smax t)) (Rmax 0 q) <= IZR hi + 0.05)%R) by (eapply Rle_trans; [apply Rmin_r|apply Rmax_lub; lra]). assert (M2 : (IZR lo - 0.05 <= Rmin (IZR (smax t)) (Rmax 0 q))%R) by (apply Rmin_glb; [lra|eapply Rle_trans; [exact Q1|apply Rmax_r]]).
  split; [assert (lo - 2 < z); [|lia]; apply lt_IZR; rewrite minus_IZR; lra|assert (z < hi + 1); [|lia]; apply lt_IZR; rewrite plus_IZR; lra].
Qed.
