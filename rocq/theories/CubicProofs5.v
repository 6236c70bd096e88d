From Coq Require Import ZArith Bool Reals Lia Lra.
From Flocq Require Import Core IEEE754.BinarySingleNaN.
From Verif Require Import Base BaseLemmas ListMore Color ColorProofs Float FloatProofs JpegQuant ColorF ColorFProofs GenImage Thumb ThumbSpec ThumbProofs ThumbProofs2 ThumbProofs3 ThumbProofs4 Sample SampleSpec SampleProofs SampleProofs2 SampleProofs3 SampleProofs4 SampleProofs5 SampleProofs7 SampleProofs8 SampleProofs9 SampleProofs10 Filter3Proofs CubicSpec CubicProofs CubicProofs2 CubicProofs3 CubicProofs4.
Local Open Scope Z_scope.

(** ** dot products with weights of both signs *)
Lemma up_pow n : (INR n * uu <= 0.0158)%R -> ((1 + uu) ^ n - 1 <= 1.02 * (INR n * uu))%R.
Proof.
  intros H. pose proof (pp_bern n) as B. pose proof (pq n) as PQ. pose proof (qq1 n) as Q1. destruct uu_val as [U0 _]. assert (M : ((1 + uu) ^ n <= qq ^ n)%R) by (apply pow_incr; pose proof qq_val; lra). set (z := (INR n * uu)%R) in *. set (q := (qq ^ n)%R) in *. set (p := (pp ^ n)%R) in *. clearbody p q. assert (Z0 : (0 <= z)%R) by (unfold z; apply Rmult_le_pos; [apply pos_INR|lra]). clearbody z.
  assert (A : ((1 - z) * q <= 1)%R) by (rewrite <- PQ; apply Rmult_le_compat_r; lra). assert (C : (0.9842 * q <= 1)%R) by (apply Rle_trans with ((1 - z) * q)%R; [apply Rmult_le_compat_r; lra|lra]). assert (z * q <= z * 1.017)%R by (apply Rmult_le_compat_l; lra). lra.
Qed.
Lemma rsum_rsum' l : rsum l = rsum' l. Proof. reflexivity. Qed.
Lemma one_prod v k R0 b : (0 < R0)%R -> (1 <= b)%R -> (Rabs v <= b)%R ->
  (Rabs (RN32 (v * RN32 (k / R0)) - v * k / R0) <= 2.01 * uu * (b * (Rabs k / R0)) + 3 * b * eta)%R.
Proof.
  intros HR HB HV. destruct uu_val as [U0 U1]. destruct eta_val as [T0 _]. pose proof eta_uu as ET. replace (v * k / R0)%R with (v * (k / R0))%R by (unfold Rdiv; ring). assert (AK : (Rabs (k / R0) = Rabs k / R0)%R) by (unfold Rdiv; rewrite Rabs_mult, (Rabs_pos_eq (/ R0)); [reflexivity|left; apply Rinv_0_lt_compat; lra]). rewrite <- AK. set (k' := (k / R0)%R). clearbody k'. clear AK.
  pose proof (RN_aes k') as E1. set (w := RN32 k') in *. clearbody w. pose proof (RN_aes (v * w)) as E2. set (p := RN32 (v * w)) in *. clearbody p. pose proof (Rabs_pos k') as PK. pose proof (Rabs_pos v) as PV.
  assert (W : (Rabs w <= Rabs k' + (uu * Rabs k' + eta))%R) by (replace w with (k' + (w - k'))%R by ring; eapply Rle_trans; [apply Rabs_triang|]; lra).
  assert (E3 : (Rabs (v * w - v * k') <= b * (uu * Rabs k' + eta))%R) by (rewrite <- Rmult_minus_distr_l, Rabs_mult; apply Rmult_le_compat; try apply Rabs_pos; assumption).
  assert (VW : (Rabs (v * w) <= b * (Rabs k' + (uu * Rabs k' + eta)))%R) by (rewrite Rabs_mult; apply Rmult_le_compat; try apply Rabs_pos; assumption).
  assert (UW : (uu * Rabs (v * w) <= uu * (b * (Rabs k' + (uu * Rabs k' + eta))))%R) by (apply Rmult_le_compat_l; lra).
  replace (p - v * k')%R with ((p - v * w) + (v * w - v * k'))%R by ring. eapply Rle_trans; [apply Rabs_triang|].
  assert (BK : (0 <= b * Rabs k')%R) by (apply Rmult_le_pos; lra). set (m := (b * Rabs k')%R) in *. replace (b * (Rabs k' + (uu * Rabs k' + eta)))%R with (m + uu * m + b * eta)%R in UW by (unfold m; ring). replace (b * (uu * Rabs k' + eta))%R with (uu * m + b * eta)%R in E3 by (unfold m; ring). clearbody m.
  assert (UM : (uu * (uu * m) <= 0.01 * (uu * m))%R) by (apply Rmult_le_compat_r; [apply Rmult_le_pos; lra|lra]). assert (BE : (eta <= b * eta)%R) by (apply Rle_trans with (1 * eta)%R; [lra|apply Rmult_le_compat_r; lra]). assert (UE : (uu * (b * eta) <= 0.01 * (b * eta))%R) by (apply Rmult_le_compat_r; lra). rewrite !Rmult_plus_distr_l in UW. lra.
Qed.
Lemma prods_signed R0 b vs : forall vr l ks, (0 < R0)%R -> (1 <= b <= 1000000)%R -> Forall2 isf vs vr -> Forall (fun v => Rabs v <= b)%R vr -> Forall2 isf l ks -> length vs = length l -> Forall (fun k => Rabs (k / R0) <= 1000)%R ks ->
  forall d, isf d R0 -> exists rs, Forall2 isf (map (fun '(v, w) => f32_mul v w) (combine vs (map (fun w => f32_div w d) l))) rs /\ length rs = length l /\
    (Rabs (rsum' rs - wsum vr ks / R0) <= 2.01 * uu * (b * (abssum ks / R0)) + INR (length l) * (3 * b * eta))%R /\ (abssum rs <= 1.01 * (b * (abssum ks / R0)) + INR (length l) * (3 * b * eta))%R /\ (Rabs (wsum vr ks) <= b * abssum ks)%R.
Proof.
  induction vs as [|v vs IH]; intros vr l ks HR HB FV BV FL HL BK d ID; destruct uu_val as [U0 U1]; destruct eta_val as [T0 _].
  - destruct l; [|discriminate HL]. inversion FV; subst. inversion FL; subst. exists []. split; [constructor|]. split; [reflexivity|]. cbn. unfold wsum. cbn. unfold Rdiv. rewrite !Rmult_0_l, Rminus_0_r, Rabs_R0, !Rmult_0_r. repeat split; lra.
  - destruct l as [|x l]; [discriminate HL|]. inversion FV as [|? r ? vr' V1 V2]; subst. inversion FL as [|? k ? ks' L1 L2]; subst. apply Forall_cons_iff in BV, BK. destruct BV as [BV1 BV2]. destruct BK as [BK1 BK2]. cbn [length] in HL. injection HL as HL. destruct (IH vr' l ks' HR HB V2 BV2 L2 HL BK2 d ID) as (rs & F & LR & H1 & H2 & H3).
    assert (ET : (eta <= 1)%R) by (pose proof eta_uu; lra). assert (BB : (2000000000000 <= B100)%R) by (unfold B100; apply IZR_le; vm_compute; discriminate).
    assert (IW : isf (f32_div x d) (RN32 (k / R0))) by (apply fs_div; [exact L1|exact ID|lra|lra]). pose proof (RN_aes (k / R0)) as EW. pose proof (Rabs_pos (k / R0)) as PK. assert (WB : (Rabs (RN32 (k / R0)) <= 1002)%R). { assert (uu * Rabs (k / R0) <= / 16700000 * 1000)%R by (apply Rmult_le_compat; lra). apply Rabs_le_inv in EW. apply Rabs_le_inv in BK1. apply Rabs_le. lra. }
    assert (VWB : (Rabs (r * RN32 (k / R0)) <= 1000000 * 1002)%R) by (rewrite Rabs_mult; apply Rmult_le_compat; try apply Rabs_pos; lra).
    assert (IP : isf (f32_mul v (f32_div x d)) (RN32 (r * RN32 (k / R0)))) by (apply fs_mul; [exact V1|exact IW|lra]).
    pose proof (one_prod r k R0 b HR ltac:(lra) BV1) as E. set (p := RN32 (r * RN32 (k / R0))) in *. exists (p :: rs). cbn [combine map]. split; [constructor; assumption|]. cbn [length]. split; [rewrite LR; reflexivity|]. rewrite S_INR, wsum_cons. unfold rsum', abssum. cbn [fold_right]. fold (rsum' rs) (abssum rs) (abssum ks').
    assert (SP : ((Rabs k + abssum ks') / R0 = Rabs k / R0 + abssum ks' / R0)%R) by (unfold Rdiv; ring). rewrite SP. assert (SW : ((r * k + wsum vr' ks') / R0 = r * k / R0 + wsum vr' ks' / R0)%R) by (unfold Rdiv; ring). rewrite SW. rewrite !Rmult_plus_distr_l, Rmult_plus_distr_r.
    assert (RK : (Rabs (r * k / R0) <= b * (Rabs k / R0))%R). { replace (r * k / R0)%R with (r * (k / R0))%R by (unfold Rdiv; ring). rewrite Rabs_mult. assert (AK : (Rabs (k / R0) = Rabs k / R0)%R) by (unfold Rdiv; rewrite Rabs_mult, (Rabs_pos_eq (/ R0)); [reflexivity|left; apply Rinv_0_lt_compat; lra]). rewrite AK. apply Rmult_le_compat_r; [rewrite <- AK; apply Rabs_pos|exact BV1]. }
    assert (PM : (0 <= b * (Rabs k / R0))%R) by (eapply Rle_trans; [apply Rabs_pos|exact RK]). split; [|split].
    + replace (p + rsum' rs - (r * k / R0 + wsum vr' ks' / R0))%R with ((p - r * k / R0) + (rsum' rs - wsum vr' ks' / R0))%R by ring. eapply Rle_trans; [apply Rabs_triang|]. lra.
    + pose proof (Rabs_triang (p - r * k / R0) (r * k / R0)) as T. replace (p - r * k / R0 + r * k / R0)%R with p in T by ring. assert (2.01 * uu * (b * (Rabs k / R0)) <= 0.01 * (b * (Rabs k / R0)))%R by (apply Rmult_le_compat_r; lra). lra.
    + eapply Rle_trans; [apply Rabs_triang|]. rewrite Rabs_mult. assert (Rabs r * Rabs k <= b * Rabs k)%R by (apply Rmult_le_compat_r; [apply Rabs_pos|exact BV1]). lra.
Qed.
Lemma signed_dot l ks vs vr b : Forall2 isf l ks -> Forall (fun k => Rabs k <= 2)%R ks -> Forall2 isf vs vr -> Forall (fun v => Rabs v <= b)%R vr -> length vs = length l -> (1 <= b <= 1000000)%R ->
  1 <= zlen l <= 262200 -> (IZR (zlen l) <= 136 * rsum ks)%R -> (abssum ks <= 4.4 * rsum ks)%R ->
  exists T, isf (dot vs (map (fun w => f32_div w (fsum l)) l)) T /\ (Rabs (T - wsum vr ks / rsum ks) <= b * ((27 * IZR (zlen l) + 11) * uu))%R.
Proof.
  intros FL BK FV BV HL HB HN HS HA. destruct uu_val as [U0 U1]. destruct eta_val as [T0 TE]. set (n := length l) in *. assert (NI : INR n = IZR (zlen l)) by (rewrite INR_IZR_INZ; reflexivity). assert (NB : (1 <= IZR (zlen l) <= 262200)%R) by (split; apply IZR_le; lia). rewrite <- NI in *. set (z := (INR n * uu)%R).
  assert (ZB : (0 < z <= 0.01571)%R). { unfold z. split; [apply Rmult_lt_0_compat; lra|]. apply Rle_trans with (262200 * / 16700000)%R; [apply Rmult_le_compat; lra|lra]. }
  assert (UZ : (uu <= z)%R) by (unfold z; apply Rle_trans with (1 * uu)%R; [lra|apply Rmult_le_compat_r; lra]).
  pose proof (up_pow n) as UP. fold z in UP. specialize (UP ltac:(lra)). pose proof (up1 n) as UP1. set (q := ((1 + uu) ^ n)%R) in *.
  set (S0 := rsum ks) in *. set (A := abssum ks) in *. pose proof (abssum_pos ks) as A0. fold A in A0. assert (SP : (/ 136 <= S0)%R) by lra. assert (BB : (2000000000000000000 <= B100)%R) by (unfold B100; apply IZR_le; vm_compute; discriminate).
  assert (A2 : (A <= 2 * INR n)%R). { unfold A. assert (G : forall k, Forall (fun k => Rabs k <= 2)%R k -> (abssum k <= 2 * INR (length k))%R). { induction 1 as [|k0 k H F IH]; [cbn; lra|]. cbn [abssum fold_right length]. fold (abssum k). rewrite S_INR. lra. } specialize (G ks BK). rewrite <- (f2_length _ _ _ FL) in G. exact G. }
  destruct (sum_err l ks f32_zero 0 FL isf_zero) as (R0 & I0 & E0). { fold n q A. rewrite Rabs_R0, Rplus_0_l. apply Rle_trans with (524400 * 2)%R; [apply Rmult_le_compat; lra|lra]. }
  fold n q A in E0. rewrite Rabs_R0, !Rplus_0_l in E0. rewrite <- rsum_rsum' in E0. fold S0 in E0. fold (fsum l) in I0.
  assert (EQ : ((q - 1) * A <= 1.02 * z * A)%R) by (apply Rmult_le_compat_r; lra). assert (ZA : (z * A <= z * (4.4 * S0))%R) by (apply Rmult_le_compat_l; lra). assert (ZS : (z * S0 <= 0.01571 * S0)%R) by (apply Rmult_le_compat_r; lra).
  assert (DR : (Rabs (R0 - S0) <= 1.02 * (z * A))%R) by lra. assert (DR2 : (- (0.0706 * S0) <= R0 - S0 <= 0.0706 * S0)%R) by (apply Rabs_le_inv; lra). assert (RP : (0.929 * S0 <= R0)%R) by lra. assert (R1 : (0.0068 <= R0)%R) by lra.
  assert (AR : (A / R0 <= 4.74)%R). { apply Rmult_le_reg_r with R0; [lra|]. unfold Rdiv. rewrite Rmult_assoc, Rinv_l, Rmult_1_r by lra. lra. }
  assert (AR0 : (0 <= A / R0)%R) by (apply Rle_mult_inv_pos; lra).
  destruct (prods_signed R0 b vs vr l ks ltac:(lra) HB FV BV FL HL) with (d := fsum l) as (rs & FR & LR & H1 & H2 & H3); [|exact I0|].
  { eapply Forall_impl; [|exact BK]. intros k Hk. cbv beta in *. unfold Rdiv. rewrite Rabs_mult, (Rabs_pos_eq (/ R0)) by (left; apply Rinv_0_lt_compat; lra). apply Rle_trans with (2 * / 0.0068)%R; [apply Rmult_le_compat; [apply Rabs_pos|left; apply Rinv_0_lt_compat; lra|exact Hk|apply Rinv_le_contravar; lra]|lra]. }
  fold n A in H1, H2, H3. assert (EN : (0 <= INR n * (3 * b * eta) <= b * (0.001 * uu))%R).
  { assert (E32 : (IZR (2 ^ 32) = 4294967296)%R) by (apply f_equal; reflexivity). rewrite E32 in TE. split; [apply Rmult_le_pos; [lra|apply Rmult_le_pos; lra]|]. replace (INR n * (3 * b * eta))%R with (b * (3 * (INR n * eta)))%R by ring. apply Rmult_le_compat_l; [lra|]. assert (INR n * eta <= 262200 * eta)%R by (apply Rmult_le_compat_r; lra). lra. }
  set (l' := map (fun '(v, w) => f32_mul v w) (combine vs (map (fun w => f32_div w (fsum l)) l))) in *. assert (LL : length l' = n) by (rewrite (f2_length _ _ _ FR); exact LR).
  assert (BAR : (0 <= b * (A / R0) <= b * 4.74)%R) by (split; [apply Rmult_le_pos; lra|apply Rmult_le_compat_l; lra]). assert (BU : (0 <= b * uu <= b)%R) by (split; [apply Rmult_le_pos; lra|apply Rle_trans with (b * 1)%R; [apply Rmult_le_compat_l; lra|lra]]).
  assert (SR : (abssum rs <= 4.79 * b)%R) by lra. pose proof (abssum_pos rs) as SR0.
  destruct (sum_err l' rs f32_zero 0 FR isf_zero) as (T & IT & ETT). { rewrite LL. fold q. rewrite Rabs_R0, Rplus_0_l. apply Rle_trans with (4790000 * 2)%R; [apply Rmult_le_compat; lra|lra]. }
  rewrite LL in ETT. fold q in ETT. rewrite Rabs_R0, !Rplus_0_l in ETT. exists T. split; [exact IT|].
  assert (E1 : (Rabs (T - rsum' rs) <= b * (4.89 * z))%R). { eapply Rle_trans; [exact ETT|]. apply Rle_trans with (1.02 * z * (4.79 * b))%R; [apply Rmult_le_compat; lra|]. assert (0 <= b * z)%R by (apply Rmult_le_pos; lra). lra. }
  assert (E2 : (Rabs (rsum' rs - wsum vr ks / R0) <= b * (9.6 * uu))%R). { eapply Rle_trans; [exact H1|]. assert (2.01 * uu * (b * (A / R0)) <= 2.01 * uu * (b * 4.74))%R by (apply Rmult_le_compat_l; lra). lra. }
  assert (E3 : (Rabs (wsum vr ks / R0 - wsum vr ks / S0) <= b * (21.4 * z))%R).
  { replace (wsum vr ks / R0 - wsum vr ks / S0)%R with (wsum vr ks * ((S0 - R0) * (/ R0 * / S0)))%R by (field; lra). rewrite !Rabs_mult. assert (IR : (0 < / R0)%R) by (apply Rinv_0_lt_compat; lra). assert (IS : (0 < / S0)%R) by (apply Rinv_0_lt_compat; lra). rewrite (Rabs_pos_eq (/ R0)), (Rabs_pos_eq (/ S0)) by lra. rewrite (Rabs_minus_sym S0).
    apply Rle_trans with (b * A * (1.02 * (z * A) * (/ R0 * / S0)))%R. { apply Rmult_le_compat; [apply Rabs_pos|apply Rmult_le_pos; [apply Rabs_pos|apply Rmult_le_pos; lra]|exact H3|]. apply Rmult_le_compat_r; [apply Rmult_le_pos; lra|exact DR]. }
    replace (b * A * (1.02 * (z * A) * (/ R0 * / S0)))%R with (b * (1.02 * z * (A / R0 * (A / S0))))%R by (unfold Rdiv; ring). apply Rmult_le_compat_l; [lra|]. assert (AS : (0 <= A / S0 <= 4.4)%R). { split; [apply Rle_mult_inv_pos; lra|]. apply Rmult_le_reg_r with S0; [lra|]. unfold Rdiv. rewrite Rmult_assoc, Rinv_l, Rmult_1_r by lra. lra. }
    assert (PR : (A / R0 * (A / S0) <= 4.74 * 4.4)%R) by (apply Rmult_le_compat; lra). apply Rle_trans with (1.02 * z * (4.74 * 4.4))%R; [apply Rmult_le_compat_l; lra|lra]. }
  replace (T - wsum vr ks / S0)%R with ((T - rsum' rs) + (rsum' rs - wsum vr ks / R0) + (wsum vr ks / R0 - wsum vr ks / S0))%R by ring. eapply Rle_trans; [apply Rabs_triang|]. eapply Rle_trans; [apply Rplus_le_compat_r; apply Rabs_triang|].
  replace (b * ((27 * INR n + 11) * uu))%R with (b * (27 * z) + b * (11 * uu))%R by (unfold z; ring). assert (0 <= b * z)%R by (apply Rmult_le_pos; lra). lra.
Qed.
