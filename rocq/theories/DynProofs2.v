(** rgb_to_luma for f32 samples *)
From Coq Require Import Reals Lra.
From Flocq Require Import IEEE754.BinarySingleNaN Core.Core.
From Verif Require Import Base BaseLemmas Float FloatProofs Color ColorF ColorFProofs Dyn DynSpec.
Local Open Scope Z_scope.

Notation RN64 := (RN 53 1024).
Notation RN32 := (RN 24 128).
Definition is64 (x : f64) (r : R) : Prop := B2R x = r /\ is_finite x = true.
Lemma repr64_F2R c q : Z.abs c < 2 ^ 53 -> -1074 <= q -> repr 53 1024 (IZR c * bpow radix2 q).
Proof. intros HC HQ. apply generic_format_FLT. exists (Float radix2 c q); [reflexivity|exact HC|exact HQ]. Qed.

(** the shape of a finite f32 *)
Lemma f32_parts (x : f32) : is_finite x = true -> exists m e, B2R x = (IZR m * bpow radix2 e)%R /\ Z.abs m < 2 ^ 24 /\ -149 <= e /\ (Z.abs m * 2 ^ (e + 149) < 2 ^ (128 + 149)).
Proof.
  intros F. destruct x as [s| | |s m e B]; try discriminate.
  - exists 0, (-149). cbn [B2R]. rewrite Rmult_0_l. split; [reflexivity|]. vm_compute. repeat split; congruence.
  - exists (cond_Zopp s (Z.pos m)), e. split; [reflexivity|].
    destruct (andb_prop _ _ B) as [B1 B2]. apply Zle_bool_imp_le in B2. unfold SpecFloat.canonical_mantissa in B1. apply Zeq_bool_eq in B1.
    unfold SpecFloat.fexp, SpecFloat.emin in B1. rewrite Digits.Zpos_digits2_pos in B1.
    pose proof (Digits.Zdigits_correct radix2 (Z.pos m)) as [_ DC]. set (dg := Digits.Zdigits radix2 (Z.pos m)) in *. cbn [Z.abs] in DC.
    assert (AB : Z.abs (cond_Zopp s (Z.pos m)) = Z.pos m) by (destruct s; reflexivity). rewrite AB.
    assert (DG : dg <= 24) by lia. assert (DP : 0 <= dg) by (apply Digits.Zdigits_ge_0).
    assert (P : Z.pos m < 2 ^ dg) by exact DC. assert (Q : 2 ^ dg <= 2 ^ 24) by (apply Z.pow_le_mono_r; lia).
    split; [lia|]. split; [lia|]. apply Z.lt_le_trans with (2 ^ 24 * 2 ^ (e + 149)).
    + apply Z.mul_lt_mono_pos_r; [apply Z.pow_pos_nonneg; lia|lia].
    + rewrite <- Z.pow_add_r by lia. apply Z.pow_le_mono_r; lia.
Qed.
Lemma norm_ok prec emax (Hp : Prec_gt_0 prec) (He : Prec_lt_emax prec emax) (s : bool) (p : positive) e :
  let v := F2R (beta := radix2) {| Fnum := cond_Zopp s (Z.pos p); Fexp := e |} in (Rabs (RN prec emax v) < bpow radix2 emax)%R ->
  let z := binary_normalize prec emax Hp He mode_NE (if s then Z.neg p else Z.pos p) e s in B2R z = RN prec emax v /\ is_finite z = true.
Proof.
  intros v HV z. pose proof (binary_normalize_correct prec emax Hp He mode_NE (if s then Z.neg p else Z.pos p) e s) as C. cbv zeta in C. fold z in C. cbn [round_mode] in C.
  change (if s then Z.neg p else Z.pos p) with (cond_Zopp s (Z.pos p)) in C. fold v in C.
  unfold RN in *. rewrite Rlt_bool_true in C by exact HV. destruct C as (C & F & _). auto.
Qed.
Lemma f32_lt_128 (x : f32) : is_finite x = true -> (Rabs (B2R x) < bpow radix2 128)%R.
Proof. intros _. apply abs_B2R_lt_emax. Qed.
Lemma f64_of_f32_ok (x : f32) : is_finite x = true -> is64 (f64_of_f32 x) (B2R x).
Proof.
  intros F. destruct (f32_parts x F) as (m & e & E & HM & HE & _). pose proof (f32_lt_128 x F) as LT. destruct x as [s| | |s p q B]; try discriminate; [split; reflexivity|].
  assert (R : RN64 (B2R (B754_finite s p q B)) = B2R (B754_finite s p q B)). { apply RN_repr. rewrite E. apply repr64_F2R; lia. }
  destruct (norm_ok 53 1024 f64_prec f64_emax s p q) as (V & FF).
  - change (F2R _) with (B2R (B754_finite s p q B)). rewrite R. eapply Rlt_le_trans; [exact LT|]. apply bpow_le. lia.
  - change (F2R _) with (B2R (B754_finite s p q B)) in V. rewrite R in V. split; assumption.
Qed.
Lemma f32_of_f64_ok (x : f64) : is_finite x = true -> (Rabs (RN32 (B2R x)) < bpow radix2 128)%R -> isf (f32_of_f64 x) (RN32 (B2R x)).
Proof.
  intros F LT. destruct x as [s| | |s p q B]; try discriminate; [split; [cbn [B2R f32_of_f64]; symmetry; apply RN_0|reflexivity]|].
  destruct (norm_ok 24 128 f32_prec f32_emax s p q) as (V & FF); [exact LT|]. split; assumption.
Qed.
Definition maxR : R := (IZR (2 ^ 24 - 1) * bpow radix2 104)%R.
Lemma max_ok : isf f32_max_value maxR /\ isf f32_min_value (- maxR).
Proof.
  split.
  - split; [|reflexivity]. replace f32_max_value with (@B754_finite 24 128 false 16777215 104 eq_refl); [reflexivity|]. unfold f32_max_value. apply B2SF_inj. vm_compute. reflexivity.
  - split; [|reflexivity]. replace f32_min_value with (@B754_finite 24 128 true 16777215 104 eq_refl).
    + unfold B2R, F2R, maxR. cbn [Fnum Fexp cond_Zopp]. change (- Z.pos 16777215) with (- (2 ^ 24 - 1)). rewrite opp_IZR. ring.
    + unfold f32_min_value. apply B2SF_inj. vm_compute. reflexivity.
Qed.
Lemma f32_le_max (x : f32) : is_finite x = true -> (Rabs (B2R x) <= maxR)%R.
Proof.
  intros F. pose proof (abs_B2R_le_emax_minus_prec 24 128 f32_prec x) as H.
  eapply Rle_trans; [exact H|]. right. unfold maxR. change (128 - 24) with 104. change (bpow radix2 128) with (bpow radix2 (24 + 104)). rewrite bpow_plus. change (2 ^ 24 - 1) with 16777215. change (bpow radix2 24) with 16777216%R. ring.
Qed.
Lemma clamp_from_ok (n : f64) : is_finite n = true -> (Rabs (B2R n) <= maxR)%R -> isf (clamp_from_f n) (RN32 (B2R n)).
Proof.
  intros F H. apply Rabs_le_inv in H. destruct max_ok as ((X1 & X2) & (M1 & M2)). unfold clamp_from_f.
  destruct (f64_of_f32_ok _ X2) as (A1 & A2). destruct (f64_of_f32_ok _ M2) as (B1 & B2). rewrite X1 in A1. rewrite M1 in B1.
  rewrite !Bltb_correct by assumption. rewrite A1, B1.
  rewrite Rlt_bool_false by lra. rewrite Rlt_bool_false by lra. apply f32_of_f64_ok; [exact F|].
  assert (R1 : repr 24 128 maxR) by (rewrite <- X1; apply generic_format_B2R). assert (R2 : repr 24 128 (- maxR)) by (rewrite <- M1; apply generic_format_B2R).
  assert (maxR < bpow radix2 128)%R by (rewrite <- X1; eapply Rle_lt_trans; [apply Rle_abs|]; apply abs_B2R_lt_emax).
  apply Rabs_lt. pose proof (RN_le_r 24 128 f32_prec (B2R n) _ R1 (proj2 H)). pose proof (RN_ge 24 128 f32_prec _ (B2R n) R2 (proj1 H)). lra.
Qed.
Lemma ofZ64 n : Z.abs n < 2 ^ 53 -> is64 (f64_of_Z n) (IZR n).
Proof. intros H. apply (ofZ_ok 53 1024 f64_prec f64_emax n H). Qed.

(** operations on f64 values whose exact result is a number of the format *)
Lemma fits64 v : repr 53 1024 v -> (Rabs v < bpow radix2 1024)%R -> Rlt_bool (Rabs (round radix2 (SpecFloat.fexp 53 1024) ZnearestE v)) (bpow radix2 1024) = true.
Proof. intros R B. pose proof (RN_repr 53 1024 _ R) as Q. unfold RN in Q. rewrite Q. apply Rlt_bool_true. exact B. Qed.
Lemma mul64_exact x y r s : is64 x r -> is64 y s -> repr 53 1024 (r * s) -> (Rabs (r * s) < bpow radix2 1024)%R -> is64 (f64_mul x y) (r * s).
Proof.
  intros (E1 & F1) (E2 & F2) R B. pose proof (Bmult_correct 53 1024 f64_prec f64_emax mode_NE x y) as C. cbn [round_mode] in C. rewrite E1, E2 in C.
  rewrite (fits64 _ R B) in C. destruct C as (C & F & _). split; [|unfold f64_mul; rewrite F, F1, F2; reflexivity]. unfold f64_mul. rewrite C. apply (RN_repr 53 1024 _ R).
Qed.
Lemma add64_exact x y r s : is64 x r -> is64 y s -> repr 53 1024 (r + s) -> (Rabs (r + s) < bpow radix2 1024)%R -> is64 (f64_add x y) (r + s).
Proof.
  intros (E1 & F1) (E2 & F2) R B. pose proof (Bplus_correct 53 1024 f64_prec f64_emax mode_NE x y F1 F2) as C. cbn [round_mode] in C. rewrite E1, E2 in C.
  rewrite (fits64 _ R B) in C. destruct C as (C & F & _). split; [|exact F]. unfold f64_add. rewrite C. apply (RN_repr 53 1024 _ R).
Qed.
Lemma div64_exact x y r s : is64 x r -> is64 y s -> s <> 0%R -> repr 53 1024 (r / s) -> (Rabs (r / s) < bpow radix2 1024)%R -> is64 (f64_div x y) (r / s).
Proof.
  intros (E1 & F1) (E2 & F2) NZ R B. pose proof (Bdiv_correct 53 1024 f64_prec f64_emax mode_NE x y ltac:(rewrite E2; exact NZ)) as C. cbn [round_mode] in C. rewrite E1, E2 in C.
  rewrite (fits64 _ R B) in C. destruct C as (C & F & _). split; [|unfold f64_div; rewrite F; exact F1]. unfold f64_div. rewrite C. apply (RN_repr 53 1024 _ R).
Qed.
(** a grey pixel keeps its value exactly *)
Lemma luma_f_grey (v : f32) rest : is_finite v = true -> exists l, rgb_to_luma_f (v :: v :: v :: rest) = Ok l /\ isf l (B2R v).
Proof.
  intros F. destruct (f32_parts v F) as (m & e & E & HM & HE & _). pose proof (f32_lt_128 v F) as LT. pose proof (f64_of_f32_ok v F) as V.
  assert (K : forall k, 0 <= k <= 10000 -> repr 53 1024 (IZR k * B2R v) /\ (Rabs (IZR k * B2R v) < bpow radix2 1024)%R).
  { intros k Hk. split.
    - rewrite E, <- Rmult_assoc, <- mult_IZR. apply repr64_F2R; [|lia]. rewrite Z.abs_mul. change (2 ^ 53) with (536870912 * 2 ^ 24). nia.
    - rewrite Rabs_mult. apply Rle_lt_trans with (bpow radix2 14 * Rabs (B2R v))%R.
      + apply Rmult_le_compat_r; [apply Rabs_pos|]. change (bpow radix2 14) with 16384%R. rewrite <- abs_IZR. apply IZR_le. lia.
      + apply Rlt_trans with (bpow radix2 14 * bpow radix2 128)%R; [apply Rmult_lt_compat_l; [apply bpow_gt_0|exact LT]|]. rewrite <- bpow_plus. apply bpow_lt. lia. }
  assert (M : forall k, 0 <= k <= 10000 -> is64 (f64_mul (f64_of_Z k) (f64_of_f32 v)) (IZR k * B2R v)).
  { intros k Hk. destruct (K k Hk). apply mul64_exact; [apply ofZ64; lia|exact V|assumption|assumption]. }
  assert (A : forall x y j k, 0 <= j -> 0 <= k -> j + k <= 10000 -> is64 x (IZR j * B2R v) -> is64 y (IZR k * B2R v) -> is64 (f64_add x y) (IZR (j + k) * B2R v)).
  { intros x y j k Hj Hk Hs Hx Hy. destruct (K (j + k) ltac:(lia)) as (R & B). rewrite plus_IZR, Rmult_plus_distr_r in *. apply add64_exact; assumption. }
  eexists. split; [reflexivity|]. cbv zeta.
  pose proof (A _ _ 2126 7152 ltac:(lia) ltac:(lia) ltac:(lia) (M 2126 ltac:(lia)) (M 7152 ltac:(lia))) as S1.
  pose proof (A _ _ (2126 + 7152) 722 ltac:(lia) ltac:(lia) ltac:(lia) S1 (M 722 ltac:(lia))) as S2. change (2126 + 7152 + 722) with 10000 in S2.
  assert (Q : (IZR 10000 * B2R v / IZR 10000 = B2R v)%R) by (field).
  destruct (K 1 ltac:(lia)) as (R1 & B1). rewrite Rmult_1_l in R1, B1.
  assert (D : is64 (f64_div (f64_add (f64_add (f64_mul (f64_of_Z 2126) (f64_of_f32 v)) (f64_mul (f64_of_Z 7152) (f64_of_f32 v))) (f64_mul (f64_of_Z 722) (f64_of_f32 v))) (f64_of_Z 10000)) (B2R v)).
  { rewrite <- Q. apply div64_exact; [exact S2|apply ofZ64; lia|lra|rewrite Q; exact R1|rewrite Q; exact B1]. }
  destruct D as (D1 & D2). pose proof (clamp_from_ok _ D2) as C. rewrite D1 in C. specialize (C (f32_le_max v F)).
  rewrite (RN_repr 24 128 (B2R v)) in C by apply generic_format_B2R. exact C.
Qed.
(** accuracy for samples between 0 and 1 *)
Lemma mul64 x y r s M : is64 x r -> is64 y s -> 0 <= M < 2 ^ 53 -> (Rabs (r * s) <= IZR M)%R -> is64 (f64_mul x y) (RN64 (r * s)).
Proof. intros (E1 & F1) (E2 & F2) HM H. rewrite <- E1, <- E2 in *. apply (mul_ok 53 1024 f64_prec f64_emax x y M F1 F2 HM H). Qed.
Lemma add64 x y r s M : is64 x r -> is64 y s -> 0 <= M < 2 ^ 53 -> (Rabs (r + s) <= IZR M)%R -> is64 (f64_add x y) (RN64 (r + s)).
Proof. intros (E1 & F1) (E2 & F2) HM H. rewrite <- E1, <- E2 in *. apply (add_ok 53 1024 f64_prec f64_emax x y M F1 F2 HM H). Qed.
Lemma div64 x y r s M : is64 x r -> is64 y s -> s <> 0%R -> 0 <= M < 2 ^ 53 -> (Rabs (r / s) <= IZR M)%R -> is64 (f64_div x y) (RN64 (r / s)).
Proof. intros (E1 & F1) (E2 & F2) NZ HM H. rewrite <- E1, <- E2 in *. apply (div_ok 53 1024 f64_prec f64_emax x y M F1 NZ HM H). Qed.
Lemma near64 x M e : 0 <= M < 2 ^ 53 -> (0 <= x <= IZR M)%R -> (IZR M < bpow radix2 e)%R -> -1021 <= e -> (0 <= RN64 x <= IZR M)%R /\ (Rabs (RN64 x - x) <= bpow radix2 (e - 54))%R.
Proof.
  intros HM H B He. split.
  - split.
    + rewrite <- (RN_0 53 1024). apply RN_le; [exact f64_prec|lra].
    + apply RN_le_r; [exact f64_prec|apply repr_Z; [exact f64_prec|exact f64_emax|lia]|lra].
  - replace (e - 54) with (e - 53 - 1) by lia. apply RN_err; [exact f64_prec|lia|]. rewrite Rabs_pos_eq by lra. lra.
Qed.
Lemma luma_f_unit (r g b : f32) rest : is_finite r = true -> is_finite g = true -> is_finite b = true ->
  (0 <= B2R r <= 1)%R -> (0 <= B2R g <= 1)%R -> (0 <= B2R b <= 1)%R ->
  exists l, rgb_to_luma_f (r :: g :: b :: rest) = Ok l /\ is_finite l = true /\ (0 <= B2R l <= 1)%R /\
    (Rabs (B2R l - (0.2126 * B2R r + 0.7152 * B2R g + 0.0722 * B2R b)) <= / 8388608)%R.
Proof.
  intros Fr Fg Fb Hr Hg Hb. pose proof (f64_of_f32_ok r Fr) as Vr. pose proof (f64_of_f32_ok g Fg) as Vg. pose proof (f64_of_f32_ok b Fb) as Vb.
  set (x := B2R r) in *. set (y := B2R g) in *. set (z := B2R b) in *. clearbody x y z.
  assert (P12 : bpow radix2 12 = 4096%R) by reflexivity. assert (P13 : bpow radix2 13 = 8192%R) by reflexivity. assert (P14 : bpow radix2 14 = 16384%R) by reflexivity. assert (P1 : bpow radix2 1 = 2%R) by reflexivity.
  assert (E13 : bpow radix2 (13 - 54) = (/ 2199023255552)%R) by reflexivity. assert (E14 : bpow radix2 (14 - 54) = (/ 1099511627776)%R) by reflexivity. assert (E1 : bpow radix2 (1 - 54) = (/ 9007199254740992)%R) by reflexivity.
  destruct (near64 (2126 * x) 2126 13 ltac:(lia) ltac:(lra) ltac:(lra) ltac:(lia)) as (A1 & A2).
  destruct (near64 (7152 * y) 7152 13 ltac:(lia) ltac:(lra) ltac:(lra) ltac:(lia)) as (B1 & B2).
  destruct (near64 (722 * z) 722 13 ltac:(lia) ltac:(lra) ltac:(lra) ltac:(lia)) as (C1 & C2).
  pose proof (mul64 _ _ _ _ 2126 (ofZ64 2126 ltac:(lia)) Vr ltac:(lia) ltac:(rewrite Rabs_pos_eq; lra)) as MA.
  pose proof (mul64 _ _ _ _ 7152 (ofZ64 7152 ltac:(lia)) Vg ltac:(lia) ltac:(rewrite Rabs_pos_eq; lra)) as MB.
  pose proof (mul64 _ _ _ _ 722 (ofZ64 722 ltac:(lia)) Vb ltac:(lia) ltac:(rewrite Rabs_pos_eq; lra)) as MC.
  set (a := RN64 (2126 * x)) in *. set (b' := RN64 (7152 * y)) in *. set (c := RN64 (722 * z)) in *. clearbody a b' c.
  destruct (near64 (a + b') 9278 14 ltac:(lia) ltac:(lra) ltac:(lra) ltac:(lia)) as (S1 & S2).
  pose proof (add64 _ _ _ _ 9278 MA MB ltac:(lia) ltac:(rewrite Rabs_pos_eq; lra)) as MS. set (s := RN64 (a + b')) in *. clearbody s.
  destruct (near64 (s + c) 10000 14 ltac:(lia) ltac:(lra) ltac:(lra) ltac:(lia)) as (T1 & T2).
  pose proof (add64 _ _ _ _ 10000 MS MC ltac:(lia) ltac:(rewrite Rabs_pos_eq; lra)) as MT. set (t := RN64 (s + c)) in *. clearbody t.
  assert (Q : (0 <= t / 10000 <= 1)%R) by lra.
  destruct (near64 (t / 10000) 1 1 ltac:(lia) ltac:(lra) ltac:(lra) ltac:(lia)) as (Q1 & Q2).
  pose proof (div64 _ _ _ _ 1 MT (ofZ64 10000 ltac:(lia)) ltac:(lra) ltac:(lia) ltac:(rewrite Rabs_pos_eq; lra)) as MQ. set (q := RN64 (t / 10000)) in *. clearbody q.
  destruct MQ as (MQ1 & MQ2). pose proof (clamp_from_ok _ MQ2) as CL. rewrite MQ1 in CL.
  assert (MX : (1 <= maxR)%R). { unfold maxR. change (2 ^ 24 - 1) with 16777215. pose proof (bpow_ge_0 radix2 104). assert (1 <= bpow radix2 104)%R by (change 1%R with (bpow radix2 0); apply bpow_le; lia). lra. }
  specialize (CL ltac:(rewrite Rabs_pos_eq; lra)). destruct CL as (CL1 & CL2).
  eexists. split; [reflexivity|]. cbv zeta. split; [exact CL2|]. rewrite CL1.
  assert (L : (0 <= RN32 q <= 1)%R). { split; [rewrite <- (RN_0 24 128); apply RN_le; [exact f32_prec|lra]|]. apply RN_le_r; [exact f32_prec|apply (repr_Z 24 128 f32_prec f32_emax 1); lia|lra]. }
  split; [exact L|].
  pose proof (RN_err 24 128 f32_prec 1 q ltac:(lia) ltac:(rewrite Rabs_pos_eq; lra)) as QE. change (bpow radix2 (1 - 24 - 1)) with (/ 16777216)%R in QE.
  rewrite E13 in *. rewrite E14 in *. rewrite E1 in *. set (w := RN32 q) in *. clearbody w.
  apply Rabs_le_inv in A2, B2, C2, S2, T2, Q2, QE. apply Rabs_le. split; lra.
Qed.
