From Coq Require Import Reals Lra ZArith Lia Bool List.
From Flocq Require Import Core IEEE754.BinarySingleNaN.
From Verif Require Import Base BaseLemmas GenImage Float FloatProofs ColorF ColorFProofs Thumb ThumbProofs Sample SampleProofs SampleProofs4 SampleProofs5 Interp InterpProofs Hdr Rgbe RgbeSpec RgbeProofs RgbeProofs2.
Import ListNotations.
Local Open Scope Z_scope.

Lemma inv_t : (/ (1 - / 65536) = 65536 / 65535)%R. Proof. field. Qed.
Lemma as255_range x : 0 <= f32_as 0 255 x <= 255.
Proof. unfold f32_as, float_as. destruct x as [s|[|]| |s m e p]; unfold clampz; lia. Qed.
Lemma mantissa_range mul v : 0 <= mantissa mul v <= 255. Proof. apply as255_range. Qed.

(** one channel, encoded with exponent n = k + 1 and decoded *)
Lemma chan_close mul v mx k : isf mul (bpow radix2 (k + 1)) -> is_finite mx = true -> v = B754_nan \/ Bleb v mx = true ->
  (bpow radix2 k * (1 - / 65536) < B2R mx < bpow radix2 (k + 1) * / (1 - / 65536))%R ->
  let u := (IZR (mantissa mul v) * bpow radix2 (k + 1 - 8))%R in
  (lit v -> (B2R v - B2R mx / 127 <= u <= B2R v)%R) /\ (~ lit v -> u = 0%R).
Proof.
  intros IM FM HV (HL & HH) u. rewrite inv_t in HH. pose proof (bpow_gt_0 radix2 (k + 1)) as BP. split.
  - intros (FV & PV). assert (L : (B2R v <= B2R mx)%R). { destruct HV as [->|L]; [discriminate|]. apply le_fin; assumption. }
    unfold u. rewrite (mantissa_lit mul v (B2R v) (k + 1)); [|split; auto|exact IM|lra].
    set (q := (256 * (B2R v * bpow radix2 (- (k + 1))))%R). pose proof (Zfloor_lb q) as F1. pose proof (Zfloor_ub q) as F2.
    assert (D : bpow radix2 (k + 1 - 8) = (bpow radix2 (k + 1) / 256)%R). { unfold Z.sub. rewrite bpow_plus. unfold Rdiv. f_equal. }
    set (w := bpow radix2 (k + 1 - 8)) in *. assert (W : (0 < w)%R) by apply bpow_gt_0.
    assert (VQ : (B2R v = q * w)%R). { unfold q. rewrite D. unfold Rdiv. replace (256 * (B2R v * bpow radix2 (- (k + 1))) * (bpow radix2 (k + 1) * / 256))%R with (B2R v * (bpow radix2 (- (k + 1)) * bpow radix2 (k + 1)))%R by field. rewrite <- bpow_plus. replace (- (k + 1) + (k + 1)) with 0 by lia. cbn. ring. }
    assert (BK : bpow radix2 (k + 1) = (256 * w)%R) by (rewrite D; field). assert (BK2 : (2 * bpow radix2 k = 256 * w)%R) by (rewrite <- BK, bp; reflexivity).
    assert (MX : (1.004 * w <= B2R mx / 127)%R) by lra.
    assert (Q1 : (q < 256.004)%R). { apply Rmult_lt_reg_r with w; [exact W|]. rewrite <- VQ. lra. }
    destruct (Z.min_spec 255 (Zfloor q)) as [(C & ->)|(C & ->)].
    + assert (256 <= Zfloor q) by lia. assert (256 <= q)%R by (apply Rle_trans with (IZR (Zfloor q)); [apply IZR_le; lia|exact F1]). rewrite VQ. split; [|nra].
      assert ((q - 255) * w <= 1.004 * w)%R by (apply Rmult_le_compat_r; lra). lra.
    + rewrite VQ. assert (IZR (Zfloor q) * w <= q * w)%R by (apply Rmult_le_compat_r; lra). assert (q * w <= (IZR (Zfloor q) + 1) * w)%R by (apply Rmult_le_compat_r; lra). split; lra.
  - intros NL. unfold u. rewrite (mantissa_np mul v (k + 1) IM (not_lit_np v mx FM HV NL)). lra.
Qed.

Lemma accuracy lm m r g b mx : hdr_accurate lm -> largest mx [r; g; b] ->
  (bpow radix2 (-127) <= B2R mx <= 65535 / 65536 * bpow radix2 127)%R ->
  exists p, to_rgbe8 lm m r g b = Ok p /\ rgbe_ok p /\ 127 <= Z.max (p0 p) (Z.max (p1 p) (p2 p)) /\ 1 <= pe p /\
    forall v c, In (v, c) [(r, p0 p); (g, p1 p); (b, p2 p)] -> let u := light c (pe p) in
      (lit v -> (B2R v - B2R mx / 127 <= u <= B2R v)%R) /\ (~ lit v -> u = 0%R).
Proof.
  intros A HM HR. pose proof (bpow_gt_0 radix2 (-127)) as BP. destruct (encode_fin lm m r g b mx A HM ltac:(lra)) as (k & KR & BR & _ & E). cbv zeta in E. assert (HMf := HM). destruct HMf as (HI & FM & HL).
  assert (K : -128 <= k <= 126).
  { destruct BR as (B1 & B2). rewrite inv_t in B2. split.
    - destruct (Z_lt_le_dec k (-128)) as [G|G]; [|exact G]. exfalso. assert (bpow radix2 (k + 1) <= bpow radix2 (-128))%R by (apply bpow_le; lia). pose proof (bp (-128)) as Q. change (-128 + 1) with (-127) in Q. pose proof (bpow_gt_0 radix2 (-128)). lra.
    - destruct (Z_lt_le_dec 126 k) as [G|G]; [|exact G]. exfalso. assert (bpow radix2 127 <= bpow radix2 k)%R by (apply bpow_le; lia). lra. }
  destruct (powi_exact lm A (k + 1) ltac:(lia)) as (PF & PE). set (mul := powi_2 lm (k + 1)) in *. assert (IM : isf mul (bpow radix2 (k + 1))) by (split; assumption).
  assert (WE : wrap_u8 (k + 129) = k + 129) by (unfold wrap_u8; apply Z.mod_small; lia). rewrite WE in E.
  eexists. split; [exact E|]. cbn [p0 p1 p2 pe]. pose proof (mantissa_range mul r). pose proof (mantissa_range mul g). pose proof (mantissa_range mul b).
  split; [unfold rgbe_ok, is_u8, u8_max; cbn [p0 p1 p2 pe]; lia|]. split.
  { assert (MM : 127 <= mantissa mul mx). { rewrite (mantissa_lit mul mx (B2R mx) (k + 1)); [|split; auto|exact IM|rewrite inv_t in BR; pose proof (bpow_gt_0 radix2 (k + 1)); lra].
      apply Z.min_glb; [lia|]. apply Zfloor_lub. apply Rle_trans with (256 * (bpow radix2 k * (1 - / 65536) * bpow radix2 (- (k + 1))))%R.
      - replace (256 * (bpow radix2 k * (1 - / 65536) * bpow radix2 (- (k + 1))))%R with (256 * (1 - / 65536) * (bpow radix2 k * bpow radix2 (- (k + 1))))%R by ring. rewrite <- bpow_plus. replace (k + - (k + 1)) with (-1) by lia. change (bpow radix2 (-1)) with (/ 2)%R. lra.
      - apply Rmult_le_compat_l; [lra|]. apply Rmult_le_compat_r; [apply bpow_ge_0|lra]. }
    destruct HI as [<-|[<-|[<-|[]]]]; lia. }
  split; [lia|]. intros v c IV. assert (U : light c (k + 129) = (IZR (mantissa mul v) * bpow radix2 (k + 1 - 8))%R).
  { unfold light. replace (k + 129 =? 0) with false by lia. replace (k + 129 - 136) with (k + 1 - 8) by lia. f_equal. destruct IV as [Q|[Q|[Q|[]]]]; inversion Q; reflexivity. }
  rewrite U. apply chan_close; auto. apply HL. destruct IV as [Q|[Q|[Q|[]]]]; inversion Q; subst; cbn; auto.
Qed.

(** ** no light at all *)
Lemma nan_le0 : f32_le B754_nan f32_zero = false. Proof. reflexivity. Qed.
Lemma ext_le (x : f32) : is_nan x = false -> f32_le x f32_zero = Rle_bool (ext x) 0.
Proof. intros N. unfold f32_le. rewrite (leb_ext x f32_zero N eq_refl). reflexivity. Qed.
Lemma np_ext (x : f32) : is_nan x = false -> np x -> (ext x <= 0)%R.
Proof. intros N P. pose proof (np_le x P). pose proof (bpow_gt_0 radix2 128). destruct x as [|[|]| |]; cbn [ext np] in *; try tauto; lra. Qed.
Definition dim (x : f32) : Prop := is_nan x = true \/ (is_nan x = false /\ (ext x <= 0)%R).
Lemma np_dim x : np x -> dim x.
Proof. intros P. unfold dim. destruct (is_nan x) eqn:N; [left; reflexivity|right; split; [reflexivity|apply np_ext; assumption]]. Qed.
Lemma max_dim a b : dim a -> dim b -> dim (f32_max a b).
Proof. intros A B. unfold dim. destruct (max_spec a b) as [(N & ->)|[(N & ->)|(N1 & N2 & N3 & EQ)]]; auto. right. split; [exact N3|]. rewrite EQ. unfold dim in *. apply Rmax_lub; [destruct A as [?|[_ ?]]|destruct B as [?|[_ ?]]]; try congruence; assumption. Qed.
Lemma black lm m r g b : hdr_accurate lm -> np r -> np g -> np b -> exists p, to_rgbe8 lm m r g b = Ok p /\ rgbe_ok p /\ p0 p = 0 /\ p1 p = 0 /\ p2 p = 0.
Proof.
  intros A Nr Ng Nb. unfold to_rgbe8. set (M := f32_max r (f32_max g b)).
  assert (H : is_nan M = true \/ (is_nan M = false /\ (ext M <= 0)%R)).
  { apply max_dim; [|apply max_dim]; apply np_dim; assumption. }
  destruct H as [H|(H & H0)].
  - apply nan_true_of in H. rewrite H, nan_le0, (log2_nan lm A). change (f32_as (-2147483648) 2147483647 (f32_floor B754_nan)) with 0. change (i32_add_m m 0 1) with (@Ok Z 1). cbn [bind]. change (i32_add_m m 1 128) with (@Ok Z 129). cbn [bind]. change (wrap_u8 129) with 129.
    destruct (powi_exact lm A 1 ltac:(lia)) as (PF & PE). eexists. split; [reflexivity|]. cbn [p0 p1 p2 pe]. rewrite !(mantissa_np (powi_2 lm 1) _ 1 (conj PE PF)) by assumption. unfold rgbe_ok, is_u8, u8_max. cbn [p0 p1 p2 pe]. lia.
  - rewrite (ext_le M H), Rle_bool_true by exact H0. eexists. split; [reflexivity|]. unfold rgbe_ok, is_u8, u8_max. cbn [p0 p1 p2 pe]. lia.
Qed.

(** ** too bright *)
Lemma bright lm m r g b mx : hdr_accurate lm -> largest mx [r; g; b] -> (32769 / 32768 * bpow radix2 127 <= B2R mx)%R ->
  exists e, to_rgbe8 lm m r g b = Ok (mkRgbe 0 0 0 e) /\ (e = 0 \/ e = 1).
Proof.
  intros A HM HR. pose proof (bpow_gt_0 radix2 127) as BP. destruct (encode_fin lm m r g b mx A HM ltac:(lra)) as (k & KR & BR & _ & E). cbv zeta in E.
  assert (K : 127 <= k). { destruct (Z_lt_le_dec k 127) as [G|G]; [|exact G]. exfalso. destruct BR as (_ & BR). rewrite inv_t in BR. assert (bpow radix2 (k + 1) <= bpow radix2 127)%R by (apply bpow_le; lia). lra. }
  rewrite (powi_over lm A (k + 1)) in E by lia. rewrite !mantissa_inf in E. exists (wrap_u8 (k + 129)). split; [exact E|]. assert (k = 127 \/ k = 128) as [-> | ->] by lia; [left|right]; reflexivity.
Qed.

(** ** too dark *)
Lemma pos_sign x r : isf x r -> (0 < r)%R -> Bsign x = false.
Proof. intros (E & F) P. destruct x as [s|s| |[|] mm e p]; try discriminate; cbn [B2R cond_Zopp] in E; [lra| |reflexivity]. pose proof (F2R_lt_0 radix2 (Float radix2 (Z.neg mm) e) ltac:(reflexivity)). cbn [Z.opp] in *. lra. Qed.
Lemma inf_mul256 : f32_mul (B754_infinity false) (f32_of_Z 256) = B754_infinity false. Proof. reflexivity. Qed.
Lemma mantissa_of_inf x : f32_as 0 255 (f32_trunc (f32_mul x (f32_of_Z 256))) = 255 -> forall mul v, f32_div v mul = x -> mantissa mul v = 255.
Proof. intros H mul v E. unfold mantissa. rewrite E. exact H. Qed.
Lemma mul256_ge x r : isf x r -> (127.5 / 256 <= r)%R -> 127 <= f32_as 0 255 (f32_trunc (f32_mul x (f32_of_Z 256))).
Proof.
  intros (E & F) H. pose proof (Bmult_correct 24 128 f32_prec f32_emax mode_NE x (f32_of_Z 256)) as C. destruct of256 as (E2 & F2). rewrite E, E2 in C. destruct (Rlt_bool _ _) in C.
  - destruct C as (C & CF & _). rewrite F, F2 in CF. change (f32_as 0 255 (f32_trunc (f32_mul x (f32_of_Z 256)))) with (f32_as 0 255 (f32_trunc (Bmult mode_NE x (f32_of_Z 256)))). rewrite (as32_ok 0 255 _ _ (trunc_f_ok _ _ (conj C CF))), Ztrunc_IZR. cbn [round_mode].
    assert (G : (127.5 <= RN32 (r * 256))%R). { apply RN_ge; [exact eq_refl| |lra]. replace 127.5%R with (IZR 255 / IZR (2 ^ 1))%R by (change (2 ^ 1) with 2; lra). apply repr_dyadic; lia. }
    unfold RN32, RN in G. rewrite Ztrunc_floor by lra. assert (127 <= Zfloor (round radix2 (SpecFloat.fexp 24 128) ZnearestE (r * 256))) by (apply Zfloor_lub; lra). unfold clampz. lia.
  - assert (SX : Bsign x = false) by (apply (pos_sign x r); [split; assumption|lra]).
    rewrite SX in C. apply (B2SF_inf _ false) in C. unfold f32_mul. rewrite C. cbn. lia.
Qed.
Lemma mantissa_big mul v V : isf v V -> is_finite mul = true -> Bsign mul = false -> (0 < V)%R -> (B2R mul * (127.5 / 256) <= V)%R -> 127 <= mantissa mul v.
Proof.
  intros IV FM SM P H. destruct IV as (EV & FV). unfold mantissa. destruct (Req_dec (B2R mul) 0) as [Z|NZ].
  - assert (EM : mul = B754_zero false). { destruct mul as [s|s| |s mm e p]; try discriminate; cbn [Bsign] in SM; [congruence|]. exfalso. subst s. cbn [B2R cond_Zopp] in Z. pose proof (F2R_gt_0 radix2 (Float radix2 (Z.pos mm) e) ltac:(reflexivity)). lra. }
    assert (exists mm e p, v = B754_finite false mm e p) as (mm & e & p & ->). { destruct v as [s|s| |[|] mm e p]; try discriminate; cbn [B2R cond_Zopp] in EV; [lra| |eauto]. pose proof (F2R_lt_0 radix2 (Float radix2 (Z.neg mm) e) ltac:(reflexivity)). cbn [Z.opp] in *. lra. }
    rewrite EM. cbn. lia.
  - assert (PM : (0 < B2R mul)%R). { destruct mul as [s|s| |s mm e p]; try discriminate; cbn [Bsign] in SM; subst s; [cbn in NZ; lra|]. cbn [B2R cond_Zopp]. apply F2R_gt_0. reflexivity. }
    pose proof (Bdiv_correct 24 128 f32_prec f32_emax mode_NE v mul NZ) as C. rewrite EV in C. destruct (Rlt_bool _ _) in C.
    + destruct C as (C & F & _). rewrite FV in F. apply (mul256_ge (f32_div v mul) _ (conj C F)). cbn [round_mode]. apply RN_ge; [exact eq_refl| |].
      * replace (127.5 / 256)%R with (IZR 255 / IZR (2 ^ 9))%R by (change (2 ^ 9) with 512; lra). apply repr_dyadic; lia.
      * apply Rmult_le_reg_r with (B2R mul); [exact PM|]. unfold Rdiv at 2. rewrite Rmult_assoc, Rinv_l by lra. lra.
    + assert (SV : Bsign v = false) by (apply (pos_sign v V); [split; assumption|lra]).
      rewrite SV, SM in C. apply (B2SF_inf _ false) in C. unfold f32_div. rewrite C. cbn. lia.
Qed.
Lemma dark lm m r g b mx : hdr_accurate lm -> largest mx [r; g; b] -> (0 < B2R mx <= bpow radix2 (-130))%R ->
  exists p, to_rgbe8 lm m r g b = Ok p /\ rgbe_ok p /\ 127 <= Z.max (p0 p) (Z.max (p1 p) (p2 p)) /\ 235 <= pe p.
Proof.
  intros A HM (P & HR). destruct (encode_fin lm m r g b mx A HM P) as (k & KR & (B1 & B2) & EL & E). cbv zeta in E. destruct HM as (HI & FM & HL).
  assert (K : -150 <= k <= -130).
  { split; [lia|]. destruct (Z_lt_le_dec (-130) k) as [G|G]; [|lia]. exfalso. assert (bpow radix2 (-129) <= bpow radix2 k)%R by (apply bpow_le; lia). pose proof (bp (-130)) as Q. change (-130 + 1) with (-129) in Q. pose proof (bpow_gt_0 radix2 (-130)). lra. }
  assert (K2 : -149 <= k).
  { destruct (Z_lt_le_dec k (-149)) as [G|G]; [|exact G]. exfalso. assert (k = -150) by lia. subst k. rewrite inv_t in B2. change (-150 + 1) with (-149) in B2.
    assert (MN : (bpow radix2 (-149) <= B2R mx)%R). { pose proof (abs_B2R_ge_emin 24 128 mx (strict_of mx FM P)) as Q. rewrite Rabs_pos_eq in Q by lra. exact Q. }
    assert (EQ : B2R mx = bpow radix2 (-149)).
    { assert (exists j, B2R mx = (IZR j * bpow radix2 (-149))%R) as (j & EJ). { pose proof (generic_format_B2R 24 128 mx) as GF. apply FLT_format_generic in GF; [|exact eq_refl]. destruct GF as [[fm fe] E1 E2 E3]. cbn in E1, E2, E3. exists (fm * 2 ^ (fe + 149)). rewrite E1. unfold F2R. cbn [Fnum Fexp]. rewrite mult_IZR. replace (IZR (2 ^ (fe + 149))) with (bpow radix2 (fe + 149)) by (symmetry; apply (IZR_Zpower radix2); lia). rewrite Rmult_assoc, <- bpow_plus. do 2 f_equal. lia. }
      pose proof (bpow_gt_0 radix2 (-149)) as BP. rewrite EJ in *. assert (j = 1); [|subst; ring]. assert (1 <= j). { apply le_IZR. apply Rmult_le_reg_r with (bpow radix2 (-149)); [exact BP|]. lra. } assert (j < 2); [|lia]. apply lt_IZR. apply Rmult_lt_reg_r with (bpow radix2 (-149)); [exact BP|]. lra. }
    destruct (EL mx (conj eq_refl FM)) as (L & (IL & _) & EK). rewrite (log2_exact lm A mx (-149) FM EQ) in IL. rewrite <- IL, Zfloor_IZR in EK. lia. }
  eexists. split; [exact E|]. cbn [p0 p1 p2 pe]. set (mul := powi_2 lm (k + 1)) in *. pose proof (mantissa_range mul r). pose proof (mantissa_range mul g). pose proof (mantissa_range mul b).
  assert (WE : wrap_u8 (k + 129) = k + 385). { unfold wrap_u8. replace (k + 129) with (k + 385 + (-1) * 256) by lia. rewrite Z_mod_plus_full. apply Z.mod_small. lia. }
  rewrite WE. split; [unfold rgbe_ok, is_u8, u8_max; cbn [p0 p1 p2 pe]; lia|]. split; [|lia].
  destruct (powi_under lm A (k + 1) ltac:(lia)) as (PF & PS & PB). fold mul in PF, PS, PB.
  assert (MM : 127 <= mantissa mul mx). { apply (mantissa_big mul mx (B2R mx)); [split; auto|exact PF|exact PS|exact P|]. rewrite bp in PB. lra. }
  destruct HI as [<-|[<-|[<-|[]]]]; lia.
Qed.

(** ** infinite light *)
Lemma infinite lm m r g b : hdr_accurate lm -> In (B754_infinity false) [r; g; b] ->
  to_rgbe8 lm m r g b = match m with Debug => Panic | Release => let f v := mantissa (powi_2 lm (-2147483648)) v in Ok (mkRgbe (f r) (f g) (f b) 128) end.
Proof.
  intros A HI. unfold to_rgbe8. assert (EM : f32_max r (f32_max g b) = B754_infinity false).
  { assert (MI : forall x, f32_max (B754_infinity false) x = B754_infinity false). { intros [s|[|]| |[|] mm e p]; reflexivity. }
    assert (IM : forall x, f32_max x (B754_infinity false) = B754_infinity false). { intros [s|[|]| |[|] mm e p]; reflexivity. }
    destruct HI as [->|[->|[->|[]]]]; rewrite ?MI, ?IM; reflexivity. }
  rewrite EM, (log2_inf lm A). change (f32_le (B754_infinity false) f32_zero) with false. cbv iota. change (f32_as (-2147483648) 2147483647 (f32_floor (B754_infinity false))) with 2147483647. destruct m; [reflexivity|]. change (i32_add_m Release 2147483647 1) with (@Ok Z (-2147483648)). cbn [bind]. change (i32_add_m Release (-2147483648) 128) with (@Ok Z (-2147483520)). cbn [bind]. change (wrap_u8 (-2147483520)) with 128. reflexivity.
Qed.
Lemma mantissa_inf_under mul : is_finite mul = true -> Bsign mul = false -> mantissa mul (B754_infinity false) = 255.
Proof. intros F S'. destruct mul as [s|s| |s mm e p]; try discriminate; cbn [Bsign] in S'; subst s; reflexivity. Qed.

(** ** pixels that come from a file *)
Lemma log2_floor lm x c q j : hdr_accurate lm -> isf x (IZR c * bpow radix2 q) -> 1 <= c <= 255 -> 0 <= j -> 2 ^ j <= c < 2 ^ (j + 1) ->
  exists L, isf (log2_32 lm x) L /\ Zfloor L = j + q.
Proof.
  intros A (EX & FX) HC HJ HP. assert (J7 : j <= 7). { destruct (Z_lt_le_dec 7 j) as [G|G]; [|exact G]. pose proof (Z.pow_le_mono_r 2 8 j). lia. }
  pose proof (bpow_gt_0 radix2 q) as BQ. assert (PX : (0 < B2R x)%R) by (rewrite EX; apply Rmult_lt_0_compat; [apply IZR_lt; lia|exact BQ]).
  destruct (log2_range lm x A FX PX) as (L & IL & LO & HI). exists L. split; [exact IL|]. rewrite EX in LO, HI.
  assert (BJ : bpow radix2 (j + q) = (IZR (2 ^ j) * bpow radix2 q)%R). { rewrite bpow_plus. f_equal. symmetry. apply (IZR_Zpower radix2). exact HJ. }
  destruct (Z.eq_dec c (2 ^ j)) as [Q|Q].
  { destruct IL as (IL & _). assert (EB : B2R x = bpow radix2 (j + q)) by (rewrite EX, BJ, Q; reflexivity). rewrite (log2_exact lm A x (j + q) FX EB) in IL. rewrite <- IL. apply Zfloor_IZR. }
  apply Zfloor_imp. split.
  - destruct (Rle_lt_dec (IZR (j + q)) L) as [G|G]; [exact G|]. exfalso. specialize (HI (j + q) ltac:(lra)). rewrite inv_t, BJ in HI.
    assert (C1 : (IZR c < IZR (2 ^ j) * (65536 / 65535))%R). { apply Rmult_lt_reg_r with (bpow radix2 q); [exact BQ|]. lra. } assert (C2 : (IZR (2 ^ j) + 1 <= IZR c)%R) by (rewrite <- plus_IZR; apply IZR_le; lia). assert (C3 : (IZR (2 ^ j) <= 128)%R) by (apply IZR_le; pose proof (Z.pow_le_mono_r 2 j 7); lia). lra.
  - destruct (Rlt_le_dec L (IZR (j + q + 1))) as [G|G]; [exact G|]. exfalso. specialize (LO (j + q + 1) G).
    rewrite (bp (j + q)), BJ in LO. rewrite Z.pow_add_r in HP by lia. change (2 ^ 1) with 2 in HP.
    assert (C1 : (2 * IZR (2 ^ j) * (1 - / 65536) < IZR c)%R). { apply Rmult_lt_reg_r with (bpow radix2 q); [exact BQ|]. lra. } assert (C2 : (IZR c <= 2 * IZR (2 ^ j) - 1)%R) by (rewrite <- mult_IZR, <- minus_IZR; apply IZR_le; lia). assert (C3 : (IZR (2 ^ j) <= 128)%R) by (apply IZR_le; pose proof (Z.pow_le_mono_r 2 j 7); lia). lra.
Qed.
Lemma leb_of (x y : f32) r s : isf x r -> isf y s -> (r <= s)%R -> Bleb x y = true.
Proof. intros (E & F) (E' & F') H. rewrite (Bleb_correct _ _ x y F F'), E, E'. apply Rle_bool_true. exact H. Qed.
Lemma mantissa_shift mul v c q s : isf v (IZR c * bpow radix2 q) -> isf mul (bpow radix2 (8 + q - s)) -> 0 <= s -> 0 <= c -> c * 2 ^ s <= 255 -> mantissa mul v = c * 2 ^ s.
Proof.
  intros IV IM HS HC HB. pose proof (bpow_gt_0 radix2 q) as BQ. assert (P2 : 1 <= 2 ^ s) by (pose proof (Z.pow_pos_nonneg 2 s); lia). destruct (Z.eq_dec c 0) as [->|NC].
  - rewrite Z.mul_0_l. apply (mantissa_np mul v _ IM). apply np_fin; [apply IV|]. destruct IV as (-> & _). lra.
  - assert (E : (256 * (IZR c * bpow radix2 q * bpow radix2 (- (8 + q - s))) = IZR (c * 2 ^ s))%R).
    { rewrite mult_IZR. replace (IZR (2 ^ s)) with (bpow radix2 s) by (symmetry; apply (IZR_Zpower radix2); lia). replace (256 * (IZR c * bpow radix2 q * bpow radix2 (- (8 + q - s))))%R with (IZR c * (256 * (bpow radix2 q * bpow radix2 (- (8 + q - s)))))%R by ring. f_equal. rewrite b256, <- !bpow_plus. f_equal. lia. }
    rewrite (mantissa_lit mul v _ (8 + q - s) IV IM). { rewrite E, Zfloor_IZR. lia. } split; [apply Rmult_lt_0_compat; [apply IZR_lt; lia|exact BQ]|].
    pose proof (bpow_gt_0 radix2 (8 + q - s)) as BM. apply Rmult_le_reg_r with (256 * bpow radix2 (- (8 + q - s)))%R; [apply Rmult_lt_0_compat; [lra|apply bpow_gt_0]|].
    replace (IZR c * bpow radix2 q * (256 * bpow radix2 (- (8 + q - s))))%R with (256 * (IZR c * bpow radix2 q * bpow radix2 (- (8 + q - s))))%R by ring. rewrite E.
    replace (2 * bpow radix2 (8 + q - s) * (256 * bpow radix2 (- (8 + q - s))))%R with (512 * (bpow radix2 (8 + q - s) * bpow radix2 (- (8 + q - s))))%R by ring. rewrite <- bpow_plus. replace (8 + q - s + - (8 + q - s)) with 0 by lia. cbn [bpow]. apply Rle_trans with (IZR 255); [apply IZR_le; lia|lra].
Qed.
Lemma renormalise lm m p s a b c : hdr_accurate lm -> rgbe_ok p -> 0 <= s < pe p -> 128 <= Z.max (p0 p) (Z.max (p1 p) (p2 p)) * 2 ^ s <= 255 ->
  to_hdr lm p = [a; b; c] -> to_rgbe8 lm m a b c = Ok (mkRgbe (p0 p * 2 ^ s) (p1 p * 2 ^ s) (p2 p * 2 ^ s) (pe p - s)).
Proof.
  intros A OK HS HN ED. destruct (to_hdr_ok lm p A OK) as (a' & b' & c' & ED' & Ia & Ib & Ic). rewrite ED' in ED. injection ED as -> -> ->. clear ED'.
  destruct OK as (H0 & H1 & H2 & HE). unfold is_u8, u8_max in *. unfold light in *. replace (pe p =? 0) with false in * by lia. set (q := pe p - 136) in *. pose proof (bpow_gt_0 radix2 q) as BQ.
  set (M := Z.max (p0 p) (Z.max (p1 p) (p2 p))) in *. assert (P2 : 1 <= 2 ^ s) by (pose proof (Z.pow_pos_nonneg 2 s); lia). assert (MR : 1 <= M <= 255) by nia.
  assert (S7 : s <= 7). { destruct (Z_lt_le_dec 7 s) as [G|G]; [|exact G]. pose proof (Z.pow_le_mono_r 2 8 s). nia. }
  assert (JP : 2 ^ (7 - s) <= M < 2 ^ (7 - s + 1)). { assert (2 ^ (7 - s) * 2 ^ s = 128) by (rewrite <- Z.pow_add_r by lia; replace (7 - s + s) with 7 by lia; reflexivity). assert (2 ^ (7 - s + 1) * 2 ^ s = 256) by (rewrite <- Z.pow_add_r by lia; replace (7 - s + 1 + s) with 8 by lia; reflexivity). nia. }
  assert (LV : forall k, k <= M -> (IZR k * bpow radix2 q <= IZR M * bpow radix2 q)%R) by (intros k HK; apply Rmult_le_compat_r; [lra|apply IZR_le; exact HK]).
  assert (exists mx, largest mx [a; b; c] /\ isf mx (IZR M * bpow radix2 q)) as (mx & LG & IM).
  { assert (M = p0 p \/ M = p1 p \/ M = p2 p) as [Q|[Q|Q]] by lia; [exists a|exists b|exists c]; (split; [|rewrite Q; assumption]); (split; [cbn; auto|]); (split; [first [apply Ia|apply Ib|apply Ic]|]); intros v [<-|[<-|[<-|[]]]]; right; eapply leb_of; eauto; rewrite <- Q; apply LV; lia. }
  assert (PM : (0 < B2R mx)%R). { destruct IM as (-> & _). apply Rmult_lt_0_compat; [apply IZR_lt; lia|exact BQ]. }
  destruct (encode_fin lm m a b c mx A LG PM) as (k & KR & _ & EL & E). destruct (log2_floor lm mx M q (7 - s) A IM MR ltac:(lia) JP) as (L & IL & FL). destruct (EL mx (conj eq_refl (proj2 IM))) as (L' & IL' & FL'). assert (L' = L) by (destruct IL, IL'; congruence). subst L'. rewrite FL in FL'.
  cbv zeta in E. rewrite E. assert (KE : k + 1 = 8 + q - s) by lia. rewrite KE. destruct (powi_exact lm A (8 + q - s) ltac:(unfold q in *; lia)) as (PF & PE).
  assert (X : forall z, z <= M -> z * 2 ^ s <= 255) by (intros z HZ; nia).
  rewrite (mantissa_shift _ a _ q s Ia (conj PE PF)), (mantissa_shift _ b _ q s Ib (conj PE PF)), (mantissa_shift _ c _ q s Ic (conj PE PF)) by (try apply X; lia).
  do 2 f_equal. unfold wrap_u8. replace (k + 129) with (pe p - s) by (unfold q in *; lia). apply Z.mod_small. lia.
Qed.
Lemma light_shift c e s : 0 <= s < e -> light (c * 2 ^ s) (e - s) = light c e.
Proof.
  intros H. unfold light. replace (e - s =? 0) with false by lia. replace (e =? 0) with false by lia. rewrite mult_IZR. replace (IZR (2 ^ s)) with (bpow radix2 s) by (symmetry; apply (IZR_Zpower radix2); lia). rewrite Rmult_assoc, <- bpow_plus. do 2 f_equal. lia.
Qed.
