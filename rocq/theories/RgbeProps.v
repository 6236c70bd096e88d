(** C59: storing f32 colours in Radiance HDR pixels. *)
From Coq Require Import Reals Lra ZArith Lia Bool List.
From Flocq Require Import Core IEEE754.BinarySingleNaN.
From Verif Require Import Base BaseLemmas ListMore GenImage Float FloatProofs Color ColorProofs ColorF ColorFProofs Thumb ThumbProofs ThumbProofs2 Sample SampleProofs SampleProofs4 SampleProofs5 Interp InterpProofs Hdr HdrProofs3 HdrProps Rgbe RgbeSpec RgbeProofs RgbeProofs2 RgbeProofs3.
Import ListNotations.
Local Open Scope Z_scope.

(** A pixel read from a file stands for component * 2^(e - 136) exactly, whatever its bytes; e = 0 is black. *)
Theorem C59_decode_exact lm p : hdr_accurate lm -> rgbe_ok p ->
  exists a b c, to_hdr lm p = [a; b; c] /\ is a (light (p0 p) (pe p)) /\ is b (light (p1 p) (pe p)) /\ is c (light (p2 p) (pe p)).
Proof. intros A OK. destruct (to_hdr_ok lm p A OK) as (a & b & c & E & (? & ?) & (? & ?) & (? & ?)). exists a, b, c. repeat split; auto. Qed.

(** Encoding a colour and decoding it loses at most 1/127 of the largest component and never adds light; negative components,
    -infinity and NaN become 0.  In both build modes, without a panic. *)
Theorem C59_accuracy lm m r g b tol : hdr_accurate lm -> storable [r; g; b] tol ->
  exists p, to_rgbe8 lm m r g b = Ok p /\ rgbe_ok p /\ Forall2 (kept tol) [r; g; b] (to_hdr lm p).
Proof.
  intros A [(-> & H)|(mx & HM & HR & ->)].
  - assert (N : forall v, In v [r; g; b] -> np v). { intros v HV. destruct (H v HV) as (NL & NI). destruct v as [s|[|]| |[|] mm e q]; cbn [np]; auto. apply NL. split; [reflexivity|]. cbn [B2R cond_Zopp]. apply F2R_gt_0. reflexivity. }
    destruct (black lm m r g b A) as (p & E & OK & E0 & E1 & E2); try (apply N; cbn; auto). exists p. split; [exact E|]. split; [exact OK|].
    destruct (to_hdr_ok lm p A OK) as (a & b' & c & ED & I0 & I1 & I2). rewrite ED. rewrite E0 in I0. rewrite E1 in I1. rewrite E2 in I2. assert (L0 : light 0 (pe p) = 0%R) by (unfold light; destruct (pe p =? 0); lra). rewrite L0 in *.
    assert (K : forall v u, In v [r; g; b] -> isf u 0 -> kept 0 v u). { intros v u HV (EU & FU). split; [exact FU|]. split; [intros HL; destruct (H v HV); tauto|intros _; exact EU]. }
    constructor; [apply K; auto; cbn; auto|]. constructor; [apply K; auto; cbn; auto|]. constructor; [apply K; auto; cbn; auto|constructor].
  - destruct (accuracy lm m r g b mx A HM HR) as (p & E & OK & _ & _ & HC). exists p. split; [exact E|]. split; [exact OK|].
    destruct (to_hdr_ok lm p A OK) as (a & b' & c & ED & I0 & I1 & I2). rewrite ED.
    assert (K : forall v u z, In (v, z) [(r, p0 p); (g, p1 p); (b, p2 p)] -> isf u (light z (pe p)) -> kept (B2R mx / 127) v u). { intros v u z HV (EU & FU). destruct (HC v z HV) as (K1 & K2). split; [exact FU|]. rewrite EU. split; assumption. }
    constructor; [apply (K r a (p0 p)); cbn; auto|]. constructor; [apply (K g b' (p1 p)); cbn; auto|]. constructor; [apply (K b c (p2 p)); cbn; auto|constructor].
Qed.

(** Whole images: an image of storable colours, encoded and decoded, comes back pixel by pixel within that loss (widths the
    encoder run-length codes) *)
Lemma map_res_fun {A B} (f : A -> res B) l : (forall x, In x l -> exists y, f x = Ok y) -> exists ys, map_res f l = Ok ys /\ zlen ys = zlen l /\ forall i x, zget l i = Some x -> exists y, f x = Ok y /\ zget ys i = Some y.
Proof.
  induction l as [|x l IH]; intros H.
  - exists []. split; [reflexivity|]. split; [reflexivity|]. intros i x E. rewrite zget_nil in E. discriminate.
  - destruct (H x ltac:(left; reflexivity)) as (y & E). destruct IH as (ys & E' & L & G); [intros z HZ; apply H; right; exact HZ|]. exists (y :: ys). cbn [map_res]. rewrite E, E'. cbn [bind]. split; [reflexivity|]. split; [rewrite !zlen_cons; lia|].
    intros i z Z1. destruct (Z.eq_dec i 0) as [->|NI].
    + cbn in Z1 |- *. injection Z1 as <-. eauto.
    + rewrite zget_cons in Z1. rewrite zget_cons. replace (i =? 0) with false in * by lia. apply G. exact Z1.
Qed.
Theorem C59_file_accuracy lm m m' fl px w h : hdr_accurate lm -> 8 <= w <= 32767 -> is_u32 h -> zlen px = w * h -> w * h * 3 <= u64_max ->
  (forall r g b, In (r, g, b) px -> exists tol, storable [r; g; b] tol) ->
  exists file, hdr_encode lm m px w h = Ok file /\ exists out, hdr_decode fl (to_hdr lm) m' file = Ok (w, h, out) /\ zlen out = w * h /\
    forall i r g b tol, zget px i = Some (r, g, b) -> storable [r; g; b] tol -> exists q, zget out i = Some q /\ Forall2 (kept tol) [r; g; b] q.
Proof.
  intros A HW HH HL HB HS. destruct (map_res_fun (fun '(r, g, b) => to_rgbe8 lm m r g b) px) as (ps & E & L & G).
  { intros [[r g] b] HI. destruct (HS r g b HI) as (tol & T). destruct (C59_accuracy lm m r g b tol A T) as (p & EP & _). exists p. exact EP. }
  destruct (C43_file_roundtrip_rle _ (to_hdr lm) fl m' w h ps HW HH ltac:(lia) HB) as (file & EF & ED). exists file. unfold hdr_encode. rewrite E. cbn [bind]. split; [exact EF|].
  specialize (ED []). rewrite app_nil_r in ED. rewrite firstn_all2 in ED by (unfold zlen in *; lia). eexists. split; [exact ED|]. split; [unfold zlen in *; rewrite map_length; lia|].
  intros i r g b tol EI T. destruct (G i _ EI) as (p & EP & EZ). destruct (C59_accuracy lm m r g b tol A T) as (p' & EP' & _ & K). assert (p' = p) by (apply Ok_inj; rewrite <- EP', <- EP; reflexivity). subst p'.
  exists (to_hdr lm p). split; [|exact K]. rewrite zget_map, EZ. reflexivity.
Qed.

(** Re-encoding a colour that came from a file: the components are shifted up until the largest is at least 128 and the
    exponent lowered to match; the colour is unchanged, and so are the bytes of a pixel that already has a component >= 128 *)
Theorem C59_reencode lm m p s a b c : hdr_accurate lm -> rgbe_ok p -> 0 <= s < pe p -> 128 <= Z.max (p0 p) (Z.max (p1 p) (p2 p)) * 2 ^ s <= 255 ->
  to_hdr lm p = [a; b; c] ->
  to_rgbe8 lm m a b c = Ok (mkRgbe (p0 p * 2 ^ s) (p1 p * 2 ^ s) (p2 p * 2 ^ s) (pe p - s)) /\
  light (p0 p * 2 ^ s) (pe p - s) = light (p0 p) (pe p) /\ light (p1 p * 2 ^ s) (pe p - s) = light (p1 p) (pe p) /\ light (p2 p * 2 ^ s) (pe p - s) = light (p2 p) (pe p).
Proof. intros A OK HS HN E. split; [apply (renormalise lm m p s a b c); assumption|]. repeat split; apply light_shift; exact HS. Qed.
Theorem C59_reencode_normalised lm m p a b c : hdr_accurate lm -> rgbe_ok p -> 1 <= pe p -> 128 <= Z.max (p0 p) (Z.max (p1 p) (p2 p)) ->
  to_hdr lm p = [a; b; c] -> to_rgbe8 lm m a b c = Ok p.
Proof.
  intros A OK HE HN E. destruct OK as (U0 & U1 & U2 & UE) eqn:Q. unfold is_u8, u8_max in *. destruct (C59_reencode lm m p 0 a b c A OK ltac:(lia) ltac:(change (2 ^ 0) with 1; lia) E) as (-> & _). change (2 ^ 0) with 1. rewrite !Z.mul_1_r, Z.sub_0_r. destruct p; reflexivity.
Qed.

(** Too bright: a largest component from about 2^127 up is stored as black *)
Theorem C59_bright_refuted lm m r g b mx : hdr_accurate lm -> largest mx [r; g; b] -> (32769 / 32768 * bpow radix2 127 <= B2R mx)%R ->
  exists p, to_rgbe8 lm m r g b = Ok p /\ rgbe_ok p /\ light (p0 p) (pe p) = 0%R /\ light (p1 p) (pe p) = 0%R /\ light (p2 p) (pe p) = 0%R.
Proof.
  intros A HM HR. destruct (bright lm m r g b mx A HM HR) as (e & E & He). eexists. split; [exact E|]. cbn [p0 p1 p2 pe]. unfold rgbe_ok, is_u8, u8_max, light. cbn [p0 p1 p2 pe]. split; [lia|]. destruct (e =? 0); repeat split; lra.
Qed.
(** Too dark: a largest component in (0, 2^-130] wraps the exponent and is read back as more than 10^31 *)
Theorem C59_dark_refuted lm m r g b mx : hdr_accurate lm -> largest mx [r; g; b] -> (0 < B2R mx <= bpow radix2 (-130))%R ->
  exists p, to_rgbe8 lm m r g b = Ok p /\ rgbe_ok p /\ (IZR (10 ^ 31) <= Rmax (light (p0 p) (pe p)) (Rmax (light (p1 p) (pe p)) (light (p2 p) (pe p))))%R.
Proof.
  intros A HM HR. destruct (dark lm m r g b mx A HM HR) as (p & E & OK & HC & HE). exists p. split; [exact E|]. split; [exact OK|].
  assert (L : forall z, 127 <= z -> (IZR (10 ^ 31) <= light z (pe p))%R).
  { intros z HZ. unfold light. replace (pe p =? 0) with false by lia. apply Rle_trans with (IZR 127 * IZR (2 ^ 99))%R; [rewrite <- mult_IZR; apply IZR_le; vm_compute; discriminate|]. replace (IZR (2 ^ 99)) with (bpow radix2 99) by (symmetry; apply (IZR_Zpower radix2); lia). apply Rmult_le_compat; [lra|apply bpow_ge_0|apply IZR_le; lia|apply bpow_le; lia]. }
  destruct (Z_le_gt_dec 127 (p0 p)) as [G|G]; [apply Rle_trans with (light (p0 p) (pe p)); [apply L; exact G|apply Rmax_l]|].
  apply Rle_trans with (Rmax (light (p1 p) (pe p)) (light (p2 p) (pe p))); [|apply Rmax_r].
  destruct (Z_le_gt_dec 127 (p1 p)) as [G1|G1]; [apply Rle_trans with (light (p1 p) (pe p)); [apply L; exact G1|apply Rmax_l]|].
  apply Rle_trans with (light (p2 p) (pe p)); [apply L; lia|apply Rmax_r].
Qed.
(** An infinite component panics where overflow is checked, and is otherwise read back as 255/256 *)
Theorem C59_infinite_refuted lm g b : hdr_accurate lm -> to_rgbe8 lm Debug (B754_infinity false) g b = Panic /\
  exists p, to_rgbe8 lm Release (B754_infinity false) g b = Ok p /\ light (p0 p) (pe p) = (255 / 256)%R.
Proof.
  intros A. split; [apply (infinite lm Debug _ g b A); left; reflexivity|]. pose proof (infinite lm Release (B754_infinity false) g b A ltac:(left; reflexivity)) as E. cbv zeta in E. eexists. split; [exact E|]. cbn [p0 pe].
  destruct (powi_under lm A (-2147483648) ltac:(lia)) as (F & S' & _). rewrite (mantissa_inf_under _ F S'). unfold light. change (128 =? 0) with false. cbv iota. change (bpow radix2 (128 - 136)) with (/ 256)%R. lra.
Qed.

(** ** Non-vacuity *)
(** a libm with the assumed accuracy: correctly rounded logarithm, exact powers *)
Definition nearest32 (y : R) : f32 := let z := RN32 y in binary_normalize 24 128 _ _ mode_NE (Ztrunc (scaled_mantissa radix2 (SpecFloat.fexp 24 128) z)) (cexp radix2 (SpecFloat.fexp 24 128) z) false.
Lemma nearest32_ok y : (Rabs y <= 1000)%R -> isf (nearest32 y) (RN32 y).
Proof.
  intros H. unfold nearest32. cbv zeta. pose proof (RN_abs 24 128 f32_prec f32_emax 1000 y ltac:(lia) H) as HR. assert (G : generic_format radix2 (SpecFloat.fexp 24 128) (RN32 y)) by (apply generic_format_round; [apply fexp_correct; exact eq_refl|apply valid_rnd_N]). fold (RN32 y) in HR. set (z := RN32 y) in *.
  pose proof (binary_normalize_correct 24 128 f32_prec f32_emax mode_NE (Ztrunc (scaled_mantissa radix2 (SpecFloat.fexp 24 128) z)) (cexp radix2 (SpecFloat.fexp 24 128) z) false) as K. cbv zeta in K.
  assert (E : F2R (Float radix2 (Ztrunc (scaled_mantissa radix2 (SpecFloat.fexp 24 128) z)) (cexp radix2 (SpecFloat.fexp 24 128) z)) = z) by (symmetry; exact G). rewrite E in K. rewrite round_generic in K; [|apply valid_rnd_N|exact G].
  rewrite Rlt_bool_true in K. { destruct K as (K1 & K2 & _). split; assumption. } apply Rle_lt_trans with 1000%R; [exact HR|]. apply Rlt_le_trans with (bpow radix2 10); [change (bpow radix2 10) with 1024%R; lra|apply bpow_le; lia].
Qed.
Definition log2_exactly (x : f32) : f32 := match x with B754_nan => B754_nan | B754_infinity s => B754_infinity s | _ => nearest32 (ln (B2R x) / ln 2) end.
Definition exact_hdr_libm : hdr_libm := mkHdrLibm log2_exactly (fun x => f32_dyadic 1 (Zfloor (B2R x))) (fun n => if n <=? -128 then f32_zero else if 128 <=? n then B754_infinity false else f32_dyadic 1 n).
Lemma dyadic_pow n : -149 <= n <= 127 -> isf (f32_dyadic 1 n) (bpow radix2 n).
Proof.
  intros H. pose proof (binary_normalize_correct 24 128 f32_prec f32_emax mode_NE 1 n false) as K. cbv zeta in K. assert (E : F2R (Float radix2 1 n) = bpow radix2 n) by (unfold F2R; cbn [Fnum Fexp]; ring). rewrite E in K.
  rewrite round_generic in K; [|apply valid_rnd_N|]. 2:{ pose proof (repr_F2R 1 n ltac:(lia) ltac:(lia)) as Q. rewrite Rmult_1_l in Q. exact Q. }
  rewrite Rlt_bool_true in K. { destruct K as (K1 & K2 & _). split; assumption. } rewrite Rabs_pos_eq by apply bpow_ge_0. apply bpow_lt. lia.
Qed.
Lemma log2_bpow n : (ln (bpow radix2 n) / ln 2 = IZR n)%R.
Proof. rewrite <- Rpower2_Z. unfold Rpower. rewrite ln_exp. pose proof ln2_lt_1. field. lra. Qed.
Lemma ln_le x y : (0 < x)%R -> (x <= y)%R -> (ln x <= ln y)%R.
Proof. intros P [H| ->]; [left; apply ln_increasing; assumption|right; reflexivity]. Qed.
Lemma log2_interval (x : f32) : is_finite x = true -> (0 < B2R x)%R -> (-149 <= ln (B2R x) / ln 2 <= 128)%R.
Proof.
  intros F P. pose proof ln2_lt_1 as L2. assert (MN : (bpow radix2 (-149) <= B2R x)%R). { pose proof (abs_B2R_ge_emin 24 128 x (strict_of x F P)) as Q. rewrite Rabs_pos_eq in Q by lra. exact Q. } pose proof (fin_bound x) as (_ & MX).
  split.
  - rewrite <- (log2_bpow (-149)). unfold Rdiv. apply Rmult_le_compat_r; [left; apply Rinv_0_lt_compat; lra|]. apply ln_le; [apply bpow_gt_0|exact MN].
  - rewrite <- (log2_bpow 128). unfold Rdiv. apply Rmult_le_compat_r; [left; apply Rinv_0_lt_compat; lra|]. apply ln_le; [exact P|lra].
Qed.
Lemma log2_exactly_fin (x : f32) : is_finite x = true -> log2_exactly x = nearest32 (ln (B2R x) / ln 2).
Proof. destruct x; intros F; try discriminate; reflexivity. Qed.
Example C59_accurate_nonvacuous : hdr_accurate exact_hdr_libm.
Proof.
  constructor; cbn [exact_hdr_libm log2_32 exp2_32 powi_2].
  - intros x n F E H. rewrite E, Zfloor_IZR. destruct (dyadic_pow n H). auto.
  - intros x F P. pose proof (log2_interval x F P) as LI. rewrite (log2_exactly_fin x F). set (z := (ln (B2R x) / ln 2)%R) in *. destruct (nearest32_ok z) as (E & FN); [apply Rabs_le; lra|]. split; [exact FN|]. rewrite E.
    assert (PX : B2R x = Rpower 2 z). { unfold Rpower, z. pose proof ln2_lt_1. replace (ln (B2R x) / ln 2 * ln 2)%R with (ln (B2R x)) by (field; lra). rewrite exp_ln by exact P. reflexivity. }
    assert (ER : (Rabs (RN32 z - z) <= / 65536)%R). { pose proof (RN_err 24 128 f32_prec 8 z ltac:(lia)) as Q. apply Rle_trans with (bpow radix2 (8 - 24 - 1)); [apply Q; change (bpow radix2 8) with 256%R; apply Rabs_lt; lra|]. change (/ 65536)%R with (bpow radix2 (-16)). apply bpow_le. lia. }
    apply Rabs_le_inv in ER. rewrite PX. split; apply Rle_Rpower; lra.
  - intros x n F E. rewrite (log2_exactly_fin x F), E, log2_bpow. assert (P : (0 < B2R x)%R) by (rewrite E; apply bpow_gt_0). pose proof (log2_interval x F P) as LI. rewrite E, log2_bpow in LI. destruct (nearest32_ok (IZR n)) as (EN & _); [apply Rabs_le; lra|]. rewrite EN. apply RN_repr. apply (repr_Z 24 128 f32_prec f32_emax). assert (-149 <= n <= 128) by (split; apply le_IZR; lra). lia.
  - reflexivity.
  - reflexivity.
  - intros n H. replace (n <=? -128) with false by lia. replace (128 <=? n) with false by lia. destruct (dyadic_pow n ltac:(lia)). auto.
  - intros n H. replace (n <=? -128) with false by lia. replace (128 <=? n) with true by lia. reflexivity.
  - intros n H. replace (n <=? -128) with true by lia. split; [reflexivity|]. split; [reflexivity|]. apply bpow_ge_0.
Qed.
(** compiler-rt's powi(2.0, n) is such a power *)
Example powi_rt_agrees : forallb (fun n => SpecFloat.SFeqb (B2SF (powi_rt n)) (B2SF (powi_2 exact_hdr_libm n))) (zrange (-1000) 2001) = true.
Proof. vm_compute. reflexivity. Qed.
(** a storable colour with a NaN and a negative component *)
Example C59_storable_nonvacuous : storable [f32_of_Z (-3); B754_nan; f32_of_Z 1000] (1000 / 127).
Proof.
  right. exists (f32_of_Z 1000). pose proof (of_Z_ok 1000 ltac:(lia)) as (E & F). split; [|split].
  - split; [cbn; auto|]. split; [exact F|]. intros v [<-|[<-|[<-|[]]]]; [right|left; reflexivity|right]; vm_compute; reflexivity.
  - rewrite E. split; [apply Rle_trans with (bpow radix2 0); [apply bpow_le; lia|cbn; lra]|]. apply Rle_trans with (65535 / 65536 * bpow radix2 10)%R; [change (bpow radix2 10) with 1024%R; lra|]. apply Rmult_le_compat_l; [lra|apply bpow_le; lia].
  - rewrite E. reflexivity.
Qed.
Definition c59_theorems := (C59_decode_exact, C59_accuracy, C59_file_accuracy, C59_reencode, C59_reencode_normalised, C59_bright_refuted, C59_dark_refuted, C59_infinite_refuted).
Print Assumptions c59_theorems.
