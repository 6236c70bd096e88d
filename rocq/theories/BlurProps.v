(** C56: blur and unsharpen *)
From Coq Require Import ZArith Bool Reals Lia Lra.
From Flocq Require Import Core IEEE754.BinarySingleNaN.
From Verif Require Import Base BaseLemmas Color Float ColorF ColorFProofs GenImage OverlayProofs Thumb ThumbSpec FloatProofs ThumbProofs ThumbProofs2 ThumbProofs3 ThumbProofs4 Sample SampleSpec SampleProofs SampleProofs2 SampleProofs3 SampleProofs4 SampleProofs5 SampleProofs7 SampleProofs8 SampleProofs9 SampleProofs10 SampleProps BlurSpec BlurProofs BlurProofs2.
Local Open Scope Z_scope.

Definition sizes_ok (im : img (list Z)) : Prop := 1 <= iw im <= 524288 /\ 1 <= ih im <= 524288.
(** deviations for which nothing overflows or underflows: from about a millionth to about a million *)
Definition usual (s : R) : Prop := (/ 1048576 <= s <= 1048576)%R.

(** An empty image gives an empty image of the same size. *)
Theorem C56_empty lm t k im sigma : iw im = 0 \/ ih im = 0 -> 0 <= iw im -> 0 <= ih im -> exists r, blur lm t k im sigma = Ok r /\ wf r /\ iw r = iw im /\ ih r = ih im.
Proof.
  intros H H1 H2. exists (new_img (iw im) (ih im) (repeat 0 (Z.to_nat (nch k)))). split; [unfold blur; cbv zeta; replace ((iw im =? 0) || (ih im =? 0)) with true by lia; reflexivity|]. split; [apply wf_new_img; lia|]. split; cbn [iw ih new_img]; lia.
Qed.

(** Given an accurate expf, blur returns an image of the same size, and every channel of every pixel is the mean of the source pixels within
    two deviations of it, weighted by the bell curve of the deviation, up to rounding to an integer and a small multiple of the f32 precision. *)
Lemma window_size s size x a n : window s size x a n -> (IZR n <= 4 * s + 2.5)%R.
Proof.
  intros (W1 & W2 & W3 & W4 & _). pose proof (W4 a ltac:(lia)) as A. pose proof (W4 (a + n - 1) ltac:(lia)) as B. rewrite <- abs_IZR in A, B. rewrite Z.abs_neq in A by lia. rewrite Z.abs_eq in B by lia. rewrite ?opp_IZR, !minus_IZR, ?plus_IZR in *. lra.
Qed.
Theorem C56_blur lm t k im sigma s : exp_accurate lm -> img_ok t k im -> sizes_ok im -> deviation sigma s -> usual s ->
  exists r, blur lm t k im sigma = Ok r /\ wf r /\ iw r = iw im /\ ih r = ih im /\ forall x y, 0 <= x < iw im -> 0 <= y < ih im -> exists p, pixel r x y = Some p /\ is_pixel t k p /\
    exists ax nx ay ny, window s (iw im) x ax nx /\ window s (ih im) y ay ny /\
    forall i, (i < Z.to_nat (nch k))%nat -> (Rabs (IZR (nth i p 0%Z) - bell_mean t im i s x ax nx y ay ny) <= / 2 + IZR (smax t) * (22 * s + 444) / 16777216)%R.
Proof.
  intros HL HI [HW HH] HD HS. pose proof (deviation_ok _ _ HD) as IS. assert (M20 : (bpow radix2 (-20) = / 1048576)%R) by reflexivity. assert (P20 : (bpow radix2 20 = 1048576)%R) by reflexivity. unfold usual in HS. rewrite <- M20, <- P20 in HS. rewrite blur_eq by lia. set (f := blur_filter lm (used sigma)). set (sg := used sigma) in *.
  destruct (resample_mean t k f im (iw im) (ih im) (computed f (iw im) (iw im)) (computed f (ih im) (ih im)) HI ltac:(lia) ltac:(lia) ltac:(lia) ltac:(lia)) as (r & E & W & EW & EH & P).
  - intros x Hx. destruct (blur_weights lm sg s (iw im) x HL IS HS HW Hx) as (_ & TV & _). split; [exact TV|]. pose proof (taps_range f (iw im) (iw im) x ltac:(lia)). unfold ntaps. lia.
  - intros y Hy. destruct (blur_weights lm sg s (ih im) y HL IS HS HH Hy) as (_ & TV & _). split; [exact TV|]. pose proof (taps_range f (ih im) (ih im) y ltac:(lia)). unfold ntaps. lia.
  - exists r. split; [exact E|]. split; [exact W|]. split; [exact EW|]. split; [exact EH|]. intros x y Hx Hy. destruct (P x y Hx Hy) as (p & PX & IP & B). exists p. split; [exact PX|]. split; [exact IP|].
    pose proof (blur_window lm sg s (iw im) x IS ltac:(lra) HW Hx) as WX. pose proof (blur_window lm sg s (ih im) y IS ltac:(lra) HH Hy) as WY. fold f in WX, WY. exists (left_tap f (iw im) (iw im) x), (ntaps f (iw im) (iw im) x), (left_tap f (ih im) (ih im) y), (ntaps f (ih im) (ih im) y). split; [exact WX|]. split; [exact WY|]. intros i Hi. specialize (B i Hi). cbv zeta in B.
    pose proof (blur_means lm sg s t k im i x y HL IS HS HI HW HH Hx Hy) as M2. cbv zeta in M2. fold f in M2. pose proof (window_size _ _ _ _ _ WX) as NX. pose proof (window_size _ _ _ _ _ WY) as NY.
    set (a := IZR (nth i p 0)) in *. set (b := mean2 t im i _ _ _ _ _ _) in *. set (c := bell_mean t im i s x _ _ _ _ _) in *. set (nx := IZR (ntaps f (iw im) (iw im) x)) in *. set (ny := IZR (ntaps f (ih im) (ih im) y)) in *. clearbody a b c nx ny. assert (SM : (0 <= IZR (smax t))%R) by (apply IZR_le; destruct t; cbn; unfold u8_max, u16_max; lia).
    assert (UE : uu = (/ 16777216)%R) by (unfold uu; reflexivity). replace (a - c)%R with ((a - b) + (b - c))%R by ring. eapply Rle_trans; [apply Rabs_triang|]. apply Rle_trans with (/ 2 + IZR (smax t) * (4 / 3 * ((2 * (nx + ny) + 9) * uu) + 418 * uu))%R; [rewrite Rmult_plus_distr_l; lra|].
    apply Rplus_le_compat_l. unfold Rdiv. rewrite (Rmult_assoc (IZR (smax t))). apply Rmult_le_compat_l; [exact SM|]. rewrite UE. lra.
Qed.

(** No overshoot: when the deviation is not too large for the precision of f32, every channel lies between the least and the greatest value
    of that channel among the source pixels within two deviations. *)
Definition moderate (t : sty) (s : R) : Prop := (s <= match t with U8 => 2000 | U16 => 6 end)%R.
Theorem C56_between lm t k im sigma s : exp_accurate lm -> img_ok t k im -> sizes_ok im -> deviation sigma s -> usual s -> moderate t s ->
  exists r, blur lm t k im sigma = Ok r /\ wf r /\ iw r = iw im /\ ih r = ih im /\ forall x y, 0 <= x < iw im -> 0 <= y < ih im -> exists p, pixel r x y = Some p /\ is_pixel t k p /\
    forall i a b, (i < Z.to_nat (nch k))%nat -> (forall x' y', inside im (x', y') -> (Rabs (IZR (x' - x)) <= 2 * s + 3 / 4)%R -> (Rabs (IZR (y' - y)) <= 2 * s + 3 / 4)%R -> a <= chan_at t im i (x', y') <= b) -> a <= nth i p 0 <= b.
Proof.
  intros HL HI [HW HH] HD HS HM. pose proof (deviation_ok _ _ HD) as IS. assert (M20 : (bpow radix2 (-20) = / 1048576)%R) by reflexivity. assert (P20 : (bpow radix2 20 = 1048576)%R) by reflexivity. unfold usual in HS. rewrite <- M20, <- P20 in HS. rewrite blur_eq by lia. set (f := blur_filter lm (used sigma)). set (sg := used sigma) in *.
  destruct (resample_ok t k f im (iw im) (ih im) HI ltac:(lia) ltac:(lia) ltac:(lia) ltac:(lia)) as (r & E & W & EW & EH & P).
  - intros x Hx. destruct (blur_weights lm sg s (iw im) x HL IS HS HW Hx) as (_ & TV & _). split; [exact (taps_val_good _ _ _ _ _ TV)|]. pose proof (taps_range f (iw im) (iw im) x ltac:(lia)). unfold ntaps. lia.
  - intros y Hy. destruct (blur_weights lm sg s (ih im) y HL IS HS HH Hy) as (_ & TV & _). split; [exact (taps_val_good _ _ _ _ _ TV)|]. pose proof (taps_range f (ih im) (ih im) y ltac:(lia)). unfold ntaps. lia.
  - exists r. split; [exact E|]. split; [exact W|]. split; [exact EW|]. split; [exact EH|]. intros x y Hx Hy. destruct (P x y Hx Hy) as (p & PX & IP & B). exists p. split; [exact PX|]. split; [exact IP|]. intros i a b Hi HC.
    pose proof (blur_window lm sg s (iw im) x IS ltac:(lra) HW Hx) as WX. pose proof (blur_window lm sg s (ih im) y IS ltac:(lra) HH Hy) as WY. fold f in WX, WY. pose proof (window_size _ _ _ _ _ WX) as NX. pose proof (window_size _ _ _ _ _ WY) as NY. destruct WX as (WX1 & WX2 & WX3 & WX4 & _). destruct WY as (WY1 & WY2 & WY3 & WY4 & _).
    assert (HT : forall x' y', left_tap f (iw im) (iw im) x <= x' < right_tap f (iw im) (iw im) x -> left_tap f (ih im) (ih im) y <= y' < right_tap f (ih im) (ih im) y -> 0 <= chan_at t im i (x', y') <= smax t /\ a <= chan_at t im i (x', y') <= b).
    { intros x' y' Hx' Hy'. unfold ntaps in *. assert (IN : inside im (x', y')) by (split; cbn [fst snd]; lia). split; [exact (chan_sample t k im i (x', y') HI IN)|]. apply HC; [exact IN|apply WX4; lia|apply WY4; lia]. }
    assert (NB : (ntaps f (iw im) (iw im) x + ntaps f (ih im) (ih im) y + 4) * (4 * smax t + 4) <= 2 ^ 24).
    { change (2 ^ 24) with 16777216. apply le_IZR. rewrite mult_IZR, !plus_IZR. unfold moderate in HM. destruct t; cbn [smax]; [change (IZR (4 * u8_max) + 4)%R with (1020 + 4)%R|change (IZR (4 * u16_max) + 4)%R with (262140 + 4)%R]; lra. }
    assert (K : Z.max 0 a <= nth i p 0 <= Z.min (smax t) b); [|lia]. pose proof (HT x y ltac:(unfold ntaps in *; lia) ltac:(unfold ntaps in *; lia)) as H0. apply (B i (Z.max 0 a) (Z.min (smax t) b) Hi); [lia|lia|lia|exact NB|]. intros x' y' Hx' Hy'. specialize (HT x' y' Hx' Hy'). lia.
Qed.

(** A channel that is constant over the image stays as it is. *)
Theorem C56_constant lm t k im sigma s i v : exp_accurate lm -> img_ok t k im -> sizes_ok im -> deviation sigma s -> usual s -> moderate t s -> (i < Z.to_nat (nch k))%nat -> (forall x y, inside im (x, y) -> chan_at t im i (x, y) = v) ->
  exists r, blur lm t k im sigma = Ok r /\ iw r = iw im /\ ih r = ih im /\ forall x y, inside im (x, y) -> chan_at t r i (x, y) = v.
Proof.
  intros HL HI HZ HD HS HM Hi HV. destruct (C56_between lm t k im sigma s HL HI HZ HD HS HM) as (r & E & W & EW & EH & P). exists r. split; [exact E|]. split; [exact EW|]. split; [exact EH|]. intros x y [Hx Hy]. cbn [fst snd] in Hx, Hy. destruct (P x y Hx Hy) as (p & PX & IP & B). specialize (B i v v Hi).
  unfold chan_at. cbn [fst snd]. rewrite PX. rewrite (nth_indep p (smax t) 0) by (destruct IP as [L _]; unfold zlen in L; lia). assert (v <= nth i p 0 <= v); [|lia]. apply B. intros x' y' IN _ _. rewrite (HV x' y' IN). lia.
Qed.

(** A deviation of at most an eighth of a pixel changes nothing. *)
Theorem C56_identity lm t k im sigma s : exp_accurate lm -> img_ok t k im -> sizes_ok im -> deviation sigma s -> (/ 1048576 <= s < / 8)%R -> blur lm t k im sigma = Ok im.
Proof.
  intros HL HI HZ HD HS. destruct (C56_between lm t k im sigma s HL HI HZ HD) as (r & E & W & EW & EH & P); [unfold usual; lra|unfold moderate; destruct t; lra|]. rewrite E. f_equal. apply img_ext; [exact W|exact (proj1 HI)|exact EW|exact EH|]. intros x y Hx Hy. rewrite EW in Hx. rewrite EH in Hy. destruct (P x y Hx Hy) as (p & PX & IP & B). destruct (pixel_at t k im (x, y) HI (conj Hx Hy)) as (q & _ & EQ & IQ). cbn [fst snd] in EQ. rewrite PX, EQ. f_equal.
  destruct IP as [LP _]. destruct IQ as [LQ _]. unfold zlen in LP, LQ. apply (nth_ext p q 0 0); [lia|]. intros i Hi. assert (C : nth i q 0 <= nth i p 0 <= nth i q 0); [|lia]. apply B; [lia|]. intros x' y' _ DX DY. rewrite <- abs_IZR in DX, DY.
  assert (NX : forall z, (IZR (Z.abs z) <= 2 * s + 3 / 4)%R -> z = 0). { intros z Hz. assert (Z.abs z < 1); [|lia]. apply lt_IZR. lra. } assert (x' = x) by (specialize (NX _ DX); lia). assert (y' = y) by (specialize (NX _ DY); lia). subst. unfold chan_at. cbn [fst snd]. rewrite EQ. rewrite (nth_indep q (smax t) 0) by lia. lia.
Qed.

(** blur panics on every image that is not empty when sigma is NaN, infinite, or positive but at most 2^-76. *)
Theorem C56_sigma_refuted lm t k im sigma : exp_accurate lm -> exp32 lm B754_nan = B754_nan -> img_ok t k im -> sizes_ok im ->
  sigma = B754_nan \/ sigma = B754_infinity false \/ is_finite sigma = true /\ (0 < B2R sigma <= bpow radix2 (-76))%R -> blur lm t k im sigma = Panic.
Proof.
  intros HL HN HI [HW HH] HS. rewrite blur_eq by lia. apply resample_nan; try lia; [exact HI|]. destruct HS as [-> |[-> |(F & B)]].
  - apply (blur_nan lm (iw im) 0). lia.
  - apply (blur_inf lm (iw im) 0 HL HW). lia.
  - assert (U : used sigma = sigma) by (unfold used; rewrite (le_zero _ F), Rle_bool_false by lra; reflexivity). rewrite U. apply (blur_tiny lm sigma (B2R sigma) (iw im) 0 HN); [split; [reflexivity|exact F]|exact B|exact HW|lia].
Qed.

(** unsharpen: with b the blurred image, a sample c whose blurred value is d becomes 2 c - d, limited to the range of samples, when c and d
    differ by more than the threshold, and is kept otherwise. *)
Definition sharpened (mx threshold c d : Z) : Z := if Z.abs (c - d) <=? threshold then c else Z.max 0 (Z.min mx (2 * c - d)).
Theorem C56_unsharpen lm t k im sigma s threshold : exp_accurate lm -> img_ok t k im -> sizes_ok im -> deviation sigma s -> usual s ->
  exists b r, blur lm t k im sigma = Ok b /\ unsharpen lm t k im sigma threshold = Ok r /\ wf r /\ iw r = iw im /\ ih r = ih im /\ forall x y, inside im (x, y) -> exists p, pixel r x y = Some p /\ is_pixel t k p /\
    forall i, (i < Z.to_nat (nch k))%nat -> nth i p 0 = sharpened (smax t) threshold (chan_at t im i (x, y)) (chan_at t b i (x, y)).
Proof.
  intros HL HI HZ HD HS. destruct (C56_blur lm t k im sigma s HL HI HZ HD HS) as (b & E & W & EW & EH & P). exists b.
  set (g := fun q p : list Z => map (fun '(c, d) => sharpen (smax t) threshold c d) (combine p q)).
  destruct (blend_loop g im fst snd fst snd (coords (iw im) (ih im)) b (proj1 HI) W) as (r & ER & WR & RW & RH & _ & RP).
  - rewrite map_ext with (g := fun a => a) by (intros [? ?]; reflexivity). rewrite map_id. apply NoDup_coords.
  - intros [x y] H. apply In_coords in H. cbn [fst snd]. lia.
  - intros [x y] H. apply In_coords in H. cbn [fst snd]. lia.
  - exists r. split; [exact E|]. split. { unfold unsharpen. rewrite E. cbn [bind]. rewrite for2_coords. rewrite <- ER. apply foldM_ext. intros s' [x y] _. reflexivity. }
    split; [exact WR|]. split; [congruence|]. split; [congruence|]. intros x y [Hx Hy]. cbn [fst snd] in Hx, Hy. destruct (RP (x, y) ltac:(apply In_coords; lia)) as (p & q & EP & EQ & ERP). cbn [fst snd] in EP, EQ, ERP. destruct (P x y Hx Hy) as (q' & EQ' & IQ & _). rewrite EQ in EQ'. apply Some_inj in EQ'. subst q'. destruct (pixel_at t k im (x, y) HI (conj Hx Hy)) as (p' & _ & EP' & IP). cbn [fst snd] in EP'. rewrite EP in EP'. apply Some_inj in EP'. subst p'.
    exists (g q p). split; [exact ERP|]. pose proof (smax_range t) as SM. destruct IP as [LP FP]. destruct IQ as [LQ FQ]. unfold zlen in LP, LQ. assert (LG : length (g q p) = Z.to_nat (nch k)) by (unfold g; rewrite map_length, combine_length; lia).
    assert (NG : forall i, (i < Z.to_nat (nch k))%nat -> nth i (g q p) 0 = sharpen (smax t) threshold (nth i p 0) (nth i q 0)). { intros i Hi. unfold g. rewrite (nth_indep _ 0 ((fun '(c, d) => sharpen (smax t) threshold c d) (0, 0))) by (fold (g q p); lia). rewrite (map_nth (fun '(c, d) => sharpen (smax t) threshold c d) (combine p q) (0, 0) i). rewrite combine_nth by lia. reflexivity. }
    assert (SE : forall c d, sharpen (smax t) threshold c d = sharpened (smax t) threshold c d). { intros c d. unfold sharpen, sharpened. cbv zeta. destruct (Z.gtb_spec (Z.abs (c - d)) threshold) as [G|G]; destruct (Z.leb_spec (Z.abs (c - d)) threshold); try lia. rewrite clamp_eq by (destruct t; cbn; unfold u8_max, u16_max; lia). lia. }
    split; [split; [unfold zlen; lia|]|intros i Hi; rewrite NG by exact Hi; rewrite SE; unfold chan_at; cbn [fst snd]; rewrite EP, EQ; rewrite (nth_indep p (smax t) 0), (nth_indep q (smax t) 0) by lia; reflexivity].
    apply Forall_forall. intros z Hz. apply (In_nth _ _ 0) in Hz. destruct Hz as (i & Hi & <-). rewrite LG in Hi. rewrite NG by exact Hi. rewrite SE. assert (S1 : is_sample t (nth i p 0)) by (rewrite Forall_forall in FP; apply FP; apply nth_In; lia). unfold sharpened. destruct (Z.abs (nth i p 0 - nth i q 0) <=? threshold); [exact S1|]. destruct t; [change (0 <= Z.max 0 (Z.min 255 (2 * nth i p 0 - nth i q 0)) <= 255)|change (0 <= Z.max 0 (Z.min 65535 (2 * nth i p 0 - nth i q 0)) <= 65535)]; lia.
Qed.
(** With the threshold at the greatest sample or above, nothing changes; and a constant channel never changes. *)
Theorem C56_unsharpen_kept lm t k im sigma s threshold : exp_accurate lm -> img_ok t k im -> sizes_ok im -> deviation sigma s -> usual s -> smax t <= threshold -> unsharpen lm t k im sigma threshold = Ok im.
Proof.
  intros HL HI HZ HD HS HT. destruct (C56_unsharpen lm t k im sigma s threshold HL HI HZ HD HS) as (b & r & EB & ER & W & EW & EH & P). rewrite ER. f_equal. apply img_ext; [exact W|exact (proj1 HI)|exact EW|exact EH|]. intros x y Hx Hy. rewrite EW in Hx. rewrite EH in Hy. destruct (P x y (conj Hx Hy)) as (p & PX & IP & B). destruct (pixel_at t k im (x, y) HI (conj Hx Hy)) as (q & _ & EQ & IQ). cbn [fst snd] in EQ. rewrite PX, EQ. f_equal.
  destruct (C56_blur lm t k im sigma s HL HI HZ HD HS) as (b' & EB' & _ & BW & BH & PB). rewrite EB in EB'. apply Ok_inj in EB'. subst b'. destruct (PB x y Hx Hy) as (u & EU & IU & _). destruct IP as [LP _]. destruct IQ as [LQ FQ]. destruct IU as [LU FU]. unfold zlen in LP, LQ, LU. apply (nth_ext p q 0 0); [lia|]. intros i Hi. rewrite B by lia. unfold chan_at. cbn [fst snd]. rewrite EQ, EU. rewrite (nth_indep q (smax t) 0), (nth_indep u (smax t) 0) by lia.
  assert (S1 : is_sample t (nth i q 0)) by (rewrite Forall_forall in FQ; apply FQ; apply nth_In; lia). assert (S2 : is_sample t (nth i u 0)) by (rewrite Forall_forall in FU; apply FU; apply nth_In; lia). unfold sharpened. replace (Z.abs (nth i q 0 - nth i u 0) <=? threshold) with true; [reflexivity|]. symmetry. apply Z.leb_le. unfold is_sample in S1, S2. lia.
Qed.
Theorem C56_unsharpen_constant lm t k im sigma s threshold i v : exp_accurate lm -> img_ok t k im -> sizes_ok im -> deviation sigma s -> usual s -> moderate t s -> (i < Z.to_nat (nch k))%nat -> (forall x y, inside im (x, y) -> chan_at t im i (x, y) = v) ->
  exists r, unsharpen lm t k im sigma threshold = Ok r /\ iw r = iw im /\ ih r = ih im /\ forall x y, inside im (x, y) -> chan_at t r i (x, y) = v.
Proof.
  intros HL HI HZ HD HS HM Hi HV. destruct (C56_unsharpen lm t k im sigma s threshold HL HI HZ HD HS) as (b & r & EB & ER & W & EW & EH & P). exists r. split; [exact ER|]. split; [exact EW|]. split; [exact EH|]. destruct (C56_constant lm t k im sigma s i v HL HI HZ HD HS HM Hi HV) as (b' & EB' & _ & _ & PB). rewrite EB in EB'. apply Ok_inj in EB'. subst b'.
  intros x y IN. destruct (P x y IN) as (p & PX & [LP _] & B). unfold chan_at at 1. cbn [fst snd]. rewrite PX. unfold zlen in LP. rewrite (nth_indep p (smax t) 0) by lia. rewrite B by exact Hi. rewrite HV, PB by exact IN. assert (S : 0 <= v <= smax t) by (rewrite <- (HV x y IN); exact (chan_sample t k im i (x, y) HI IN)). unfold sharpened. destruct (Z.abs (v - v) <=? threshold); lia.
Qed.

(** Non-vacuity *)
Example C56_nonvacuous : exp_accurate exact_libm /\ img_ok U8 Luma small_im /\ sizes_ok small_im /\ deviation (f32_dyadic 3 (-1)) (3 / 2) /\ deviation (B754_zero true) 1 /\ usual (3 / 2) /\ moderate U16 (3 / 2) /\ usual (/ 16).
Proof.
  split; [exact C54_exp_accurate_nonvacuous|]. split; [exact small_ok|]. split; [unfold sizes_ok; cbn; lia|]. split. { left. destruct (isf_dyadic 3 (-1) ltac:(lia) ltac:(lia)) as [E F]. change (bpow radix2 (-1)) with (/ 2)%R in E. split; [exact F|]. rewrite E. split; lra. }
  split; [right; left; split; [reflexivity|]; split; [cbn; lra|reflexivity]|]. unfold usual, moderate. repeat split; lra.
Qed.
Definition nan_libm : libm := mkLibm (fun x => x) (fun x => if is_finite x then exp32 exact_libm x else B754_nan).
Example C56_refuted_nonvacuous : exp_accurate nan_libm /\ exp32 nan_libm B754_nan = B754_nan /\ is_finite (f32_dyadic 1 (-80)) = true /\ (0 < B2R (f32_dyadic 1 (-80)) <= bpow radix2 (-76))%R.
Proof.
  split; [intros x F H; cbn [exp32 nan_libm]; rewrite F; exact (C54_exp_accurate_nonvacuous x F H)|]. split; [reflexivity|]. destruct (isf_dyadic 1 (-80) ltac:(lia) ltac:(lia)) as [E F]. split; [exact F|]. rewrite E, Rmult_1_l. split; [apply bpow_gt_0|apply bpow_le; lia].
Qed.
(** with an expf that is 1 everywhere, a three pixel row and sigma 1/2 gives plain averages *)
Definition flat_libm : libm := mkLibm (fun x => x) (fun _ => f32_one).
Example C56_blur_runs : blur flat_libm U8 Luma (mkImg 3 1 [[0]; [90]; [255]]) (f32_dyadic 1 (-1)) = Ok (mkImg 3 1 [[45]; [115]; [173]]).
Proof. vm_compute. reflexivity. Qed.
Definition c56_theorems := (C56_empty, C56_blur, C56_between, C56_constant, C56_identity, C56_sigma_refuted, C56_unsharpen, C56_unsharpen_kept, C56_unsharpen_constant).
Print Assumptions c56_theorems.
