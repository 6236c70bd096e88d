From Coq Require Import ZArith Bool Reals Lia Lra.
From Flocq Require Import Core IEEE754.BinarySingleNaN.
From Verif Require Import Base BaseLemmas ListMore Color ColorProofs Float FloatProofs JpegQuant ColorF ColorFProofs GenImage Thumb ThumbSpec ThumbProofs ThumbProofs2 ThumbProofs3 ThumbProofs4 Sample SampleSpec SampleProofs SampleProofs2 SampleProofs3 SampleProofs4 SampleProofs5 SampleProofs7 SampleProofs8 SampleProofs9 SampleProofs10 BlurSpec BlurProofs.
Local Open Scope Z_scope.

(** ** the argument sigma *)
Definition used (sigma : f32) : f32 := if f32_le sigma f32_zero then f32_one else sigma.
Lemma blur_eq lm t k im sigma : 1 <= iw im -> 1 <= ih im -> blur lm t k im sigma = resample t k (blur_filter lm (used sigma)) im (iw im) (ih im).
Proof. intros H1 H2. unfold blur, blur_filter, used. replace ((iw im =? 0) || (ih im =? 0)) with false by lia. reflexivity. Qed.
Lemma le_zero x : is_finite x = true -> f32_le x f32_zero = Rle_bool (B2R x) 0.
Proof. intros F. unfold f32_le. rewrite (Bleb_correct 24 128 x f32_zero F eq_refl). reflexivity. Qed.
Lemma deviation_ok sigma s : deviation sigma s -> isf (used sigma) s.
Proof.
  unfold used. intros [(F & P & ->)|[(F & P & ->)|(-> & ->)]].
  - rewrite (le_zero _ F), Rle_bool_false by lra. split; [reflexivity|exact F].
  - rewrite (le_zero _ F), Rle_bool_true by lra. exact isf_one.
  - exact isf_one.
Qed.

(** ** NaN weights *)
Definition fnan : f32 := B754_nan.
Lemma add_nan_r a : f32_add a fnan = fnan. Proof. destruct a as [[]|[]| |[] ? ? ?]; reflexivity. Qed.
Lemma add_nan_l a : f32_add fnan a = fnan. Proof. destruct a as [[]|[]| |[] ? ? ?]; reflexivity. Qed.
Lemma mul_nan_r a : f32_mul a fnan = fnan. Proof. destruct a as [[]|[]| |[] ? ? ?]; reflexivity. Qed.
Lemma mul_nan_l a : f32_mul fnan a = fnan. Proof. destruct a as [[]|[]| |[] ? ? ?]; reflexivity. Qed.
Lemma div_nan_r a : f32_div a fnan = fnan. Proof. destruct a as [[]|[]| |[] ? ? ?]; reflexivity. Qed.
Lemma sum_nan_from l : fold_left f32_add l fnan = fnan.
Proof. induction l as [|a l IH]; [reflexivity|]. cbn [fold_left]. rewrite add_nan_l. exact IH. Qed.
Lemma sum_nan l : In fnan l -> fsum l = fnan.
Proof.
  unfold fsum. generalize f32_zero. induction l as [|a l IH]; intros z H; [contradiction|]. cbn [fold_left]. destruct H as [->|H]; [rewrite add_nan_r; apply sum_nan_from|apply IH; exact H].
Qed.
Definition iszero (x : f32) : Prop := exists b, x = B754_zero b.
Lemma sum_zero l : Forall iszero l -> iszero (fsum l).
Proof.
  unfold fsum. assert (Z : iszero f32_zero) by (exists false; reflexivity). revert Z. generalize f32_zero. induction l as [|a l IH]; intros z HZ H; [exact HZ|]. cbn [fold_left]. apply IH; [|exact (Forall_inv_tail H)]. destruct (Forall_inv H) as [b ->]. destruct HZ as [c ->]. destruct b, c; [exists true|exists false|exists false|exists false]; reflexivity.
Qed.
Lemma isf_zero_shape x : isf x 0 -> iszero x.
Proof.
  intros [E F]. destruct x as [b|b| |b m e B]; [exists b; reflexivity|discriminate F|discriminate F|exfalso]. cbn in E. apply eq_0_F2R in E. destruct b; discriminate E.
Qed.
Definition nan_taps (f : filter) (size ns out : Z) : Prop := Forall (eq fnan) (weights f size ns out).
Lemma nan_taps_one f size ns out i : left_tap f size ns out <= i < right_tap f size ns out -> kernel f (kernel_arg size ns out i) = fnan -> nan_taps f size ns out.
Proof.
  intros Hi HK. unfold nan_taps, weights. cbv zeta. assert (N : fsum (raw_weights f size ns out) = fnan). { apply sum_nan. rewrite raw_map, <- HK. apply (in_map (fun i => kernel f (kernel_arg size ns out i))). apply In_zrange. unfold ntaps. lia. }
  rewrite N. apply Forall_map, Forall_forall. intros w _. rewrite div_nan_r. reflexivity.
Qed.
Lemma nan_taps_zero f size ns out : (forall i, left_tap f size ns out <= i < right_tap f size ns out -> iszero (kernel f (kernel_arg size ns out i))) -> nan_taps f size ns out.
Proof.
  intros HK. unfold nan_taps, weights. cbv zeta. assert (A : Forall iszero (raw_weights f size ns out)). { rewrite raw_map. apply Forall_map, Forall_forall. intros i Hi. apply HK. apply In_zrange in Hi. unfold ntaps in Hi. lia. }
  destruct (sum_zero _ A) as [b E]. rewrite E. apply Forall_map. eapply Forall_impl; [|exact A]. intros w [c ->]. destruct b, c; reflexivity.
Qed.
Lemma dot_nan vs ws : length vs = length ws -> ws <> [] -> Forall (eq fnan) ws -> dot vs ws = fnan.
Proof.
  intros L NE H. unfold dot. destruct ws as [|w ws]; [congruence|]. destruct vs as [|v vs]; [discriminate L|]. apply sum_nan. cbn [combine map]. left. rewrite <- (Forall_inv H). apply mul_nan_r.
Qed.
Lemma quantize_nan t : quantize t fnan = Panic.
Proof. destruct t; vm_compute; reflexivity. Qed.
Lemma foldM_first {A S} (f : S -> A -> res S) a l s : f s a = Panic -> foldM f (a :: l) s = Panic.
Proof. intros H. cbn. rewrite H. reflexivity. Qed.
Lemma resample_nan t k f im nw nh : img_ok t k im -> 1 <= iw im -> 1 <= ih im -> 1 <= nw -> 1 <= nh -> nan_taps f (iw im) nw 0 -> resample t k f im nw nh = Panic.
Proof.
  intros HI HW HH HNW HNH NT. unfold resample, vertical_sample. replace (negb (negb (ih im =? 0) || (iw im =? 0))) with false by lia.
  destruct (fill_loop zero4 (iw im) nh (vertical_pixel t f im nh) (fun x y p => length p = 4%nat)) as (tmp & E & W & E1 & E2 & GP); [lia|lia| |].
  { intros x y Hx Hy. rewrite (vertical_pixel_eq t k f im nh x y HI HH Hx). eexists. split; reflexivity. }
  assert (F4 : four tmp). { split; [exact W|]. intros x y Hx Hy. rewrite E1 in Hx. rewrite E2 in Hy. destruct (GP x y Hx Hy) as (p & EP & _ & L). exists p. auto. }
  rewrite E. cbn [bind]. unfold horizontal_sample. rewrite E1, E2. replace (negb (negb (iw im =? 0) || (nh =? 0))) with false by lia. unfold for2. rewrite (zrange_cons 0 nw) by lia. apply foldM_first.
  rewrite (zrange_cons 0 nh) by lia. apply foldM_first.
  rewrite (horizontal_pixel_eq t f tmp nw 0 0 F4) by lia. rewrite E1. assert (D : forall i, dot (frow tmp 0 (left_tap f (iw im) nw 0) (ntaps f (iw im) nw 0) i) (weights f (iw im) nw 0) = fnan).
  { intros i. pose proof (taps_range f (iw im) nw 0 HW) as TR. pose proof (zlen_weights f (iw im) nw 0 HW) as LW. apply dot_nan; [|intros Z; rewrite Z in LW; unfold ntaps in LW; change (zlen (@nil f32)) with 0 in LW; lia|exact NT]. apply Nat2Z.inj. change (zlen (frow tmp 0 (left_tap f (iw im) nw 0) (ntaps f (iw im) nw 0) i) = zlen (weights f (iw im) nw 0)). unfold frow. rewrite zlen_map, zlen_zrange, LW. unfold ntaps. lia. }
  cbn [map]. rewrite !D. cbn [map_res]. rewrite quantize_nan. reflexivity.
Qed.

(** ** the values of sigma that give NaN weights *)
Lemma blur_nan lm size x : 1 <= size -> nan_taps (blur_filter lm fnan) size size x.
Proof.
  intros HS. pose proof (taps_range (blur_filter lm fnan) size size x HS) as TR. apply (nan_taps_one _ _ _ _ (left_tap (blur_filter lm fnan) size size x)); [lia|]. cbn [kernel blur_filter]. unfold gaussian. rewrite mul_nan_r. unfold f32_recip at 1. rewrite div_nan_r. apply mul_nan_l.
Qed.
Lemma finite_over_inf x : is_finite x = true -> iszero (f32_div x (B754_infinity false)).
Proof. destruct x as [b|b| |b m e B]; intros F; try discriminate F; eexists; reflexivity. Qed.
Lemma blur_inf lm size x : exp_accurate lm -> 1 <= size <= 524288 -> 0 <= x < size -> nan_taps (blur_filter lm (B754_infinity false)) size size x.
Proof.
  intros HL HS HX. set (f := blur_filter lm (B754_infinity false)). pose proof (taps_range f size size x ltac:(lia)) as TR. apply nan_taps_zero. intros i Hi. pose proof (own_centre size x HS HX) as IC. destruct (own_scale size ltac:(unfold u32_max; lia)) as (_ & _ & I1). assert (X0 : (0 <= IZR x <= 524287)%R) by (split; apply IZR_le; lia).
  destruct (arg_ok size size x _ 1 i HS ltac:(lia) IC ltac:(lra) I1 ltac:(lra)) as (A & IA & _ & BA). change (kernel f (kernel_arg size size x i)) with (gaussian lm (kernel_arg size size x i) (B754_infinity false)). set (a := kernel_arg size size x i) in *. unfold gaussian.
  assert (BB : (IZR (2 ^ 50) <= B100)%R) by (unfold B100; apply IZR_le; vm_compute; discriminate). assert (P50 : (IZR (2 ^ 50) = 1125899906842624)%R) by (apply f_equal; reflexivity). assert (A2 : (0 <= A * A <= 4398046511104)%R). { split; [apply Rle_0_sqr|]. replace (A * A)%R with (Rabs A * Rabs A)%R by (rewrite <- Rabs_mult; apply Rabs_pos_eq; apply Rle_0_sqr). pose proof (Rabs_pos A). apply Rle_trans with (2097152 * 2097152)%R; [apply Rmult_le_compat; lra|lra]. }
  pose proof (isf_neg _ _ (fb_mul _ _ _ _ IA IA ltac:(lra))) as IN. fold (powi2 a) in IN. change (f32_mul (f32_of_Z 2) (powi2 (B754_infinity false))) with (@B754_infinity 24 128 false). destruct (finite_over_inf _ (proj2 IN)) as [b ->].
  assert (R0 : f32_recip (f32_mul (f32_sqrt (f32_mul (f32_of_Z 2) f32_pi)) (B754_infinity false)) = B754_zero false) by (vm_compute; reflexivity). rewrite R0.
  destruct (HL (B754_zero b) eq_refl ltac:(cbn; lra)) as (EF & _). destruct (exp32 lm (B754_zero b)) as [c|c| |c m e B]; try discriminate EF; eexists; reflexivity.
Qed.
Lemma RN_tiny x : (0 <= x <= bpow radix2 (-151))%R -> RN32 x = 0%R.
Proof.
  intros H. destruct (Req_dec x 0) as [->|N]; [apply RN_0|]. unfold RN. destruct (mag radix2 x) as [e He]. specialize (He N). apply (round_N_small radix2 (SpecFloat.fexp 24 128) _ x e He). rewrite Rabs_pos_eq in He by lra.
  assert (e - 1 <= -151) by (apply (le_bpow radix2); lra). unfold SpecFloat.fexp, SpecFloat.emin. lia.
Qed.
Lemma blur_tiny lm sg s size x : exp32 lm fnan = fnan -> isf sg s -> (0 < s <= bpow radix2 (-76))%R -> 1 <= size <= 524288 -> 0 <= x < size -> nan_taps (blur_filter lm sg) size size x.
Proof.
  intros HL IS HS HZ HX. assert (M76 : (bpow radix2 (-76) <= 1)%R) by (change 1%R with (bpow radix2 0); apply bpow_le; lia). assert (P20 : (bpow radix2 20 = 1048576)%R) by reflexivity. destruct (blur_window lm sg s size x IS ltac:(lra) HZ HX) as (_ & W2 & _). unfold ntaps in W2. set (f := blur_filter lm sg) in *. apply (nan_taps_one f size size x x); [lia|].
  pose proof (own_centre size x HZ HX) as IC. destruct (own_scale size ltac:(unfold u32_max; lia)) as (_ & _ & I1). assert (X0 : (0 <= IZR x <= 524287)%R) by (split; apply IZR_le; lia). destruct (arg_ok size size x _ 1 x HZ HX IC ltac:(lra) I1 ltac:(lra)) as (A & IA & EA & BA).
  replace (IZR x + / 2 - / 2)%R with (IZR x) in EA by ring. rewrite (RN_small x) in EA by lia. rewrite Rminus_diag_eq, RN_0 in EA by reflexivity. unfold Rdiv in EA. rewrite Rmult_0_l, RN_0 in EA. rewrite EA in IA.
  change (kernel f (kernel_arg size size x x)) with (gaussian lm (kernel_arg size size x x) sg). destruct (isf_zero_shape _ IA) as [b ->]. unfold gaussian.
  assert (BB : (4 <= B100)%R) by (unfold B100; apply IZR_le; vm_compute; discriminate). assert (S2 : (0 <= s * s <= bpow radix2 (-151))%R). { split; [apply Rle_0_sqr|]. apply Rle_trans with (bpow radix2 (-152)); [|apply bpow_le; lia]. change (-152)%Z with (-76 + -76)%Z. rewrite bpow_plus. apply Rmult_le_compat; lra. }
  assert (M151 : (bpow radix2 (-151) <= 1)%R) by (change 1%R with (bpow radix2 0); apply bpow_le; lia). pose proof (fb_mul _ _ _ _ IS IS ltac:(lra)) as I2. rewrite (RN_tiny _ S2) in I2. fold (powi2 sg) in I2. destruct (isf_zero_shape _ I2) as [c EC]. rewrite EC.
  assert (E : f32_div (f32_neg (powi2 (B754_zero b))) (f32_mul (f32_of_Z 2) (B754_zero c)) = fnan) by (destruct b, c; vm_compute; reflexivity). rewrite E, HL. apply mul_nan_r.
Qed.
