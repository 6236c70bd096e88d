(** C54, the Catmull-Rom filter *)
From Coq Require Import ZArith Bool Reals Lia Lra.
From Flocq Require Import Core IEEE754.BinarySingleNaN.
From Verif Require Import Base BaseLemmas ListMore Color ColorProofs Float FloatProofs JpegQuant ColorF ColorFProofs GenImage Thumb ThumbSpec ThumbProofs ThumbProofs2 ThumbProofs3 ThumbProofs4 Sample SampleSpec SampleProofs SampleProofs2 SampleProofs3 SampleProofs4 SampleProofs5 SampleProofs7 SampleProofs8 SampleProofs9 SampleProofs10 SampleProps Filter3Spec Filter3Proofs CubicSpec CubicProofs CubicProofs2 CubicProofs3 CubicProofs4 CubicProofs5 CubicProofs6.
Local Open Scope Z_scope.

(** K are the Catmull-Rom weights of [size] columns around position [pos], for a stretch of [st], to f32 precision; they have a positive sum, and dividing by it amplifies by at most 4.4 *)
Definition catmull_weights (size : Z) (pos st : R) (K : Z -> R) : Prop :=
  (exists c s, close20 c pos (pos + 1) /\ close20 s st st /\ forall i, 0 <= i < size -> (Rabs (K i - cubic_at c s i) <= 100 / 16777216)%R) /\
  (0 < sumr K 0 size)%R /\ (sumr (fun i => Rabs (K i)) 0 size <= 4.4 * sumr K 0 size)%R.
Lemma cubic_own x i : cubic_at (IZR x + / 2) 1 i = (if i =? x then 1 else 0)%R.
Proof.
  unfold cubic_at. replace ((IZR i + / 2 - (IZR x + / 2)) / 1)%R with (IZR (i - x)) by (rewrite minus_IZR; field). destruct (i =? x) eqn:E.
  - replace (i - x) with 0 by lia. rewrite cubic_in by (rewrite Rabs_R0; lra). rewrite Rabs_R0. unfold cin. lra.
  - rewrite cubic_cub, <- abs_IZR. assert (H : Z.abs (i - x) = 1 \/ 2 <= Z.abs (i - x)) by lia. destruct H as [->|H]; [rewrite cub_out by lra; unfold cout; lra|]. apply cub_zero. apply (IZR_le 2). exact H.
Qed.
Lemma sum_own x n w : 0 <= x < n -> sumr (fun i => w i * (if (i =? x)%Z then 1 else 0))%R 0 n = w x.
Proof. intros H. rewrite (sumr_restrict _ x 1) by (try lia; intros i Hi NI; replace (i =? x) with false by lia; ring). unfold sumr. rewrite (zrange_cons x 1) by lia. cbn. rewrite Z.eqb_refl. ring. Qed.
Definition taps_only (f : filter) (size ns out : Z) (i : Z) : R := if (left_tap f size ns out <=? i) && (i <? right_tap f size ns out) then computed f size ns out i else 0%R.
Lemma axis_staps f size ns out c s : 1 <= size <= 65536 -> 1 <= ns -> caxis f size ns out c s (computed f size ns out) -> staps f size ns out (computed f size ns out).
Proof.
  intros HS HN (_ & _ & _ & TV & _ & N & A & NT). pose proof (taps_range f size ns out ltac:(lia)) as TR. split; [|split; [exact N|split; [exact A|]]].
  - intros i Hi. destruct (TV i Hi) as [I E]. split; [exact I|]. pose proof (cubic_range ((IZR i + / 2 - c) / s)) as CR. fold (cubic_at c s i) in CR. destruct uu_val as [U0 U1]. apply Rabs_le_inv in E. apply Rabs_le. lra.
  - unfold ntaps. lia.
Qed.
Lemma axis_weights f size ns out c s : 1 <= size <= 65536 -> 1 <= ns -> caxis f size ns out c s (computed f size ns out) -> catmull_weights size (position size ns out) (stretch size ns) (taps_only f size ns out) /\
  forall v, mean (taps_only f size ns out) v 0 size = mean (computed f size ns out) v (left_tap f size ns out) (ntaps f size ns out).
Proof.
  intros HS HN AX. pose proof (staps_pos _ _ _ _ _ (axis_staps f size ns out c s HS HN AX)) as SP. destruct AX as (H1 & _ & H3 & TV & TZ & N & A & NT). pose proof (taps_range f size ns out ltac:(lia)) as TR. assert (NE : left_tap f size ns out + ntaps f size ns out = right_tap f size ns out) by (unfold ntaps; lia).
  assert (IN : forall i, left_tap f size ns out <= i < left_tap f size ns out + ntaps f size ns out -> taps_only f size ns out i = computed f size ns out i) by (intros i Hi; unfold taps_only; replace ((left_tap f size ns out <=? i) && (i <? right_tap f size ns out)) with true by lia; reflexivity).
  assert (OUT : forall i, ~ left_tap f size ns out <= i < left_tap f size ns out + ntaps f size ns out -> taps_only f size ns out i = 0%R) by (intros i Hi; unfold taps_only; replace ((left_tap f size ns out <=? i) && (i <? right_tap f size ns out)) with false by lia; reflexivity).
  set (K := taps_only f size ns out) in *. set (C := computed f size ns out) in *. set (l := left_tap f size ns out) in *. set (n := ntaps f size ns out) in *. assert (UE : uu = (/ 16777216)%R) by (unfold uu; reflexivity).
  assert (RS : forall g : R -> Z -> R, (forall i, g 0%R i = 0%R) -> sumr (fun i => g (K i) i) 0 size = sumr (fun i => g (C i) i) l n). { intros g G0. rewrite (sumr_restrict _ l n) by (try lia; intros i Hi NI; rewrite (OUT i NI); apply G0). apply sumr_ext. intros i Hi. rewrite (IN i Hi). reflexivity. }
  pose proof (RS (fun k _ => k) (fun _ => eq_refl)) as R1. pose proof (RS (fun k _ => Rabs k) (fun _ => Rabs_R0)) as R2. cbv beta in R1, R2. change (sumr (fun i => K i) 0 size) with (sumr K 0 size) in R1. change (sumr (fun i => C i) l n) with (sumr C l n) in R1. split.
  - split; [|rewrite R1, R2; split; [exact SP|exact A]]. exists c, s. split; [exact H1|]. split; [exact H3|]. intros i Hi. destruct (Z_le_gt_dec l i) as [G1|G1]; [destruct (Z_lt_ge_dec i (l + n)) as [G2|G2]|].
    + rewrite (IN i) by lia. destruct (TV i ltac:(lia)) as [_ E]. rewrite UE in E. lra.
    + rewrite (OUT i), (TZ i) by lia. rewrite Rminus_0_r, Rabs_R0. lra.
    + rewrite (OUT i), (TZ i) by lia. rewrite Rminus_0_r, Rabs_R0. lra.
  - intros v. unfold mean. rewrite R1. f_equal. apply (RS (fun k i => v i * k)%R). intros i. ring.
Qed.
(** FilterType::CatmullRom, sources up to 65536 by 65536: no panic, and every channel is the mean of the source with Catmull-Rom weights (products of a column's and a
    row's, centred at the position of the output pixel, stretched when reducing), cut to the range of the samples and rounded, up to a small multiple of the f32 precision. *)
Theorem C54_catmullrom lm m t k im nw nh : img_ok t k im -> 1 <= iw im <= 65536 -> 1 <= ih im <= 65536 -> 0 <= nw <= u32_max -> 0 <= nh <= u32_max ->
  exists r, resize lm m t k im nw nh CatmullRom = Ok r /\ wf r /\ iw r = nw /\ ih r = nh /\ forall x y, 0 <= x < nw -> 0 <= y < nh -> exists p, pixel r x y = Some p /\ is_pixel t k p /\
    exists Kx Ky, catmull_weights (iw im) (position (iw im) nw x) (stretch (iw im) nw) Kx /\ catmull_weights (ih im) (position (ih im) nh y) (stretch (ih im) nh) Ky /\
    forall i, (i < Z.to_nat (nch k))%nat ->
      (Rabs (IZR (nth i p 0%Z) - limited 0 (IZR (smax t)) (mean Kx (fun x' => mean Ky (fun y' => IZR (chan_at t im i (x', y'))) 0 (ih im)) 0 (iw im)))
       <= / 2 + IZR (smax t) * (524 * (stretch (iw im) nw + stretch (ih im) nh) + 1310) / 16777216)%R.
Proof.
  intros HI HW HH HNW HNH. pose proof (smax_range t) as SMR. assert (SM : (0 <= IZR (smax t))%R) by (apply IZR_le; lia). assert (ST : forall s n, (1 <= stretch s n)%R) by (intros s n; apply Rmax_l). destruct ((nw =? iw im) && (nh =? ih im)) eqn:SAME.
  - assert (nw = iw im /\ nh = ih im) as [EW EH] by lia. subst nw nh. exists im. split; [apply C54_same_size; [exact (proj1 HI)| |]; unfold u32_max in *; lia|]. split; [exact (proj1 HI)|]. split; [reflexivity|]. split; [reflexivity|]. intros x y Hx Hy. destruct (pixel_at t k im (x, y) HI (conj Hx Hy)) as (p & _ & EP & IP). cbn [fst snd] in EP. exists p. split; [exact EP|]. split; [exact IP|].
    set (D := fun z i : Z => if i =? z then 1%R else 0%R). exists (D x), (D y). assert (PE : forall s z, 1 <= s -> position s s z = (IZR z + / 2)%R) by (intros s z Hs; unfold position; field; assert (1 <= IZR s)%R by (apply IZR_le; lia); lra). assert (SE : forall s, 1 <= s -> stretch s s = 1%R) by (intros s Hs; unfold stretch; apply Rmax_left; assert (1 <= IZR s)%R by (apply IZR_le; lia); apply Req_le; field; lra).
    rewrite !PE, !SE by lia. assert (C0 : forall z b, (0 <= b)%R -> close20 z z b) by (intros z b Hb; unfold close20; replace (z - z)%R with 0%R by ring; rewrite Rabs_R0; lra).
    assert (SD : forall z n, 0 <= z < n -> sumr (D z) 0 n = 1%R) by (intros z n Hz; rewrite (sumr_ext _ (fun i => 1 * (if (i =? z)%Z then 1 else 0))%R) by (intros; unfold D; ring); apply (sum_own z n (fun _ => 1%R) Hz)).
    assert (WD : forall z n, 0 <= z < n -> catmull_weights n (IZR z + / 2) 1 (D z)). { intros z n Hz. assert (0 <= IZR z)%R by (apply IZR_le; lia). split; [|rewrite (sumr_ext (fun i => Rabs (D z i)) (D z)) by (intros i Hi; unfold D; destruct (i =? z); [apply Rabs_R1|apply Rabs_R0]); rewrite SD by exact Hz; lra]. exists (IZR z + / 2)%R, 1%R. split; [apply C0; lra|]. split; [apply C0; lra|]. intros i Hi. rewrite cubic_own. unfold D. rewrite Rminus_diag_eq, Rabs_R0 by reflexivity. lra. }
    split; [apply WD; exact Hx|]. split; [apply WD; exact Hy|]. assert (MD : forall z n w, 0 <= z < n -> mean (D z) w 0 n = w z). { intros z n w Hz. unfold mean. rewrite SD by exact Hz. unfold D. rewrite sum_own by exact Hz. field. }
    intros i Hi. rewrite (MD x (iw im) _ Hx), (MD y (ih im) _ Hy). pose proof (chan_sample t k im i (x, y) HI (conj Hx Hy)) as CS. unfold chan_at in *. cbn [fst snd] in *. rewrite EP in *. rewrite (nth_indep p (smax t) 0) in * by (destruct IP as [L _]; unfold zlen in L; lia). unfold is_sample in CS. assert (LE : limited 0 (IZR (smax t)) (IZR (nth i p 0)) = IZR (nth i p 0)). { assert (0 <= IZR (nth i p 0%Z) <= IZR (smax t))%R by (split; apply IZR_le; lia). unfold limited. rewrite Rmax_right, Rmin_right by lra. reflexivity. }
    rewrite LE. unfold Rminus. rewrite Rplus_opp_r, Rabs_R0. apply Rle_trans with (/ 2 + 0)%R; [lra|]. apply Rplus_le_compat_l. apply Rle_mult_inv_pos; [|lra]. apply Rmult_le_pos; lra.
  - set (f := filter_of lm CatmullRom). assert (AX : forall x, 0 <= x < nw -> exists c s, caxis f (iw im) nw x c s (computed f (iw im) nw x)) by (intros x Hx; apply cubic_axis; [reflexivity|exact isf2|exact HW|lia|exact Hx]).
    assert (AY : forall y, 0 <= y < nh -> exists c s, caxis f (ih im) nh y c s (computed f (ih im) nh y)) by (intros y Hy; apply cubic_axis; [reflexivity|exact isf2|exact HH|lia|exact Hy]).
    destruct (resample_signed t k f im nw nh (computed f (iw im) nw) (computed f (ih im) nh) HI ltac:(lia) ltac:(lia) ltac:(lia) ltac:(lia)) as (r & E & W & EW & EH & P).
    + intros x Hx. destruct (AX x Hx) as (c & s & A). apply (axis_staps f (iw im) nw x c s); [exact HW|lia|exact A].
    + intros y Hy. destruct (AY y Hy) as (c & s & A). apply (axis_staps f (ih im) nh y c s); [exact HH|lia|exact A].
    + exists r. split; [unfold resize; replace ((iw im =? 0) || (ih im =? 0)) with false by lia; rewrite SAME; exact E|]. split; [exact W|]. split; [exact EW|]. split; [exact EH|]. intros x y Hx Hy. destruct (P x y Hx Hy) as (p & PX & IP & B). exists p. split; [exact PX|]. split; [exact IP|].
      destruct (AX x Hx) as (cx & sx & BX). destruct (AY y Hy) as (cy & sy & BY). destruct (axis_weights f (iw im) nw x cx sx HW ltac:(lia) BX) as (WX & MX). destruct (axis_weights f (ih im) nh y cy sy HH ltac:(lia) BY) as (WY & MY). exists (taps_only f (iw im) nw x), (taps_only f (ih im) nh y). split; [exact WX|]. split; [exact WY|].
      intros i Hi. specialize (B i Hi). cbv zeta in B. rewrite MX. rewrite (mean_ext_v (computed f (iw im) nw x) _ (fun x' => mean (computed f (ih im) nh y) (fun y' => IZR (chan_at t im i (x', y'))) (left_tap f (ih im) nh y) (ntaps f (ih im) nh y))) by (intros x' _; apply MY).
      change (mean (computed f (iw im) nw x) (fun x' => mean (computed f (ih im) nh y) (fun y' => IZR (chan_at t im i (x', y'))) (left_tap f (ih im) nh y) (ntaps f (ih im) nh y)) (left_tap f (iw im) nw x) (ntaps f (iw im) nw x)) with (mean2 t im i (computed f (iw im) nw x) (computed f (ih im) nh y) (left_tap f (iw im) nw x) (ntaps f (iw im) nw x) (left_tap f (ih im) nh y) (ntaps f (ih im) nh y)).
      destruct BX as (_ & _ & _ & _ & _ & _ & _ & NX). destruct BY as (_ & _ & _ & _ & _ & _ & _ & NY). eapply Rle_trans; [exact B|]. apply Rplus_le_compat_l. unfold Rdiv. rewrite (Rmult_assoc (IZR (smax t))). apply Rmult_le_compat_l; [exact SM|]. assert (UE : uu = (/ 16777216)%R) by (unfold uu; reflexivity). rewrite UE. lra.
Qed.
(** a channel that is constant stays so, when the samples have 8 bits and the image is made at most thirty times smaller in each direction *)
Theorem C54_catmullrom_constant lm m t k im nw nh i v : img_ok t k im -> 1 <= iw im <= 65536 -> 1 <= ih im <= 65536 -> 0 <= nw <= u32_max -> 0 <= nh <= u32_max -> (IZR (smax t) * (524 * (stretch (iw im) nw + stretch (ih im) nh) + 1310) < 8388608)%R ->
  (i < Z.to_nat (nch k))%nat -> (forall x y, inside im (x, y) -> chan_at t im i (x, y) = v) ->
  exists r, resize lm m t k im nw nh CatmullRom = Ok r /\ wf r /\ iw r = nw /\ ih r = nh /\ forall x y, 0 <= x < nw -> 0 <= y < nh -> chan_at t r i (x, y) = v.
Proof.
  intros HI HW HH HNW HNH FEW Hi HV. destruct (C54_catmullrom lm m t k im nw nh HI HW HH HNW HNH) as (r & E & W & EW & EH & P). exists r. split; [exact E|]. split; [exact W|]. split; [exact EW|]. split; [exact EH|]. intros x y Hx Hy. destruct (P x y Hx Hy) as (p & PX & IP & Kx & Ky & (_ & SX & _) & (_ & SY & _) & B). specialize (B i Hi).
  assert (MC : forall K w n, (0 < sumr K 0 n)%R -> (forall j, 0 <= j < n -> w j = IZR v) -> mean K w 0 n = IZR v). { intros K w n HS HC. unfold mean. rewrite (sumr_ext _ (fun j => IZR v * K j)%R) by (intros j Hj; rewrite HC by lia; reflexivity). rewrite sumr_scale. field. lra. }
  rewrite MC in B; [|exact SX|intros x' Hx'; apply MC; [exact SY|intros y' Hy'; rewrite HV by (split; assumption); reflexivity]].
  assert (CV : 0 <= v <= smax t) by (rewrite <- (HV 0 0) by (split; cbn [fst snd]; lia); apply (chan_sample t k im i (0, 0) HI); split; cbn [fst snd]; lia). assert (LV : limited 0 (IZR (smax t)) (IZR v) = IZR v). { assert (0 <= IZR v <= IZR (smax t))%R by (split; apply IZR_le; lia). unfold limited. rewrite Rmax_right, Rmin_right by lra. reflexivity. }
  rewrite LV in B. unfold chan_at. cbn [fst snd]. rewrite PX. rewrite (nth_indep p (smax t) 0) by (destruct IP as [L _]; unfold zlen in L; lia). apply Rabs_le_inv in B. assert (Z.abs (nth i p 0 - v) < 1); [|lia]. apply lt_IZR. rewrite abs_IZR, minus_IZR. apply Rabs_def1; lra.
Qed.
Example C54_catmullrom_nonvacuous lm m : img_ok U8 Luma small_im /\ (IZR (smax U8) * (524 * (stretch 3 5 + stretch 2 1) + 1310) < 8388608)%R /\ resize lm m U8 Luma small_im 5 1 CatmullRom = Ok (mkImg 5 1 [[24]; [24]; [35]; [105]; [151]]).
Proof. split; [exact small_ok|]. split; [|vm_compute; reflexivity]. change (smax U8) with 255. unfold stretch. rewrite (Rmax_left 1 (3 / 5)), (Rmax_right 1 (2 / 1)) by lra. lra. Qed.
Definition c54_cubic_theorems := (C54_catmullrom, C54_catmullrom_constant).
Print Assumptions c54_cubic_theorems.
