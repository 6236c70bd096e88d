(** C54: resize *)
From Coq Require Import ZArith Bool Reals Lia Lra.
From Flocq Require Import Core IEEE754.BinarySingleNaN.
From Verif Require Import Base BaseLemmas Color Float ColorF ColorFProofs GenImage GenImageProofs Thumb ThumbSpec FloatProofs ThumbProofs ThumbProofs2 ThumbProofs3 ThumbProofs4 Sample SampleSpec SampleProofs SampleProofs2 SampleProofs3 SampleProofs4 SampleProofs5 SampleProofs6 SampleProofs7 SampleProofs8 SampleProofs9 SampleProofs10.
Local Open Scope Z_scope.

(** An empty source gives a blank image of the size asked for. *)
Theorem C54_empty lm m t k im nw nh ft : iw im = 0 \/ ih im = 0 -> 0 <= nw -> 0 <= nh ->
  exists r, resize lm m t k im nw nh ft = Ok r /\ wf r /\ iw r = nw /\ ih r = nh /\ forall x y, 0 <= x < nw -> 0 <= y < nh -> pixel r x y = Some (repeat 0 (Z.to_nat (nch k))).
Proof.
  intros H H1 H2. exists (new_img nw nh (repeat 0 (Z.to_nat (nch k)))). split; [unfold resize; destruct H as [-> | ->]; [reflexivity|rewrite orb_true_r; reflexivity]|]. split; [apply wf_new_img; lia|]. split; [reflexivity|]. split; [reflexivity|]. intros x y Hx Hy. apply pixel_new_img; assumption.
Qed.

(** To its own size an image is copied, whatever the filter. *)
Theorem C54_same_size lm m t k im ft : wf im -> 1 <= iw im <= u32_max -> 1 <= ih im <= u32_max -> resize lm m t k im (iw im) (ih im) ft = Ok im.
Proof.
  intros W H1 H2. unfold resize. replace ((iw im =? 0) || (ih im =? 0)) with false by lia. rewrite !Z.eqb_refl. cbn [andb].
  destruct (copy_from_fits m (new_img (iw im) (ih im) (repeat 0 (Z.to_nat (nch k)))) im 0 0) as (r & E & WR & EW & EH & P); cbn [iw ih new_img]; try (unfold is_u32; lia); [apply wf_new_img; lia|exact W|].
  rewrite E. cbn [bind]. f_equal. cbn [iw ih new_img] in EW, EH. apply img_ext; [exact WR|exact W|exact EW|exact EH|]. intros x y Hx Hy. rewrite P. unfold pasted. rewrite EW in Hx. rewrite EH in Hy. replace ((0 <=? x) && (x <? 0 + iw im) && (0 <=? y) && (y <? 0 + ih im)) with true by lia. rewrite !Z.sub_0_r. destruct (pixel_in im x y W Hx Hy) as (p & EP). rewrite EP. reflexivity.
Qed.

(** FilterType::Nearest, at every size: output column x is source column c x, likewise for rows, where c is monotone, stays inside the
    source, and is the column under the centre of the output column up to a relative error of 2^-20 in where that centre is.  It is exactly
    that column when the centre is not on the border of two columns and the product of the sizes is at most four million, and when the
    output size divides the source size. *)
Definition nearest_columns (size ns : Z) (c : Z -> Z) : Prop := forall x, 0 <= x < ns ->
  0 <= c x < size /\ (forall x', x <= x' < ns -> c x <= c x') /\ (Rabs (IZR (c x) + / 2 - position size ns x) <= / 2 + position size ns x / 1048576)%R /\
  (size * ns <= 4000000 -> ((2 * x + 1) * size) mod (2 * ns) <> 0 -> c x = (2 * x + 1) * size / (2 * ns)) /\
  (size <= 8388608 -> size mod ns = 0 -> c x = (2 * x + 1) * (size / ns) / 2).
Lemma pick_columns size ns : 1 <= size <= u32_max -> 0 <= ns <= u32_max -> nearest_columns size ns (pick size ns).
Proof.
  intros H1 H2 x Hx. split; [apply pick_range; exact H1|]. split; [intros x' Hx'; apply pick_mono; lia|]. split.
  - pose proof (pick_near size ns x H1 ltac:(lia) Hx) as N. pose proof (position_range size ns x ltac:(lia) ltac:(lia) Hx) as PR. set (p := position size ns x) in *. destruct uu_val as [U0 U1]. assert (12 * uu * p <= / 1048576 * p)%R by (apply Rmult_le_compat_r; lra). lra.
  - split; [intros A B; apply pick_exact; lia|intros A B; apply pick_divides; lia].
Qed.
Lemma own_columns s : 1 <= s -> nearest_columns s s (fun x => x).
Proof.
  intros H x Hx. assert (P1 : (1 <= IZR s)%R) by (apply IZR_le; lia). assert (PE : position s s x = (IZR x + / 2)%R) by (unfold position; field; lra). split; [exact Hx|]. split; [intros x' Hx'; lia|]. split.
  - rewrite PE. assert (0 <= IZR x)%R by (apply IZR_le; lia). replace (IZR x + / 2 - (IZR x + / 2))%R with 0%R by ring. rewrite Rabs_R0. lra.
  - split; intros _ _; [apply (Z.div_unique_pos _ _ x s); nia|rewrite Z.div_same by lia; apply (Z.div_unique_pos _ _ x 1); lia].
Qed.
Theorem C54_nearest lm m t k im nw nh : img_ok t k im -> 1 <= iw im <= u32_max -> 1 <= ih im <= u32_max -> 0 <= nw <= u32_max -> 0 <= nh <= u32_max ->
  exists r cx cy, resize lm m t k im nw nh Nearest = Ok r /\ wf r /\ iw r = nw /\ ih r = nh /\ nearest_columns (iw im) nw cx /\ nearest_columns (ih im) nh cy /\
    forall x y, 0 <= x < nw -> 0 <= y < nh -> pixel r x y = pixel im (cx x) (cy y).
Proof.
  intros HI HW HH HNW HNH. destruct ((nw =? iw im) && (nh =? ih im)) eqn:SAME.
  - assert (nw = iw im /\ nh = ih im) as [EW EH] by lia. subst nw nh. exists im, (fun x => x), (fun y => y). split; [apply C54_same_size; [exact (proj1 HI)|assumption|assumption]|]. split; [exact (proj1 HI)|]. split; [reflexivity|]. split; [reflexivity|]. split; [apply own_columns; lia|]. split; [apply own_columns; lia|]. reflexivity.
  - destruct (nearest_pixel t k im nw nh HI HW HH HNW HNH) as (r & E & W & EW & EH & P). exists r, (pick (iw im) nw), (pick (ih im) nh). split; [unfold resize; replace ((iw im =? 0) || (ih im =? 0)) with false by lia; rewrite SAME; exact E|]. split; [exact W|]. split; [exact EW|]. split; [exact EH|]. split; [apply pick_columns; assumption|]. split; [apply pick_columns; assumption|]. exact P.
Qed.

(** On a border the column is not always the one to the right: enlarging two columns to 41, the centre of output column 20 is exactly 1, yet column 0 is used. *)
Theorem C54_nearest_border_refuted : exists im, img_ok U8 Luma im /\ iw im = 2 /\ forall lm m, exists r, resize lm m U8 Luma im 41 1 Nearest = Ok r /\ position 2 41 20 = 1%R /\ pixel r 20 0 = pixel im 0 0 /\ pixel im 0 0 <> pixel im 1 0.
Proof.
  exists (mkImg 2 1 [[10]; [200]]). split. { split; [unfold wf; cbn; lia|]. constructor; [split; [reflexivity|constructor; [change (0 <= 10 <= 255); lia|constructor]]|]. constructor; [split; [reflexivity|constructor; [change (0 <= 200 <= 255); lia|constructor]]|constructor]. }
  split; [reflexivity|]. intros lm m. exists (mkImg 41 1 (repeat [10] 21 ++ repeat [200] 20)). split; [vm_compute; reflexivity|]. split; [unfold position; lra|]. split; [reflexivity|discriminate].
Qed.

(** FilterType::Triangle and, given an accurate expf, FilterType::Gaussian: no panic, and every channel of an output pixel lies between the
    least and the greatest value of that channel among the source pixels near its position. *)
Definition support_of (ft : filter_type) : R := match ft with Nearest => 0 | Triangle => 1 | CatmullRom => 2 | Gaussian | Lanczos3 => 3 end.
(** the number of source pixels that are averaged is small enough for the precision of f32 *)
Definition few (t : sty) (s sx sy : R) : Prop := (s * (sx + sy) <= match t with U8 => 8180 | U16 => 25 end)%R.
Definition positive_filter (lm : libm) (ft : filter_type) : Prop := ft = Triangle \/ ft = Gaussian /\ exp_accurate lm.
Lemma positive_good lm ft size ns out : positive_filter lm ft -> 1 <= size <= 524288 -> 1 <= ns <= u32_max -> 0 <= out < ns -> good_taps (filter_of lm ft) size ns out /\ isf (support (filter_of lm ft)) (support_of ft) /\ (0 <= support_of ft <= 3)%R.
Proof.
  intros HP HS HN HO. assert (I3 : isf (f32_of_Z 3) 3) by (pose proof (fb_ofZ 3 ltac:(unfold u32_max; lia)) as F; rewrite (RN_small 3) in F by lia; exact F).
  destruct HP as [-> |[-> HE]]; cbn [filter_of support support_of].
  - split; [|split; [exact isf_one|lra]]. apply (good_taps_support _ size ns out 1%R HS HN HO); [exact isf_one|lra|exact triangle_good].
  - split; [|split; [exact I3|lra]]. apply (good_taps_support _ size ns out 3%R HS HN HO); [exact I3|lra|]. exact (gaussian_half lm HE).
Qed.
Theorem C54_between lm m t k im nw nh ft : positive_filter lm ft -> img_ok t k im -> 1 <= iw im <= 524288 -> 1 <= ih im <= 524288 -> 0 <= nw <= u32_max -> 0 <= nh <= u32_max ->
  exists r, resize lm m t k im nw nh ft = Ok r /\ wf r /\ iw r = nw /\ ih r = nh /\ forall x y, 0 <= x < nw -> 0 <= y < nh -> exists p, pixel r x y = Some p /\ is_pixel t k p /\
    (few t (support_of ft) (stretch (iw im) nw) (stretch (ih im) nh) -> forall i a b, (i < Z.to_nat (nch k))%nat ->
      (forall x' y', inside im (x', y') -> close_to (support_of ft) (iw im) nw x x' -> close_to (support_of ft) (ih im) nh y y' -> a <= chan_at t im i (x', y') <= b) -> a <= nth i p 0 <= b).
Proof.
  intros HP HI HW HH HNW HNH. destruct ((nw =? iw im) && (nh =? ih im)) eqn:SAME.
  - assert (nw = iw im /\ nh = ih im) as [EW EH] by lia. subst nw nh. exists im. split; [apply C54_same_size; [exact (proj1 HI)| |]; unfold u32_max in *; lia|]. split; [exact (proj1 HI)|]. split; [reflexivity|]. split; [reflexivity|]. intros x y Hx Hy. destruct (pixel_at t k im (x, y) HI (conj Hx Hy)) as (p & _ & EP & IP). cbn [fst snd] in EP. exists p. split; [exact EP|]. split; [exact IP|].
    intros _ i a b Hi HC. specialize (HC x y (conj Hx Hy)). unfold chan_at in HC. cbn [fst snd] in HC. rewrite EP in HC. rewrite (nth_indep p 0 (smax t)) by (destruct IP as [L _]; unfold zlen in L; lia).
    assert (S0 : (0 <= support_of ft)%R) by (destruct ft; cbn; lra). assert (ST : forall s, (1 <= stretch s s)%R) by (intros s; apply Rmax_l).
    assert (CO : forall s z, 1 <= s -> close_to (support_of ft) s s z z). { intros s z Hs. unfold close_to, position. assert (1 <= IZR s)%R by (apply IZR_le; lia). replace (IZR z + / 2 - (IZR z + / 2) * (IZR s / IZR s))%R with 0%R by (field; lra). rewrite Rabs_R0. assert (0 <= support_of ft * stretch s s)%R by (apply Rmult_le_pos; [lra|specialize (ST s); lra]). lra. }
    apply HC; apply CO; lia.
  - destruct (resample_ok t k (filter_of lm ft) im nw nh HI ltac:(lia) ltac:(lia) ltac:(lia) ltac:(lia)) as (r & E & W & EW & EH & P).
    + intros x Hx. destruct (positive_good lm ft (iw im) nw x HP HW ltac:(lia) Hx) as (G & _). split; [exact G|]. pose proof (taps_range (filter_of lm ft) (iw im) nw x ltac:(lia)). unfold ntaps. lia.
    + intros y Hy. destruct (positive_good lm ft (ih im) nh y HP HH ltac:(lia) Hy) as (G & _). split; [exact G|]. pose proof (taps_range (filter_of lm ft) (ih im) nh y ltac:(lia)). unfold ntaps. lia.
    + exists r. split; [unfold resize; replace ((iw im =? 0) || (ih im =? 0)) with false by lia; rewrite SAME; exact E|]. split; [exact W|]. split; [exact EW|]. split; [exact EH|]. intros x y Hx Hy. destruct (P x y Hx Hy) as (p & PX & IP & B). exists p. split; [exact PX|]. split; [exact IP|]. intros FEW i a b Hi HC.
      destruct (positive_good lm ft (iw im) nw x HP HW ltac:(lia) Hx) as (_ & IS & SB). pose proof (taps_where (filter_of lm ft) (iw im) nw x _ HW ltac:(lia) Hx IS SB) as TX. pose proof (taps_where (filter_of lm ft) (ih im) nh y _ HH ltac:(lia) Hy IS SB) as TY. cbv zeta in TX, TY. fold (stretch (iw im) nw) in TX. fold (stretch (ih im) nh) in TY. destruct TX as (TX1 & TX2 & TX3). destruct TY as (TY1 & TY2 & TY3).
      pose proof (taps_range (filter_of lm ft) (iw im) nw x ltac:(lia)) as RX. pose proof (taps_range (filter_of lm ft) (ih im) nh y ltac:(lia)) as RY.
      assert (HT : forall x' y', left_tap (filter_of lm ft) (iw im) nw x <= x' < right_tap (filter_of lm ft) (iw im) nw x -> left_tap (filter_of lm ft) (ih im) nh y <= y' < right_tap (filter_of lm ft) (ih im) nh y -> a <= chan_at t im i (x', y') <= b).
      { intros x' y' Hx' Hy'. apply HC; [split; cbn [fst snd]; lia| |]; unfold close_to.
        - assert (A1 : left_tap (filter_of lm ft) (iw im) nw x <= x') by lia. assert (A2 : x' <= right_tap (filter_of lm ft) (iw im) nw x - 1) by lia. apply IZR_le in A1, A2. apply Rabs_le. split; lra.
        - assert (A1 : left_tap (filter_of lm ft) (ih im) nh y <= y') by lia. assert (A2 : y' <= right_tap (filter_of lm ft) (ih im) nh y - 1) by lia. apply IZR_le in A1, A2. apply Rabs_le. split; lra. }
      assert (NB : (ntaps (filter_of lm ft) (iw im) nw x + ntaps (filter_of lm ft) (ih im) nh y + 4) * (4 * smax t + 4) <= 2 ^ 24).
      { change (2 ^ 24) with 16777216. apply le_IZR. rewrite mult_IZR, !plus_IZR. unfold few in FEW. rewrite Rmult_plus_distr_l in FEW. destruct t; cbn [smax]; [change (IZR (4 * u8_max) + 4)%R with (1020 + 4)%R|change (IZR (4 * u16_max) + 4)%R with (262140 + 4)%R]; lra. }
      (** the bounds of the caller can be tightened to samples *)
      set (cs := chan_at t im i (left_tap (filter_of lm ft) (iw im) nw x, left_tap (filter_of lm ft) (ih im) nh y)). assert (CB : 0 <= cs <= smax t) by (apply (chan_sample t k im i); [exact HI|split; cbn [fst snd]; lia]). pose proof (HT _ _ (conj (Z.le_refl _) (proj1 (proj2 RX))) (conj (Z.le_refl _) (proj1 (proj2 RY)))) as H0. fold cs in H0.
      assert (K : Z.max 0 a <= nth i p 0 <= Z.min (smax t) b); [|lia]. apply (B i (Z.max 0 a) (Z.min (smax t) b) Hi); [lia|lia|lia|exact NB|]. intros x' y' Hx' Hy'. specialize (HT x' y' Hx' Hy'). assert (0 <= chan_at t im i (x', y') <= smax t) by (apply (chan_sample t k im i); [exact HI|split; cbn [fst snd]; lia]). lia.
Qed.

(** An image whose pixels all have the same value in a channel keeps that value. *)
Theorem C54_constant lm m t k im nw nh ft i v : positive_filter lm ft -> img_ok t k im -> 1 <= iw im <= 524288 -> 1 <= ih im <= 524288 -> 0 <= nw <= u32_max -> 0 <= nh <= u32_max -> few t (support_of ft) (stretch (iw im) nw) (stretch (ih im) nh) ->
  (i < Z.to_nat (nch k))%nat -> (forall x y, inside im (x, y) -> chan_at t im i (x, y) = v) ->
  exists r, resize lm m t k im nw nh ft = Ok r /\ wf r /\ iw r = nw /\ ih r = nh /\ forall x y, 0 <= x < nw -> 0 <= y < nh -> chan_at t r i (x, y) = v.
Proof.
  intros HP HI HW HH HNW HNH FEW Hi HV. destruct (C54_between lm m t k im nw nh ft HP HI HW HH HNW HNH) as (r & E & W & EW & EH & P). exists r. split; [exact E|]. split; [exact W|]. split; [exact EW|]. split; [exact EH|]. intros x y Hx Hy. destruct (P x y Hx Hy) as (p & PX & IP & B). specialize (B FEW i v v Hi). unfold chan_at. cbn [fst snd]. rewrite PX. rewrite (nth_indep p (smax t) 0) by (destruct IP as [L _]; unfold zlen in L; lia). assert (v <= nth i p 0 <= v); [|lia]. apply B. intros x' y' IN _ _. rewrite (HV x' y' IN). lia.
Qed.

(** FilterType::Triangle, sources up to 65536 by 65536: every channel is the tent weighted mean of the source, with the tents centred at
    the position of the output pixel and as wide as the stretch, up to rounding to an integer and a small multiple of the f32 precision;
    the centres and widths used are those of the specification to 20 bits. *)
Definition close20 (x y b : R) : Prop := (Rabs (x - y) <= b / 1048576)%R.
Lemma tent_own x i : tent (IZR x + / 2) 1 i = (if i =? x then 1 else 0)%R.
Proof.
  destruct (i =? x) eqn:E.
  - assert (i = x) by lia. subst. unfold tent. replace (IZR x + / 2 - (IZR x + / 2))%R with 0%R by ring. rewrite Rabs_R0, Rmax_right; lra.
  - apply tent_zero; [lra|]. replace (IZR i + / 2 - (IZR x + / 2))%R with (IZR (i - x)) by (rewrite minus_IZR; ring). rewrite <- abs_IZR. apply IZR_le. lia.
Qed.
Lemma mean_own x v n : 0 <= x < n -> mean (tent (IZR x + / 2) 1) v 0 n = v x.
Proof.
  intros H. assert (E : forall w : Z -> R, sumr (fun i => w i * tent (IZR x + / 2) 1 i)%R 0 n = w x).
  { intros w. rewrite (sumr_restrict _ x 1) by (try lia; intros i Hi NI; rewrite tent_own; replace (i =? x) with false by lia; ring). unfold sumr. rewrite (zrange_cons x 1) by lia. cbn. rewrite tent_own, Z.eqb_refl. ring. }
  pose proof (E (fun _ => 1%R)) as E1. rewrite (sumr_ext _ (tent (IZR x + / 2) 1)) in E1 by (intros; ring). unfold mean. rewrite E, E1. field.
Qed.
Theorem C54_triangle lm m t k im nw nh : img_ok t k im -> 1 <= iw im <= 65536 -> 1 <= ih im <= 65536 -> 0 <= nw <= u32_max -> 0 <= nh <= u32_max ->
  exists r, resize lm m t k im nw nh Triangle = Ok r /\ wf r /\ iw r = nw /\ ih r = nh /\ forall x y, 0 <= x < nw -> 0 <= y < nh -> exists p, pixel r x y = Some p /\ is_pixel t k p /\
    exists cx sx cy sy, close20 cx (position (iw im) nw x) (position (iw im) nw x + 1) /\ close20 cy (position (ih im) nh y) (position (ih im) nh y + 1) /\ close20 sx (stretch (iw im) nw) (stretch (iw im) nw) /\ close20 sy (stretch (ih im) nh) (stretch (ih im) nh) /\
    forall i, (i < Z.to_nat (nch k))%nat -> (Rabs (IZR (nth i p 0%Z) - tent_mean t im i cx sx cy sy) <= / 2 + IZR (smax t) * (6 * (stretch (iw im) nw + stretch (ih im) nh) + 423) / 16777216)%R.
Proof.
  intros HI HW HH HNW HNH. assert (SM : (0 <= IZR (smax t))%R) by (apply IZR_le; destruct t; cbn; unfold u8_max, u16_max; lia). assert (ST : forall s n, (1 <= stretch s n)%R) by (intros s n; apply Rmax_l). destruct ((nw =? iw im) && (nh =? ih im)) eqn:SAME.
  - assert (nw = iw im /\ nh = ih im) as [EW EH] by lia. subst nw nh. exists im. split; [apply C54_same_size; [exact (proj1 HI)| |]; unfold u32_max in *; lia|]. split; [exact (proj1 HI)|]. split; [reflexivity|]. split; [reflexivity|]. intros x y Hx Hy. destruct (pixel_at t k im (x, y) HI (conj Hx Hy)) as (p & _ & EP & IP). cbn [fst snd] in EP. exists p. split; [exact EP|]. split; [exact IP|].
    exists (IZR x + / 2)%R, 1%R, (IZR y + / 2)%R, 1%R. assert (PE : forall s z, 1 <= s -> position s s z = (IZR z + / 2)%R) by (intros s z Hs; unfold position; field; assert (1 <= IZR s)%R by (apply IZR_le; lia); lra). assert (SE : forall s, 1 <= s -> stretch s s = 1%R) by (intros s Hs; unfold stretch; apply Rmax_left; assert (1 <= IZR s)%R by (apply IZR_le; lia); apply Req_le; field; lra).
    rewrite !PE, !SE by lia. assert (X0 : (0 <= IZR x)%R) by (apply IZR_le; lia). assert (Y0 : (0 <= IZR y)%R) by (apply IZR_le; lia). assert (C0 : forall z b, (0 <= b)%R -> close20 z z b) by (intros z b Hb; unfold close20; replace (z - z)%R with 0%R by ring; rewrite Rabs_R0; lra). split; [apply C0; lra|]. split; [apply C0; lra|]. split; [apply C0; lra|]. split; [apply C0; lra|].
    intros i Hi. unfold tent_mean. rewrite (mean_own x _ (iw im) Hx), (mean_own y _ (ih im) Hy). unfold chan_at. cbn [fst snd]. rewrite EP. rewrite (nth_indep p (smax t) 0) by (destruct IP as [L _]; unfold zlen in L; lia). unfold Rminus. rewrite Rplus_opp_r, Rabs_R0. apply Rle_trans with (/ 2)%R; [lra|]. apply Rle_trans with (/ 2 + 0)%R; [lra|]. apply Rplus_le_compat_l. apply Rle_mult_inv_pos; [|lra]. apply Rmult_le_pos; lra.
  - set (f := filter_of lm Triangle). assert (AX : forall x, 0 <= x < nw -> exists c s, axis f (iw im) nw x c s (computed f (iw im) nw x)).
    { intros x Hx. destruct (triangle_axis f (iw im) nw x eq_refl isf_one HW ltac:(lia) ltac:(lia)) as (c & s & K & A). exists c, s. exact (axis_computed _ _ _ _ _ _ _ A). }
    assert (AY : forall y, 0 <= y < nh -> exists c s, axis f (ih im) nh y c s (computed f (ih im) nh y)).
    { intros y Hy. destruct (triangle_axis f (ih im) nh y eq_refl isf_one HH ltac:(lia) ltac:(lia)) as (c & s & K & A). exists c, s. exact (axis_computed _ _ _ _ _ _ _ A). }
    destruct (resample_mean t k f im nw nh (computed f (iw im) nw) (computed f (ih im) nh) HI ltac:(lia) ltac:(lia) ltac:(lia) ltac:(lia)) as (r & E & W & EW & EH & P).
    + intros x Hx. destruct (AX x Hx) as (c & s & _ & _ & _ & TV & _). split; [exact TV|]. pose proof (taps_range f (iw im) nw x ltac:(lia)). unfold ntaps. lia.
    + intros y Hy. destruct (AY y Hy) as (c & s & _ & _ & _ & TV & _). split; [exact TV|]. pose proof (taps_range f (ih im) nh y ltac:(lia)). unfold ntaps. lia.
    + exists r. split; [unfold resize; replace ((iw im =? 0) || (ih im =? 0)) with false by lia; rewrite SAME; exact E|]. split; [exact W|]. split; [exact EW|]. split; [exact EH|]. intros x y Hx Hy. destruct (P x y Hx Hy) as (p & PX & IP & B). exists p. split; [exact PX|]. split; [exact IP|].
      destruct (AX x Hx) as (cx & sx & BX). destruct (AY y Hy) as (cy & sy & BY). set (Kx := computed f (iw im) nw x) in *. set (Ky := computed f (ih im) nh y) in *. exists cx, sx, cy, sy. pose proof BX as (CX & _ & SX & _ & _ & _ & _ & NX). pose proof BY as (CY & _ & SY & _ & _ & _ & _ & NY). split; [exact CX|]. split; [exact CY|]. split; [exact SX|]. split; [exact SY|].
      intros i Hi. specialize (B i Hi). cbv zeta in B. pose proof (axes_mean t k im i f nw x cx sx Kx f nh y cy sy Ky HI ltac:(lia) ltac:(lia) BX BY) as M2. change (tent_mean t im i cx sx cy sy) with (mean2 t im i (tent cx sx) (tent cy sy) 0 (iw im) 0 (ih im)).
      set (a := IZR (nth i p 0)) in *. set (b := mean2 t im i Kx Ky _ _ _ _) in *. set (c := mean2 t im i (tent cx sx) _ _ _ _ _) in *. set (nx := IZR (ntaps f (iw im) nw x)) in *. set (ny := IZR (ntaps f (ih im) nh y)) in *. set (u := stretch (iw im) nw) in *. set (v := stretch (ih im) nh) in *. clearbody a b c.
      assert (UE : uu = (/ 16777216)%R) by (unfold uu; reflexivity). replace (a - c)%R with ((a - b) + (b - c))%R by ring. eapply Rle_trans; [apply Rabs_triang|]. apply Rle_trans with (/ 2 + IZR (smax t) * (4 / 3 * ((2 * (nx + ny) + 9) * uu) + 386 * uu))%R; [rewrite Rmult_plus_distr_l; lra|].
      apply Rplus_le_compat_l. unfold Rdiv. rewrite (Rmult_assoc (IZR (smax t))). apply Rmult_le_compat_l; [exact SM|]. rewrite UE. assert (1 <= u)%R by apply ST. assert (1 <= v)%R by apply ST. lra.
Qed.

(** Non-vacuity *)
Definition small_im : img (list Z) := mkImg 3 2 [[10]; [20]; [30]; [40]; [50]; [255]].
Lemma small_ok : img_ok U8 Luma small_im.
Proof.
  split; [unfold wf; cbn; lia|]. apply Forall_forall. intros p HP. unfold small_im in HP. cbn [px In] in HP. decompose [or] HP; subst; try contradiction; (split; [reflexivity|constructor; [match goal with |- is_sample _ ?v => change (0 <= v <= 255) end; lia|constructor]]).
Qed.
Example C54_nearest_nonvacuous lm m : img_ok U8 Luma small_im /\ resize lm m U8 Luma small_im 2 2 Nearest = Ok (mkImg 2 2 [[10]; [30]; [40]; [255]]).
Proof. split; [exact small_ok|vm_compute; reflexivity]. Qed.
Example C54_between_nonvacuous lm m : img_ok U8 Luma small_im /\ few U8 (support_of Triangle) (stretch 3 5) (stretch 2 1) /\ resize lm m U8 Luma small_im 5 1 Triangle = Ok (mkImg 5 1 [[25]; [29]; [35]; [100]; [143]]).
Proof. split; [exact small_ok|]. split; [|vm_compute; reflexivity]. unfold few, stretch, support_of. rewrite (Rmax_left 1 (3 / 5)), (Rmax_right 1 (2 / 1)) by lra. lra. Qed.
(** an expf that is accurate: the correctly rounded one *)
Definition nearest_f32 (y : R) : f32 := let z := RN32 y in binary_normalize 24 128 _ _ mode_NE (Ztrunc (scaled_mantissa radix2 (SpecFloat.fexp 24 128) z)) (cexp radix2 (SpecFloat.fexp 24 128) z) false.
Lemma nearest_f32_ok y : (0 <= y <= 1)%R -> isf (nearest_f32 y) (RN32 y).
Proof.
  intros H. unfold nearest_f32. cbv zeta. pose proof (RN_01 y H) as HR. assert (G : generic_format radix2 (SpecFloat.fexp 24 128) (RN32 y)) by (apply generic_format_round; [apply fexp_correct; exact eq_refl|apply valid_rnd_N]). set (z := RN32 y) in *.
  pose proof (binary_normalize_correct 24 128 f32_prec f32_emax mode_NE (Ztrunc (scaled_mantissa radix2 (SpecFloat.fexp 24 128) z)) (cexp radix2 (SpecFloat.fexp 24 128) z) false) as K. cbv zeta in K.
  assert (E : F2R (Float radix2 (Ztrunc (scaled_mantissa radix2 (SpecFloat.fexp 24 128) z)) (cexp radix2 (SpecFloat.fexp 24 128) z)) = z) by (symmetry; exact G). rewrite E in K. rewrite round_generic in K; [|apply valid_rnd_N|exact G].
  rewrite Rlt_bool_true in K. { destruct K as (K1 & K2 & _). split; assumption. } rewrite Rabs_pos_eq by lra. apply Rle_lt_trans with 1%R; [lra|]. change 1%R with (bpow radix2 0). apply bpow_lt. lia.
Qed.
Definition exact_libm : libm := mkLibm (fun x => x) (fun x => nearest_f32 (exp (B2R x))).
Example C54_exp_accurate_nonvacuous : exp_accurate exact_libm.
Proof.
  intros x F H. assert (E : (0 <= exp (B2R x) <= 1)%R). { pose proof (exp_pos (B2R x)). split; [lra|]. rewrite <- exp_0. destruct H as [H|H]; [left; apply exp_increasing; exact H|right; rewrite H; reflexivity]. }
  cbn [exp32 exact_libm]. destruct (nearest_f32_ok _ E) as [V W]. rewrite V. split; [exact W|]. split; [apply RN_01; exact E|]. pose proof (RN_ae (exp (B2R x)) ltac:(lra)) as N. pose proof eta_uu as ET. destruct uu_val as [U0 U1]. set (e := exp (B2R x)) in *. assert (uu * e <= uu * 1)%R by (apply Rmult_le_compat_l; lra). apply Rle_trans with (uu * e + eta)%R; [exact N|]. lra.
Qed.
Definition c54_theorems := (C54_empty, C54_same_size, C54_nearest, C54_nearest_border_refuted, C54_between, C54_constant, C54_triangle).
Print Assumptions c54_theorems.
