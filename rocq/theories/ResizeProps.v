(** C19: the sizes chosen when an image is resized with its aspect ratio kept *)
From Coq Require Import ZArith Bool Reals Lia Lra.
From Flocq Require Import Core IEEE754.BinarySingleNaN.
From Verif Require Import Base BaseLemmas GenImage GenImageProofs Float FloatProofs JpegQuant ColorFProofs Resize ResizeProofs.
Local Open Scope Z_scope.

(** [k] is m n / d rounded to the nearest integer (a tie or a value within 2^-19 of one may go either way), at least 1 *)
Definition nearest_scaled (k m n d : Z) : Prop := exists k0, k = Z.max 1 k0 /\ 0 <= k0 /\ 524288 * Z.abs (k0 * d - m * n) <= 262145 * d.

(** never zero, never above u32::MAX: for every input, whatever the floats do *)
Theorem C19_range : forall w h nw nh fill, let '(a, b) := resize_dimensions w h nw nh fill in 1 <= a <= u32_max /\ 1 <= b <= u32_max.
Proof. exact rd_range. Qed.
Print Assumptions C19_range.

Lemma fits_case w h nw nh : 1 <= w <= u32_max -> 1 <= h <= u32_max -> 0 <= nw <= u32_max -> 0 <= nh <= u32_max ->
  let r := Rmin (q nw w) (q nh h) in resize_dimensions w h nw nh false = (Z.max 1 (v w r), Z.max 1 (v h r)) /\ 0 <= v w r <= nw /\ 0 <= v h r <= nh.
Proof.
  intros Hw Hh Hnw Hnh r. rewrite rd_ok by assumption. fold r. destruct (q_ok nw w Hnw Hw) as (_ & _ & B1). destruct (q_ok nh h Hnh Hh) as (_ & _ & B2).
  assert (R0 : (0 <= r)%R) by (unfold r; apply Rmin_glb; lra). pose proof (v_nonneg w r ltac:(lia) R0) as V1. pose proof (v_nonneg h r ltac:(lia) R0) as V2.
  pose proof (v_le w r (q nw w) ltac:(lia) (Rmin_l _ _)) as L1. rewrite v_same in L1 by lia. pose proof (v_le h r (q nh h) ltac:(lia) (Rmin_r _ _)) as L2. rewrite v_same in L2 by lia.
  unfold dims_of. rewrite !fits_id by lia. replace (Z.max 1 (v w r) >? u32_max) with false by (unfold u32_max in *; lia). replace (Z.max 1 (v h r) >? u32_max) with false by (unfold u32_max in *; lia). auto.
Qed.
(** without fill the result fits in the bounding box (a zero bound counts as 1): every image size, also empty ones *)
Theorem C19_fits : forall w h nw nh, is_u32 w -> is_u32 h -> is_u32 nw -> is_u32 nh ->
  let '(a, b) := resize_dimensions w h nw nh false in a <= Z.max 1 nw /\ b <= Z.max 1 nh.
Proof.
  unfold is_u32. intros w h nw nh Hw Hh Hnw Hnh. destruct (Z.eq_dec w 0) as [->|Nw]; [|destruct (Z.eq_dec h 0) as [->|Nh]].
  - unfold resize_dimensions. cbv zeta. rewrite !scaled_zero by (unfold u32_max, u64_max; lia). change (1 >? u32_max) with false. cbv iota.
    destruct (Z.eq_dec h 0) as [->|Nh]; [rewrite !scaled_zero by (unfold u64_max; lia); change (1 >? u32_max) with false; cbv iota; lia|].
    destruct (q_ok nh h Hnh ltac:(lia)) as (E & F & B). rewrite (min_weird_l _ _ (div_zero nw Hnw) F). rewrite (scaled_ok u64_max h _ Hh F) by (rewrite E; exact B). rewrite E, v_same by lia. change (Z.max (clampz 0 u64_max nh) 1) with (fits nh). rewrite fits_id by lia.
    replace (Z.max 1 nh >? u32_max) with false by (unfold u32_max in *; lia). lia.
  - unfold resize_dimensions. cbv zeta. rewrite !(scaled_zero _ _ (ltac:(unfold u64_max; lia) : 0 <= u64_max)). change (1 >? u32_max) with false. cbv iota.
    destruct (q_ok nw w Hnw ltac:(lia)) as (E & F & B). rewrite (min_weird_r _ _ (div_zero nh Hnh) F). rewrite (scaled_ok u64_max w _ Hw F) by (rewrite E; exact B). rewrite E, v_same by lia. change (Z.max (clampz 0 u64_max nw) 1) with (fits nw). rewrite fits_id by lia.
    replace (Z.max 1 nw >? u32_max) with false by (unfold u32_max in *; lia). lia.
  - destruct (fits_case w h nw nh) as (E & A & B); try lia. rewrite E. lia.
Qed.
Print Assumptions C19_fits.
(** it is the largest such size with the same aspect ratio: one bound is reached and the other dimension is scaled by the same factor *)
Theorem C19_aspect : forall w h nw nh, is_u32 w -> is_u32 h -> is_u32 nw -> is_u32 nh -> 1 <= w -> 1 <= h ->
  let '(a, b) := resize_dimensions w h nw nh false in
  (nw * h <= nh * w -> a = Z.max 1 nw /\ nearest_scaled b h nw w) /\ (nh * w <= nw * h -> b = Z.max 1 nh /\ nearest_scaled a w nh h).
Proof.
  unfold is_u32. intros w h nw nh Hw Hh Hnw Hnh W1 H1. destruct (fits_case w h nw nh) as (E & A & B); try lia. rewrite E. split; intros L.
  - rewrite (Rmin_left (q nw w) (q nh h)) in * by (apply q_le; lia). rewrite v_same by lia. split; [reflexivity|]. exists (v h (q nw w)). split; [reflexivity|]. split; [lia|]. apply v_near; try lia. apply Z.le_trans with (nh * w); [lia|]. apply Z.mul_le_mono_nonneg_r; unfold u32_max in *; lia.
  - rewrite (Rmin_right (q nw w) (q nh h)) in * by (apply q_le; lia). rewrite v_same by lia. split; [reflexivity|]. exists (v w (q nh h)). split; [reflexivity|]. split; [lia|]. apply v_near; try lia. apply Z.le_trans with (nw * h); [lia|]. apply Z.mul_le_mono_nonneg_r; unfold u32_max in *; lia.
Qed.
Print Assumptions C19_aspect.

Lemma fill_case w h nw nh : 1 <= w <= u32_max -> 1 <= h <= u32_max -> 0 <= nw <= u32_max -> 0 <= nh <= u32_max -> w * nh <= u32_max * h -> h * nw <= u32_max * w ->
  let r := Rmax (q nw w) (q nh h) in resize_dimensions w h nw nh true = (Z.max 1 (v w r), Z.max 1 (v h r)) /\ nw <= v w r <= u32_max /\ nh <= v h r <= u32_max.
Proof.
  intros Hw Hh Hnw Hnh F1 F2 r. rewrite rd_ok by assumption. fold r.
  pose proof (v_le w (q nw w) r ltac:(lia) (Rmax_l _ _)) as L1. rewrite v_same in L1 by lia. pose proof (v_le h (q nh h) r ltac:(lia) (Rmax_r _ _)) as L2. rewrite v_same in L2 by lia.
  assert (U1 : v w r <= v w (q u32_max w)) by (apply v_le; [lia|]; apply Rmax_lub; apply q_le; nia). rewrite v_same in U1 by (unfold u32_max in *; lia).
  assert (U2 : v h r <= v h (q u32_max h)) by (apply v_le; [lia|]; apply Rmax_lub; apply q_le; nia). rewrite v_same in U2 by (unfold u32_max in *; lia).
  unfold dims_of. rewrite !fits_id by lia. replace (Z.max 1 (v w r) >? u32_max) with false by (unfold u32_max in *; lia). replace (Z.max 1 (v h r) >? u32_max) with false by (unfold u32_max in *; lia). auto.
Qed.
(** with fill the result covers the bounding box, unless the scaled image would exceed u32::MAX in a dimension *)
Theorem C19_covers : forall w h nw nh, is_u32 w -> is_u32 h -> is_u32 nw -> is_u32 nh -> 1 <= w -> 1 <= h -> w * nh <= u32_max * h -> h * nw <= u32_max * w ->
  let '(a, b) := resize_dimensions w h nw nh true in nw <= a /\ nh <= b /\
  (nh * w <= nw * h -> a = Z.max 1 nw /\ nearest_scaled b h nw w) /\ (nw * h <= nh * w -> b = Z.max 1 nh /\ nearest_scaled a w nh h).
Proof.
  unfold is_u32. intros w h nw nh Hw Hh Hnw Hnh W1 H1 F1 F2. destruct (fill_case w h nw nh) as (E & A & B); try lia. rewrite E. split; [lia|]. split; [lia|]. split; intros L.
  - rewrite (Rmax_left (q nw w) (q nh h)) in * by (apply q_le; lia). rewrite v_same by lia. split; [reflexivity|]. exists (v h (q nw w)). split; [reflexivity|]. split; [lia|]. apply v_near; try lia. apply Z.le_trans with (u32_max * w); [lia|]. apply Z.mul_le_mono_nonneg_r; unfold u32_max in *; lia.
  - rewrite (Rmax_right (q nw w) (q nh h)) in * by (apply q_le; lia). rewrite v_same by lia. split; [reflexivity|]. exists (v w (q nh h)). split; [reflexivity|]. split; [lia|]. apply v_near; try lia. apply Z.le_trans with (u32_max * h); [lia|]. apply Z.mul_le_mono_nonneg_r; unfold u32_max in *; lia.
Qed.
Print Assumptions C19_covers.
(** when a dimension would exceed u32::MAX it becomes u32::MAX and the other one keeps the aspect ratio, so the box is not covered *)
Theorem C19_clamped : forall w h nw nh, is_u32 w -> is_u32 h -> is_u32 nw -> is_u32 nh -> 1 <= w -> 1 <= h ->
  let '(a, b) := resize_dimensions w h nw nh true in
  (nh * w <= nw * h -> (u32_max + 1) * w <= h * nw -> b = u32_max /\ nearest_scaled a w u32_max h /\ a <= Z.max 1 nw) /\
  (nw * h <= nh * w -> (u32_max + 1) * h <= w * nh -> a = u32_max /\ nearest_scaled b h u32_max w /\ b <= Z.max 1 nh).
Proof.
  unfold is_u32. intros w h nw nh Hw Hh Hnw Hnh W1 H1.
  assert (BIG : forall m n d, 1 <= m <= u32_max -> 0 <= n <= u32_max -> 1 <= d <= u32_max -> (u32_max + 1) * d <= m * n -> fits (v m (q n d)) >? u32_max = true).
  { intros m n d Hm Hn Hd L. pose proof (v_err m n d ltac:(lia) Hn Hd) as E. destruct u64r_val as [U0 U1]. assert (V : u32_max + 1 <= v m (q n d)); [|unfold fits, clampz; unfold u32_max, u64_max in *; lia].
    assert (D0 : (0 < IZR d)%R) by (apply IZR_lt; lia). set (x := (IZR m * (IZR n / IZR d))%R) in *. assert (XB : (IZR (u32_max + 1) <= x)%R). { apply Rmult_le_reg_r with (IZR d); [exact D0|]. replace (x * IZR d)%R with (IZR m * IZR n)%R by (unfold x; field; lra). rewrite <- !mult_IZR. apply IZR_le. exact L. }
    change (u32_max + 1) with 4294967296 in *. assert (Z1 : ZnearestA (IZR 4294967296 - / 2) = 4294967296) by (apply ZnearestA_pos; lra). rewrite <- Z1. unfold v. apply ZnearestA_le. apply Rabs_le_inv in E. clearbody x. clear Z1. unfold u32_max in *.
    assert (XU : (3 * u64r * x <= 3 * / 9000000000000000 * x)%R) by (apply Rmult_le_compat_r; lra). lra. }
  destruct (Z_le_gt_dec (nh * w) (nw * h)) as [L|G].
  - assert (Q : Rmax (q nw w) (q nh h) = q nw w) by (apply Rmax_left; apply q_le; lia). destruct (Z_le_gt_dec ((u32_max + 1) * w) (h * nw)) as [C|NC].
    + rewrite rd_ok by lia. rewrite Q. unfold dims_of. rewrite v_same by lia. rewrite fits_id by lia. replace (Z.max 1 nw >? u32_max) with false by (unfold u32_max in *; lia). rewrite (BIG h nw w) by lia.
      assert (VL : v w (q u32_max h) <= nw). { apply Z.le_trans with (v w (q nw w)); [|rewrite v_same; lia]. apply v_le; [lia|]. apply q_le; nia. } pose proof (v_nonneg w (q u32_max h) ltac:(lia) ltac:(apply (q_ok u32_max h); unfold u32_max in *; lia)) as V0.
      rewrite fits32_id by lia. assert (NS : nearest_scaled (Z.max 1 (v w (q u32_max h))) w u32_max h). { exists (v w (q u32_max h)). split; [reflexivity|]. split; [lia|]. apply v_near; try lia. unfold u32_max in *. nia. }
      split; [intros _ _; split; [reflexivity|split; [exact NS|lia]]|]. intros L2 C2. exfalso. assert (w * nh = h * nw) by nia. unfold u32_max in *. nia.
    + destruct (resize_dimensions w h nw nh true) as [a b]. split; [intros; lia|]. intros L2 C2. exfalso. assert (w * nh = h * nw) by nia. unfold u32_max in *. nia.
  - assert (Q : Rmax (q nw w) (q nh h) = q nh h) by (apply Rmax_right; apply q_le; lia). destruct (Z_le_gt_dec ((u32_max + 1) * h) (w * nh)) as [C|NC].
    + rewrite rd_ok by lia. rewrite Q. unfold dims_of. rewrite (BIG w nh h) by lia.
      assert (VL : v h (q u32_max w) <= nh). { apply Z.le_trans with (v h (q nh h)); [|rewrite v_same; lia]. apply v_le; [lia|]. apply q_le; nia. } pose proof (v_nonneg h (q u32_max w) ltac:(lia) ltac:(apply (q_ok u32_max w); unfold u32_max in *; lia)) as V0.
      rewrite fits32_id by lia. assert (NS : nearest_scaled (Z.max 1 (v h (q u32_max w))) h u32_max w). { exists (v h (q u32_max w)). split; [reflexivity|]. split; [lia|]. apply v_near; try lia. unfold u32_max in *. nia. }
      split; [lia|]. intros _ _. split; [reflexivity|split; [exact NS|lia]].
    + destruct (resize_dimensions w h nw nh true) as [a b]. split; intros; lia.
Qed.
Print Assumptions C19_clamped.
(** an empty image is the other exception: its other dimension becomes u32::MAX *)
Theorem C19_empty_fill_refuted : resize_dimensions 0 100 100 100 true = (1, u32_max).
Proof. vm_compute. reflexivity. Qed.
Print Assumptions C19_empty_fill_refuted.

(** the same for images: [scale] is the resampling, of which only the size of its result matters *)
Definition scales {P} (scale : img P -> Z -> Z -> res (img P)) : Prop := forall im a b r, scale im a b = Ok r -> wf r /\ iw r = a /\ ih r = b.
Theorem C19_resize : forall P (scale : img P -> Z -> Z -> res (img P)) im nw nh r, scales scale -> is_u32 (iw im) -> is_u32 (ih im) -> is_u32 nw -> is_u32 nh ->
  dyn_resize scale im nw nh = Ok r -> r = im /\ nw = iw im /\ nh = ih im \/ 1 <= iw r <= Z.max 1 nw /\ 1 <= ih r <= Z.max 1 nh.
Proof.
  intros P scale im nw nh r HS H1 H2 H3 H4 E. unfold dyn_resize in E. destruct ((nw =? iw im) && (nh =? ih im)) eqn:C.
  - left. apply Ok_inj in E. subst r. apply andb_true_iff in C. split; [reflexivity|lia].
  - right. pose proof (C19_fits (iw im) (ih im) nw nh H1 H2 H3 H4) as F. pose proof (C19_range (iw im) (ih im) nw nh false) as R. destruct (resize_dimensions (iw im) (ih im) nw nh false) as [a b]. apply HS in E. lia.
Qed.
Print Assumptions C19_resize.
Theorem C19_thumbnail : forall P (scale : img P -> Z -> Z -> res (img P)) im nw nh r, scales scale -> is_u32 (iw im) -> is_u32 (ih im) -> is_u32 nw -> is_u32 nh ->
  dyn_thumbnail scale im nw nh = Ok r -> 1 <= iw r <= Z.max 1 nw /\ 1 <= ih r <= Z.max 1 nh.
Proof.
  intros P scale im nw nh r HS H1 H2 H3 H4 E. unfold dyn_thumbnail in E. pose proof (C19_fits (iw im) (ih im) nw nh H1 H2 H3 H4) as F. pose proof (C19_range (iw im) (ih im) nw nh false) as R. destruct (resize_dimensions (iw im) (ih im) nw nh false) as [a b]. apply HS in E. lia.
Qed.
Print Assumptions C19_thumbnail.
(** resize_to_fill: exactly the requested size, the centre of the scaled image, no panic in the cropping *)
Theorem C19_resize_to_fill : forall P (scale : img P -> Z -> Z -> res (img P)) m zero im nw nh, scales scale -> is_u32 (iw im) -> is_u32 (ih im) -> is_u32 nw -> is_u32 nh -> 1 <= iw im -> 1 <= ih im ->
  iw im * nh <= u32_max * ih im -> ih im * nw <= u32_max * iw im ->
  forall s, (let '(a, b) := resize_dimensions (iw im) (ih im) nw nh true in scale im a b = Ok s) ->
  exists r, resize_to_fill scale m zero im nw nh = Ok r /\ wf r /\ iw r = nw /\ ih r = nh /\ nw <= iw s /\ nh <= ih s /\
    forall x y, 0 <= x < nw -> 0 <= y < nh -> pixel r x y = pixel s ((iw s - nw) / 2 + x) ((ih s - nh) / 2 + y).
Proof.
  unfold is_u32. intros P scale m zero im nw nh HS H1 H2 H3 H4 W1 W2 F1 F2 s ES. destruct (fill_case (iw im) (ih im) nw nh) as (E & A & B); try lia. cbv zeta in *. rewrite E in ES. unfold resize_to_fill. rewrite E, ES. cbn [bind].
  destruct (HS _ _ _ _ ES) as (WF & Ea & Eb). set (r := Rmax (q nw (iw im)) (q nh (ih im))) in *. set (a := v (iw im) r) in *. set (b := v (ih im) r) in *.
  assert (D : (a = nw /\ 1 <= nw \/ b = nh /\ (nh = 0 -> nw = 0))).
  { destruct (Z_le_gt_dec (nw * ih im) (nh * iw im)) as [L|G].
    - right. unfold b, r. rewrite Rmax_right by (apply q_le; lia). split; [apply v_same; lia|nia].
    - left. unfold a, r. rewrite Rmax_left by (apply q_le; lia). split; [apply v_same; lia|nia]. }
  clearbody a b. clear r. assert (CASE : nw * ih s > iw s * nh /\ (iw s - nw) / 2 = 0 \/ nw * ih s <= iw s * nh /\ (ih s - nh) / 2 = 0).
  { destruct (Z_le_gt_dec (nw * ih s) (iw s * nh)) as [L|G]; [right|left]; (split; [assumption|]); rewrite Ea, Eb in *.
    - destruct D as [(D1 & D2)|(D1 & D2)]; [|subst b; apply Z.div_small; lia]. subst a. replace (Z.max 1 nw) with nw in L by lia. apply Z.div_small. nia.
    - destruct D as [(D1 & D2)|(D1 & D2)]; [subst a; apply Z.div_small; lia|]. subst b. exfalso. destruct (Z.eq_dec nh 0) as [N0|N0]; [rewrite (D2 N0) in G; lia|]. replace (Z.max 1 nh) with nh in G by lia. nia. }
  assert (U : is_u32 (iw s) /\ is_u32 (ih s)) by (unfold is_u32, u32_max in *; lia). destruct U as (U1 & U2).
  destruct (Z.gtb_spec (nw * ih s) (iw s * nh)) as [G|L].
  - destruct CASE as [(_ & X0)|(C & _)]; [|lia]. unfold u32_sub_m. replace (nh <=? ih s) with true by lia. cbn [bind]. assert (D2 : 0 <= (ih s - nh) / 2 <= ih s - nh) by (split; [apply Z.div_pos; lia|apply Z.div_le_upper_bound; lia]).
    destruct (crop_to_image m zero s 0 ((ih s - nh) / 2) nw nh WF U1 U2) as (r & Er & Wr & Rw & Rh & Rp); try lia. exists r. split; [exact Er|]. split; [exact Wr|]. split; [lia|]. split; [lia|]. split; [lia|]. split; [lia|]. intros x y Hx Hy. rewrite X0. apply Rp; lia.
  - destruct CASE as [(C & _)|(_ & Y0)]; [lia|]. unfold u32_sub_m. replace (nw <=? iw s) with true by lia. cbn [bind]. assert (D2 : 0 <= (iw s - nw) / 2 <= iw s - nw) by (split; [apply Z.div_pos; lia|apply Z.div_le_upper_bound; lia]).
    destruct (crop_to_image m zero s ((iw s - nw) / 2) 0 nw nh WF U1 U2) as (r & Er & Wr & Rw & Rh & Rp); try lia. exists r. split; [exact Er|]. split; [exact Wr|]. split; [lia|]. split; [lia|]. split; [lia|]. split; [lia|]. intros x y Hx Hy. rewrite Y0. apply Rp; lia.
Qed.
Print Assumptions C19_resize_to_fill.
Example C19_ex : resize_dimensions 4264 2476 3840 2160 true = (3840, 2230) /\ resize_dimensions 2476 4264 2160 3840 false = (2160, 3720) /\ resize_dimensions 1 150 128 128 false = (1, 128) /\
  resize_dimensions 100 u32_max 200 u32_max true = (100, u32_max) /\ resize_dimensions 4000000000 3 17 40 false = (17, 1).
Proof. vm_compute. auto. Qed.
Example C19_scales_ex : resize_to_fill (fun _ a b => Ok (mkImg a b (map fst (coords a b)))) Debug 0 (mkImg 3 2 [1;2;3;4;5;6]) 2 4 = Ok (mkImg 2 4 [2;3;2;3;2;3;2;3]).
Proof. vm_compute. reflexivity. Qed.
