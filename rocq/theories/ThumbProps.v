(** C20: thumbnails *)
From Coq Require Import ZArith Bool Reals Lia.
From Flocq Require Import Core IEEE754.BinarySingleNaN.
From Verif Require Import Base BaseLemmas Color Float ColorF ColorFProofs GenImage Thumb ThumbSpec ThumbProofs3 ThumbProofs4 ThumbProofs5.
Local Open Scope Z_scope.

(** Every output pixel is computed, without panic and without reading outside the source, and each of its channels is the rounded mean
    of its block of source pixels, or (where the window is empty: enlarging) the mix of the two neighbouring columns or rows. *)
Theorem C20_pixels t m k im nw nh : img_ok t k im -> 1 <= iw im <= 524288 -> 1 <= ih im <= 524288 -> 0 <= nw <= u32_max -> 0 <= nh <= u32_max ->
  (iw im / nw + 2) * (ih im / nh + 2) * (smax t + 1) <= u32_max + 1 ->
  exists r, thumbnail t m k im nw nh = Ok r /\ wf r /\ iw r = nw /\ ih r = nh /\ forall x y, 0 <= x < nw -> 0 <= y < nh ->
    exists p, pixel r x y = Some p /\ is_pixel t k p /\ forall i, (i < Z.to_nat (nch k))%nat -> chan_res t im i (win (iw im) nw x) (win (ih im) nh y) (nth i p 0).
Proof. exact (thumbnail_ok t m k im nw nh). Qed.
Print Assumptions C20_pixels.

(** Where the window of output column x is, and how much the right neighbour weighs when it is empty: with [uu] = 2^-24, the window is
    ceil lo .. ceil hi, where lo and hi are x size / nsize and (x + 1) size / nsize up to a relative error, kept inside the source. *)
Theorem C20_window size ns x : 1 <= size < 16777216 -> 1 <= ns <= u32_max -> 0 <= x < ns ->
  exists lo hi, let l := (IZR (x * size) / IZR ns)%R in let h := (IZR ((x + 1) * size) / IZR ns)%R in
    (Rabs (lo - l) <= 8 * uu * l)%R /\ (Rabs (hi - h) <= 12 * uu * h)%R /\
    low (win size ns x) = Z.min (size - 1) (Zceil lo) /\ high (win size ns x) = Z.max (low (win size ns x)) (Z.min size (Zceil hi)) /\
    (Rabs (B2R (mid (lowf (win size ns x)) (highf (win size ns x))) - (frac lo + frac hi) / 2) <= 8 * uu)%R /\
    (Rabs (B2R (mid (highf (win size ns x)) (lowf (win size ns x))) - (frac lo + frac hi) / 2) <= 8 * uu)%R.
Proof. exact (win_spec size ns x). Qed.
Print Assumptions C20_window.
Theorem C20_inside size ns x : 1 <= size <= u32_max -> 1 <= ns <= u32_max -> 0 <= x <= u32_max ->
  0 <= src_lo (win size ns x) < src_hi (win size ns x) /\ src_hi (win size ns x) <= size.
Proof.
  intros H1 H2 H3. destruct (win_fine_ok size ns x H1 H2 H3) as (A & B & C & _). unfold src_lo, src_hi. destruct (Z.eqb_spec (low (win size ns x)) (high (win size ns x))); lia.
Qed.
Print Assumptions C20_inside.

(** Every channel of an output pixel lies between the least and greatest source channels of its rectangle; one less is possible where two
    columns or rows are mixed. *)
Theorem C20_range t m k im nw nh r x y i p a b : img_ok t k im -> 1 <= iw im <= 524288 -> 1 <= ih im <= 524288 -> 0 <= nw <= u32_max -> 0 <= nh <= u32_max ->
  (iw im / nw + 2) * (ih im / nh + 2) * (smax t + 1) <= u32_max + 1 -> thumbnail t m k im nw nh = Ok r -> 0 <= x < nw -> 0 <= y < nh -> pixel r x y = Some p -> (i < Z.to_nat (nch k))%nat ->
  let wx := win (iw im) nw x in let wy := win (ih im) nh y in
  (forall x' y', src_lo wx <= x' < src_hi wx -> src_lo wy <= y' < src_hi wy -> a <= chan_at t im i (x', y') <= b) ->
  a - 1 <= nth i p 0 <= b /\ (low wx < high wx -> low wy < high wy -> a <= nth i p 0).
Proof.
  intros H1 H2 H3 H4 H5 H6 E Hx Hy EP Hi wx wy HR. destruct (thumbnail_ok t m k im nw nh H1 H2 H3 H4 H5 H6) as (r' & E' & _ & _ & _ & GP). rewrite E' in E. apply Ok_inj in E. subst r'. destruct (GP x y Hx Hy) as (p' & EP' & _ & CR). rewrite EP' in EP. apply Some_inj in EP. subst p'.
  exact (chan_range t im i wx wy _ a b (CR i Hi) HR).
Qed.
Print Assumptions C20_range.

(** When the new sizes divide the old ones, every source pixel is used exactly once: output pixel (x, y) is the mean of block (x, y), rounded half up. *)
Theorem C20_blocks t m k im bw bh nw nh : img_ok t k im -> 1 <= bw -> 1 <= bh -> 1 <= nw -> 1 <= nh -> iw im = bw * nw -> ih im = bh * nh -> iw im < 16777216 -> ih im < 16777216 -> bw * bh * (smax t + 1) <= u32_max + 1 ->
  exists r, thumbnail t m k im nw nh = Ok r /\ wf r /\ iw r = nw /\ ih r = nh /\ forall x y, 0 <= x < nw -> 0 <= y < nh ->
    exists p, pixel r x y = Some p /\ is_pixel t k p /\ forall i, (i < Z.to_nat (nch k))%nat -> nth i p 0 = (total t im i (x * bw) ((x + 1) * bw) (y * bh) ((y + 1) * bh) + bw * bh / 2) / (bw * bh).
Proof. exact (blocks_ok t m k im bw bh nw nh). Qed.
Print Assumptions C20_blocks.

(** To its own size, a thumbnail is the image. *)
Theorem C20_same t m k im : img_ok t k im -> 1 <= iw im < 16777216 -> 1 <= ih im < 16777216 -> thumbnail t m k im (iw im) (ih im) = Ok im.
Proof.
  intros HI HW HH. destruct (C20_blocks t m k im 1 1 (iw im) (ih im) HI) as (r & E & W & E1 & E2 & GP); try lia. { destruct t; cbn; lia. }
  rewrite E. f_equal. apply img_ext; [exact W|exact (proj1 HI)|exact E1|exact E2|]. intros x y. intros Hx Hy. rewrite E1 in Hx. rewrite E2 in Hy. destruct (GP x y Hx Hy) as (p & EP & (PL & PF) & CH). destruct (pixel_at t k im (x, y) HI ltac:(split; assumption)) as (q & _ & EQ & (QL & QF)). cbn [fst snd] in EQ. rewrite EP, EQ. f_equal.
  assert (NC : 0 <= nch k) by (destruct k; cbn; lia). apply (nth_ext p q 0 0); [unfold zlen in PL, QL; lia|]. intros i Hi. assert (Hi' : (i < Z.to_nat (nch k))%nat) by (unfold zlen in PL; lia). rewrite (CH i Hi'). rewrite !Z.mul_1_r. change (1 / 2) with 0. rewrite Z.add_0_r, Z.div_1_r.
  unfold total, rect. replace (x + 1 - x) with 1 by lia. replace (y + 1 - y) with 1 by lia. rewrite (zrange_cons x 1), (zrange_cons y 1) by lia. change (zrange (x + 1) (1 - 1)) with (@nil Z). change (zrange (y + 1) (1 - 1)) with (@nil Z). cbn [map flat_map app]. unfold zsum. cbn [fold_right]. rewrite Z.add_0_r. unfold chan_at. cbn [fst snd]. rewrite EQ. apply nth_indep. unfold zlen in QL. lia.
Qed.
Print Assumptions C20_same.

(** A thumbnail of an empty image is black. *)
Theorem C20_empty t m k im nw nh : iw im = 0 \/ ih im = 0 -> thumbnail t m k im nw nh = Ok (new_img nw nh (repeat 0 (Z.to_nat (nch k)))).
Proof. intros H. unfold thumbnail. cbv zeta. replace ((ih im =? 0) || (iw im =? 0)) with true by lia. reflexivity. Qed.
Print Assumptions C20_empty.

(** The windows cover the source from its first to its last column, one after the other, up to one column at each join. *)
Theorem C20_cover size ns x : 1 <= size <= 524288 -> 1 <= ns <= u32_max -> 0 <= x < ns ->
  (x = 0 -> low (win size ns x) = 0) /\ (x = ns - 1 -> high (win size ns x) = size) /\ (x < ns - 1 -> -1 <= high (win size ns x) - low (win size ns (x + 1)) <= 1).
Proof. exact (win_next size ns x). Qed.
Print Assumptions C20_cover.

(** What fails.  The documentation says that every source pixel contributes to exactly one target pixel; but the f32 windows of 16 columns
    to 14 overlap: column 8 goes into both output columns 6 and 7; and those of 40 columns to 35 leave out column 24. *)
Theorem C20_once_refuted : (low (win 16 14 6), high (win 16 14 6)) = (7, 9) /\ (low (win 16 14 7), high (win 16 14 7)) = (8, 10) /\
  (low (win 40 35 20), high (win 40 35 20)) = (23, 24) /\ (low (win 40 35 21), high (win 40 35 21)) = (25, 26).
Proof. vm_compute. repeat split. Qed.
Print Assumptions C20_once_refuted.
(** A constant image can come out darker, *)
Theorem C20_constant_refuted : exists r, thumbnail U8 Debug Luma (new_img 2 1 [15]) 6 1 = Ok r /\ px r = [[15]; [15]; [14]; [15]; [15]; [15]].
Proof. eexists. vm_compute. split; reflexivity. Qed.
Print Assumptions C20_constant_refuted.
(** and an increasing ramp can come out not increasing. *)
Theorem C20_monotone_refuted : exists r, thumbnail U8 Debug Luma (mkImg 2 1 [[0]; [255]]) 6 1 = Ok r /\ px r = [[0]; [127]; [85]; [255]; [255]; [255]].
Proof. eexists. vm_compute. split; reflexivity. Qed.
Print Assumptions C20_monotone_refuted.
(** The bound on the block size in C20_blocks is exact for 16-bit samples: averaging more than 65536 white pixels panics. *)
Theorem C20_overflow_refuted w h : 1 <= w < 16777216 -> 1 <= h < 16777216 -> 65537 <= w * h -> thumbnail U16 Debug Luma (new_img w h [65535]) 1 1 = Panic.
Proof. exact (overflow w h). Qed.
Print Assumptions C20_overflow_refuted.

(** Non-vacuity *)
Example C20_pixels_nonvacuous : let im := mkImg 3 2 [[1; 2; 3]; [4; 5; 6]; [7; 8; 9]; [10; 11; 12]; [13; 14; 15]; [16; 17; 18]] in
  img_ok U8 Rgb im /\ (iw im / 2 + 2) * (ih im / 2 + 2) * (smax U8 + 1) <= u32_max + 1 /\ thumbnail U8 Debug Rgb im 2 2 = Ok (mkImg 2 2 [[3; 4; 5]; [7; 8; 9]; [12; 13; 14]; [16; 17; 18]]).
Proof. cbv zeta. split; [split; [unfold wf; cbn; lia|apply Forall_forall; intros p H; cbn [px In] in H; repeat (destruct H as [<-|H]; [split; [reflexivity|repeat (constructor; [vm_compute; split; discriminate|]); constructor]|]); destruct H]|]. split; [vm_compute; discriminate|vm_compute; reflexivity]. Qed.
Example C20_blocks_nonvacuous : thumbnail U8 Debug Luma (mkImg 4 2 [[1]; [2]; [3]; [4]; [5]; [6]; [7]; [8]]) 2 1 = Ok (mkImg 2 1 [[4]; [6]]).
Proof. vm_compute. reflexivity. Qed.
