(** C29 (region decoding) and C30 (buffered reading of scanlines). *)
From Verif Require Import Base BaseLemmas ListLemmas ListMore LoadRect LoadRectSpec LoadRectProofs.
Local Open Scope Z_scope.

(** Row j of the output (rows are [rp] bytes apart) is exactly the part x .. x+w of row y+j of the full decode; bytes of
    the buffer outside these rows are untouched, and the decoder is left at its start.  Any scanline size [sb], not
    necessarily related to the image's rows; any decoder. *)
Theorem C29_region_is_crop : forall (D : Type) seek read (at_ : D -> Z -> Prop) data sb,
  0 < sb -> seek_ok seek at_ data sb -> read_ok read at_ data sb -> zlen data + sb <= u64_max ->
  forall dw dh bpp x y w h buf rp d, at_ d 0 -> 0 < bpp -> 0 <= x -> 0 <= y -> 0 < w -> 0 < h ->
  x + w <= dw -> y + h <= dh -> zlen data = dw * dh * bpp ->
  w * bpp <= rp -> (h - 1) * rp + w * bpp <= zlen buf ->
  exists out d', load_rect seek read dw dh bpp x y w h buf rp sb d = Ok (out, d') /\ at_ d' 0 /\ zlen out = zlen buf /\
    (forall j, 0 <= j < h -> zslice out (j * rp) (w * bpp) = zslice data (((y + j) * dw + x) * bpp) (w * bpp)) /\
    (forall i, 0 <= i < zlen buf -> (forall j, 0 <= j < h -> ~ (j * rp <= i < j * rp + w * bpp)) -> zget out i = zget buf i).
Proof. intros D seek read at_ data sb H1 H2 H3 H4 dw dh bpp x y w h buf rp d. apply (load_rect_ok seek read at_ data sb H1 H2 H3 H4). Qed.
Print Assumptions C29_region_is_crop.

(** A rectangle that is empty or not inside the image is reported as an error, for any decoder, if the buffer has
    width * height * bytes-per-pixel bytes. *)
Theorem C29_outside_is_error : forall (D : Type) seek read (d : D) dw dh bpp x y w h buf rp sb,
  0 <= x -> 0 <= y -> 0 <= w -> 0 <= h -> 0 < bpp -> w * h * bpp <= zlen buf -> w * h * bpp <= u64_max ->
  dw < x + w \/ dh < y + h \/ w = 0 \/ h = 0 ->
  load_rect seek read dw dh bpp x y w h buf rp sb d = Err EParameter.
Proof.
  intros. unfold load_rect. replace (u64_max <? w * h * bpp) with false by lia. replace (zlen buf <? w * h * bpp) with false by lia.
  replace ((dw <? x + w) || (dh <? y + h) || (w =? 0) || (h =? 0)) with true by lia. reflexivity.
Qed.
Print Assumptions C29_outside_is_error.

(** A concrete decoder for the counterexamples and the non-vacuity check: image data 1..8, scanlines of 2 bytes, state =
    number of the next scanline. *)
Definition mock_data : list Z := [1; 2; 3; 4; 5; 6; 7; 8].
Definition mock_seek (d n : Z) : res Z := Ok n.
Definition mock_read (d : Z) (b : list Z) : res (list Z * Z) := Ok (zslice mock_data (d * 2) 2, d + 1).
Lemma mock_ok : seek_ok mock_seek (fun d n => d = n) mock_data 2 /\ read_ok mock_read (fun d n => d = n) mock_data 2.
Proof.
  split.
  - intros d m n _ _ _. exists n. auto.
  - intros d n b -> L H0 Hn. change (zlen mock_data) with 8 in *. exists (zslice mock_data (n * 2) 2), (n + 1). unfold mock_read.
    split; [reflexivity|]. split; [reflexivity|]. split; [rewrite zlen_zslice_gen; change (zlen mock_data) with 8; lia|].
    intros i Hi Hi2. rewrite zget_zslice_gen by lia. replace ((0 <=? i) && (i <? 2)) with true by lia. reflexivity.
Qed.

(** The buffer-length check ignores the row pitch: with a pitch larger than the buffer allows the call succeeds although
    the later rows were never written.  Here: a 2 x 4 image of single bytes, the whole of it, pitch 100. *)
Theorem C29_pitch_unchecked_refuted : exists out d,
  load_rect mock_seek mock_read 2 4 1 0 0 2 4 (repeat 0 8) 100 2 0 = Ok (out, d) /\ out = [1; 2; 0; 0; 0; 0; 0; 0].
Proof. eexists _, _. split; [vm_compute; reflexivity|reflexivity]. Qed.
Print Assumptions C29_pitch_unchecked_refuted.

(** A rectangle outside the image with a buffer that is too short for it panics (the length assertion comes before the
    check of the rectangle), and so does a pitch smaller than a row. *)
Theorem C29_short_buffer_panics_refuted :
  load_rect mock_seek mock_read 2 4 1 0 0 100 100 (repeat 0 8) 2 2 0 = Panic /\
  load_rect mock_seek mock_read 2 4 1 0 0 2 4 (repeat 0 8) 1 2 0 = Panic /\
  (* width * height * 8 does not fit in 64 bits *)
  load_rect mock_seek mock_read 2 4 8 0 0 4294967295 4294967295 (repeat 0 8) 2 2 0 = Panic.
Proof. vm_compute. auto. Qed.
Print Assumptions C29_short_buffer_panics_refuted.

(** non-vacuity of C29_region_is_crop: a 1 x 2 rectangle at (1, 1) of the 2 x 4 image with pitch 3, every hypothesis met *)
Example C29_ex : 0 < 2 /\ zlen mock_data + 2 <= u64_max /\ 1 + 1 <= 2 /\ 1 + 2 <= 4 /\ zlen mock_data = 2 * 4 * 1 /\
  load_rect mock_seek mock_read 2 4 1 1 1 1 2 [90; 91; 92; 93; 94] 3 2 0 = Ok ([4; 91; 92; 6; 94], 0).
Proof. vm_compute. intuition congruence. Qed.

(** C30: for every sequence of requested sizes, the calls succeed, deliver consecutive pieces of the data (so never more than
    there is), none longer than requested; a call delivers nothing only if nothing was requested or everything has been
    delivered. *)
Theorem C30_faithful_stream : forall (Src : Type) rd (rep : Src -> list Z -> Prop) data src sb sizes,
  source_ok rd rep -> rep src data -> 0 < sb -> Forall (fun n => 0 <= n) sizes ->
  exists bs rest, rb_run rd (rb_new sb (zlen data)) src sizes = Ok bs /\
    data = concat bs ++ rest /\ Forall2 (fun b n => zlen b <= n) bs sizes /\
    (forall k, 0 <= k < zlen sizes -> zget bs k = Some [] -> zget sizes k = Some 0 \/ data = concat (firstn (Z.to_nat k) bs)).
Proof.
  intros Src rd rep data src sb sizes SO R Hsb F. apply (rb_run_ok rd rep sb (zlen data)); auto.
  split; [reflexivity|]. split; [reflexivity|]. cbn [rb_new rb_consumed rb_buffer rb_offset]. split; [change (zlen (@nil Z)) with 0; lia|].
  exists data. split; [exact R|]. split; [reflexivity|]. split; [lia|]. right. left. reflexivity.
Qed.
Print Assumptions C30_faithful_stream.

(** enough reads deliver everything: if every size is positive and there are at least as many calls as bytes *)
Theorem C30_reads_everything : forall (Src : Type) rd (rep : Src -> list Z -> Prop) data src sb sizes,
  source_ok rd rep -> rep src data -> 0 < sb -> Forall (fun n => 0 < n) sizes -> zlen data <= zlen sizes ->
  exists bs, rb_run rd (rb_new sb (zlen data)) src sizes = Ok bs /\ concat bs = data.
Proof.
  intros Src rd rep data src sb sizes SO R Hsb F L.
  destruct (C30_faithful_stream Src rd rep data src sb sizes SO R Hsb) as (bs & rest & E & D & F2 & K).
  { eapply Forall_impl; [|exact F]. cbn. lia. }
  exists bs. split; [exact E|]. destruct rest as [|r rest]; [rewrite D, app_nil_r; reflexivity|]. exfalso.
  assert (LB : zlen bs = zlen sizes) by (apply zlen_Forall2 in F2; exact F2).
  (* no call delivered nothing, so at least one byte per call *)
  assert (NE : Forall (fun b => 1 <= zlen b) bs).
  { rewrite Forall_forall. intros b Hb. apply In_zget in Hb. destruct Hb as [k G]. pose proof (zget_range _ _ _ G) as RG.
    destruct b as [|c b]; [|rewrite zlen_cons; pose proof (zlen_nonneg b); lia]. exfalso.
    destruct (K k ltac:(lia) G) as [S|S].
    - apply zget_In in S. rewrite Forall_forall in F. specialize (F _ S). lia.
    - assert (LC : zlen data = zlen (concat (firstn (Z.to_nat k) bs))) by (rewrite S at 1; reflexivity).
      rewrite D in LC at 1. rewrite <- (firstn_skipn (Z.to_nat k) bs) in LC at 1. rewrite concat_app, !zlen_app in LC.
      rewrite zlen_cons in LC. pose proof (zlen_nonneg rest). pose proof (zlen_nonneg (concat (skipn (Z.to_nat k) bs))). lia. }
  assert (S : zlen bs <= zlen (concat bs)).
  { clear - NE. induction NE; [reflexivity|]. cbn [concat]. rewrite zlen_app, zlen_cons. lia. }
  assert (LD : zlen data = zlen (concat bs) + (1 + zlen rest)) by (rewrite D, zlen_app, zlen_cons; lia).
  pose proof (zlen_nonneg rest). lia.
Qed.
Print Assumptions C30_reads_everything.

(** non-vacuity: a source over a list satisfies the contract; reads of 1, 5, 0, 2, 9 bytes over scanlines of 3 bytes *)
Definition list_rd (src : list Z) (n : Z) : res (list Z * list Z) := Ok (firstn (Z.to_nat n) src, skipn (Z.to_nat n) src).
Example C30_ex : source_ok list_rd (fun s r => s = r) /\
  rb_run list_rd (rb_new 3 8) [1; 2; 3; 4; 5; 6; 7; 8] [1; 5; 0; 2; 9; 9; 1; 1; 1] = Ok [[1]; [2; 3]; []; [4; 5]; [6]; [7; 8]; []; []; []].
Proof. split; [intros s r n -> _; eexists; split; reflexivity|vm_compute; reflexivity]. Qed.
