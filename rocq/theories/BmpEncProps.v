(** C36 (BMP round trip) and the BMP instance of the recognition claim of C27.  See DESIGN.md. *)
From Verif Require Import Base BaseLemmas ListLemmas ListMore ColorType Formats FormatsProofs GenImage BmpBits Bmp IcoSpec BmpSpec Post BmpProofs BmpProofs2 TgaProofs2 BmpProofs3 BmpProofs4 BmpProofs5 BmpProofs6 BmpProofs7.
Local Open Scope Z_scope.

(** What a reader of the written file sees: the decoder opens it, announces [w] x [h] and [c], and fills any buffer of
    the announced size with [pixels]. *)
Definition reads_back (file : list Z) (w h : Z) (c : ctype) (pixels : list Z) : Prop :=
  exists d, bmp_new file 0 = Ok d /\ b_w d = w /\ b_h d = h /\ bmp_color d = c /\
    forall buf, zlen buf = ct_bytes c * w * h -> bmp_read_image file d buf = Ok pixels.

(** ** C36 *)
Theorem C36_rgb8 : forall m image w h file, 1 <= w <= 65535 -> 1 <= h <= 65535 -> bytes image -> zlen image = 3 * w * h ->
  bmp_encode m image w h XRgb8 None = Ok file -> reads_back file w h CRgb8 image.
Proof. intros m image w h file Hw Hh B L E. exact (round_rgb m image w h file Hw Hh B L E). Qed.
Print Assumptions C36_rgb8.

Theorem C36_rgba8 : forall m image w h file, 1 <= w <= 65535 -> 1 <= h <= 65535 -> bytes image -> zlen image = 4 * w * h ->
  bmp_encode m image w h XRgba8 None = Ok file -> reads_back file w h CRgba8 image.
Proof. intros m image w h file Hw Hh B L E. exact (round_rgba m image w h file Hw Hh B L E). Qed.
Print Assumptions C36_rgba8.

Lemma grey_nth v : 0 <= v <= 255 -> nth (Z.to_nat v) all_grey [0; 0; 0] = [v; v; v].
Proof.
  intros H. assert (G : zget all_grey v = Some [v; v; v]). { unfold all_grey. rewrite zget_map, zget_zrange by lia. reflexivity. }
  unfold zget in G. replace (v <? 0) with false in G by lia. apply nth_error_nth. exact G.
Qed.
Lemma file_size_fits m image w h c pal file : supported c -> pal_fits c pal -> 1 <= w <= 65535 -> 1 <= h <= 65535 -> zlen image = src_size c * w * h ->
  bmp_encode m image w h c pal = Ok file -> file_size c pal w h <= u32_max.
Proof. intros S P Hw Hh L E. destruct (encode_shape m image w h c pal S P Hw Hh L) as (_ & E2). destruct (Z_le_gt_dec (file_size c pal w h) u32_max) as [F|F]; [exact F|]. destruct (E2 ltac:(lia)) as (e & E3). congruence. Qed.
Lemma pixels_fit c pal w h : supported c -> pal_fits c pal -> 1 <= w -> 1 <= h -> file_size c pal w h <= u32_max -> w * h <= u32_max.
Proof.
  intros S P Hw Hh F. unfold file_size, data_size in F. pose proof (colors_range c pal S P). assert (1 <= px_size c) by (destruct c; cbn; lia). assert (0 <= pad_of (w * px_size c)) by (unfold pad_of; clear; zdm). assert (0 < dib_size_of c) by (destruct c; cbn; lia).
  assert (w <= w * px_size c) by nia. assert (h * w <= h * (w * px_size c + pad_of (w * px_size c))) by (apply Z.mul_le_mono_nonneg_l; lia). lia.
Qed.

Lemma raster_flat {B} (f : Z -> list B) w h px : flat_map f (raster w h px) = flat_map (fun y => flat_map (fun x => flat_map f (px x y)) (zrange 0 w)) (zrange 0 h).
Proof.
  assert (G : forall {A} (g : A -> list Z) l, flat_map f (flat_map g l) = flat_map (fun a => flat_map f (g a)) l). { intros A g l. induction l as [|a l IH]; [reflexivity|]. cbn [flat_map]. rewrite flat_map_app, IH. reflexivity. }
  unfold raster. rewrite G. apply flat_map_ext. intros y. apply G.
Qed.
Lemma flat_image f image w h : 0 <= w -> 0 <= h -> zlen image = w * h -> flat_map f image = raster w h (fun x y => f (byte_at image (y * w + x))).
Proof.
  intros Hw Hh L. transitivity (flat_map f (raster w h (fun x y => zslice image ((y * w + x) * 1) 1))); [rewrite raster_image by lia; reflexivity|]. rewrite raster_flat. apply raster_ext. intros x y Hx Hy. assert (0 <= y * w + x < w * h) by nia. rewrite Z.mul_1_r.
  unfold byte_at. destruct (zget_some image (y * w + x) ltac:(lia)) as (v & G). rewrite G. rewrite (HdrProofs2.zslice_one _ _ _ G). cbn [flat_map]. rewrite app_nil_r. reflexivity.
Qed.

(** Grey images come back as Rgb8 with the three channels equal to the grey value. *)
Theorem C36_l8 : forall m image w h file, 1 <= w <= 65535 -> 1 <= h <= 65535 -> bytes image -> zlen image = w * h ->
  bmp_encode m image w h XL8 None = Ok file -> reads_back file w h CRgb8 (flat_map (fun v => [v; v; v]) image).
Proof.
  intros m image w h file Hw Hh B L E. assert (L' : zlen image = src_size XL8 * w * h) by (cbn [src_size]; lia).
  pose proof (file_size_fits m image w h XL8 None file ltac:(unfold supported; tauto) I Hw Hh L' E) as F. pose proof (pixels_fit XL8 None w h ltac:(unfold supported; tauto) I ltac:(lia) ltac:(lia) F) as PF.
  destruct (round_gray m image w h XL8 None file ltac:(tauto) I Hw Hh B L' ltac:(cbn [src_size]; lia) E) as (d & E1 & E2 & E3 & E4 & E5).
  exists d. split; [exact E1|]. split; [exact E2|]. split; [exact E3|]. split; [exact E4|]. intros buf LB. rewrite E5 by exact LB. f_equal. cbn [pal_list src_size].
  rewrite (flat_image (fun v => [v; v; v]) image w h) by lia. apply raster_ext. intros x y Hx Hy. rewrite Z.mul_1_r. apply grey_nth. apply (byte_at_range image (y * w + x) B).
Qed.
Print Assumptions C36_l8.

(** Grey with alpha loses the alpha channel (documented: the image is written as 8-bit grey); up to 2^31 pixels. *)
Theorem C36_la8 : forall m image w h file, 1 <= w <= 65535 -> 1 <= h <= 65535 -> bytes image -> zlen image = 2 * w * h -> 2 * w * h <= 2 ^ 32 ->
  bmp_encode m image w h XLa8 None = Ok file ->
  reads_back file w h CRgb8 (raster w h (fun x y => let v := byte_at image (2 * (y * w + x)) in [v; v; v])).
Proof.
  intros m image w h file Hw Hh B L U E. change (2 ^ 32) with 4294967296 in U.
  destruct (round_gray m image w h XLa8 None file ltac:(tauto) I Hw Hh B L ltac:(cbn [src_size]; unfold u32_max; lia) E) as (d & E1 & E2 & E3 & E4 & E5).
  exists d. split; [exact E1|]. split; [exact E2|]. split; [exact E3|]. split; [exact E4|]. intros buf LB. rewrite E5 by exact LB. f_equal. cbn [pal_list src_size].
  apply raster_ext. intros x y Hx Hy. rewrite (Z.mul_comm _ 2). cbv zeta. apply grey_nth. apply (byte_at_range image (2 * (y * w + x)) B).
Qed.
Print Assumptions C36_la8.

(** encode_with_palette: with 1 to 256 palette entries the image read back shows entry number [v] wherever the image has
    the byte [v], and black where there is no such entry. *)
Theorem C36_palette : forall m image w h palette file, 1 <= w <= 65535 -> 1 <= h <= 65535 -> bytes image -> zlen image = w * h ->
  1 <= zlen palette <= 256 -> Forall (fun q => zlen q = 3 /\ bytes q) palette ->
  bmp_encode m image w h XL8 (Some palette) = Ok file ->
  reads_back file w h CRgb8 (flat_map (fun v => nth (Z.to_nat v) palette [0; 0; 0]) image).
Proof.
  intros m image w h pal file Hw Hh B L P1 P2 E. assert (L' : zlen image = src_size XL8 * w * h) by (cbn [src_size]; lia).
  assert (PF : pal_fits XL8 (Some pal)) by (cbn; auto).
  pose proof (file_size_fits m image w h XL8 (Some pal) file ltac:(unfold supported; tauto) PF Hw Hh L' E) as F. pose proof (pixels_fit XL8 (Some pal) w h ltac:(unfold supported; tauto) PF ltac:(lia) ltac:(lia) F) as FF.
  destruct (round_gray m image w h XL8 (Some pal) file ltac:(tauto) PF Hw Hh B L' ltac:(cbn [src_size]; lia) E) as (d & E1 & E2 & E3 & E4 & E5).
  exists d. split; [exact E1|]. split; [exact E2|]. split; [exact E3|]. split; [exact E4|]. intros buf LB. rewrite E5 by exact LB. f_equal. cbn [pal_list src_size].
  rewrite (flat_image (fun v => nth (Z.to_nat v) pal [0; 0; 0]) image w h) by lia. apply raster_ext. intros x y Hx Hy. rewrite Z.mul_1_r. reflexivity.
Qed.
Print Assumptions C36_palette.

(** Which images are accepted, and how long the file is: fixed headers, 4 bytes per palette entry, rows padded to
    multiples of 4 bytes; accepted exactly when the file length fits 32 bits. *)
Definition written_size (headers colours bits w h : Z) : Z := headers + 4 * colours + h * (4 * ((bits * w + 31) / 32)).
Definition accepted (r : res (list Z)) (size : Z) : Prop :=
  if size <=? u32_max then exists file, r = Ok file /\ zlen file = size else exists e, r = Err e.
Lemma data_size_is c w h : data_size c w h = h * (4 * ((8 * px_size c * w + 31) / 32)).
Proof. unfold data_size. rewrite pad_stride. rewrite (Z.mul_comm (px_size c) 8). reflexivity. Qed.
Lemma body_len m image w h c pal : supported c -> pal_fits c pal -> 1 <= w <= 65535 -> 1 <= h <= 65535 -> zlen image = src_size c * w * h -> (c = XLa8 -> 2 * w * h <= u32_max + 1) ->
  file_size c pal w h <= u32_max -> exists body, body_of m image w h c pal = Ok body /\ zlen body = 4 * colors_of c pal + data_size c w h.
Proof.
  intros S P Hw Hh L U F. pose proof (pixels_fit c pal w h S P ltac:(lia) ltac:(lia) F) as PF. assert (Hpad : 0 <= pad_of (w * px_size c)) by (unfold pad_of; clear; zdm).
  assert (G : forall xs, xs = src_size c -> is_l8 c = true -> px_size c = 1 -> exists body, encode_gray m image w h (pad_of (w * px_size c)) xs pal = Ok body /\ zlen body = 4 * colors_of c pal + data_size c w h).
  { intros xs -> Hl Hp. rewrite encode_gray_ok; try lia.
    - eexists. split; [reflexivity|]. rewrite zlen_app. destruct (zget_flat_map (fun q => rev q ++ [0]) 4 (pal_list pal) ltac:(lia)) as (PL & _).
      { unfold pal_list. destruct pal as [p|]; [destruct P as (_ & _ & P); eapply Forall_impl; [|exact P]; intros q [Q _]; rewrite zlen_app; unfold zlen in *; rewrite rev_length; cbn; lia|]. apply Forall_map_iff. apply Forall_forall. reflexivity. }
      rewrite PL. destruct (stored_rows_spec (fun x y => [byte_at image ((y * w + x) * src_size c)]) w h (pad_of (w * px_size c)) 1 ltac:(lia) ltac:(lia) ltac:(lia) Hpad (fun _ _ _ _ => eq_refl)) as (-> & _).
      unfold colors_of, data_size. rewrite Hl, Hp. ring.
    - destruct c; cbn in Hl |- *; try discriminate; auto.
    - destruct c; cbn [is_l8 src_size] in *; try discriminate; [lia|]. specialize (U eq_refl). lia.
    - intros p ->. destruct P as (_ & _ & P). eapply Forall_impl; [|exact P]. intros q [Q _]. exact Q. }
  destruct S as [->|[->|[->| ->]]]; cbn [body_of]; try (apply G; reflexivity); cbn [src_size] in L.
  - rewrite (encode_color_ok bgr bgr_of); try lia.
    + eexists. split; [reflexivity|]. destruct (stored_rows_spec (fun x y => bgr_of (zslice image ((y * w + x) * 3) 3)) w h (pad_of (w * px_size XRgb8)) 3 ltac:(lia) ltac:(lia) ltac:(lia) Hpad (fun _ _ _ _ => eq_refl)) as (-> & _). unfold data_size. cbn. lia.
    + intros p Hp. rewrite (three_bytes p Hp). reflexivity.
  - rewrite (encode_color_ok bgra bgra_of); try lia.
    + eexists. split; [reflexivity|]. destruct (stored_rows_spec (fun x y => bgra_of (zslice image ((y * w + x) * 4) 4)) w h (pad_of (w * px_size XRgba8)) 4 ltac:(lia) ltac:(lia) ltac:(lia) Hpad (fun _ _ _ _ => eq_refl)) as (-> & _). unfold data_size. cbn. lia.
    + intros p Hp. rewrite (four_bytes p Hp). reflexivity.
Qed.
Lemma accepted_gen m image w h c pal size : supported c -> pal_fits c pal -> 1 <= w <= 65535 -> 1 <= h <= 65535 -> zlen image = src_size c * w * h -> (c = XLa8 -> 2 * w * h <= u32_max + 1) ->
  size = file_size c pal w h -> accepted (bmp_encode m image w h c pal) size.
Proof.
  intros S P Hw Hh L U ->. destruct (encode_shape m image w h c pal S P Hw Hh L) as (E1 & E2). unfold accepted. destruct (Z.leb_spec (file_size c pal w h) u32_max) as [F|F].
  - rewrite E1 by exact F. destruct (body_len m image w h c pal S P Hw Hh L U F) as (body & -> & LB). cbn [bind]. eexists. split; [reflexivity|]. rewrite zlen_app, header_len, LB by exact S. unfold file_size. lia.
  - apply E2. exact F.
Qed.
Theorem C36_accepts : forall m image w h, 1 <= w <= 65535 -> 1 <= h <= 65535 ->
  (zlen image = 3 * w * h -> accepted (bmp_encode m image w h XRgb8 None) (written_size 54 0 24 w h)) /\
  (zlen image = 4 * w * h -> accepted (bmp_encode m image w h XRgba8 None) (written_size 122 0 32 w h)) /\
  (zlen image = w * h -> accepted (bmp_encode m image w h XL8 None) (written_size 54 256 8 w h)) /\
  (zlen image = 2 * w * h -> 2 * w * h <= 2 ^ 32 -> accepted (bmp_encode m image w h XLa8 None) (written_size 54 256 8 w h)) /\
  (forall palette, zlen image = w * h -> 1 <= zlen palette <= 256 -> Forall (fun q => zlen q = 3 /\ bytes q) palette ->
     accepted (bmp_encode m image w h XL8 (Some palette)) (written_size 54 (zlen palette) 8 w h)).
Proof.
  intros m image w h Hw Hh. change (2 ^ 32) with (u32_max + 1). unfold written_size.
  split; [|split; [|split; [|split]]].
  - intros L. apply accepted_gen; auto; [unfold supported; tauto|exact I|discriminate|]. unfold file_size. rewrite data_size_is. reflexivity.
  - intros L. apply accepted_gen; auto; [unfold supported; tauto|exact I|discriminate|]. unfold file_size. rewrite data_size_is. reflexivity.
  - intros L. apply accepted_gen; auto; [unfold supported; tauto|exact I|cbn [src_size]; lia|discriminate|]. unfold file_size, colors_of, is_l8, pal_list. rewrite data_size_is, all_grey_len. reflexivity.
  - intros L U. apply accepted_gen; auto; [unfold supported; tauto|exact I|]. unfold file_size, colors_of, is_l8, pal_list. rewrite data_size_is, all_grey_len. reflexivity.
  - intros p L P1 P2. apply accepted_gen; auto; [unfold supported; tauto|cbn; auto|cbn [src_size]; lia|discriminate|]. unfold file_size, colors_of, is_l8, pal_list. rewrite data_size_is. reflexivity.
Qed.
Print Assumptions C36_accepts.

(** What does not hold.  (1) Grey-with-alpha images of more than 2^31 pixels pass every check of the encoder (the file
    would fit 32 bits) and then overflow a 32-bit index: a panic where overflow is checked. *)
Lemma foldM_panics {A S} (f : S -> A -> res S) l a : In a l -> (forall s, f s a = Panic) -> (forall s b e, f s b <> Err e) -> forall s, foldM f l s = Panic.
Proof.
  induction l as [|b l IH]; intros I P N s; [destruct I|]. cbn [foldM]. destruct (f s b) as [s'|e|] eqn:E; [|exfalso; exact (N _ _ _ E)|reflexivity].
  cbn [bind]. destruct I as [->|I]; [rewrite P in E; discriminate|]. apply IH; auto.
Qed.
Theorem C36_la8_overflow_refuted : forall image w h, 1 <= w <= 65535 -> 1 <= h <= 65535 -> zlen image = 2 * w * h -> 2 ^ 32 < 2 * w * h ->
  written_size 54 256 8 w h <= u32_max -> bmp_encode Debug image w h XLa8 None = Panic.
Proof.
  intros image w h Hw Hh L U F. change (2 ^ 32) with 4294967296 in U. assert (F' : file_size XLa8 None w h <= u32_max) by (unfold written_size in F; unfold file_size, colors_of, is_l8, pal_list; rewrite data_size_is, all_grey_len; exact F).
  destruct (encode_shape Debug image w h XLa8 None ltac:(unfold supported; tauto) I Hw Hh L) as (E1 & _). rewrite E1 by exact F'. cbn [body_of]. unfold encode_gray, gray_palette. cbn [bind].
  rewrite u32_mul_ok by (unfold u32_max; nia). cbn [bind].
  rewrite (foldM_panics _ (rev (zrange 0 h)) (h - 1)); [reflexivity| | |].
  - rewrite <- in_rev. apply In_zrange. lia.
  - intros s. unfold u32_mul_m at 1. destruct (Z.leb_spec ((h - 1) * (w * 2)) u32_max); [|reflexivity]. cbn [bind Z.eqb Pos.eqb].
    rewrite (foldM_panics _ (zrange 0 w) (w - 1)); [reflexivity|apply In_zrange; lia| |].
    + intros s'. rewrite u32_mul_ok by (unfold u32_max; lia). cbn [bind]. unfold u32_add_m. replace ((h - 1) * (w * 2) + (w - 1) * 2 <=? u32_max) with false by (unfold u32_max; nia). reflexivity.
    + intros s' b e. unfold u32_mul_m, u32_add_m. destruct (b * 2 <=? u32_max); cbn [bind]; [|discriminate]. destruct (_ <=? u32_max); cbn [bind]; [|discriminate]. destruct (zget image _); discriminate.
  - intros s b e. unfold u32_mul_m at 1. destruct (b * (w * 2) <=? u32_max); cbn [bind Z.eqb Pos.eqb]; [|discriminate].
    match goal with |- bind ?x _ <> _ => assert (N : forall e', x <> Err e') end.
    { clear. intros e'. generalize (zrange 0 w) s. intros l. induction l as [|a l IH]; intros s0; cbn [foldM]; [discriminate|].
      unfold u32_mul_m at 1, u32_add_m at 1. destruct (a * 2 <=? u32_max); cbn [bind]; [|discriminate]. destruct (_ <=? u32_max); cbn [bind]; [|discriminate]. destruct (zget image _); cbn [bind]; [apply IH|discriminate]. }
    destruct (foldM _ _ _) as [x|e'|]; cbn [bind]; [discriminate|exfalso; exact (N e' eq_refl)|discriminate].
Qed.
Print Assumptions C36_la8_overflow_refuted.
(** (2) The encoder writes files the decoder refuses: an empty dimension, or a width above 65535. *)
Theorem C36_dimensions_refuted :
  (exists file e, bmp_encode Debug [] 0 3 XRgb8 None = Ok file /\ bmp_new file 0 = Err e) /\
  (exists file e, bmp_encode Debug (repeat 7 (Z.to_nat 65536)) 65536 1 XL8 None = Ok file /\ bmp_new file 0 = Err e).
Proof.
  split.
  - eexists. eexists. split; [vm_compute; reflexivity|vm_compute; reflexivity].
  - assert (X : match bmp_encode Debug (repeat 7 (Z.to_nat 65536)) 65536 1 XL8 None with Ok f => match bmp_new f 0 with Err _ => true | _ => false end | _ => false end = true) by (vm_compute; reflexivity).
    destruct (bmp_encode Debug (repeat 7 (Z.to_nat 65536)) 65536 1 XL8 None) as [f|e|]; try discriminate. destruct (bmp_new f 0) as [d|e|] eqn:E; try discriminate. exists f, e. auto.
Qed.
Print Assumptions C36_dimensions_refuted.

(** ** C27: what the encoder writes is recognised as BMP *)
Lemma encode_starts m image w h c pal file : bmp_encode m image w h c pal = Ok file -> exists rest, file = [66; 77] ++ rest.
Proof.
  unfold bmp_encode. intros E. destruct (_ && _); [discriminate|]. apply bind_ok in E as (n & _ & E). destruct (negb _); [discriminate|]. apply bind_ok in E as ([[hs ps] colors] & _ & E). apply bind_ok in E as (row & _ & E). cbv zeta in E.
  apply bind_ok in E as (isz & _ & E). apply bind_ok in E as (psz & _ & E). apply bind_ok in E as (fsz & _ & E). apply bind_ok in E as (body & _ & E). apply Ok_inj in E. subst file. unfold file_header. rewrite <- !app_assoc. eexists. reflexivity.
Qed.
Theorem C27_bmp_output_recognised : forall m image w h c pal file, bmp_encode m image w h c pal = Ok file -> bytes file -> guess_format file = Some Bmp.
Proof.
  intros m image w h c pal file E B. destruct (encode_starts _ _ _ _ _ _ _ E) as (rest & ->). apply bytes_app in B as [_ B]. apply guess_plain; auto.
  - repeat constructor; unfold u8_max; lia.
  - cbn. tauto.
  - discriminate.
Qed.
Print Assumptions C27_bmp_output_recognised.

(** non-vacuity: 3 x 2 (padded rows) in each colour type *)
Definition round (image : list Z) (w h : Z) (c : ectype) (pal : option (list (list Z))) : res (Z * Z * list Z) :=
  f <- bmp_encode Debug image w h c pal ;; d <- bmp_new f 0 ;; o <- bmp_read_image f d (repeat 99 (Z.to_nat ((if b_alpha d then 4 else 3) * b_w d * b_h d))) ;; Ok (b_w d, b_h d, o).
Example C36_ex :
  round [1;2;3;4;5;6;7;8;9;10;11;12;13;14;15;16;17;255] 3 2 XRgb8 None = Ok (3, 2, [1;2;3;4;5;6;7;8;9;10;11;12;13;14;15;16;17;255]) /\
  round [1;2;3;4;5;6;7;8] 1 2 XRgba8 None = Ok (1, 2, [1;2;3;4;5;6;7;8]) /\
  round [9; 0; 255] 3 1 XL8 None = Ok (3, 1, [9;9;9;0;0;0;255;255;255]) /\
  round [9; 1; 255; 2] 1 2 XLa8 None = Ok (1, 2, [9;9;9;255;255;255]) /\
  round [0; 1; 2] 3 1 XL8 (Some [[1;2;3];[4;5;6]]) = Ok (3, 1, [1;2;3;4;5;6;0;0;0]).
Proof. vm_compute. auto 10. Qed.
Example C36_overflow_ex : 2 ^ 32 < 2 * 65535 * 40000 /\ written_size 54 256 8 65535 40000 <= u32_max.
Proof. split; vm_compute; [reflexivity|discriminate]. Qed.
