(** C38, C52, C53: BMP decoding.  See DESIGN.md. *)
From Verif Require Import Base BaseLemmas ListLemmas ListMore ColorType BmpBits Bmp IcoSpec BmpSpec Post BmpProofs BmpProofs2 TgaProofs2 BmpProofs3 BmpProofs4 BmpProofs5 BmpProofs6.
Local Open Scope Z_scope.

(** the ways to open a BMP image whose data starts at [start] *)
Definition opened (file : list Z) (start : Z) (d : bmp) : Prop :=
  bmp_new file start = Ok d \/ bmp_new_without_file_header file start = Ok d \/ bmp_new_ico file start = Ok d.
(** the size of the buffer read_image wants *)
Definition image_bytes (d : bmp) : Z := (if b_alpha d then 4 else 3) * b_w d * b_h d.

Lemma opened_wellformed file start d : bytes file -> 0 <= start -> opened file start d -> wellformed d.
Proof. intros B Hs [E|[E|E]]; [exact (wellformed_metadata file start false false d B Hs E)|exact (wellformed_metadata file start true false d B Hs E)|eapply wellformed_bmp_ico; eassumption]. Qed.
Lemma image_bytes_eq d : wellformed d -> image_bytes d = num_channels d * b_w d * b_h d.
Proof. intros ((_ & _ & _ & G4 & _) & _). unfold image_bytes. rewrite channels_alpha by exact G4. reflexivity. Qed.

(** ** C38 *)
(** Opening any byte string ends in a decoder or an error; it never panics and never runs forever. *)
Theorem C38_open_total : forall file start, bytes file -> 0 <= start ->
  let ends (r : res bmp) := match r with Ok _ => True | Err e => e <> EFuel | Panic => False end in
  ends (bmp_new file start) /\ ends (bmp_new_without_file_header file start) /\ ends (bmp_new_ico file start).
Proof.
  intros file start B Hs. cbv zeta. assert (K : forall nfh a, match read_metadata file start nfh a with Ok _ => True | Err e => e <> EFuel | Panic => False end).
  { intros nfh a. pose proof (post_metadata file start nfh a B Hs) as P. destruct (read_metadata file start nfh a); cbn in P; auto. }
  split; [apply K|]. split; [apply K|]. unfold bmp_new_ico. specialize (K true true). destruct (read_metadata file start true true); cbn; auto.
Qed.
Print Assumptions C38_open_total.

(** Decoding into a buffer of the announced size ends in an image of that size or an error, whatever the bytes. *)
Theorem C38_decode_total : forall file start d buf, bytes file -> 0 <= start -> opened file start d -> bytes buf -> zlen buf = image_bytes d ->
  match bmp_read_image file d buf with
  | Ok out => zlen out = image_bytes d /\ bytes out
  | Err e => e <> EFuel
  | Panic => False
  end.
Proof.
  intros file start d buf B Hs O BB L. pose proof (opened_wellformed _ _ _ B Hs O) as W. rewrite image_bytes_eq in * by exact W. destruct W as (G & _).
  unfold bmp_read_image. rewrite total_is by exact G. cbn [bind]. replace (zlen buf =? num_channels d * b_w d * b_h d) with true by lia. cbn [negb].
  pose proof (post_image_data file d buf G B L BB) as P. destruct (read_image_data file d buf) as [[o r]|e|]; cbn in *; auto. unfold rowok in P. cbn in P. tauto.
Qed.
Print Assumptions C38_decode_total.

(** Run length encoded data: what is delivered is exactly what the instructions draw on a black canvas, whatever the
    buffer contained before; and decoding succeeds exactly when the instructions can be executed. *)
Theorem C38_rle_meaning : forall file start d pal buf, bytes file -> 0 <= start ->
  bmp_new file start = Ok d \/ bmp_new_without_file_header file start = Ok d ->
  b_type d = TRLE8 \/ b_type d = TRLE4 -> b_pal d = Some pal -> bytes buf -> zlen buf = image_bytes d -> forall out,
  bmp_read_image file d buf = Ok out <->
  exists drawing rest,
    runs (match b_type d with TRLE4 => true | _ => false end) (b_w d) (b_h d) (colour_of pal) 0 0 blank (skipn (Z.to_nat (b_off d)) file) drawing rest /\
    out = raster (b_w d) (b_h d) (fun x y => drawing x (stored_row d y)).
Proof.
  intros file start d pal buf B Hs O T EP BB L out.
  assert (E : exists nfh, read_metadata file start nfh false = Ok d) by (destruct O as [O|O]; [exists false|exists true]; exact O). destruct E as (nfh & E).
  pose proof (wellformed_metadata _ _ _ _ _ B Hs E) as W. rewrite image_bytes_eq in L by exact W. pose proof (post_metadata file start nfh false B Hs) as P. rewrite E in P. cbn [post] in P. destruct P as [_ H1].
  destruct (metadata_inv file start nfh false d B Hs E) as (D & _). pose proof (de_alpha _ _ _ _ D) as A.
  apply (rle_meaning file d pal buf); auto.
  - unfold compressed. destruct T as [-> | ->]; reflexivity.
  - rewrite A. destruct T as [-> | ->]; reflexivity.
Qed.
Print Assumptions C38_rle_meaning.

(** Inside an ICO a run length encoded BMP keeps the caller's alpha bytes: the result depends on the buffer's contents. *)
Definition rle_dib : list Z :=
  le32 40 ++ le32 1 ++ le32 2 ++ le16 1 ++ le16 8 ++ le32 1 ++ le32 0 ++ le32 0 ++ le32 0 ++ le32 1 ++ le32 0 ++ [10; 20; 30; 0] ++ [1; 0; 0; 1].
Theorem C38_ico_rle_alpha_refuted : exists file d buf1 buf2 out1 out2,
  bytes file /\ bytes buf1 /\ bytes buf2 /\ bmp_new_ico file 0 = Ok d /\ zlen buf1 = image_bytes d /\ zlen buf2 = image_bytes d /\
  bmp_read_image file d buf1 = Ok out1 /\ bmp_read_image file d buf2 = Ok out2 /\ out1 <> out2.
Proof.
  exists rle_dib. eexists. exists [0; 0; 0; 7], [0; 0; 0; 9]. eexists _, _.
  split; [repeat constructor; unfold u8_max; lia|]. split; [repeat constructor; unfold u8_max; lia|]. split; [repeat constructor; unfold u8_max; lia|].
  split; [vm_compute; reflexivity|]. split; [vm_compute; reflexivity|]. split; [vm_compute; reflexivity|]. split; [vm_compute; reflexivity|]. split; [vm_compute; reflexivity|]. discriminate.
Qed.
Print Assumptions C38_ico_rle_alpha_refuted.

(** a 3x2 RLE8 image: a run of 2, end of line, a delta, end of file *)
Definition rle_file : list Z :=
  [66; 77] ++ le32 0 ++ le32 0 ++ le32 62 ++
  le32 40 ++ le32 3 ++ le32 2 ++ le16 1 ++ le16 8 ++ le32 1 ++ le32 0 ++ le32 0 ++ le32 0 ++ le32 2 ++ le32 0 ++ [0; 0; 0; 0; 10; 20; 30; 0] ++
  [2; 1; 0; 0; 0; 2; 2; 0; 1; 1; 0; 1].
Example C38_rle_applies : exists d, bytes rle_file /\ bmp_new rle_file 0 = Ok d /\ b_type d = TRLE8 /\
  bmp_read_image rle_file d (repeat 77 18) = Ok [0; 0; 0; 0; 0; 0; 30; 20; 10; 30; 20; 10; 30; 20; 10; 0; 0; 0].
Proof.
  eexists. split; [repeat constructor; unfold u8_max; lia|]. split; [vm_compute; reflexivity|]. split; [reflexivity|]. vm_compute. reflexivity.
Qed.

(** ** C52: headers and uncompressed pixels *)
(** An accepted file: every property the decoder reports is the one written in the DIB header at its documented offset;
    the pixel data starts where the file header says, or behind the palette when there is none. *)
Theorem C52_headers : forall file start d, bytes file -> 0 <= start ->
  (bmp_new file start = Ok d ->
     describes file (start + 14) false d /\ zslice file start 2 = [66; 77] /\ b_off d = num32 file (start + 10)) /\
  (bmp_new_without_file_header file start = Ok d ->
     describes file start false d /\
     b_off d = start + dib_size file start + (if has_palette (b_type d) then (if dib_core file start then 3 else 4) * palette_count file start else 0)).
Proof.
  intros file start d B Hs. split; intros E.
  - destruct (metadata_inv file start false false d B Hs E) as (D & H & _). destruct (H eq_refl). auto.
  - destruct (metadata_inv file start true false d B Hs E) as (D & _ & H). auto.
Qed.
Print Assumptions C52_headers.

(** Inside an ICO the stored height counts the colour rows and the mask rows. *)
Theorem C52_ico_headers : forall file start d, bytes file -> 0 <= start -> bmp_new_ico file start = Ok d ->
  exists d0, describes file start true d0 /\ b_h d = Z.abs (dib_height file start) / 2 /\
    b_w d = b_w d0 /\ b_off d = b_off d0 /\ b_top_down d = b_top_down d0 /\ b_alpha d = true /\ b_type d = b_type d0 /\ b_bits d = b_bits d0 /\ b_pal d = b_pal d0 /\ b_fields d = b_fields d0.
Proof.
  intros file start d B Hs E. unfold bmp_new_ico in E. apply bind_ok in E as (d0 & E0 & E). apply Ok_inj in E. subst d. destruct (metadata_inv file start true true d0 B Hs E0) as (D & _ & _).
  exists d0. cbn. split; [exact D|]. rewrite <- (de_h _ _ _ _ D). pose proof (de_alpha _ _ _ _ D) as A. cbn in A. auto 10.
Qed.
Print Assumptions C52_ico_headers.

(** Uncompressed images: decoding succeeds exactly when the file holds all rows, and then the output is, pixel by pixel,
    what the format description says, independent of the buffer's previous contents. *)
Theorem C52_uncompressed : forall file start d buf, bytes file -> 0 <= start -> opened file start d -> compressed d = false -> zlen buf = image_bytes d ->
  bmp_read_image file d buf =
    if b_off d + b_h d * stride d <=? Z.max (b_off d) (zlen file)
    then Ok (raster (b_w d) (b_h d) (fun x y => stored_pixel file d x (stored_row d y)))
    else Err EEof.
Proof.
  intros file start d buf B Hs O NC L. pose proof (opened_wellformed _ _ _ B Hs O) as W. rewrite image_bytes_eq in L by exact W. apply uncompressed_meaning; assumption.
Qed.
Print Assumptions C52_uncompressed.

(** every pixel has the announced number of samples, each a byte *)
Theorem C52_raster_pixel : forall w h n px x y, 0 <= x < w -> 0 <= y < h -> 0 < n -> (forall x y, 0 <= x < w -> 0 <= y < h -> zlen (px x y) = n) ->
  zslice (raster w h px) ((y * w + x) * n) n = px x y.
Proof.
  intros w h n px x y Hx Hy Hn H. rewrite raster_rows.
  assert (F : forall y, 0 <= y < h -> zlen (concat (map (fun x => px x y) (zrange 0 w))) = w * n).
  { intros y' Hy'. rewrite (zlen_concat n); [rewrite zlen_map, zlen_zrange; lia|]. apply Forall_map_iff. apply Forall_forall. intros x' Hx'. apply In_zrange in Hx'. apply H; lia. }
  assert (FF : Forall (fun l => zlen l = w * n) (map (fun y => concat (map (fun x => px x y) (zrange 0 w))) (zrange 0 h))) by (apply Forall_map_iff; apply Forall_forall; intros y' Hy'; apply In_zrange in Hy'; apply F; lia).
  set (row := concat (map (fun x => px x y) (zrange 0 w))).
  assert (RY : zslice (concat (map (fun y => concat (map (fun x => px x y) (zrange 0 w))) (zrange 0 h))) (y * (w * n)) (w * n) = row).
  { apply zslice_concat; auto; [nia|]. rewrite zget_map, zget_zrange by lia. reflexivity. }
  assert (RX : zslice row (x * n) n = px x y).
  { apply zslice_concat; [lia|apply Forall_map_iff; apply Forall_forall; intros x' Hx'; apply In_zrange in Hx'; apply H; lia|]. rewrite zget_map, zget_zrange by lia. reflexivity. }
  rewrite <- RX, <- RY. assert (0 <= x * n) by (apply Z.mul_nonneg_nonneg; lia). assert (x * n + n <= w * n) by nia. assert (0 <= y * (w * n)) by (apply Z.mul_nonneg_nonneg; [lia|apply Z.mul_nonneg_nonneg; lia]).
  rewrite zslice_zslice by lia. f_equal. ring.
Qed.
Print Assumptions C52_raster_pixel.

(** a 5x2, 4 bits per pixel file; bottom row first *)
Definition pal_file : list Z :=
  [66; 77] ++ le32 0 ++ le32 0 ++ le32 62 ++
  le32 40 ++ le32 5 ++ le32 2 ++ le16 1 ++ le16 4 ++ le32 0 ++ le32 0 ++ le32 0 ++ le32 0 ++ le32 2 ++ le32 0 ++ [1; 2; 3; 0; 10; 20; 30; 0] ++
  [1; 1; 0; 0; 16; 16; 16; 0].
Example C52_applies : exists d, bytes pal_file /\ bmp_new pal_file 0 = Ok d /\ compressed d = false /\ b_off d + b_h d * stride d <= zlen pal_file /\
  bmp_read_image pal_file d (repeat 77 30) = Ok [30; 20; 10; 3; 2; 1; 30; 20; 10; 3; 2; 1; 30; 20; 10; 3; 2; 1; 30; 20; 10; 3; 2; 1; 30; 20; 10; 3; 2; 1].
Proof.
  eexists. split; [repeat constructor; unfold u8_max; lia|]. split; [vm_compute; reflexivity|]. split; [reflexivity|]. split; [vm_compute; discriminate|]. vm_compute. reflexivity.
Qed.

(** ** C53: set_indexed_color(true) *)
(** For 8 bits per pixel the output is the palette indices. *)
Theorem C53_indexed_8bit : forall file start d buf, bytes file -> 0 <= start -> opened file start d -> b_type d = TPalette -> b_bits d = 8 ->
  zlen buf = b_w d * b_h d ->
  bmp_read_image file (set_indexed_color d true) buf =
    if b_off d + b_h d * stride d <=? Z.max (b_off d) (zlen file)
    then Ok (raster (b_w d) (b_h d) (fun x y => [index_at file 8 (b_off d + stored_row d y * stride d) x]))
    else Err EEof.
Proof.
  intros file start d buf B Hs O T HB L. destruct (opened_wellformed _ _ _ B Hs O) as (G & _). destruct G as (G1 & G2 & G3 & G4 & G5 & _). destruct (G5 (or_introl T)) as (pal & EP & OK).
  unfold bmp_read_image. cbn [b_w b_h set_indexed_color bmp_color b_indexed]. unfold total_bytes. assert (0 <= b_w d * b_h d <= 65535 * 2147483647) by (split; [apply Z.mul_nonneg_nonneg; lia|apply Z.mul_le_mono_nonneg; lia]).
  replace (u64_max <? b_w d * b_h d) with false by (unfold u64_max; lia). cbn [bind ct_bytes]. unfold Limits.sat_mul_u64. replace (zlen buf =? Z.min u64_max (b_w d * b_h d * 1)) with true by (unfold u64_max; lia). cbn [negb].
  unfold read_image_data. cbn [b_type b_off set_indexed_color]. rewrite T. rewrite <- with_prefix by exact G3. set (r := skipn (Z.to_nat (b_off d)) file). assert (Br : bytes r) by (apply Forall_skipn'; exact B).
  unfold read_palettized, num_channels. cbn [b_indexed b_bits b_w b_h b_pal b_top_down set_indexed_color]. rewrite HB, EP. cbv zeta. replace (i32_max <? 8 * b_w d + 31) with false by (unfold i32_max; lia). cbn [Z.eqb Pos.eqb].
  assert (SD : stride d = row_byte_length 8 (b_w d)) by (unfold stride, row_byte_length; rewrite HB; ring). assert (S0 : b_w d <= row_byte_length 8 (b_w d)) by (unfold row_byte_length; clear; zdm).
  rewrite SD. set (rbl := row_byte_length 8 (b_w d)) in *.
  rewrite (with_rows_consume_b _ (fun r o => map (fun x => index_at r 8 o x) (zrange 0 (b_w d))) rbl 1); auto; try lia.
  - destruct (b_h d * rbl <=? zlen r); [|reflexivity]. cbn [bind]. f_equal. unfold out_rows. rewrite raster_rows. f_equal. apply map_ext_in. intros y Hy. apply In_zrange in Hy.
    rewrite <- (map_map (fun x => index_at file 8 (b_off d + stored_row d y * rbl) x) (fun v => [v])). rewrite <- flat_map_concat_map.
    assert (FS : forall l : list Z, flat_map (fun v => [v]) l = l) by (induction l; cbn; [reflexivity|f_equal; assumption]). rewrite FS. apply map_ext_in. intros x Hx. apply In_zrange in Hx.
    assert (0 <= stored_row d y) by (unfold stored_row; destruct (b_top_down d); lia). rewrite (shifts_index 8 x ltac:(lia) ltac:(unfold bits_ok; auto) file (b_off d) _ G3) by (unfold stored_row in *; nia). reflexivity.
  - intros row r0 Hr B0. rewrite read_exact_if by lia. destruct (Z.leb_spec rbl (zlen r0)); cbn [bind]; [|reflexivity].
    assert (Lr : zlen row = b_w d) by (pose proof (chunks_len (1 * b_w d) buf ltac:(lia)) as F; rewrite Forall_forall in F; specialize (F row Hr); lia).
    rewrite zlen_firstn. replace ((Z.min (Z.max 0 (Z.of_nat (Z.to_nat rbl))) (zlen r0) <? b_w d) || negb (zlen row =? b_w d)) with false by lia || idtac.
    match goal with |- (if ?c then _ else _) = _ => replace c with false by lia end. f_equal. f_equal. rewrite firstn_firstn. replace (Nat.min (Z.to_nat (b_w d)) (Z.to_nat rbl)) with (Z.to_nat (b_w d)) by lia.
    apply zget_ext; [rewrite zlen_firstn, zlen_map, zlen_zrange; lia|]. intros x Hx. rewrite zlen_firstn in Hx. rewrite firstn_zslice, zget_zslice_gen by lia. match goal with |- (if ?c then _ else _) = _ => replace c with true by lia end.
    rewrite zget_map, zget_zrange by lia. cbn [option_map]. unfold index_at. rewrite !Z.add_0_l. replace (x * 8 / 8) with x by zdm. replace (x * 8 mod 8) with 0 by zdm. change (8 - 8 - 0) with 0. change (2 ^ 0) with 1. rewrite Z.div_1_r.
    change (2 ^ 8) with 256. pose proof (byte_at_range r0 x B0). rewrite Z.mod_small by lia. unfold byte_at. destruct (zget_some r0 x ltac:(lia)) as (v & ->). reflexivity.
  - intros r1 o i Ho Hi. apply map_ext_in. intros x Hx. apply In_zrange in Hx. apply (shifts_index 8 x ltac:(lia) ltac:(unfold bits_ok; auto)); assumption.
Qed.
Print Assumptions C53_indexed_8bit.

(** On an image without a palette it makes read_image panic: no input file is needed for that. *)
Theorem C53_indexed_truecolor_refuted : forall file start d buf, bytes file -> 0 <= start -> opened file start d ->
  b_type d = TRGB24 \/ b_type d = TRGB32 \/ b_type d = TRGBA32 -> 1 <= b_h d -> zlen buf = b_w d * b_h d ->
  bmp_read_image file (set_indexed_color d true) buf = Panic.
Proof.
  intros file start d buf B Hs O T H1 L. destruct (opened_wellformed _ _ _ B Hs O) as (G & _). destruct G as (G1 & G2 & G3 & G4 & _).
  unfold bmp_read_image. cbn [b_w b_h set_indexed_color bmp_color b_indexed]. unfold total_bytes. assert (0 <= b_w d * b_h d <= 65535 * 2147483647) by (split; [apply Z.mul_nonneg_nonneg; lia|apply Z.mul_le_mono_nonneg; lia]).
  replace (u64_max <? b_w d * b_h d) with false by (unfold u64_max; lia). cbn [bind ct_bytes]. unfold Limits.sat_mul_u64. replace (zlen buf =? Z.min u64_max (b_w d * b_h d * 1)) with true by (unfold u64_max; lia). cbn [negb].
  assert (FP : forall fmt r, fmt <> F888 -> read_full_byte (set_indexed_color d true) fmt buf r = Panic).
  { intros fmt r NF. unfold read_full_byte, num_channels. cbn [b_indexed b_w b_h b_top_down set_indexed_color]. unfold with_rows. replace ((u64_max <? 1 * b_w d) || (u64_max <? 1 * b_w d * b_h d)) with false by (unfold u64_max; lia). replace (zlen buf =? 1 * b_w d * b_h d) with true by lia. cbn [negb]. replace (1 * b_w d =? 0) with false by lia. cbv zeta.
    destruct (chunks_exact_id (1 * b_w d) buf (b_h d) ltac:(lia) ltac:(lia)) as (C1 & C2). pose proof (chunks_len (1 * b_w d) buf ltac:(lia)) as F. set (rows := chunks_exact (1 * b_w d) buf) in *.
    assert (F' : Forall (fun p => zlen p = 1 * b_w d) (if b_top_down d then rows else rev rows)) by (destruct (b_top_down d); [exact F|apply Forall_rev; exact F]).
    destruct (if b_top_down d then rows else rev rows) as [|row rest] eqn:ER.
    - exfalso. assert (zlen (if b_top_down d then rows else rev rows) = b_h d) by (destruct (b_top_down d); [exact C2|unfold zlen in *; rewrite rev_length; exact C2]). rewrite ER in H0. change (zlen (@nil (list Z))) with 0 in H0. lia.
    - apply Forall_cons_iff in F' as [F' _]. cbn [foldM]. unfold each_pixel. destruct (chunks_exact_id 1 row (b_w d) ltac:(lia) ltac:(lia)) as (D1 & D2). pose proof (chunks_len 1 row ltac:(lia)) as FD.
      destruct (chunks_exact 1 row) as [|p ps]; [change (zlen (@nil (list Z))) with 0 in D2; lia|]. apply Forall_cons_iff in FD as [FD _]. cbn [foldM]. unfold full_byte_pixel. destruct fmt; try contradiction; cbn [bind]; rewrite FD; reflexivity. }
  unfold read_image_data. cbn [b_type b_off set_indexed_color]. destruct T as [->|[->| ->]]; rewrite FP by discriminate; reflexivity.
Qed.
Print Assumptions C53_indexed_truecolor_refuted.

(** With 4 bits per pixel the "indices" are the packed bytes themselves. *)
Theorem C53_indexed_4bit_refuted : exists file d out, bytes file /\ bmp_new file 0 = Ok d /\ b_type d = TPalette /\ b_bits d = 4 /\
  bmp_read_image file (set_indexed_color d true) (repeat 0 4) = Ok out /\
  out <> raster (b_w d) (b_h d) (fun x y => [index_at file 4 (b_off d + stored_row d y * stride d) x]).
Proof.
  exists ([66; 77] ++ le32 0 ++ le32 0 ++ le32 62 ++ le32 40 ++ le32 4 ++ le32 1 ++ le16 1 ++ le16 4 ++ le32 0 ++ le32 0 ++ le32 0 ++ le32 0 ++ le32 2 ++ le32 0 ++ [1; 2; 3; 0; 10; 20; 30; 0] ++ [1; 1; 0; 0]).
  eexists _, _. split; [repeat constructor; unfold u8_max; lia|]. split; [vm_compute; reflexivity|]. split; [reflexivity|]. split; [reflexivity|]. split; [vm_compute; reflexivity|]. vm_compute. discriminate.
Qed.
Print Assumptions C53_indexed_4bit_refuted.

Definition idx_file : list Z :=
  [66; 77] ++ le32 0 ++ le32 0 ++ le32 62 ++ le32 40 ++ le32 3 ++ le32 2 ++ le16 1 ++ le16 8 ++ le32 0 ++ le32 0 ++ le32 0 ++ le32 0 ++ le32 2 ++ le32 0 ++ [1; 2; 3; 0; 10; 20; 30; 0] ++
  [1; 0; 1; 0; 0; 1; 0; 0].
Example C53_applies : exists d, bytes idx_file /\ bmp_new idx_file 0 = Ok d /\ b_type d = TPalette /\ b_bits d = 8 /\ bmp_read_image idx_file (set_indexed_color d true) (repeat 9 6) = Ok [0; 1; 0; 1; 0; 1].
Proof. eexists. split; [repeat constructor; unfold u8_max; lia|]. split; [vm_compute; reflexivity|]. split; [reflexivity|]. split; [reflexivity|]. vm_compute. reflexivity. Qed.
