(** C39, C40: the TGA codec.  The file format is in TgaSpec.v. *)
From Verif Require Import Base BaseLemmas ListLemmas ListMore Limits ColorType Tga TgaSpec TgaProofs TgaProofs2 TgaProofs3 TgaProofs4 HdrProofs2.
Local Open Scope Z_scope.

(** ** C39 *)
(** decoding what the encoder wrote gives the same size, colour type and bytes, consumes exactly the
    file, and does not depend on what was in the output buffer *)
Theorem C39_roundtrip : forall rle c w h buf rest fresh,
  c = CL8 \/ c = CLa8 \/ c = CRgb8 \/ c = CRgba8 -> 1 <= w <= 65535 -> 1 <= h <= 65535 ->
  zlen buf = w * h * ct_bytes c -> (forall n, 0 <= n -> zlen (fresh n) = n) ->
  exists file, tga_encode rle buf w h (ect_of c) = Ok file /\
    tga_decode fresh (file ++ rest) = Ok (w, h, c, buf, rest).
Proof.
  intros rle c w h buf rest fresh Hc Hw Hh L Hf.
  assert (CB : ct_bytes c = nbytes c) by (destruct Hc as [->|[->|[->| ->]]]; reflexivity). rewrite CB in L.
  assert (N0 : 0 < nbytes c) by (destruct Hc as [->|[->|[->| ->]]]; cbn; lia).
  destruct (tga_encode_ok c w h rle buf Hc Hw Hh L) as (body & E & S). eexists. split; [exact E|].
  destruct (chunks_exact_id (nbytes c) buf (w * h) N0 L) as [C1 C2].
  destruct (tga_decode_ok c w h rle true [] (chunks_exact (nbytes c) buf) body rest fresh Hc Hw Hh) as (b & Eb & P); auto.
  - cbn. lia.
  - apply chunks_exact_len. lia.
  - rewrite <- app_assoc. cbn [app] in Eb |- *. rewrite Eb, P, C1. reflexivity.
Qed.
Print Assumptions C39_roundtrip.

(** the encoder writes the format of TgaSpec.v: header, then the pixels blue first, rows from the top *)
Theorem C39_encoder_format : forall rle c w h buf,
  tga_color c -> 1 <= w <= 65535 -> 1 <= h <= 65535 -> zlen buf = w * h * nbytes c ->
  exists body, tga_encode rle buf w h (ect_of c) = Ok (tga_header c w h rle true [] ++ body) /\
    stores c rle (chunks_exact (nbytes c) buf) body.
Proof. intros; apply tga_encode_ok; auto. Qed.
Print Assumptions C39_encoder_format.

(** the decoder reads every file of that format, from any encoder: any legal packet sequence (packets may
    cross rows), any identification field, rows stored from the top or from the bottom *)
Theorem C39_decoder_format : forall c w h rle top id l body rest fresh,
  tga_color c -> 1 <= w <= 65535 -> 1 <= h <= 65535 -> zlen id <= 255 ->
  zlen l = w * h -> Forall (fun p => zlen p = nbytes c) l -> stores c rle l body ->
  (forall n, 0 <= n -> zlen (fresh n) = n) ->
  exists b, tga_decode fresh (tga_header c w h rle top id ++ id ++ body ++ rest) = Ok (w, h, c, b, rest) /\
    forall x y p, 0 <= x < w -> 0 <= y < h ->
      zget l ((if top then y else h - 1 - y) * w + x) = Some p ->
      zslice b ((y * w + x) * nbytes c) (nbytes c) = p.
Proof.
  intros c w h rle top id l body rest fresh Hc Hw Hh Hid L F S Hf.
  destruct (tga_decode_ok c w h rle top id l body rest fresh Hc Hw Hh Hid L F S Hf) as (b & E & P).
  exists b. split; [exact E|]. intros x y p Hx Hy G.
  assert (N0 : 0 <= nbytes c) by (destruct Hc as [->|[->|[->| ->]]]; cbn; lia).
  destruct top.
  - rewrite P. apply zslice_concat; auto.
  - destruct P as [_ P]. rewrite P by auto. apply zslice_concat; auto.
Qed.
Print Assumptions C39_decoder_format.

(** what the encoder refuses *)
Theorem C39_encoder_errors : forall rle c w h buf,
  is_u32 w -> is_u32 h -> buffer_size c w h = Ok (zlen buf) ->
  (u16_max < w \/ u16_max < h -> tga_encode rle buf w h c = Err EEncoding) /\
  (1 <= w <= u16_max -> 1 <= h <= u16_max -> ~ In c [XL8; XLa8; XRgb8; XRgba8] -> tga_encode rle buf w h c = Err EUnsupported).
Proof.
  intros rle c w h buf Hw Hh L. unfold tga_encode. rewrite L. cbn [bind]. rewrite Z.eqb_refl. cbn [negb]. split.
  - intros [Q|Q].
    + replace (u16_max <? w) with true by lia. reflexivity.
    + destruct (u16_max <? w); [reflexivity|]. replace (u16_max <? h) with true by lia. reflexivity.
  - intros H1 H2 N. replace (u16_max <? w) with false by lia. replace (u16_max <? h) with false by lia.
    unfold from_pixel_info. replace ((0 <? w) && (0 <? h)) with true by lia.
    destruct c; try reflexivity; exfalso; apply N; cbn; auto.
Qed.
Print Assumptions C39_encoder_errors.

(** but an empty image is "encoded" as a header of zeros which the decoder then refuses *)
Theorem C39_empty_refuted : forall rle w fresh, 0 <= w <= 65535 ->
  exists file, tga_encode rle [] w 0 XRgb8 = Ok file /\ tga_decode fresh file = Err EUnsupported.
Proof.
  intros rle w fresh Hw. exists (repeat 0 18). split; [|reflexivity]. unfold tga_encode, buffer_size.
  unfold ect_bits. cbn [ect_of]. unfold u64_max at 1. replace (_ <=? _) with true by (cbn; lia).
  unfold sat_mul_u64. rewrite Z.mul_0_r. cbn [bind]. change (Z.min u64_max 0) with 0. change (zlen (@nil Z) =? 0) with true. cbn [negb].
  unfold u16_max. replace (65535 <? w) with false by lia. change (65535 <? 0) with false. cbn iota.
  unfold from_pixel_info. rewrite andb_false_r. reflexivity.
Qed.
Print Assumptions C39_empty_refuted.

(** ** C40 *)
(** for every pixel size and every image the run-length encoder emits a sequence of packets of 1 to 128
    pixels that stand for exactly the image's pixels, in order; it never panics *)
Theorem C40_packets : forall bpp image, 0 < bpp ->
  exists ps, run_length_encode bpp image = Ok (flat_map packet_bytes ps) /\
    Forall (packet_ok bpp) ps /\ flat_map packet_pixels ps = chunks_exact bpp image.
Proof. intros; apply rle_encode_ok; auto. Qed.
Print Assumptions C40_packets.

(** decoding a legal packet sequence for the expected number of bytes yields its pixels and leaves exactly
    what follows *)
Theorem C40_decode_packets : forall bpp ps rest, 0 < bpp -> Forall (packet_ok bpp) ps ->
  read_encoded_data bpp (zlen (flat_map packet_pixels ps) * bpp) (flat_map packet_bytes ps ++ rest)
  = Ok (concat (flat_map packet_pixels ps), rest).
Proof. intros; apply read_encoded_packets; auto. Qed.
Print Assumptions C40_decode_packets.

(** on any byte stream the packet decoder ends, with an end-of-file error or with exactly the expected
    number of bytes *)
Theorem C40_decode_stream_total : forall bpp num r, 0 <= num -> bytes r ->
  read_encoded_data bpp num r = Err EEof \/
  exists d r', read_encoded_data bpp num r = Ok (d, r') /\ zlen d = num /\ suffix r' r.
Proof. intros; apply read_encoded_data_total; auto. Qed.
Print Assumptions C40_decode_stream_total.

(** on any byte stream the whole decoder ends without panicking; on success the pixel buffer has the size
    announced by the dimensions and colour type *)
Theorem C40_decoder_total : forall r fresh, bytes r -> (forall n, 0 <= n -> zlen (fresh n) = n) ->
  (exists e, tga_decode fresh r = Err e /\ e <> EFuel) \/
  exists w h c b r', tga_decode fresh r = Ok (w, h, c, b, r') /\ is_u16 w /\ is_u16 h /\ zlen b = w * h * ct_bytes c /\ suffix r' r.
Proof.
  intros r fresh B Hf. unfold tga_decode. destruct (tga_new_total r B) as [(e & -> & He)|(d & r1 & -> & I & S & B1 & _)]; cbn [bind]; [left; eauto|].
  pose proof I as (Hw & Hh & Hc & _). rewrite total_bytes_16 by lia. cbn [bind].
  assert (0 <= d_w d * d_h d * ct_bytes (d_color d)) by (apply Z.mul_nonneg_nonneg; [apply Z.mul_nonneg_nonneg; lia|destruct (d_color d); cbn; lia]).
  destruct (tga_read_total d (fresh (d_w d * d_h d * ct_bytes (d_color d))) r1 I B1) as [(e & -> & He)|(b & r2 & -> & Lb & S2)].
  - apply Hf; auto.
  - cbn [bind]. left; eauto.
  - cbn [bind]. right. eexists _, _, _, _, _. split; [reflexivity|]. unfold is_u16, u16_max. repeat split; try lia.
    + rewrite Lb. apply Hf; auto.
    + eapply suffix_trans; eauto.
Qed.
Print Assumptions C40_decoder_total.

(** when the file has no colour map, or its pixels are colour-map indices, the result does not depend on
    what the output buffer contained *)
Theorem C40_decoder_initialises : forall r fresh1 fresh2, bytes r ->
  (forall n, 0 <= n -> zlen (fresh1 n) = n) -> (forall n, 0 <= n -> zlen (fresh2 n) = n) ->
  zget r 1 = Some 0 \/ zget r 2 = Some 1 \/ zget r 2 = Some 9 ->
  tga_decode fresh1 r = tga_decode fresh2 r.
Proof.
  intros r f1 f2 B H1 H2 H. unfold tga_decode. destruct (tga_new_total r B) as [(e & -> & He)|(d & r1 & -> & I & S & B1 & G1 & G2)]; cbn [bind]; [auto|].
  pose proof I as (Hw & Hh & Hc & _). rewrite total_bytes_16 by lia. cbn [bind].
  assert (0 <= d_w d * d_h d * ct_bytes (d_color d)) by (apply Z.mul_nonneg_nonneg; [apply Z.mul_nonneg_nonneg; lia|destruct (d_color d); cbn; lia]).
  rewrite (tga_read_indep d _ (f2 (d_w d * d_h d * ct_bytes (d_color d))) r1 I B1); auto; try (rewrite ?H1, ?H2 by auto; auto).
  destruct H as [H|H]; [left; congruence|right; auto].
Qed.
Print Assumptions C40_decoder_initialises.

(** otherwise bytes of the caller's buffer survive: a 1 x 1 true-colour file of 8-bit pixels with a (24-bit)
    colour map decodes successfully to one file byte and two bytes of the old buffer *)
Definition leak_file : list Z := [0; 1; 2; 0; 0; 0; 0; 24; 0; 0; 0; 0; 1; 0; 1; 0; 8; 32; 77].
Theorem C40_uninitialised_refuted : forall v, is_u8 v ->
  tga_decode (fun n => repeat v (Z.to_nat n)) leak_file = Ok (1, 1, CRgb8, [v; v; 77], []).
Proof. intros v _. reflexivity. Qed.
Print Assumptions C40_uninitialised_refuted.

(** ** Non-vacuity *)
Example C39_example : exists f, tga_encode true [1; 2; 3; 1; 2; 3; 9; 8; 7] 3 1 XRgb8 = Ok f /\
  f = [0; 0; 10; 0; 0; 0; 0; 0; 0; 0; 0; 0; 3; 0; 1; 0; 24; 32; 129; 3; 2; 1; 0; 7; 8; 9] /\
  tga_decode (fun n => repeat 55 (Z.to_nat n)) f = Ok (3, 1, CRgb8, [1; 2; 3; 1; 2; 3; 9; 8; 7], []).
Proof. eexists. split; [vm_compute; reflexivity|split; vm_compute; reflexivity]. Qed.
Example C40_bottom_up : tga_decode (fun n => repeat 55 (Z.to_nat n))
  (tga_header CL8 2 2 false false [65] ++ [65] ++ [1; 2; 3; 4]) = Ok (2, 2, CL8, [3; 4; 1; 2], []).
Proof. vm_compute. reflexivity. Qed.
Example C40_map_example : tga_decode (fun n => repeat 55 (Z.to_nat n))
  [0; 1; 1; 0; 0; 2; 0; 24; 0; 0; 0; 0; 2; 0; 1; 0; 8; 32; 1; 2; 3; 4; 5; 6; 1; 0] = Ok (2, 1, CRgb8, [6; 5; 4; 3; 2; 1], []).
Proof. vm_compute. reflexivity. Qed.
