(** C47-C49: the JPEG encoder.  [JpegSpec.v] is an independent reader of baseline JPEG files. *)
From Coq Require Import String Ascii.
From Verif Require Import Base BaseLemmas ListLemmas ListMore TgaProofs2 BmpProofs GenImage Limits Color ColorProofs ColorType Overlay OverlayProofs Jpeg JpegSpec JpegProofs JpegProofs2 JpegDct JpegQuant JpegScan JpegFile.
From Verif Require Formats FormatsProofs.
Local Open Scope Z_scope.

(** ** quality *)
Lemma scale_ok s t : 0 <= s -> Forall (fun v => 0 <= v) t -> Forall (fun v => 1 <= v <= 255) (scale_table s t).
Proof. intros Hs F. unfold scale_table. apply Forall_map. eapply Forall_impl; [|exact F]. intros v Hv. unfold clampz. lia. Qed.
Lemma scale_range q : 0 <= scale_of q <= 5000.
Proof. unfold scale_of, clampz. set (s := Z.max 1 (Z.min 100 q)). destruct (Z.ltb_spec s 50); [|lia]. assert (1 <= s) by lia. split; [apply Z.div_pos; lia|]. apply Z.div_le_upper_bound; lia. Qed.
Lemma new_tables out q : exists q0 q1, je_tables (jenc_new out q) = (q0, q1) /\ table_ok q0 /\ table_ok q1.
Proof.
  eexists. eexists. split; [reflexivity|]. pose proof (scale_range q). split; (split; [unfold scale_table; rewrite zlen_map; reflexivity|apply scale_ok; [lia|]]); repeat constructor; lia.
Qed.
(** The two quantisation tables of an encoder with the given quality, row by row *)
Definition tables_of (quality : Z) : list Z * list Z := je_tables (jenc_new [] quality).
(** C48: for every quality (any number: it is clamped to 1..100) there are two tables of 64 entries within 1..255 ... *)
Theorem C48_tables_in_range quality : let '(q0, q1) := tables_of quality in
  zlen q0 = 64 /\ zlen q1 = 64 /\ Forall (fun v => 1 <= v <= 255) q0 /\ Forall (fun v => 1 <= v <= 255) q1.
Proof. destruct (new_tables [] quality) as (q0 & q1 & E & (A & B) & C & D). unfold tables_of. rewrite E. auto. Qed.
Print Assumptions C48_tables_in_range.
Lemma scale_antitone a b : a <= b -> scale_of b <= scale_of a.
Proof.
  intros H. unfold scale_of, clampz. set (s := Z.max 1 (Z.min 100 a)). set (t := Z.max 1 (Z.min 100 b)). assert (1 <= s <= t) by lia. assert (t <= 100) by lia. clearbody s t.
  destruct (Z.ltb_spec s 50), (Z.ltb_spec t 50); try lia.
  - apply Z.div_le_compat_l; lia.
  - assert (100 <= 5000 / s) by (apply Z.div_le_lower_bound; lia). lia.
Qed.
Lemma scale_table_antitone s t l i u v : t <= s -> Forall (fun v => 0 <= v) l -> zget (scale_table s l) i = Some u -> zget (scale_table t l) i = Some v -> v <= u.
Proof.
  unfold scale_table. rewrite !zget_map. intros H F. destruct (zget l i) as [x|] eqn:E; [|discriminate]. cbn [option_map]. intros Hu Hv. apply Some_inj in Hu, Hv. subst. apply zget_In in E. rewrite Forall_forall in F. specialize (F _ E). cbv beta in F.
  assert ((x * t + 50) / 100 <= (x * s + 50) / 100) by (apply Z.div_le_mono; nia). unfold clampz. lia.
Qed.
(** ... and a higher quality never has a larger entry. *)
Theorem C48_tables_antitone a b i u v : a <= b ->
  (zget (fst (tables_of a)) i = Some u -> zget (fst (tables_of b)) i = Some v -> v <= u) /\
  (zget (snd (tables_of a)) i = Some u -> zget (snd (tables_of b)) i = Some v -> v <= u).
Proof. intros H. apply scale_antitone in H. unfold tables_of. cbn [jenc_new je_tables fst snd]. split; apply scale_table_antitone; try exact H; repeat constructor; lia. Qed.
Print Assumptions C48_tables_antitone.
(** quality 50 is the tables of annex K, 100 is no quantisation *)
Example C48_quality_50 : tables_of 50 = (luma_qtable, chroma_qtable). Proof. reflexivity. Qed.
Example C48_quality_100 : tables_of 100 = (repeat 1 64, repeat 1 64). Proof. reflexivity. Qed.

(** ** Huffman tables *)
(** the code of a symbol: length and code word *)
Definition code (lut : list (Z * Z)) (v : Z) : list bool := match zget lut v with Some (n, c) => tobits (Z.to_nat n) c | None => [] end.
Fixpoint prefix (a b : list bool) : bool := match a, b with [], _ => true | x :: a, y :: b => Bool.eqb x y && prefix a b | _, [] => false end.
Lemma prefix_app a r : prefix a (a ++ r) = true.
Proof. induction a as [|x a IH]; [reflexivity|]. cbn. rewrite Bool.eqb_reflx. exact IH. Qed.
Definition dc_symbols : list Z := zrange 0 12.
Definition ac_symbols : list Z := 0 :: 240 :: flat_map (fun run => map (fun size => 16 * run + size) (zrange 1 10)) (zrange 0 16).
Definition code_ok (lut : list (Z * Z)) (symbols : list Z) : bool :=
  forallb (fun v => (1 <=? zlen (code lut v)) && (zlen (code lut v) <=? 16) && forallb (fun w => (v =? w) || negb (prefix (code lut v) (code lut w))) symbols) symbols.
Lemma code_ok_spec lut symbols v : code_ok lut symbols = true -> In v symbols -> 1 <= zlen (code lut v) <= 16 /\ forall w r, In w symbols -> v <> w -> code lut w <> code lut v ++ r.
Proof.
  unfold code_ok. rewrite forallb_forall. intros H Hv. specialize (H v Hv). rewrite !andb_true_iff, !Z.leb_le, forallb_forall in H. destruct H as (H1 & H2). split; [exact H1|]. intros w r Hw N E. specialize (H2 w Hw). rewrite E in H2. rewrite prefix_app in H2. replace (v =? w) with false in H2 by lia. discriminate.
Qed.
Lemma code_t1 : code_ok luma_dc_lut dc_symbols = true. Proof. vm_compute. reflexivity. Qed.
Lemma code_t2 : code_ok chroma_dc_lut dc_symbols = true. Proof. vm_compute. reflexivity. Qed.
Lemma code_t3 : code_ok luma_ac_lut ac_symbols = true. Proof. vm_compute. reflexivity. Qed.
Lemma code_t4 : code_ok chroma_ac_lut ac_symbols = true. Proof. vm_compute. reflexivity. Qed.
(** C48: in each of the four tables every symbol that can occur (sizes 0..11 for DC; end of block, zero run, and all
    pairs of a run 0..15 with a size 1..10 for AC) has a code of 1..16 bits, and none is a prefix of another one's. *)
Theorem C48_huffman_codes lut symbols v w r :
  (lut = luma_dc_lut \/ lut = chroma_dc_lut) /\ symbols = dc_symbols \/ (lut = luma_ac_lut \/ lut = chroma_ac_lut) /\ symbols = ac_symbols ->
  In v symbols -> In w symbols -> 1 <= zlen (code lut v) <= 16 /\ (v <> w -> code lut w <> code lut v ++ r).
Proof.
  intros H Hv Hw. assert (C : code_ok lut symbols = true) by (destruct H as [([-> | ->] & ->)|([-> | ->] & ->)]; [exact code_t1|exact code_t2|exact code_t3|exact code_t4]). clear H.
  destruct (code_ok_spec lut symbols v C Hv) as (A & B). split; [exact A|intros N; exact (B w r Hw N)].
Qed.
Print Assumptions C48_huffman_codes.
(** and they are the codes that annex C assigns to the tables the encoder writes into the file: the reader gets the
    symbol back, whatever follows. *)
Inductive emitted : list (Z * Z) -> htable -> list Z -> Prop :=
  | em_luma_dc : emitted luma_dc_lut (luma_dc_lengths, luma_dc_values) dc_symbols
  | em_chroma_dc : emitted chroma_dc_lut (chroma_dc_lengths, chroma_dc_values) dc_symbols
  | em_luma_ac : emitted luma_ac_lut (luma_ac_lengths, luma_ac_values) ac_symbols
  | em_chroma_ac : emitted chroma_ac_lut (chroma_ac_lengths, chroma_ac_values) ac_symbols.
Theorem C48_huffman_tables_match lut t symbols v r : emitted lut t symbols -> In v symbols -> symbol t (code lut v ++ r) = Some (v, r).
Proof.
  intros H Hv.
  assert (DC : forall lut t, dc_ok lut t -> In v dc_symbols -> symbol t (code lut v ++ r) = Some (v, r)). { intros lut' t' O Hd. apply In_zrange in Hd. apply sbits_decode. apply O. lia. }
  assert (AC : forall lut t, ac_ok lut t -> In v ac_symbols -> symbol t (code lut v ++ r) = Some (v, r)).
  { intros lut' t' (O1 & O2 & O3) [<-|[<-|Hd]]; try (apply sbits_decode; assumption). apply in_flat_map in Hd. destruct Hd as (run & R1 & R2). apply in_map_iff in R2. destruct R2 as (size & <- & R3). apply In_zrange in R1, R3. apply sbits_decode. apply O3; lia. }
  destruct H; [exact (DC _ _ luma_dc_ok Hv)|exact (DC _ _ chroma_dc_ok Hv)|exact (AC _ _ luma_ac_ok Hv)|exact (AC _ _ chroma_ac_ok Hv)].
Qed.
Print Assumptions C48_huffman_tables_match.

(** ** colour conversion *)
(** C48: rgb to YCbCr stays within a byte and is within one of the JFIF formulas
    Y = 0.299 R + 0.587 G + 0.114 B,  Cb = -0.168736 R - 0.331264 G + 0.5 B + 128,  Cr = 0.5 R - 0.418688 G - 0.081312 B + 128
    (here times 10^6). *)
Theorem C48_ycbcr r g b : is_u8 r -> is_u8 g -> is_u8 b -> let '(y, cb, cr) := ycbcr r g b in
  is_u8 y /\ is_u8 cb /\ is_u8 cr /\
  Z.abs (1000000 * y - (299000 * r + 587000 * g + 114000 * b)) <= 510000 /\
  Z.abs (1000000 * cb - (-168736 * r - 331264 * g + 500000 * b + 128000000)) <= 510000 /\
  Z.abs (1000000 * cr - (500000 * r - 418688 * g - 81312 * b + 128000000)) <= 510000.
Proof.
  unfold is_u8, u8_max. intros Hr Hg Hb. unfold ycbcr. change (Z.shiftl 1 15) with 32768. change (Z.shiftl 1 16) with 65536. rewrite !Z.shiftr_div_pow2 by lia. change (2 ^ 16) with 65536.
  pose proof (Z.div_mod (19595 * r + 38469 * g + 7471 * b + (32768 - 1)) 65536 ltac:(lia)) as E1. pose proof (Z.mod_pos_bound (19595 * r + 38469 * g + 7471 * b + (32768 - 1)) 65536 ltac:(lia)) as B1.
  pose proof (Z.div_mod (-11059 * r - 21709 * g + 32768 * b + (128 * 65536 + (32768 - 1))) 65536 ltac:(lia)) as E2. pose proof (Z.mod_pos_bound (-11059 * r - 21709 * g + 32768 * b + (128 * 65536 + (32768 - 1))) 65536 ltac:(lia)) as B2.
  pose proof (Z.div_mod (32768 * r - 27439 * g - 5329 * b + (128 * 65536 + (32768 - 1))) 65536 ltac:(lia)) as E3. pose proof (Z.mod_pos_bound (32768 * r - 27439 * g - 5329 * b + (128 * 65536 + (32768 - 1))) 65536 ltac:(lia)) as B3.
  set (y := _ / 65536) in E1. set (cb := (-11059 * r - 21709 * g + 32768 * b + _) / 65536) in E2. set (cr := (32768 * r - 27439 * g - 5329 * b + _) / 65536) in E3. fold y cb cr. clearbody y cb cr.
  set (m1 := _ mod 65536) in E1, B1. set (m2 := (-11059 * r - 21709 * g + 32768 * b + _) mod 65536) in E2, B2. set (m3 := (32768 * r - 27439 * g - 5329 * b + _) mod 65536) in E3, B3. clearbody m1 m2 m3.
  rewrite !wrap_u8_small by lia. lia.
Qed.
Print Assumptions C48_ycbcr.
(** greys have Y = the grey value and neutral chroma *)
Theorem C48_grey v : is_u8 v -> ycbcr v v v = (v, 128, 128).
Proof.
  unfold is_u8, u8_max. intros H. unfold ycbcr. change (Z.shiftl 1 15) with 32768. change (Z.shiftl 1 16) with 65536. rewrite !Z.shiftr_div_pow2 by lia. change (2 ^ 16) with 65536.
  replace (-11059 * v - 21709 * v + 32768 * v + (128 * 65536 + (32768 - 1))) with 8421375 by lia. replace (32768 * v - 27439 * v - 5329 * v + (128 * 65536 + (32768 - 1))) with 8421375 by lia.
  replace ((19595 * v + 38469 * v + 7471 * v + (32768 - 1)) / 65536) with v by (apply (Z.div_unique _ _ _ (32767 - v)); lia). rewrite (wrap_u8_small v) by lia. reflexivity.
Qed.
Print Assumptions C48_grey.

(** ** the file *)
(** A new encoder writing after [out], with any quality, pixel density and ICC profile *)
Definition encoder (out : list Z) (quality : Z) (d : Z * Z * unit_t) (icc : list Z) : jenc := set_icc (set_density (jenc_new out quality) d) icc.
(** in an entropy-coded segment FF is followed by 00 *)
Definition stuffed (scan : list Z) : Prop := forall i, zget scan i = Some 255 -> zget scan (i + 1) = Some 0.
Lemma stuff_stuffed D : stuffed (stuff D).
Proof.
  induction D as [|d D IH]; intros i H; [apply zget_range in H; change (zlen (stuff [])) with 0 in H; lia|]. pose proof (zget_range _ _ _ H) as B. change (stuff (d :: D)) with ((if d =? 255 then [255; 0] else [d]) ++ stuff D) in *. destruct (Z.eqb_spec d 255) as [->|N].
  - destruct (Z.eq_dec i 0) as [->|N0]; [reflexivity|]. destruct (Z.eq_dec i 1) as [->|N1]; [cbn in H; discriminate|]. rewrite zget_app in *. change (zlen [255; 0]) with 2 in *. replace (i <? 2) with false in H by lia. replace (i + 1 <? 2) with false by lia. replace (i + 1 - 2) with ((i - 2) + 1) by lia. apply IH. exact H.
  - destruct (Z.eq_dec i 0) as [->|N0]; [cbn in H; injection H as ->; contradiction|]. rewrite zget_app in *. change (zlen [d]) with 1 in *. replace (i <? 1) with false in H by lia. replace (i + 1 <? 1) with false by lia. replace (i + 1 - 1) with ((i - 1) + 1) by lia. apply IH. exact H.
Qed.
Definition dct8 (samples : list Z) : list Z := match fdct samples with Ok d => d | _ => [] end.
(** the coefficients the file should contain for one 8x8 block of samples, quantisation table [q] (both row by row): the
    transform of the samples, quantised, in zig-zag order *)
Definition expected (q samples : list Z) : list Z := in_zigzag (quantised q (dct8 samples)).
(** C47 for one component.  Every 8-bit grey image (with or without alpha) of at most 65535 x 65535 pixels, every quality,
    density, profile of up to 255 chunks: encode_image succeeds and appends a file; the T.81 reader accepts the file and
    gets the dimensions, the quantisation table, the profile and, for every block in order, exactly the coefficients that
    were computed; every FF in the scan is stuffed. *)
Theorem C47_grey out quality d icc k im : k = Luma \/ k = LumaA -> wf im -> Forall (is_pixel U8 k) (px im) -> iw im <= 65535 -> ih im <= 65535 -> zlen icc <= 65519 * 255 ->
  exists e' header scan jf, encode_image (encoder out quality d icc) U8 k im = Ok e' /\
    bw_out (je_w e') = out ++ header ++ scan ++ [255; 217] /\ stuffed scan /\
    read_jpeg (header ++ scan ++ [255; 217]) = Some jf /\
    jf_w jf = iw im /\ jf_h jf = ih im /\ jf_quant jf = [in_zigzag (fst (tables_of quality))] /\ icc_profile (jf_icc jf) = Some icc /\
    jf_mcus jf = map (fun o => [expected (fst (tables_of quality)) (block_samples (chan 0) im o)]) (block_origins (iw im) (ih im)).
Proof.
  intros K W F Hw Hh LI. destruct (new_tables [] quality) as (q0 & q1 & ET & T0 & T1).
  destruct (gray_encode (encoder out quality d icc) out q0 q1 k im eq_refl ET T0 LI K W F Hw Hh) as (e' & D & E & O & B & R). exists e', (head d icc ++ gray_head (iw im) (ih im) q0), (stuff D). eexists. split; [exact E|].
  split; [rewrite O; rewrite <- !app_assoc; reflexivity|]. split; [apply stuff_stuffed|]. split; [rewrite <- !app_assoc; exact R|]. cbn [jf_w jf_h jf_quant jf_icc jf_mcus]. unfold tables_of. rewrite ET. repeat split. apply icc_list_profile.
Qed.
Print Assumptions C47_grey.
(** C47 for colour: three components per block, luminance with the first, chrominance with the second table. *)
Theorem C47_colour out quality d icc k im : k = Rgb \/ k = Rgba -> wf im -> Forall (is_pixel U8 k) (px im) -> iw im <= 65535 -> ih im <= 65535 -> zlen icc <= 65519 * 255 ->
  exists e' header scan jf, encode_image (encoder out quality d icc) U8 k im = Ok e' /\
    bw_out (je_w e') = out ++ header ++ scan ++ [255; 217] /\ stuffed scan /\
    read_jpeg (header ++ scan ++ [255; 217]) = Some jf /\
    jf_w jf = iw im /\ jf_h jf = ih im /\ icc_profile (jf_icc jf) = Some icc /\
    (let '(q0, q1) := tables_of quality in
     jf_quant jf = [in_zigzag q0; in_zigzag q1; in_zigzag q1] /\
     jf_mcus jf = map (fun o =>
       [expected q0 (block_samples (fun p => fst (fst (ycbcr (chan 0 p) (chan 1 p) (chan 2 p)))) im o);
        expected q1 (block_samples (fun p => snd (fst (ycbcr (chan 0 p) (chan 1 p) (chan 2 p)))) im o);
        expected q1 (block_samples (fun p => snd (ycbcr (chan 0 p) (chan 1 p) (chan 2 p))) im o)]) (block_origins (iw im) (ih im))).
Proof.
  intros K W F Hw Hh LI. destruct (new_tables [] quality) as (q0 & q1 & ET & T0 & T1).
  destruct (color_encode (encoder out quality d icc) out q0 q1 k im eq_refl ET T0 T1 LI K W F Hw Hh) as (e' & D & E & O & B & R). exists e', (head d icc ++ color_head (iw im) (ih im) q0 q1), (stuff D). eexists. split; [exact E|].
  split; [rewrite O; rewrite <- !app_assoc; reflexivity|]. split; [apply stuff_stuffed|]. split; [rewrite <- !app_assoc; exact R|]. cbn [jf_w jf_h jf_quant jf_icc jf_mcus]. unfold tables_of. rewrite ET. repeat split. apply icc_list_profile.
Qed.
Print Assumptions C47_colour.
(** encode, from a byte slice of the right length: the grey or colour image with these bytes *)
Theorem C47_encode_bytes e image w h c : 0 <= w <= 65535 -> 0 <= h <= 65535 -> c = XL8 \/ c = XRgb8 -> zlen image = ect_bits c / 8 * (w * h) -> bytes image ->
  let k := match c with XL8 => Luma | _ => Rgb end in
  exists im, iw im = w /\ ih im = h /\ wf im /\ Forall (is_pixel U8 k) (px im) /\ concat (px im) = image /\ jpeg_encode e image w h c = encode_image e U8 k im.
Proof.
  intros Hw Hh HC L BI k. set (n := ect_bits c / 8) in *. assert (N : n = nch k) by (destruct HC as [-> | ->]; reflexivity). assert (N1 : 1 <= n <= 3) by (rewrite N; unfold k; destruct HC as [-> | ->]; cbn; lia). assert (NB : ect_bits c = n * 8) by (destruct HC as [-> | ->]; reflexivity).
  clearbody n. destruct (chunks_exact_id n image (w * h) ltac:(lia) ltac:(lia)) as (CE & CL). exists (mkImg w h (chunks_exact n image)). cbn [iw ih px].
  split; [reflexivity|]. split; [reflexivity|]. split; [repeat split; cbn [iw ih px]; lia|]. split; [|split; [exact CE|]].
  - pose proof (chunks_len n image ltac:(lia)) as F1. pose proof (chunks_bytes n image BI) as F2. rewrite Forall_forall in *. intros p Hp. split; [rewrite <- N; exact (F1 p Hp)|exact (F2 p Hp)].
  - unfold jpeg_encode, buffer_size, sat_mul_u64. rewrite NB. replace (w * (n * 8) + 7 <=? u64_max) with true by (unfold u64_max; nia). replace ((w * (n * 8) + 7) / 8) with (w * n) by (apply (Z.div_unique _ _ _ 7); lia). cbn [bind].
    replace (w * n * h) with (zlen image) by (rewrite L; ring). assert (B1 : 0 <= w * h <= 65535 * 65535) by nia. assert (B2 : 0 <= n * (w * h) <= 3 * (65535 * 65535)) by nia. rewrite <- L in B2. replace (Z.min u64_max (zlen image)) with (zlen image) by (unfold u64_max; lia). rewrite Z.eqb_refl. cbn [negb]. subst k. destruct HC as [-> | ->]; rewrite N; reflexivity.
Qed.
Print Assumptions C47_encode_bytes.
(** other colour types are refused, a slice of the wrong length panics (both documented) *)
Theorem C47_unsupported e image w h c : c <> XL8 -> c <> XRgb8 -> 0 <= w <= u32_max -> buffer_size c w h = Ok (zlen image) -> jpeg_encode e image w h c = Err EUnsupported.
Proof. intros N1 N2 Hw E. unfold jpeg_encode. rewrite E. cbn [bind]. rewrite Z.eqb_refl. cbn [negb]. destruct c; try reflexivity; contradiction. Qed.
Print Assumptions C47_unsupported.
(** larger dimensions and larger profiles are errors, not panics *)
Theorem C47_too_large out quality d icc t k im : wf im -> zlen icc <= 65519 * 255 -> 65535 < iw im \/ 65535 < ih im -> encode_image (encoder out quality d icc) t k im = Err EParameter.
Proof.
  intros W LI H. unfold encode_image. destruct (je_tables _) as [q0 q1]. cbn [je_w encoder set_icc set_density jenc_new je_density je_icc]. rewrite write_segment_ok by (rewrite jfif_len; lia). cbn [bind]. rewrite write_icc_ok by exact LI. cbn [bind].
  replace ((u16_max <? iw im) || (u16_max <? ih im)) with true by (unfold u16_max; lia). reflexivity.
Qed.
Print Assumptions C47_too_large.
Theorem C48_icc_too_large out quality d icc t k im : 65519 * 255 < zlen icc -> encode_image (encoder out quality d icc) t k im = Err EEncoding.
Proof.
  intros LI. unfold encode_image. destruct (je_tables _) as [q0 q1]. cbn [je_w encoder set_icc set_density jenc_new je_density je_icc]. rewrite write_segment_ok by (rewrite jfif_len; lia). cbn [bind]. unfold write_icc. replace (zlen icc =? 0) with false by lia. change MAX_CHUNK_SIZE with 65519. replace (65519 * 255 <? zlen icc) with true by lia. reflexivity.
Qed.
Print Assumptions C48_icc_too_large.
(** C48: the file starts with SOI and a JFIF 1.02 segment with the density that was set (big-endian). *)
Theorem C48_jfif_header out quality x y u icc k im : wf im -> Forall (is_pixel U8 k) (px im) -> iw im <= 65535 -> ih im <= 65535 -> zlen icc <= 65519 * 255 ->
  exists e' rest, encode_image (encoder out quality (x, y, u) icc) U8 k im = Ok e' /\
    bw_out (je_w e') = out ++ [255; 216; 255; 224; 0; 16; 74; 70; 73; 70; 0; 1; 2; match u with AspectRatio => 0 | Inches => 1 | Centimeters => 2 end] ++ be16 x ++ be16 y ++ [0; 0] ++ rest.
Proof.
  intros W F Hw Hh LI. assert (K : (k = Luma \/ k = LumaA) \/ (k = Rgb \/ k = Rgba)) by (destruct k; auto). destruct (new_tables [] quality) as (q0 & q1 & ET & T0 & T1). destruct K as [K|K].
  - destruct (gray_encode (encoder out quality (x, y, u) icc) out q0 q1 k im eq_refl ET T0 LI K W F Hw Hh) as (e' & D & E & O & B & R). exists e'. eexists. split; [exact E|]. rewrite O. f_equal. unfold head, seg. cbn [encoder set_icc set_density je_density je_icc]. rewrite jfif_len. unfold jfif_header. rewrite <- !app_assoc. destruct u; reflexivity.
  - destruct (color_encode (encoder out quality (x, y, u) icc) out q0 q1 k im eq_refl ET T0 T1 LI K W F Hw Hh) as (e' & D & E & O & B & R). exists e'. eexists. split; [exact E|]. rewrite O. f_equal. unfold head, seg. cbn [encoder set_icc set_density je_density je_icc]. rewrite jfif_len. unfold jfif_header. rewrite <- !app_assoc. destruct u; reflexivity.
Qed.
Print Assumptions C48_jfif_header.
(** *** non-vacuity: a 2x1 colour image, written and read back *)
Example C47_example : let im := mkImg 2 1 [[255; 0; 0]; [0; 128; 255]] in
  match encode_image (encoder [] 100 (1, 1, AspectRatio) [1; 2; 3]) U8 Rgb im with
  | Ok e => match read_jpeg (bw_out (je_w e)) with
            | Some j => (jf_w j, jf_h j, icc_profile (jf_icc j), map (map (firstn 6)) (jf_mcus j)) = (2, 1, Some [1; 2; 3], [[[-220; -38; 0; 0; 0; -36]; [552; -177; 0; 0; 0; -167]; [-391; 278; 0; 0; 0; 262]]])
            | None => False end
  | _ => False end.
Proof. vm_compute. reflexivity. Qed.

(** *** where the code fails *)
(** C47 does not hold for a second image written by the same encoder: the bits left over from the padding of the first
    scan are put in front of the second one.  (1 x 1 black image, quality 90: the second file is unreadable.) *)
Theorem C47_second_image_refuted : exists e1 e2 im, wf im /\ Forall (is_pixel U8 Luma) (px im) /\
  encode_image (jenc_new [] 90) U8 Luma im = Ok e1 /\ encode_image e1 U8 Luma im = Ok e2 /\
  exists second, bw_out (je_w e2) = bw_out (je_w e1) ++ second /\ read_jpeg (bw_out (je_w e1)) <> None /\ read_jpeg second = None.
Proof.
  set (im := mkImg 1 1 [[0]]). assert (E1 : exists e1, encode_image (jenc_new [] 90) U8 Luma im = Ok e1) by (eexists; vm_compute; reflexivity). destruct E1 as (e1 & E1).
  assert (E2 : match encode_image (jenc_new [] 90) U8 Luma im with Ok e1 => match encode_image e1 U8 Luma im with Ok e2 => leqb (firstn (length (bw_out (je_w e1))) (bw_out (je_w e2))) (bw_out (je_w e1)) && match read_jpeg (bw_out (je_w e1)) with Some _ => true | None => false end && match read_jpeg (skipn (length (bw_out (je_w e1))) (bw_out (je_w e2))) with Some _ => false | None => true end | _ => false end | _ => false end = true) by (vm_compute; reflexivity).
  rewrite E1 in E2. destruct (encode_image e1 U8 Luma im) as [e2| |] eqn:EE; [|discriminate E2|discriminate E2]. exists e1, e2, im. split; [repeat split; cbn; lia|]. split; [repeat constructor; unfold is_sample, smax, u8_max; lia|]. split; [exact E1|]. split; [exact EE|].
  exists (skipn (length (bw_out (je_w e1))) (bw_out (je_w e2))). rewrite !andb_true_iff in E2. destruct E2 as ((A & B) & C). apply leqb_eq in A. clear E1 EE. split; [clear B C; set (n := length _) in *; rewrite <- (firstn_skipn n (bw_out (je_w e2))) at 1; rewrite A; reflexivity|]. split; [destruct (read_jpeg (bw_out (je_w e1))); [discriminate|discriminate B]|destruct (read_jpeg (skipn _ _)); [discriminate C|reflexivity]].
Qed.
Print Assumptions C47_second_image_refuted.
(** nor for 16-bit colour images: the header announces three components, the scan has one.  (1 x 1 pixel (100, 0, 0).) *)
Theorem C47_rgb16_refuted : exists e im, wf im /\ Forall (is_pixel U16 Rgb) (px im) /\ encode_image (jenc_new [] 90) U16 Rgb im = Ok e /\ read_jpeg (bw_out (je_w e)) = None.
Proof.
  set (im := mkImg 1 1 [[100; 0; 0]]). assert (E2 : match encode_image (jenc_new [] 90) U16 Rgb im with Ok e => match read_jpeg (bw_out (je_w e)) with Some _ => false | None => true end | _ => false end = true) by (vm_compute; reflexivity).
  destruct (encode_image (jenc_new [] 90) U16 Rgb im) as [e| |] eqn:EE; [|discriminate E2|discriminate E2]. exists e, im. split; [repeat split; cbn; lia|]. split; [repeat constructor; unfold is_sample, smax, u16_max; lia|]. split; [exact EE|]. clear EE. destruct (read_jpeg _); [discriminate E2|reflexivity].
Qed.
Print Assumptions C47_rgb16_refuted.
Lemma gray_panics e out q0 q1 t im : je_w e = bw_new out -> je_tables e = (q0, q1) -> zlen q0 = 64 -> zlen (je_icc e) <= 65519 * 255 -> iw im <= 65535 -> ih im <= 65535 -> (forall s, encode_gray s t Luma im q0 = Panic) -> encode_image e t Luma im = Panic.
Proof.
  intros EW ET TQ LI Hw Hh P. unfold encode_image. rewrite EW, ET. change ((nch Luma =? 1) || (nch Luma =? 2)) with true. cbv iota zeta. change (firstn (Z.to_nat 1) components) with [(1, 0)].
  rewrite write_segment_ok by (rewrite jfif_len; lia). cbn [bind]. rewrite write_icc_ok by exact LI. cbn [bind]. replace ((u16_max <? iw im) || (u16_max <? ih im)) with false by (unfold u16_max; lia).
  rewrite write_segment_ok by (vm_compute; discriminate). cbn [bind]. rewrite qseg_ok by (try exact TQ; lia). cbn [bind]. rewrite write_segment_ok by (rewrite zlen_cons, zlen_in_zigzag; lia). cbn [bind]. change (1 =? 1) with true. change (1 =? 3) with false. cbv iota. cbn [bind].
  rewrite huff_ldc. cbn [bind]. rewrite write_segment_ok by (vm_compute; discriminate). rewrite huff_lac. cbn [bind]. rewrite write_segment_ok by (vm_compute; discriminate). cbn [bind]. rewrite write_segment_ok by (vm_compute; discriminate). cbn [bind].
  replace (is_rgb8 t Luma) with false by (destruct t; reflexivity). rewrite P. reflexivity.
Qed.
(** and a 16-bit grey image with a sample above 255 panics *)
Theorem C47_grey16_refuted out quality v : 256 <= v <= 65535 -> encode_image (jenc_new out quality) U16 Luma (mkImg 1 1 [[v]]) = Panic.
Proof.
  intros H. destruct (new_tables out quality) as (q0 & q1 & ET & (T0 & _) & _). apply (gray_panics (jenc_new out quality) out q0 q1 U16 (mkImg 1 1 [[v]]) eq_refl ET T0); [discriminate|cbn; lia|cbn; lia|]. intros s.
  unfold encode_gray. cbn [iw ih]. change (step_by 1 8) with (Ok [0]). cbn [bind foldM].
  assert (EB : copy_block_gray U16 Luma (mkImg 1 1 [[v]]) 0 0 = Panic). { unfold copy_block_gray. change block_coords with ((0, 0) :: skipn 1 (coords 8 8)). cbn [map_res fst snd]. change (pixel_at_or_near (mkImg 1 1 [[v]]) (0 + 0) (0 + 0)) with (@Ok (list Z) [v]). cbn [bind from_color from_primitive]. unfold to_u8. replace ((0 <=? v) && (v <=? 255)) with false by lia. reflexivity. }
  rewrite EB. reflexivity.
Qed.
Print Assumptions C47_grey16_refuted.

(** ** C49: blocks and edges *)
(** every pixel of the image has exactly one place: one block and one position in it *)
Theorem C49_cover w h x y : 0 <= x < w -> 0 <= y < h ->
  exists o c, In o (block_origins w h) /\ In c (coords 8 8) /\ fst o + fst c = x /\ snd o + snd c = y /\
    forall o' c', In o' (block_origins w h) -> In c' (coords 8 8) -> fst o' + fst c' = x -> snd o' + snd c' = y -> o' = o /\ c' = c.
Proof.
  intros Hx Hy. exists (8 * (x / 8), 8 * (y / 8)), (x mod 8, y mod 8). cbn [fst snd]. split; [|split; [|split; [|split]]].
  - unfold block_origins. apply in_map_iff. exists (x / 8, y / 8). split; [reflexivity|]. apply In_coords. zdm.
  - apply In_coords. zdm.
  - zdm.
  - zdm.
  - intros [a b] [i j] Ho Hc. unfold block_origins in Ho. apply in_map_iff in Ho. destruct Ho as ([bx by_] & E & Ho). pose proof (f_equal fst E) as Ea. pose proof (f_equal snd E) as Eb. cbn [fst snd] in Ea, Eb. subst a b. clear E. apply In_coords in Hc. cbn [fst snd]. intros E1 E2. assert (x / 8 = bx) by zdm. assert (y / 8 = by_) by zdm. assert (x mod 8 = i) by zdm. assert (y mod 8 = j) by zdm. split; congruence.
Qed.
Print Assumptions C49_cover.
Lemma origins_NoDup w h : NoDup (block_origins w h).
Proof. unfold block_origins. apply NoDup_map_inj; [intros [a b] [c d] _ _ E; pose proof (f_equal fst E) as Ea; pose proof (f_equal snd E) as Eb; cbn [fst snd] in Ea, Eb; f_equal; lia|apply NoDup_coords]. Qed.
(** each block is processed once *)
Theorem C49_blocks w h : 0 <= w -> 0 <= h -> NoDup (block_origins w h) /\ zlen (block_origins w h) = ((w + 7) / 8) * ((h + 7) / 8) /\ (forall o, In o (block_origins w h) -> 0 <= fst o < w /\ 0 <= snd o < h /\ fst o mod 8 = 0 /\ snd o mod 8 = 0).
Proof.
  intros Hw Hh. split; [apply origins_NoDup|]. split; [unfold block_origins; rewrite zlen_map; apply zlen_coords; apply Z.div_pos; lia|]. intros o Ho. pose proof (origins_in w h o Hw Hh Ho) as (A & B). unfold block_origins in Ho. apply in_map_iff in Ho. destruct Ho as ([a b] & <- & _). cbn [fst snd] in *. repeat split; try lia; rewrite Z.mul_comm; apply Z.mod_mul; lia.
Qed.
Print Assumptions C49_blocks.
(** position (i, j) of the block at (x0, y0) holds the pixel there, or, beyond an edge, the nearest pixel of the image:
    no pixel is nearer to (x0 + i, y0 + j) *)
Theorem C49_samples {P} (f : P -> Z) (im : img P) o i j : wf im -> In o (block_origins (iw im) (ih im)) -> 0 <= i < 8 -> 0 <= j < 8 ->
  exists x y p, pixel im x y = Some p /\ zget (block_samples f im o) (8 * j + i) = Some (f p) /\
    (fst o + i < iw im -> x = fst o + i) /\ (snd o + j < ih im -> y = snd o + j) /\
    (forall x' y', 0 <= x' < iw im -> 0 <= y' < ih im -> Z.abs (fst o + i - x) <= Z.abs (fst o + i - x') /\ Z.abs (snd o + j - y) <= Z.abs (snd o + j - y')).
Proof.
  intros W Ho Hi Hj. destruct (origins_in (iw im) (ih im) o ltac:(apply W) ltac:(apply W) Ho) as (A & B). exists (Z.min (fst o + i) (iw im - 1)), (Z.min (snd o + j) (ih im - 1)).
  destruct (pixel_in im (Z.min (fst o + i) (iw im - 1)) (Z.min (snd o + j) (ih im - 1)) W ltac:(lia) ltac:(lia)) as (p & E). exists p. split; [exact E|]. split; [|split; [lia|split; [lia|intros; lia]]].
  unfold block_samples. rewrite zget_map. replace (8 * j + i) with (j * 8 + i) by lia. rewrite zget_coords by lia. assert (Ei : (j * 8 + i) mod 8 = i) by zdm. assert (Ej : (j * 8 + i) / 8 = j) by zdm. rewrite Ei, Ej. cbn [option_map fst snd]. rewrite E. reflexivity.
Qed.
Print Assumptions C49_samples.
(** and this is what the encoder's block copies produce: for grey images channel 0, for colour images Y, Cb, Cr *)
Theorem C49_copy_grey k im o : k = Luma \/ k = LumaA -> wf im -> Forall (is_pixel U8 k) (px im) -> In o (block_origins (iw im) (ih im)) -> copy_block_gray U8 k im (fst o) (snd o) = Ok (block_samples (chan 0) im o).
Proof. exact (copy_block_gray_ok k im o). Qed.
Print Assumptions C49_copy_grey.
Theorem C49_copy_colour k im o : k = Rgb \/ k = Rgba -> wf im -> Forall (is_pixel U8 k) (px im) -> In o (block_origins (iw im) (ih im)) -> exists b, copy_block_ycbcr U8 k im (fst o) (snd o) = Ok b /\
  map (fun c => fst (fst c)) b = block_samples (fun p => fst (fst (ycbcr (chan 0 p) (chan 1 p) (chan 2 p)))) im o /\ map (fun c => snd (fst c)) b = block_samples (fun p => snd (fst (ycbcr (chan 0 p) (chan 1 p) (chan 2 p)))) im o /\ map snd b = block_samples (fun p => snd (ycbcr (chan 0 p) (chan 1 p) (chan 2 p))) im o.
Proof. exact (copy_block_ycbcr_ok k im o). Qed.
Print Assumptions C49_copy_colour.
Example C49_example : block_origins 9 8 = [(0, 0); (8, 0)] /\ firstn 8 (block_samples (chan 0) (mkImg 9 1 (map (fun i => [i]) (zrange 0 9))) (8, 0)) = repeat 8 8.
Proof. split; reflexivity. Qed.

(** ** C27: what the encoder writes is recognised as JPEG *)
Theorem C27_jpeg_output_recognised quality x y u icc k im e : wf im -> Forall (is_pixel U8 k) (px im) -> iw im <= 65535 -> ih im <= 65535 -> zlen icc <= 65519 * 255 ->
  encode_image (encoder [] quality (x, y, u) icc) U8 k im = Ok e -> bytes (bw_out (je_w e)) -> Formats.guess_format (bw_out (je_w e)) = Some Formats.Jpeg.
Proof.
  intros W F Hw Hh LI E B. destruct (C48_jfif_header [] quality x y u icc k im W F Hw Hh LI) as (e' & rest & E' & O). rewrite E in E'. apply Ok_inj in E'. subst e'. rewrite O in *. cbn [app] in *.
  change (?a :: ?b :: ?c :: ?l) with ([a; b; c] ++ l) in *. apply bytes_app in B as [_ B]. apply FormatsProofs.guess_plain; auto.
  - repeat constructor; unfold u8_max; lia.
  - cbn. tauto.
  - discriminate.
Qed.
Print Assumptions C27_jpeg_output_recognised.
