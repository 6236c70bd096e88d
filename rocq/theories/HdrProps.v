(** C43, C44: the Radiance HDR codec at the level of RGBE pixels. *)
From Verif Require Import Base BaseLemmas ListLemmas ListMore Text Formats FormatsProofs GenImage Hdr HdrProofs HdrProofs2 HdrProofs3.
Local Open Scope Z_scope.

(** ** C43 *)
(** A component run-length encoded by rle_compress, followed by any bytes, decodes to the same
    component, consuming exactly the encoded bytes: every non-empty byte list, every component. *)
Theorem C43_component_roundtrip : forall k data buf rest, data <> [] -> zlen buf = zlen data ->
  exists enc, rle_compress data = Ok enc /\ (bytes data -> bytes enc) /\
    exists out, decode_component k (zlen data) buf (enc ++ rest) = Ok (out, rest) /\
      zlen out = zlen data /\
      forall i p v, zget buf i = Some p -> zget data i = Some v -> zget out i = Some (setc k p v).
Proof.
  intros k data buf rest Hd Hb. destruct (rle_compress_ok data Hd) as (enc & A & B & C).
  exists enc. split; [exact A|]. split; [exact B|].
  exists (zipset k buf data). rewrite C, set_run_all by lia. cbn [bind]. split; [reflexivity|].
  split; [rewrite zlen_zipset; lia|]. intros i p v. apply zget_zipset.
Qed.
Print Assumptions C43_component_roundtrip.

(** Encoding then decoding returns the dimensions and exactly the first w*h pixels, in the
    run-length coded range of widths *)
Theorem C43_file_roundtrip_rle : forall (T : Type) (f : rgbe -> T) fl m w h px,
  8 <= w <= 32767 -> is_u32 h -> w * h <= zlen px -> w * h * 3 <= u64_max ->
  exists file, encode_pixels px w h = Ok file /\
    forall trailing, hdr_decode fl f m (file ++ trailing) = Ok (w, h, map f (firstn (Z.to_nat (w * h)) px)).
Proof. exact @file_roundtrip_rle. Qed.
Print Assumptions C43_file_roundtrip_rle.

(** At other widths pixels are written flat.  The round trip then holds when no pixel is the
    repeat marker (1,1,1,_) and no scanline starts with (2,2,<128,_) *)
Theorem C43_file_roundtrip_flat : forall (T : Type) (f : rgbe -> T) fl m w h px,
  is_u32 w -> is_u32 h -> 0 < w < 8 \/ 32768 < w -> zlen px = w * h -> w * h * 3 <= u64_max ->
  (forall p, In p px -> ~ (p0 p = 1 /\ p1 p = 1 /\ p2 p = 1)) ->
  (forall y p, 0 <= y < h -> zget px (y * w) = Some p -> ~ (p0 p = 2 /\ p1 p = 2 /\ p2 p < 128)) ->
  exists file, encode_pixels px w h = Ok file /\
    forall trailing, hdr_decode fl f m (file ++ trailing) = Ok (w, h, map f px).
Proof. exact @file_roundtrip_flat. Qed.
Print Assumptions C43_file_roundtrip_flat.

(** in particular for normalised pixels: largest mantissa >= 128, or all mantissas zero *)
Theorem C43_file_roundtrip_normalised : forall (T : Type) (f : rgbe -> T) fl m w h px,
  is_u32 w -> is_u32 h -> 0 < w -> w <> 32768 -> zlen px = w * h -> w * h * 3 <= u64_max ->
  (forall p, In p px -> 128 <= Z.max (p0 p) (Z.max (p1 p) (p2 p)) \/ (p0 p = 0 /\ p1 p = 0 /\ p2 p = 0)) ->
  exists file, encode_pixels px w h = Ok file /\
    forall trailing, hdr_decode fl f m (file ++ trailing) = Ok (w, h, map f px).
Proof.
  intros T f fl m w h px Hw Hh H0 Hn Hl Hs HN.
  destruct (Z_lt_dec w 8); [|destruct (Z_lt_dec 32768 w)].
  1,2: apply C43_file_roundtrip_flat; auto; try lia;
    [intros p Hp (? & ? & ?); destruct (HN p Hp); lia
    |intros y p Hy E (? & ? & ?); assert (Hp : In p px) by (eapply zget_In; eauto); destruct (HN p Hp); lia].
  destruct (C43_file_roundtrip_rle T f fl m w h px ltac:(lia) Hh ltac:(lia) Hs) as (file & A & B).
  exists file. split; [exact A|]. intros tr. rewrite B. f_equal. f_equal. f_equal. apply firstn_all2. unfold zlen in Hl. lia.
Qed.
Print Assumptions C43_file_roundtrip_normalised.

(** Width 32768 is run-length coded by the encoder, but its marker byte 32768/256 = 128 is not a
    marker for the decoder: no image of that width is read back (its first pixel could only be
    (2,2,128,0)) *)
Theorem C43_width_32768_refuted : forall (T : Type) (f : rgbe -> T) fl m h px file, 0 < h -> is_u32 h -> Forall rgbe_ok px ->
  encode_pixels px 32768 h = Ok file ->
  forall w' h' out, hdr_decode fl f m file = Ok (w', h', out) -> zget out 0 = Some (f (mkRgbe 2 2 128 0)).
Proof. exact @width_32768. Qed.
Print Assumptions C43_width_32768_refuted.
Corollary C43_width_32768_refuted_all : forall fl m h px file p, 0 < h -> is_u32 h -> Forall rgbe_ok px -> 
  encode_pixels px 32768 h = Ok file -> zget px 0 = Some p -> p <> mkRgbe 2 2 128 0 ->
  hdr_decode fl (fun p => p) m file <> Ok (32768, h, firstn (Z.to_nat (32768 * h)) px).
Proof.
  intros fl m h px file p H1 H2 H3 H4 H5 H6 E.
  pose proof (C43_width_32768_refuted _ _ _ _ _ _ _ H1 H2 H3 H4 _ _ _ E) as Q.
  rewrite zget_firstn in Q by lia. rewrite Z2Nat.id in Q by lia. replace (0 <? 32768 * h) with true in Q by lia. congruence.
Qed.

(** the encoder's output is recognised as HDR (C27) *)
Theorem C27_hdr_output : forall w h px file, Forall rgbe_ok px -> is_u32 w -> is_u32 h -> encode_pixels px w h = Ok file ->
  guess_format file = Some Formats.Hdr.
Proof. exact hdr_guess. Qed.
Print Assumptions C27_hdr_output.

(** ** C44 *)
(** For every byte stream and every positive width, the outcome of decoding a scanline does not
    depend on the buffer's previous contents; it is a read/decoding error, or every pixel of the
    scanline is written (nothing beyond) and the unread bytes are a suffix of the stream.  It only
    panics in a build with overflow checks. *)
Theorem C44_scanline_total : forall m w r, 0 < w <= u32_max -> bytes r ->
  (exists e, (e = EEof \/ e = EDecoding) /\ forall buf, zlen buf = w -> read_scanline m buf r = Err e) \/
  (exists out consumed r', zlen out = w /\ r = consumed ++ r' /\
     forall buf, zlen buf = w -> read_scanline m buf r = Ok (out, r')) \/
  (m = Debug /\ forall buf, zlen buf = w -> read_scanline m buf r = Panic).
Proof.
  intros m w r Hw HB. destruct (read_scanline_total m w r Hw HB) as (o & H1 & H2). destruct o as [e| |out r'].
  - left. exists e. split; auto.
  - right. right. split; auto.
  - destruct H2 as [H2 [c Hc]]. right. left. exists out, c, r'. repeat split; auto.
Qed.
Print Assumptions C44_scanline_total.

(** the whole decoder: on every byte stream it returns an error or an image of the stated size *)
Theorem C44_decode_total : forall (T : Type) (f : rgbe -> T) fl m r, bytes r ->
  match hdr_decode fl f m r with
  | Ok (w, h, out) => is_u32 w /\ is_u32 h /\ zlen out = w * h
  | Err e => e = EEof \/ e = EDecoding \/ e = EUnsupported
  | Panic => m = Debug
  end.
Proof. exact @hdr_decode_total. Qed.
Print Assumptions C44_decode_total.

(** eight consecutive repeat markers overflow the multiplier: a panic in a build with overflow
    checks, for every scanline width and any further data *)
Theorem C44_debug_overflow_refuted : forall w a b c d rest buf, 1 < w -> zlen buf = w ->
  a <> 1 -> a <> 2 ->
  read_scanline Debug buf ([a; b; c; d] ++ concat (repeat [1; 1; 1; 0] 8) ++ rest) = Panic.
Proof.
  intros w a b c d rest buf Hw Hb H1 H2. unfold read_scanline. replace (zlen buf =? 0) with false by lia.
  cbn [app read_rgbe bind p0 p1 p2]. replace (a =? 2) with false by lia. cbn [andb].
  unfold decode_old_rle, rl_marker. replace (zlen buf =? 0) with false by lia. cbn [p0 p1 p2].
  replace (a =? 1) with false by lia. cbn [andb].
  pose proof (zlen_zset buf 0 (mkRgbe a b c d)) as Z1. set (bf := zset buf 0 _) in *. clearbody bf.
  set (p := mkRgbe a b c d).
  assert (ST : forall fuel mu r, mu * 256 <= u64_max ->
    old_rle_loop (S fuel) Debug 1 mu p bf (1 :: 1 :: 1 :: 0 :: r) = old_rle_loop fuel Debug 1 (mu * 256) p bf r).
  { intros fuel mu r H. cbn [old_rle_loop]. replace (1 <? zlen bf) with true by lia. cbn [read_rgbe bind].
    change (rl_marker (mkRgbe 1 1 1 0)) with (Some 0). cbv iota. change (us_mul_m Debug 0 mu) with (@Ok Z 0). cbn [bind].
    unfold us_mul_m. replace (mu * 256 <=? u64_max) with true by lia. cbn [bind].
    change (us_add_m Debug 1 0) with (@Ok Z 1). cbn [bind]. replace (1 <=? zlen bf) with true by lia.
    unfold fill. replace (1 + 0 <=? zlen bf) with true by lia. change (Z.to_nat 0) with 0%nat.
    cbn [repeat bind]. f_equal. unfold zsplice. change (zlen (@nil rgbe)) with 0. replace (1 + 0) with 1 by lia.
    cbn [app]. apply firstn_skipn. }
  assert (SP : forall fuel mu r, u64_max < mu * 256 ->
    old_rle_loop (S fuel) Debug 1 mu p bf (1 :: 1 :: 1 :: 0 :: r) = Panic).
  { intros fuel mu r H. cbn [old_rle_loop]. replace (1 <? zlen bf) with true by lia. cbn [read_rgbe bind].
    change (rl_marker (mkRgbe 1 1 1 0)) with (Some 0). cbv iota. change (us_mul_m Debug 0 mu) with (@Ok Z 0). cbn [bind].
    unfold us_mul_m. replace (mu * 256 <=? u64_max) with false by lia. reflexivity. }
  cbn [repeat concat app length].
  do 7 (rewrite ST by (vm_compute; discriminate)).
  apply SP. vm_compute. reflexivity.
Qed.
Print Assumptions C44_debug_overflow_refuted.

(** ** Non-vacuity *)
Example C43_nonvacuous_rle : exists file,
  encode_pixels (repeat (mkRgbe 1 1 1 7) 200 ++ map (fun i => mkRgbe 2 2 (i mod 100) i) (zrange 0 56)) 128 2 = Ok file /\
  (zlen file < 4 * 256) /\
  hdr_decode (fun _ _ => true) (fun p => p) Release file
   = Ok (128, 2, repeat (mkRgbe 1 1 1 7) 200 ++ map (fun i => mkRgbe 2 2 (i mod 100) i) (zrange 0 56)).
Proof. eexists. split; [vm_compute; reflexivity|]. split; [vm_compute; reflexivity|vm_compute; reflexivity]. Qed.
Example C43_nonvacuous_flat : exists file, encode_pixels [mkRgbe 200 3 4 9; mkRgbe 2 2 250 1] 2 1 = Ok file /\
  hdr_decode (fun _ _ => true) (fun p => p) Debug file = Ok (2, 1, [mkRgbe 200 3 4 9; mkRgbe 2 2 250 1]).
Proof. eexists. split; [vm_compute; reflexivity|vm_compute; reflexivity]. Qed.
Example C44_nonvacuous_old_rle :
  read_scanline Release (repeat (mkRgbe 0 0 0 0) 5) [9;8;7;6; 1;1;1;3; 5;5;5;5; 42] =
    Ok ([mkRgbe 9 8 7 6; mkRgbe 9 8 7 6; mkRgbe 9 8 7 6; mkRgbe 9 8 7 6; mkRgbe 5 5 5 5], [42]).
Proof. vm_compute. reflexivity. Qed.
