(** Model of the adapters between this crate's ImageDecoder / ImageEncoder traits and the external codec crates for
    PCX (src/codecs/pcx.rs), JPEG decoding (src/codecs/jpeg/decoder.rs), WebP (src/codecs/webp), QOI (src/codecs/qoi.rs)
    and AVIF encoding (src/codecs/avif/encoder.rs).  The external crates (pcx, zune-jpeg, image-webp, qoi, ravif) are
    parameters: what they return is arbitrary. *)
From Verif Require Import Base Limits Orient Delay ColorType GenImage Buffer Color Tiff.
Local Open Scope Z_scope.

(** &mut buf[off..off + new.len()] overwritten *)
Definition write_at (buf : list Z) (off : Z) (new : list Z) : res (list Z) :=
  if (0 <=? off) && (off + zlen new <=? zlen buf) then Ok (zsplice buf off new) else Panic.
(** l[i] *)
Definition index {A} (l : list A) (i : Z) : res A := match zget l i with Some a => Ok a | None => Panic end.

(** ** PCX *)
(** what the pcx crate answers: its header and, row by row, the result of next_row_rgb / next_row_paletted (a full row when it is Ok), then the palette *)
Record pcx := mkPcx { p_w : Z; p_h : Z; p_planes : Z; p_depth : Z; p_palette_len : option Z; p_row : Z -> res (list Z); p_palette : res (list Z) }.
(** new: pcx.rs:33-38; inner.width() and inner.height() are u16 and u32::from is exact *)
Definition pcx_dimensions (d : pcx) : Z * Z := (p_w d, p_h d).
(** color_type: pcx.rs:72-74 *)
Definition pcx_color_type (d : pcx) : ctype := CRgb8.
(** original_color_type: pcx.rs:76-99; [paletted] = inner.is_paletted() *)
Definition pcx_original (paletted : bool) (d : pcx) : res ectype :=
  if paletted then Ok (XUnknown (p_depth d)) else
  let p := p_planes d in let b := p_depth d in
  if (p =? 1) && (b =? 1) then Ok XL1 else if (p =? 1) && (b =? 2) then Ok XL2 else
  if (p =? 1) && (b =? 4) then Ok XL4 else if (p =? 1) && (b =? 8) then Ok XL8 else
  if (p =? 3) && (b =? 1) then Ok XRgb1 else if (p =? 3) && (b =? 2) then Ok XRgb2 else
  if (p =? 3) && (b =? 4) then Ok XRgb4 else if (p =? 3) && (b =? 8) then Ok XRgb8 else
  if (p =? 4) && (b =? 1) then Ok XRgba1 else if (p =? 4) && (b =? 2) then Ok XRgba2 else
  if (p =? 4) && (b =? 4) then Ok XRgba4 else if (p =? 4) && (b =? 8) then Ok XRgba8 else Panic.
(** the inner loop over the pixels: pcx.rs:138-147 (the three writes of a pixel are one write here) *)
Definition pcx_pixel (w : Z) (pal_buf palette : list Z) (buf : list Z) (ij : Z * Z) : res (list Z) :=
  let '(i, j) := ij in
  pixel <- index pal_buf (i * w + j) ;;
  r <- index palette (pixel * 3) ;;
  g <- index palette (pixel * 3 + 1) ;;
  b <- index palette (pixel * 3 + 2) ;;
  write_at buf (i * w * 3 + j * 3) [r; g; b].
(** read_image: pcx.rs:101-152 *)
Definition pcx_read (d : pcx) (buf : list Z) : res (list Z) :=
  t <- total_bytes (p_w d) (p_h d) (pcx_color_type d) ;;
  if negb (zlen buf =? t) then Panic else
  let height := p_h d in
  let width := p_w d in
  match p_palette_len d with
  | None => foldM (fun buf i => row <- p_row d i ;; write_at buf (i * 3 * width) row) (zrange 0 height) buf
  | Some n =>
      pal_buf <- foldM (fun pb i => row <- p_row d i ;; write_at pb (i * width) row) (zrange 0 height) (repeat 0 (Z.to_nat (height * width))) ;;
      palette <- p_palette d ;;
      foldM (pcx_pixel width pal_buf palette) (flat_map (fun i => map (fun j => (i, j)) (zrange 0 width)) (zrange 0 height)) buf
  end.

(** ** the orientation cache of the JPEG and WebP decoders *)
(** the value exif_metadata stores: jpeg/decoder.rs:88-92, webp/decoder.rs:76-80 *)
Definition cached_orientation (exif : option (list Z)) : orientation :=
  match obind exif from_exif_chunk with Some o => o | None => NoTransforms end.
(** calls on a decoder that read or write the cache; [r]: what the external crate answers should it be asked for the Exif chunk in this call *)
Inductive mop := MExif (r : res (option (list Z))) | MOrientation (r : res (option (list Z))).
Inductive mout := OExif (r : res (option (list Z))) | OOrientation (r : res orientation).
(** exif_metadata: jpeg/decoder.rs:79-95, webp/decoder.rs:70-83 *)
Definition exif_metadata (cache : option orientation) (r : res (option (list Z))) : option orientation * res (option (list Z)) :=
  match r with Ok e => (Some (cached_orientation e), Ok e) | _ => (cache, r) end.
(** orientation: jpeg/decoder.rs:97-103, webp/decoder.rs:85-91 *)
Definition mstep (cache : option orientation) (o : mop) : option orientation * mout :=
  match o with
  | MExif r => let '(c, v) := exif_metadata cache r in (c, OExif v)
  | MOrientation r =>
      match cache with
      | Some o => (cache, OOrientation (Ok o))
      | None => let '(c, v) := exif_metadata cache r in
                (c, OOrientation (_ <- v ;; match c with Some o => Ok o | None => Panic end))
      end
  end.
Fixpoint mrun (cache : option orientation) (os : list mop) : option orientation * list mout :=
  match os with
  | [] => (cache, [])
  | o :: os' => let '(c, v) := mstep cache o in let '(c', vs) := mrun c os' in (c', v :: vs)
  end.

(** ** JPEG decoding *)
(** zune_core's colour spaces; [ZOther]: any other than the four named *)
Inductive zspace := ZRGB | ZRGBA | ZLuma | ZLumaA | ZOther (n : Z).
(** to_supported_color_space: jpeg/decoder.rs:155-162 *)
Definition to_supported (s : zspace) : zspace :=
  match s with ZRGB | ZRGBA | ZLuma | ZLumaA => s | ZOther _ => ZRGB end.
(** ColorType::from_jpeg: jpeg/decoder.rs:139-152 *)
Definition from_jpeg (s : zspace) : res ctype :=
  match to_supported s with
  | ZRGB => Ok CRgb8 | ZRGBA => Ok CRgba8 | ZLuma => Ok CL8 | ZLumaA => Ok CLa8 | ZOther _ => Panic end.
(** struct JpegDecoder: jpeg/decoder.rs:15-25 (the input is the parameter behind the zune answers; the orientation cache is above) *)
Record jdec := mkJ { j_space : zspace; j_w : Z; j_h : Z; j_limits : limits }.
Inductive zerr := ZUnsupported | ZLarge | ZError.
Inductive zres (A : Type) := ZOk (a : A) | ZErr (e : zerr).
Arguments ZOk {A} a.
Arguments ZErr {A} e.
(** ImageError::from_jpeg: jpeg/decoder.rs:185-197 *)
Definition jpeg_err (e : zerr) : err := match e with ZUnsupported => EUnsupported | ZLarge => ELimits | ZError => EDecoding end.
Definition jpeg_res {A} (r : zres A) : res A := match r with ZOk a => Ok a | ZErr e => Err (jpeg_err e) end.
(** new: jpeg/decoder.rs:29-57; [hdr]: decode_headers followed by dimensions() and get_output_colorspace() *)
Definition jpeg_new (hdr : zres (Z * Z * zspace)) : res jdec :=
  '(w, h, s) <- jpeg_res hdr ;;
  if (u16_max <? w) || (u16_max <? h) then Panic else Ok (mkJ s w h no_limits).
(** set_limits: jpeg/decoder.rs:125-131; Limits::check_support (image_reader/mod.rs:74-76) is Ok(()) *)
Definition jpeg_set_limits (d : jdec) (l : limits) : jdec * res unit :=
  match check_dimensions l (j_w d) (j_h d) with
  | Ok _ => (mkJ (j_space d) (j_w d) (j_h d) l, Ok tt)
  | r => (d, r)
  end.
Fixpoint jpeg_limits_run (d : jdec) (ls : list limits) : jdec :=
  match ls with [] => d | l :: ls' => jpeg_limits_run (fst (jpeg_set_limits d l)) ls' end.
(** the options of the zune decoder: jpeg/decoder.rs:164-182 *)
Record zopts := mkZ { z_space : zspace; z_maxw : Z; z_maxh : Z }.
Definition or_max (o : option Z) : Z := match o with Some v => v | None => u64_max end.
Definition jpeg_opts (d : jdec) : zopts :=
  mkZ (to_supported (j_space d)) (or_max (max_image_width (j_limits d))) (or_max (max_image_height (j_limits d))).
(** read_image: jpeg/decoder.rs:105-123; [zune o buf]: decode_into(buf) of a decoder with options o, returning the new contents of buf *)
Definition jpeg_read (d : jdec) (zune : zopts -> list Z -> zres (list Z)) (buf : list Z) : res (list Z) :=
  c <- from_jpeg (j_space d) ;;
  t <- total_bytes (j_w d) (j_h d) c ;;
  if negb (zlen buf =? t) then Err EDecoding else jpeg_res (zune (jpeg_opts d) buf).

(** ** WebP decoding *)
Inductive werr := WIo | WNoMoreFrames | WError.
Inductive wres (A : Type) := WOk (a : A) | WErr (e : werr).
Arguments WOk {A} a.
Arguments WErr {A} e.
(** from_webp_decode: webp/decoder.rs:143-148; an IoError is represented by [EEof] *)
Definition webp_err (e : werr) : err := match e with WIo => EEof | _ => EDecoding end.
Record wdec := mkW { w_w : Z; w_h : Z; w_alpha : bool; w_frames : Z }.
(** color_type: webp/decoder.rs:44-50 *)
Definition webp_color_type (d : wdec) : ctype := if w_alpha d then CRgba8 else CRgb8.
(** read_image: webp/decoder.rs:52-58 *)
Definition webp_read (d : wdec) (inner : list Z -> wres (list Z)) (buf : list Z) : res (list Z) :=
  t <- total_bytes (w_w d) (w_h d) (webp_color_type d) ;;
  if negb (zlen buf =? t) then Panic else
  match inner buf with WOk b => Ok b | WErr e => Err (webp_err e) end.
(** animation::Frame: its offset, its delay and its pixels *)
Record frame := mkFrame { f_left : Z; f_top : Z; f_delay : ratio; f_px : img (list Z) }.
(** FramesInner::next: webp/decoder.rs:103-133; [ans]: the answer of inner.read_frame, the new contents of the buffer and the delay in ms *)
Definition webp_next (d : wdec) (current : Z) (ans : wres (list Z * Z)) : Z * res (option (res frame)) :=
  if current =? w_frames d then (current, Ok None) else
  (current + 1,
   if w_alpha d then
     im <- bnew 4 0 (w_w d) (w_h d) ;;
     match ans with
     | WOk (px, delay) => dl <- from_numer_denom_ms delay 1 ;; Ok (Some (Ok (mkFrame 0 0 dl (to_img 4 (mkBuf (bw im) (bh im) px)))))
     | WErr WNoMoreFrames => Ok None
     | WErr e => Ok (Some (Err (webp_err e)))
     end
   else
     im <- bnew 3 0 (w_w d) (w_h d) ;;
     match ans with
     | WOk (px, delay) => im' <- convert U8 U8 Rgb Rgba (to_img 3 (mkBuf (bw im) (bh im) px)) ;;
                          dl <- from_numer_denom_ms delay 1 ;; Ok (Some (Ok (mkFrame 0 0 dl im')))
     | WErr WNoMoreFrames => Ok None
     | WErr e => Ok (Some (Err (webp_err e)))
     end).
(** n calls of next on the iterator; [ans k]: the answer of the k-th call of inner.read_frame *)
Fixpoint webp_run (d : wdec) (ans : Z -> wres (list Z * Z)) (current : Z) (n : nat) : list (res (option (res frame))) :=
  match n with O => [] | S n' => let '(c, v) := webp_next d current (ans current) in v :: webp_run d ans c n' end.

(** ** QOI and WebP encoding *)
(** the outcome of writing an image: rejected by the adapter, or the external encoder called with these arguments *)
(** write_image: qoi.rs:69-101; [inner]: qoi::encode_to_vec, None when it fails *)
Definition qoi_write (inner : list Z -> Z -> Z -> option (list Z)) (buf : list Z) (w h : Z) (c : ectype) : res (list Z) :=
  match c with
  | XRgba8 | XRgb8 =>
      n <- buffer_size c w h ;;
      if negb (n =? zlen buf) then Panic else
      match inner buf w h with Some out => Ok out | None => Err EEncoding end
  | _ => Err EEncoding
  end.
(** read_image of the QOI decoder: qoi.rs:37-40 *)
Definition qoi_read (inner : list Z -> option (list Z)) (buf : list Z) : res (list Z) :=
  match inner buf with Some b => Ok b | None => Err EDecoding end.
(** image_webp::ColorType *)
Inductive wcolor := WL8 | WLa8 | WRgb8 | WRgba8.
(** encode: webp/encoder.rs:48-82 (from_webp_encode: 103-108); an io error of [inner] is [true], any other [false] *)
Definition webp_write (inner : list Z -> Z -> Z -> wcolor -> list Z + bool) (buf : list Z) (w h : Z) (c : ectype) : res (list Z) :=
  n <- buffer_size c w h ;;
  if negb (n =? zlen buf) then Panic else
  let go t := match inner buf w h t with inl out => Ok out | inr true => Err EEof | inr false => Err EEncoding end in
  match c with
  | XL8 => go WL8 | XLa8 => go WLa8 | XRgb8 => go WRgb8 | XRgba8 => go WRgba8
  | _ => Err EUnsupported
  end.

(** ** AVIF encoding *)
(** what is handed to ravif: an RGB or an RGBA image, as its pixels *)
Inductive avif_input := ARgb (w h : Z) (px : list (list Z)) | ARgba (w h : Z) (px : list (list Z)).
(** try_from_raw: avif/encoder.rs:149-159 *)
Definition try_from_raw (k : kind) (data : list Z) (w h : Z) : res (ibuf Z) :=
  match from_raw (nch k) w h data with Some b => Ok b | None => Err EParameter end.
(** convert_into: avif/encoder.rs:162-174; image.convert() allocates the new image first (buffer.rs:1401-1402) *)
Definition convert_into (S : sty) (k : kind) (b : ibuf Z) : res avif_input :=
  _ <- bnew 4 0 (bw b) (bh b) ;;
  im <- convert S U8 k Rgba (to_img (nch k) b) ;;
  Ok (ARgba (bw b) (bh b) (px im)).
(** cast_buffer::<u16>: avif/encoder.rs:179-208; [aligned] is whether the address is even: when it is not, the bytes are copied *)
Definition native (big : bool) (p : list Z) : Z :=
  match p with [a; b] => if big then a * 256 + b else b * 256 + a | _ => 0 end.
Definition cast_buffer (big aligned : bool) (buf : list Z) : res (list Z) :=
  if aligned then (if zlen buf mod 2 =? 0 then Ok (map (native big) (chunks_exact 2 buf)) else Err EParameter)
  else if negb (zlen buf mod 2 =? 0) then Err EParameter
  else Ok (map (native big) (chunks_exact 2 buf)).
(** encode_as_img: avif/encoder.rs:141-284 *)
Definition avif_direct (k : kind) (data : list Z) (w h : Z) (f : list (list Z) -> avif_input) : res avif_input :=
  b <- try_from_raw k data w h ;;
  p <- pixels (nch k) b ;;
  if pixels_len (nch k) p =? 0 then Err EParameter else Ok (f (chunks_exact (nch k) data)).
Definition avif_u8 (k : kind) (data : list Z) (w h : Z) : res avif_input :=
  b <- try_from_raw k data w h ;; convert_into U8 k b.
Definition avif_u16 (big aligned : bool) (k : kind) (data : list Z) (w h : Z) : res avif_input :=
  s <- cast_buffer big aligned data ;; b <- try_from_raw k s w h ;; convert_into U16 k b.
Definition encode_as_img (big aligned : bool) (data : list Z) (w h : Z) (c : ectype) : res avif_input :=
  match c with
  | XRgb8 => avif_direct Rgb data w h (ARgb w h)
  | XRgba8 => avif_direct Rgba data w h (ARgba w h)
  | XL8 => avif_u8 Luma data w h
  | XLa8 => avif_u8 LumaA data w h
  | XL16 => avif_u16 big aligned Luma data w h
  | XLa16 => avif_u16 big aligned LumaA data w h
  | XRgb16 => avif_u16 big aligned Rgb data w h
  | XRgba16 => avif_u16 big aligned Rgba data w h
  | _ => Err EUnsupported
  end.
(** write_image: avif/encoder.rs:103-132; [inner]: the ravif encoder, None when it fails *)
Definition avif_write (inner : avif_input -> option (list Z)) (big aligned : bool) (data : list Z) (w h : Z) (c : ectype) : res (list Z) :=
  n <- buffer_size c w h ;;
  if negb (n =? zlen data) then Panic else
  i <- encode_as_img big aligned data w h c ;;
  match inner i with Some out => Ok out | None => Err EEncoding end.
(** new_with_speed_quality: avif/encoder.rs:66-78; the speed and quality handed to ravif *)
Definition avif_options (speed quality : Z) : Z * Z := (Z.min speed 10, Z.min quality 100).
