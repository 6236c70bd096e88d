(** Model of src/codecs/dxt.rs (S3TC block decompression) and of the container parser src/codecs/dds.rs. *)
From Verif Require Import Base ColorType.
Local Open Scope Z_scope.

(** DxtVariant: dxt.rs:20-57 *)
Inductive dxt := DXT1 | DXT3 | DXT5.
Definition decoded_bytes_per_block (v : dxt) : Z := match v with DXT1 => 48 | _ => 64 end.
Definition encoded_bytes_per_block (v : dxt) : Z := match v with DXT1 => 8 | _ => 16 end.
Definition dxt_color_type (v : dxt) : ctype := match v with DXT1 => CRgb8 | _ => CRgba8 end.

(** dest[off..off + new.len()].copy_from_slice(new) *)
Definition put_slice (d : list Z) (off : Z) (new : list Z) : res (list Z) :=
  if zlen d <? off + zlen new then Panic else Ok (zsplice d off new).

(** enc565_decode: dxt.rs:160-169 (the u16 products are at most 63 * 255) *)
Definition enc565_decode (v : Z) : list Z :=
  let red := Z.land (Z.shiftr v 11) 31 in
  let green := Z.land (Z.shiftr v 5) 63 in
  let blue := Z.land v 31 in
  [wrap_u8 (red * 255 / 31); wrap_u8 (green * 255 / 63); wrap_u8 (blue * 255 / 31)].

(** alpha_table_dxt5: dxt.rs:178-192 (u16 arithmetic; sums at most 7 * 255) *)
Definition alpha_table_dxt5 (a0 a1 : Z) : list Z :=
  if a1 <? a0 then [a0; a1] ++ map (fun i => wrap_u8 (((8 - i) * a0 + (i - 1) * a1) / 7)) (zrange 2 6)
  else [a0; a1] ++ map (fun i => wrap_u8 (((6 - i) * a0 + (i - 1) * a1) / 5)) (zrange 2 4) ++ [0; 255].

(** little-endian value of a slice: the or/shift expressions dxt.rs:205-211 and the rev().fold of dxt.rs:246-249, 269-272 *)
Definition le_fold (l : list Z) : Z := fold_left (fun t b => Z.lor (Z.shiftl t 8) b) (rev l) 0.

(** decode_dxt_colors: dxt.rs:196-240 *)
Definition decode_dxt_colors (source dest : list Z) (is_dxt1 : bool) : res (list Z) :=
  if negb ((zlen source =? 8) && ((zlen dest =? 48) || (zlen dest =? 64))) then Panic (* assert! *)
  else
    let pitch := zlen dest / 16 in
    let color0 := le_fold (zslice source 0 2) in
    let color1 := le_fold (zslice source 2 2) in
    let color_table := le_fold (zslice source 4 4) in
    let c0 := enc565_decode color0 in
    let c1 := enc565_decode color1 in
    let '(c2, c3) :=
      if (color1 <? color0) || negb is_dxt1
      then (map (fun '(a, b) => wrap_u8 ((a * 2 + b + 1) / 3)) (combine c0 c1),
            map (fun '(a, b) => wrap_u8 ((a + b * 2 + 1) / 3)) (combine c0 c1))
      else (map (fun '(a, b) => wrap_u8 ((a + b + 1) / 2)) (combine c0 c1), [0; 0; 0]) in
    foldM (fun d i =>
      match zget [c0; c1; c2; c3] (Z.land (Z.shiftr color_table (i * 2)) 3) with
      | Some c => put_slice d (i * pitch) c
      | None => Panic
      end) (zrange 0 16) dest.

(** decode_dxt5_block: dxt.rs:243-262 *)
Definition decode_dxt5_block (source dest : list Z) : res (list Z) :=
  if negb ((zlen source =? 16) && (zlen dest =? 64)) then Panic (* assert! *)
  else
    let alpha_table := le_fold (zslice source 2 6) in
    match zget source 0, zget source 1 with
    | Some a0, Some a1 =>
        let alphas := alpha_table_dxt5 a0 a1 in
        dest <- foldM (fun d i =>
          match zget alphas (Z.land (Z.shiftr alpha_table (i * 3)) 7) with
          | Some a => put_slice d (i * 4 + 3) [a]
          | None => Panic
          end) (zrange 0 16) dest ;;
        decode_dxt_colors (zslice source 8 8) dest false
    | _, _ => Panic
    end.
(** decode_dxt3_block: dxt.rs:265-282 *)
Definition decode_dxt3_block (source dest : list Z) : res (list Z) :=
  if negb ((zlen source =? 16) && (zlen dest =? 64)) then Panic (* assert! *)
  else
    let alpha_table := le_fold (zslice source 0 8) in
    dest <- foldM (fun d i =>
      put_slice d (i * 4 + 3) [Z.land (wrap_u8 (Z.shiftr alpha_table (i * 4))) 15 * 17]) (zrange 0 16) dest ;;
    decode_dxt_colors (zslice source 8 8) dest false.
(** decode_dxt1_block: dxt.rs:285-288 *)
Definition decode_dxt1_block (source dest : list Z) : res (list Z) :=
  if negb ((zlen source =? 8) && (zlen dest =? 48)) then Panic (* assert! *)
  else decode_dxt_colors source dest true.

Definition decode_block (v : dxt) : list Z -> list Z -> res (list Z) :=
  match v with DXT1 => decode_dxt1_block | DXT3 => decode_dxt3_block | DXT5 => decode_dxt5_block end.
(** decode_dxt1_row, decode_dxt3_row, decode_dxt5_row: dxt.rs:292-353, which differ only in the constants *)
Definition decode_row (v : dxt) (source dest : list Z) : res (list Z) :=
  let enc := encoded_bytes_per_block v in
  let dec := decoded_bytes_per_block v in
  if negb (zlen source mod enc =? 0) then Panic (* assert! *) else
  let block_count := zlen source / enc in
  if zlen dest <? block_count * dec then Panic (* assert! *) else
  '(_, dest) <- foldM (fun '(blk, dest) x =>
     blk <- decode_block v (zslice source (x * enc) enc) blk ;;
     dest <- foldM (fun dest line =>
       put_slice dest ((block_count * line + x) * (dec / 4)) (zslice blk (line * (dec / 4)) (dec / 4))) (zrange 0 4) dest ;;
     Ok (blk, dest)) (zrange 0 block_count) (repeat 0 (Z.to_nat dec), dest) ;;
  Ok dest.

(** DxtDecoder: dxt.rs:60-66 (without the unused row counter); the reader is the list of bytes left *)
Record dxtd := mkDxt { dx_r : list Z; dx_wb : Z; dx_hb : Z; dx_v : dxt }.
(** new: dxt.rs:76-100 *)
Definition dxt_new (r : list Z) (w h : Z) (v : dxt) : res dxtd :=
  if negb (w mod 4 =? 0) || negb (h mod 4 =? 0) then Err EParameter else Ok (mkDxt r (w / 4) (h / 4) v).
Definition scanline_bytes (d : dxtd) : Z := decoded_bytes_per_block (dx_v d) * dx_wb d.
(** read_scanline: dxt.rs:106-125; result: new contents of the slice, remaining input *)
Definition read_scanline (d : dxtd) (r buf : list Z) : res (list Z * list Z) :=
  if negb (zlen buf =? scanline_bytes d) then Panic (* assert_eq! *)
  else
    '(src, r) <- read_exact (encoded_bytes_per_block (dx_v d) * dx_wb d) r ;;
    b <- decode_row (dx_v d) src buf ;;
    Ok (b, r).
(** dimensions: dxt.rs:131-133 *)
Definition dxt_dims (d : dxtd) : Z * Z := (dx_wb d * 4, dx_hb d * 4).
(** read_image: dxt.rs:139-147; the loop runs over buf.chunks_mut(scanline_bytes.max(1)) *)
Definition dxt_read_image (d : dxtd) (buf : list Z) : res (list Z) :=
  t <- total_bytes (fst (dxt_dims d)) (snd (dxt_dims d)) (dxt_color_type (dx_v d)) ;;
  if negb (zlen buf =? t) then Panic (* assert_eq! *)
  else
    let n := Z.max 1 (scanline_bytes d) in
    '(buf, _) <- foldM (fun '(buf, r) j =>
       '(b, r) <- read_scanline d r (zslice buf (j * n) n) ;;
       Ok (zsplice buf (j * n) b, r)) (zrange 0 ((zlen buf + n - 1) / n)) (buf, dx_r d) ;;
    Ok buf.

(** ** DDS container *)
(** PixelFormat::from_reader: dds.rs:119-139; (flags, fourcc) *)
Definition dds_pixel_format (r : list Z) : res (Z * list Z * list Z) :=
  '(size, r) <- read_u32le r ;;
  if negb (size =? 32) then Err EDecoding else
  '(flags, r) <- read_u32le r ;;
  '(fourcc, r) <- read_exact 4 r ;;
  '(_, r) <- read_u32le r ;; '(_, r) <- read_u32le r ;; '(_, r) <- read_u32le r ;; '(_, r) <- read_u32le r ;; '(_, r) <- read_u32le r ;;
  Ok (flags, fourcc, r).
(** Header::from_reader: dds.rs:142-186; flags & (REQUIRED | !VALID) != REQUIRED with REQUIRED = 0x1007, VALID = 0x8A100F *)
Definition dds_header (r : list Z) : res (Z * Z * Z * list Z * list Z) :=
  '(size, r) <- read_u32le r ;;
  if negb (size =? 124) then Err EDecoding else
  '(flags, r) <- read_u32le r ;;
  if negb (Z.land flags (Z.lor 4103 (4294967295 - 9048079)) =? 4103) then Err EDecoding else
  '(height, r) <- read_u32le r ;;
  '(width, r) <- read_u32le r ;;
  '(_, r) <- read_u32le r ;; '(_, r) <- read_u32le r ;; '(_, r) <- read_u32le r ;;
  '(_, r) <- read_exact 44 r ;;
  '(pflags, fourcc, r) <- dds_pixel_format r ;;
  '(_, r) <- read_u32le r ;; '(_, r) <- read_u32le r ;;
  '(_, r) <- read_exact 12 r ;;
  Ok (width, height, pflags, fourcc, r).
(** DX10Header::from_reader and validate: dds.rs:189-239; the dxgi format *)
Definition dds_dx10 (r : list Z) : res (Z * list Z) :=
  '(fmt, r) <- read_u32le r ;; '(dim, r) <- read_u32le r ;; '(misc, r) <- read_u32le r ;; '(arr, r) <- read_u32le r ;; '(misc2, r) <- read_u32le r ;;
  if 132 <? fmt then Err EDecoding
  else if (dim <? 2) || (4 <? dim) then Err EDecoding
  else if negb (misc =? 0) && negb (misc =? 4) then Err EDecoding
  else if (dim =? 4) && negb (arr =? 1) then Err EDecoding
  else if 4 <? misc2 then Err EDecoding
  else Ok (fmt, r).
(** DdsDecoder::new: dds.rs:250-320 *)
Definition dds_new (file : list Z) : res dxtd :=
  '(m, r) <- read_exact 4 file ;;
  if negb (leqb m [68; 68; 83; 32]) then Err EDecoding else
  '(w, h, pflags, fourcc, r) <- dds_header r ;;
  if negb (Z.land pflags 4 =? 0) then
    '(v, r) <-
      (if leqb fourcc [68; 88; 84; 49] then Ok (DXT1, r)
       else if leqb fourcc [68; 88; 84; 51] then Ok (DXT3, r)
       else if leqb fourcc [68; 88; 84; 53] then Ok (DXT5, r)
       else if leqb fourcc [68; 88; 49; 48] then
         '(fmt, r) <- dds_dx10 r ;;
         if (70 <=? fmt) && (fmt <=? 72) then Ok (DXT1, r)
         else if (73 <=? fmt) && (fmt <=? 75) then Ok (DXT3, r)
         else if (76 <=? fmt) && (fmt <=? 78) then Ok (DXT5, r)
         else Err EUnsupported
       else Err EUnsupported) ;;
    o <- check_dimension_overflow w h (ct_bytes (dxt_color_type v)) ;;
    if (o : bool) then Err EUnsupported else dxt_new r w h v
  else Err EUnsupported.
(** the whole decode into a buffer of total_bytes zero bytes: (width, height, colour type, bytes) *)
Definition dds_decode (file : list Z) : res (Z * Z * ctype * list Z) :=
  d <- dds_new file ;;
  let '(w, h) := dxt_dims d in
  t <- total_bytes w h (dxt_color_type (dx_v d)) ;;
  b <- dxt_read_image d (repeat 0 (Z.to_nat t)) ;;
  Ok (w, h, dxt_color_type (dx_v d), b).
