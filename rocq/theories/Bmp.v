(** Model of src/codecs/bmp/decoder.rs and src/codecs/bmp/encoder.rs.  The underlying reader is a Cursor: the whole
    byte list [file]; reading at a position is reading from [skipn pos file], so seeking past the end is allowed and
    reading there is an EOF.  usize is 64 bits.  On an error the contents of the caller's buffer are not modelled. *)
From Verif Require Import Base GenImage ColorType BmpBits.
Local Open Scope Z_scope.

(** ** Decoder *)
(** ImageType, BMPHeaderType, FormatFullBytes: decoder.rs:65-95 *)
Inductive imtype := TPalette | TRGB16 | TRGB24 | TRGB32 | TRGBA32 | TRLE8 | TRLE4 | TBitfields16 | TBitfields32.
Inductive hdrtype := HCore | HInfo | HV2 | HV3 | HV4 | HV5.
Inductive fullfmt := FRGB24 | FRGB32 | FRGBA32 | F888.
(** read_i32::<LittleEndian> *)
Definition read_i32le (r : reader) : res (Z * reader) := '(v, r) <- read_u32le r ;; Ok (wrap_i32 v, r).

(** num_bytes and check_for_overflow: decoder.rs:238-262 *)
Definition check_for_overflow (w h ch : Z) : res unit :=
  if (w <=? 0) || (h <=? 0) then Err EUnsupported
  else if (u64_max <? ch * w) || (u64_max <? ch * w * h) then Err EUnsupported else Ok tt.

(** The fields of BmpDecoder that metadata reading produces: decoder.rs:474-493 (has_loaded_metadata is true after
    construction, indexed_color is false until set_indexed_color) *)
Record bmp := mkBmp {
  b_w : Z; b_h : Z; b_off : Z; b_top_down : bool; b_alpha : bool; b_type : imtype; b_bits : Z;
  b_pal : option (list (list Z)); b_fields : option bitfields; b_indexed : bool }.
(** set_indexed_color: decoder.rs:551-553 *)
Definition set_indexed_color (d : bmp) (v : bool) : bmp :=
  mkBmp (b_w d) (b_h d) (b_off d) (b_top_down d) (b_alpha d) (b_type d) (b_bits d) (b_pal d) (b_fields d) v.
(** num_channels: decoder.rs:926-934 *)
Definition num_channels (d : bmp) : Z := if b_indexed d then 1 else if b_alpha d then 4 else 3.

(** What the DIB header says: width, height, top_down, image type, bit count, colors_used *)
Record dib := mkDib { di_w : Z; di_h : Z; di_td : bool; di_type : imtype; di_bits : Z; di_used : Z }.
Definition num_channels0 (alpha : bool) : Z := if alpha then 4 else 3.
(** read_bitmap_core_header: decoder.rs:584-611; colors_used keeps its initial 0 *)
Definition read_core_header (alpha : bool) (r : reader) : res (dib * reader) :=
  '(w, r) <- read_u16le r ;;
  '(h, r) <- read_u16le r ;;
  _ <- check_for_overflow w h (num_channels0 alpha) ;;
  '(planes, r) <- read_u16le r ;;
  if negb (planes =? 1) then Err EDecoding else
  '(bits, r) <- read_u16le r ;;
  if (bits =? 1) || (bits =? 4) || (bits =? 8) then Ok (mkDib w h false TPalette bits 0, r)
  else if bits =? 24 then Ok (mkDib w h false TRGB24 bits 0, r)
  else Err EDecoding.
(** the match on the compression method: decoder.rs:652-731 *)
Definition image_type_of (alpha : bool) (ty bits : Z) : res imtype :=
  if ty =? 0 then
    if (bits =? 1) || (bits =? 2) || (bits =? 4) || (bits =? 8) then Ok TPalette
    else if bits =? 16 then Ok TRGB16
    else if bits =? 24 then Ok TRGB24
    else if bits =? 32 then Ok (if alpha then TRGBA32 else TRGB32)
    else Err EDecoding
  else if ty =? 1 then (if bits =? 8 then Ok TRLE8 else Err EDecoding)
  else if ty =? 2 then (if bits =? 4 then Ok TRLE4 else Err EDecoding)
  else if ty =? 3 then
    if bits =? 16 then Ok TBitfields16 else if bits =? 32 then Ok TBitfields32 else Err EDecoding
  else if (ty =? 4) || (ty =? 5) || ((11 <=? ty) && (ty <=? 13)) then Err EUnsupported
  else Err EDecoding.
(** read_bitmap_info_header: decoder.rs:617-748 *)
Definition read_info_header (alpha : bool) (r : reader) : res (dib * reader) :=
  '(w, r) <- read_i32le r ;;
  '(h, r) <- read_i32le r ;;
  if w <? 0 then Err EDecoding else
  if (65535 <? w) || (65535 <? h) then Err EDecoding else
  if h =? i32_min then Err EDecoding else
  let td := h <? 0 in
  let h := if td then - h else h in
  _ <- check_for_overflow w h (num_channels0 alpha) ;;
  '(planes, r) <- read_u16le r ;;
  if negb (planes =? 1) then Err EDecoding else
  '(bits, r) <- read_u16le r ;;
  '(ty, r) <- read_u32le r ;;
  if td && negb (ty =? 0) && negb (ty =? 3) then Err EDecoding else
  it <- image_type_of alpha ty bits ;;
  '(_, r) <- read_u32le r ;;
  '(_, r) <- read_u32le r ;;
  '(_, r) <- read_u32le r ;;
  '(used, r) <- read_u32le r ;;
  '(_, r) <- read_u32le r ;;
  Ok (mkDib w h td it bits used, r).
(** read_bitmasks: decoder.rs:750-777; the fields and whether an alpha channel is added *)
Definition read_bitmasks (ht : hdrtype) (it : imtype) (r : reader) : res (option bitfields * bool) :=
  '(rm, r) <- read_u32le r ;;
  '(gm, r) <- read_u32le r ;;
  '(bm, r) <- read_u32le r ;;
  '(am, r) <- (match ht with HV3 | HV4 | HV5 => read_u32le r | _ => Ok (0, r) end) ;;
  match it with
  | TBitfields16 => f <- bfs_from_mask rm gm bm am 16 ;; Ok (Some f, negb (am =? 0))
  | TBitfields32 => f <- bfs_from_mask rm gm bm am 32 ;; Ok (Some f, negb (am =? 0))
  | _ => Ok (None, false)
  end.
(** get_palette_size: decoder.rs:857-871; [1 << bit_count] overflows (panics) beyond 31 *)
Definition get_palette_size (bits used : Z) : res Z :=
  if used =? 0 then (if 63 <? bits then Panic else Ok (2 ^ bits))
  else if 31 <? bits then Panic else if 2 ^ bits <? used then Err EDecoding else Ok used.
(** read_palette: decoder.rs:880-919; the palette, and the number of bytes the stream advanced *)
Definition read_palette (core : bool) (bits used : Z) (r : reader) : res (list (list Z) * Z) :=
  let bpc := if core then 3 else 4 in
  n <- get_palette_size bits used ;;
  let max_length := 256 * bpc in
  let length := n * bpc in
  '(buf, _) <- read_exact (Z.min length max_length) r ;;
  let buf := buf ++ repeat 0 (Z.to_nat (max_length - zlen buf)) in
  p <- foldM (fun p i =>
         match zget buf (bpc * i), zget buf (bpc * i + 1), zget buf (bpc * i + 2) with
         | Some b, Some g, Some r => Ok (p ++ [[r; g; b]])
         | _, _, _ => Panic
         end) (zrange 0 256) [] ;;
  Ok (p, length).
(** read_file_header: decoder.rs:560-579; the data offset *)
Definition read_file_header (r : reader) : res (Z * reader) :=
  '(sig, r) <- read_exact 2 r ;;
  if negb (leqb sig [66; 77]) then Err EDecoding else
  '(_, r) <- read_u32le r ;;
  '(_, r) <- read_u32le r ;;
  read_u32le r.
(** the bitmap header types by size: decoder.rs:786-810 *)
Definition header_type (size : Z) : res hdrtype :=
  if size =? 12 then Ok HCore else if size =? 40 then Ok HInfo else if size =? 52 then Ok HV2
  else if size =? 56 then Ok HV3 else if size =? 108 then Ok HV4 else if size =? 124 then Ok HV5
  else if size <? 12 then Err EDecoding else Err EUnsupported.
(** read_metadata: decoder.rs:779-841, on a fresh decoder whose reader stands at [start];
    [nfh] = no_file_header, [alpha] = add_alpha_channel beforehand *)
Definition read_metadata (file : list Z) (start : Z) (nfh alpha : bool) : res bmp :=
  let r := skipn (Z.to_nat start) file in
  '(off, r) <- (if nfh then Ok (0, r) else read_file_header r) ;;
  let header_offset := if nfh then start else start + 14 in
  '(size, r) <- read_u32le r ;;
  let header_end := header_offset + size in
  ht <- header_type size ;;
  '(d, r) <- (match ht with HCore => read_core_header alpha r | _ => read_info_header alpha r end) ;;
  '(fields, extra) <-
    (match di_type d with TBitfields16 | TBitfields32 => read_bitmasks ht (di_type d) r | _ => Ok (None, false) end) ;;
  let r := skipn (Z.to_nat header_end) file in
  '(pal, pos) <-
    (match di_type d with
     | TPalette | TRLE4 | TRLE8 =>
         '(p, n) <- read_palette (match ht with HCore => true | _ => false end) (di_bits d) (di_used d) r ;;
         Ok (Some p, header_end + n)
     | _ => Ok (None, header_end)
     end) ;;
  Ok (mkBmp (di_w d) (di_h d) (if nfh then pos else off) (di_td d) (alpha || extra) (di_type d) (di_bits d) pal fields false).
(** BmpDecoder::new: decoder.rs:526-530 *)
Definition bmp_new (file : list Z) (start : Z) : res bmp := read_metadata file start false false.
(** new_without_file_header: decoder.rs:535-540 *)
Definition bmp_new_without_file_header (file : list Z) (start : Z) : res bmp := read_metadata file start true false.
(** new_with_ico_format and read_metadata_in_ico_format: decoder.rs:543-547, 845-855 *)
Definition bmp_new_ico (file : list Z) (start : Z) : res bmp :=
  d <- read_metadata file start true true ;;
  Ok (mkBmp (b_w d) (b_h d / 2) (b_off d) (b_top_down d) (b_alpha d) (b_type d) (b_bits d) (b_pal d) (b_fields d) false).

(** *** Pixel data *)
(** for row in buffer.chunks_mut(row_width) (reversed when bottom-up) { func(row)? }: with_rows, decoder.rs:266-293 *)
Definition with_rows (buf : list Z) (w h ch : Z) (top_down : bool) (func : list Z -> reader -> res (list Z * reader)) (r : reader) : res (list Z * reader) :=
  let row_width := ch * w in
  if (u64_max <? row_width) || (u64_max <? row_width * h) then Panic else
  if negb (zlen buf =? row_width * h) then Panic else
  if row_width =? 0 then Panic else
  let rows := chunks_exact row_width buf in
  '(done, r) <- foldM (fun '(done, r) row => '(row, r) <- func row r ;; Ok (done ++ [row], r))
                 (if top_down then rows else rev rows) ([], r) ;;
  Ok (concat (if top_down then done else rev done), r).
(** pixel[0] = rgb[0]; pixel[1] = rgb[1]; pixel[2] = rgb[2]; *)
Definition set3 (p rgb : list Z) : res (list Z) :=
  match p, rgb with _ :: _ :: _ :: t, [a; b; c] => Ok (a :: b :: c :: t) | _, _ => Panic end.
(** The common part of set_8bit/4bit/2bit/1bit_pixel_run (decoder.rs:295-398): one palette index after another is
    written to the next pixel; [false] when the pixels run out first.  Result: the pixels written, those left, the flag. *)
Fixpoint set_run (pal : list (list Z)) (idxs : list Z) (pixels : list (list Z)) : res (list (list Z) * list (list Z) * bool) :=
  match idxs with
  | [] => Ok ([], pixels, true)
  | i :: idxs =>
      match pixels with
      | [] => Ok ([], [], false)
      | p :: pixels =>
          match zget pal i with
          | None => Panic
          | Some rgb => p <- set3 p rgb ;; '(d, rest, ok) <- set_run pal idxs pixels ;; Ok (p :: d, rest, ok)
          end
      end
  end.
(** the indices packed in one byte: idx >> 4, idx & 0xf; (idx >> 6) & 3 ..; idx & bit != 0 from bit 0x80 down *)
Definition split4 (b : Z) : list Z := [Z.shiftr b 4; Z.land b 15].
Definition split2 (b : Z) : list Z := [Z.land (Z.shiftr b 6) 3; Z.land (Z.shiftr b 4) 3; Z.land (Z.shiftr b 2) 3; Z.land b 3].
Definition split1 (b : Z) : list Z := map (fun k => if Z.testbit b k then 1 else 0) (rev (zrange 0 8)).
Definition set_8bit_run pal idxs (n : Z) pixels := set_run pal (firstn (Z.to_nat n) idxs) pixels.
Definition set_4bit_run pal idxs (n : Z) pixels := set_run pal (firstn (Z.to_nat n) (flat_map split4 idxs)) pixels.
Definition set_2bit_run pal idxs (n : Z) pixels := set_run pal (firstn (Z.to_nat n) (flat_map split2 idxs)) pixels.
Definition set_1bit_run pal idxs pixels := set_run pal (flat_map split1 idxs) pixels.

(** buf.chunks_exact_mut(4).for_each(|c| c[3] = 0xFF) *)
Definition set_alpha_ff (buf : list Z) : list Z :=
  concat (map (fun c => zset c 3 255) (chunks_exact 4 buf)) ++ skipn (4 * length (chunks_exact 4 buf)) buf.
(** read_palettized_pixel_data: decoder.rs:949-998 *)
Definition row_byte_length (bits w : Z) : Z := (bits * w + 31) / 32 * 4.
Definition read_palettized (d : bmp) (buf r : list Z) : res (list Z * list Z) :=
  let ch := num_channels d in
  if i32_max <? b_bits d * b_w d + 31 then Panic else
  let rbl := row_byte_length (b_bits d) (b_w d) in
  match b_pal d with
  | None => Panic
  | Some pal =>
      let buf := if ch =? 4 then set_alpha_ff buf else buf in
      with_rows buf (b_w d) (b_h d) ch (b_top_down d) (fun row r =>
        '(indices, r) <- read_exact rbl r ;;
        if b_indexed d then
          (if (zlen indices <? b_w d) || negb (zlen row =? b_w d) then Panic
           else Ok (firstn (Z.to_nat (b_w d)) indices, r))
        else
          let pixels := chunks_exact ch row in
          '(dn, rest, _) <-
            (if b_bits d =? 1 then set_1bit_run pal indices pixels
             else if b_bits d =? 2 then set_2bit_run pal indices (b_w d) pixels
             else if b_bits d =? 4 then set_4bit_run pal indices (b_w d) pixels
             else if b_bits d =? 8 then set_8bit_run pal indices (b_w d) pixels
             else Panic) ;;
          Ok (concat (dn ++ rest), r)) r
  end.
(** for pixel in row.chunks_mut(num_channels) { .. read .. } *)
Definition each_pixel (f : list Z -> reader -> res (list Z * reader)) (ch : Z) (row : list Z) (r : reader) : res (list Z * reader) :=
  '(dn, r) <- foldM (fun '(dn, r) p => '(p, r) <- f p r ;; Ok (dn ++ [p], r)) (chunks_exact ch row) ([], r) ;;
  Ok (concat dn, r).
(** the pixel written from bit fields: decoder.rs:1024-1034 and 1063-1073 *)
Definition field_pixel (f : bitfields) (ch data : Z) (p : list Z) : res (list Z) :=
  vr <- bf_read (bf_r f) data ;;
  vg <- bf_read (bf_g f) data ;;
  vb <- bf_read (bf_b f) data ;;
  p <- set3 p [vr; vg; vb] ;;
  if ch =? 4 then
    a <- (if negb (bf_len (bf_a f) =? 0) then bf_read (bf_a f) data else Ok 255) ;;
    (if zlen p <? 4 then Panic else Ok (zset p 3 a))
  else Ok p.
(** read_16_bit_pixel_data: decoder.rs:1000-1042 *)
Definition read_16_bit (d : bmp) (f : bitfields) (buf r : list Z) : res (list Z * list Z) :=
  let ch := num_channels d in
  with_rows buf (b_w d) (b_h d) ch (b_top_down d) (fun row r =>
    '(row, r) <- each_pixel (fun p r => '(data, r) <- read_u16le r ;; p <- field_pixel f ch data p ;; Ok (p, r)) ch row r ;;
    '(_, r) <- read_exact (b_w d mod 2 * 2) r ;;
    Ok (row, r)) r.
(** read_32_bit_pixel_data: decoder.rs:1045-1079 *)
Definition read_32_bit (d : bmp) (f : bitfields) (buf r : list Z) : res (list Z * list Z) :=
  let ch := num_channels d in
  with_rows buf (b_w d) (b_h d) ch (b_top_down d)
    (each_pixel (fun p r => '(data, r) <- read_u32le r ;; p <- field_pixel f ch data p ;; Ok (p, r)) ch) r.
(** one pixel of read_full_byte_pixel_data: decoder.rs:1106-1127 *)
Definition full_byte_pixel (fmt : fullfmt) (ch : Z) (p : list Z) (r : reader) : res (list Z * reader) :=
  '(_, r) <- (match fmt with F888 => read_u8 r | _ => Ok (0, r) end) ;;
  if zlen p <? 3 then Panic else
  '(bgr, r) <- read_exact 3 r ;;
  p <- set3 p (rev bgr) ;;
  '(_, r) <- (match fmt with FRGB32 => read_u8 r | _ => Ok (0, r) end) ;;
  match fmt with
  | FRGBA32 => if zlen p <? 4 then Panic else '(a, r) <- read_u8 r ;; Ok (zset p 3 a, r)
  | _ => if ch =? 4 then (if zlen p <? 4 then Panic else Ok (zset p 3 255, r)) else Ok (p, r)
  end.
(** read_full_byte_pixel_data: decoder.rs:1082-1132 *)
Definition row_padding (fmt : fullfmt) (w : Z) : Z := match fmt with FRGB24 => (4 - w * 3 mod 4) mod 4 | _ => 0 end.
Definition read_full_byte (d : bmp) (fmt : fullfmt) (buf r : list Z) : res (list Z * list Z) :=
  let ch := num_channels d in
  with_rows buf (b_w d) (b_h d) ch (b_top_down d) (fun row r =>
    '(row, r) <- each_pixel (full_byte_pixel fmt ch) ch row r ;;
    '(_, r) <- read_exact (row_padding fmt (b_w d)) r ;;
    Ok (row, r)) r.

(** *** Run length encoding: decoder.rs:1134-1296 *)
(** RLEInsn: decoder.rs:495-501 *)
Inductive rle_insn := EndOfFile | EndOfRow | Delta (dx dy : Z) | Absolute (n : Z) (indices : list Z) | PixelRun (n idx : Z).
(** reading one instruction: decoder.rs:1153-1184 *)
Definition read_insn (rle4 : bool) (r : reader) : res (rle_insn * reader) :=
  '(c, r) <- read_u8 r ;;
  if c =? 0 then
    '(op, r) <- read_u8 r ;;
    if op =? 0 then Ok (EndOfRow, r)
    else if op =? 1 then Ok (EndOfFile, r)
    else if op =? 2 then '(dx, r) <- read_u8 r ;; '(dy, r) <- read_u8 r ;; Ok (Delta dx dy, r)
    else
      let length := if rle4 then (op + 1) / 2 else op in
      let length := length + Z.land length 1 in
      '(buffer, r) <- read_exact length r ;; Ok (Absolute op buffer, r)
  else '(i, r) <- read_u8 r ;; Ok (PixelRun c i, r).
(** p.fill(0) *)
Definition zero (p : list Z) : list Z := map (fun _ => 0) p.
Definition zero_row (row : list (list Z)) : list (list Z) := map zero row.
(** n times iter.next().ok_or(CorruptRleData)?.fill(0): the items zeroed and those left *)
Definition zero_n {A} (z : A -> A) (n : Z) (l : list A) : res (list A * list A) :=
  if zlen l <? n then Err EDecoding else Ok (map z (firstn (Z.to_nat n) l), skipn (Z.to_nat n) l).
(** The two nested loops as one loop over instructions.  [done]: finished rows, [cd]/[cr]: pixels of the current row
    before/behind pixel_iter, [x], [rest]: rows not yet taken from row_iter. *)
Notation prow := (list (list Z)) (only parsing).
Fixpoint rle_loop (fuel : nat) (rle4 : bool) (pal : list (list Z)) (done : list prow) (cd cr : prow) (x : Z) (rest : list prow) (r : reader)
  : res (list prow * reader) :=
  match fuel with
  | O => Err EFuel
  | S fuel =>
      '(insn, r) <- read_insn rle4 r ;;
      match insn with
      | EndOfFile => Ok (done ++ [cd ++ zero_row cr] ++ map zero_row rest, r)
      | EndOfRow =>
          let done := done ++ [cd ++ zero_row cr] in
          match rest with
          | [] => Ok (done, r)
          | row :: rest => rle_loop fuel rle4 pal done [] row 0 rest r
          end
      | Delta dx dy =>
          '(done, cd, cr, rest) <-
            (if 0 <? dy then
               let done := done ++ [cd ++ zero_row cr] in
               '(skipped, rest) <- zero_n zero_row (dy - 1) rest ;;
               match rest with
               | [] => Err EDecoding
               | row :: rest => '(cd, cr) <- zero_n zero x row ;; Ok (done ++ skipped, cd, cr, rest)
               end
             else Ok (done, cd, cr, rest)) ;;
          '(z, cr) <- zero_n zero dx cr ;;
          rle_loop fuel rle4 pal done (cd ++ z) cr (x + dx) rest r
      | Absolute n indices =>
          '(w, cr, ok) <- (if rle4 then set_4bit_run pal indices n cr else set_8bit_run pal indices n cr) ;;
          if (ok : bool) then rle_loop fuel rle4 pal done (cd ++ w) cr (x + n) rest r else Err EDecoding
      | PixelRun n i =>
          (* iter::repeat(&palette_index): n copies are enough for n pixels *)
          let indices := repeat i (Z.to_nat n) in
          '(w, cr, ok) <- (if rle4 then set_4bit_run pal indices n cr else set_8bit_run pal indices n cr) ;;
          if (ok : bool) then rle_loop fuel rle4 pal done (cd ++ w) cr (x + n) rest r else Err EDecoding
      end
  end.
(** read_rle_data: decoder.rs:1134-1296, with rows(): decoder.rs:936-947.  Every instruction reads a byte, so the
    length of the stream is enough fuel. *)
Definition read_rle (d : bmp) (rle4 : bool) (buf r : list Z) : res (list Z * list Z) :=
  let ch := num_channels d in
  match b_pal d with
  | None => Panic
  | Some pal =>
      if b_w d * ch =? 0 then Panic else
      let rows := map (chunks_exact ch) (chunks_exact (b_w d * ch) buf) in
      match (if b_top_down d then rows else rev rows) with
      | [] => Ok (buf, r)
      | row :: rest =>
          '(rows, r) <- rle_loop (S (length r)) rle4 pal [] [] row 0 rest r ;;
          Ok (concat (map (@concat Z) (if b_top_down d then rows else rev rows)), r)
      end
  end.

(** read_image_data: decoder.rs:1300-1326; the buffer and what is left of the stream behind the pixel data *)
Definition read_image_data (file : list Z) (d : bmp) (buf : list Z) : res (list Z * list Z) :=
  let r := skipn (Z.to_nat (b_off d)) file in
  match b_type d with
  | TPalette => read_palettized d buf r
  | TRGB16 => read_16_bit d R5_G5_B5 buf r
  | TRGB24 => read_full_byte d FRGB24 buf r
  | TRGB32 => read_full_byte d FRGB32 buf r
  | TRGBA32 => read_full_byte d FRGBA32 buf r
  | TRLE8 => read_rle d false buf r
  | TRLE4 => read_rle d true buf r
  | TBitfields16 => match b_fields d with Some f => read_16_bit d f buf r | None => Err EDecoding end
  | TBitfields32 =>
      match b_fields d with
      | Some f =>
          if bfs_eqb f R8_G8_B8 then read_full_byte d F888 buf r
          else if bfs_eqb f R8_G8_B8_A8 then read_full_byte d FRGBA32 buf r
          else read_32_bit d f buf r
      | None => Err EDecoding
      end
  end.
(** color_type: decoder.rs:1332-1340 *)
Definition bmp_color (d : bmp) : ctype := if b_indexed d then CL8 else if b_alpha d then CRgba8 else CRgb8.
(** read_image: decoder.rs:1342-1345 *)
Definition bmp_read_image (file : list Z) (d : bmp) (buf : list Z) : res (list Z) :=
  n <- total_bytes (b_w d) (b_h d) (bmp_color d) ;;
  if negb (zlen buf =? n) then Panic else
  '(buf, _) <- read_image_data file d buf ;; Ok buf.

(** ** Encoder *)
Definition u32_mul_m (m : mode) (a b : Z) : res Z :=
  if a * b <=? u32_max then Ok (a * b) else match m with Debug => Panic | Release => Ok (wrap_u32 (a * b)) end.
Definition u32_cmul (a b : Z) : option Z := if a * b <=? u32_max then Some (a * b) else None.
Definition u32_cadd (a b : Z) : option Z := if a + b <=? u32_max then Some (a + b) else None.
Definition obind {A B} (o : option A) (f : A -> option B) : option B := match o with Some a => f a | None => None end.
Definition ok_or {A} (o : option A) (e : err) : res A := match o with Some a => Ok a | None => Err e end.
(** get_pixel_info: encoder.rs:279-307: (dib header size, written pixel size, palette colour count);
    its error is an IoError(InvalidInput), written EEncoding here *)
Definition get_pixel_info (c : ectype) (pal : option (list (list Z))) : res (Z * Z * Z) :=
  let n := match pal with Some p => wrap_u32 (zlen p) | None => 256 end in
  match c with
  | XRgb8 => Ok (40, 3, 0) | XRgba8 => Ok (108, 4, 0) | XL8 => Ok (40, 1, n) | XLa8 => Ok (40, 1, n)
  | _ => Err EEncoding
  end.
(** image[start..][..n] *)
Definition slice_at (image : list Z) (start n : Z) : res (list Z) :=
  if (zlen image <? start) || (zlen image - start <? n) then Panic else Ok (zslice image start n).
(** encode_rgb, encode_rgba: encoder.rs:156-206; the bytes written *)
Definition bgr (px : list Z) : res (list Z) :=
  match px with r :: g :: b :: _ => Ok [b; g; r] | _ => Panic end.
Definition bgra (px : list Z) : res (list Z) :=
  match px with r :: g :: b :: a :: _ => Ok [b; g; r; a] | _ => Panic end.
Definition encode_color (conv : list Z -> res (list Z)) (image : list Z) (w h pad x_stride : Z) : res (list Z) :=
  let y_stride := w * x_stride in
  foldM (fun out row =>
    line <- slice_at image (row * y_stride) y_stride ;;
    out <- foldM (fun out px => q <- conv px ;; Ok (out ++ q)) (chunks_exact x_stride line) out ;;
    Ok (out ++ repeat 0 (Z.to_nat pad))) (rev (zrange 0 h)) [].
(** encode_gray: encoder.rs:208-257; u32 indices *)
Definition gray_palette (pal : option (list (list Z))) : res (list Z) :=
  match pal with
  | Some p => foldM (fun out item => match item with [a; b; c] => Ok (out ++ [c; b; a; 0]) | _ => Panic end) p []
  | None => Ok (flat_map (fun v => [v; v; v; 0]) (zrange 0 256))
  end.
Definition encode_gray (m : mode) (image : list Z) (w h pad x_stride : Z) (pal : option (list (list Z))) : res (list Z) :=
  p <- gray_palette pal ;;
  y_stride <- u32_mul_m m w x_stride ;;
  foldM (fun out row =>
    row_start <- u32_mul_m m row y_stride ;;
    out <-
      (if x_stride =? 1 then line <- slice_at image row_start y_stride ;; Ok (out ++ line)
       else
         foldM (fun out col =>
           c <- u32_mul_m m col x_stride ;;
           s <- u32_add_m m row_start c ;;
           match zget image s with Some v => Ok (out ++ [v]) | None => Panic end) (zrange 0 w) out) ;;
    Ok (out ++ repeat 0 (Z.to_nat pad))) (rev (zrange 0 h)) p.
(** encode_with_palette: encoder.rs:46-154; encode and write_image pass no palette (encoder.rs:31-39, 268-277) *)
Definition is_l8 (c : ectype) : bool := match c with XL8 | XLa8 => true | _ => false end.
Definition file_header (file_size offset : Z) : list Z := [66; 77] ++ le32 file_size ++ le16 0 ++ le16 0 ++ le32 offset.
Definition dib_header (size w h ps image_size colors : Z) : list Z :=
  le32 size ++ le32 w ++ le32 h ++ le16 1 ++ le16 (ps * 8) ++ le32 (if 108 <=? size then 3 else 0) ++
  le32 image_size ++ le32 0 ++ le32 0 ++ le32 colors ++ le32 0 ++
  (if 108 <=? size then
     le32 (255 * 65536) ++ le32 (255 * 256) ++ le32 255 ++ le32 (255 * 16777216) ++ le32 1934772034 ++
     concat (repeat (le32 0) 12)
   else []).
Definition bmp_encode (m : mode) (image : list Z) (w h : Z) (c : ectype) (pal : option (list (list Z))) : res (list Z) :=
  if (match pal with Some _ => true | None => false end) && negb (is_l8 c) then Err EEncoding else
  n <- buffer_size c w h ;;
  if negb (n =? zlen image) then Panic else
  '(hs, ps, colors) <- get_pixel_info c pal ;;
  row <- u32_mul_m m w ps ;;
  let pad := (4 - row mod 4) mod 4 in
  (* [height * row_pad_size] is evaluated only if the products before it fit *)
  image_size <-
    (match obind (u32_cmul w h) (fun v => u32_cmul v ps) with
     | None => Err EParameter
     | Some v => pd <- u32_mul_m m h pad ;; ok_or (u32_cadd v pd) EParameter
     end) ;;
  palette_size <- u32_mul_m m colors 4 ;;
  file_size <- ok_or (obind (obind (u32_cadd 14 hs) (fun v => u32_cadd v palette_size)) (fun v => u32_cadd v image_size)) EEncoding ;;
  let hdr := file_header file_size (14 + hs + palette_size) ++ dib_header hs w h ps image_size colors in
  body <-
    (match c with
     | XRgb8 => encode_color bgr image w h pad 3
     | XRgba8 => encode_color bgra image w h pad 4
     | XL8 => encode_gray m image w h pad 1 pal
     | XLa8 => encode_gray m image w h pad 2 pal
     | _ => Err EEncoding
     end) ;;
  Ok (hdr ++ body).
