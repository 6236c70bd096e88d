(** Model of the TGA codec: src/codecs/tga/{header,encoder,decoder}.rs.  A writer is the list of bytes
    written; usize is 64 bits.  io::Error::Other is modelled by EDecoding. *)
From Verif Require Import Base ColorType.
Local Open Scope Z_scope.

(** ** header.rs *)
(** enum ImageType and ImageType::new: header.rs:9-37 *)
Inductive itype := NoImageData | RawColorMap | RawTrueColor | RawGrayScale | RunColorMap | RunTrueColor | RunGrayScale | UnknownType.
Definition itype_new (t : Z) : itype :=
  if t =? 0 then NoImageData else if t =? 1 then RawColorMap else if t =? 2 then RawTrueColor
  else if t =? 3 then RawGrayScale else if t =? 9 then RunColorMap else if t =? 10 then RunTrueColor
  else if t =? 11 then RunGrayScale else UnknownType.
(** `image_type as u8` for the variants the encoder uses: header.rs:9-20 *)
Definition itype_code (t : itype) : Z :=
  match t with NoImageData => 0 | RawColorMap => 1 | RawTrueColor => 2 | RawGrayScale => 3
  | RunColorMap => 9 | RunTrueColor => 10 | RunGrayScale => 11 | UnknownType => 12 end.
(** is_color, is_color_mapped, is_encoded: header.rs:40-57 *)
Definition is_color (t : itype) : bool :=
  match t with RawColorMap | RawTrueColor | RunTrueColor | RunColorMap => true | _ => false end.
Definition is_color_mapped (t : itype) : bool := match t with RawColorMap | RunColorMap => true | _ => false end.
Definition is_encoded (t : itype) : bool := match t with RunColorMap | RunTrueColor | RunGrayScale => true | _ => false end.

(** struct Header: header.rs:62-75 *)
Record hdr := mkHdr {
  id_length : Z; map_type : Z; image_type : Z; map_origin : Z; map_length : Z; map_entry_size : Z;
  x_origin : Z; y_origin : Z; image_width : Z; image_height : Z; pixel_depth : Z; image_desc : Z }.
Definition hdr_default : hdr := mkHdr 0 0 0 0 0 0 0 0 0 0 0 0.
(** ALPHA_BIT_MASK, SCREEN_ORIGIN_BIT_MASK: header.rs:6-7 *)
Definition ALPHA_BIT_MASK : Z := 15.
Definition SCREEN_ORIGIN_BIT_MASK : Z := 32.
(** Header::from_pixel_info: header.rs:79-118 *)
Definition from_pixel_info (c : ectype) (w h : Z) (use_rle : bool) : res hdr :=
  if (0 <? w) && (0 <? h) then
    let mk na nc t := Ok (mkHdr 0 0 (itype_code t) 0 0 0 0 0 w h (na + nc)
                            (Z.lor (Z.land na ALPHA_BIT_MASK) SCREEN_ORIGIN_BIT_MASK)) in
    match c with
    | XRgba8 => mk 8 24 (if use_rle then RunTrueColor else RawTrueColor)
    | XRgb8 => mk 0 24 (if use_rle then RunTrueColor else RawTrueColor)
    | XLa8 => mk 8 8 (if use_rle then RunGrayScale else RawGrayScale)
    | XL8 => mk 0 8 (if use_rle then RunGrayScale else RawGrayScale)
    | _ => Err EUnsupported
    end
  else Ok hdr_default.
(** Header::write_to: header.rs:138-152 *)
Definition write_hdr (h : hdr) : list Z :=
  [id_length h; map_type h; image_type h] ++ le16 (map_origin h) ++ le16 (map_length h) ++ [map_entry_size h] ++
  le16 (x_origin h) ++ le16 (y_origin h) ++ le16 (image_width h) ++ le16 (image_height h) ++ [pixel_depth h; image_desc h].
(** Header::from_reader: header.rs:121-136 *)
Definition read_hdr (r : reader) : res (hdr * reader) :=
  '(a, r) <- read_u8 r ;; '(b, r) <- read_u8 r ;; '(c, r) <- read_u8 r ;;
  '(d, r) <- read_u16le r ;; '(e, r) <- read_u16le r ;; '(f, r) <- read_u8 r ;;
  '(g, r) <- read_u16le r ;; '(h, r) <- read_u16le r ;; '(i, r) <- read_u16le r ;; '(j, r) <- read_u16le r ;;
  '(k, r) <- read_u8 r ;; '(l, r) <- read_u8 r ;;
  Ok (mkHdr a b c d e f g h i j k l, r).

(** ** encoder.rs *)
Definition MAX_RUN_LENGTH : Z := 128.
Inductive ptype := PRaw | PRle.
Definition is_raw (t : ptype) : bool := match t with PRaw => true | PRle => false end.
(** write_raw_packet: encoder.rs:66-73; counter is a u8 and counter - 1 is checked *)
Definition write_raw_packet (pixels : list Z) (counter : Z) : res (list Z) :=
  if counter =? 0 then Panic else Ok ((counter - 1) :: pixels).
(** write_rle_encoded_packet: encoder.rs:76-82 *)
Definition write_rle_packet (pixel : list Z) (counter : Z) : res (list Z) :=
  if counter =? 0 then Panic else Ok (Z.lor 128 (counter - 1) :: pixel).

(** the locals of run_length_encode *)
Record rle_st := mkSt { counter : Z; prev_pixel : option (list Z); packet_type : ptype; rbuf : list Z; out : list Z }.
(** flush of the pending packet: encoder.rs:128-131 and 141-145 *)
Definition flush (s : rle_st) : res (list Z) :=
  match packet_type s with
  | PRle => match prev_pixel s with None => Panic | Some p => write_rle_packet p (counter s) end
  | PRaw => write_raw_packet (rbuf s) (counter s)
  end.
(** the loop body of run_length_encode: encoder.rs:103-139; [cap] = capacity_in_bytes *)
Definition rle_step (cap : Z) (s : rle_st) (pixel : list Z) : res rle_st :=
  s <- (match prev_pixel s with
        | None => Ok s
        | Some prev =>
            if leqb pixel prev then
              if is_raw (packet_type s) && (0 <? counter s) then
                b <- write_raw_packet (rbuf s) (counter s) ;;
                Ok (mkSt 0 (prev_pixel s) PRle [] (out s ++ b))
              else Ok (mkSt (counter s) (prev_pixel s) PRle (rbuf s) (out s))
            else if negb (is_raw (packet_type s)) && (0 <? counter s) then
              b <- write_rle_packet prev (counter s) ;;
              Ok (mkSt 0 (prev_pixel s) PRaw [] (out s ++ b))
            else Ok s
        end) ;;
  if u8_max <? counter s + 1 then Panic else
  let s := mkSt (counter s + 1) (prev_pixel s) (packet_type s) (rbuf s ++ pixel) (out s) in
  if cap <? zlen (rbuf s) then Panic (* debug_assert!, encoder.rs:123 *)
  else
    s <- (if counter s =? MAX_RUN_LENGTH then
            b <- flush s ;; Ok (mkSt 0 (prev_pixel s) PRle [] (out s ++ b))
          else Ok s) ;;
    Ok (mkSt (counter s) (Some pixel) (packet_type s) (rbuf s) (out s)).
(** run_length_encode: encoder.rs:85-149.  image.chunks(bpp) has no shorter last chunk because
    encode asserts the buffer length. *)
Definition run_length_encode (bpp : Z) (image : list Z) : res (list Z) :=
  if bpp =? 0 then Panic (* chunks(0) *)
  else
    s <- foldM (rle_step (MAX_RUN_LENGTH * bpp)) (chunks_exact bpp image) (mkSt 0 None PRle [] []) ;;
    if 0 <? counter s then b <- flush s ;; Ok (out s ++ b) else Ok (out s).

(** chunk.swap(0, 2) *)
Definition swap02 (p : list Z) : res (list Z) :=
  match p with a :: b :: c :: r => Ok (c :: b :: a :: r) | _ => Panic end.
(** for pixel in image.chunks_mut(n) { pixel.swap(0, 2) }: encoder.rs:200-204, decoder.rs:291-293 *)
Definition swap_all (n : Z) (image : list Z) : res (list Z) :=
  l <- foldM (fun acc p => q <- swap02 p ;; Ok (acc ++ q)) (chunks_exact n image) [] ;; Ok l.

(** TgaEncoder::encode: encoder.rs:160-233 *)
Definition tga_encode (use_rle : bool) (buf : list Z) (w h : Z) (c : ectype) : res (list Z) :=
  len <- buffer_size c w h ;;
  if negb (zlen buf =? len) then Panic
  else if u16_max <? w then Err EEncoding
  else if u16_max <? h then Err EEncoding
  else
    hd <- from_pixel_info c w h use_rle ;;
    let data := match c with
                | XRgb8 | XRgba8 => swap_all (ect_bits c / 8) buf
                | _ => Ok buf
                end in
    body <- match itype_new (image_type hd) with
            | RunTrueColor | RunGrayScale => d <- data ;; run_length_encode (ect_bits c / 8) d
            | _ => data
            end ;;
    Ok (write_hdr hd ++ body).

(** ** decoder.rs *)
Record cmap := mkCmap { start_offset : Z; entry_size : Z; cbytes : list Z }.
(** struct TgaDecoder: decoder.rs:45-60 (has_loaded_metadata is always true after new) *)
Record dec_t := mkDec { d_w : Z; d_h : Z; d_bpp : Z; d_type : itype; d_color : ctype; d_hdr : hdr; d_map : option cmap }.

(** read_color_information: decoder.rs:100-163 *)
Definition read_color_information (h : hdr) (t : itype) : res ctype :=
  if negb (pixel_depth h mod 8 =? 0) || (32 <? pixel_depth h) then Err EUnsupported
  else
    let na := Z.land (image_desc h) ALPHA_BIT_MASK in
    oc <- (if negb (map_type h =? 0) then Ok (map_entry_size h)
           else if pixel_depth h <? na then Err EUnsupported else Ok (pixel_depth h - na)) ;;
    if (na =? 0) && (oc =? 32) && is_color t then Ok CRgba8
    else if (na =? 8) && (oc =? 24) && is_color t then Ok CRgba8
    else if (na =? 0) && (oc =? 24) && is_color t then Ok CRgb8
    else if (na =? 8) && (oc =? 8) && negb (is_color t) then Ok CLa8
    else if (na =? 0) && (oc =? 8) && negb (is_color t) then Ok CL8
    else if (na =? 8) && (oc =? 0) && negb (is_color t) then Ok CL8
    else Err EUnsupported.
(** ColorMap::from_reader: decoder.rs:20-36; read_color_map: 176-189 *)
Definition read_color_map (h : hdr) (r : reader) : res (option cmap * reader) :=
  if map_type h =? 1 then
    let bpe := (map_entry_size h + 7) / 8 in
    '(b, r) <- read_exact (bpe * map_length h) r ;; Ok (Some (mkCmap (map_origin h) bpe b), r)
  else Ok (None, r).
(** TgaDecoder::new, read_header, read_metadata, read_image_id: decoder.rs:64-98, 169-174 *)
Definition tga_new (r : reader) : res (dec_t * reader) :=
  '(h, r) <- read_hdr r ;;
  let t := itype_new (image_type h) in
  '(_, r) <- read_exact (id_length h) r ;;
  '(m, r) <- read_color_map h r ;;
  c <- read_color_information h t ;;
  Ok (mkDec (image_width h) (image_height h) ((pixel_depth h + 7) / 8) t c h m, r).

(** ColorMap::get: decoder.rs:39-42 *)
Definition cmap_get (m : cmap) (index : Z) : option (list Z) :=
  let e := start_offset m + entry_size m * index in
  if e + entry_size m <=? zlen (cbytes m) then Some (zslice (cbytes m) e (entry_size m)) else None.
(** bytes_to_index: decoder.rs:195-201 *)
Definition bytes_to_index (l : list Z) : Z := fold_left (fun r b => Z.lor (Z.shiftl r 8) b) l 0.
(** slice::chunks(n): like chunks_exact but with a shorter last chunk *)
Definition chunks {A} (n : Z) (l : list A) : list (list A) :=
  let q := chunks_exact n l in
  let rest := skipn (Z.to_nat (zlen q * n)) l in
  match rest with [] => q | _ => q ++ [rest] end.
(** expand_color_map: decoder.rs:192-225 *)
Definition expand_color_map (d : dec_t) (data : list Z) : res (list Z) :=
  if d_bpp d =? 0 then Err EDecoding
  else match d_map d with
       | None => Err EDecoding
       | Some m => foldM (fun acc ch => match cmap_get m (bytes_to_index ch) with
                                        | Some c => Ok (acc ++ c)
                                        | None => Err EDecoding
                                        end) (chunks (d_bpp d) data) []
       end.

(** r.take(n).read_to_end(..): up to n bytes, no error at the end of the stream *)
Definition take_upto (n : Z) (r : reader) : list Z * reader := (firstn (Z.to_nat n) r, skipn (Z.to_nat n) r).
(** buf.iter().cycle().take(n) *)
Definition cycle_take (l : list Z) (n : Z) : list Z :=
  match l with
  | [] => []
  | _ => flat_map (fun i => match zget l (i mod zlen l) with Some v => [v] | None => [] end) (zrange 0 n)
  end.
(** the loop of read_encoded_data: decoder.rs:232-262; fuel = bytes left + 1 *)
Fixpoint read_encoded_loop (fuel : nat) (bpp num : Z) (data : list Z) (r : reader) : res (list Z * reader) :=
  if zlen data <? num then
    match fuel with
    | O => Err EFuel
    | S f =>
        '(b, r) <- read_u8 r ;;
        if negb (Z.land b 128 =? 0) then
          let n := Z.land b 127 + 1 in
          let (p, r) := take_upto bpp r in
          read_encoded_loop f bpp num (data ++ cycle_take p (n * bpp)) r
        else
          let (p, r) := take_upto ((b + 1) * bpp) r in
          read_encoded_loop f bpp num (data ++ p) r
    end
  else Ok (data, r).
(** read_encoded_data: decoder.rs:228-272 *)
Definition read_encoded_data (bpp num : Z) (r : reader) : res (list Z * reader) :=
  '(d, r) <- read_encoded_loop (S (length r)) bpp num [] r ;; Ok (firstn (Z.to_nat num) d, r).

(** slice::swap *)
Definition swap (l : list Z) (i j : Z) : res (list Z) :=
  match zget l i, zget l j with
  | Some a, Some b => Ok (zset (zset l i b) j a)
  | _, _ => Panic
  end.
(** flip_vertically and is_flipped_vertically: decoder.rs:304-341 *)
Definition flip_vertically (d : dec_t) (pixels : list Z) : res (list Z) :=
  if Z.land SCREEN_ORIGIN_BIT_MASK (image_desc (d_hdr d)) =? 0 then
    if d_h d =? 0 then Ok pixels
    else
      let wb := zlen pixels / d_h d in
      foldM (fun l v =>
        let vt := (d_h d - v) * wb - wb in
        foldM (fun l x => swap l (vt + x) (v * wb + x)) (zrange 0 wb) l) (zrange 0 (d_h d / 2)) pixels
  else Ok pixels.
(** reverse_encoding_in_output: decoder.rs:285-297 *)
Definition reverse_encoding (d : dec_t) (pixels : list Z) : res (list Z) :=
  match d_color d with
  | CRgb8 | CRgba8 => swap_all (ct_bytes (d_color d)) pixels
  | _ => Ok pixels
  end.

(** read_image: decoder.rs:359-403; [buf] is the caller's buffer with its previous contents *)
Definition tga_read_image (d : dec_t) (buf : list Z) (r : reader) : res (list Z * reader) :=
  total <- total_bytes (d_w d) (d_h d) (d_color d) ;;
  if negb (zlen buf =? total) then Panic
  else
    let num := d_w d * d_h d * d_bpp d in
    let direct := d_bpp d <=? ct_bytes (d_color d) in
    '(raw, r) <- (if is_encoded (d_type d) then read_encoded_data (d_bpp d) num r else read_exact num r) ;;
    buf <- (if direct then
              if zlen raw <=? zlen buf then Ok (zsplice buf 0 raw) else Panic
            else Ok buf) ;;
    buf <- (if is_color_mapped (d_type d) then
              e <- expand_color_map d raw ;;
              if negb (zlen e =? zlen buf) then Err ELimits else Ok e
            else Ok buf) ;;
    buf <- reverse_encoding d buf ;;
    buf <- flip_vertically d buf ;;
    Ok (buf, r).
(** new followed by read_image into a buffer made by [fresh] from the number of bytes needed *)
Definition tga_decode (fresh : Z -> list Z) (r : reader) : res (Z * Z * ctype * list Z * reader) :=
  '(d, r) <- tga_new r ;;
  total <- total_bytes (d_w d) (d_h d) (d_color d) ;;
  '(b, r) <- tga_read_image d (fresh total) r ;;
  Ok (d_w d, d_h d, d_color d, b, r).
