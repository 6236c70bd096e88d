(** Model of src/codecs/ico/encoder.rs and src/codecs/ico/decoder.rs.  The enclosed PNG or BMP data is opaque bytes. *)
From Verif Require Import Base GenImage ColorType.
Local Open Scope Z_scope.

(** ** Encoder *)
(** IcoFrame: encoder.rs:24-32 *)
Record icoframe := mkFrame { fr_data : list Z; fr_w : Z; fr_h : Z; fr_c : ectype }.
(** with_encoded: encoder.rs:38-68; [width as u8] truncates *)
Definition with_encoded (data : list Z) (w h : Z) (c : ectype) : res icoframe :=
  if negb ((1 <=? w) && (w <=? 256)) then Err EParameter
  else if negb ((1 <=? h) && (h <=? 256)) then Err EParameter
  else Ok (mkFrame data (wrap_u8 w) (wrap_u8 h) c).
(** write_icondir: encoder.rs:157-165 *)
Definition icondir (n : Z) : list Z := le16 0 ++ le16 1 ++ le16 n.
(** write_direntry: encoder.rs:167-191; bits_per_pixel is a u16 *)
Definition direntry (w h : Z) (c : ectype) (start size : Z) : list Z :=
  [w; h; 0; 0] ++ le16 0 ++ le16 (ect_bits c) ++ le32 size ++ le32 start.
(** encode_images: encoder.rs:97-127; [len() as u32] truncates, [offset +=] panics (debug) or wraps (release) *)
Definition encode_images (m : mode) (images : list icoframe) : res (list Z) :=
  if negb ((1 <=? zlen images) && (zlen images <=? u16_max)) then Err EParameter
  else
    '(out, _) <- foldM (fun '(out, offset) im =>
        let len := wrap_u32 (zlen (fr_data im)) in
        offset' <- u32_add_m m offset len ;;
        Ok (out ++ direntry (fr_w im) (fr_h im) (fr_c im) offset len, offset'))
      images (icondir (zlen images), 6 + 16 * zlen images) ;;
    Ok (out ++ concat (map fr_data images)).

(** ** Decoder *)
(** DirEntry: decoder.rs:118-142, without the unused fields colour count and reserved *)
Record dentry := mkEntry { de_w : Z; de_h : Z; de_planes : Z; de_bpp : Z; de_len : Z; de_off : Z }.
(** read_entry: decoder.rs:164-191 *)
Definition read_entry (r : list Z) : res (dentry * list Z) :=
  '(w, r) <- read_u8 r ;; '(h, r) <- read_u8 r ;; '(_, r) <- read_u8 r ;; '(_, r) <- read_u8 r ;;
  '(pl, r) <- read_u16le r ;;
  if 256 <? pl then Err EDecoding else
  '(bpp, r) <- read_u16le r ;;
  if 256 <? bpp then Err EDecoding else
  '(len, r) <- read_u32le r ;; '(off, r) <- read_u32le r ;;
  Ok (mkEntry w h pl bpp len off, r).
(** read_entries: decoder.rs:157-162 *)
Definition read_entries (r : list Z) : res (list dentry * list Z) :=
  '(_, r) <- read_u16le r ;; '(_, r) <- read_u16le r ;; '(count, r) <- read_u16le r ;;
  foldM (fun '(es, r) _ => '(e, r) <- read_entry r ;; Ok (es ++ [e], r)) (zrange 0 count) ([], r).
(** real_width, real_height: decoder.rs:216-228 *)
Definition real (d : Z) : Z := if d =? 0 then 256 else d.
(** the u32 score: decoder.rs:197-207 (at most 256 * 256) *)
Definition score (e : dentry) : Z * Z := (de_bpp e, real (de_w e) * real (de_h e)).
(** tuple comparison [>] *)
Definition score_gt (a b : Z * Z) : bool := (fst b <? fst a) || ((fst a =? fst b) && (snd b <? snd a)).
(** best_entry: decoder.rs:194-213; Vec::pop takes the last element *)
Definition best_entry (entries : list dentry) : res dentry :=
  match rev entries with
  | [] => Err EDecoding
  | last :: _ =>
      foldM (fun best e => Ok (if score_gt (score e) (score best) then e else best)) (removelast entries) last
  end.
(** matches_dimensions: decoder.rs:230-233 *)
Definition matches_dimensions (e : dentry) (w h : Z) : bool :=
  (real (de_w e) =? Z.min w 256) && (real (de_h e) =? Z.min h 256).
(** is_png: decoder.rs:240-248; seeking past the end is allowed, reading there is not *)
Definition png_signature : list Z := [137; 80; 78; 71; 13; 10; 26; 10].
Definition is_png (file : list Z) (e : dentry) : res bool :=
  '(sig, _) <- read_exact 8 (skipn (Z.to_nat (de_off e)) file) ;; Ok (leqb sig png_signature).
(** IcoDecoder::new up to the construction of the inner decoder: decoder.rs:145-154, 250-259:
    the selected entry, whether PNG, and the stream handed to the inner decoder *)
Definition ico_select (file : list Z) : res (dentry * bool * list Z) :=
  '(es, _) <- read_entries file ;;
  e <- best_entry es ;;
  p <- is_png file e ;;
  Ok (e, p, skipn (Z.to_nat (de_off e)) file).

(** The AND mask loop: decoder.rs:350-366, on u32 indices: [(height - y - 1) * width + x] *)
Definition mask_byte (w h y b : Z) (st : list Z * Z) : res (list Z * Z) :=
  foldM (fun '(buf, x) bit =>
    if w <=? x then Ok (buf, x) (* break: no later bit of this byte can apply either *)
    else
      buf <- (if Z.testbit b bit then
                let i := (h - y - 1) * w + x in
                if u32_max <? i then Panic
                else if zlen buf <=? i * 4 + 3 then Panic else Ok (zset buf (i * 4 + 3) 0)
              else Ok buf) ;;
      Ok (buf, x + 1)) (rev (zrange 0 8)) st.
Definition mask_row_bytes (w : Z) : Z := (w + 31) / 32 * 4.
Definition apply_mask (w h : Z) (buf r : list Z) : res (list Z) :=
  '(buf, _) <- foldM (fun '(buf, r) y =>
    '(buf, _, r) <- foldM (fun '(buf, x, r) _ =>
        '(b, r) <- read_u8 r ;;
        '(buf, x) <- mask_byte w h y b (buf, x) ;;
        Ok (buf, x, r)) (zrange 0 (mask_row_bytes w)) (buf, 0, r) ;;
    Ok (buf, r)) (zrange 0 h) (buf, r) ;;
  Ok buf.
(** read_image, BMP arm after the pixels are decoded: decoder.rs:333-374.  [image_end] is the stream position there. *)
Definition ico_bmp_finish (file : list Z) (e : dentry) (w h image_end : Z) (buf : list Z) : res (list Z) :=
  let data_end := de_off e + de_len e in
  let mask_length := mask_row_bytes w * h in
  if image_end + mask_length <=? data_end then apply_mask w h buf (skipn (Z.to_nat image_end) file)
  else if data_end =? image_end then Ok buf
  else Err EDecoding.
(** read_image: decoder.rs:277-377.  [inner]: what the enclosed decoder announces and produces for a buffer:
    PNG: (w, h, colour type, pixels); BMP: additionally the stream position after the pixel data. *)
Inductive inner := InPng (w h : Z) (c : ctype) (pixels : res (list Z)) | InBmp (w h : Z) (c : ctype) (pixels : res (list Z * Z)).
Definition ct_eqb_rgba8 (c : ctype) : bool := match c with CRgba8 => true | _ => false end.
Definition ico_read_image (file : list Z) (e : dentry) (i : inner) : res (list Z) :=
  match i with
  | InPng w h c pixels =>
      if de_len e <? 8 then Err EDecoding
      else if negb (matches_dimensions e w h) then Err EDecoding
      else if negb (ct_eqb_rgba8 c) then Err EDecoding
      else pixels
  | InBmp w h c pixels =>
      if negb (matches_dimensions e w h) then Err EDecoding
      else if negb (ct_eqb_rgba8 c) then Err EUnsupported
      else '(buf, image_end) <- pixels ;; ico_bmp_finish file e w h image_end buf
  end.
