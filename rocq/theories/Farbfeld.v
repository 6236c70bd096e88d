(** Model of src/codecs/farbfeld.rs: the decoder, its byte-level Read/Seek reader, read_rect and the encoder.
    The underlying reader is a Cursor: the whole byte list and a position.  [big] is the endianness of the
    machine (u16::to_ne_bytes / from_ne_bytes).  On an error the contents of the caller's buffer are not modelled. *)
From Verif Require Import Base ColorType Limits LoadRect.
Local Open Scope Z_scope.

(** u16::from_be_bytes([a, b]).to_ne_bytes(), which is its own inverse *)
Definition ne_pair (big : bool) (a b : Z) : list Z := if big then [a; b] else [b; a].
(** b"farbfeld" *)
Definition magic : list Z := [102; 97; 114; 98; 102; 101; 108; 100].
Definition i64_max : Z := 9223372036854775807.
Definition i64_min : Z := -9223372036854775808.

(** FarbfeldReader: farbfeld.rs:28-35; the inner reader is (ff_file, ff_pos) *)
Record ff := mkFf { ff_w : Z; ff_h : Z; ff_file : list Z; ff_pos : Z; ff_off : Z; ff_cache : option Z }.

(** map_err(.. ImageError::Decoding ..) around read_exact: farbfeld.rs:41-50 *)
Definition as_decoding {A} (r : res A) : res A := match r with Err EEof => Err EDecoding | r => r end.
(** FarbfeldReader::new: farbfeld.rs:38-86; [pos]: where the stream stands *)
Definition ff_new (file : list Z) (pos : Z) : res ff :=
  let r := skipn (Z.to_nat pos) file in
  '(m, r) <- as_decoding (read_exact 8 r) ;;
  if negb (leqb m magic) then Err EDecoding else
  '(w, r) <- as_decoding (read_u32be r) ;;
  '(h, r) <- as_decoding (read_u32be r) ;;
  o <- check_dimension_overflow w h 8 ;;
  if (o : bool) then Err EUnsupported else Ok (mkFf w h file (pos + 16) 0 None).

(** consume_channel: farbfeld.rs:171-177; the two bytes written and the new state *)
Definition consume_channel (big : bool) (s : ff) : res (list Z * ff) :=
  '(b, _) <- read_exact 2 (skipn (Z.to_nat (ff_pos s)) (ff_file s)) ;;
  match b with
  | [a; c] => Ok (ne_pair big a c, mkFf (ff_w s) (ff_h s) (ff_file s) (ff_pos s + 2) (ff_off s) (ff_cache s))
  | _ => Panic
  end.
(** cache_byte: farbfeld.rs:179-184 *)
Definition cache_byte (big : bool) (s : ff) : res (Z * ff) :=
  '(b, s) <- consume_channel big s ;;
  match b with
  | [o0; o1] => Ok (o0, mkFf (ff_w s) (ff_h s) (ff_file s) (ff_pos s) (ff_off s) (Some o1))
  | _ => Panic
  end.
Definition add_off (k : Z) (s : ff) : ff := mkFf (ff_w s) (ff_h s) (ff_file s) (ff_pos s) (ff_off s + k) (ff_cache s).
(** the loop over buf.chunks_exact_mut(2), k chunks: farbfeld.rs:104-108 *)
Fixpoint channels (big : bool) (k : nat) (s : ff) : res (list Z * ff) :=
  match k with
  | O => Ok ([], s)
  | S k => '(b, s) <- consume_channel big s ;; '(bs, s) <- channels big k (add_off 2 s) ;; Ok (b ++ bs, s)
  end.
(** Read::read: farbfeld.rs:88-112; [n] = buf.len(); the bytes written at the front of buf *)
Definition ff_read (big : bool) (s : ff) (n : Z) : res (list Z * ff) :=
  '(pre, n, s) <-
    (match ff_cache s with
     | Some b => if n =? 0 then Panic (* buf[0] *)
                 else Ok ([b], n - 1, mkFf (ff_w s) (ff_h s) (ff_file s) (ff_pos s) (ff_off s + 1) None)
     | None => Ok ([], n, s)
     end) ;;
  if n =? 1 then '(b, s) <- cache_byte big s ;; Ok (pre ++ [b], add_off 1 s)
  else '(bs, s) <- channels big (Z.to_nat (n / 2)) s ;; Ok (pre ++ bs, s).
(** std's default Read::read_exact, used by read_image and read_rect *)
Fixpoint ff_read_exact (big : bool) (fuel : nat) (s : ff) (n : Z) : res (list Z * ff) :=
  if n =? 0 then Ok ([], s) else
  match fuel with
  | O => Err EFuel
  | S f =>
      '(b, s) <- ff_read big s n ;;
      if zlen b =? 0 then Err EEof
      else '(bs, s) <- ff_read_exact big f s (n - zlen b) ;; Ok (b ++ bs, s)
  end.

(** std::io::SeekFrom *)
Inductive seek_from := Start (o : Z) | End_ (o : Z) | Current (o : Z).
(** i64::try_from(v).ok() for a u64 [v] *)
Definition to_i64 (v : Z) : option Z := if v <=? i64_max then Some v else None.
(** parse_offset: farbfeld.rs:116-136 *)
Definition parse_offset (orig end_ : Z) (p : seek_from) : res (option Z) :=
  match p with
  | Start o =>
      match to_i64 o, to_i64 orig with
      | Some a, Some b => Ok (if (i64_min <=? a - b) && (a - b <=? i64_max) then Some (a - b) else None)
      | _, _ => Ok None
      end
  | End_ o =>
      if o <? match to_i64 end_ with Some e => e | None => i64_max end then Ok None
      else if end_ <? orig then Ok None
      else match to_i64 (end_ - orig) with
           | None => Ok None
           | Some d => if i64_max <? d + o then Panic else Ok (Some (d + o))
           end
  | Current o => Ok (if o <? match to_i64 orig with Some e => e | None => i64_max end then None else Some o)
  end.
(** Cursor::seek(SeekFrom::Current(k)) *)
Definition cursor_seek (s : ff) (k : Z) : res ff :=
  let p := ff_pos s + k in
  if (p <? 0) || (u64_max <? p) then Err EParameter
  else Ok (mkFf (ff_w s) (ff_h s) (ff_file s) p (ff_off s) (ff_cache s)).
(** Seek::seek: farbfeld.rs:114-169; the first component is the value returned *)
Definition ff_seek (big : bool) (s : ff) (p : seek_from) : res (Z * ff) :=
  let orig := ff_off s in
  let wh := ff_w s * ff_h s * 2 in
  if u64_max <? wh then Panic else
  k <- parse_offset orig wh p ;;
  match k with
  | None => Err EParameter
  | Some k =>
      s <- cursor_seek s k ;;
      let off := orig + k in
      if (off <? 0) || (u64_max <? off) then Panic (* expect *) else
      let s := mkFf (ff_w s) (ff_h s) (ff_file s) (ff_pos s) off (ff_cache s) in
      if (off <? wh) && (off mod 2 =? 1) then
        s <- cursor_seek s (-1) ;;
        let curr := ff_pos s in
        '(_, s) <- cache_byte big s ;;
        Ok (orig, mkFf (ff_w s) (ff_h s) (ff_file s) curr (ff_off s) (ff_cache s))
      else Ok (orig, mkFf (ff_w s) (ff_h s) (ff_file s) (ff_pos s) (ff_off s) None)
  end.

(** ImageDecoder::read_image: farbfeld.rs:210-214; [n] = buf.len() *)
Definition ff_read_image (big : bool) (s : ff) (n : Z) : res (list Z) :=
  t <- total_bytes (ff_w s) (ff_h s) CRgba16 ;;
  if negb (n =? t) then Panic (* assert_eq! *)
  else '(b, _) <- ff_read_exact big (Z.to_nat n) s n ;; Ok b.
(** the whole decode: FarbfeldDecoder::new, dimensions, read_image into a buffer of total_bytes bytes *)
Definition ff_decode (big : bool) (file : list Z) : res (Z * Z * list Z) :=
  s <- ff_new file 0 ;;
  t <- total_bytes (ff_w s) (ff_h s) CRgba16 ;;
  b <- ff_read_image big s t ;;
  Ok (ff_w s, ff_h s, b).
(** ImageDecoderRect::read_rect: farbfeld.rs:221-250; returns the new contents of buf and the decoder *)
Definition ff_read_rect (big : bool) (s : ff) (x y w h : Z) (buf : list Z) (row_pitch : Z) : res (list Z * ff) :=
  '(start, s) <- ff_seek big s (Current 0) ;;
  '(buf, s) <- load_rect (fun s n => '(_, s) <- ff_seek big s (Start (n * 2)) ;; Ok s)
                 (fun s b => ff_read_exact big (length b) s (zlen b))
                 (ff_w s) (ff_h s) (ct_bytes CRgba16) x y w h buf row_pitch 2 s ;;
  '(_, s) <- ff_seek big s (Start start) ;;
  Ok (buf, s).

(** FarbfeldEncoder::encode / encode_impl: farbfeld.rs:268-297; the bytes written *)
Definition ff_encode (big : bool) (data : list Z) (w h : Z) : res (list Z) :=
  if negb (sat_mul_u64 (w * h) 8 =? zlen data) then Panic (* assert_eq! *)
  else Ok (magic ++ be32 w ++ be32 h ++
           flat_map (fun c => match c with [a; b] => ne_pair big a b | _ => [] end) (chunks_exact 2 data)).
(** write_image: farbfeld.rs:300-319 *)
Definition ff_write_image (big : bool) (data : list Z) (w h : Z) (c : ectype) : res (list Z) :=
  match c with XRgba16 => ff_encode big data w h | _ => Err EUnsupported end.
