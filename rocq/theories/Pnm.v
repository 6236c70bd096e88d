(** Model of src/codecs/pnm: header.rs (header records, PnmHeader::write), encoder.rs, autobreak.rs, decoder.rs.
    Text is a list of byte values.  The writer never fails (Vec<u8>), so an encoder run is the list of bytes written.
    The reader is the list of the bytes not consumed yet; it never returns an error other than the end of input.
    PnmHeader::encoded is never Some in the crate (only None is constructed) and is left out. *)
From Coq Require Import String Ascii.
From Verif Require Import Base ColorType Text Bits Float GenImage Farbfeld.
Local Open Scope Z_scope.

(** a string literal as bytes *)
Definition txt (s : string) : list Z := map (fun a => Z.of_nat (nat_of_ascii a)) (list_ascii_of_string s).

(** ** header.rs *)
(** SampleEncoding: header.rs:5-11 *)
Inductive senc := SBin | SAsc.
(** PnmSubtype: header.rs:15-27 *)
Inductive subtype := SubBit (e : senc) | SubGray (e : senc) | SubPix (e : senc) | SubArb.
(** ArbitraryTuplType: header.rs:113-134 *)
Inductive tupl := TBW | TBWA | TGray | TGrayA | TRgb | TRgbA | TCustom (s : list Z).
(** HeaderRecord and the four header structs: header.rs:40-109 *)
Inductive hdr :=
| HBit (e : senc) (w h : Z)
| HGray (e : senc) (w h maxwhite : Z)
| HPix (e : senc) (w h maxval : Z)
| HArb (w h depth maxval : Z) (t : option tupl).

(** ArbitraryTuplType::name: header.rs:136-148 *)
Definition tupl_name (t : tupl) : list Z :=
  match t with
  | TBW => txt "BLACKANDWHITE" | TBWA => txt "BLACKANDWHITE_ALPHA"
  | TGray => txt "GRAYSCALE" | TGrayA => txt "GRAYSCALE_ALPHA"
  | TRgb => txt "RGB" | TRgbA => txt "RGB_ALPHA" | TCustom s => s
  end.
(** PnmSubtype::magic_constant: header.rs:153-163 *)
Definition magic_constant (s : subtype) : list Z :=
  match s with
  | SubBit SAsc => txt "P1" | SubGray SAsc => txt "P2" | SubPix SAsc => txt "P3"
  | SubBit SBin => txt "P4" | SubGray SBin => txt "P5" | SubPix SBin => txt "P6"
  | SubArb => txt "P7"
  end.
(** PnmSubtype::sample_encoding: header.rs:167-174 *)
Definition sample_encoding (s : subtype) : senc :=
  match s with SubArb => SBin | SubBit e | SubGray e | SubPix e => e end.
(** PnmHeader::subtype, width, height, maximal_sample: header.rs:180-220 *)
Definition h_subtype (h : hdr) : subtype :=
  match h with HBit e _ _ => SubBit e | HGray e _ _ _ => SubGray e | HPix e _ _ _ => SubPix e | HArb _ _ _ _ _ => SubArb end.
Definition h_width (h : hdr) : Z :=
  match h with HBit _ w _ | HGray _ w _ _ | HPix _ w _ _ | HArb w _ _ _ _ => w end.
Definition h_height (h : hdr) : Z :=
  match h with HBit _ _ h | HGray _ _ h _ | HPix _ _ h _ | HArb _ h _ _ _ => h end.
Definition maximal_sample (h : hdr) : Z :=
  match h with HBit _ _ _ => 1 | HGray _ _ _ m | HPix _ _ _ m | HArb _ _ _ m _ => m end.

(** PnmHeader::write: header.rs:259-327 *)
Definition write_header (h : hdr) : list Z :=
  magic_constant (h_subtype h) ++
  match h with
  | HBit _ w hh => [10] ++ dec w ++ [32] ++ dec hh ++ [10]
  | HGray _ w hh m | HPix _ w hh m => [10] ++ dec w ++ [32] ++ dec hh ++ [32] ++ dec m ++ [10]
  | HArb w hh d m t =>
      [10] ++ txt "WIDTH " ++ dec w ++ [10] ++ txt "HEIGHT " ++ dec hh ++ [10] ++ txt "DEPTH " ++ dec d ++ [10] ++
      txt "MAXVAL " ++ dec m ++ [10] ++
      match t with Some t => txt "TUPLTYPE " ++ tupl_name t ++ [10] | None => [] end ++
      txt "ENDHDR" ++ [10]
  end.

(** ** autobreak.rs *)
(** AutoBreak: autobreak.rs:7-13: what has been passed on to the wrapped writer, and the current line.  has_newline is
    false between two calls, flush_buf (26-55) passes the whole line on. *)
Definition autobreak := (list Z * list Z)%type.
(** AutoBreak::write: autobreak.rs:59-74 *)
Definition ab_write (cap : Z) (s : autobreak) (buffer : list Z) : autobreak :=
  let '(out, line) := s in
  let '(out, line) :=
    if negb (zlen line =? 0) && (cap <? zlen line + zlen buffer) then (out ++ line ++ [10], []) else (out, line) in
  (out, line ++ buffer).
(** AutoBreak::flush: autobreak.rs:76-79 *)
Definition ab_flush (s : autobreak) : list Z := fst s ++ snd s.

(** ** encoder.rs *)
(** HeaderStrategy: encoder.rs:19-23 *)
Inductive strategy := Dynamic | Subtype (s : subtype) | Chosen (h : hdr).
(** FlatSamples: encoder.rs:26-29, len: 571-576 *)
Inductive samples := S8 (l : list Z) | S16 (l : list Z).
Definition vals (s : samples) : list Z := match s with S8 l | S16 l => l end.

(** FlatSamples::all_smaller: encoder.rs:578-583 (sic: any, not all) *)
Definition all_smaller (s : samples) (max_val : Z) : bool := existsb (fun v => max_val <? v) (vals s).

(** write_samples_ascii: encoder.rs:526-536.  write!(w, "{value} ") makes two write calls: the digits and the space. *)
Definition write_samples_ascii (l : list Z) : list Z :=
  ab_flush (fold_left (fun s v => ab_write 70 (ab_write 70 s (dec v)) [32]) l ([], [])).

(** slice::chunks *)
Fixpoint chunks_fuel (fuel : nat) (n : Z) (l : list Z) : list (list Z) :=
  match fuel, l with
  | S f, _ :: _ => firstn (Z.to_nat n) l :: chunks_fuel f n (skipn (Z.to_nat n) l)
  | _, _ => []
  end.
Definition chunks (n : Z) (l : list Z) : list (list Z) := chunks_fuel (length l) n l.
(** one byte of write_pbm_bits: encoder.rs:551-559 *)
Definition pbm_byte (bits : list Z) : Z :=
  fold_left (fun byte i =>
    match zget bits i with
    | Some v => if v =? 0 then Z.lor byte (Z.shiftl 1 (7 - i)) else byte
    | None => byte
    end) (zrange 0 8) 0.
(** write_pbm_bits: encoder.rs:538-567; a width of 0 panics ([width - 1], or [chunks(0)] in a release build) *)
Definition write_pbm_bits (l : list Z) (width : Z) : res (list Z) :=
  if width =? 0 then Panic
  else Ok (flat_map (fun line => map pbm_byte (chunks 8 line)) (chunks width l)).

(** CheckedImageBuffer::check: encoder.rs:307-331 *)
Definition check_buffer (s : samples) (w h : Z) (c : ectype) : res unit :=
  let expected := ect_channels c * w * h in
  if (expected <=? u64_max) && (zlen (vals s) =? expected) then Ok tt else Err EParameter.
(** check_header_dimensions: encoder.rs:335-352 *)
Definition check_header_dimensions (hd : hdr) (w h : Z) : res unit :=
  if negb (h_width hd =? w) || negb (h_height hd =? h) then Err EParameter else Ok tt.
(** check_header_color: encoder.rs:359-445 *)
Definition check_header_color (hd : hdr) (c : ectype) : res unit :=
  match hd with
  | HBit _ _ _ | HGray _ _ _ _ => match c with XL1 | XL8 | XL16 => Ok tt | _ => Err EParameter end
  | HPix _ _ _ _ => match c with XRgb8 => Ok tt | _ => Err EParameter end
  | HArb _ _ depth _ t =>
      match t, c with
      | Some TBW, XL1 => Ok tt
      | Some TBWA, XLa8 => Ok tt
      | Some TGray, XL1 => Ok tt
      | Some TGray, XL8 => Ok tt
      | Some TGray, XL16 => Ok tt
      | Some TGrayA, XLa8 => Ok tt
      | Some TRgb, XRgb8 => Ok tt
      | Some TRgbA, XRgba8 => Ok tt
      | None, _ => if depth =? ect_channels c then Ok tt else Err EParameter
      | Some (TCustom _), _ => if depth =? ect_channels c then Ok tt else Err EParameter
      | _, _ => Err EParameter
      end
  end.
(** the largest sample of a color type, check_sample_values: encoder.rs:458-480 *)
Definition max_sample (c : ectype) : res Z :=
  match c with
  | XUnknown n => if n <=? 16 then Ok (Z.shiftl 1 n - 1) else Err EUnsupported
  | XL1 => Ok 1
  | XL8 | XLa8 | XRgb8 | XRgba8 | XBgr8 | XBgra8 => Ok 255
  | XL16 | XLa16 | XRgb16 | XRgba16 => Ok 65535
  | _ => Err EUnsupported
  end.
(** check_sample_values: encoder.rs:449-509 *)
Definition check_sample_values (hd : hdr) (c : ectype) (w h : Z) (s : samples) : res unit :=
  m <- max_sample c ;;
  if (maximal_sample hd <? m) && negb (all_smaller s (maximal_sample hd)) then Err EUnsupported
  else check_buffer s w h c.
(** encoding_for and TupleEncoding::write_image: encoder.rs:585-621, 636-675 *)
Definition write_body (hd : hdr) (s : samples) : res (list Z) :=
  let raw := match s with S8 l => l | S16 l => flat_map be16 l end in
  match hd with
  | HBit SBin w _ => write_pbm_bits (vals s) w
  | HBit SAsc _ _ => Ok (write_samples_ascii (vals s))
  | HArb _ _ _ _ _ => Ok raw
  | HGray SAsc _ _ _ | HPix SAsc _ _ _ => Ok (write_samples_ascii (vals s))
  | HGray SBin _ _ _ | HPix SBin _ _ _ => Ok raw
  end.
(** write_with_header: encoder.rs:266-282 *)
Definition write_with_header (hd : hdr) (s : samples) (w h : Z) (c : ectype) : res (list Z) :=
  _ <- check_header_dimensions hd w h ;;
  _ <- check_header_color hd c ;;
  _ <- check_sample_values hd c w h s ;;
  b <- write_body hd s ;;
  Ok (write_header hd ++ b).
(** write_dynamic_header: encoder.rs:167-208 *)
Definition write_dynamic_header (s : samples) (w h : Z) (c : ectype) : res (list Z) :=
  let go := fun maxval t => write_with_header (HArb w h (ect_channels c) maxval (Some t)) s w h c in
  match c with
  | XL1 => go 1 TBW
  | XL8 => go 255 TGray
  | XL16 => go 65535 TGray
  | XLa1 => go 1 TBWA
  | XLa8 => go 255 TGrayA
  | XLa16 => go 65535 TGrayA
  | XRgb8 => go 255 TRgb
  | XRgb16 => go 65535 TRgb
  | XRgba8 => go 255 TRgbA
  | XRgba16 => go 65535 TRgbA
  | _ => Err EUnsupported
  end.
(** write_subtyped_header: encoder.rs:211-261 *)
Definition write_subtyped_header (st : subtype) (s : samples) (w h : Z) (c : ectype) : res (list Z) :=
  match st, c with
  | SubArb, _ => write_dynamic_header s w h c
  | SubPix e, XRgb8 => write_with_header (HPix e w h 255) s w h c
  | SubGray e, XL8 => write_with_header (HGray e w h 255) s w h c
  | SubBit e, XL8 | SubBit e, XL1 => write_with_header (HBit e w h) s w h c
  | _, _ => Err EParameter
  end.
(** PnmEncoder::encode: encoder.rs:142-162 *)
Definition encode (st : strategy) (s : samples) (w h : Z) (c : ectype) : res (list Z) :=
  match st with
  | Dynamic => write_dynamic_header s w h c
  | Subtype t => write_subtyped_header t s w h c
  | Chosen hd => write_with_header hd s w h c
  end.
(** ImageEncoder::write_image for PnmEncoder: encoder.rs:287-303 *)
Definition write_image (st : strategy) (buf : list Z) (w h : Z) (c : ectype) : res (list Z) :=
  n <- buffer_size c w h ;;
  if n =? zlen buf then encode st (S8 buf) w h c else Panic.

(** ** decoder.rs *)
(** TupleType: decoder.rs:221-228 *)
Inductive tuple := PbmBit | BWBit | GrayU8 | GrayU16 | RGBU8 | RGBU16.

(** read_next_string: decoder.rs:369-416; [on] is the state [partof] of the comment scanner, [acc] the bytes so far *)
Fixpoint read_next_string (on : bool) (acc r : list Z) : res (list Z * list Z) :=
  match r with
  | [] => match acc with [] => Err EEof | _ => Ok (acc, []) end
  | b :: r' =>
      let cur := on && negb (b =? 35) in
      let nxt := cur || ((b =? 13) || (b =? 10)) in
      if negb cur then read_next_string nxt acc r'
      else if is_ws b then match acc with [] => read_next_string nxt acc r' | _ => Ok (acc, r') end
      else if 128 <=? b then Err EDecoding
      else read_next_string nxt (acc ++ [b]) r'
  end.
(** read_next_u32: decoder.rs:432-436 *)
Definition read_next_u32 (r : list Z) : res (Z * list Z) :=
  '(s, r) <- read_next_string true [] r ;;
  match parse_u32 s with Some v => Ok (v, r) | None => Err EDecoding end.

(** String::from_utf8: the byte sequences accepted are the well-formed ones (Unicode table 3-7) *)
Definition cont (b : Z) : bool := (128 <=? b) && (b <=? 191).
Definition within (lo hi b : Z) : bool := (lo <=? b) && (b <=? hi).
Fixpoint utf8 (l : list Z) : bool :=
  match l with
  | [] => true
  | b :: l1 =>
      if b <? 128 then utf8 l1
      else match l1 with
      | [] => false
      | b1 :: l2 =>
          if within 194 223 b then cont b1 && utf8 l2
          else match l2 with
          | [] => false
          | b2 :: l3 =>
              if within 224 239 b
              then (if b =? 224 then within 160 191 b1 else if b =? 237 then within 128 159 b1 else cont b1)
                   && cont b2 && utf8 l3
              else match l3 with
              | [] => false
              | b3 :: l4 =>
                  within 240 244 b
                  && (if b =? 240 then within 144 191 b1 else if b =? 244 then within 128 143 b1 else cont b1)
                  && cont b2 && cont b3 && utf8 l4
              end
          end
      end
  end.

(** the header lines read so far: decoder.rs:502-506 *)
Record pam := mkPam { p_h : option Z; p_w : option Z; p_d : option Z; p_m : option Z; p_t : option (list Z) }.
(** parse_single_value_line: decoder.rs:477-491 *)
Definition parse_line (old : option Z) (rest : list Z) : res (option Z) :=
  match old with
  | Some _ => Err EDecoding
  | None => match parse_u32 (trim rest) with Some v => Ok (Some v) | None => Err EDecoding end
  end.
(** line.find(char::is_whitespace) on an ASCII line *)
Fixpoint find_ws (l : list Z) : nat :=
  match l with [] => 0%nat | b :: r => if is_ws b then 0%nat else S (find_ws r) end.
(** one line of read_arbitrary_header, decoder.rs:508-542 with read_next_line's from_utf8 (428-429);
    None: the line was ENDHDR *)
Definition pam_line (line : list Z) (p : pam) : res (option pam) :=
  if negb (utf8 line) then Err EDecoding else
  match line with
  | [] => Err EDecoding
  | b :: _ =>
      if b =? 35 then Ok (Some p)
      else if negb (forallb (fun b => b <? 128) line) then Err EDecoding
      else
        let t := trim_start line in
        let n := find_ws line in
        if Nat.ltb (length t) n then Panic else
        let id := firstn n t in
        let rest := skipn n t in
        if leqb id (txt "ENDHDR") then Ok None
        else if leqb id (txt "HEIGHT") then v <- parse_line (p_h p) rest ;; Ok (Some (mkPam v (p_w p) (p_d p) (p_m p) (p_t p)))
        else if leqb id (txt "WIDTH") then v <- parse_line (p_w p) rest ;; Ok (Some (mkPam (p_h p) v (p_d p) (p_m p) (p_t p)))
        else if leqb id (txt "DEPTH") then v <- parse_line (p_d p) rest ;; Ok (Some (mkPam (p_h p) (p_w p) v (p_m p) (p_t p)))
        else if leqb id (txt "MAXVAL") then v <- parse_line (p_m p) rest ;; Ok (Some (mkPam (p_h p) (p_w p) (p_d p) v (p_t p)))
        else if leqb id (txt "TUPLTYPE") then
          let t' := match p_t p with Some o => o ++ [32] ++ trim rest | None => trim rest end in
          Ok (Some (mkPam (p_h p) (p_w p) (p_d p) (p_m p) (Some t')))
        else Err EDecoding
  end.
(** the loop of read_arbitrary_header, decoder.rs:507-543, merged with read_next_line (418-427): [cur] is the line so
    far; at the end of the input the pending line is processed and the line after it is empty, which is an error *)
Fixpoint pam_lines (cur : list Z) (p : pam) (r : list Z) : res (pam * list Z) :=
  match r with
  | [] =>
      o <- pam_line cur p ;;
      match o with None => Ok (p, []) | Some _ => Err EDecoding end
  | b :: r' =>
      if b =? 10 then
        o <- pam_line cur p ;;
        match o with None => Ok (p, r') | Some p' => pam_lines [] p' r' end
      else pam_lines (cur ++ [b]) p r'
  end.
(** the tuple type names: decoder.rs:555-566 *)
Definition tupl_of (s : list Z) : tupl :=
  if leqb s (txt "BLACKANDWHITE") then TBW
  else if leqb s (txt "BLACKANDWHITE_ALPHA") then TBWA
  else if leqb s (txt "GRAYSCALE") then TGray
  else if leqb s (txt "GRAYSCALE_ALPHA") then TGrayA
  else if leqb s (txt "RGB") then TRgb
  else if leqb s (txt "RGB_ALPHA") then TRgbA
  else TCustom s.
(** read_arbitrary_header: decoder.rs:476-575 *)
Definition read_arbitrary_header (r : list Z) : res (hdr * list Z) :=
  '(c, r) <- read_u8 r ;;
  if negb (c =? 10) then Err EDecoding else
  '(p, r) <- pam_lines [] (mkPam None None None None None) r ;;
  match p_h p, p_w p, p_d p, p_m p with
  | Some h, Some w, Some d, Some m => Ok (HArb w h d m (option_map tupl_of (p_t p)), r)
  | _, _, _, _ => Err EDecoding
  end.

(** DecodableImageHeader::tuple_type: decoder.rs:807-919 *)
Definition tuple_type (hd : hdr) : res tuple :=
  match hd with
  | HBit _ _ _ => Ok PbmBit
  | HGray _ _ _ m =>
      if m =? 0 then Err EDecoding else if m <=? 255 then Ok GrayU8 else if m <=? 65535 then Ok GrayU16 else Err EDecoding
  | HPix _ _ _ m =>
      if m =? 0 then Err EDecoding else if m <=? 255 then Ok RGBU8 else if m <=? 65535 then Ok RGBU16 else Err EDecoding
  | HArb _ _ d m t =>
      if m =? 0 then Err EDecoding else
      match t with
      | None =>
          if d =? 1 then Ok GrayU8 else if d =? 2 then Err EUnsupported
          else if d =? 3 then Ok RGBU8 else if d =? 4 then Err EUnsupported else Err EDecoding
      | Some TBW => if (m =? 1) && (d =? 1) then Ok BWBit else Err EDecoding
      | Some TGray =>
          if (d =? 1) && (m <=? 255) then Ok GrayU8
          else if (d <=? 1) && (m <=? 65535) then Ok GrayU16 else Err EDecoding
      | Some TRgb =>
          if (d =? 3) && (m <=? 255) then Ok RGBU8
          else if (d =? 3) && (m <=? 65535) then Ok RGBU16 else Err EDecoding
      | Some _ => Err EUnsupported
      end
  end.
(** color_type: decoder.rs:585-594 *)
Definition color_of (t : tuple) : ctype :=
  match t with PbmBit | BWBit | GrayU8 => CL8 | GrayU16 => CL16 | RGBU8 => CRgb8 | RGBU16 => CRgb16 end.

(** PnmDecoder: decoder.rs:254-258 *)
Record decoder := mkDec { d_hdr : hdr; d_tuple : tuple; d_reader : list Z }.
(** the header of a given subtype: decoder.rs:308-357 with 438-474 *)
Definition read_header (st : subtype) (r : list Z) : res (hdr * list Z) :=
  match st with
  | SubBit e =>
      '(w, r) <- read_next_u32 r ;; '(h, r) <- read_next_u32 r ;; Ok (HBit e w h, r)
  | SubGray e =>
      '(w, r) <- read_next_u32 r ;; '(h, r) <- read_next_u32 r ;; '(m, r) <- read_next_u32 r ;; Ok (HGray e w h m, r)
  | SubPix e =>
      '(w, r) <- read_next_u32 r ;; '(h, r) <- read_next_u32 r ;; '(m, r) <- read_next_u32 r ;; Ok (HPix e w h m, r)
  | SubArb => read_arbitrary_header r
  end.
(** the magic constant: decoder.rs:265-274 *)
Definition subtype_of (m : list Z) : res subtype :=
  if leqb m (txt "P1") then Ok (SubBit SAsc)
  else if leqb m (txt "P2") then Ok (SubGray SAsc)
  else if leqb m (txt "P3") then Ok (SubPix SAsc)
  else if leqb m (txt "P4") then Ok (SubBit SBin)
  else if leqb m (txt "P5") then Ok (SubGray SBin)
  else if leqb m (txt "P6") then Ok (SubPix SBin)
  else if leqb m (txt "P7") then Ok SubArb
  else Err EDecoding.
(** PnmDecoder::new: decoder.rs:262-301 *)
Definition pnm_new (file : list Z) : res decoder :=
  '(m, r) <- read_exact 2 file ;;
  st <- subtype_of m ;;
  '(hd, r) <- read_header st r ;;
  t <- tuple_type hd ;;
  o <- check_dimension_overflow (h_width hd) (h_height hd) (ct_bytes (color_of t)) ;;
  if (o : bool) then Err EUnsupported else Ok (mkDec hd t r).

(** u32 multiplication: a panic with overflow checks (Debug), else wrapping *)
Definition mul_u32 (m : mode) (a b : Z) : res Z :=
  if a * b <=? u32_max then Ok (a * b) else match m with Debug => Panic | Release => Ok (wrap_u32 (a * b)) end.
(** Sample::sample_size: decoder.rs:234-236, 711, 727, 751, 792 *)
Definition sample_size (t : tuple) : Z := match t with GrayU16 | RGBU16 => 2 | _ => 1 end.
(** the [components] argument of read_samples: decoder.rs:609-616 *)
Definition components (t : tuple) : Z := match t with RGBU8 | RGBU16 => 3 | _ => 1 end.
(** Sample::bytelen: decoder.rs:237-239, 753-757 *)
Definition bytelen (m : mode) (t : tuple) (w h : Z) : res Z :=
  match t with
  | PbmBit =>
      c <- mul_u32 m w (components t) ;;
      mul_u32 m (c / 8 + (if c mod 8 =? 0 then 0 else 1)) h
  | _ =>
      a <- mul_u32 m w h ;; b <- mul_u32 m a (components t) ;; mul_u32 m b (sample_size t)
  end.

(** read_separated_ascii: decoder.rs:689-708, the value before the final try_from *)
Fixpoint sep_digits (v : Z) (r : list Z) : res (Z * list Z) :=
  match r with
  | [] => Ok (v, [])
  | b :: r' =>
      if is_ws b then Ok (v, r')
      else if negb (is_digit b) then Err EDecoding
      else if v * 10 + (b - 48) <=? 65535 then sep_digits (v * 10 + (b - 48)) r' else Err EDecoding
  end.
(** read_separated_ascii::<T>; [max] is T::MAX *)
Definition read_separated_ascii (max : Z) (r : list Z) : res (Z * list Z) :=
  '(v, r) <- sep_digits 0 (trim_start r) ;;
  if v <=? max then Ok (v, r) else Err EDecoding.
(** the sample loop of from_ascii: decoder.rs:718-723, 738-744 *)
Fixpoint read_ascii_samples (n : nat) (max : Z) (r : list Z) : res (list Z) :=
  match n with
  | O => Ok []
  | S n' => '(v, r) <- read_separated_ascii max r ;; l <- read_ascii_samples n' max r ;; Ok (v :: l)
  end.
(** PbmBit::from_ascii: decoder.rs:768-787 *)
Fixpoint read_pbm_ascii (n : nat) (r : list Z) {struct r} : res (list Z) :=
  match n with
  | O => Ok []
  | S n' =>
      match r with
      | [] => Err EDecoding
      | b :: r' =>
          if is_ws b then read_pbm_ascii n r'
          else if b =? 48 then l <- read_pbm_ascii n' r' ;; Ok (255 :: l)
          else if b =? 49 then l <- read_pbm_ascii n' r' ;; Ok (0 :: l)
          else Err EDecoding
      end
  end.

(** NativeEndian::read_u16 / write_u16 *)
Definition ne_val (big : bool) (c : list Z) : Z :=
  match c with [a; b] => if big then 256 * a + b else a + 256 * b | _ => 0 end.
Definition ne_bytes (big : bool) (v : Z) : list Z := ne_pair big (v / 256) (v mod 256).

(** copy_from_slice into a buffer of [n] bytes *)
Definition copy_into (n : Z) (l : list Z) : res (list Z) := if zlen l =? n then Ok l else Panic.
(** Sample::from_bytes: decoder.rs:713-716, 729-736, 759-766, 794-800; [n] is the length of the output buffer *)
Definition from_bytes (big : bool) (t : tuple) (row_size n : Z) (b : list Z) : res (list Z) :=
  match t with
  | PbmBit => e <- expand_bits 1 row_size b ;; copy_into n (map (fun v => 255 - v) e)
  | BWBit => o <- copy_into n b ;; if existsb (fun v => 1 <? v) o then Err EDecoding else Ok o
  | GrayU8 | RGBU8 => copy_into n b
  | GrayU16 | RGBU16 =>
      o <- copy_into n b ;; Ok (flat_map (fun c => ne_bytes big (ne_val true c)) (chunks_exact 2 o))
  end.
(** Sample::from_ascii: decoder.rs:718-723, 738-744, 768-787, 802-804 *)
Definition from_ascii (big : bool) (t : tuple) (n : Z) (r : list Z) : res (list Z) :=
  match t with
  | PbmBit => read_pbm_ascii (Z.to_nat n) r
  | BWBit => Panic
  | GrayU8 | RGBU8 => read_ascii_samples (Z.to_nat n) 255 r
  | GrayU16 | RGBU16 => l <- read_ascii_samples (Z.to_nat (n / 2)) 65535 r ;; Ok (flat_map (ne_bytes big) l)
  end.
(** the scaling of one sample: decoder.rs:658-674 *)
Definition scale (target current v : Z) : Z :=
  f32_as 0 target (f32_round (f32_mul (f32_of_Z v) (f32_div (f32_of_Z target) (f32_of_Z current)))).
(** the scaling of the buffer: decoder.rs:657-674 *)
Definition scale_buf (big : bool) (t : tuple) (current : Z) (buf : list Z) : list Z :=
  let target := if sample_size t =? 1 then 255 else 65535 in
  if current =? target then buf
  else if sample_size t =? 1 then map (scale target current) buf
  else flat_map (fun c => ne_bytes big (scale target current (ne_val big c))) (chunks_exact 2 buf).
(** read_samples: decoder.rs:625-677; the contents of the buffer after an Ok *)
Definition read_samples (m : mode) (big : bool) (d : decoder) (n : Z) : res (list Z) :=
  let hd := d_hdr d in let t := d_tuple d in
  buf <- (match sample_encoding (h_subtype hd) with
          | SBin =>
              bytecount <- bytelen m t (h_width hd) (h_height hd) ;;
              let b := firstn (Z.to_nat bytecount) (d_reader d) in
              if negb (zlen b =? bytecount) then Err EDecoding
              else from_bytes big t (h_width hd * components t) n b
          | SAsc => from_ascii big t n (d_reader d)
          end) ;;
  Ok (scale_buf big t (maximal_sample hd) buf).
(** ImageDecoder::read_image for PnmDecoder into a buffer of [n] bytes: decoder.rs:607-617 *)
Definition read_image (m : mode) (big : bool) (d : decoder) (n : Z) : res (list Z) :=
  t <- total_bytes (h_width (d_hdr d)) (h_height (d_hdr d)) (color_of (d_tuple d)) ;;
  if n =? t then read_samples m big d n else Panic.
(** a whole decoding: PnmDecoder::new, the color type and dimensions, read_image into a buffer of total_bytes bytes
    allocated as decoder_to_vec does (image.rs:616-623) *)
Definition pnm_decode (m : mode) (big : bool) (file : list Z) : res (Z * Z * ctype * list Z) :=
  d <- pnm_new file ;;
  n <- total_bytes (h_width (d_hdr d)) (h_height (d_hdr d)) (color_of (d_tuple d)) ;;
  if isize_max <? n then Err ELimits else
  buf <- read_image m big d n ;;
  Ok (h_width (d_hdr d), h_height (d_hdr d), color_of (d_tuple d), buf).
