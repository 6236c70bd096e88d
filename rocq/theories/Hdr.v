(** Model of the Radiance HDR codec at the level of RGBE pixels: src/codecs/hdr/encoder.rs and
    src/codecs/hdr/decoder.rs.  The conversions between Rgb<f32> and RGBE (to_rgbe8, to_hdr) are not
    modelled; the decoder's pixel transformation [f] is a parameter.  usize is 64 bits. *)
From Verif Require Import Base GenImage Text.
Local Open Scope Z_scope.

(** struct Rgbe8Pixel: decoder.rs:128-136 *)
Record rgbe := mkRgbe { p0 : Z; p1 : Z; p2 : Z; pe : Z }.
Definition rgbe_ok (p : rgbe) : Prop := is_u8 (p0 p) /\ is_u8 (p1 p) /\ is_u8 (p2 p) /\ is_u8 (pe p).
(** write_rgbe8: encoder.rs:273-275 *)
Definition write_rgbe8 (p : rgbe) : list Z := [p0 p; p1 p; p2 p; pe p].

(** ** Run-length compression *)
(** enum RunOrNot: encoder.rs:122-125; RUN_MAX_LEN, NORUN_MAX_LEN: encoder.rs:129-130 *)
Inductive rnr := Run (c len : Z) | Norun (idx len : Z).
Definition RUN_MAX_LEN : Z := 127.
Definition NORUN_MAX_LEN : Z := 128.

(** .iter().take_while(|&&v| v == cv).take(n).count() *)
Fixpoint run_count (n : nat) (cv : Z) (l : list Z) : Z :=
  match n, l with
  | S n', v :: r => if v =? cv then 1 + run_count n' cv r else 0
  | _, _ => 0
  end.
(** RunIterator::next: encoder.rs:146-165.  State: curidx. *)
Definition run_next (data : list Z) (cur : Z) : res (option rnr * Z) :=
  if cur =? zlen data then Ok (None, cur)
  else match zget data cur with
       | None => Panic
       | Some cv =>
           let crun := run_count (Z.to_nat RUN_MAX_LEN) cv (skipn (Z.to_nat cur) data) in
           Ok (Some (if 2 <? crun then Run cv crun else Norun cur crun), cur + crun)
       end.

(** One iteration of the loop in NorunCombineIterator::next: encoder.rs:186-243.
    State (curidx, prev); inl = continue the loop, inr = return. *)
Definition combine_step (data : list Z) (st : Z * option rnr)
  : (Z * option rnr) + res (option rnr * (Z * option rnr)) :=
  let (cur, prev) := st in
  match prev with
  | Some (Run c len) => inr (Ok (Some (Run c len), (cur, None)))
  | Some (Norun idx len) =>
      match run_next data cur with
      | Ok (Some (Norun _ len1), cur') =>
          let clen := len + len1 in
          if clen =? NORUN_MAX_LEN then inr (Ok (Some (Norun idx clen), (cur', None)))
          else if NORUN_MAX_LEN <? clen
               then inr (Ok (Some (Norun idx NORUN_MAX_LEN), (cur', Some (Norun (idx + NORUN_MAX_LEN) (clen - NORUN_MAX_LEN)))))
               else inl (cur', Some (Norun idx (len + len1)))
      | Ok (Some (Run c len1), cur') => inr (Ok (Some (Norun idx len), (cur', Some (Run c len1))))
      | Ok (None, cur') => inr (Ok (Some (Norun idx len), (cur', None)))
      | Err e => inr (Err e)
      | Panic => inr Panic
      end
  | None =>
      match run_next data cur with
      | Ok (Some (Norun idx len), cur') => inl (cur', Some (Norun idx len))
      | Ok (Some (Run c len), cur') => inr (Ok (Some (Run c len), (cur', None)))
      | Ok (None, cur') => inr (Ok (None, (cur', None)))
      | Err e => inr (Err e)
      | Panic => inr Panic
      end
  end.
(** NorunCombineIterator::next: the loop, with fuel (more than 128 iterations are never needed) *)
Definition combine_next (data : list Z) (st : Z * option rnr) : res (option rnr * (Z * option rnr)) :=
  match loopk 8 (combine_step data) st with
  | inl _ => Err EFuel
  | inr r => r
  end.

(** The body of rle_compress's loop: encoder.rs:257-270 *)
Definition rle_item (data : list Z) (it : rnr) : res (list Z) :=
  match it with
  | Run c len => if len <=? 127 then (if 128 + len <=? 255 then Ok [128 + len; c] else Panic) else Panic
  | Norun idx len =>
      if len <=? 128 then
        if idx + len <=? zlen data then Ok (len :: zslice data idx len) else Panic
      else Panic
  end.
Fixpoint rle_loop (fuel : nat) (data : list Z) (st : Z * option rnr) (out : list Z) : res (list Z) :=
  match fuel with
  | O => Err EFuel
  | S f => '(o, st') <- combine_next data st ;;
           match o with
           | None => Ok out
           | Some it => b <- rle_item data it ;; rle_loop f data st' (out ++ b)
           end
  end.
(** rle_compress: encoder.rs:248-271 *)
Definition rle_compress (data : list Z) : res (list Z) :=
  match data with
  | [] => Ok [0]
  | _ => rle_loop (S (length data)) data (0, None) []
  end.

(** ** Encoder *)
(** SIGNATURE: decoder.rs:116, "#?RADIANCE" *)
Definition SIGNATURE : list Z := [35; 63; 82; 65; 68; 73; 65; 78; 67; 69].
(** "# Rust HDR encoder" *)
Definition COMMENT : list Z := [35; 32; 82; 117; 115; 116; 32; 72; 68; 82; 32; 101; 110; 99; 111; 100; 101; 114].
(** "FORMAT=32-bit_rle_rgbe" *)
Definition FORMAT_KEY : list Z := [70; 79; 82; 77; 65; 84].
Definition FORMAT_VAL : list Z := [51; 50; 45; 98; 105; 116; 95; 114; 108; 101; 95; 114; 103; 98; 101].
(** the dimension line "-Y {height} +X {width}" *)
Definition dim_line (w h : Z) : list Z := [45; 89; 32] ++ dec h ++ [32; 43; 88; 32] ++ dec w.
Definition nl : list Z := [10].

Fixpoint scanlines (n : nat) (w : Z) (px : list rgbe) : res (list Z) :=
  match n with
  | O => Ok []
  | S n' =>
      if zlen px <? w then Panic
      else
        let row := firstn (Z.to_nat w) px in
        let marker := mkRgbe 2 2 (wrap_u8 (w / 256)) (wrap_u8 (w mod 256)) in
        r <- rle_compress (map p0 row) ;; g <- rle_compress (map p1 row) ;;
        b <- rle_compress (map p2 row) ;; e <- rle_compress (map pe row) ;;
        rest <- scanlines n' w (skipn (Z.to_nat w) px) ;;
        Ok (write_rgbe8 marker ++ r ++ g ++ b ++ e ++ rest)
  end.
(** encode_pixels: encoder.rs:55-118 *)
Definition encode_pixels (px : list rgbe) (w h : Z) : res (list Z) :=
  if negb (w * h <=? u64_max) then Panic
  else if zlen px <? w * h then Panic
  else
    let header := SIGNATURE ++ nl ++ COMMENT ++ nl ++ FORMAT_KEY ++ [61] ++ FORMAT_VAL ++ nl ++ nl ++ dim_line w h ++ nl in
    if negb ((8 <=? w) && (w <=? 32768)) then Ok (header ++ flat_map write_rgbe8 px)
    else body <- scanlines (Z.to_nat h) w px ;; Ok (header ++ body).

(** ** Decoder: scanlines *)
(** read_rgbe: decoder.rs:454-461 *)
Definition read_rgbe (r : reader) : res (rgbe * reader) :=
  match r with
  | a :: b :: c :: d :: r' => Ok (mkRgbe a b c d, r')
  | _ => Err EEof
  end.
(** the four closures |offset, value| buf[offset].c[k] = value: decoder.rs:333-336 *)
Inductive comp := C0 | C1 | C2 | CE.
Definition setc (k : comp) (p : rgbe) (v : Z) : rgbe :=
  match k with
  | C0 => mkRgbe v (p1 p) (p2 p) (pe p)
  | C1 => mkRgbe (p0 p) v (p2 p) (pe p)
  | C2 => mkRgbe (p0 p) (p1 p) v (pe p)
  | CE => mkRgbe (p0 p) (p1 p) (p2 p) v
  end.
Definition set_component (k : comp) (buf : list rgbe) (off v : Z) : res (list rgbe) :=
  match zget buf off with
  | Some p => Ok (zset buf off (setc k p v))
  | None => Panic
  end.
(** for (offset, &value) in values.iter().enumerate() { set_component(pos + offset, value) } *)
Fixpoint set_run (k : comp) (buf : list rgbe) (pos : Z) (vs : list Z) : res (list rgbe) :=
  match vs with
  | [] => Ok buf
  | v :: vs' => b <- set_component k buf pos v ;; set_run k b (pos + 1) vs'
  end.
(** decode_component: decoder.rs:353-395; fuel = number of bytes left + 1 *)
Fixpoint decode_component_loop (fuel : nat) (k : comp) (w pos : Z) (buf : list rgbe) (r : reader)
  : res (list rgbe * reader) :=
  if pos <? w then
    match fuel with
    | O => Err EFuel
    | S f =>
        '(rl, r1) <- read_u8 r ;;
        if rl <=? 128 then
          if w <? pos + rl then Err EDecoding
          else '(vs, r2) <- read_exact rl r1 ;;
               b <- set_run k buf pos vs ;;
               decode_component_loop f k w (pos + rl) b r2
        else
          let rl := rl - 128 in
          if w <? pos + rl then Err EDecoding
          else '(v, r2) <- read_u8 r1 ;;
               b <- set_run k buf pos (repeat v (Z.to_nat rl)) ;;
               decode_component_loop f k w (pos + rl) b r2
    end
  else if negb (pos =? w) then Err EDecoding else Ok (buf, r).
Definition decode_component (k : comp) (w : Z) (buf : list rgbe) (r : reader) :=
  decode_component_loop (S (length r)) k w 0 buf r.

(** rl_marker: decoder.rs:406-412 *)
Definition rl_marker (p : rgbe) : option Z :=
  if (p0 p =? 1) && (p1 p =? 1) && (p2 p =? 1) then Some (pe p) else None.
(** usize multiplication: panics on overflow in a debug build, wraps in a release build *)
Definition us_mul_m (m : mode) (a b : Z) : res Z :=
  match m with
  | Debug => if a * b <=? u64_max then Ok (a * b) else Panic
  | Release => Ok (wrap_u64 (a * b))
  end.
Definition us_add_m (m : mode) (a b : Z) : res Z :=
  match m with
  | Debug => if a + b <=? u64_max then Ok (a + b) else Panic
  | Release => Ok (wrap_u64 (a + b))
  end.
(** for b in &mut buf[x_off..x_off + rl] { *b = prev_pixel } *)
Definition fill (buf : list rgbe) (off n : Z) (p : rgbe) : res (list rgbe) :=
  if off + n <=? zlen buf then Ok (zsplice buf off (repeat p (Z.to_nat n))) else Panic.
(** the while loop of decode_old_rle: decoder.rs:421-451 *)
Fixpoint old_rle_loop (fuel : nat) (m : mode) (x_off rl_mult : Z) (prev : rgbe) (buf : list rgbe) (r : reader)
  : res (list rgbe * reader) :=
  if x_off <? zlen buf then
    match fuel with
    | O => Err EFuel
    | S f =>
        '(pix, r1) <- read_rgbe r ;;
        match rl_marker pix with
        | Some rl =>
            rl <- us_mul_m m rl rl_mult ;;
            mult <- us_mul_m m rl_mult 256 ;;
            e <- us_add_m m x_off rl ;;
            if e <=? zlen buf
            then b <- fill buf x_off rl prev ;; old_rle_loop f m e mult prev b r1
            else Err EDecoding
        | None =>
            match zget buf x_off with
            | None => Panic
            | Some _ => old_rle_loop f m (x_off + 1) 1 pix (zset buf x_off pix) r1
            end
        end
    end
  else if negb (x_off =? zlen buf) then Err EDecoding else Ok (buf, r).
(** decode_old_rle: decoder.rs:400-452 *)
Definition decode_old_rle (m : mode) (fb : rgbe) (buf : list rgbe) (r : reader) : res (list rgbe * reader) :=
  if zlen buf =? 0 then Panic
  else match rl_marker fb with
       | Some _ => Err EDecoding
       | None => old_rle_loop (S (length r)) m 1 1 fb (zset buf 0 fb) r
       end.
(** read_scanline: decoder.rs:324-342 *)
Definition read_scanline (m : mode) (buf : list rgbe) (r : reader) : res (list rgbe * reader) :=
  if zlen buf =? 0 then Panic
  else
    '(fb, r1) <- read_rgbe r ;;
    if (p0 fb =? 2) && (p1 fb =? 2) && (p2 fb <? 128) then
      let w := zlen buf in
      '(b, r2) <- decode_component C0 w buf r1 ;;
      '(b, r3) <- decode_component C1 w b r2 ;;
      '(b, r4) <- decode_component C2 w b r3 ;;
      decode_component CE w b r4
    else decode_old_rle m fb buf r1.

(** read_image_transform: decoder.rs:266-293: [T] and [f] are the pixel transformation.  The output
    slice is produced row by row; [buf] is reused between rows as in the code. *)
Section Transform.
Context {T : Type} (f : rgbe -> T).
Fixpoint read_rows (n : nat) (m : mode) (buf : list rgbe) (r : reader) (out : list T) : res (list T * reader) :=
  match n with
  | O => Ok (out, r)
  | S n' => '(b, r') <- read_scanline m buf r ;; read_rows n' m b r' (out ++ map f b)
  end.
Definition read_image_transform (m : mode) (w h : Z) (r : reader) : res (list T * reader) :=
  if (w =? 0) || (h =? 0) then Ok ([], r)
  else read_rows (Z.to_nat h) m (repeat (mkRgbe 0 0 0 0) (Z.to_nat w)) r [].
End Transform.

(** ** Decoder: header (strict mode) *)
(** read_line_u8: decoder.rs:687-700 *)
Fixpoint read_line_aux (r : reader) (ret : list Z) : option (list Z) * reader :=
  match r with
  | [] => (match ret with [] => None | _ => Some ret end, [])
  | b :: r' => if b =? 10 then (Some ret, r') else read_line_aux r' (ret ++ [b])
  end.
Definition read_line_u8 (r : reader) : option (list Z) * reader := read_line_aux r [].

(** split_at_first(line, "="): decoder.rs:676-682 *)
Fixpoint find_eq (l : list Z) (i : Z) : option Z :=
  match l with [] => None | b :: r => if b =? 61 then Some i else find_eq r (i + 1) end.
Definition split_at_first (l : list Z) : option (list Z * list Z) :=
  match find_eq l 0 with
  | None => None
  | Some p => if p =? 0 then None
              else if zlen l - 1 <=? p then None
              else Some (firstn (Z.to_nat p) l, skipn (Z.to_nat (p + 1)) l)
  end.
(** update_header_info in strict mode: decoder.rs:508-597.  Only the outcome (accepted or rejected)
    is modelled; [floats_ok key val] stands for the float parsing of the EXPOSURE, PIXASPECT and
    COLORCORR lines. *)
Definition EXPOSURE : list Z := [69; 88; 80; 79; 83; 85; 82; 69].
Definition PIXASPECT : list Z := [80; 73; 88; 65; 83; 80; 69; 67; 84].
Definition COLORCORR : list Z := [67; 79; 76; 79; 82; 67; 79; 82; 82].
Section Header.
Variable floats_ok : list Z -> list Z -> bool.
Definition update_header_info (line : list Z) : res unit :=
  match split_at_first line with
  | None => Ok tt
  | Some (key, val) =>
      let key := trim key in
      if leqb key FORMAT_KEY then (if leqb (trim val) FORMAT_VAL then Ok tt else Err EUnsupported)
      else if leqb key EXPOSURE || leqb key PIXASPECT || leqb key COLORCORR
           then (if floats_ok key val then Ok tt else Err EDecoding)
      else Ok tt
  end.
(** the header loop of with_strictness: decoder.rs:202-222; fuel = bytes left + 1 *)
Fixpoint header_loop (fuel : nat) (r : reader) : res reader :=
  match fuel with
  | O => Err EFuel
  | S f =>
      match read_line_u8 r with
      | (None, _) => Err EDecoding
      | (Some [], r') => Ok r'
      | (Some (b :: l), r') =>
          if b =? 35 then header_loop f r'
          else _ <- update_header_info (b :: l) ;; header_loop f r'
      end
  end.
(** parse_dimensions_line: decoder.rs:617-662, strict *)
Definition parse_dimensions_line (line : list Z) : res (Z * Z) :=
  match split_ws line with
  | [t1; s1; t2; s2] =>
      if leqb t1 [45; 89] && leqb t2 [43; 88] then
        match parse_u32 s1 with
        | None => Err EDecoding
        | Some h => match parse_u32 s2 with None => Err EDecoding | Some w => Ok (w, h) end
        end
      else Err EUnsupported
  | _ => Err EDecoding
  end.
(** HdrDecoder::new (strict): decoder.rs:181-258; check_dimension_overflow: utils/mod.rs:68-70 *)
Definition hdr_new (r : reader) : res (Z * Z * reader) :=
  '(sig, r) <- read_exact 10 r ;;
  if negb (leqb sig SIGNATURE) then Err EDecoding
  else
    let (_, r) := read_line_u8 r in
    r <- header_loop (S (length r)) r ;;
    match read_line_u8 r with
    | (None, _) => Err EDecoding
    | (Some line, r) =>
        '(w, h) <- parse_dimensions_line line ;;
        if u64_max / 3 <? w * h then Err EUnsupported else Ok (w, h, r)
    end.
(** new followed by read_image (at RGBE level) *)
Definition hdr_decode {T} (f : rgbe -> T) (m : mode) (r : reader) : res (Z * Z * list T) :=
  '(w, h, r) <- hdr_new r ;;
  '(px, _) <- read_image_transform f m w h r ;; Ok (w, h, px).
End Header.
