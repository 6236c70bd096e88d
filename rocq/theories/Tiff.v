(** Model of src/codecs/tiff.rs: what this crate does around the tiff crate.  The tiff crate's answers (dimensions, colour type, the SampleFormat tag and
    the decoded samples) are inputs. *)
From Verif Require Import Base Float Color ColorF Limits ColorType Reader.
Local Open Scope Z_scope.

(** tiff::ColorType *)
Inductive tiff_color := TGray (n : Z) | TGrayA (n : Z) | TRGB (n : Z) | TRGBA (n : Z) | TPalette (n : Z) | TCMYK (n : Z) | TYCbCr (n : Z).
(** check_sample_format: tiff.rs:104-119; 1 = Uint, 2 = Int, 3 = IEEEFP, 4 = Void, anything else is unknown to the crate *)
Definition check_sample_format (f : Z) : res unit :=
  if f =? 1 then Ok tt else if (f =? 2) || (f =? 3) || (f =? 4) then Err EUnsupported else Err EDecoding.
Fixpoint check_sample_formats (fs : list Z) : res unit :=
  match fs with [] => Ok tt | f :: fs => _ <- check_sample_format f ;; check_sample_formats fs end.
(** TiffDecoder: tiff.rs:25-34; t_orig: original_color_type *)
Record tdec := mkT { t_w : Z; t_h : Z; t_ct : ctype; t_orig : ectype }.
(** the match on the colour type: tiff.rs:57-77 *)
Definition tiff_ctype (c : tiff_color) : res ctype :=
  match c with
  | TGray n => if n =? 8 then Ok CL8 else if n =? 16 then Ok CL16 else Err EUnsupported
  | TGrayA n => if n =? 8 then Ok CLa8 else if n =? 16 then Ok CLa16 else Err EUnsupported
  | TRGB n => if n =? 8 then Ok CRgb8 else if n =? 16 then Ok CRgb16 else Err EUnsupported
  | TRGBA n => if n =? 8 then Ok CRgba8 else if n =? 16 then Ok CRgba16 else Err EUnsupported
  | TCMYK n => if n =? 8 then Ok CRgb8 else Err EUnsupported
  | TPalette _ | TYCbCr _ => Err EUnsupported
  end.
(** new: tiff.rs:41-89; [formats]: the SampleFormat tag, if present *)
Definition tiff_new (w h : Z) (c : tiff_color) (formats : option (list Z)) : res tdec :=
  _ <- (match formats with Some fs => check_sample_formats fs | None => Ok tt end) ;;
  ct <- tiff_ctype c ;;
  Ok (mkT w h ct (match c with TCMYK n => if n =? 8 then XCmyk8 else ect_of ct | _ => ect_of ct end)).
Definition is_cmyk (d : tdec) : bool := match t_orig d with XCmyk8 => true | _ => false end.
(** total_bytes_buffer: tiff.rs:92-101 *)
Definition total_bytes_buffer (d : tdec) : res Z :=
  if u64_max <? t_w d * t_h d then Panic else Ok (sat_mul_u64 (t_w d * t_h d) (if is_cmyk d then 16 else ct_bytes (t_ct d))).
(** set_limits: tiff.rs:223-240; the decoding_buffer_size and intermediate_buffer_size handed to the tiff crate *)
Definition tiff_set_limits (d : tdec) (l : limits) : res (Z * Z) :=
  _ <- check_dimensions l (t_w d) (t_h d) ;;
  let max_alloc := match max_alloc l with Some b => b | None => u64_max end in
  t <- total_bytes_buffer d ;;
  let max_intermediate := Z.max 0 (max_alloc - t) in
  Ok (max_alloc - max_intermediate, max_intermediate).

(** tiff::decoder::DecodingResult: 8-bit samples, or the bytes of any other sample vector in memory order *)
Inductive tresult := RU8 (v : list Z) | ROther (b : list Z).
(** one channel of cmyk_to_rgb: tiff.rs:303-313 *)
Definition cmyk_kf (k : Z) : f32 := f32_sub f32_one (f32_div (f32_of_Z k) (f32_of_Z 255)).
Definition cmyk_chan (c k : Z) : Z := f32_as 0 255 (f32_mul (f32_sub (f32_of_Z 255) (f32_of_Z c)) (cmyk_kf k)).
Definition cmyk_to_rgb (p : list Z) : res (list Z) :=
  match p with [c; m; y; k] => Ok [cmyk_chan c k; cmyk_chan m k; cmyk_chan y k] | _ => Panic end.
(** Cursor<&mut [u8]>::write_all: writes what fits, then the I/O error WriteZero (EEof stands for it) *)
Definition cur_write (st : list Z * Z) (src : list Z) : res (list Z * Z) :=
  let '(buf, pos) := st in
  if pos + zlen src <=? zlen buf then Ok (zsplice buf pos src, pos + zlen src) else Err EEof.
(** copy_from_slice *)
Definition copy_from (buf src : list Z) : res (list Z) := if zlen buf =? zlen src then Ok src else Panic.
(** read_image: tiff.rs:243-291; [r]: what the tiff crate's read_image returns *)
Definition tiff_read (d : tdec) (r : res tresult) (buf : list Z) : res (list Z) :=
  t <- total_bytes (t_w d) (t_h d) (t_ct d) ;;
  if negb (zlen buf =? t) then Panic else
  v <- r ;;
  match v with
  | RU8 v => if is_cmyk d then '(b, _) <- foldM (fun st p => q <- cmyk_to_rgb p ;; cur_write st q) (chunks_exact 4 v) (buf, 0) ;; Ok b
             else copy_from buf v
  | ROther b => copy_from buf b
  end.

(** the decoder as ImageReader sees it; [inner dbs ibs]: the tiff crate's read_image under these two limits *)
Definition tiff_decoder (d : tdec) (inner : Z -> Z -> res tresult) : decoder :=
  mkDec (t_w d) (t_h d) (t_ct d) (fun l => _ <- tiff_set_limits d l ;; Ok tt)
    (fun l buf => '(dbs, ibs) <- tiff_set_limits d l ;; tiff_read d (inner dbs ibs) buf).

(** encode: tiff.rs:343-396; the colour type and the samples given to the tiff crate's write_image.  [aligned]: whether the address of the buffer is even,
    which bytemuck::try_cast_slice (tiff.rs:316-326) requires for 16-bit samples; [big]: the byte order of the machine. *)
Definition u8_slice_as_u16 (big aligned : bool) (buf : list Z) : res (list Z) :=
  if aligned && (zlen buf mod 2 =? 0) then
    Ok (map (fun c => match c with [a; b] => if big then a * 256 + b else b * 256 + a | _ => 0 end) (chunks_exact 2 buf)) else Err EParameter.
Definition tiff_encode (big aligned : bool) (buf : list Z) (w h : Z) (c : ectype) : res (tiff_color * list Z) :=
  n <- buffer_size c w h ;;
  if negb (n =? zlen buf) then Panic else
  match c with
  | XL8 => Ok (TGray 8, buf)
  | XRgb8 => Ok (TRGB 8, buf)
  | XRgba8 => Ok (TRGBA 8, buf)
  | XL16 => s <- u8_slice_as_u16 big aligned buf ;; Ok (TGray 16, s)
  | XRgb16 => s <- u8_slice_as_u16 big aligned buf ;; Ok (TRGB 16, s)
  | XRgba16 => s <- u8_slice_as_u16 big aligned buf ;; Ok (TRGBA 16, s)
  | _ => Err EUnsupported
  end.
