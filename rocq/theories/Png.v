(** Model of the parts of src/codecs/png.rs that are not the `png` crate: the sample byte order conversions of
    PngDecoder::read_image and PngEncoder::write_image, and the frame composition of ApngDecoder.
    The `png` crate is opaque: it delivers / receives the big-endian sample bytes of a frame.
    Memory limits (limits.reserve_buffer etc.) are not modelled here; see Limits.v. *)
From Verif Require Import Base GenImage Color ColorType Farbfeld Delay.
Local Open Scope Z_scope.

(** chunks_exact_mut(2).for_each(BigEndian::read_u16 -> NativeEndian::write_u16): png.rs:193-196; [big]: the machine is
    big endian.  A trailing odd byte is left alone. *)
Fixpoint be_to_native (big : bool) (l : list Z) : list Z :=
  match l with
  | a :: b :: r => ne_pair big a b ++ be_to_native big r
  | r => r
  end.
(** PngDecoder::read_image: png.rs:180-200.  [data]: what the png crate writes into the buffer, or its error;
    [buflen]: the length of the caller's buffer; [total]: total_bytes(). *)
Definition png_read_image (big : bool) (c : ctype) (total buflen : Z) (data : res (list Z)) : res (list Z) :=
  if negb (buflen =? total) then Panic else
  d <- data ;;
  let bpc := ct_bytes c / ct_channels c in
  if bpc =? 1 then Ok d else if bpc =? 2 then Ok (be_to_native big d) else Panic (* unreachable!() *).

(** buf.chunks_exact(2).zip(reordered.chunks_exact_mut(2)): png.rs:669-673; reordered starts as zeros of the same length *)
Fixpoint native_to_be (big : bool) (l : list Z) : list Z :=
  match l with
  | a :: b :: r => ne_pair big a b ++ native_to_be big r
  | r => repeat 0 (length r)
  end.
(** png::ColorType and png::BitDepth as the pair (colour type code, bit depth) of the IHDR chunk;
    the first match of encode_inner: png.rs:575-593 *)
Definition png_color (c : ectype) : res (Z * Z) :=
  match c with
  | XL8 => Ok (0, 8) | XL16 => Ok (0, 16) | XLa8 => Ok (4, 8) | XLa16 => Ok (4, 16)
  | XRgb8 => Ok (2, 8) | XRgb16 => Ok (2, 16) | XRgba8 => Ok (6, 8) | XRgba16 => Ok (6, 16)
  | _ => Err EUnsupported
  end.
(** what encode_inner hands to the png crate: (width, height, colour type, bit depth, sample bytes): png.rs:568-634 *)
Definition encode_inner (data : list Z) (w h : Z) (c : ectype) : res (Z * Z * Z * Z * list Z) :=
  '(ct, bits) <- png_color c ;; Ok (w, h, ct, bits, data).
(** PngEncoder::write_image: png.rs:640-682 *)
Definition png_write_image (big : bool) (buf : list Z) (w h : Z) (c : ectype) : res (Z * Z * Z * Z * list Z) :=
  expected <- buffer_size c w h ;;
  if negb (expected =? zlen buf) then Panic else
  match c with
  | XL8 | XLa8 | XRgb8 | XRgba8 => encode_inner buf w h c
  | XL16 | XLa16 | XRgb16 | XRgba16 => encode_inner (native_to_be big buf) w h c
  | _ => Err EEncoding
  end.

(** * APNG *)
Inductive disp := DNone | DBackground | DPrevious.
Inductive blnd := BSource | BOver.
(** png::FrameControl *)
Record fctl := mkFctl { f_w : Z; f_h : Z; f_x : Z; f_y : Z; f_disp : disp; f_blend : blnd; f_num : Z; f_den : Z }.
(** one call of the png crate's next_frame: the frame control in force afterwards and the buffer it filled
    (output_buffer_size() bytes, the frame's rows first) *)
Definition raw_frame : Type := option fctl * list Z.

(** ApngDecoder: png.rs:222-239; [a_current] / [a_previous] are None until the first call.  The reader is the list of
    frames still to be delivered; [a_delay] is the frame control of the last delivered frame (reader.info()). *)
Record apng := mkApng {
  a_current : option (img (list Z)); a_previous : option (img (list Z));
  a_dispose : disp; a_region : option (Z * Z * Z * Z); a_remaining : Z; a_thumb : bool;
  a_reader : list raw_frame; a_info : option fctl }.
(** ApngDecoder::new: png.rs:242-262; [n]: num_frames of the acTL chunk *)
Definition apng_new (n : Z) (first : option fctl) (frames : list raw_frame) : apng :=
  mkApng None None DBackground None n (match first with None => true | Some _ => false end) frames first.

Definition transparent : list Z := [0; 0; 0; 0].
(** region_current.put_pixel over its own pixels: png.rs:322-329.  The collected coordinates are those of the region,
    row by row (the generic pixel iterator, C04). *)
Definition clear_region (m : mode) (im : img (list Z)) (s : sub) : res (img (list Z)) :=
  for2 (s_w s) (s_h s) (fun im x y => sub_put m im s x y transparent) im.
(** the match on self.dispose: png.rs:314-347; returns (previous, current) *)
Definition dispose_step (m : mode) (d : disp) (region : option (Z * Z * Z * Z)) (previous current : img (list Z))
  : res (img (list Z) * img (list Z)) :=
  match d with
  | DNone => Ok (current, current)
  | DBackground =>
      match region with
      | Some (x, y, w, h) => s <- view current x y w h ;; c <- clear_region m current s ;; Ok (current, c)
      | None => Ok (current, mkImg (iw current) (ih current) (map (fun _ => transparent) (px current)))
      end
  | DPrevious =>
      match region with
      | None => Panic
      | Some (x, y, w, h) =>
          s <- view previous x y w h ;;
          t <- to_image m transparent previous s ;;
          '(c, r) <- copy_from m current t x y ;;
          match r with inl _ => Ok (previous, c) | inr _ => Panic end
      end
  end.
(** ImageBuffer::from_raw(width, height, buffer).unwrap(), then into_rgba8: png.rs:392-407.  from_raw accepts a longer
    buffer, of which only the first width*height pixels are pixels of the image. *)
Definition frame_image (k : kind) (w h : Z) (buf : list Z) : res (img (list Z)) :=
  if zlen buf <? w * h * nch k then Panic else
  convert U8 U8 k Rgba (mkImg w h (chunks_exact (nch k) (zslice buf 0 (w * h * nch k)))).
(** the match on blend: png.rs:417-429; [bl] is Rgba<u8>::blend (receiver, argument) *)
Definition render (m : mode) (bl : list Z -> list Z -> list Z) (b : blnd) (current source : img (list Z)) (x0 y0 : Z)
  : res (img (list Z)) :=
  match b with
  | BSource =>
      '(c, r) <- copy_from m current source x0 y0 ;;
      match r with inl _ => Ok c | inr _ => Panic end
  | BOver =>
      for2 (iw source) (ih source) (fun c x y =>
        p <- get_pixel source x y ;;
        tx <- u32_add_m m x x0 ;; ty <- u32_add_m m y y0 ;;
        q <- get_pixel c tx ty ;; put_pixel c tx ty (bl q p)) current
  end.

(** mix_next_frame: png.rs:266-434; [W], [H], [k], [t]: dimensions and colour type of the PNG (k of 8 bits or, t = U16,
    16 bits).  The first component is the decoder afterwards, which after an error has remaining = 0. *)
Definition mix_next_frame (m : mode) (bl : list Z -> list Z -> list Z) (W H : Z) (k : kind) (t : sty) (a : apng)
  : apng * res (option (img (list Z))) :=
  let previous := match a_previous a with Some i => i | None => new_img W H transparent end in
  let current := match a_current a with Some i => i | None => new_img W H transparent end in
  let st rem cur prev d rg th rd inf := mkApng (Some cur) (Some prev) d rg rem th rd inf in
  if a_remaining a =? 0 then (st 0 current previous (a_dispose a) (a_region a) (a_thumb a) (a_reader a) (a_info a), Ok None) else
  let remaining := a_remaining a - 1 in
  let fail cur prev d rg th rd e := (st 0 cur prev d rg th rd (a_info a), e) in
  (* the thumbnail *)
  match (if a_thumb a then match a_reader a with [] => None | _ :: r => Some r end else Some (a_reader a)) with
  | None => fail current previous (a_dispose a) (a_region a) true [] (Err EDecoding)
  | Some reader =>
    match t with
    | U16 => fail current previous (a_dispose a) (a_region a) false reader (Err EUnsupported) (* animatable_color_type *)
    | U8 =>
      match dispose_step m (a_dispose a) (a_region a) previous current with
      | Ok (previous, current) =>
        match reader with
        | [] => fail current previous (a_dispose a) (a_region a) false [] (Err EDecoding)
        | (inf, buf) :: reader =>
          let '(w, h, x, y, b, d) :=
            match inf with
            | None => (W, H, 0, 0, BSource, a_dispose a)
            | Some f => (f_w f, f_h f, f_x f, f_y f, f_blend f, f_disp f)
            end in
          match (source <- frame_image k w h buf ;; render m bl b current source x y) with
          | Ok c => (st remaining c previous d (Some (x, y, w, h)) false reader inf, Ok (Some c))
          | Err e => (st 0 current previous d (Some (x, y, w, h)) false reader inf, Err e)
          | Panic => (st 0 current previous d (Some (x, y, w, h)) false reader inf, Panic)
          end
        end
      | Err e => fail current previous (a_dispose a) (a_region a) false reader (Err e)
      | Panic => fail current previous (a_dispose a) (a_region a) false reader Panic
      end
    end
  end.

(** FrameIterator::next: png.rs:455-474; a frame is its image and its delay (left = top = 0) *)
Definition apng_next (m : mode) (bl : list Z -> list Z -> list Z) (W H : Z) (k : kind) (t : sty) (a : apng)
  : apng * option (res (img (list Z) * ratio)) :=
  let '(a', r) := mix_next_frame m bl W H k t a in
  (a', match r with
       | Ok None => None
       | Ok (Some im) => Some (
           match a_info a' with
           | None => Panic (* unwrap *)
           | Some f =>
               num <- mul_m u32_max (f_num f) 1000 ;;
               d <- ratio_new num (if f_den f =? 0 then 100 else f_den f) ;;
               Ok (im, d)
           end)
       | Err e => Some (Err e)
       | Panic => Some Panic
       end).
(** the first n calls of next() *)
Fixpoint apng_frames (m : mode) (bl : list Z -> list Z -> list Z) (W H : Z) (k : kind) (t : sty) (n : nat) (a : apng)
  : apng * list (option (res (img (list Z) * ratio))) :=
  match n with
  | O => (a, [])
  | Datatypes.S n => let '(a, o) := apng_next m bl W H k t a in let '(a, r) := apng_frames m bl W H k t n a in (a, o :: r)
  end.
