(** Model of src/codecs/gif.rs without the `gif` crate: placing a frame on the logical screen (read_image), the frame
    iterator's composition, and the delay / dimension conversions of the encoder.  The gif crate is opaque: for each frame it
    delivers the frame's rectangle, disposal method, delay and its RGBA bytes.  Memory limits are not modelled here (Limits.v). *)
From Verif Require Import Base GenImage Color Delay Buffer.
Local Open Scope Z_scope.

Inductive gdisp := GAny | GKeep | GBackground | GPrevious.
(** gif::Frame as far as it is used, and FrameInfo: gif.rs:403-425 *)
Record gframe := mkG { g_left : Z; g_top : Z; g_w : Z; g_h : Z; g_disp : gdisp; g_delay : Z }.
(** the delay of FrameInfo::new_from_frame: gif.rs:422 *)
Definition frame_delay (f : gframe) : res ratio := n <- mul_m u32_max (g_delay f) 10 ;; ratio_new n 1.

Definition clear4 : list Z := [0; 0; 0; 0].
(** u32::wrapping_sub *)
Definition wsub (a b : Z) : Z := wrap_u32 (a - b).
(** ImageBuffer::from_raw(w, h, v) over 4-byte pixels; None when the vector is too short (buffer.rs, see Buffer.v) *)
Definition frame_of (w h : Z) (v : list Z) : option (img (list Z)) :=
  if w * h * 4 <=? zlen v then Some (mkImg w h (chunks_exact 4 (zslice v 0 (w * h * 4)))) else None.

(** GifDecoder::read_image: gif.rs:113-217.  [W], [H]: logical screen; [buf]: the caller's buffer; the reader is the list of
    frames still to come with what read_into_buffer yields.  enumerate_pixels_mut visits every pixel once in row-major
    order (C04), so the buffer afterwards is the concatenation of the new pixels. *)
Definition gif_read_image (W H : Z) (buf : list Z) (reader : list (gframe * res (list Z))) : res (list Z) :=
  if negb (zlen buf =? W * H * 4) then Panic else
  match reader with
  | [] => Err EParameter
  | (f, data) :: _ =>
      _ <- frame_delay f ;;
      if (g_left f =? 0) && (g_w f =? W) && (g_top f + g_h f <=? H) then
        let line := W * 4 in
        if zlen buf <? line * g_top f then Panic else (* split_at_mut *)
        if zlen buf - line * g_top f <? line * g_h f then Panic else
        d <- data ;;
        if negb (zlen d =? line * g_h f) then Panic else (* debug_assert_eq *)
        Ok (repeat 0 (Z.to_nat (line * g_top f)) ++ d ++ repeat 0 (Z.to_nat (zlen buf - line * g_top f - line * g_h f)))
      else
        d <- data ;;
        match frame_of (g_w f) (g_h f) d, frame_of W H buf with
        | Some fb, Some _ =>
            l <- map_res (fun c =>
                   let fx := wsub (fst c) (g_left f) in
                   let fy := wsub (snd c) (g_top f) in
                   if (fx <? g_w f) && (fy <? g_h f) then get_pixel fb fx fy else Ok clear4) (coords W H) ;;
            Ok (concat l)
        | _, _ => Err EUnsupported
        end
  end.

(** blend_and_dispose_pixel: gif.rs:326-352; (previous, current) *)
Definition blend_and_dispose_pixel (d : gdisp) (previous current : list Z) : res (list Z * list Z) :=
  match current with
  | [_; _; _; a] =>
      let current := if a =? 0 then previous else current in
      Ok (match d with
          | GAny | GKeep => (current, current)
          | GBackground => (clear4, current)
          | GPrevious => (previous, current)
          end)
  | _ => Panic (* channels()[3] *)
  end.

(** GifFrameIterator: gif.rs:224-232 *)
Record giter := mkGi { gi_w : Z; gi_h : Z; gi_nd : option (img (list Z)); gi_reader : list (gframe * res (list Z)) }.
Definition giter_new (W H : Z) (reader : list (gframe * res (list Z))) : giter := mkGi W H None reader.
(** composing one frame: gif.rs:357-385; (non_disposed_frame, image_buffer) *)
Definition compose (W H : Z) (f : gframe) (nd fb : img (list Z)) : res (img (list Z) * img (list Z)) :=
  if (g_left f =? 0) && (g_top f =? 0) && ((W =? iw fb) && (H =? ih fb)) then
    for2 (iw fb) (ih fb) (fun '(nd, fb) x y =>
      p <- get_pixel nd x y ;; c <- get_pixel fb x y ;;
      '(p, c) <- blend_and_dispose_pixel (g_disp f) p c ;;
      nd <- put_pixel nd x y p ;; fb <- put_pixel fb x y c ;; Ok (nd, fb)) (nd, fb)
  else
    for2 W H (fun '(nd, out) x y =>
      let fx := wsub x (g_left f) in
      let fy := wsub y (g_top f) in
      p <- get_pixel nd x y ;;
      if (fx <? iw fb) && (fy <? ih fb) then
        c <- get_pixel fb fx fy ;;
        '(p, c) <- blend_and_dispose_pixel (g_disp f) p c ;;
        nd <- put_pixel nd x y p ;; out <- put_pixel out x y c ;; Ok (nd, out)
      else out <- put_pixel out x y p ;; Ok (nd, out)) (nd, new_img W H clear4).
(** GifFrameIterator::next: gif.rs:254-394.  A frame is its image and delay (left = top = 0). *)
Definition gif_next (s : giter) : giter * option (res (img (list Z) * ratio)) :=
  let nd := match gi_nd s with Some i => i | None => new_img (gi_w s) (gi_h s) clear4 end in
  let st nd rd := mkGi (gi_w s) (gi_h s) (Some nd) rd in
  match gi_reader s with
  | [] => (st nd [], None)
  | (f, data) :: rd =>
      match (d <- data ;;
             match frame_of (g_w f) (g_h f) d with
             | None => Err EUnsupported
             | Some fb => '(nd, im) <- compose (gi_w s) (gi_h s) f nd fb ;; dl <- frame_delay f ;; Ok (nd, im, dl)
             end) with
      | Ok (nd, im, dl) => (st nd rd, Some (Ok (im, dl)))
      | Err e => (st nd rd, Some (Err e))
      | Panic => (st nd rd, Some Panic)
      end
  end.
Fixpoint gif_frames (n : nat) (s : giter) : giter * list (option (res (img (list Z) * ratio))) :=
  match n with
  | O => (s, [])
  | Datatypes.S n => let '(s, o) := gif_next s in let '(s, r) := gif_frames n s in (s, o :: r)
  end.

(** Ratio::to_integer: animation.rs:323-326; numer / denom *)
Definition to_integer (r : ratio) : res Z := if denom r =? 0 then Panic else Ok (numer r / denom r).
(** gif_dimensions: gif.rs:560-573 *)
Definition gif_dimensions (w h : Z) : res (Z * Z) :=
  if (w <=? u16_max) && (h <=? u16_max) then Ok (w, h) else Err EParameter.
(** convert_frame: gif.rs:539-558, then encode_gif's dispose (593): the frame given to the gif crate (pixels are handed to the
    gif crate, which quantises them) *)
Definition convert_frame (w h : Z) (delay : ratio) : res gframe :=
  d <- to_integer delay ;;
  '(w, h) <- gif_dimensions w h ;;
  Ok (mkG 0 0 w h GBackground (if d / 10 <=? u16_max then d / 10 else u16_max)).
