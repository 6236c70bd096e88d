(** Model of GifEncoder across calls (src/codecs/gif.rs:426-617).  The `gif` crate is opaque: its quantiser turns pixels into a frame, and each of
    its operations (creating the encoder, which writes the header; writing the repetition extension; writing a frame) may fail in any way. *)
From Verif Require Import Base GenImage ColorType Delay Gif.
Local Open Scope Z_scope.

(** Repeat: gif.rs:427-433 *)
Inductive rep := Finite (n : Z) | Infinite.
(** gif::EncodingError, and ImageError::from_encoding: gif.rs:611-617 *)
Inductive gerr := GFormat | GIo.
Definition from_encoding (e : gerr) : err := match e with GFormat => EEncoding | GIo => EEof end.
(** animation::Frame: animation.rs:37-45 (buffer: 8-bit RGBA) *)
Record anim := mkAnim { a_left : Z; a_top : Z; a_delay : ratio; a_image : img (list Z) }.

(** GifEncoder: gif.rs:444-449; e_w: w is Some, e_encoder: gif_encoder is Some *)
Record enc := mkE { e_w : bool; e_encoder : bool; e_speed : Z; e_repeat : option rep }.

Section GifEnc.
(** what the crate makes of pixels (palette and indices); quant alpha speed w h data *)
Context {X : Type}.
Variable quant : bool -> Z -> Z -> Z -> list Z -> X.
(** the operations of the crate's encoder *)
Inductive op := Header (w h : Z) | Repetitions (r : rep) | Picture (f : gframe) (x : X) | Trailer.
(** the n-th operation fails with e when fate n = Some e *)
Variable fate : nat -> option gerr.
Definition oplog := list (op * option gerr).
Definition st := (enc * oplog)%type.
Definition external (o : op) (l : oplog) : oplog * option gerr := let r := fate (length l) in (l ++ [(o, r)], r).
(** Drop of gif::Encoder writes the trailer, ignoring failure *)
Definition drop_encoder (l : oplog) : oplog := l ++ [(Trailer, None)].

(** new_with_speed: gif.rs:461-472 *)
Definition new_with_speed (speed : Z) : res enc := if (1 <=? speed) && (speed <=? 30) then Ok (mkE true false speed None) else Panic.
(** set_repeat: gif.rs:475-483 *)
Definition set_repeat (s : st) (r : rep) : st * res unit :=
  let '(e, l) := s in
  if e_encoder e then
    match external (Repetitions r) l with
    | (l, Some x) => ((e, l), Err (from_encoding x))
    | (l, None) => ((mkE (e_w e) true (e_speed e) (Some r), l), Ok tt)
    end
  else ((mkE (e_w e) false (e_speed e) (Some r), l), Ok tt).
(** encode_gif: gif.rs:575-599; gif::Encoder::new consumes the writer, and a gif::Encoder whose set_repeat failed is dropped *)
Definition encode_gif (s : st) (f : gframe) (x : X) : st * res unit :=
  let '(e, l) := s in
  let '(s, r) :=
    if e_encoder e then (s, Ok tt)
    else if e_w e then
      match external (Header (g_w f) (g_h f)) l with
      | (l, Some y) => ((mkE false false (e_speed e) (e_repeat e), l), Err (from_encoding y))
      | (l, None) =>
        match e_repeat e with
        | Some r =>
          match external (Repetitions r) l with
          | (l, Some y) => ((mkE false false (e_speed e) (e_repeat e), drop_encoder l), Err (from_encoding y))
          | (l, None) => ((mkE false true (e_speed e) (e_repeat e), l), Ok tt)
          end
        | None => ((mkE false true (e_speed e) (e_repeat e), l), Ok tt)
        end
      end
    else (s, Panic) in
  match r with
  | Ok _ =>
    let f := mkG (g_left f) (g_top f) (g_w f) (g_h f) GBackground (g_delay f) in
    match external (Picture f x) (snd s) with
    | (l, Some y) => ((fst s, l), Err (from_encoding y))
    | (l, None) => ((fst s, l), Ok tt)
    end
  | r => (s, r)
  end.
(** gif::Frame::from_rgb_speed / from_rgba_speed: they assert the length of the data; a new frame has no offset, no delay, and disposal Keep *)
Definition frame_from (alpha : bool) (speed w h : Z) (data : list Z) : res (gframe * X) :=
  if zlen data =? w * h * (if alpha then 4 else 3) then Ok (mkG 0 0 w h GKeep 0, quant alpha speed w h data) else Panic.
(** encode: gif.rs:486-506; Frame::from_rgb and from_rgba use speed 1 *)
Definition encode (s : st) (data : list Z) (w h : Z) (c : ectype) : st * res unit :=
  match gif_dimensions w h with
  | Ok (w, h) =>
    match c with
    | XRgb8 => match frame_from false 1 w h data with Ok (f, x) => encode_gif s f x | Err y => (s, Err y) | Panic => (s, Panic) end
    | XRgba8 => match frame_from true 1 w h data with Ok (f, x) => encode_gif s f x | Err y => (s, Err y) | Panic => (s, Panic) end
    | _ => (s, Err EUnsupported)
    end
  | Err y => (s, Err y)
  | Panic => (s, Panic)
  end.
(** convert_frame: gif.rs:539-558 *)
Definition to_gif_frame (speed : Z) (a : anim) : res (gframe * X) :=
  d <- to_integer (a_delay a) ;;
  '(w, h) <- gif_dimensions (iw (a_image a)) (ih (a_image a)) ;;
  '(f, x) <- frame_from true speed w h (concat (Base.px (a_image a))) ;;
  Ok (mkG (g_left f) (g_top f) (g_w f) (g_h f) (g_disp f) (if d / 10 <=? u16_max then d / 10 else u16_max), x).
(** encode_frame: gif.rs:509-512 *)
Definition encode_frame (s : st) (a : anim) : st * res unit :=
  match to_gif_frame (e_speed (fst s)) a with
  | Ok (f, x) => encode_gif s f x
  | Err y => (s, Err y)
  | Panic => (s, Panic)
  end.
(** encode_frames: gif.rs:516-524; returns also the frames not taken from the iterator *)
Fixpoint encode_frames (s : st) (fs : list anim) : st * res unit * list anim :=
  match fs with
  | [] => (s, Ok tt, [])
  | a :: fs => match encode_frame s a with (s, Ok _) => encode_frames s fs | (s, r) => (s, r, fs) end
  end.
(** try_encode_frames: gif.rs:529-537 *)
Fixpoint try_encode_frames (s : st) (fs : list (res anim)) : st * res unit * list (res anim) :=
  match fs with
  | [] => (s, Ok tt, [])
  | Ok a :: fs => match encode_frame s a with (s, Ok _) => try_encode_frames s fs | (s, r) => (s, r, fs) end
  | Err e :: fs => (s, Err e, fs)
  | Panic :: fs => (s, Panic, fs)
  end.

(** a caller's history: calls in sequence until one panics; then the encoder is dropped, and with it a gif::Encoder it holds *)
Inductive call := CRepeat (r : rep) | CEncode (data : list Z) (w h : Z) (c : ectype) | CFrame (a : anim).
Definition step (s : st) (c : call) : st * res unit :=
  match c with
  | CRepeat r => set_repeat s r
  | CEncode data w h c => encode s data w h c
  | CFrame a => encode_frame s a
  end.
Fixpoint run (s : st) (cs : list call) : st * list (res unit) :=
  match cs with
  | [] => (s, [])
  | c :: cs => match step s c with
               | (s, Panic) => (s, [Panic])
               | (s, r) => let '(s, rs) := run s cs in (s, r :: rs)
               end
  end.
Definition session (speed : Z) (cs : list call) : res (oplog * list (res unit)) :=
  e <- new_with_speed speed ;;
  let '((e, l), rs) := run (e, []) cs in
  Ok (if e_encoder e then drop_encoder l else l, rs).
End GifEnc.
Arguments op X : clear implicits.
Arguments oplog X : clear implicits.
Arguments st X : clear implicits.
