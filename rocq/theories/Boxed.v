(** Model of the trait ImageDecoder with its provided methods and of its implementation for boxes (src/image.rs:629-777), through which every decoder
    that ImageReader hands out is used (src/image_reader/image_reader_type.rs:139-196), and of the decoders that override orientation
    (codecs/tiff.rs:203-221, codecs/jpeg/decoder.rs:69-103, codecs/webp/decoder.rs:64-91). *)
From Verif Require Import Base Limits ColorType Orient Glue.

(** a value of a type that implements ImageDecoder: its state and its methods.  The &mut self methods return the new state; o_read takes the
    buffer and returns it as read_image leaves it. *)
Record obj (S : Type) := mkObj {
  o_dims : S -> Z * Z;
  o_color : S -> ctype;
  o_original : S -> ectype;
  o_icc : S -> S * res (option (list Z));
  o_exif : S -> S * res (option (list Z));
  o_orientation : S -> S * res orientation;
  o_total : S -> res Z;
  o_set_limits : S -> limits -> S * res unit;
  o_read : S -> list Z -> res (list Z) }.
Arguments mkObj {S}. Arguments o_dims {S}. Arguments o_color {S}. Arguments o_original {S}. Arguments o_icc {S}. Arguments o_exif {S}.
Arguments o_orientation {S}. Arguments o_total {S}. Arguments o_set_limits {S}. Arguments o_read {S}.

Section Defaults.
Context {S : Type}.
(** original_color_type: image.rs:637-639 *)
Definition default_original (color : S -> ctype) (s : S) : ectype := ect_of (color s).
(** icc_profile, exif_metadata: 644-654 *)
Definition default_none (s : S) : S * res (option (list Z)) := (s, Ok None).
(** orientation: 660-665 *)
Definition default_orientation (exif : S -> S * res (option (list Z))) (s : S) : S * res orientation :=
  let '(s, r) := exif s in
  (s, chunk <- r ;; Ok (match obind chunk from_exif_chunk with Some o => o | None => NoTransforms end)).
(** total_bytes: 673-678 *)
Definition default_total (dims : S -> Z * Z) (color : S -> ctype) (s : S) : res Z := let '(w, h) := dims s in total_bytes w h (color s).
(** set_limits: 716-721 *)
Definition default_set_limits_obj (dims : S -> Z * Z) (s : S) (l : limits) : S * res unit :=
  let '(w, h) := dims s in (s, check_dimensions l w h).
End Defaults.

(** impl ImageDecoder for Box<T>: image.rs:738-768; orientation is not among the methods it defines.  T may itself be a box, or dyn ImageDecoder,
    whose methods are those of the decoder inside. *)
Definition boxed {S} (d : obj S) : obj S :=
  mkObj (fun s => o_dims d s) (fun s => o_color d s) (fun s => o_original d s) (fun s => o_icc d s) (fun s => o_exif d s)
    (default_orientation (o_exif d)) (fun s => o_total d s) (fun s l => o_set_limits d s l) (fun s buf => o_read d s buf).
(** make_decoder and into_decoder: image_reader_type.rs:139-196: the decoder of the format in a Box<dyn ImageDecoder>, after set_limits *)
Definition reader_decoder {S} (make : res (obj S * S)) (l : limits) : res (obj S * S) :=
  '(d, s) <- make ;;
  let '(s, r) := o_set_limits (boxed d) s l in
  _ <- r ;; Ok (boxed d, s).

(** TIFF.  The state is the external decoder, None once it has been consumed.  [tag]: its answer for the Orientation tag (find_tag, then into_u16 of the
    value: Some None when that fails); [icc]: get_tag_u8_vec(34675).ok().  orientation: tiff.rs:211-221 *)
Definition tiff_orientation {I} (tag : I -> res (option (option Z))) (inner : option I) : res orientation :=
  match inner with
  | Some i => v <- tag i ;; Ok (match obind v (fun u => obind u (fun n => from_exif (Z.min n 255))) with Some o => o | None => NoTransforms end)
  | None => Ok NoTransforms
  end.
(** icc_profile: tiff.rs:203-209 *)
Definition tiff_icc {I} (icc : I -> option (list Z)) (inner : option I) : res (option (list Z)) :=
  match inner with Some i => Ok (icc i) | None => Ok None end.
(** impl ImageDecoder for TiffDecoder: tiff.rs:190-300: exif_metadata is the provided one; the other methods (C63) are a parameter *)
Definition tiff_obj {I} (tag : I -> res (option (option Z))) (icc : I -> option (list Z)) (rest : obj (option I)) : obj (option I) :=
  mkObj (o_dims rest) (o_color rest) (o_original rest) (fun s => (s, tiff_icc icc s)) default_none
    (fun s => (s, tiff_orientation tag s)) (o_total rest) (o_set_limits rest) (o_read rest).

(** JPEG and WebP: the cache of C68 next to the rest of the decoder; [exif]: what the external crate answers for the Exif chunk of this file *)
Definition with_cache {S} (rest : obj S) (exif : res (option (list Z))) : obj (S * option orientation) :=
  mkObj (fun s => o_dims rest (fst s)) (fun s => o_color rest (fst s)) (fun s => o_original rest (fst s))
    (fun s => let '(s', r) := o_icc rest (fst s) in ((s', snd s), r))
    (fun s => let '(c, r) := exif_metadata (snd s) exif in ((fst s, c), r))
    (fun s => match mstep (snd s) (MOrientation exif) with (c, OOrientation r) => ((fst s, c), r) | (c, OExif _) => ((fst s, c), Panic) end)
    (fun s => o_total rest (fst s))
    (fun s l => let '(s', r) := o_set_limits rest (fst s) l in ((s', snd s), r))
    (fun s => o_read rest (fst s)).

(** the calls a client can make before read_image, and their answers *)
Inductive call := Dims | Colour | Original | Icc | Exif | Orient | Total | SetLimits (l : limits).
Inductive answer :=
| ADims (d : Z * Z) | AColour (c : ctype) | AOriginal (c : ectype) | AIcc (r : res (option (list Z))) | AExif (r : res (option (list Z)))
| AOrient (r : res orientation) | ATotal (r : res Z) | ALimits (r : res unit).
Definition ask {S} (d : obj S) (s : S) (c : call) : S * answer :=
  match c with
  | Dims => (s, ADims (o_dims d s))
  | Colour => (s, AColour (o_color d s))
  | Original => (s, AOriginal (o_original d s))
  | Icc => let '(s, r) := o_icc d s in (s, AIcc r)
  | Exif => let '(s, r) := o_exif d s in (s, AExif r)
  | Orient => let '(s, r) := o_orientation d s in (s, AOrient r)
  | Total => (s, ATotal (o_total d s))
  | SetLimits l => let '(s, r) := o_set_limits d s l in (s, ALimits r)
  end.
Fixpoint history {S} (d : obj S) (s : S) (cs : list call) : S * list answer :=
  match cs with
  | [] => (s, [])
  | c :: cs => let '(s, a) := ask d s c in let '(s, l) := history d s cs in (s, a :: l)
  end.
