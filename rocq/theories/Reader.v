(** Model of ImageReader (src/image_reader/image_reader_type.rs), of load (src/image_reader/free_functions.rs:21-25) and of the last step
    of decoding (dynimage.rs:1178-1246, image.rs:612-627).  The reader is an in-memory stream (Cursor): its bytes and a position, on which
    seeking and reading do not fail.  The codecs are a parameter. *)
From Verif Require Import Base Limits ColorType Formats Buffer.
Local Open Scope Z_scope.

(** the reader R *)
Record stream := mkStream { s_bytes : list Z; s_pos : Z }.
(** Read::take(n) and io::copy: at most n bytes, the position advances by what was read *)
Definition s_read (n : Z) (s : stream) : list Z * stream :=
  let b := firstn (Z.to_nat n) (skipn (Z.to_nat (s_pos s)) (s_bytes s)) in (b, mkStream (s_bytes s) (s_pos s + zlen b)).
(** seek(SeekFrom::Start(p)) *)
Definition s_seek (p : Z) (s : stream) : stream := mkStream (s_bytes s) p.

(** What decode uses of the trait ImageDecoder (image.rs:630-738): dimensions, color_type, set_limits, and read_image, whose effect may depend
    on the limits last set; the list given to dc_read is the buffer before the call, the result the buffer after it.
    total_bytes is never overridden and is the function of ColorType.v. *)
Record decoder := mkDec { dc_w : Z; dc_h : Z; dc_ct : ctype; dc_set_limits : limits -> res unit; dc_read : limits -> list Z -> res (list Z) }.
(** the default set_limits: image.rs:716-721 (check_support does nothing: mod.rs:73-75) *)
Definition default_set_limits (w h : Z) (l : limits) : res unit := check_dimensions l w h.
(** the constructors of make_decoder: image_reader_type.rs:139-188; None: the format is not compiled in or has no decoder.
    The limits are those passed to PngDecoder::with_limits. *)
Definition codec_table := format -> option (stream -> limits -> res decoder).
Definition make_decoder (codecs : codec_table) (f : format) (s : stream) (l : limits) : res decoder :=
  match codecs f with Some mk => mk s l | None => Err EUnsupported end.

(** struct ImageReader: image_reader_type.rs:61-68 *)
Record reader := mkReader { r_inner : stream; r_format : option format; r_limits : limits }.
(** new: 81-87 *)
Definition reader_new (s : stream) : reader := mkReader s None limits_default.
(** with_format: 93-99 *)
Definition reader_with_format (s : stream) (f : format) : reader := mkReader s (Some f) limits_default.
(** open_impl: 302-308; [ext]: Path::extension of the path; the file opens successfully *)
Definition reader_open (ext : option (list Z)) (content : list Z) : reader :=
  mkReader (mkStream content 0) (match ext with Some e => from_extension e | None => None end) limits_default.
(** set_format: 107-109 *)
Definition set_format (f : format) (r : reader) : reader := mkReader (r_inner r) (Some f) (r_limits r).
(** clear_format: 115-117 *)
Definition clear_format (r : reader) : reader := mkReader (r_inner r) None (r_limits r).
(** no_limits: 120-122 *)
Definition set_no_limits (r : reader) : reader := mkReader (r_inner r) (r_format r) no_limits.
(** limits: 125-127 *)
Definition set_limits (l : limits) (r : reader) : reader := mkReader (r_inner r) (r_format r) l.
(** guess_format: 233-246 *)
Definition reader_guess (r : reader) : option format * reader :=
  let cur := s_pos (r_inner r) in
  let '(start, s) := s_read 16 (r_inner r) in
  let s := s_seek cur s in
  (guess_format start, mkReader s (r_format r) (r_limits r)).
(** with_guessed_format: 226-231 *)
Definition with_guessed_format (r : reader) : reader :=
  let '(g, r) := reader_guess r in
  mkReader (r_inner r) (match g with Some f => Some f | None => r_format r end) (r_limits r).
(** require_format: 276-283 *)
Definition require_format (r : reader) : res format := match r_format r with Some f => Ok f | None => Err EUnsupported end.
(** into_decoder: 191-196; the decoder and the limits it was given *)
Definition into_decoder (codecs : codec_table) (r : reader) : res (decoder * limits) :=
  f <- require_format r ;;
  d <- make_decoder codecs f (r_inner r) (r_limits r) ;;
  _ <- dc_set_limits d (r_limits r) ;;
  Ok (d, r_limits r).
(** into_dimensions: 253-255 *)
Definition into_dimensions (codecs : codec_table) (r : reader) : res (Z * Z) :=
  '(d, _) <- into_decoder codecs r ;; Ok (dc_w d, dc_h d).

(** a DynamicImage: its variant, its dimensions and the bytes of its samples in memory order *)
Record dynimage := mkDyn { di_ct : ctype; di_w : Z; di_h : Z; di_bytes : list Z }.
(** size_of the sample type of the variant: dynimage.rs:1178-1238 *)
Definition sample_size (c : ctype) : Z := match c with CL8 | CLa8 | CRgb8 | CRgba8 => 1 | CL16 | CLa16 | CRgb16 | CRgba16 => 2 | CRgb32F | CRgba32F => 4 end.
(** decoder_to_image: dynimage.rs:1178-1246 with decoder_to_vec: image.rs:612-627 *)
Definition decoder_to_image (d : decoder) (l : limits) : res dynimage :=
  n <- vec_len (dc_w d) (dc_h d) (dc_ct d) (sample_size (dc_ct d)) ;;
  b <- dc_read d l (repeat 0 (Z.to_nat (n * sample_size (dc_ct d)))) ;;
  if check_image_fits (ct_channels (dc_ct d)) (dc_w d) (dc_h d) n then Ok (mkDyn (dc_ct d) (dc_w d) (dc_h d) b) else Err EParameter.
(** decode: image_reader_type.rs:262-274 *)
Definition decode (codecs : codec_table) (r : reader) : res dynimage :=
  f <- require_format r ;;
  d <- make_decoder codecs f (r_inner r) (r_limits r) ;;
  t <- total_bytes (dc_w d) (dc_h d) (dc_ct d) ;;
  let '(l, e) := reserve (r_limits r) t in
  _ <- e ;;
  _ <- dc_set_limits d l ;;
  decoder_to_image d l.
(** load: free_functions.rs:21-25 *)
Definition load (codecs : codec_table) (s : stream) (f : format) : res dynimage := decode codecs (set_format f (reader_new s)).
(** open (free function): dynimage.rs:1247-1252 *)
Definition open_image (codecs : codec_table) (ext : option (list Z)) (content : list Z) : res dynimage := decode codecs (reader_open ext content).
(** image_dimensions: dynimage.rs:1259-1264 *)
Definition image_dimensions (codecs : codec_table) (ext : option (list Z)) (content : list Z) : res (Z * Z) := into_dimensions codecs (reader_open ext content).

(** the configuring calls a client may make, in any order and number *)
Inductive rop := RSet (f : format) | RClear | RNoLimits | RLimits (l : limits) | RGuess.
Definition rstep (r : reader) (o : rop) : reader :=
  match o with
  | RSet f => set_format f r
  | RClear => clear_format r
  | RNoLimits => set_no_limits r
  | RLimits l => set_limits l r
  | RGuess => with_guessed_format r
  end.
Definition rrun (r : reader) (os : list rop) : reader := fold_left rstep os r.
