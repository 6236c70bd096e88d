(** Model of saving: save_buffer, save_buffer_with_format, write_buffer_with_format (src/image_reader/free_functions.rs:29-126 behind the thin
    wrappers of dynimage.rs:1273-1327), ImageBuffer::{save, save_with_format, write_to, write_with_encoder} (buffer.rs:990-1084),
    DynamicImage::{write_to, write_with_encoder, save, save_with_format} (dynimage.rs:985-1040), ImageFormat::from_path (image.rs:135-154) and
    GifEncoder::encode (gif.rs:487-507); with the part of std they stand on: File::create, std::io::BufWriter and Path::extension, modelled from
    their documentation and source.  The encoders proper are a parameter: each is a program of writer operations. *)
From Verif Require Import Base Limits ColorType Formats Buffer Color Float Dyn Gif.

(** ** Writers *)
(** What an encoder does with its writer W: Write + Seek; every continuation is told whether the operation succeeded, so that the encoder may
    propagate the error (as `?` does), do more first (as a Drop implementation does) or ignore it.  Ret r: the encoder returns or panics. *)
Inductive prog :=
| Ret (r : res unit)
| Write (b : list Z) (k : bool -> prog)              (* write_all(b) *)
| Seek (p : nat) (k : bool -> prog)                  (* seek(SeekFrom::Start(p)) *)
| Position (k : option nat -> prog)                  (* stream_position() *)
| Flush (k : bool -> prog).                          (* flush() *)

(** the content of a file, or of a Vec behind a Cursor, after b is written at position p: positions beyond the end are filled with zeros;
    writing nothing changes nothing *)
Definition put (c : list Z) (p : nat) (b : list Z) : list Z :=
  match b with
  | [] => c
  | _ => firstn p c ++ repeat 0 (p - length c) ++ b ++ skipn (p + length b) c
  end.
(** the writer Cursor<Vec<u8>>: no operation fails; the result is the encoder's and the content of the Vec, with the final position *)
Fixpoint run_mem (p : prog) (c : list Z) (pos : nat) : res unit * list Z * nat :=
  match p with
  | Ret r => (r, c, pos)
  | Write b k => run_mem (k true) (put c pos b) (pos + length b)
  | Seek q k => run_mem (k true) c q
  | Position k => run_mem (k (Some pos)) c pos
  | Flush k => run_mem (k true) c pos
  end.

(** What one write system call does: accepts at most n bytes, is interrupted, fails, or fails for good (the disk is full, the process has been
    killed: nothing after it reaches the disk).  A finite list of these describes the calls of one run; after it every call succeeds. *)
Inductive rawout := Takes (n : nat) | Interrupted | Refuses | Dead.
(** the loop of write_all over a File, and of BufWriter::flush_buf (std): interrupted calls are repeated, an accepted length of 0 is the error
    WriteZero; the result: did it succeed, how many bytes have reached the file, the calls still to come *)
Fixpoint raw_all (fs : list rawout) (b : list Z) : bool * nat * list rawout :=
  match b with
  | [] => (true, O, fs)
  | _ =>
      match fs with
      | [] => (true, length b, [])
      | Takes n :: fs' =>
          match Nat.min n (length b) with
          | O => (false, O, fs')
          | k => let '(ok, m, r) := raw_all fs' (skipn k b) in (ok, (k + m)%nat, r)
          end
      | Interrupted :: fs' => raw_all fs' b
      | Refuses :: fs' => (false, O, fs')
      | Dead :: _ => (false, O, fs)
      end
  end.
(** BufWriter<File>: the content of the file, its position, the calls to come, the bytes held back *)
Record bufw := mkW { w_file : list Z; w_pos : nat; w_calls : list rawout; w_buf : list Z }.
(** BufWriter::flush_buf: what has reached the file leaves the buffer, also on an error *)
Definition flush_buf (s : bufw) : bool * bufw :=
  let '(ok, n, fs) := raw_all (w_calls s) (w_buf s) in
  (ok, mkW (put (w_file s) (w_pos s) (firstn n (w_buf s))) (w_pos s + n) fs (skipn n (w_buf s))).
(** BufWriter::write_all with its slow path write_all_cold; [cap] is the capacity (8 KiB in BufWriter::new) *)
Definition bw_write_all (cap : nat) (b : list Z) (s : bufw) : bool * bufw :=
  if (length b <? cap - length (w_buf s))%nat then (true, mkW (w_file s) (w_pos s) (w_calls s) (w_buf s ++ b))
  else
    let '(ok, s) := if (cap - length (w_buf s) <? length b)%nat then flush_buf s else (true, s) in
    if negb ok then (false, s)
    else if (cap <=? length b)%nat then
      let '(ok, n, fs) := raw_all (w_calls s) b in
      (ok, mkW (put (w_file s) (w_pos s) (firstn n b)) (w_pos s + n) fs (w_buf s))
    else (true, mkW (w_file s) (w_pos s) (w_calls s) (w_buf s ++ b)).
(** Seek for BufWriter: flush_buf first; seeking the file itself does not fail *)
Definition bw_seek (p : nat) (s : bufw) : bool * bufw :=
  let '(ok, s) := flush_buf s in
  if ok then (true, mkW (w_file s) p (w_calls s) (w_buf s)) else (false, s).
Definition bw_position (s : bufw) : option nat * bufw :=
  let '(ok, s) := flush_buf s in ((if ok then Some (w_pos s) else None), s).
(** Drop for BufWriter: one last flush_buf, its error is dropped *)
Definition bw_drop (s : bufw) : bufw := snd (flush_buf s).
Fixpoint run (cap : nat) (p : prog) (s : bufw) : res unit * bufw :=
  match p with
  | Ret r => (r, s)
  | Write b k => let '(ok, s) := bw_write_all cap b s in run cap (k ok) s
  | Seek q k => let '(ok, s) := bw_seek q s in run cap (k ok) s
  | Position k => let '(o, s) := bw_position s in run cap (k o) s
  | Flush k => let '(ok, s) := flush_buf s in run cap (k ok) s
  end.

(** ** Paths and the file system *)
(** a path whose last component is the file name: the components before it, and the name *)
Record path := mkPath { p_dir : list (list Z); p_name : list Z }.
Definition path_eq (a b : path) : {a = b} + {a <> b}.
Proof. decide equality; repeat (apply list_eq_dec; try intros); apply Z.eq_dec. Defined.
(** slice::rsplitn(2, '.') on the file name, from the back *)
Fixpoint split_dot (l : list Z) : list Z * option (list Z) :=
  match l with
  | [] => ([], None)
  | c :: l' => if c =? 46 then ([], Some l') else let '(a, r) := split_dot l' in (c :: a, r)
  end.
(** Path::extension (std): rsplit_file_at_dot *)
Definition extension (p : path) : option (list Z) :=
  if leqb (p_name p) [46; 46] then None
  else
    let '(after, before) := split_dot (rev (p_name p)) in
    match before with
    | Some (_ :: _) => Some (rev after)
    | _ => None
    end.
(** ImageFormat::from_path: image.rs:135-154 *)
Definition from_path (p : path) : res format :=
  match (match extension p with Some e => from_extension e | None => None end) with Some f => Ok f | None => Err EUnsupported end.
(** the regular files of a file system and their contents *)
Definition files := path -> option (list Z).
Definition update (fs : files) (p : path) (c : list Z) : files := fun q => if path_eq q p then Some c else fs q.

(** ** The encoders *)
(** the encoder of each format (None: not compiled in), as a function of the buffer, the dimensions and the colour type *)
Definition encoders := format -> option (list Z -> Z -> Z -> ectype -> prog).
(** write_buffer_impl: free_functions.rs:56-126; DDS and PCX have no arm *)
Definition write_buffer (encs : encoders) (buf : list Z) (w h : Z) (c : ectype) (f : format) : prog :=
  match f with
  | Dds | Pcx => Ret (Err EUnsupported)
  | _ => match encs f with Some e => e buf w h c | None => Ret (Err EUnsupported) end
  end.
(** GifEncoder::encode: gif.rs:486-506; [gif alpha w h data]: what gif::Frame::from_rgb/from_rgba (speed 1, delay 0) and the gif crate write *)
Definition gif_encode (gif : bool -> Z -> Z -> list Z -> prog) (data : list Z) (w h : Z) (c : ectype) : prog :=
  match gif_dimensions w h with
  | Ok (w, h) => match c with XRgb8 => gif false w h data | XRgba8 => gif true w h data | _ => Ret (Err EUnsupported) end
  | Err e => Ret (Err e)
  | Panic => Ret Panic
  end.
(** GifEncoder::encode_frame of Frame::new(image) (delay 0): gif.rs:509-512, 539-558 *)
Definition gif_encode_frame (gif : bool -> Z -> Z -> list Z -> prog) (im : img (list Z)) : prog :=
  match gif_dimensions (iw im) (ih im) with
  | Ok (w, h) => gif true w h (img_bytes U8 im)
  | Err e => Ret (Err e)
  | Panic => Ret Panic
  end.

(** ** Saving *)
(** BufWriter::new: capacity 8 KiB *)
Definition buf_capacity : nat := Z.to_nat 8192.
(** save_buffer_with_format_impl: free_functions.rs:42-52; [creatable]: File::create succeeds; an I/O error is Err EEof.
    The file is truncated by File::create and the BufWriter is dropped at the end of the function. *)
Definition save_buffer_with_format (creatable : path -> bool) (calls : list rawout) (encs : encoders) (fs : files)
    (p : path) (buf : list Z) (w h : Z) (c : ectype) (f : format) : res unit * files :=
  if creatable p then
    let '(r, s) := run buf_capacity (write_buffer encs buf w h c f) (mkW [] 0 calls []) in
    (r, update fs p (w_file (bw_drop s)))
  else (Err EEof, fs).
(** save_buffer_impl: free_functions.rs:29-38 *)
Definition save_buffer (creatable : path -> bool) (calls : list rawout) (encs : encoders) (fs : files)
    (p : path) (buf : list Z) (w h : Z) (c : ectype) : res unit * files :=
  match from_path p with
  | Ok f => save_buffer_with_format creatable calls encs fs p buf w h c f
  | Err e => (Err e, fs)
  | Panic => (Panic, fs)
  end.
(** ImageBuffer::save: buffer.rs:996-1007; [enc] is EncodableLayout::as_bytes, [ct] the pixel type's COLOR_TYPE; the slice of inner_pixels may
    panic before anything is opened *)
Definition buffer_save {S} (ch : Z) (enc : list S -> list Z) (ct : ectype) creatable calls encs fs (b : ibuf S) (p : path) : res unit * files :=
  match inner_pixels ch b with
  | Ok l => save_buffer creatable calls encs fs p (enc l) (bw b) (bh b) ct
  | Err e => (Err e, fs)
  | Panic => (Panic, fs)
  end.
Section DynSave.
(** the bytes of an f32 in memory (a parameter: the floats of Float.v have a single NaN) *)
Variable f32_bytes : f32 -> list Z.
(** inner_bytes: dynimage.rs:648-655, the samples in memory order on a little-endian machine *)
Definition dyn_bytes (d : dyn) : list Z :=
  match d with
  | ImageRgb32F p | ImageRgba32F p => flat_map f32_bytes (concat (px p))
  | d => match dyn_as_bytes d with Some b => b | None => [] end
  end.
(** DynamicImage::save and save_with_format: dynimage.rs:1020-1040 (the dynamic_map to ImageBuffer::save, whose buffers are exactly full) *)
Definition dyn_save creatable calls encs fs (d : dyn) (p : path) : res unit * files :=
  save_buffer creatable calls encs fs p (dyn_bytes d) (dyn_iw d) (dyn_ih d) (ect_of (dyn_color d)).
Definition dyn_save_with_format creatable calls encs fs (d : dyn) (p : path) (f : format) : res unit * files :=
  save_buffer_with_format creatable calls encs fs p (dyn_bytes d) (dyn_iw d) (dyn_ih d) (ect_of (dyn_color d)) f.
(** DynamicImage::write_to: dynimage.rs:985-1010 *)
Definition dyn_write_to (encs : encoders) (gif : bool -> Z -> Z -> list Z -> prog) (d : dyn) (f : format) : prog :=
  match f with
  | Png => match encs Png with Some e => e (dyn_bytes d) (dyn_iw d) (dyn_ih d) (ect_of (dyn_color d)) | None => Ret (Err EUnsupported) end
  | Gif => match encs Gif with
           | Some _ => match to_rgba8 d with Ok im => gif_encode_frame gif im | Err e => Ret (Err e) | Panic => Ret Panic end
           | None => Ret (Err EUnsupported)
           end
  | f => write_buffer encs (dyn_bytes d) (dyn_iw d) (dyn_ih d) (ect_of (dyn_color d)) f
  end.
(** write_with_encoder (buffer.rs:1073-1084, dynimage.rs:1013-1015): the encoder given is called on the same values *)
Definition dyn_write_with_encoder (e : list Z -> Z -> Z -> ectype -> prog) (d : dyn) : prog :=
  e (dyn_bytes d) (dyn_iw d) (dyn_ih d) (ect_of (dyn_color d)).
End DynSave.
