(** Model of src/metadata.rs (Orientation) and DynamicImage::apply_orientation
    (src/dynimage.rs:959-979). *)
From Verif Require Import Base Affine.

(** metadata.rs:14-31 *)
Inductive orientation : Type :=
| NoTransforms | Rotate90 | Rotate180 | Rotate270
| FlipHorizontal | FlipVertical | Rotate90FlipH | Rotate270FlipH.

(** from_exif: metadata.rs:36-48 *)
Definition from_exif (v : Z) : option orientation :=
  if v =? 1 then Some NoTransforms
  else if v =? 2 then Some FlipHorizontal
  else if v =? 3 then Some Rotate180
  else if v =? 4 then Some FlipVertical
  else if v =? 5 then Some Rotate90FlipH
  else if v =? 6 then Some Rotate90
  else if v =? 7 then Some Rotate270FlipH
  else if v =? 8 then Some Rotate270
  else None.

(** to_exif: metadata.rs:52-63 *)
Definition to_exif (o : orientation) : Z :=
  match o with
  | NoTransforms => 1 | FlipHorizontal => 2 | Rotate180 => 3 | FlipVertical => 4
  | Rotate90FlipH => 5 | Rotate90 => 6 | Rotate270FlipH => 7 | Rotate270 => 8
  end.

(** apply_orientation: dynimage.rs:959-979.  The nine DynamicImage variants all forward to
    the same generic functions (dynamic_map!), modelled once for an arbitrary pixel type. *)
Definition apply_orientation {P} (zero : P) (im : img P) (o : orientation) : res (img P) :=
  match o with
  | NoTransforms => Ok im
  | Rotate90 => rotate90 zero im
  | Rotate180 => rotate180_in_place im
  | Rotate270 => rotate270 zero im
  | FlipHorizontal => flip_horizontal_in_place im
  | FlipVertical => flip_vertical_in_place im
  | Rotate90FlipH => n <- rotate90 zero im ;; flip_horizontal_in_place n
  | Rotate270FlipH => n <- rotate270 zero im ;; flip_horizontal_in_place n
  end.

(** Cursor over a byte slice: position is a u64, reading at or past the end fails
    (read_exact on Cursor: all-or-nothing with respect to the value returned). *)
Definition cur_read (chunk : list Z) (pos n : Z) : option (list Z * Z) :=
  if zlen chunk <? pos + n then None else Some (zslice chunk pos n, pos + n).
Definition u16_of (be : bool) (l : list Z) : option Z :=
  match l with [a; b] => Some (if be then 256 * a + b else a + 256 * b) | _ => None end.
Definition u32_of (be : bool) (l : list Z) : option Z :=
  match l with
  | [a; b; c; d] => Some (if be then 16777216 * a + 65536 * b + 256 * c + d
                          else a + 256 * b + 65536 * c + 16777216 * d)
  | _ => None end.
Definition obind {A B} (o : option A) (f : A -> option B) : option B :=
  match o with Some a => f a | None => None end.
Definition cur_u16 (be : bool) (chunk : list Z) (pos : Z) : option (Z * Z) :=
  obind (cur_read chunk pos 2) (fun '(l, p) => obind (u16_of be l) (fun v => Some (v, p))).
Definition cur_u32 (be : bool) (chunk : list Z) (pos : Z) : option (Z * Z) :=
  obind (cur_read chunk pos 4) (fun '(l, p) => obind (u32_of be l) (fun v => Some (v, p))).

(** the loop `for _ in 0..entries` of metadata.rs:77-86 and 92-101, [n] entries left.
    `?` inside the loop returns None from the function. *)
Fixpoint exif_entries (be : bool) (chunk : list Z) (n : nat) (pos : Z) : option orientation :=
  match n with
  | O => None
  | S n' =>
    obind (cur_u16 be chunk pos) (fun '(tag, pos) =>
    obind (cur_u16 be chunk pos) (fun '(format, pos) =>
    obind (cur_u32 be chunk pos) (fun '(count, pos) =>
    obind (cur_u16 be chunk pos) (fun '(value, pos) =>
    obind (cur_u16 be chunk pos) (fun '(_, pos) =>
      if (tag =? 274) && (format =? 3) && (count =? 1)
      then from_exif (Z.min value 255)
      else exif_entries be chunk n' pos)))))
  end.

(** from_exif_chunk: metadata.rs:65-107 (both arms have the same text up to endianness) *)
Definition from_exif_chunk (chunk : list Z) : option orientation :=
  obind (cur_read chunk 0 4) (fun '(magic, pos) =>
  let arm (be : bool) :=
    obind (cur_u32 be chunk pos) (fun '(ifd_offset, _) =>
    obind (cur_u16 be chunk ifd_offset) (fun '(entries, pos) =>
      exif_entries be chunk (Z.to_nat entries) pos)) in
  if leqb magic [73; 73; 42; 0] then arm false
  else if leqb magic [77; 77; 0; 42] then arm true
  else None).
