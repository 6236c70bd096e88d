(** Specification vocabulary for EXIF orientation, independent of the code.

    EXIF 2.3, tag 274: the value tells at which visual side of the picture the 0th row and
    the 0th column of the stored data lie. *)
From Verif Require Import Base.

Inductive side := STop | SBottom | SLeft | SRight.
(** EXIF table: (0th row, 0th column) for the values 1..8 *)
Definition exif_sides (v : Z) : option (side * side) :=
  match v with
  | 1 => Some (STop, SLeft)    | 2 => Some (STop, SRight)
  | 3 => Some (SBottom, SRight) | 4 => Some (SBottom, SLeft)
  | 5 => Some (SLeft, STop)    | 6 => Some (SRight, STop)
  | 7 => Some (SRight, SBottom) | 8 => Some (SLeft, SBottom)
  | _ => None
  end.
(** [at_side s k W H X Y]: the displayed position (X,Y) in a W*H picture is on the k-th line
    counted from side s. *)
Definition at_side (s : side) (k W H X Y : Z) : Prop :=
  match s with
  | STop => Y = k | SBottom => Y = H - 1 - k
  | SLeft => X = k | SRight => X = W - 1 - k
  end.
(** does the 0th row lie on a vertical side (i.e. are width and height exchanged)? *)
Definition exchanges (v : Z) : bool := 5 <=? v.

(** TIFF integers at an absolute position of a byte string *)
Definition u16at (be : bool) (c : list Z) (p : Z) : option Z :=
  match zget c p, zget c (p + 1) with
  | Some a, Some b => Some (if be then 256 * a + b else a + 256 * b)
  | _, _ => None
  end.
Definition u32at (be : bool) (c : list Z) (p : Z) : option Z :=
  match u16at be c p, u16at be c (p + 2) with
  | Some a, Some b => Some (if be then 65536 * a + b else a + 65536 * b)
  | _, _ => None
  end.
Definition tiff_magic (be : bool) : list Z := if be then [77; 77; 0; 42] else [73; 73; 42; 0].
(** the k-th 12-byte IFD entry lies completely inside the chunk *)
Definition entry_present (c : list Z) (ifd k : Z) : Prop := ifd + 2 + 12 * k + 12 <= zlen c.
(** the k-th entry is an orientation entry: tag 0x112, type SHORT, count 1 *)
Definition is_orientation_entry (be : bool) (c : list Z) (ifd k : Z) : Prop :=
  u16at be c (ifd + 2 + 12 * k) = Some 274 /\
  u16at be c (ifd + 2 + 12 * k + 2) = Some 3 /\
  u32at be c (ifd + 2 + 12 * k + 4) = Some 1.
