(** The TGA run-length packet format, stated independently of the encoder and decoder: a stream is a
    sequence of packets of 1 to 128 whole pixels each. *)
From Verif Require Import Base.
Local Open Scope Z_scope.

Inductive packet := Raw (ps : list (list Z)) | Rle (p : list Z) (n : Z).
(** the bytes of a packet: a header byte with the count minus one, the high bit set for a repeated pixel *)
Definition packet_bytes (k : packet) : list Z :=
  match k with Raw ps => (zlen ps - 1) :: concat ps | Rle p n => (128 + (n - 1)) :: p end.
(** the pixels it stands for *)
Definition packet_pixels (k : packet) : list (list Z) :=
  match k with Raw ps => ps | Rle p n => repeat p (Z.to_nat n) end.
(** legal packets of pixels of [bpp] bytes *)
Definition packet_ok (bpp : Z) (k : packet) : Prop :=
  match k with
  | Raw ps => 1 <= zlen ps <= 128 /\ Forall (fun p => zlen p = bpp) ps
  | Rle p n => 1 <= n <= 128 /\ zlen p = bpp
  end.

(** The uncompressed and run-length-encoded grey, grey+alpha, RGB and RGBA files, stated as bytes.
    [top]: rows are stored top to bottom; [id]: the image identification field. *)
From Verif Require Import ColorType.
Definition tga_color (c : ctype) : Prop := c = CL8 \/ c = CLa8 \/ c = CRgb8 \/ c = CRgba8.
Definition has_alpha8 (c : ctype) : Z := match c with CLa8 | CRgba8 => 8 | _ => 0 end.
Definition is_gray (c : ctype) : bool := match c with CL8 | CLa8 => true | _ => false end.
Definition nbytes (c : ctype) : Z := match c with CL8 => 1 | CLa8 => 2 | CRgb8 => 3 | CRgba8 => 4 | _ => 0 end.
Definition tga_header (c : ctype) (w h : Z) (rle top : bool) (id : list Z) : list Z :=
  [zlen id; 0; (if is_gray c then 3 else 2) + (if rle then 8 else 0); 0; 0; 0; 0; 0; 0; 0; 0; 0]
  ++ le16 w ++ le16 h ++ [8 * nbytes c; has_alpha8 c + (if top then 32 else 0)].
(** pixels are stored blue first *)
Definition file_order (p : list Z) : list Z :=
  match p with
  | [r; g; b] => [b; g; r]
  | [r; g; b; a] => [b; g; r; a]
  | _ => p
  end.
(** [body] stores the pixels [l] *)
Definition stores (c : ctype) (rle : bool) (l : list (list Z)) (body : list Z) : Prop :=
  if rle then exists ps, body = flat_map packet_bytes ps /\ Forall (packet_ok (nbytes c)) ps /\
                         flat_map packet_pixels ps = map file_order l
  else body = concat (map file_order l).
