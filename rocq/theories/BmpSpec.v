(** What BMP run length encoding means (MS-WMF 3.1.6 / MSDN "Bitmap Compression"), independently of the decoder. *)
From Verif Require Import Base.
Local Open Scope Z_scope.

(** A drawing, by column and row counted from the first stored row; black where nothing was drawn. *)
Definition canvas := Z -> Z -> list Z.
Definition blank : canvas := fun _ _ => [0; 0; 0].
(** the colours [l], one after another, from (x, y) to the right *)
Definition paint (c : canvas) (x y : Z) (l : list (list Z)) : canvas :=
  fun x' y' => if (y' =? y) && (x <=? x') && (x' <? x + zlen l) then nth (Z.to_nat (x' - x)) l [] else c x' y'.

(** entry i of a palette *)
Definition colour_of (pal : list (list Z)) (i : Z) : list Z := match zget pal i with Some c => c | None => [] end.
(** One instruction and its bytes.  [rle4]: two palette indices per byte, the high nibble first. *)
Inductive op := Pixels (indices : list Z) | Skip (dx dy : Z) | Eol | Eof.
Definition unpack (rle4 : bool) (l : list Z) : list Z := if rle4 then flat_map (fun b => [b / 16; b mod 16]) l else l.
Inductive instr (rle4 : bool) : list Z -> op -> list Z -> Prop :=
| i_run n b r : 1 <= n <= 255 ->
    instr rle4 (n :: b :: r)
      (Pixels (map (fun k => if rle4 then (if Z.even k then b / 16 else b mod 16) else b) (zrange 0 n))) r
| i_eol r : instr rle4 (0 :: 0 :: r) Eol r
| i_eof r : instr rle4 (0 :: 1 :: r) Eof r
| i_delta dx dy r : instr rle4 (0 :: 2 :: dx :: dy :: r) (Skip dx dy) r
| i_abs n data r : 3 <= n <= 255 -> zlen data = (if rle4 then 2 * ((n + 3) / 4) else 2 * ((n + 1) / 2)) ->
    instr rle4 (0 :: n :: data ++ r) (Pixels (firstn (Z.to_nat n) (unpack rle4 data))) r.

(** Executing instructions with the cursor at (x, y), until end of file or past the last row. *)
Inductive runs (rle4 : bool) (w h : Z) (colour : Z -> list Z) : Z -> Z -> canvas -> list Z -> canvas -> list Z -> Prop :=
| r_eof x y c r r' : instr rle4 r Eof r' -> runs rle4 w h colour x y c r c r'
| r_end x y c r r' : instr rle4 r Eol r' -> y + 1 = h -> runs rle4 w h colour x y c r c r'
| r_eol x y c r r' c' r'' : instr rle4 r Eol r' -> y + 1 < h -> runs rle4 w h colour 0 (y + 1) c r' c' r'' ->
    runs rle4 w h colour x y c r c' r''
| r_skip x y c dx dy r r' c' r'' : instr rle4 r (Skip dx dy) r' -> x + dx <= w -> y + dy < h ->
    runs rle4 w h colour (x + dx) (y + dy) c r' c' r'' -> runs rle4 w h colour x y c r c' r''
| r_pixels x y c l r r' c' r'' : instr rle4 r (Pixels l) r' -> x + zlen l <= w ->
    runs rle4 w h colour (x + zlen l) y (paint c x y (map colour l)) r' c' r'' -> runs rle4 w h colour x y c r c' r''.

(** ** Uncompressed pixels, by file offsets *)
From Verif Require Import IcoSpec BmpBits.
(** the channel in bits [shift, shift + len) of a pixel, scaled to 0..255 and rounded to the nearest integer *)
Definition channel (f : bitfield) (data : Z) : Z :=
  let m := 2 ^ bf_len f - 1 in (2 * 255 * (data / 2 ^ bf_shift f mod 2 ^ bf_len f) + m) / (2 * m).
Definition fields_pixel (fs : bitfields) (alpha : bool) (data : Z) : list Z :=
  [channel (bf_r fs) data; channel (bf_g fs) data; channel (bf_b fs) data] ++
  (if alpha then [if bf_len (bf_a fs) =? 0 then 255 else channel (bf_a fs) data] else []).
(** pixel x of a row of palette indices of [bits] bits that starts at offset o; most significant bits first *)
Definition index_at (file : list Z) (bits o x : Z) : Z :=
  byte_at file (o + x * bits / 8) / 2 ^ (8 - bits - x * bits mod 8) mod 2 ^ bits.

(** ** The headers, by file offsets: [p] is where the DIB header starts *)
From Verif Require Import Bmp.
Definition signed32 (v : Z) : Z := if v <? 2147483648 then v else v - 4294967296.
Definition dib_size (file : list Z) (p : Z) : Z := num32 file p.
Definition dib_core (file : list Z) (p : Z) : bool := dib_size file p =? 12.
Definition dib_width (file : list Z) (p : Z) : Z := if dib_core file p then num16 file (p + 4) else num32 file (p + 4).
(** negative: the first stored row is the top one *)
Definition dib_height (file : list Z) (p : Z) : Z := if dib_core file p then num16 file (p + 6) else signed32 (num32 file (p + 8)).
Definition dib_depth (file : list Z) (p : Z) : Z := if dib_core file p then num16 file (p + 10) else num16 file (p + 14).
Definition dib_method (file : list Z) (p : Z) : Z := if dib_core file p then 0 else num32 file (p + 16).
Definition dib_colors (file : list Z) (p : Z) : Z := if dib_core file p then 0 else num32 file (p + 32).
Definition dib_mask (file : list Z) (p k : Z) : Z := num32 file (p + 40 + 4 * k).
(** only headers of version 3 and later have a fourth mask *)
Definition dib_alpha_mask (file : list Z) (p : Z) : Z := if 56 <=? dib_size file p then dib_mask file p 3 else 0.
Definition palette_count (file : list Z) (p : Z) : Z := if dib_colors file p =? 0 then 2 ^ dib_depth file p else dib_colors file p.
Definition palette_colour (file : list Z) (p i : Z) : list Z :=
  let o := p + dib_size file p + (if dib_core file p then 3 else 4) * i in
  if i <? palette_count file p then [byte_at file (o + 2); byte_at file (o + 1); byte_at file o] else [0; 0; 0].
(** (method, depth) and what it stands for; [ico]: the file is inside an ICO *)
Definition kinds (ico : bool) : list (Z * Z * imtype) :=
  [(0, 1, TPalette); (0, 2, TPalette); (0, 4, TPalette); (0, 8, TPalette); (0, 16, TRGB16); (0, 24, TRGB24);
   (0, 32, if ico then TRGBA32 else TRGB32); (1, 8, TRLE8); (2, 4, TRLE4); (3, 16, TBitfields16); (3, 32, TBitfields32)].
Definition has_palette (t : imtype) : bool := match t with TPalette | TRLE8 | TRLE4 => true | _ => false end.
Definition has_fields (t : imtype) : bool := match t with TBitfields16 | TBitfields32 => true | _ => false end.
(** what the opened decoder must know about the DIB header at p *)
Record describes (file : list Z) (p : Z) (ico : bool) (d : bmp) : Prop := mkDescribes {
  de_size : In (dib_size file p) [12; 40; 52; 56; 108; 124];
  de_w : b_w d = dib_width file p;
  de_h : b_h d = Z.abs (dib_height file p);
  de_td : b_top_down d = (dib_height file p <? 0);
  de_bits : b_bits d = dib_depth file p;
  de_kind : In (dib_method file p, dib_depth file p, b_type d) (kinds ico);
  de_pal : if has_palette (b_type d) then exists pal, b_pal d = Some pal /\ zlen pal = 256 /\
             forall i, 0 <= i < 256 -> zget pal i = Some (palette_colour file p i)
           else b_pal d = None;
  de_fields : if has_fields (b_type d) then exists f, b_fields d = Some f /\
                bfs_from_mask (dib_mask file p 0) (dib_mask file p 1) (dib_mask file p 2) (dib_alpha_mask file p) (dib_depth file p) = Ok f
              else b_fields d = None;
  de_alpha : b_alpha d = ico || (has_fields (b_type d) && negb (dib_alpha_mask file p =? 0));
  de_mode : b_indexed d = false }.

(** ** The image *)
(** the samples of a w x h image, rows from top to bottom, pixels from left to right *)
Definition raster (w h : Z) (px : Z -> Z -> list Z) : list Z := flat_map (fun y => flat_map (fun x => px x y) (zrange 0 w)) (zrange 0 h).
(** rows are padded to multiples of 4 bytes *)
Definition stride (d : bmp) : Z := 4 * ((b_bits d * b_w d + 31) / 32).
(** pixel x of stored row j *)
Definition stored_pixel (file : list Z) (d : bmp) (x j : Z) : list Z :=
  let row := b_off d + j * stride d in
  let opaque := if b_alpha d then [255] else [] in
  let rgb o := [byte_at file (o + 2); byte_at file (o + 1); byte_at file o] in
  match b_type d with
  | TPalette => match b_pal d with Some pal => colour_of pal (index_at file (b_bits d) row x) ++ opaque | None => [] end
  | TRGB16 => fields_pixel R5_G5_B5 (b_alpha d) (num16 file (row + 2 * x))
  | TRGB24 => rgb (row + 3 * x) ++ opaque
  | TRGB32 => rgb (row + 4 * x) ++ opaque
  | TRGBA32 => rgb (row + 4 * x) ++ [byte_at file (row + 4 * x + 3)]
  | TBitfields16 => match b_fields d with Some f => fields_pixel f (b_alpha d) (num16 file (row + 2 * x)) | None => [] end
  | TBitfields32 => match b_fields d with Some f => fields_pixel f (b_alpha d) (num32 file (row + 4 * x)) | None => [] end
  | _ => []
  end.
Definition compressed (d : bmp) : bool := match b_type d with TRLE8 | TRLE4 => true | _ => false end.
(** the row stored for output row y *)
Definition stored_row (d : bmp) (y : Z) : Z := if b_top_down d then y else b_h d - 1 - y.
