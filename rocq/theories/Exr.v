(** Model of src/codecs/openexr.rs: what this crate does around the exr crate.  The exr crate's answers (the headers of the file and the pixels it delivers to
    the callback) are inputs.  A sample is the 32-bit pattern of an f32; usize is 64 bits. *)
From Coq Require Import ZArith Bool List.
From Verif Require Import Base GenImage ColorType Tiff.
Import ListNotations.
Local Open Scope Z_scope.

(** what is used of exr::meta::header::Header: deep, the channel names, display_window (position: i32, size: usize), layer_position (i32) *)
Record exr_header := mkHeader { hd_deep : bool; hd_channels : list (list Z); dw_x : Z; dw_y : Z; dw_w : Z; dw_h : Z; lay_x : Z; lay_y : Z }.
(** find_index_of_channel(..).is_some() *)
Definition has_channel (h : exr_header) (name : list Z) : bool := existsb (leqb name) (hd_channels h).
(** the closure of position: openexr.rs:71-81 ("R", "G", "B" in ASCII) *)
Definition usable (h : exr_header) : bool := negb (hd_deep h) && forallb (has_channel h) [[82]; [71]; [66]].
(** OpenExrDecoder: openexr.rs:34-46; x_header: the header at header_index *)
Record exr_dec := mkExr { x_index : Z; x_header : exr_header; x_pref : option bool; x_alpha : bool }.
(** Iterator::position *)
Fixpoint position (i : Z) (hs : list exr_header) : option (Z * exr_header) :=
  match hs with [] => None | h :: hs => if usable h then Some (i, h) else position (i + 1) hs end.
(** with_alpha_preference: openexr.rs:64-99, after the exr crate has read the headers *)
Definition exr_open (hs : list exr_header) (pref : option bool) : res exr_dec :=
  match position 0 hs with Some (i, h) => Ok (mkExr i h pref (has_channel h [65])) | None => Err EDecoding end.
(** dimensions: openexr.rs:108-115 *)
Definition exr_dims (d : exr_dec) : Z * Z := (wrap_u32 (dw_w (x_header d)), wrap_u32 (dw_h (x_header d))).
(** color_type: openexr.rs:117-124 *)
Definition exr_color (d : exr_dec) : ctype := if match x_pref d with Some b => b | None => x_alpha d end then CRgba32F else CRgb32F.
(** original_color_type: openexr.rs:126-132 *)
Definition exr_original (d : exr_dec) : ectype := if x_alpha d then XRgba32F else XRgb32F.

(** an i32 result: out of range panics with overflow checks, wraps without *)
Definition i32_m (m : mode) (z : Z) : res Z :=
  if (i32_min <=? z) && (z <=? i32_max) then Ok z else match m with Debug => Panic | Release => Ok (wrap_i32 z) end.
(** Vec2<usize>::to_i32 *)
Definition to_i32 (z : Z) : res Z := if z <=? i32_max then Ok z else Panic.
(** the pixel callback: openexr.rs:168-192; p: index_in_data_window and (r, g, b, a_or_1) *)
Definition place (m : mode) (w h ch offx offy : Z) (buf : list Z) (p : (Z * Z) * list Z) : res (list Z) :=
  let '((x, y), s) := p in
  x <- to_i32 x ;; y <- to_i32 y ;;
  x <- i32_m m (x + offx) ;; y <- i32_m m (y + offy) ;;
  if (0 <=? x) && (0 <=? y) && (x <? wrap_i32 w) && (y <? wrap_i32 h)
  then let i := y * w + x in if (i + 1) * ch <=? zlen buf then Ok (zsplice buf (i * ch) (firstn (Z.to_nat ch) s)) else Panic
  else Ok buf.
(** checked_mul on usize *)
Definition cmul (a b : Z) : option Z := if a * b <=? u64_max then Some (a * b) else None.
(** the bytes of f32 patterns in memory *)
Definition pat_bytes (big : bool) (v : Z) : list Z := if big then be32 v else le32 v.
(** read_image: openexr.rs:135-206; ps: what the exr crate does, either an error or the pixels it hands to the callback.
    A callback panic before an error of the exr crate is not distinguished from the error. *)
Definition exr_read (m : mode) (big : bool) (d : exr_dec) (ps : res (list ((Z * Z) * list Z))) (bytes : list Z) : res (list Z) :=
  let hd := x_header d in
  let ch := ct_channels (exr_color d) in
  offx <- i32_m m (lay_x hd - dw_x hd) ;; offy <- i32_m m (lay_y hd - dw_y hd) ;;
  let '(w, h) := exr_dims d in
  let expected := match cmul w h with Some s => cmul s (ct_bytes (exr_color d)) | None => None end in
  if match expected with Some n => negb (zlen bytes =? n) | None => true end then Panic else
  ps <- ps ;;
  buf <- foldM (place m (dw_w hd) (dw_h hd) ch offx offy) ps (repeat 0 (Z.to_nat (dw_w hd * dw_h hd * ch))) ;;
  copy_from bytes (flat_map (pat_bytes big) buf).

(** bytemuck::pod_read_unaligned of 4-byte patterns *)
Definition pat_of (big : bool) (b : list Z) : Z :=
  match b with [a; b; c; d] => if big then 16777216 * a + 65536 * b + 256 * c + d else a + 256 * b + 65536 * c + 16777216 * d | _ => 0 end.
(** the closures of write_buffer: openexr.rs:236-245, 259-268; bpp: bytes_per_pixel *)
Definition pixel_at (big : bool) (bytes : list Z) (w bpp x y : Z) : res (list Z) :=
  let start := (y * w + x) * bpp in
  if start + bpp <=? zlen bytes then Ok (map (pat_of big) (chunks_exact 4 (zslice bytes start bpp))) else Panic.
(** write_image and write_buffer: openexr.rs:218-288, 312-330: whether alpha is written, the size and the pixel function given to the exr crate *)
Definition exr_encode (big : bool) (bytes : list Z) (w h : Z) (c : ectype) : res (bool * (Z * Z) * (Z -> Z -> res (list Z))) :=
  n <- buffer_size c w h ;;
  if negb (n =? zlen bytes) then Panic else
  match c with
  | XRgb32F => Ok (false, (w, h), pixel_at big bytes w (ect_bits c / 8))
  | XRgba32F => Ok (true, (w, h), pixel_at big bytes w (ect_bits c / 8))
  | _ => Err EEncoding
  end.
