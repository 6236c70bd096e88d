(** Model of the bit-packing helpers (src/utils/mod.rs:5-63) and of GrayImage::expand_palette
    (src/buffer.rs:1343-1376).  usize is 64 bits. *)
From Verif Require Import Base.
Local Open Scope Z_scope.

(** expand_bits: utils/mod.rs:37-63, for bit_depth < 8 (1u8 << 8 is a shift overflow panic in debug builds).
    [row_size * bit_depth] is u32 arithmetic. *)
Definition expand_bits (bit_depth row_size : Z) (buf : list Z) : res (list Z) :=
  if (bit_depth <=? 0) || (8 <=? bit_depth) then Panic
  else
    let mask := Z.shiftl 1 bit_depth - 1 in
    let scaling_factor := 255 / (Z.shiftl 1 bit_depth - 1) in
    let bit_width := row_size * bit_depth in
    if u32_max <? bit_width then Panic else
    let skip := if bit_width mod 8 =? 0 then 0 else (8 - bit_width mod 8) / bit_depth in
    let row_len := row_size + skip in
    if u32_max <? row_len then Panic else
    '(_, p) <- foldM (fun '(i, p) v =>
      foldM (fun '(i, p) shift_inv =>
        let shift := 8 - bit_depth * shift_inv in
        if row_len =? 0 then Panic
        else
          let p := if i mod row_len <? row_size
                   then p ++ [wrap_u8 (Z.shiftr (Z.land v (wrap_u8 (Z.shiftl mask shift))) shift * scaling_factor)]
                   else p in
          Ok (i + 1, p)) (zrange 1 (8 / bit_depth)) (i, p)) buf (0, []) ;;
    Ok p.

(** expand_packed: utils/mod.rs:5-31.  [func] maps the extracted value to the bytes stored over the pixel. *)
Definition packed_positions (channels bit_depth buf_len : Z) : list (Z * Z * Z) :=
  let pixels := buf_len / channels * bit_depth in
  let extra := pixels mod 8 in
  let entries := pixels / 8 + (if extra =? 0 then 0 else 1) in
  let i := skipn (Z.to_nat extra)
    (flat_map (fun idx => map (fun k => (k * bit_depth, idx)) (zrange 0 (8 / bit_depth))) (rev (zrange 0 entries))) in
  (* (channels..buf_len).step_by(channels) *)
  let j_inv := map (fun k => k * channels) (zrange 1 ((buf_len - 1) / channels)) in
  combine i j_inv.
Definition expand_packed (buf : list Z) (channels bit_depth : Z) (func : Z -> res (list Z)) : res (list Z) :=
  if (channels =? 0) || (bit_depth =? 0) then Panic
  else
    let mask := Z.shiftl 1 bit_depth - 1 in
    let buf_len := zlen buf in
    foldM (fun buf '(shift, i, j_inv) =>
      let j := buf_len - j_inv in
      match zget buf i with
      | None => Panic
      | Some v =>
          let pixel := Z.shiftr (Z.land v (wrap_u8 (Z.shiftl mask shift))) shift in
          new <- func pixel ;; Ok (zsplice buf j new)
      end) (packed_positions channels bit_depth buf_len) buf.

(** GrayImage::expand_palette: buffer.rs:1348-1375; the image is its samples *)
Definition palette_pixel (palette : list (Z * Z * Z)) (transparent : option Z) (idx : Z) : res (list Z) :=
  match zget palette idx with
  | None => Panic
  | Some (r, g, b) =>
      let a := match transparent with Some t => if t =? idx then 0 else 255 | None => 255 end in
      Ok [r; g; b; a]
  end.
Definition expand_palette (palette : list (Z * Z * Z)) (transparent : option Z) (data : list Z) : res (list Z) :=
  let entries := zlen data in
  if u64_max <? entries * 4 then Panic
  else expand_packed (data ++ repeat 0 (3 * length data)) 4 8 (palette_pixel palette transparent).
