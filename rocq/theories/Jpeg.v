(** Model of the JPEG encoder: src/codecs/jpeg/encoder.rs, entropy.rs, transform.rs.
    The underlying writer is a Vec<u8> (writes do not fail).  Arithmetic that overflows its Rust type is [Panic]
    (what a build with overflow checks does); the theorems show that it does not happen, so the other build agrees.
    Pixel types: u8 and u16 samples (Rgb<f32> and Rgba<f32> are not modelled). *)
From Coq Require Import String Ascii.
From Verif Require Import Base GenImage Buffer Color ColorType Overlay Float Text.
Local Open Scope Z_scope.

(** STD_LUMA_QTABLE: encoder.rs:38-47 *)
Definition luma_qtable : list Z :=
  [ 16; 11; 10; 16; 24; 40; 51; 61; 12; 12; 14; 19; 26; 58; 60; 55;
    14; 13; 16; 24; 40; 57; 69; 56; 14; 17; 22; 29; 51; 87; 80; 62;
    18; 22; 37; 56; 68; 109; 103; 77; 24; 35; 55; 64; 81; 104; 113; 92;
    49; 64; 78; 87; 103; 121; 120; 101; 72; 92; 95; 98; 112; 100; 103; 99 ].
(** STD_CHROMA_QTABLE: encoder.rs:51-60 *)
Definition chroma_qtable : list Z :=
  [ 17; 18; 24; 47; 99; 99; 99; 99; 18; 21; 26; 66; 99; 99; 99; 99;
    24; 26; 56; 99; 99; 99; 99; 99; 47; 66; 99; 99; 99; 99; 99; 99;
    99; 99; 99; 99; 99; 99; 99; 99; 99; 99; 99; 99; 99; 99; 99; 99;
    99; 99; 99; 99; 99; 99; 99; 99; 99; 99; 99; 99; 99; 99; 99; 99 ].
(** STD_LUMA_DC_CODE_LENGTHS: encoder.rs:64-66 *)
Definition luma_dc_lengths : list Z :=
  [ 0; 1; 5; 1; 1; 1; 1; 1; 1; 0; 0; 0; 0; 0; 0; 0 ].
(** STD_LUMA_DC_VALUES: encoder.rs:68-70 *)
Definition luma_dc_values : list Z :=
  [ 0; 1; 2; 3; 4; 5; 6; 7; 8; 9; 10; 11 ].
(** STD_CHROMA_DC_CODE_LENGTHS: encoder.rs:76-78 *)
Definition chroma_dc_lengths : list Z :=
  [ 0; 3; 1; 1; 1; 1; 1; 1; 1; 1; 1; 0; 0; 0; 0; 0 ].
(** STD_CHROMA_DC_VALUES: encoder.rs:80-82 *)
Definition chroma_dc_values : list Z :=
  [ 0; 1; 2; 3; 4; 5; 6; 7; 8; 9; 10; 11 ].
(** STD_LUMA_AC_CODE_LENGTHS: encoder.rs:88-90 *)
Definition luma_ac_lengths : list Z :=
  [ 0; 2; 1; 3; 3; 2; 4; 3; 5; 5; 4; 4; 0; 0; 1; 125 ].
(** STD_LUMA_AC_VALUES: encoder.rs:92-104 *)
Definition luma_ac_values : list Z :=
  [ 1; 2; 3; 0; 4; 17; 5; 18; 33; 49; 65; 6; 19; 81; 97; 7;
    34; 113; 20; 50; 129; 145; 161; 8; 35; 66; 177; 193; 21; 82; 209; 240;
    36; 51; 98; 114; 130; 9; 10; 22; 23; 24; 25; 26; 37; 38; 39; 40;
    41; 42; 52; 53; 54; 55; 56; 57; 58; 67; 68; 69; 70; 71; 72; 73;
    74; 83; 84; 85; 86; 87; 88; 89; 90; 99; 100; 101; 102; 103; 104; 105;
    106; 115; 116; 117; 118; 119; 120; 121; 122; 131; 132; 133; 134; 135; 136; 137;
    138; 146; 147; 148; 149; 150; 151; 152; 153; 154; 162; 163; 164; 165; 166; 167;
    168; 169; 170; 178; 179; 180; 181; 182; 183; 184; 185; 186; 194; 195; 196; 197;
    198; 199; 200; 201; 202; 210; 211; 212; 213; 214; 215; 216; 217; 218; 225; 226;
    227; 228; 229; 230; 231; 232; 233; 234; 241; 242; 243; 244; 245; 246; 247; 248;
    249; 250 ].
(** STD_CHROMA_AC_CODE_LENGTHS: encoder.rs:110-112 *)
Definition chroma_ac_lengths : list Z :=
  [ 0; 2; 1; 2; 4; 4; 3; 4; 7; 5; 4; 4; 0; 1; 2; 119 ].
(** STD_CHROMA_AC_VALUES: encoder.rs:113-125 *)
Definition chroma_ac_values : list Z :=
  [ 0; 1; 2; 3; 17; 4; 5; 33; 49; 6; 18; 65; 81; 7; 97; 113;
    19; 34; 50; 129; 8; 20; 66; 145; 161; 177; 193; 9; 35; 51; 82; 240;
    21; 98; 114; 209; 10; 22; 36; 52; 225; 37; 241; 23; 24; 25; 26; 38;
    39; 40; 41; 42; 53; 54; 55; 56; 57; 58; 67; 68; 69; 70; 71; 72;
    73; 74; 83; 84; 85; 86; 87; 88; 89; 90; 99; 100; 101; 102; 103; 104;
    105; 106; 115; 116; 117; 118; 119; 120; 121; 122; 130; 131; 132; 133; 134; 135;
    136; 137; 138; 146; 147; 148; 149; 150; 151; 152; 153; 154; 162; 163; 164; 165;
    166; 167; 168; 169; 170; 178; 179; 180; 181; 182; 183; 184; 185; 186; 194; 195;
    196; 197; 198; 199; 200; 201; 202; 210; 211; 212; 213; 214; 215; 216; 217; 218;
    226; 227; 228; 229; 230; 231; 232; 233; 234; 242; 243; 244; 245; 246; 247; 248;
    249; 250 ].
(** UNZIGZAG: encoder.rs:142-151 *)
Definition unzigzag : list Z :=
  [ 0; 1; 8; 16; 9; 2; 3; 10; 17; 24; 32; 25; 18; 11; 4; 5;
    12; 19; 26; 33; 40; 48; 41; 34; 27; 20; 13; 6; 7; 14; 21; 28;
    35; 42; 49; 56; 57; 50; 43; 36; 29; 22; 15; 23; 30; 37; 44; 51;
    58; 59; 52; 45; 38; 31; 39; 46; 53; 60; 61; 54; 47; 55; 62; 63 ].

(** ** Huffman lookup tables *)
(** derive_codes_and_sizes, first loop (huffsize up to its terminating 0): entropy.rs:10-24 *)
Definition huffsize (bits : list Z) : list Z :=
  concat (map (fun p => repeat (fst p) (Z.to_nat (snd p))) (combine (zrange 1 16) bits)).
(** second loop: entropy.rs:29-47; u16 codes, u8 sizes *)
Fixpoint huffcode (sizes : list Z) (code size : Z) : list Z :=
  match sizes with
  | [] => []
  | _ :: rest =>
      code ::
      let code := wrap_u16 (code + 1) in
      let next := match rest with s :: _ => s | [] => 0 end in
      if next =? size then huffcode rest code size
      else
        let diff := wrap_u8 (next - size) in
        let code := if diff <? 16 then wrap_u16 (code * 2 ^ diff) else 0 in
        huffcode rest code (wrap_u8 (size + diff))
  end.
(** build_huff_lut_const: entropy.rs:52-63 *)
Definition build_huff_lut (bits huffval : list Z) : list (Z * Z) :=
  let sizes := huffsize bits in
  let codes := huffcode sizes 0 (match sizes with s :: _ => s | [] => 0 end) in
  fold_left (fun lut p => zset lut (fst p) (snd p)) (combine huffval (combine sizes codes)) (repeat (17, 0) 256).
(** the four static tables: encoder.rs:72-73, 84-85, 106-107, 127-128 *)
Definition luma_dc_lut := build_huff_lut luma_dc_lengths luma_dc_values.
Definition chroma_dc_lut := build_huff_lut chroma_dc_lengths chroma_dc_values.
Definition luma_ac_lut := build_huff_lut luma_ac_lengths luma_ac_values.
Definition chroma_ac_lut := build_huff_lut chroma_ac_lengths chroma_ac_values.

(** ** BitWriter: encoder.rs:177-281 *)
Record bw := mkBw { bw_out : list Z; bw_acc : Z; bw_n : Z }.
Definition bw_new (out : list Z) : bw := mkBw out 0 0.
(** the while loop of write_bits: encoder.rs:201-211 *)
Fixpoint bw_flush (fuel : nat) (s : bw) : res bw :=
  if bw_n s <? 8 then Ok s
  else match fuel with
       | O => Err EFuel
       | S fuel =>
           let byte := Z.shiftr (bw_acc s) 24 in
           let out := bw_out s ++ [byte] ++ (if byte =? 255 then [0] else []) in
           bw_flush fuel (mkBw out (wrap_u32 (Z.shiftl (bw_acc s) 8)) (bw_n s - 8))
       end.
(** write_bits: encoder.rs:193-214 *)
Definition write_bits (s : bw) (bits size : Z) : res bw :=
  if size =? 0 then Ok s
  else
    let n := bw_n s + size in
    if 32 <? n then Panic
    else bw_flush 5 (mkBw (bw_out s) (Z.lor (bw_acc s) (wrap_u32 (Z.shiftl bits (32 - n)))) n).
(** pad_byte: encoder.rs:216-218 *)
Definition pad_byte (s : bw) : res bw := write_bits s 127 7.
(** huffman_encode: encoder.rs:220-226 *)
Definition huffman_encode (s : bw) (v : Z) (table : list (Z * Z)) : res bw :=
  match zget table v with
  | None => Panic
  | Some (size, code) => if 16 <? size then Panic else write_bits s code size
  end.
(** the loop of encode_coefficient: encoder.rs:806-809 *)
Fixpoint count_bits (fuel : nat) (magnitude : Z) : Z :=
  match fuel with
  | O => 0
  | S fuel => if 0 <? magnitude then 1 + count_bits fuel (Z.shiftr magnitude 1) else 0
  end.
Definition i32_chk (v : Z) : res Z := if (i32_min <=? v) && (v <=? i32_max) then Ok v else Panic.
(** encode_coefficient: encoder.rs:802-820; the mask [(1u16 << num_bits) - 1] overflows for 16 bits *)
Definition encode_coefficient (c : Z) : res (Z * Z) :=
  let n := count_bits 17 (wrap_u16 (Z.abs c)) in
  if 15 <? n then Panic
  else
    let mask := Z.shiftl 1 n - 1 in
    v <- (if c <? 0 then c1 <- i32_chk (c - 1) ;; Ok (wrap_u16 c1) else Ok (wrap_u16 c)) ;;
    Ok (n, Z.land v mask).
(** while zero_run > 15: encoder.rs:251-254 *)
Fixpoint write_zrl (fuel : nat) (s : bw) (run : Z) (actable : list (Z * Z)) : res (bw * Z) :=
  if run <=? 15 then Ok (s, run)
  else match fuel with
       | O => Err EFuel
       | S fuel => s <- huffman_encode s 240 actable ;; write_zrl fuel s (run - 16) actable
       end.
(** write_block: encoder.rs:228-270 *)
Definition write_ac (block : list Z) (actable : list (Z * Z)) (st : bw * Z) (k : Z) : res (bw * Z) :=
  let '(s, run) := st in
  match zget block k with
  | None => Panic
  | Some c =>
      if c =? 0 then Ok (s, run + 1)
      else
        '(s, run) <- write_zrl 16 s run actable ;;
        '(size, value) <- encode_coefficient c ;;
        s <- huffman_encode s (Z.lor (Z.shiftl run 4) size) actable ;;
        s <- write_bits s value size ;;
        Ok (s, 0)
  end.
Definition write_block (s : bw) (block : list Z) (prevdc : Z) (dctable actable : list (Z * Z)) : res (bw * Z) :=
  match zget block 0, zget block 63 with
  | Some dcval, Some last =>
      diff <- i32_chk (dcval - prevdc) ;;
      '(size, value) <- encode_coefficient diff ;;
      s <- huffman_encode s size dctable ;;
      s <- write_bits s value size ;;
      '(s, _) <- foldM (write_ac block actable) (skipn 1 unzigzag) (s, 0) ;;
      s <- (if last =? 0 then huffman_encode s 0 actable else Ok s) ;;
      Ok (s, dcval)
  | _, _ => Panic
  end.
(** write_marker: encoder.rs:272-274 *)
Definition write_marker (s : bw) (marker : Z) : bw := mkBw (bw_out s ++ [255; marker]) (bw_acc s) (bw_n s).
(** write_segment: encoder.rs:276-280 *)
Definition write_segment (s : bw) (marker : Z) (data : list Z) : res bw :=
  let n := wrap_u16 (zlen data) + 2 in
  if u16_max <? n then Panic
  else Ok (mkBw (bw_out s ++ [255; marker] ++ be16 n ++ data) (bw_acc s) (bw_n s)).

(** ** Forward DCT: transform.rs:70-196 *)
(** i32 expressions; every intermediate result is checked for overflow *)
Inductive expr :=
  | V (i : nat) | K (c : Z) | Add (a b : expr) | Sub (a b : expr) | Mul (a : expr) (c : Z) | Shl (a : expr) (k : Z) | Shr (a : expr) (k : Z).
Fixpoint ev (env : list Z) (e : expr) : res Z :=
  match e with
  | V i => match nth_error env i with Some v => Ok v | None => Panic end
  | K c => i32_chk c
  | Add a b => x <- ev env a ;; y <- ev env b ;; i32_chk (x + y)
  | Sub a b => x <- ev env a ;; y <- ev env b ;; i32_chk (x - y)
  | Mul a c => x <- ev env a ;; i32_chk (x * c)
  | Shl a k => x <- ev env a ;; i32_chk (x * 2 ^ k)
  | Shr a k => x <- ev env a ;; Ok (Z.shiftr x k)
  end.
Declare Scope expr_scope.
Delimit Scope expr_scope with expr.
Infix "+" := Add : expr_scope.
Infix "-" := Sub : expr_scope.
(** the constants: transform.rs:53-68 *)
Definition CONST_BITS : Z := 13.
Definition PASS1_BITS : Z := 2.
Definition FIX_0_298631336 : Z := 2446.
Definition FIX_0_390180644 : Z := 3196.
Definition FIX_0_541196100 : Z := 4433.
Definition FIX_0_765366865 : Z := 6270.
Definition FIX_0_899976223 : Z := 7373.
Definition FIX_1_175875602 : Z := 9633.
Definition FIX_1_501321110 : Z := 12299.
Definition FIX_1_847759065 : Z := 15137.
Definition FIX_1_961570560 : Z := 16069.
Definition FIX_2_053119869 : Z := 16819.
Definition FIX_2_562915447 : Z := 20995.
Definition FIX_3_072711026 : Z := 25172.
(** the odd part shared by both passes: transform.rs:104-127 and 166-189; outputs 1, 3, 5, 7 before the final shift *)
Definition odd_part (t0 t1 t2 t3 : expr) : expr * expr * expr * expr :=
  (let t12 := t0 + t2 in
   let t13 := t1 + t3 in
   let z1 := Mul (t12 + t13) FIX_1_175875602 + K (2 ^ (CONST_BITS - PASS1_BITS - 1)) in
   let t12 := Mul t12 (- FIX_0_390180644) + z1 in
   let t13 := Mul t13 (- FIX_1_961570560) + z1 in
   let z1 := Mul (t0 + t3) (- FIX_0_899976223) in
   let t0' := Mul t0 FIX_1_501321110 + (z1 + t12) in
   let t3' := Mul t3 FIX_0_298631336 + (z1 + t13) in
   let z1 := Mul (t1 + t2) (- FIX_2_562915447) in
   let t1' := Mul t1 FIX_3_072711026 + (z1 + t13) in
   let t2' := Mul t2 FIX_2_053119869 + (z1 + t12) in
   (t0', t1', t2', t3'))%expr.
(** pass 1 on one row of samples (variables 0..7), the 8 results in order: transform.rs:74-133 *)
Definition row_pass : list expr :=
  (let t0 := V 0 + V 7 in let t1 := V 1 + V 6 in let t2 := V 2 + V 5 in let t3 := V 3 + V 4 in
   let t10 := t0 + t3 in let t12 := t0 - t3 in let t11 := t1 + t2 in let t13 := t1 - t2 in
   let u0 := V 0 - V 7 in let u1 := V 1 - V 6 in let u2 := V 2 - V 5 in let u3 := V 3 - V 4 in
   let c0 := Shl (t10 + t11 - K (8 * 128)) PASS1_BITS in
   let c4 := Shl (t10 - t11) PASS1_BITS in
   let z1 := Mul (t12 + t13) FIX_0_541196100 + K (2 ^ (CONST_BITS - PASS1_BITS - 1)) in
   let c2 := Shr (z1 + Mul t12 FIX_0_765366865) (CONST_BITS - PASS1_BITS) in
   let c6 := Shr (z1 - Mul t13 FIX_1_847759065) (CONST_BITS - PASS1_BITS) in
   let '(o1, o3, o5, o7) := odd_part u0 u1 u2 u3 in
   [c0; Shr o1 (CONST_BITS - PASS1_BITS); c2; Shr o3 (CONST_BITS - PASS1_BITS);
    c4; Shr o5 (CONST_BITS - PASS1_BITS); c6; Shr o7 (CONST_BITS - PASS1_BITS)])%expr.
(** pass 2 on one column: transform.rs:138-195.  Each column is read completely before it is written, and columns are
    independent of each other, so the order of the loop does not matter. *)
Definition col_pass : list expr :=
  (let t0 := V 0 + V 7 in let t1 := V 1 + V 6 in let t2 := V 2 + V 5 in let t3 := V 3 + V 4 in
   let t10 := t0 + t3 + K (2 ^ (PASS1_BITS - 1)) in let t12 := t0 - t3 in let t11 := t1 + t2 in let t13 := t1 - t2 in
   let u0 := V 0 - V 7 in let u1 := V 1 - V 6 in let u2 := V 2 - V 5 in let u3 := V 3 - V 4 in
   let c0 := Shr (t10 + t11) PASS1_BITS in
   let c4 := Shr (t10 - t11) PASS1_BITS in
   let z1 := Mul (t12 + t13) FIX_0_541196100 + K (2 ^ (CONST_BITS + PASS1_BITS - 1)) in
   let c2 := Shr (z1 + Mul t12 FIX_0_765366865) (CONST_BITS + PASS1_BITS) in
   let c6 := Shr (z1 - Mul t13 FIX_1_847759065) (CONST_BITS + PASS1_BITS) in
   let '(o1, o3, o5, o7) := odd_part u0 u1 u2 u3 in
   [c0; Shr o1 (CONST_BITS + PASS1_BITS); c2; Shr o3 (CONST_BITS + PASS1_BITS);
    c4; Shr o5 (CONST_BITS + PASS1_BITS); c6; Shr o7 (CONST_BITS + PASS1_BITS)])%expr.
Definition pass (es : list expr) (line : list Z) : res (list Z) := map_res (ev line) es.
Definition column {A} (rows : list (list A)) (x : Z) : list A := flat_map (fun r => zslice r x 1) rows.
(** fdct; the result is in row-major order like the array [coeffs] *)
Definition fdct (samples : list Z) : res (list Z) :=
  rows <- map_res (fun y => pass row_pass (zslice samples (8 * y) 8)) (zrange 0 8) ;;
  cols <- map_res (fun x => pass col_pass (column rows x)) (zrange 0 8) ;;
  Ok (flat_map (fun y => column cols y) (zrange 0 8)).

(** ** Blocks *)
(** pixel types: sample type and channels; ExtendedColorType::Rgb8 / Rgba8 select encode_rgb (encoder.rs:567-571) *)
Definition is_rgb8 (t : sty) (k : kind) : bool := match t, k with U8, Rgb | U8, Rgba => true | _, _ => false end.
(** x.to_u8().unwrap() *)
Definition to_u8 (v : Z) : res Z := if (0 <=? v) && (v <=? 255) then Ok v else Panic.
(** rgb_to_ycbcr: encoder.rs:823-857 *)
Definition ycbcr (r g b : Z) : Z * Z * Z :=
  let y := Z.shiftr (19595 * r + 38469 * g + 7471 * b + (Z.shiftl 1 15 - 1)) 16 in
  let bias := 128 * Z.shiftl 1 16 + (Z.shiftl 1 15 - 1) in
  let cb := Z.shiftr (-11059 * r - 21709 * g + 32768 * b + bias) 16 in
  let cr := Z.shiftr (32768 * r - 27439 * g - 5329 * b + bias) 16 in
  (wrap_u8 y, wrap_u8 cb, wrap_u8 cr).
Definition rgb_to_ycbcr (t : sty) (k : kind) (p : list Z) : res (Z * Z * Z) :=
  q <- from_color t t k Rgb p ;;
  match q with
  | [r; g; b] => r <- to_u8 r ;; g <- to_u8 g ;; b <- to_u8 b ;; Ok (ycbcr r g b)
  | _ => Panic
  end.
(** pixel_at_or_near: encoder.rs:861-867 *)
Definition pixel_at_or_near {P} (im : img P) (x y : Z) : res P :=
  if inb im x y then get_pixel im x y else get_pixel im (Z.min x (iw im - 1)) (Z.min y (ih im - 1)).
(** copy_blocks_gray: encoder.rs:889-898; every entry of the array is written, in row-major order *)
Definition block_coords : list (Z * Z) := coords 8 8.
Definition copy_block_gray (t : sty) (k : kind) (im : img (list Z)) (x0 y0 : Z) : res (list Z) :=
  map_res (fun c =>
    p <- pixel_at_or_near im (x0 + fst c) (y0 + snd c) ;;
    q <- from_color t t k Luma p ;;
    match q with [l] => to_u8 l | _ => Panic end) block_coords.
(** copy_blocks_ycbcr: encoder.rs:869-887 *)
Definition copy_block_ycbcr (t : sty) (k : kind) (im : img (list Z)) (x0 y0 : Z) : res (list (Z * Z * Z)) :=
  map_res (fun c => p <- pixel_at_or_near im (x0 + fst c) (y0 + snd c) ;; rgb_to_ycbcr t k p) block_coords.
(** one coefficient of the quantisation loops: encoder.rs:597-600, 632-640 *)
Definition quantize1 (dct q : Z) : Z :=
  f32_as i32_min i32_max (f32_round (f32_div (f32_of_Z (Z.quot dct 8)) (f32_of_Z q))).
Definition quantize (dct table : list Z) : list Z := map (fun p => quantize1 (fst p) (snd p)) (combine dct table).

(** ** JpegEncoder: encoder.rs:336-352 *)
Inductive unit_t := AspectRatio | Inches | Centimeters.
Record jenc := mkJenc { je_w : bw; je_tables : list Z * list Z; je_density : Z * Z * unit_t; je_icc : list Z }.
(** new_with_quality: encoder.rs:363-424 *)
Definition scale_of (quality : Z) : Z :=
  let s := clampz 1 100 quality in if s <? 50 then 5000 / s else 200 - s * 2.
Definition scale_table (scale : Z) (t : list Z) : list Z := map (fun v => clampz 1 255 ((v * scale + 50) / 100)) t.
Definition jenc_new (out : list Z) (quality : Z) : jenc :=
  let s := scale_of quality in
  mkJenc (bw_new out) (scale_table s luma_qtable, scale_table s chroma_qtable) (1, 1, AspectRatio) [].
(** set_pixel_density: encoder.rs:429-431; set_icc_profile: encoder.rs:710-713 *)
Definition set_density (e : jenc) (d : Z * Z * unit_t) : jenc := mkJenc (je_w e) (je_tables e) d (je_icc e).
Definition set_icc (e : jenc) (icc : list Z) : jenc := mkJenc (je_w e) (je_tables e) (je_density e) icc.
Definition set_w (e : jenc) (s : bw) : jenc := mkJenc s (je_tables e) (je_density e) (je_icc e).

(** struct Component and the three components: encoder.rs:155-175, 364-391; (id, quantisation table = Huffman tables) *)
Definition components : list (Z * Z) := [(1, 0); (2, 1); (3, 1)].
Definition str (s : string) : list Z := map (fun a => Z.of_nat (nat_of_ascii a)) (list_ascii_of_string s).
(** build_jfif_header: encoder.rs:716-732 *)
Definition jfif_header (d : Z * Z * unit_t) : list Z :=
  let '(x, y, u) := d in
  str "JFIF" ++ [0; 1; 2; match u with AspectRatio => 0 | Inches => 1 | Centimeters => 2 end] ++ be16 x ++ be16 y ++ [0; 0].
(** build_frame_header: encoder.rs:734-752 *)
Definition frame_header (precision w h : Z) (cs : list (Z * Z)) : list Z :=
  [precision] ++ be16 h ++ be16 w ++ [wrap_u8 (zlen cs)] ++ flat_map (fun c => [fst c; Z.lor (Z.shiftl 1 4) 1; snd c]) cs.
(** build_scan_header: encoder.rs:754-766 *)
Definition scan_header (cs : list (Z * Z)) : list Z :=
  [wrap_u8 (zlen cs)] ++ flat_map (fun c => [fst c; Z.lor (Z.shiftl (snd c) 4) (snd c)]) cs ++ [0; 63; 0].
(** build_huffman_segment: encoder.rs:768-787 *)
Definition huffman_segment (class dest : Z) (numcodes values : list Z) : res (list Z) :=
  if negb (fold_left Z.add numcodes 0 =? zlen values) then Panic
  else Ok ([Z.lor (Z.shiftl class 4) dest] ++ numcodes ++ values).
(** build_quantization_segment: encoder.rs:789-800 *)
Definition quantization_segment (precision id : Z) (qtable : list Z) : res (list Z) :=
  let p := if precision =? 8 then 0 else 1 in
  vs <- map_res (fun i => match zget qtable i with Some v => Ok v | None => Panic end) unzigzag ;;
  Ok ([Z.lor (Z.shiftl p 4) id] ++ vs).
(** slice::chunks *)
Fixpoint chunks_fuel (fuel : nat) (n : Z) (l : list Z) : list (list Z) :=
  match fuel, l with
  | O, _ | _, [] => []
  | S fuel, _ => firstn (Z.to_nat n) l :: chunks_fuel fuel n (skipn (Z.to_nat n) l)
  end.
Definition chunks (n : Z) (l : list Z) : list (list Z) := chunks_fuel (length l) n l.
(** write_icc_profile_chunks: encoder.rs:660-695; the error is io::ErrorKind::InvalidInput, written EEncoding *)
Definition MAX_CHUNK_SIZE : Z := 65533 - 14.
Definition write_icc (s : bw) (icc : list Z) : res bw :=
  if zlen icc =? 0 then Ok s
  else if MAX_CHUNK_SIZE * 255 <? zlen icc then Err EEncoding
  else
    let cs := chunks MAX_CHUNK_SIZE icc in
    let num := wrap_u8 (zlen cs) in
    foldM (fun s c => write_segment s 226 (str "ICC_PROFILE" ++ [0] ++ [wrap_u8 (fst c + 1); num] ++ snd c))
          (combine (zrange 0 (zlen cs)) cs) s.
(** encode_gray: encoder.rs:584-610 *)
Definition encode_gray (s : bw) (t : sty) (k : kind) (im : img (list Z)) (q0 : list Z) : res bw :=
  ys <- step_by (ih im) 8 ;;
  '(s, _) <- foldM (fun st y =>
    xs <- step_by (iw im) 8 ;;
    foldM (fun st x =>
      let '(s, dc) := st in
      b <- copy_block_gray t k im x y ;;
      d <- fdct b ;;
      write_block s (quantize d q0) dc luma_dc_lut luma_ac_lut) xs st) ys (s, 0) ;;
  Ok s.
(** encode_rgb: encoder.rs:612-658 *)
Definition encode_rgb (s : bw) (t : sty) (k : kind) (im : img (list Z)) (q0 q1 : list Z) : res bw :=
  ys <- step_by (ih im) 8 ;;
  '(s, _) <- foldM (fun st y =>
    xs <- step_by (iw im) 8 ;;
    foldM (fun st x =>
      let '(s, (dy, db, dr)) := st in
      bs <- copy_block_ycbcr t k im x y ;;
      fy <- fdct (map (fun c => fst (fst c)) bs) ;;
      fb <- fdct (map (fun c => snd (fst c)) bs) ;;
      fr <- fdct (map snd bs) ;;
      '(s, dy) <- write_block s (quantize fy q0) dy luma_dc_lut luma_ac_lut ;;
      '(s, db) <- write_block s (quantize fb q1) db chroma_dc_lut chroma_ac_lut ;;
      '(s, dr) <- write_block s (quantize fr q1) dr chroma_dc_lut chroma_ac_lut ;;
      Ok (s, (dy, db, dr))) xs st) ys (s, (0, 0, 0)) ;;
  Ok s.
(** encode_image: encoder.rs:487-582 *)
Definition encode_image (e : jenc) (t : sty) (k : kind) (im : img (list Z)) : res jenc :=
  let n := nch k in
  let nc := if (n =? 1) || (n =? 2) then 1 else 3 in
  let cs := firstn (Z.to_nat nc) components in
  let '(q0, q1) := je_tables e in
  let s := write_marker (je_w e) 216 in
  s <- write_segment s 224 (jfif_header (je_density e)) ;;
  s <- write_icc s (je_icc e) ;;
  if (u16_max <? iw im) || (u16_max <? ih im) then Err EParameter else
  s <- write_segment s 192 (frame_header 8 (iw im) (ih im) cs) ;;
  d <- quantization_segment 8 0 q0 ;; s <- write_segment s 219 d ;;
  s <- (if nc =? 1 then Ok s else d <- quantization_segment 8 1 q1 ;; write_segment s 219 d) ;;
  d <- huffman_segment 0 0 luma_dc_lengths luma_dc_values ;; s <- write_segment s 196 d ;;
  d <- huffman_segment 1 0 luma_ac_lengths luma_ac_values ;; s <- write_segment s 196 d ;;
  s <- (if nc =? 3 then
          d <- huffman_segment 0 1 chroma_dc_lengths chroma_dc_values ;; s <- write_segment s 196 d ;;
          d <- huffman_segment 1 1 chroma_ac_lengths chroma_ac_values ;; write_segment s 196 d
        else Ok s) ;;
  s <- write_segment s 218 (scan_header cs) ;;
  s <- (if is_rgb8 t k then encode_rgb s t k im q0 q1 else encode_gray s t k im q0) ;;
  s <- pad_byte s ;;
  Ok (set_w e (write_marker s 217)).
(** encode: encoder.rs:443-475 *)
Definition pixels_of (n : Z) (l : list Z) : list (list Z) := chunks_exact n l.
Definition jpeg_encode (e : jenc) (image : list Z) (w h : Z) (c : ectype) : res jenc :=
  n <- buffer_size c w h ;;
  if negb (n =? zlen image) then Panic else
  match c with
  | XL8 => encode_image e U8 Luma (mkImg w h (pixels_of 1 image))
  | XRgb8 => encode_image e U8 Rgb (mkImg w h (pixels_of 3 image))
  | _ => Err EUnsupported
  end.
