(** A baseline JPEG stream reader written from ITU-T T.81 (annexes B, C, F), for streams with one interleaved scan in
    which every component has sampling factors 1 x 1.  Independent of the encoder's model.  It stops at the quantised
    coefficients (dequantisation and the inverse DCT are not part of it). *)
From Verif Require Import Base.
Local Open Scope Z_scope.

(** ** Bits.  Most significant bit first (F.2.2.5) *)
Definition byte_bits (b : Z) : list bool := map (Z.testbit b) [7; 6; 5; 4; 3; 2; 1; 0].
(** The entropy-coded bytes up to the next marker: FF 00 stands for the byte FF (B.1.1.5), FF followed by anything else
    is a marker. *)
Fixpoint entropy_bytes (l : list Z) : list Z * list Z :=
  match l with
  | [] => ([], [])
  | b :: r =>
      if b =? 255 then
        match r with
        | z :: r' => if z =? 0 then let '(d, rest) := entropy_bytes r' in (255 :: d, rest) else ([], l)
        | [] => ([], l)
        end
      else let '(d, rest) := entropy_bytes r in (b :: d, rest)
  end.
(** RECEIVE (F.2.2.4): the next [n] bits as a number *)
Fixpoint receive (n : nat) (v : Z) (bits : list bool) : option (Z * list bool) :=
  match n with
  | O => Some (v, bits)
  | S n => match bits with [] => None | b :: r => receive n (2 * v + Z.b2z b) r end
  end.
(** EXTEND (F.2.2.1, figure F.12) *)
Definition extend (v t : Z) : Z := if v <? 2 ^ (t - 1) then v - 2 ^ t + 1 else v.

(** ** Huffman decoding (annex C, F.2.2.3): the codes of length i are the numbers first, first+1, ..., where [first] for
    length i+1 is twice the number after the last code of length i; they belong to the values in order. *)
Fixpoint decode_symbol (lengths values : list Z) (first code : Z) (bits : list bool) : option (Z * list bool) :=
  match lengths, bits with
  | n :: ls, b :: r =>
      let code := 2 * code + Z.b2z b in
      if code - first <? n then match zget values (code - first) with Some v => Some (v, r) | None => None end
      else decode_symbol ls (skipn (Z.to_nat n) values) (2 * (first + n)) code r
  | _, _ => None
  end.
Definition htable : Type := list Z * list Z.   (* number of codes of each length 1..16; values *)
Definition symbol (t : htable) (bits : list bool) : option (Z * list bool) := decode_symbol (fst t) (snd t) 0 0 bits.

(** ** Blocks, coefficients in zig-zag order (F.2.2.1, F.2.2.2) *)
Definition decode_coefficient (size : Z) (bits : list bool) : option (Z * list bool) :=
  match receive (Z.to_nat size) 0 bits with
  | Some (v, r) => Some (extend v size, r)
  | None => None
  end.
Definition decode_dc (t : htable) (pred : Z) (bits : list bool) : option (Z * list bool) :=
  match symbol t bits with
  | Some (size, r) =>
      if size =? 0 then Some (pred, r)
      else match decode_coefficient size r with Some (diff, r) => Some (pred + diff, r) | None => None end
  | None => None
  end.
(** the remaining [n] AC coefficients; [fuel] bounds the number of symbols *)
Fixpoint decode_ac (fuel : nat) (t : htable) (n : Z) (bits : list bool) : option (list Z * list bool) :=
  if n =? 0 then Some ([], bits)
  else match fuel with
       | O => None
       | S fuel =>
           match symbol t bits with
           | None => None
           | Some (rs, r) =>
               let run := rs / 16 in
               let size := rs mod 16 in
               if size =? 0 then
                 if run =? 15 then
                   if n <? 16 then None
                   else match decode_ac fuel t (n - 16) r with
                        | Some (l, r) => Some (repeat 0 16 ++ l, r) | None => None end
                 else if run =? 0 then Some (repeat 0 (Z.to_nat n), r)       (* end of block *)
                 else None
               else if n <? run + 1 then None
               else match decode_coefficient size r with
                    | None => None
                    | Some (c, r) =>
                        match decode_ac fuel t (n - run - 1) r with
                        | Some (l, r) => Some (repeat 0 (Z.to_nat run) ++ c :: l, r) | None => None end
                    end
           end
       end.
Definition decode_block (dc ac : htable) (pred : Z) (bits : list bool) : option (list Z * list bool) :=
  match decode_dc dc pred bits with
  | None => None
  | Some (d, r) => match decode_ac 63 ac 63 r with Some (l, r) => Some (d :: l, r) | None => None end
  end.
(** one data unit per component: the prediction is the previous DC coefficient of the same component *)
Fixpoint decode_mcu (tables : list (htable * htable)) (preds : list Z) (bits : list bool) : option (list (list Z) * list bool) :=
  match tables, preds with
  | [], [] => Some ([], bits)
  | (dc, ac) :: ts, p :: ps =>
      match decode_block dc ac p bits with
      | None => None
      | Some (b, r) => match decode_mcu ts ps r with Some (bs, r) => Some (b :: bs, r) | None => None end
      end
  | _, _ => None
  end.
Fixpoint decode_scan (mcus : nat) (tables : list (htable * htable)) (preds : list Z) (bits : list bool) : option (list (list (list Z))) :=
  match mcus with
  | O => Some []
  | S n =>
      match decode_mcu tables preds bits with
      | None => None
      | Some (m, r) =>
          match decode_scan n tables (map (fun b => nth 0 b 0) m) r with Some ms => Some (m :: ms) | None => None end
      end
  end.

(** ** The stream (annex B) *)
Record jstate := mkJ {
  j_frame : option (Z * Z * list (Z * Z));      (* width, height, components: id, quantisation table *)
  j_q : list (Z * list Z);                      (* quantisation tables in zig-zag order *)
  j_dc : list (Z * htable); j_ac : list (Z * htable);
  j_icc : list (Z * Z * list Z)                 (* chunk number, number of chunks, data *)
}.
Record jfile := mkJfile {
  jf_w : Z; jf_h : Z;
  jf_quant : list (list Z);                     (* quantisation table of each component *)
  jf_mcus : list (list (list Z));               (* coefficients: for each MCU, for each component, 64 numbers *)
  jf_icc : list (Z * Z * list Z)
}.
Definition num16be (l : list Z) (o : Z) : Z := match zget l o, zget l (o + 1) with Some a, Some b => 256 * a + b | _, _ => -1 end.
Definition lookup {A} (l : list (Z * A)) (k : Z) : option A :=
  match find (fun p => fst p =? k) l with Some p => Some (snd p) | None => None end.
Fixpoint all_some {A} (l : list (option A)) : option (list A) :=
  match l with
  | [] => Some []
  | Some a :: r => match all_some r with Some r => Some (a :: r) | None => None end
  | None :: _ => None
  end.
(** groups of [n] bytes *)
Definition groups (n : Z) (l : list Z) : list (list Z) := chunks_exact n l.
Definition byte0 (l : list Z) (o : Z) : Z := match zget l o with Some v => v | None => -1 end.
(** SOF0 (B.2.2): precision 8, lines, samples per line, components *)
Definition read_sof (d : list Z) : option (Z * Z * list (Z * Z)) :=
  let n := byte0 d 5 in
  if negb (byte0 d 0 =? 8) || negb (zlen d =? 6 + 3 * n) then None
  else
    let cs := groups 3 (skipn 6 d) in
    if forallb (fun c => byte0 c 1 =? 17) cs then Some (num16be d 3, num16be d 1, map (fun c => (byte0 c 0, byte0 c 2)) cs)
    else None.
(** DQT (B.2.4.1) with one 8-bit table *)
Definition read_dqt (d : list Z) : option (Z * list Z) :=
  if (zlen d =? 65) && (byte0 d 0 / 16 =? 0) then Some (byte0 d 0 mod 16, skipn 1 d) else None.
(** DHT (B.2.4.2) with one table: class, destination, table *)
Definition read_dht (d : list Z) : option (Z * Z * htable) :=
  let ls := zslice d 1 16 in
  if (zlen ls =? 16) && (zlen d =? 17 + fold_left Z.add ls 0) then Some (byte0 d 0 / 16, byte0 d 0 mod 16, (ls, skipn 17 d)) else None.
(** SOS (B.2.3) of a sequential scan with all components: component selectors and table selectors *)
Definition read_sos (d : list Z) : option (list (Z * Z * Z)) :=
  let n := byte0 d 0 in
  if negb (zlen d =? 4 + 2 * n) || negb (leqb (skipn (Z.to_nat (1 + 2 * n)) d) [0; 63; 0]) then None
  else Some (map (fun c => (byte0 c 0, byte0 c 1 / 16, byte0 c 1 mod 16)) (groups 2 (zslice d 1 (2 * n)))).
Definition icc_signature : list Z := [73; 67; 67; 95; 80; 82; 79; 70; 73; 76; 69; 0].
(** marker segments up to SOS, then the scan *)
Fixpoint read_segments (fuel : nat) (st : jstate) (l : list Z) : option jfile :=
  match fuel with
  | O => None
  | S fuel =>
      match l with
      | f :: m :: r =>
          if negb (f =? 255) then None else
          let n := num16be r 0 in
          if (n <? 2) || (zlen r <? n) then None else
          let d := zslice r 2 (n - 2) in
          let rest := skipn (Z.to_nat n) r in
          if m =? 192 then
            match read_sof d with Some fr => read_segments fuel (mkJ (Some fr) (j_q st) (j_dc st) (j_ac st) (j_icc st)) rest | None => None end
          else if m =? 219 then
            match read_dqt d with Some q => read_segments fuel (mkJ (j_frame st) (q :: j_q st) (j_dc st) (j_ac st) (j_icc st)) rest | None => None end
          else if m =? 196 then
            match read_dht d with
            | Some (c, i, t) =>
                if c =? 0 then read_segments fuel (mkJ (j_frame st) (j_q st) ((i, t) :: j_dc st) (j_ac st) (j_icc st)) rest
                else if c =? 1 then read_segments fuel (mkJ (j_frame st) (j_q st) (j_dc st) ((i, t) :: j_ac st) (j_icc st)) rest
                else None
            | None => None
            end
          else if m =? 224 then read_segments fuel st rest           (* APP0: JFIF, no effect on decoding *)
          else if m =? 226 then                                      (* APP2: ICC profile chunk *)
            if leqb (zslice d 0 12) icc_signature then
              read_segments fuel (mkJ (j_frame st) (j_q st) (j_dc st) (j_ac st) (j_icc st ++ [(byte0 d 12, byte0 d 13, skipn 14 d)])) rest
            else read_segments fuel st rest
          else if m =? 218 then
            match read_sos d, j_frame st with
            | Some sel, Some (w, h, cs) =>
                if negb (leqb (map fst cs) (map (fun s => fst (fst s)) sel)) then None else
                let '(data, after) := entropy_bytes rest in
                if negb (leqb (firstn 2 after) [255; 217]) then None else
                match all_some (map (fun s => match lookup (j_dc st) (snd (fst s)), lookup (j_ac st) (snd s) with
                                              | Some a, Some b => Some (a, b) | _, _ => None end) sel),
                      all_some (map (fun c => lookup (j_q st) (snd c)) cs) with
                | Some tables, Some quant =>
                    let mcus := ((w + 7) / 8) * ((h + 7) / 8) in
                    match decode_scan (Z.to_nat mcus) tables (map (fun _ => 0) tables) (flat_map byte_bits data) with
                    | Some ms => Some (mkJfile w h quant ms (j_icc st))
                    | None => None
                    end
                | _, _ => None
                end
            | _, _ => None
            end
          else None
      | _ => None
      end
  end.
Definition read_jpeg (l : list Z) : option jfile :=
  match l with
  | a :: b :: r => if (a =? 255) && (b =? 216) then read_segments (length r) (mkJ None [] [] [] []) r else None
  | _ => None
  end.
(** the zig-zag sequence (figure 5): position in the block, row by row, of the i-th coefficient.  The antidiagonals one
    after the other; the first goes nowhere, the next down to the left, the next up to the right, and so on. *)
Definition zigzag : list Z :=
  flat_map (fun d =>
    let rows := filter (fun r => (0 <=? d - r) && (d - r <? 8)) (zrange 0 8) in
    map (fun r => 8 * r + (d - r)) (if Z.even d then rev rows else rows)) (zrange 0 15).
(** reassembling an ICC profile from its chunks: they are numbered 1..n, each says n *)
Definition icc_profile (cs : list (Z * Z * list Z)) : option (list Z) :=
  if leqb (map (fun c => fst (fst c)) cs) (zrange 1 (zlen cs)) && forallb (fun c => snd (fst c) =? zlen cs) cs
  then Some (concat (map snd cs)) else None.
(** ** From the image to the coefficients *)
(** n / q rounded to the nearest integer, halves away from zero *)
Definition div_round (n q : Z) : Z := Z.sgn n * ((2 * Z.abs n + q) / (2 * q)).
(** A.2.3, A.2.4: data units of 8 x 8 samples, row by row; samples beyond the right and bottom edges replicate the edge *)
Definition block_origins (w h : Z) : list (Z * Z) := map (fun p => (8 * fst p, 8 * snd p)) (coords ((w + 7) / 8) ((h + 7) / 8)).
Definition block_samples {P} (f : P -> Z) (im : img P) (o : Z * Z) : list Z :=
  map (fun c => match pixel im (Z.min (fst o + fst c) (iw im - 1)) (Z.min (snd o + snd c) (ih im - 1)) with Some p => f p | None => 0 end) (coords 8 8).
(** quantised coefficients (row by row) from 8 x 8 transform values scaled by 8: first to an integer (towards zero), then
    by the table *)
Definition quantised (table dct8 : list Z) : list Z := map (fun p => div_round (Z.quot (fst p) 8) (snd p)) (combine dct8 table).
Definition in_zigzag (block : list Z) : list Z := map (fun k => nth (Z.to_nat k) block 0) zigzag.
(** channel [i] of a pixel *)
Definition chan (i : nat) (p : list Z) : Z := nth i p 0.
