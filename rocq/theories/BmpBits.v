(** Model of Bitfield and Bitfields of src/codecs/bmp/decoder.rs:23-55, 400-473.  u32 arithmetic is exact in Z. *)
From Verif Require Import Base.
Local Open Scope Z_scope.

(** u32::trailing_zeros / u32::count_ones *)
Fixpoint tz_from (n : nat) (k m : Z) : Z :=
  match n with O => k | Datatypes.S n => if Z.testbit m k then k else tz_from n (k + 1) m end.
Definition trailing_zeros (m : Z) : Z := tz_from 32 0 m.
Definition count_ones (m : Z) : Z := zlen (filter (Z.testbit m) (zrange 0 32)).
(** !x on u32 *)
Definition not_u32 (x : Z) : Z := u32_max - x.

(** Bitfield: decoder.rs:401-404 *)
Record bitfield := mkBf { bf_shift : Z; bf_len : Z }.
(** Bitfield::from_mask: decoder.rs:407-424 *)
Definition bf_from_mask (mask max_len : Z) : res bitfield :=
  if mask =? 0 then Ok (mkBf 0 0) else
  let shift := trailing_zeros mask in
  let len := trailing_zeros (not_u32 (Z.shiftr mask shift)) in
  if negb (len =? count_ones mask) then Err EDecoding else
  if max_len <? len + shift then Err EDecoding else
  if 8 <? len then Ok (mkBf (shift + (len - 8)) 8) else Ok (mkBf shift len).

(** decoder.rs:23-36 *)
Definition lookup3 : list Z := [0; 36; 73; 109; 146; 182; 219; 255].
Definition lookup4 : list Z := [0; 17; 34; 51; 68; 85; 102; 119; 136; 153; 170; 187; 204; 221; 238; 255].
Definition lookup5 : list Z :=
  [0; 8; 16; 25; 33; 41; 49; 58; 66; 74; 82; 90; 99; 107; 115; 123; 132; 140; 148; 156; 165; 173;
   181; 189; 197; 206; 214; 222; 230; 239; 247; 255].
Definition lookup6 : list Z :=
  [0; 4; 8; 12; 16; 20; 24; 28; 32; 36; 40; 45; 49; 53; 57; 61; 65; 69; 73; 77; 81; 85; 89; 93;
   97; 101; 105; 109; 113; 117; 121; 125; 130; 134; 138; 142; 146; 150; 154; 158; 162; 166; 170;
   174; 178; 182; 186; 190; 194; 198; 202; 206; 210; 215; 219; 223; 227; 231; 235; 239; 243; 247;
   251; 255].
Definition lookup (t : list Z) (i : Z) : res Z := match zget t i with Some v => Ok v | None => Panic end.
(** Bitfield::read: decoder.rs:426-439; `as u8` wraps *)
Definition bf_read (f : bitfield) (data : Z) : res Z :=
  if 31 <? bf_shift f then Panic (* shift overflow *) else
  let data := Z.shiftr data (bf_shift f) in
  let n := bf_len f in
  if n =? 1 then Ok (wrap_u8 (Z.land data 1 * 255))
  else if n =? 2 then Ok (wrap_u8 (Z.land data 3 * 85))
  else if n =? 3 then lookup lookup3 (Z.land data 7)
  else if n =? 4 then lookup lookup4 (Z.land data 15)
  else if n =? 5 then lookup lookup5 (Z.land data 31)
  else if n =? 6 then lookup lookup6 (Z.land data 63)
  else if n =? 7 then Ok (wrap_u8 (Z.lor (Z.shiftl (Z.land data 127) 1) (Z.shiftr (Z.land data 127) 6)))
  else if n =? 8 then Ok (wrap_u8 (Z.land data 255))
  else Panic.

(** Bitfields: decoder.rs:442-473 *)
Record bitfields := mkBfs { bf_r : bitfield; bf_g : bitfield; bf_b : bitfield; bf_a : bitfield }.
Definition bfs_from_mask (r g b a max_len : Z) : res bitfields :=
  r <- bf_from_mask r max_len ;;
  g <- bf_from_mask g max_len ;;
  b <- bf_from_mask b max_len ;;
  a <- bf_from_mask a max_len ;;
  if (bf_len r =? 0) || (bf_len g =? 0) || (bf_len b =? 0) then Err EDecoding else Ok (mkBfs r g b a).
(** decoder.rs:38-55 *)
Definition R5_G5_B5 : bitfields := mkBfs (mkBf 10 5) (mkBf 5 5) (mkBf 0 5) (mkBf 0 0).
Definition R8_G8_B8 : bitfields := mkBfs (mkBf 24 8) (mkBf 16 8) (mkBf 8 8) (mkBf 0 0).
Definition R8_G8_B8_A8 : bitfields := mkBfs (mkBf 16 8) (mkBf 8 8) (mkBf 0 8) (mkBf 24 8).
Definition bf_eqb (a b : bitfield) : bool := (bf_shift a =? bf_shift b) && (bf_len a =? bf_len b).
Definition bfs_eqb (a b : bitfields) : bool :=
  bf_eqb (bf_r a) (bf_r b) && bf_eqb (bf_g a) (bf_g b) && bf_eqb (bf_b a) (bf_b b) && bf_eqb (bf_a a) (bf_a b).
