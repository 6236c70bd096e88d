(** S3TC (DXT1/3/5) texels, from EXT_texture_compression_s3tc, in plain arithmetic and independently of the model.
    Interpolated colours are rounded to nearest, interpolated alphas rounded down, as this decoder documents; the
    5/6-bit end-point fields are rescaled to 0..255 rounding down. *)
From Verif Require Import Base.
Local Open Scope Z_scope.

(** little-endian number *)
Fixpoint le_num (l : list Z) : Z := match l with [] => 0 | b :: l => b + 256 * le_num l end.
(** field [i] of the number in base [b] *)
Definition digit (n b i : Z) : Z := n / b ^ i mod b.
(** num / den rounded to the nearest integer (ties do not occur or round up) *)
Definition nearest (num den : Z) : Z := (2 * num + den) / (2 * den).
Definition rgb565 (c : Z) : list Z := [c / 2048 * 255 / 31; c / 32 mod 64 * 255 / 63; c mod 32 * 255 / 31].
Definition mix (p q den : Z) (c d : list Z) : list Z := map (fun '(a, b) => nearest (p * a + q * b) den) (combine c d).
(** the colour of texel i in an 8-byte colour block; [three] selects the 3-colour mode of DXT1 when c0 <= c1 *)
Definition texel_rgb (dxt1 : bool) (block : list Z) (i : Z) : list Z :=
  let c0 := le_num (zslice block 0 2) in
  let c1 := le_num (zslice block 2 2) in
  let code := digit (le_num (zslice block 4 4)) 4 i in
  if code =? 0 then rgb565 c0
  else if code =? 1 then rgb565 c1
  else if (c1 <? c0) || negb dxt1 then
    (if code =? 2 then mix 2 1 3 (rgb565 c0) (rgb565 c1) else mix 1 2 3 (rgb565 c0) (rgb565 c1))
  else (if code =? 2 then mix 1 1 2 (rgb565 c0) (rgb565 c1) else [0; 0; 0]).
(** DXT3: 4-bit alpha, scaled by 17 *)
Definition texel_alpha3 (block : list Z) (i : Z) : Z := 17 * digit (le_num (zslice block 0 8)) 16 i.
(** DXT5: 3-bit code into a table interpolated between two 8-bit alphas *)
Definition alpha5 (a0 a1 code : Z) : Z :=
  if code =? 0 then a0
  else if code =? 1 then a1
  else if a1 <? a0 then ((8 - code) * a0 + (code - 1) * a1) / 7
  else if code =? 6 then 0
  else if code =? 7 then 255
  else ((6 - code) * a0 + (code - 1) * a1) / 5.
Definition texel_alpha5 (block : list Z) (i : Z) : Z :=
  alpha5 (le_num (zslice block 0 1)) (le_num (zslice block 1 1)) (digit (le_num (zslice block 2 6)) 8 i).
(** the bytes of texel i (row-major in the 4 x 4 block) of a whole block: RGB for DXT1, RGBA for DXT3 and DXT5 *)
Definition texel1 (block : list Z) (i : Z) : list Z := texel_rgb true block i.
Definition texel3 (block : list Z) (i : Z) : list Z := texel_rgb false (zslice block 8 8) i ++ [texel_alpha3 block i].
Definition texel5 (block : list Z) (i : Z) : list Z := texel_rgb false (zslice block 8 8) i ++ [texel_alpha5 block i].

(** ** DDS container (Microsoft's DDS_HEADER / DDS_HEADER_DXT10), by byte offsets *)
Definition field (file : list Z) (o : Z) : Z := le_num (zslice file o 4).
(** header flags: CAPS, HEIGHT, WIDTH, PIXELFORMAT must be set; besides them only PITCH, MIPMAPCOUNT, LINEARSIZE, DEPTH may *)
Definition dds_flags (f : Z) : Prop :=
  (forall i, In i [0; 1; 2; 12] -> Z.testbit f i = true) /\
  (forall i, 0 <= i -> Z.testbit f i = true -> In i [0; 1; 2; 3; 12; 17; 19; 23]).
(** which compression ([1], [3] or [5]) the file declares, and where its data begins *)
Definition dds_compression (file : list Z) (k off : Z) : Prop :=
  (zslice file 84 4 = [68; 88; 84; 48 + k] /\ In k [1; 3; 5] /\ off = 128) \/
  (zslice file 84 4 = [68; 88; 49; 48] /\ off = 148 /\
   ((70 <= field file 128 <= 72 /\ k = 1) \/ (73 <= field file 128 <= 75 /\ k = 3) \/ (76 <= field file 128 <= 78 /\ k = 5)) /\
   2 <= field file 132 <= 4 /\ (field file 136 = 0 \/ field file 136 = 4) /\
   (field file 132 = 4 -> field file 140 = 1) /\ field file 144 <= 4).
(** [file] is a DDS texture of w x h texels, compression k, block data from offset [off] *)
Definition dds_file (file : list Z) (w h k off : Z) : Prop :=
  off <= zlen file /\ zslice file 0 4 = [68; 68; 83; 32] /\ field file 4 = 124 /\ dds_flags (field file 8) /\
  h = field file 12 /\ w = field file 16 /\ field file 76 = 32 /\ Z.testbit (field file 80) 2 = true /\
  dds_compression file k off /\ w mod 4 = 0 /\ h mod 4 = 0.
Definition block_bytes (k : Z) : Z := if k =? 1 then 8 else 16.
Definition texel_bytes (k : Z) : Z := if k =? 1 then 3 else 4.
(** the bytes of texel (x, y) of a DDS texture *)
Definition dds_texel (file : list Z) (w k off x y : Z) : list Z :=
  let block := zslice file (off + (y / 4 * (w / 4) + x / 4) * block_bytes k) (block_bytes k) in
  (if k =? 1 then texel1 else if k =? 3 then texel3 else texel5) block (y mod 4 * 4 + x mod 4).
