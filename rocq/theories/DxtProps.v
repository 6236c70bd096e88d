(** C46 (DXT texels) and C51 (DDS container). *)
From Verif Require Import Base BaseLemmas ListLemmas ListMore Post ColorType Dxt DxtSpec DxtProofs DxtProofs2.
Local Open Scope Z_scope.

Lemma dxt_new_ok r w h v : 0 <= w -> 0 <= h -> w mod 4 = 0 -> h mod 4 = 0 -> dxt_new r w h v = Ok (mkDxt r (w / 4) (h / 4) v) /\ w / 4 * 4 = w /\ h / 4 * 4 = h /\ 0 <= w / 4 /\ 0 <= h / 4.
Proof.
  intros Hw Hh Mw Mh. unfold dxt_new. rewrite Mw, Mh. cbn [Z.eqb negb orb]. pose proof (Z.div_mod w 4 ltac:(lia)). pose proof (Z.div_mod h 4 ltac:(lia)).
  split; [reflexivity|]. split; [lia|]. split; [lia|]. split; apply Z.div_pos; lia.
Qed.
Lemma block_area w h v : w / 4 * 4 = w -> h / 4 * 4 = h -> w / 4 * (h / 4) * decoded_bytes_per_block v = w * h * texel_bytes (knd v).
Proof. intros A B. rewrite <- A, <- B at 2. destruct v; cbn [decoded_bytes_per_block knd]; unfold texel_bytes; cbn [Z.eqb Pos.eqb]; ring. Qed.
Lemma knd_bytes v : encoded_bytes_per_block v = block_bytes (knd v) /\ chans v = texel_bytes (knd v).
Proof. destruct v; split; reflexivity. Qed.

(** Decoding [w/4 * h/4] blocks: pixel (x, y) of the image is texel (x mod 4, y mod 4) of block (x/4, y/4) as the S3TC
    specification defines it; the reader may hold more data. *)
Theorem C46_pixels : forall v w h src rest buf, is_u32 w -> is_u32 h -> w mod 4 = 0 -> h mod 4 = 0 ->
  w * h * texel_bytes (knd v) <= u64_max -> bytes src -> zlen src = w / 4 * (h / 4) * block_bytes (knd v) -> zlen buf = w * h * texel_bytes (knd v) ->
  exists d out, dxt_new (src ++ rest) w h v = Ok d /\ dxt_dims d = (w, h) /\ dxt_read_image d buf = Ok out /\ zlen out = zlen buf /\
    forall x y, 0 <= x < w -> 0 <= y < h ->
      zslice out ((y * w + x) * texel_bytes (knd v)) (texel_bytes (knd v)) =
      (match v with DXT1 => texel1 | DXT3 => texel3 | DXT5 => texel5 end)
        (zslice src ((y / 4 * (w / 4) + x / 4) * block_bytes (knd v)) (block_bytes (knd v))) (y mod 4 * 4 + x mod 4).
Proof.
  intros v w h src rest buf Hw Hh Mw Mh O B Ls Lb. unfold is_u32 in *. destruct (dxt_new_ok (src ++ rest) w h v) as (E & W4 & H4 & Pw & Ph); try lia.
  pose proof (block_area w h v W4 H4) as BA. destruct (knd_bytes v) as [KE KC].
  destruct (image_ok (mkDxt (src ++ rest) (w / 4) (h / 4) v) buf src rest) as (out & Eo & Lo & P); cbn [dx_r dx_wb dx_hb dx_v]; auto; try lia.
  exists (mkDxt (src ++ rest) (w / 4) (h / 4) v), out. split; [exact E|]. split; [unfold dxt_dims; cbn [dx_wb dx_hb]; rewrite W4, H4; reflexivity|]. split; [exact Eo|]. split; [exact Lo|].
  cbn [dx_r dx_wb dx_hb dx_v] in P. rewrite W4, H4, KE, KC in P. intros x y Hx Hy. exact (P x y Hx Hy).
Qed.
Print Assumptions C46_pixels.
(** Sizes that are not multiples of 4 are refused; too little data is an unexpected-end error, never a panic. *)
Theorem C46_errors : forall v w h r buf, is_u32 w -> is_u32 h ->
  (w mod 4 <> 0 \/ h mod 4 <> 0 -> dxt_new r w h v = Err EParameter) /\
  (w mod 4 = 0 -> h mod 4 = 0 -> w * h * texel_bytes (knd v) <= u64_max -> bytes r -> zlen r < w / 4 * (h / 4) * block_bytes (knd v) -> zlen buf = w * h * texel_bytes (knd v) ->
   exists d, dxt_new r w h v = Ok d /\ dxt_read_image d buf = Err EEof).
Proof.
  intros v w h r buf Hw Hh. split.
  - intros M. unfold dxt_new. destruct (Z.eqb_spec (w mod 4) 0), (Z.eqb_spec (h mod 4) 0); cbn [negb orb]; try reflexivity. lia.
  - intros Mw Mh O B L Lb. unfold is_u32 in *. destruct (dxt_new_ok r w h v) as (E & W4 & H4 & Pw & Ph); try lia. exists (mkDxt r (w / 4) (h / 4) v). split; [exact E|].
    pose proof (block_area w h v W4 H4) as BA. destruct (knd_bytes v) as [KE KC]. apply image_eof; cbn [dx_r dx_wb dx_hb dx_v]; auto; try lia.
Qed.
Print Assumptions C46_errors.

(** End-point colours: a 16-bit value is three fields; each expands to 0..255, 0 to 0, the largest to 255, and monotonically. *)
Theorem C46_end_points : forall r g b r' g' b', 0 <= r < 32 -> 0 <= g < 64 -> 0 <= b < 32 -> 0 <= r' < 32 -> 0 <= g' < 64 -> 0 <= b' < 32 ->
  exists R G B R' G' B', enc565_decode (r * 2048 + g * 32 + b) = [R; G; B] /\ enc565_decode (r' * 2048 + g' * 32 + b') = [R'; G'; B'] /\
    is_u8 R /\ is_u8 G /\ is_u8 B /\ (r = 0 -> R = 0) /\ (g = 0 -> G = 0) /\ (b = 0 -> B = 0) /\ (r = 31 -> R = 255) /\ (g = 63 -> G = 255) /\ (b = 31 -> B = 255) /\
    (r < r' -> R < R') /\ (g < g' -> G < G') /\ (b < b' -> B < B').
Proof.
  assert (E : forall r g b, 0 <= r < 32 -> 0 <= g < 64 -> 0 <= b < 32 -> enc565_decode (r * 2048 + g * 32 + b) = [r * 255 / 31; g * 255 / 63; b * 255 / 31]).
  { intros r g b Hr Hg Hb. unfold enc565_decode. change 31 with (Z.ones 5) at 1 3. change 63 with (Z.ones 6) at 1. rewrite !Z.land_ones, !Z.shiftr_div_pow2 by lia.
    change (2 ^ 11) with 2048. change (2 ^ 5) with 32. change (2 ^ 6) with 64.
    replace ((r * 2048 + g * 32 + b) / 2048 mod 32) with r by (zdm; lia). replace ((r * 2048 + g * 32 + b) / 32 mod 64) with g by (zdm; lia). replace ((r * 2048 + g * 32 + b) mod 32) with b by (zdm; lia).
    rewrite !wrap_u8_id; [reflexivity| | |]; unfold is_u8, u8_max; zdm; lia. }
  intros r g b r' g' b' Hr Hg Hb Hr' Hg' Hb'. do 6 eexists. split; [apply E; auto|]. split; [apply E; auto|]. unfold is_u8, u8_max.
  assert (M : forall x y c, 0 < c <= 63 -> x < y -> x * 255 / c < y * 255 / c) by (intros x y c Hc L; zdm; nia).
  repeat split; try (intros ->; reflexivity); try (zdm; lia); apply M; lia.
Qed.
Print Assumptions C46_end_points.

Definition between (x a b : Z) : Prop := Z.min a b <= x <= Z.max a b.
(** Every component of a texel's colour lies between the two end points' components, except the black of the 3-colour mode;
    every interpolated alpha lies between the two end points, except the constants 0 and 255 of the 6-step mode. *)
Theorem C46_between : forall dxt1 block i, bytes block -> zlen block = 8 -> 0 <= i < 16 ->
  (exists r g b r0 g0 b0 r1 g1 b1, texel_rgb dxt1 block i = [r; g; b] /\
     enc565_decode (le_num (zslice block 0 2)) = [r0; g0; b0] /\ enc565_decode (le_num (zslice block 2 2)) = [r1; g1; b1] /\
     (between r r0 r1 /\ between g g0 g1 /\ between b b0 b1 \/
      dxt1 = true /\ le_num (zslice block 0 2) <= le_num (zslice block 2 2) /\ [r; g; b] = [0; 0; 0])) /\
  (forall a0 a1 code, is_u8 a0 -> is_u8 a1 -> 0 <= code < 8 -> between (alpha5 a0 a1 code) a0 a1 \/ a0 <= a1 /\ (alpha5 a0 a1 code = 0 \/ alpha5 a0 a1 code = 255)).
Proof.
  intros dxt1 block i B L Hi. split.
  - assert (R : forall o, 0 <= le_num (zslice block o 2) < 65536).
    { intros o. destruct (le_num_range (zslice block o 2)) as [P Q]; [apply Forall_zslice; exact B|]. rewrite zlen_zslice_gen in Q.
      assert (256 ^ Z.max 0 (Z.min 2 (zlen block - Z.max 0 o)) <= 256 ^ 2) by (apply Z.pow_le_mono_r; lia). lia. }
    unfold texel_rgb. pose proof (R 0) as R0. pose proof (R 2) as R2. clear R. set (c0 := le_num (zslice block 0 2)) in *. set (c1 := le_num (zslice block 2 2)) in *.
    assert (EE : forall c, 0 <= c < 65536 -> enc565_decode c = rgb565 c).
    { clear. intros c Hc. unfold enc565_decode, rgb565. change 31 with (Z.ones 5) at 1 3. change 63 with (Z.ones 6) at 1. rewrite !Z.land_ones, !Z.shiftr_div_pow2 by lia.
      change (2 ^ 11) with 2048. change (2 ^ 5) with 32. change (2 ^ 6) with 64. rewrite (Z.mod_small (c / 2048) 32) by (zdm; lia).
      rewrite !wrap_u8_id; [reflexivity| | |]; unfold is_u8, u8_max; zdm; lia. }
    rewrite !EE by auto. unfold rgb565. generalize (c0 / 2048 * 255 / 31) (c0 / 32 mod 64 * 255 / 63) (c0 mod 32 * 255 / 31) (c1 / 2048 * 255 / 31) (c1 / 32 mod 64 * 255 / 63) (c1 mod 32 * 255 / 31).
    intros p q r p' q' r'. unfold mix. cbn [combine map].
    assert (N3 : forall a b, between (nearest (2 * a + 1 * b) 3) a b /\ between (nearest (1 * a + 2 * b) 3) a b) by (clear; intros; unfold between, nearest; zdm; lia).
    assert (N2 : forall a b, between (nearest (1 * a + 1 * b) 2) a b) by (clear; intros; unfold between, nearest; zdm; lia).
    assert (BL : forall a b, between a a b) by (clear; unfold between; lia). assert (BR : forall a b, between b a b) by (clear; unfold between; lia).
    destruct (Z.eqb_spec (digit (le_num (zslice block 4 4)) 4 i) 0); [do 9 eexists; repeat (split; [reflexivity|]); left; auto|].
    destruct (Z.eqb_spec (digit (le_num (zslice block 4 4)) 4 i) 1); [do 9 eexists; repeat (split; [reflexivity|]); left; auto|].
    destruct (Z.ltb_spec c1 c0) as [Q|Q]; [cbn [orb]|destruct dxt1; cbn [orb negb]];
    destruct (Z.eqb_spec (digit (le_num (zslice block 4 4)) 4 i) 2); do 9 eexists; (split; [reflexivity|]; split; [reflexivity|]; split; [reflexivity|]);
      try (left; split; [|split]; first [apply N3|apply N2]). right. auto.
  - intros a0 a1 code H0 H1 Hc. unfold is_u8, u8_max, alpha5, between in *. destruct (Z.eqb_spec code 0); [lia|]. destruct (Z.eqb_spec code 1); [lia|].
    destruct (Z.ltb_spec a1 a0); [left; assert (code = 2 \/ code = 3 \/ code = 4 \/ code = 5 \/ code = 6 \/ code = 7) as K by lia; destruct K as [->|[->|[->|[->|[->| ->]]]]]; zdm; lia|].
    destruct (Z.eqb_spec code 6); [lia|]. destruct (Z.eqb_spec code 7); [lia|]. left. assert (code = 2 \/ code = 3 \/ code = 4 \/ code = 5) as K by lia; destruct K as [->|[->|[->| ->]]]; zdm; lia.
Qed.
Print Assumptions C46_between.

(** A DDS file of w x h texels with enough block data decodes to exactly its texels. *)
Theorem C51_decode : forall file w h k off, bytes file -> dds_file file w h k off ->
  w * h * texel_bytes k <= u64_max -> off + w / 4 * (h / 4) * block_bytes k <= zlen file ->
  exists out, dds_decode file = Ok (w, h, (if k =? 1 then CRgb8 else CRgba8), out) /\ zlen out = w * h * texel_bytes k /\
    forall x y, 0 <= x < w -> 0 <= y < h -> zslice out ((y * w + x) * texel_bytes k) (texel_bytes k) = dds_texel file w k off x y.
Proof.
  intros file w h k off B D O L.
  assert (EK : exists v, k = knd v).
  { destruct D as (_ & _ & _ & _ & _ & _ & _ & _ & C & _). destruct C as [(_ & [<-|[<-|[<-|[]]]] & _)|(_ & _ & C & _)]; [exists DXT1|exists DXT3|exists DXT5|]; auto.
    destruct C as [[_ ->]|[[_ ->]|[_ ->]]]; [exists DXT1|exists DXT3|exists DXT5]; reflexivity. }
  destruct EK as (v & ->).
  assert (UW : is_u32 w /\ is_u32 h). { destruct D as (_ & _ & _ & _ & -> & -> & _). split; apply field_range; exact B. }
  destruct UW as [Uw Uh]. assert (Mo : 0 <= off). { destruct D as (_ & _ & _ & _ & _ & _ & _ & _ & C & _). destruct C as [(_ & _ & ->)|(_ & -> & _)]; lia. }
  assert (MM : w mod 4 = 0 /\ h mod 4 = 0) by (destruct D as (_ & _ & _ & _ & _ & _ & _ & _ & _ & ? & ?); auto). destruct MM as [Mw Mh].
  assert (N : dds_new file = Ok (mkDxt (at_ file off) (w / 4) (h / 4) v)).
  { apply dds_new_iff; [exact B|]. exists w, h, v, off. split; [exact D|]. split; [|reflexivity]. apply Z.div_le_lower_bound; [destruct v; cbn; lia|]. destruct v; cbn [ct_bytes dxt_color_type]; unfold texel_bytes in O; cbn [knd Z.eqb Pos.eqb] in O; lia. }
  unfold dds_decode. rewrite N. cbn [bind]. destruct (dxt_new_ok (at_ file off) w h v) as (_ & W4 & H4 & Pw & Ph); try (unfold is_u32 in *; lia).
  destruct (knd_bytes v) as [KE KC]. pose proof (block_area w h v W4 H4) as BA.
  unfold dxt_dims. cbn [dx_wb dx_hb dx_v]. rewrite W4, H4.
  assert (NN : 0 <= w * h * texel_bytes (knd v)) by (apply Z.mul_nonneg_nonneg; [apply Z.mul_nonneg_nonneg; unfold is_u32 in *; lia|destruct v; cbn; lia]).
  assert (T : total_bytes w h (dxt_color_type v) = Ok (w * h * texel_bytes (knd v))).
  { pose proof (total_dxt (mkDxt (at_ file off) (w / 4) (h / 4) v)) as T. cbn [dx_r dx_wb dx_hb dx_v] in T. unfold dxt_dims in T. cbn [fst snd dx_r dx_wb dx_hb dx_v] in T. rewrite W4, H4, BA in T. apply T; unfold is_u32, u32_max in *; try lia; auto. }
  rewrite T. cbn [bind].
  set (n := w / 4 * (h / 4) * block_bytes (knd v)) in *. assert (N0 : 0 <= n) by (apply Z.mul_nonneg_nonneg; [apply Z.mul_nonneg_nonneg; lia|destruct v; cbn; lia]).
  destruct (C46_pixels v w h (zslice file off n) (at_ file (off + n)) (repeat 0 (Z.to_nat (w * h * texel_bytes (knd v))))) as (d & out & En & _ & Er & Lo & P); auto.
  { apply Forall_zslice. exact B. } { rewrite zlen_zslice_gen; fold n; lia. } { rewrite zlen_repeat. lia. }
  rewrite <- at_slice in En by lia. destruct (dxt_new_ok (at_ file off) w h v) as (E2 & _); try (unfold is_u32 in *; lia). rewrite E2 in En. apply Ok_inj in En. subst d.
  exists out. rewrite Er. cbn [bind]. split; [destruct v; reflexivity|]. rewrite zlen_repeat in Lo. split; [lia|].
  intros x y Hx Hy. rewrite (P x y Hx Hy). unfold dds_texel.
  assert (XY : 0 <= y / 4 * (w / 4) + x / 4 /\ (y / 4 * (w / 4) + x / 4 + 1) <= w / 4 * (h / 4)).
  { assert (0 <= y / 4 < h / 4 /\ 0 <= x / 4 < w / 4) as [Y X] by (clear - Hx Hy W4 H4; zdm; lia). generalize dependent (y / 4). generalize dependent (x / 4). generalize (w / 4) (h / 4). clear. intros. nia. }
  rewrite zslice_zslice; [destruct v; reflexivity|lia| |].
  - apply Z.mul_nonneg_nonneg; [lia|destruct v; cbn; lia].
  - assert ((y / 4 * (w / 4) + x / 4 + 1) * block_bytes (knd v) <= n) by (unfold n; apply Z.mul_le_mono_nonneg_r; [destruct v; cbn; lia|lia]). lia.
Qed.
Print Assumptions C51_decode.
(** Whatever decodes successfully is such a file, with all its block data present, and the announced size is the decoded one. *)
Theorem C51_only : forall file w h c out, bytes file -> dds_decode file = Ok (w, h, c, out) ->
  exists k off, dds_file file w h k off /\ off + w / 4 * (h / 4) * block_bytes k <= zlen file /\ c = (if k =? 1 then CRgb8 else CRgba8) /\ zlen out = w * h * texel_bytes k.
Proof.
  intros file w h c out B. unfold dds_decode. destruct (dds_new file) as [d| |] eqn:EN; cbn [bind]; try discriminate.
  pose proof EN as EN2. apply dds_new_iff in EN2; [|exact B]. destruct EN2 as (w0 & h0 & v & off & D & O & ->).
  assert (UW : is_u32 w0 /\ is_u32 h0). { destruct D as (_ & _ & _ & _ & -> & -> & _). split; apply field_range; exact B. }
  destruct UW as [Uw Uh]. assert (Mo : 0 <= off <= zlen file). { destruct D as (? & _ & _ & _ & _ & _ & _ & _ & C & _). destruct C as [(_ & _ & ->)|(_ & -> & _)]; lia. }
  assert (MM : w0 mod 4 = 0 /\ h0 mod 4 = 0) by (destruct D as (_ & _ & _ & _ & _ & _ & _ & _ & _ & ? & ?); auto). destruct MM as [Mw Mh].
  destruct (dxt_new_ok (at_ file off) w0 h0 v) as (E2 & W4 & H4 & Pw & Ph); try (unfold is_u32 in *; lia).
  destruct (knd_bytes v) as [KE KC]. pose proof (block_area w0 h0 v W4 H4) as BA.
  assert (OO : w0 * h0 * texel_bytes (knd v) <= u64_max).
  { assert (ct_bytes (dxt_color_type v) = texel_bytes (knd v)) as CT by (destruct v; reflexivity). rewrite CT in O.
    assert (TP : 0 < texel_bytes (knd v)) by (destruct v; cbn; lia). pose proof (Z.mul_div_le u64_max (texel_bytes (knd v)) TP).
    assert (w0 * h0 * texel_bytes (knd v) <= u64_max / texel_bytes (knd v) * texel_bytes (knd v)) by (apply Z.mul_le_mono_nonneg_r; lia). lia. }
  unfold dxt_dims. cbn [dx_wb dx_hb dx_v]. rewrite W4, H4.
  assert (NN : 0 <= w0 * h0 * texel_bytes (knd v)) by (apply Z.mul_nonneg_nonneg; [apply Z.mul_nonneg_nonneg; unfold is_u32 in *; lia|destruct v; cbn; lia]).
  assert (T : total_bytes w0 h0 (dxt_color_type v) = Ok (w0 * h0 * texel_bytes (knd v))).
  { pose proof (total_dxt (mkDxt (at_ file off) (w0 / 4) (h0 / 4) v)) as T. cbn [dx_r dx_wb dx_hb dx_v] in T. unfold dxt_dims in T. cbn [fst snd dx_r dx_wb dx_hb dx_v] in T. rewrite W4, H4, BA in T. apply T; unfold is_u32, u32_max in *; try lia; auto. }
  rewrite T. cbn [bind]. destruct (Z.lt_ge_cases (zlen file) (off + w0 / 4 * (h0 / 4) * block_bytes (knd v))) as [S|S].
  - destruct (C46_errors v w0 h0 (at_ file off) (repeat 0 (Z.to_nat (w0 * h0 * texel_bytes (knd v)))) Uw Uh) as (_ & K).
    destruct K as (d & Ed & Er); auto; [apply Forall_skipn'; exact B|unfold at_; rewrite zlen_skipn; lia|rewrite zlen_repeat; lia|].
    rewrite E2 in Ed. apply Ok_inj in Ed. subst d. rewrite Er. discriminate.
  - destruct (C51_decode file w0 h0 (knd v) off B D OO S) as (o2 & Eo & Lo & _). unfold dds_decode in Eo. rewrite EN in Eo. cbn [bind] in Eo. unfold dxt_dims in Eo. cbn [dx_wb dx_hb dx_v] in Eo. rewrite W4, H4, T in Eo. cbn [bind] in Eo.
    rewrite Eo. intros Q. injection Q as <- <- <- <-. exists (knd v), off. auto.
Qed.
Print Assumptions C51_only.
(** No byte stream makes the decoder panic. *)
Theorem C51_no_panic : forall file, bytes file -> dds_decode file <> Panic /\ dds_new file <> Panic.
Proof.
  intros file B. pose proof (dds_new_post file B) as P. unfold dds_decode. destruct (dds_new file) as [d|e|]; cbn [bind post] in *; [|split; discriminate|contradiction].
  split; [|discriminate]. destruct P as (Br & Hw & Hh & Bw & Bh & O). unfold dxt_dims. pose proof (total_dxt d Hw Hh Bw Bh O) as T. unfold dxt_dims in T. cbn [fst snd] in T. rewrite T. cbn [bind].
  assert (NN : 0 <= dx_wb d * dx_hb d * decoded_bytes_per_block (dx_v d)) by (apply Z.mul_nonneg_nonneg; [apply Z.mul_nonneg_nonneg; lia|destruct (dx_v d); cbn; lia]).
  assert (NE : 0 <= dx_wb d * dx_hb d * encoded_bytes_per_block (dx_v d)) by (apply Z.mul_nonneg_nonneg; [apply Z.mul_nonneg_nonneg; lia|destruct (dx_v d); cbn; lia]).
  destruct (Z.lt_ge_cases (zlen (dx_r d)) (dx_wb d * dx_hb d * encoded_bytes_per_block (dx_v d))) as [S|S].
  - rewrite image_eof; auto; [discriminate|rewrite zlen_repeat; lia].
  - destruct (image_ok d (repeat 0 (Z.to_nat (dx_wb d * dx_hb d * decoded_bytes_per_block (dx_v d)))) (firstn (Z.to_nat (dx_wb d * dx_hb d * encoded_bytes_per_block (dx_v d))) (dx_r d)) (skipn (Z.to_nat (dx_wb d * dx_hb d * encoded_bytes_per_block (dx_v d))) (dx_r d))) as (out & Eo & _); auto.
    + apply Forall_firstn'. exact Br.
    + symmetry. apply firstn_skipn.
    + rewrite zlen_firstn. lia.
    + rewrite zlen_repeat. lia.
    + rewrite Eo. discriminate.
Qed.
Print Assumptions C51_no_panic.

(** ** The hypotheses are met by concrete non-trivial cases *)
Definition ex_dds : list Z := [68; 68; 83; 32] ++ le32 124 ++ le32 4103 ++ le32 4 ++ le32 8 ++ repeat 0 56 ++ le32 32 ++ le32 4 ++ [68; 88; 84; 53] ++ repeat 0 40 ++
  [200; 10; 136; 198; 250; 136; 198; 250; 31; 0; 0; 248; 228; 228; 27; 27] ++ [0; 255; 1; 2; 3; 4; 5; 6; 224; 7; 31; 248; 0; 85; 170; 255].
Example ex_dds_bytes : bytes ex_dds.
Proof. apply Forall_forall. intros x Hx. assert (K : forallb (fun x => (0 <=? x) && (x <=? 255)) ex_dds = true) by reflexivity. rewrite forallb_forall in K. apply K in Hx. unfold is_u8, u8_max. lia. Qed.
Example ex_dds_file : dds_file ex_dds 8 4 5 128.
Proof.
  assert (F : dds_flags (field ex_dds 8)) by (apply flags_iff; [apply field_range, ex_dds_bytes|reflexivity]).
  assert (C : dds_compression ex_dds 5 128) by (left; split; [reflexivity|]; split; [cbn; auto|reflexivity]).
  unfold dds_file. split; [vm_compute; discriminate|]. repeat (split; [first [exact F|exact C|reflexivity]|]). reflexivity.
Qed.
Example ex_dds_texels : dds_texel ex_dds 8 5 128 0 0 = [0; 0; 255; 200] /\ dds_texel ex_dds 8 5 128 7 3 = [170; 85; 170; 0] /\ dds_texel ex_dds 8 5 128 5 1 = [255; 0; 255; 0].
Proof. split; [|split]; vm_compute; reflexivity. Qed.
