(** C68, AVIF encoding: what write_image hands to the ravif crate. *)
From Verif Require Import Base BaseLemmas ListLemmas Limits ColorType GenImage Buffer BufferProofs Color ColorProofs YuvProofs2 Glue GlueProofs GlueProps.
Local Open Scope Z_scope.

(** the sample type and the pixel type of the colour types the encoder accepts *)
Definition source (c : ectype) : option (sty * kind) :=
  match c with
  | XL8 => Some (U8, Luma) | XLa8 => Some (U8, LumaA) | XRgb8 => Some (U8, Rgb) | XRgba8 => Some (U8, Rgba)
  | XL16 => Some (U16, Luma) | XLa16 => Some (U16, LumaA) | XRgb16 => Some (U16, Rgb) | XRgba16 => Some (U16, Rgba)
  | _ => None
  end.
Definition width_of (t : sty) : Z := match t with U8 => 1 | U16 => 2 end.
(** sample i of a buffer of bytes, 16-bit samples in the byte order of the machine *)
Definition byte_at (l : list Z) (i : Z) : Z := nth (Z.to_nat i) l 0.
Definition sample_at (big : bool) (t : sty) (l : list Z) (i : Z) : Z :=
  match t with
  | U8 => byte_at l i
  | U16 => if big then byte_at l (2 * i) * 256 + byte_at l (2 * i + 1) else byte_at l (2 * i + 1) * 256 + byte_at l (2 * i)
  end.
Definition pixel_at (big : bool) (t : sty) (k : kind) (l : list Z) (p : Z) : list Z :=
  map (fun ch => sample_at big t l (p * nch k + ch)) (zrange 0 (nch k)).

Lemma direct_pixels big k data n : 0 <= n -> zlen data = n * nch k ->
  chunks_exact (nch k) data = map (pixel_at big U8 k data) (zrange 0 n).
Proof.
  intros Hn L. assert (1 <= nch k <= 4) by (destruct k; cbn; lia). rewrite (chunks_full (nch k) data n) by lia. apply map_ext_in. intros p Hp. apply In_zrange in Hp.
  unfold pixel_at. rewrite slice_map by nia. reflexivity.
Qed.
Lemma cast_ok big aligned data n : 0 <= n -> zlen data = 2 * n -> Forall (is_sample U8) data ->
  exists s, cast_buffer big aligned data = Ok s /\ zlen s = n /\ Forall (is_sample U16) s /\ (forall i, 0 <= i < n -> zget s i = Some (sample_at big U16 data i)).
Proof.
  intros Hn L F. exists (map (sample_at big U16 data) (zrange 0 n)).
  assert (B : forall i, 0 <= i < zlen data -> 0 <= byte_at data i <= 255).
  { intros i Hi. pose proof (zget_elt data i Hi) as E. rewrite Forall_forall in F. specialize (F _ (zget_In _ _ _ E)). exact F. }
  split; [|split; [rewrite zlen_map, zlen_zrange; lia|split]].
  - assert (E : map (native big) (chunks_exact 2 data) = map (sample_at big U16 data) (zrange 0 n)).
    { rewrite (chunks_full 2 data n) by lia. rewrite map_map. apply map_ext_in. intros i Hi. apply In_zrange in Hi.
      rewrite slice_map by lia. cbn [sample_at]. change (zrange 0 2) with [0; 1]. cbn [map native]. rewrite Z.add_0_r, (Z.mul_comm i 2). reflexivity. }
    unfold cast_buffer. replace (zlen data mod 2) with 0 by (rewrite L, Z.mul_comm, Z.mod_mul; lia). rewrite E. destruct aligned; reflexivity.
  - apply Forall_forall. intros v Hv. apply in_map_iff in Hv as (i & <- & Hi). apply In_zrange in Hi.
    pose proof (B (2 * i) ltac:(lia)). pose proof (B (2 * i + 1) ltac:(lia)). unfold is_sample, smax, u16_max. cbn [sample_at]. destruct big; lia.
  - intros i Hi. rewrite zget_map, zget_zrange by lia. reflexivity.
Qed.
Lemma from_raw_ok k (s : list Z) w h : is_u32 w -> is_u32 h -> zlen s = w * h * nch k -> w * h * 4 <= u64_max ->
  try_from_raw k s w h = Ok (mkBuf w h s).
Proof.
  intros [Hw Hw'] [Hh Hh'] L M. unfold try_from_raw, from_raw, check_image_fits, image_buffer_len, us_cmul.
  assert (1 <= nch k <= 4) by (destruct k; cbn; lia). unfold u32_max, u64_max in *.
  replace (nch k * w <=? 18446744073709551615) with true by nia.
  replace (nch k * w * h <=? 18446744073709551615) with true by nia.
  replace (nch k * w * h <=? zlen s) with true by (rewrite L; nia). reflexivity.
Qed.
Lemma convert_into_ok t k s w h : is_u32 w -> is_u32 h -> zlen s = w * h * nch k -> w * h * 4 <= u64_max -> Forall (is_sample t) s ->
  exists px, convert_into t k (mkBuf w h s) = Ok (ARgba w h px) /\ zlen px = w * h /\
    forall p, 0 <= p < w * h -> exists q, from_color t U8 k Rgba (zslice s (p * nch k) (nch k)) = Ok q /\ zget px p = Some q.
Proof.
  intros Hw Hh L M F. unfold convert_into. cbn [bw bh].
  destruct (bnew_spec 4 ltac:(lia) 0 w h Hw Hh M) as (b & -> & _). cbn [bind].
  assert (1 <= nch k <= 4) by (destruct k; cbn; lia). assert (Hn : 0 <= w * h) by (destruct Hw, Hh; nia).
  rewrite to_img_exact by lia. unfold convert. cbn [Base.px iw ih].
  set (g := fun p => match from_color t U8 k Rgba p with Ok q => q | _ => [] end).
  assert (G : forall i, 0 <= i < w * h -> from_color t U8 k Rgba (zslice s (i * nch k) (nch k)) = Ok (g (zslice s (i * nch k) (nch k)))).
  { intros i Hi. pose proof (byte_slice_pixel t k s i (w * h) Hi L F) as P. destruct (from_color_ok t U8 k Rgba _ P) as (q & E & _). unfold g. rewrite E. reflexivity. }
  rewrite (map_res_ok _ g). 2: { intros p Hp. apply in_map_iff in Hp as (i & <- & Hi). apply In_zrange in Hi. apply G. lia. }
  cbn [bind Base.px]. eexists. split; [reflexivity|]. split; [rewrite !zlen_map, zlen_zrange; lia|].
  intros p Hp. exists (g (zslice s (p * nch k) (nch k))). split; [apply G; exact Hp|]. rewrite !zget_map, zget_zrange by lia. reflexivity.
Qed.

(** RGB and RGBA bytes are handed over as they are, unless the image has no pixel *)
Theorem C68_avif_direct : forall big aligned data w h, is_u32 w -> is_u32 h -> w * h * 4 <= u64_max -> 0 < w * h ->
  (zlen data = w * h * 3 -> encode_as_img big aligned data w h XRgb8 = Ok (ARgb w h (map (pixel_at big U8 Rgb data) (zrange 0 (w * h))))) /\
  (zlen data = w * h * 4 -> encode_as_img big aligned data w h XRgba8 = Ok (ARgba w h (map (pixel_at big U8 Rgba data) (zrange 0 (w * h))))).
Proof.
  intros big aligned dat w h Hw Hh M Hp.
  assert (D : forall k f, zlen dat = w * h * nch k -> 3 <= nch k -> avif_direct k dat w h f = Ok (f (map (pixel_at big U8 k dat) (zrange 0 (w * h))))).
  { intros k f L K. assert (nch k <= 4) by (destruct k; cbn; lia). unfold avif_direct. rewrite from_raw_ok by auto. cbn [bind].
    unfold pixels, inner_pixels. cbn [bw bh data]. rewrite (image_buffer_len_spec (nch k)) by (auto; lia).
    replace (w * h * nch k <=? u64_max) with true by nia. unfold slice_range. rewrite L. replace ((0 <=? w * h * nch k) && (w * h * nch k <=? w * h * nch k)) with true by nia. cbn [bind].
    unfold ce_new. replace (nch k =? 0) with false by lia. cbn [bind]. unfold pixels_len, ce_len.
    rewrite Z.sub_0_r, zslice_full by lia. rewrite L, Z.div_mul by lia. rewrite firstn_all2 by (unfold zlen in L; lia). rewrite L, Z.div_mul by lia.
    replace (w * h =? 0) with false by lia. rewrite <- (direct_pixels big k dat (w * h)) by lia. reflexivity. }
  split; intros L; [apply (D Rgb)|apply (D Rgba)]; cbn; lia.
Qed.
(** every other accepted colour type is converted pixel by pixel to 8-bit RGBA *)
Theorem C68_avif_converts : forall big aligned data w h c t k, is_u32 w -> is_u32 h -> w * h * 4 <= u64_max ->
  source c = Some (t, k) -> c <> XRgb8 -> c <> XRgba8 -> zlen data = w * h * nch k * width_of t -> Forall (is_sample U8) data ->
  exists px, encode_as_img big aligned data w h c = Ok (ARgba w h px) /\ zlen px = w * h /\
    forall p, 0 <= p < w * h -> exists q, from_color t U8 k Rgba (pixel_at big t k data p) = Ok q /\ zget px p = Some q.
Proof.
  intros big aligned data w h c t k Hw Hh M Sc N1 N2 L F.
  assert (1 <= nch k <= 4) by (destruct k; cbn; lia). assert (Hn : 0 <= w * h) by (destruct Hw, Hh; nia).
  assert (E : encode_as_img big aligned data w h c = match t with U8 => avif_u8 k data w h | U16 => avif_u16 big aligned k data w h end).
  { destruct c; cbn [source] in Sc; try discriminate Sc; try congruence; apply Some_inj in Sc; injection Sc as <- <-; reflexivity. }
  rewrite E. destruct t; cbn [width_of] in L.
  - unfold avif_u8. rewrite from_raw_ok by (auto; lia). cbn [bind].
    destruct (convert_into_ok U8 k data w h) as (px & Ec & Lp & G); [auto..|lia|lia|exact F|]. exists px. split; [exact Ec|]. split; [exact Lp|].
    intros p Hp. destruct (G p Hp) as (q & Eq & Gq). exists q. split; [|exact Gq]. rewrite <- Eq. f_equal.
    unfold pixel_at. rewrite slice_map by nia. reflexivity.
  - unfold avif_u16. destruct (cast_ok big aligned data (w * h * nch k)) as (s & -> & Ls & Fs & Gs); [nia|lia|exact F|]. cbn [bind].
    rewrite from_raw_ok by auto. cbn [bind].
    destruct (convert_into_ok U16 k s w h) as (px & Ec & Lp & G); [auto..|]. exists px. split; [exact Ec|]. split; [exact Lp|].
    intros p Hp. destruct (G p Hp) as (q & Eq & Gq). exists q. split; [|exact Gq]. rewrite <- Eq. f_equal.
    unfold pixel_at. rewrite slice_map by nia. apply map_ext_in. intros i Hi. apply In_zrange in Hi. assert (X : 0 <= p * nch k + i < w * h * nch k) by nia. apply Some_inj. rewrite <- (Gs _ X). apply zget_elt. lia.
Qed.
(** the alignment of the buffer never matters *)
Theorem C68_avif_alignment : forall inner big data w h c, avif_write inner big true data w h c = avif_write inner big false data w h c.
Proof.
  intros inner big data w h c. unfold avif_write. destruct (buffer_size c w h) as [n| |]; [|reflexivity..]. cbn [bind]. destruct (negb (n =? zlen data)); [reflexivity|].
  assert (C : cast_buffer big true data = cast_buffer big false data) by (unfold cast_buffer; destruct (zlen data mod 2 =? 0); reflexivity).
  destruct c; cbn [encode_as_img]; try reflexivity; unfold avif_u16; rewrite C; reflexivity.
Qed.
(** a buffer of the wrong length panics, before anything is converted; with a buffer of the right length other colour types are unsupported, and
    for the accepted ones ravif's answer to the converted image is the result *)
Lemma source_size c t k w h : is_u32 w -> is_u32 h -> source c = Some (t, k) -> buffer_size c w h = Ok (Z.min u64_max (w * h * (nch k * width_of t))).
Proof.
  intros Hw Hh E. apply buffer_size_bytes; auto;
  destruct c; cbn [source] in E; try discriminate E; apply Some_inj in E; injection E as <- <-; try reflexivity; cbn; lia.
Qed.
Theorem C68_avif_write : forall inner big aligned data w h c, is_u32 w -> is_u32 h -> zlen data <= isize_max ->
  (forall n, buffer_size c w h = Ok n -> zlen data <> n -> avif_write inner big aligned data w h c = Panic) /\
  (source c = None -> buffer_size c w h = Ok (zlen data) -> avif_write inner big aligned data w h c = Err EUnsupported) /\
  (forall t k i, source c = Some (t, k) -> encode_as_img big aligned data w h c = Ok i ->
     (zlen data <> w * h * nch k * width_of t -> avif_write inner big aligned data w h c = Panic) /\
     (zlen data = w * h * nch k * width_of t ->
        avif_write inner big aligned data w h c = match inner i with Some out => Ok out | None => Err EEncoding end)).
Proof.
  intros inner big aligned data w h c Hw Hh L. unfold avif_write. split; [|split].
  - intros n E N. rewrite E. cbn [bind]. replace (n =? zlen data) with false by lia. reflexivity.
  - intros Sc E. rewrite E. cbn [bind]. rewrite Z.eqb_refl. cbn [negb]. destruct c; try discriminate Sc; reflexivity.
  - intros t k i Sc E. rewrite (source_size c t k w h Hw Hh Sc). cbn [bind].
    assert (0 <= w * h * (nch k * width_of t)) by (destruct Hw, Hh, k, t; cbn; nia).
    rewrite length_test by lia. replace (w * h * nch k * width_of t) with (w * h * (nch k * width_of t)) by lia. split; intros N.
    + replace (zlen data =? _) with false by lia. reflexivity.
    + rewrite N, Z.eqb_refl. cbn [negb]. rewrite E. reflexivity.
Qed.
(** an RGB or RGBA image without pixels is refused before ravif is called ... *)
Theorem C68_avif_empty : forall inner big aligned w h c, is_u32 w -> is_u32 h -> w * h = 0 -> c = XRgb8 \/ c = XRgba8 ->
  avif_write inner big aligned [] w h c = Err EParameter.
Proof.
  intros inner big aligned w h c Hw Hh Z0 Hc.
  assert (D : forall k f, 3 <= nch k -> avif_direct k [] w h f = Err EParameter).
  { intros k f K. assert (nch k <= 4) by (destruct k; cbn; lia). unfold avif_direct. rewrite from_raw_ok by (auto; try (rewrite zlen_nil; nia); rewrite Z0; unfold u64_max; lia). cbn [bind].
    unfold pixels, inner_pixels. cbn [bw bh data]. rewrite (image_buffer_len_spec (nch k)) by (auto; lia). rewrite Z0. cbn [Z.mul].
    change (0 <=? u64_max) with true. cbv iota.
    unfold slice_range. change (zlen (@nil Z)) with 0. change (0 <=? 0) with true. cbn [andb bind].
    unfold ce_new. replace (nch k =? 0) with false by lia. cbn [bind]. unfold pixels_len, ce_len.
    replace (zslice (@nil Z) 0 (0 - 0)) with (@nil Z) by reflexivity. rewrite firstn_nil. change (zlen (@nil Z)) with 0. rewrite Z.div_0_l by lia. reflexivity. }
  unfold avif_write. destruct Hc as [->| ->].
  - rewrite (source_size XRgb8 U8 Rgb) by auto. rewrite Z0. cbn [bind]. cbn [encode_as_img]. rewrite D by (cbn; lia). reflexivity.
  - rewrite (source_size XRgba8 U8 Rgba) by auto. rewrite Z0. cbn [bind]. cbn [encode_as_img]. rewrite D by (cbn; lia). reflexivity.
Qed.
(** ... but one of any other accepted colour type is handed to it, although the checks are there because "ravif doesn't do any checks but has some asserts" *)
Theorem C68_avif_empty_refuted : forall inner big aligned w h c t k, is_u32 w -> is_u32 h -> w * h = 0 ->
  source c = Some (t, k) -> c <> XRgb8 -> c <> XRgba8 ->
  avif_write inner big aligned [] w h c = match inner (ARgba w h []) with Some out => Ok out | None => Err EEncoding end.
Proof.
  intros inner big aligned w h c t k Hw Hh Z0 Sc N1 N2.
  destruct (C68_avif_converts big aligned [] w h c t k) as (px & E & L & _); auto; try (rewrite Z0; unfold u64_max; cbn; lia).
  assert (px = []). { destruct px; [reflexivity|]. rewrite zlen_cons in L. pose proof (zlen_nonneg px). lia. } subst px.
  destruct (C68_avif_write inner big aligned [] w h c Hw Hh) as (_ & _ & W); [rewrite zlen_nil; unfold isize_max; lia|].
  destruct (W t k _ Sc E) as [_ W']. apply W'. rewrite Z0. reflexivity.
Qed.
(** speed and quality are clamped from above only *)
Theorem C68_avif_options : forall speed quality,
  avif_options speed quality = ((if speed <=? 10 then speed else 10), (if quality <=? 100 then quality else 100)).
Proof. intros s q. unfold avif_options. destruct (Z.leb_spec s 10), (Z.leb_spec q 100); f_equal; lia. Qed.
(** the documented ranges start at 1; zero is passed on *)
Theorem C68_avif_options_refuted : avif_options 0 0 = (0, 0).
Proof. reflexivity. Qed.

Example C68_avif_ex : encode_as_img false false [0; 128; 255; 255] 2 1 XL16 = Ok (ARgba 2 1 [[128; 128; 128; 255]; [255; 255; 255; 255]]).
Proof. reflexivity. Qed.
Example C68_avif_ex2 : encode_as_img true true [7; 9] 1 1 XLa8 = Ok (ARgba 1 1 [[7; 7; 7; 9]]).
Proof. reflexivity. Qed.
Definition c68b_theorems := (@C68_avif_direct, @C68_avif_converts, @C68_avif_alignment, @C68_avif_write, @C68_avif_empty, @C68_avif_empty_refuted, @C68_avif_options, @C68_avif_options_refuted).
Print Assumptions c68b_theorems.
