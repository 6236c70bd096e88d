(** C68: the adapters between this crate's decoder and encoder traits and the external codec crates for PCX, JPEG (decoding),
    WebP, QOI and AVIF (encoding).  What the external crates answer is universally quantified. *)
From Verif Require Import Base BaseLemmas ListLemmas BitsProofs Limits Orient Delay ColorType GenImage Buffer BufferProofs Color ColorProofs TgaProofs3 YuvProofs2 Glue GlueProofs.
Local Open Scope Z_scope.

(** ** PCX: the width and height of the file are 16 bit numbers *)
Definition pcx_ok (d : pcx) : Prop := 0 <= p_w d <= 65535 /\ 0 <= p_h d <= 65535.
(** the pcx crate delivers these rows of n bytes *)
Definition gives_rows (d : pcx) (row : Z -> list Z) (n : Z) : Prop := forall i, 0 <= i < p_h d -> p_row d i = Ok (row i) /\ zlen (row i) = n.

Theorem C68_pcx_rgb : forall d row buf, pcx_ok d -> p_palette_len d = None -> gives_rows d row (3 * p_w d) -> zlen buf = p_w d * p_h d * 3 ->
  pcx_read d buf = Ok (concat (map row (zrange 0 (p_h d)))).
Proof.
  intros d row buf [Hw Hh] Hp H L. unfold pcx_read. rewrite pcx_total by lia. cbn [bind]. rewrite L, Z.eqb_refl. cbn [negb]. rewrite Hp.
  rewrite (foldM_ext _ (fun b i => v <- p_row d i ;; write_at b (i * (3 * p_w d)) v)).
  - apply fill_all; [lia..|]. exact H.
  - intros s i _. destruct (p_row d i); cbn [bind]; [|reflexivity..]. f_equal. lia.
Qed.
(** with a palette, pixel (x, y) is the palette entry of the index at column x of row y *)
Theorem C68_pcx_palette : forall d row palette n buf, pcx_ok d -> p_palette_len d = Some n -> gives_rows d row (p_w d) ->
  p_palette d = Ok palette -> zlen palette = 3 * n -> zlen buf = p_w d * p_h d * 3 ->
  (forall y v, 0 <= y < p_h d -> In v (row y) -> 0 <= v < n) ->
  exists out, pcx_read d buf = Ok out /\ zlen out = p_w d * p_h d * 3 /\
    forall x y v, 0 <= y < p_h d -> zget (row y) x = Some v -> zslice out (3 * (y * p_w d + x)) 3 = zslice palette (3 * v) 3.
Proof.
  intros d row palette n buf [Hw Hh] Hp H Epal Lpal L Hv. unfold pcx_read. rewrite pcx_total by lia. cbn [bind]. rewrite L, Z.eqb_refl. cbn [negb]. rewrite Hp.
  assert (Lrow : forall k, 0 <= k < p_h d -> zlen (row k) = p_w d) by (intros k Hk; apply H; exact Hk).
  rewrite (fill_all (p_row d) row (p_w d) (p_h d)) by (try lia; try exact H; rewrite zlen_repeat; nia).
  cbn [bind]. rewrite Epal. cbn [bind]. rewrite pcx_pixels_loop by lia.
  set (pb := concat (map row (zrange 0 (p_h d)))).
  set (g := fun k => zslice palette (3 * match zget pb k with Some v => v | None => 0 end) 3).
  assert (G : forall x y, 0 <= x < p_w d -> 0 <= y < p_h d -> exists v, zget (row y) x = Some v /\ zget pb (y * p_w d + x) = Some v /\ 0 <= v < n).
  { intros x y Hx Hy. destruct (zget_some (row y) x) as [v Ev]; [rewrite Lrow by lia; lia|]. exists v. split; [exact Ev|]. split.
    - unfold pb. rewrite (zget_rows row (p_w d) (p_h d)) by (try lia; auto). exact Ev.
    - apply (Hv y); [lia|]. apply (zget_In _ _ _ Ev). }
  assert (K : forall k, 0 <= k < p_h d * p_w d -> pal_px pb palette k = Ok (g k) /\ zlen (g k) = 3).
  { intros k Hk. assert (W : 0 < p_w d) by nia.
    destruct (G (k mod p_w d) (k / p_w d)) as (v & _ & E & B).
    { apply Z.mod_pos_bound; lia. } { split; [apply Z.div_pos; lia|]. apply Z.div_lt_upper_bound; lia. }
    replace (k / p_w d * p_w d + k mod p_w d) with k in E by (pose proof (Z.div_mod k (p_w d)); lia).
    unfold g. rewrite E. split; [apply (pal_px_ok _ _ n); auto|]. rewrite zlen_zslice_gen. lia. }
  rewrite (fill_all (pal_px pb palette) g 3 (p_h d * p_w d)) by (try lia; try nia; exact K).
  eexists; split; [reflexivity|]. split; [rewrite (zlen_concat_map g _ 3) by (try nia; apply K); lia|].
  intros x y v Hy E. pose proof (zget_range _ _ _ E) as Hx. rewrite Lrow in Hx by lia.
  destruct (G x y) as (v' & E' & E2 & _); [lia..|]. rewrite E in E'. apply Some_inj in E'. subst v'.
  rewrite (Z.mul_comm 3 (y * p_w d + x)). apply zslice_concat; [lia| |].
  { apply Forall_forall. intros l Hl. apply in_map_iff in Hl as (k & <- & Hk). apply In_zrange in Hk. apply K. lia. }
  assert (0 <= y * p_w d + x < p_h d * p_w d) by nia.
  rewrite zget_map, zget_zrange by lia. cbn [option_map]. rewrite Z.add_0_l. unfold g. rewrite E2. reflexivity.
Qed.
(** an index outside the palette makes the decoder panic *)
Theorem C68_pcx_bad_index : forall d row palette n buf x y v, pcx_ok d -> p_palette_len d = Some n -> 0 <= n -> gives_rows d row (p_w d) ->
  p_palette d = Ok palette -> zlen palette = 3 * n -> zlen buf = p_w d * p_h d * 3 ->
  (forall y v, 0 <= y < p_h d -> In v (row y) -> 0 <= v) ->
  0 <= y < p_h d -> zget (row y) x = Some v -> n <= v -> pcx_read d buf = Panic.
Proof.
  intros d row palette n buf x y v [Hw Hh] Hp Hn H Epal Lpal L Hpos Hy E Hv. unfold pcx_read. rewrite pcx_total by lia. cbn [bind]. rewrite L, Z.eqb_refl. cbn [negb]. rewrite Hp.
  assert (Lrow : forall k, 0 <= k < p_h d -> zlen (row k) = p_w d) by (intros k Hk; apply H; exact Hk).
  rewrite (fill_all (p_row d) row (p_w d) (p_h d)) by (try lia; try exact H; rewrite zlen_repeat; nia).
  cbn [bind]. rewrite Epal. cbn [bind]. rewrite pcx_pixels_loop by lia.
  set (pb := concat (map row (zrange 0 (p_h d)))).
  pose proof (zget_range _ _ _ E) as Hx. rewrite Lrow in Hx by lia.
  assert (W : 0 < p_w d) by lia.
  assert (G : forall x y, 0 <= x < p_w d -> 0 <= y < p_h d -> exists v, zget pb (y * p_w d + x) = Some v /\ 0 <= v).
  { intros x' y' Hx' Hy'. destruct (zget_some (row y') x') as [u Eu]; [rewrite Lrow by lia; lia|]. exists u. split.
    - unfold pb. rewrite (zget_rows row (p_w d) (p_h d)) by (try lia; auto). exact Eu.
    - apply (Hpos y'); [lia|]. apply (zget_In _ _ _ Eu). }
  assert (K : forall k, 0 <= k < p_h d * p_w d -> exists u, zget pb k = Some u /\ 0 <= u).
  { intros k Hk. destruct (G (k mod p_w d) (k / p_w d)) as (u & Eu & B).
    { apply Z.mod_pos_bound; lia. } { split; [apply Z.div_pos; lia|]. apply Z.div_lt_upper_bound; lia. }
    replace (k / p_w d * p_w d + k mod p_w d) with k in Eu by (pose proof (Z.div_mod k (p_w d)); lia). eauto. }
  destruct (first_bad (fun k => match zget pb k with Some u => n <=? u | None => false end) (p_h d * p_w d) (y * p_w d + x)) as (i & Hi & Bi & Bj).
  { nia. } { unfold pb. rewrite (zget_rows row (p_w d) (p_h d)) by (try lia; auto). rewrite E. lia. }
  apply (fill_stop _ (fun k => zslice palette (3 * match zget pb k with Some v => v | None => 0 end) 3) _ _ _ i); [lia|nia|exact Hi| | |discriminate].
  - intros k Hk. destruct (K k) as (u & Eu & Pu); [lia|]. specialize (Bj k Hk). cbn beta in Bj. rewrite Eu in *. split; [apply (pal_px_ok _ _ n); auto; lia|]. rewrite zlen_zslice_gen. lia.
  - destruct (K i) as (u & Eu & Pu); [lia|]. rewrite Eu in Bi. apply (pal_px_panics _ _ n i u); auto. lia.
Qed.
(** the first row that fails, or else the palette, decides the error *)
Theorem C68_pcx_error : forall d row buf i e, pcx_ok d -> zlen buf = p_w d * p_h d * 3 -> 0 <= i < p_h d ->
  (forall k, 0 <= k < i -> p_row d k = Ok (row k) /\ zlen (row k) = match p_palette_len d with None => 3 * p_w d | Some _ => p_w d end) ->
  p_row d i = Err e -> pcx_read d buf = Err e.
Proof.
  intros d row buf i e [Hw Hh] L Hi H E. unfold pcx_read. rewrite pcx_total by lia. cbn [bind]. rewrite L, Z.eqb_refl. cbn [negb].
  destruct (p_palette_len d).
  - rewrite (fill_stop (p_row d) row (p_w d) (p_h d) _ i (Err e)); [reflexivity|lia|rewrite zlen_repeat; nia|exact Hi|exact H|exact E|discriminate].
  - rewrite (foldM_ext _ (fun b i => v <- p_row d i ;; write_at b (i * (3 * p_w d)) v)).
    + apply (fill_stop (p_row d) row (3 * p_w d) (p_h d) _ i (Err e)); [lia|nia|exact Hi|exact H|exact E|discriminate].
    + intros s k _. destruct (p_row d k); cbn [bind]; [|reflexivity..]. f_equal. lia.
Qed.
Theorem C68_pcx_palette_error : forall d row n buf e, pcx_ok d -> p_palette_len d = Some n -> gives_rows d row (p_w d) ->
  zlen buf = p_w d * p_h d * 3 -> p_palette d = Err e -> pcx_read d buf = Err e.
Proof.
  intros d row n buf e [Hw Hh] Hp H L E. unfold pcx_read. rewrite pcx_total by lia. cbn [bind]. rewrite L, Z.eqb_refl. cbn [negb]. rewrite Hp.
  rewrite (fill_all (p_row d) row (p_w d) (p_h d)) by (try lia; try exact H; rewrite zlen_repeat; nia). cbn [bind]. rewrite E. reflexivity.
Qed.
Theorem C68_pcx_wrong_length : forall d buf, pcx_ok d -> zlen buf <> p_w d * p_h d * 3 -> pcx_read d buf = Panic.
Proof.
  intros d buf [Hw Hh] L. unfold pcx_read. rewrite pcx_total by lia. cbn [bind]. replace (zlen buf =? _) with false by lia. reflexivity.
Qed.
(** the colour type reported for the file's own encoding has as many channels and bits as the header's planes; any other header panics *)
Theorem C68_pcx_original : forall d,
  (In (p_planes d) [1; 3; 4] /\ In (p_depth d) [1; 2; 4; 8] ->
     exists c, pcx_original false d = Ok c /\ ect_channels c = p_planes d /\ ect_bits c = p_planes d * p_depth d) /\
  (~ (In (p_planes d) [1; 3; 4] /\ In (p_depth d) [1; 2; 4; 8]) -> pcx_original false d = Panic) /\
  pcx_original true d = Ok (XUnknown (p_depth d)).
Proof.
  intros d. unfold pcx_original. split; [|split; [|reflexivity]].
  - cbn [In]. intros [[A|[A|[A|[]]]] [B|[B|[B|[B|[]]]]]]; rewrite <- A, <- B; cbn; eexists; (split; [reflexivity|]); split; reflexivity.
  - cbn [In]. intros N.
    repeat match goal with |- context [if ?b then _ else _] => let X := fresh "X" in destruct b eqn:X; [exfalso; apply N; apply andb_prop in X as [X1 X2]; apply Z.eqb_eq in X1, X2; rewrite X1, X2; clear; tauto|clear X] end. reflexivity.
Qed.

(** ** the orientation cache of the JPEG and WebP decoders *)
(** the orientation an Exif chunk stands for *)
Definition orientation_of (exif : option (list Z)) : orientation :=
  match exif with
  | Some chunk => match from_exif_chunk chunk with Some o => o | None => NoTransforms end
  | None => NoTransforms
  end.
(** the file's chunk is [exif]; every attempt to read it may fail, but when it succeeds it delivers [exif] *)
Definition op_answer (o : mop) : res (option (list Z)) := match o with MExif r | MOrientation r => r end.
Definition honest (exif : option (list Z)) (os : list mop) : Prop :=
  forall o, In o os -> op_answer o = Ok exif \/ exists e, op_answer o = Err e.
(** what the calls must return: exif_metadata always asks the file, orientation asks it until one read succeeded *)
Fixpoint cache_spec (exif : option (list Z)) (known : bool) (os : list mop) : list mout :=
  match os with
  | [] => []
  | MExif r :: os' => OExif r :: cache_spec exif (known || match r with Ok _ => true | _ => false end) os'
  | MOrientation r :: os' =>
      OOrientation (if known then Ok (orientation_of exif) else match r with Ok _ => Ok (orientation_of exif) | Err e => Err e | Panic => Panic end)
        :: cache_spec exif (known || match r with Ok _ => true | _ => false end) os'
  end.
Theorem C68_orientation_cache : forall exif os, honest exif os -> snd (mrun None os) = cache_spec exif false os.
Proof.
  intros exif os. assert (C : cached_orientation exif = orientation_of exif) by (destruct exif; reflexivity).
  enough (M : forall (os : list mop) (known : bool), honest exif os -> snd (mrun (if known then Some (orientation_of exif) else None) os) = cache_spec exif known os) by (intros H; exact (M os false H)).
  clear os. induction os as [|o os IH]; intros known H; [reflexivity|]. cbn [mrun].
  assert (H' : honest exif os) by (intros o' Ho; apply H; right; exact Ho).
  specialize (H o (or_introl eq_refl)).
  destruct o as [r|r]; cbn [op_answer] in H; destruct H as [->|[e ->]]; cbn [mstep exif_metadata cache_spec].
  - rewrite C. rewrite orb_true_r. specialize (IH true H'). destruct (mrun (Some (orientation_of exif)) os). cbn [snd] in *. rewrite IH. reflexivity.
  - rewrite orb_false_r. specialize (IH known H'). destruct known; (match goal with |- context [mrun ?c os] => destruct (mrun c os) end); cbn [snd] in *; rewrite IH; reflexivity.
  - rewrite orb_true_r. specialize (IH true H'). destruct known; cbn [bind]; rewrite ?C; destruct (mrun (Some (orientation_of exif)) os); cbn [snd bind] in *; rewrite IH; reflexivity.
  - rewrite orb_false_r. specialize (IH known H'). destruct known; (match goal with |- context [mrun ?c os] => destruct (mrun c os) end); cbn [snd bind] in *; rewrite IH; reflexivity.
Qed.

(** ** JPEG decoding *)
(** a stream with readable headers gives a decoder with its dimensions, without limits; the dimensions must fit 16 bits *)
Theorem C68_jpeg_new : forall w h s, 0 <= w <= u16_max -> 0 <= h <= u16_max ->
  jpeg_new (ZOk (w, h, s)) = Ok (mkJ s w h no_limits).
Proof. intros w h s Hw Hh. unfold jpeg_new. cbn [jpeg_res bind]. replace ((u16_max <? w) || (u16_max <? h)) with false by lia. reflexivity. Qed.
(** an image of one of the four supported colour spaces is decoded as it is, every other one as RGB; the announced colour type is that of the space asked of the codec *)
Definition channels_of (s : zspace) : option Z := match s with ZRGB => Some 3 | ZRGBA => Some 4 | ZLuma => Some 1 | ZLumaA => Some 2 | ZOther _ => None end.
Theorem C68_jpeg_color : forall d, exists c, from_jpeg (j_space d) = Ok c /\
  channels_of (z_space (jpeg_opts d)) = Some (ct_channels c) /\ ct_bytes c = ct_channels c /\
  (forall n, channels_of (j_space d) = Some n -> ct_channels c = n) /\ (channels_of (j_space d) = None -> c = CRgb8).
Proof.
  intros [s w h l]. cbn [j_space]. destruct s; cbn; eexists; (split; [reflexivity|]); (split; [reflexivity|]); (split; [reflexivity|]); cbn; split; intros; congruence.
Qed.
(** the limits after any history of set_limits: those of the last call whose dimensions the image respects *)
Definition fits (l : limits) (w h : Z) : Prop :=
  (forall m, max_image_width l = Some m -> w <= m) /\ (forall m, max_image_height l = Some m -> h <= m).
Fixpoint last_accepted (w h : Z) (cur : limits) (ls : list limits) : limits :=
  match ls with [] => cur | l :: ls' => last_accepted w h (match check_dimensions l w h with Ok _ => l | _ => cur end) ls' end.
Lemma check_fits l w h : (check_dimensions l w h = Ok tt /\ fits l w h) \/ (check_dimensions l w h = Err ELimits /\ ~ fits l w h).
Proof.
  unfold check_dimensions, fits. destruct (max_image_width l) as [mw|] eqn:E1, (max_image_height l) as [mh|] eqn:E2.
  - destruct (Z.ltb_spec mw w); [right; split; [reflexivity|]; intros [A _]; specialize (A mw eq_refl); lia|].
    destruct (Z.ltb_spec mh h); [right; split; [reflexivity|]; intros [_ A]; specialize (A mh eq_refl); lia|].
    left. split; [reflexivity|]. split; intros m X; apply Some_inj in X; lia.
  - destruct (Z.ltb_spec mw w); [right; split; [reflexivity|]; intros [A _]; specialize (A mw eq_refl); lia|].
    left. split; [reflexivity|]. split; intros m X; [apply Some_inj in X; lia|discriminate].
  - destruct (Z.ltb_spec mh h); [right; split; [reflexivity|]; intros [_ A]; specialize (A mh eq_refl); lia|].
    left. split; [reflexivity|]. split; intros m X; [discriminate|apply Some_inj in X; lia].
  - left. split; [reflexivity|]. split; intros m X; discriminate.
Qed.
Theorem C68_jpeg_set_limits : forall d l,
  (fits l (j_w d) (j_h d) -> jpeg_set_limits d l = (mkJ (j_space d) (j_w d) (j_h d) l, Ok tt)) /\
  (~ fits l (j_w d) (j_h d) -> jpeg_set_limits d l = (d, Err ELimits)).
Proof.
  intros d l. unfold jpeg_set_limits. destruct (check_fits l (j_w d) (j_h d)) as [[-> F]|[-> F]]; split; intros; try contradiction; reflexivity.
Qed.
(** after any history of set_limits the image respects the limits handed to the codec, so that they never make decoding fail, and its dimensions and colour are unchanged *)
Theorem C68_jpeg_limits : forall w h s ls, 0 <= w <= u16_max -> 0 <= h <= u16_max ->
  let d := jpeg_limits_run (mkJ s w h no_limits) ls in
  j_w d = w /\ j_h d = h /\ j_space d = s /\
  j_limits d = last_accepted w h no_limits ls /\ fits (j_limits d) w h /\
  w <= z_maxw (jpeg_opts d) /\ h <= z_maxh (jpeg_opts d) /\
  (forall m, max_image_width (j_limits d) = Some m -> z_maxw (jpeg_opts d) = m) /\
  (forall m, max_image_height (j_limits d) = Some m -> z_maxh (jpeg_opts d) = m).
Proof.
  intros w h s ls Hw Hh.
  enough (M : forall ls cur, fits cur w h -> exists l, jpeg_limits_run (mkJ s w h cur) ls = mkJ s w h l /\ l = last_accepted w h cur ls /\ fits l w h).
  { destruct (M ls no_limits) as (l & -> & El & F); [split; intros m X; discriminate|]. cbv zeta. cbn [j_w j_h j_space j_limits].
    split; [reflexivity|]. split; [reflexivity|]. split; [reflexivity|]. split; [exact El|]. split; [exact F|].
    unfold jpeg_opts. cbn [z_maxw z_maxh j_limits]. destruct F as [F1 F2]. unfold or_max, u16_max, u64_max in *.
    destruct (max_image_width l) as [a|], (max_image_height l) as [b|]; (split; [try (specialize (F1 a eq_refl)); lia|]); (split; [try (specialize (F2 b eq_refl)); lia|]); split; intros m X; congruence. }
  clear ls. induction ls as [|l ls IH]; intros cur F.
  - exists cur. split; [reflexivity|]. split; [reflexivity|exact F].
  - cbn [jpeg_limits_run last_accepted]. unfold jpeg_set_limits. cbn [j_w j_h j_space].
    destruct (check_fits l w h) as [[-> F']|[-> F']]; cbn [fst]; apply IH; assumption.
Qed.
(** reading: a buffer of the wrong length is an error before the codec is called; otherwise the codec's answer is passed on, with its error class *)
Theorem C68_jpeg_read : forall d zune buf c, is_u32 (j_w d) -> is_u32 (j_h d) -> j_w d <= u16_max -> j_h d <= u16_max -> from_jpeg (j_space d) = Ok c ->
  (zlen buf <> j_w d * j_h d * ct_bytes c -> jpeg_read d zune buf = Err EDecoding) /\
  (zlen buf = j_w d * j_h d * ct_bytes c ->
     jpeg_read d zune buf = match zune (jpeg_opts d) buf with
                            | ZOk out => Ok out
                            | ZErr ZUnsupported => Err EUnsupported
                            | ZErr ZLarge => Err ELimits
                            | ZErr ZError => Err EDecoding
                            end).
Proof.
  intros d zune buf c [Hw _] [Hh _] Hw' Hh' E. unfold u16_max in *. unfold jpeg_read. rewrite E. cbn [bind]. rewrite total_bytes_16 by lia. cbn [bind]. split; intros L.
  - replace (zlen buf =? _) with false by lia. reflexivity.
  - rewrite L, Z.eqb_refl. cbn [negb]. destruct (zune (jpeg_opts d) buf) as [o|[]]; reflexivity.
Qed.

(** ** WebP decoding *)
Definition webp_bpp (d : wdec) : Z := if w_alpha d then 4 else 3.
Theorem C68_webp_read : forall d inner buf, is_u32 (w_w d) -> is_u32 (w_h d) -> w_w d * w_h d * webp_bpp d <= u64_max ->
  ct_bytes (webp_color_type d) = webp_bpp d /\ ct_has_alpha (webp_color_type d) = w_alpha d /\
  (zlen buf <> w_w d * w_h d * webp_bpp d -> webp_read d inner buf = Panic) /\
  (zlen buf = w_w d * w_h d * webp_bpp d ->
     webp_read d inner buf = match inner buf with WOk b => Ok b | WErr WIo => Err EEof | WErr _ => Err EDecoding end).
Proof.
  intros d inner buf [Hw Hw'] [Hh Hh'] M.
  assert (B : ct_bytes (webp_color_type d) = webp_bpp d) by (unfold webp_color_type, webp_bpp; destruct (w_alpha d); reflexivity).
  split; [exact B|]. split; [unfold webp_color_type; destruct (w_alpha d); reflexivity|].
  assert (T : total_bytes (w_w d) (w_h d) (webp_color_type d) = Ok (w_w d * w_h d * webp_bpp d)).
  { unfold total_bytes. rewrite B. unfold sat_mul_u64. assert (w_w d * w_h d <= u64_max) by (unfold u32_max, u64_max in *; nia).
    replace (u64_max <? w_w d * w_h d) with false by lia. f_equal. lia. }
  unfold webp_read. rewrite T. cbn [bind]. split; intros L.
  - replace (zlen buf =? _) with false by lia. reflexivity.
  - rewrite L, Z.eqb_refl. cbn [negb]. destruct (inner buf) as [b|[]]; reflexivity.
Qed.
(** the frame of an answer: the whole canvas, opaque when the file has no alpha *)
Definition canvas (d : wdec) (px : list Z) : img (list Z) :=
  mkImg (w_w d) (w_h d) (map (fun k => if w_alpha d then zslice px (k * 4) 4 else zslice px (k * 3) 3 ++ [255]) (zrange 0 (w_w d * w_h d))).
Definition webp_frame (d : wdec) (ans : wres (list Z * Z)) : option (res frame) :=
  match ans with
  | WOk (px, delay) => Some (Ok (mkFrame 0 0 (mkRatio delay 1) (canvas d px)))
  | WErr WNoMoreFrames => None
  | WErr WIo => Some (Err EEof)
  | WErr WError => Some (Err EDecoding)
  end.
(** read_frame fills the canvas with bytes *)
Definition full_canvas (d : wdec) (ans : wres (list Z * Z)) : Prop :=
  match ans with WOk (px, delay) => zlen px = w_w d * w_h d * webp_bpp d /\ Forall (is_sample U8) px /\ is_u32 delay | WErr _ => True end.
(** the m-th call of next: the m-th answer of the codec while m is below the number of frames, whatever the earlier answers were (an error does not end the
    iteration), and None from then on *)
Theorem C68_webp_frames : forall d ans n m, is_u32 (w_w d) -> is_u32 (w_h d) -> w_w d * w_h d * 4 <= u64_max -> is_u32 (w_frames d) ->
  (forall k, full_canvas d (ans k)) -> 0 <= m < Z.of_nat n ->
  zget (webp_run d ans 0 n) m = Some (Ok (if m <? w_frames d then webp_frame d (ans m) else None)).
Proof.
  intros d ans n m Hw Hh Hm [Hf _] Hans.
  assert (Step : forall k, 0 <= k < w_frames d -> webp_next d k (ans k) = (k + 1, Ok (webp_frame d (ans k)))).
  { intros k Hk. unfold webp_next. replace (k =? w_frames d) with false by lia. f_equal.
    assert (Hn : 0 <= w_w d * w_h d) by (destruct Hw, Hh; nia).
    assert (B4 : exists b, bnew 4 0 (w_w d) (w_h d) = Ok b /\ bw b = w_w d /\ bh b = w_h d).
    { destruct (bnew_spec 4 ltac:(lia) 0 (w_w d) (w_h d)) as (b & E & _ & E1 & E2 & _); [auto..|]. eauto. }
    assert (B3 : exists b, bnew 3 0 (w_w d) (w_h d) = Ok b /\ bw b = w_w d /\ bh b = w_h d).
    { destruct (bnew_spec 3 ltac:(lia) 0 (w_w d) (w_h d)) as (b & E & _ & E1 & E2 & _); [auto|auto|lia|]. eauto. }
    destruct B4 as (b4 & -> & E41 & E42). destruct B3 as (b3 & -> & E31 & E32).
    specialize (Hans k). unfold full_canvas, webp_bpp in Hans. unfold webp_frame, canvas. destruct (w_alpha d); cbn [bind].
    - destruct (ans k) as [[px dl]|[]]; [|reflexivity..]. destruct Hans as (L & F & D). unfold from_numer_denom_ms, ratio_new. cbn [bind Z.eqb].
      rewrite E41, E42, to_img_exact by lia. reflexivity.
    - destruct (ans k) as [[px dl]|[]]; [|reflexivity..]. destruct Hans as (L & F & D).
      rewrite E31, E32, to_img_exact by lia. unfold convert. cbn [Base.px iw ih].
      rewrite (map_res_ok _ (fun p => p ++ [255])).
      + cbn [bind]. rewrite map_map. reflexivity.
      + intros p Hp. apply in_map_iff in Hp as (i & <- & Hi). apply In_zrange in Hi.
        pose proof (byte_slice_pixel U8 Rgb px i (w_w d * w_h d) ltac:(lia) L F) as P. apply pixel_cases in P as (r & g & b & E & _).
        change (nch Rgb) with 3 in E. rewrite E. reflexivity. }
  enough (M : forall n c m, 0 <= c -> 0 <= m < Z.of_nat n ->
    zget (webp_run d ans (Z.min c (w_frames d)) n) m = Some (Ok (if c + m <? w_frames d then webp_frame d (ans (c + m)) else None))).
  { intros H. specialize (M n 0 m (Z.le_refl 0) H). rewrite Z.min_l in M by lia. exact M. }
  clear n m. induction n as [|n IH]; intros c m Hc H; [lia|]. cbn [webp_run].
  destruct (Z.ltb_spec c (w_frames d)).
  - rewrite Z.min_l by lia. rewrite Step by lia. rewrite zget_cons. destruct (Z.eqb_spec m 0) as [->|].
    + rewrite Z.add_0_r. replace (c <? w_frames d) with true by lia. reflexivity.
    + specialize (IH (c + 1) (m - 1)). rewrite Z.min_l in IH by lia. rewrite IH by lia. replace (c + 1 + (m - 1)) with (c + m) by lia. reflexivity.
  - rewrite Z.min_r by lia. unfold webp_next. rewrite Z.eqb_refl. rewrite zget_cons. destruct (Z.eqb_spec m 0) as [->|].
    + replace (c + 0 <? w_frames d) with false by lia. reflexivity.
    + specialize (IH (c + 1) (m - 1)). rewrite Z.min_r in IH by lia. rewrite IH by lia. replace (c + 1 + (m - 1)) with (c + m) by lia. reflexivity.
Qed.

(** ** QOI, WebP and AVIF encoding: the length a buffer must have *)
Definition whole_bytes (c : ectype) (n : Z) : Prop := ect_bits c = 8 * n.
Lemma buffer_size_bytes c n w h : is_u32 w -> is_u32 h -> whole_bytes c n -> 0 <= n <= 16 ->
  buffer_size c w h = Ok (Z.min u64_max (w * h * n)).
Proof.
  intros [Hw Hw'] [Hh Hh'] E Hn. unfold buffer_size. red in E. rewrite !E. unfold u32_max in *. replace (w * (8 * n) + 7 <=? u64_max) with true by (unfold u64_max; nia).
  unfold sat_mul_u64. replace ((w * (8 * n) + 7) / 8) with (w * n). { replace (w * n * h) with (w * h * n) by lia. reflexivity. }
  replace (w * (8 * n) + 7) with (7 + w * n * 8) by lia. rewrite Z.div_add by lia. reflexivity.
Qed.
(** memory holds less than 2^63 bytes, so a buffer has the length of the saturating product only when nothing saturated *)
Lemma length_test (l : list Z) n : zlen l <= isize_max -> 0 <= n -> (Z.min u64_max n =? zlen l) = (zlen l =? n).
Proof. intros H Hn. unfold isize_max, u64_max in *. pose proof (zlen_nonneg l). lia. Qed.

Theorem C68_qoi_write : forall inner buf w h c, is_u32 w -> is_u32 h -> zlen buf <= isize_max ->
  (c <> XRgb8 /\ c <> XRgba8 -> qoi_write inner buf w h c = Err EEncoding) /\
  (c = XRgb8 \/ c = XRgba8 -> zlen buf <> w * h * ect_channels c -> qoi_write inner buf w h c = Panic) /\
  (c = XRgb8 \/ c = XRgba8 -> zlen buf = w * h * ect_channels c ->
     qoi_write inner buf w h c = match inner buf w h with Some out => Ok out | None => Err EEncoding end).
Proof.
  intros inner buf w h c Hw Hh L. assert (0 <= w * h) by (destruct Hw, Hh; nia). split; [|split].
  - intros [A B]. destruct c; try reflexivity; congruence.
  - intros [->| ->] N; cbn [qoi_write ect_channels] in *.
    + rewrite (buffer_size_bytes _ 3) by (auto; try reflexivity; lia). cbn [bind]. rewrite length_test by lia. replace (zlen buf =? w * h * 3) with false by lia. reflexivity.
    + rewrite (buffer_size_bytes _ 4) by (auto; try reflexivity; lia). cbn [bind]. rewrite length_test by lia. replace (zlen buf =? w * h * 4) with false by lia. reflexivity.
  - intros [->| ->] N; cbn [qoi_write ect_channels] in *.
    + rewrite (buffer_size_bytes _ 3) by (auto; try reflexivity; lia). cbn [bind]. rewrite length_test by lia. rewrite N, Z.eqb_refl. reflexivity.
    + rewrite (buffer_size_bytes _ 4) by (auto; try reflexivity; lia). cbn [bind]. rewrite length_test by lia. rewrite N, Z.eqb_refl. reflexivity.
Qed.
(** the number of channels the qoi crate infers from the length of the data is that of the colour type *)
Theorem C68_qoi_channels : forall (buf : list Z) w h c, 0 < w * h -> zlen buf = w * h * ect_channels c -> zlen buf / (w * h) = ect_channels c.
Proof. intros buf w h c H ->. rewrite Z.mul_comm. apply Z.div_mul. lia. Qed.
Theorem C68_qoi_read : forall inner buf,
  qoi_read inner buf = match inner buf with Some b => Ok b | None => Err EDecoding end.
Proof. reflexivity. Qed.

Definition webp_kind (c : ectype) : option wcolor :=
  match c with XL8 => Some WL8 | XLa8 => Some WLa8 | XRgb8 => Some WRgb8 | XRgba8 => Some WRgba8 | _ => None end.
(** the length is checked before the colour type *)
Theorem C68_webp_write : forall inner buf w h c n, is_u32 w -> is_u32 h -> zlen buf <= isize_max -> buffer_size c w h = Ok n ->
  (zlen buf <> n -> webp_write inner buf w h c = Panic) /\
  (zlen buf = n -> webp_kind c = None -> webp_write inner buf w h c = Err EUnsupported) /\
  (forall t, webp_kind c = Some t -> Z.min u64_max (w * h * ect_channels c) = n /\
     (zlen buf = n -> webp_write inner buf w h c = match inner buf w h t with inl out => Ok out | inr true => Err EEof | inr false => Err EEncoding end)).
Proof.
  intros inner buf w h c n Hw Hh L E. unfold webp_write. rewrite E. cbn [bind]. split; [|split].
  - intros N. replace (n =? zlen buf) with false by lia. reflexivity.
  - intros N K. rewrite N, Z.eqb_refl. cbn [negb]. destruct c; try reflexivity; discriminate.
  - intros t K. split.
    + destruct c; cbn [webp_kind] in K; try discriminate K; cbn [ect_channels];
      [rewrite (buffer_size_bytes _ 1) in E by (auto; try reflexivity; lia)|rewrite (buffer_size_bytes _ 2) in E by (auto; try reflexivity; lia)|
       rewrite (buffer_size_bytes _ 3) in E by (auto; try reflexivity; lia)|rewrite (buffer_size_bytes _ 4) in E by (auto; try reflexivity; lia)];
      apply Ok_inj in E; exact E.
    + intros N. rewrite N, Z.eqb_refl. cbn [negb]. destruct c; cbn [webp_kind] in K; try discriminate K; apply Some_inj in K; subst t; reflexivity.
Qed.

(** ** concrete cases *)
Definition ex_pcx : pcx := mkPcx 2 1 1 8 (Some 2) (fun _ => Ok [1; 0]) (Ok [10; 20; 30; 40; 50; 60]).
Example C68_ex_pcx : pcx_ok ex_pcx /\ gives_rows ex_pcx (fun _ => [1; 0]) 2 /\ pcx_read ex_pcx (repeat 0 6) = Ok [40; 50; 60; 10; 20; 30].
Proof. split; [split; cbn; lia|]. split; [intros i _; split; reflexivity|reflexivity]. Qed.
Example C68_ex_pcx_bad : pcx_read (mkPcx 2 1 1 8 (Some 2) (fun _ => Ok [1; 2]) (Ok [10; 20; 30; 40; 50; 60])) (repeat 0 6) = Panic.
Proof. reflexivity. Qed.
Example C68_ex_honest : honest None [MOrientation (Err EDecoding); MExif (Ok None); MOrientation (Err EDecoding)] /\
  snd (mrun None [MOrientation (Err EDecoding); MExif (Ok None); MOrientation (Err EDecoding)]) =
    [OOrientation (Err EDecoding); OExif (Ok None); OOrientation (Ok NoTransforms)].
Proof.
  split; [|reflexivity]. intros o [<-|[<-|[<-|[]]]]; cbn; [right; eauto|left; reflexivity|right; eauto].
Qed.
Example C68_ex_jpeg : j_limits (jpeg_limits_run (mkJ ZRGB 40 30 no_limits) [mkLimits (Some 50) None None; mkLimits (Some 10) None None]) = mkLimits (Some 50) None None.
Proof. reflexivity. Qed.
Example C68_ex_webp : webp_run (mkW 1 1 false 2) (fun k => if k =? 0 then WErr WError else WOk ([1; 2; 3], 40)) 0 3 =
  [Ok (Some (Err EDecoding)); Ok (Some (Ok (mkFrame 0 0 (mkRatio 40 1) (mkImg 1 1 [[1; 2; 3; 255]])))); Ok None].
Proof. reflexivity. Qed.
Definition c68a_theorems := (@C68_pcx_rgb, @C68_pcx_palette, @C68_pcx_bad_index, @C68_pcx_error, @C68_pcx_palette_error, @C68_pcx_wrong_length, @C68_pcx_original, @C68_orientation_cache, @C68_jpeg_new, @C68_jpeg_color, @C68_jpeg_set_limits, @C68_jpeg_limits, @C68_jpeg_read, @C68_webp_read, @C68_webp_frames, @C68_qoi_write, @C68_qoi_channels, @C68_qoi_read, @C68_webp_write).
Print Assumptions c68a_theorems.
