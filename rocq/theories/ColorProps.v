(** C17, C21 and C22 for u8 and u16 samples.  [color_map k f p] applies f to the colour channels of
    a pixel of kind k and keeps the alpha channel. *)
From Verif Require Import Base BaseLemmas GenImage Buffer Color ColorProofs.
Local Open Scope Z_scope.

Definition is_image (t : sty) (k : kind) (im : img (list Z)) : Prop :=
  wf im /\ is_u32 (iw im) /\ is_u32 (ih im) /\ Forall (is_pixel t k) (px im).

(** ** C17 *)
Theorem C17_color_map_meaning : forall k f p, zlen p = nch k ->
  zlen (color_map k f p) = nch k /\
  forall i, 0 <= i < nch k ->
    zget (color_map k f p) i = (if i <? nch k - nalpha k then option_map f (zget p i) else zget p i).
Proof.
  intros k f p H. unfold zlen in H.
  destruct k; cbn [nch nalpha] in *; destruct p as [|a [|b [|c [|d [|]]]]]; cbn [length] in H; try lia;
  (split; [reflexivity|]); intros i Hi;
  assert (HI : i = 0 \/ i = 1 \/ i = 2 \/ i = 3) by lia; destruct HI as [->|[->|[->| ->]]]; try lia; reflexivity.
Qed.
Print Assumptions C17_color_map_meaning.

Theorem C17_invert : forall t k im, is_image t k im ->
  exists im', invert_img t k im = Ok im' /\ is_image t k im' /\ iw im' = iw im /\ ih im' = ih im /\
    (forall x y, pixel im' x y = option_map (color_map k (fun v => smax t - v)) (pixel im x y)) /\
    invert_img t k im' = Ok im.
Proof.
  intros t k im (W & Hw & Hh & HF). rewrite Forall_forall in HF.
  assert (E1 : invert_img t k im = Ok (mkImg (iw im) (ih im) (map (color_map k (fun v => smax t - v)) (px im)))).
  { apply in_place_map; [auto|]. intros p Hp. apply invert_px_ok; auto. }
  eexists; split; [exact E1|].
  assert (HF2 : Forall (is_pixel t k) (map (color_map k (fun v => smax t - v)) (px im))).
  { apply Forall_forall. intros q Hq. apply in_map_iff in Hq as (p & <- & Hp). apply invert_px_ok; auto. }
  split; [split; [apply wf_map; auto|]; split; [auto|]; split; [auto|exact HF2]|].
  split; [reflexivity|]. split; [reflexivity|]. split; [intros; apply pixel_map|].
  rewrite Forall_forall in HF2.
  unfold invert_img. rewrite (in_place_map (invert_px t k) (color_map k (fun v => smax t - v))).
  - cbn [iw ih px]. rewrite map_map. destruct im as [w h l]. cbn [iw ih px] in *. do 2 f_equal.
    rewrite <- (map_id l) at 2. apply map_ext_in. intros p Hp. apply color_map_invol; auto.
  - apply wf_map; auto.
  - intros p Hp. apply invert_px_ok; auto.
Qed.
Print Assumptions C17_invert.

(** brighten and brighten_in_place agree and clamp, for every amount up to i32::MAX - max *)
Theorem C17_brighten : forall m t k v im, is_image t k im -> (0 < iw im \/ ih im <= 1) ->
  i32_min <= v <= i32_max - smax t ->
  exists im', brighten m t k v im = Ok im' /\ brighten_in_place m t k v im = Ok im' /\
    is_image t k im' /\ iw im' = iw im /\ ih im' = ih im /\
    forall x y, pixel im' x y = option_map (color_map k (fun b => clampz 0 (smax t) (b + v))) (pixel im x y).
Proof.
  intros m t k v im (W & Hw & Hh & HF) Hd Hv. rewrite Forall_forall in HF.
  exists (mkImg (iw im) (ih im) (map (color_map k (fun b => clampz 0 (smax t) (b + v))) (px im))).
  split; [|split; [|split; [|split; [|split]]]].
  - apply pixel_loop_map; auto. intros p Hp. apply brighten_px_ok; auto.
  - apply in_place_map; auto. intros p Hp. apply brighten_px_ok; auto.
  - split; [apply wf_map; auto|]. split; [auto|]. split; [auto|]. cbn [px].
    apply Forall_forall. intros q Hq. apply in_map_iff in Hq as (p & <- & Hp). apply (brighten_px_ok m); auto.
  - reflexivity.
  - reflexivity.
  - intros. apply pixel_map.
Qed.
Print Assumptions C17_brighten.
Theorem C17_brighten_monotone : forall m t v a b, is_sample t a -> is_sample t b -> a <= b ->
  i32_min <= v <= i32_max - smax t ->
  exists a' b', brighten_sample m t v a = Ok a' /\ brighten_sample m t v b = Ok b' /\ a' <= b'.
Proof.
  intros. rewrite !brighten_sample_ok by auto. do 2 eexists. split; [reflexivity|]. split; [reflexivity|].
  unfold clampz. lia.
Qed.
Print Assumptions C17_brighten_monotone.
(** Near i32::MAX the addition overflows: debug builds panic, release builds turn a white sample
    black while a black one becomes white, so brightening is not monotone. *)
Theorem C17_brighten_overflow_refuted : forall t,
  brighten_sample Release t i32_max (smax t) = Ok 0 /\ brighten_sample Release t i32_max 0 = Ok (smax t) /\
  brighten_sample Debug t i32_max (smax t) = Panic.
Proof. intros []; repeat split. Qed.
Print Assumptions C17_brighten_overflow_refuted.
Example C17_ex : invert_img U8 Rgba (mkImg 1 1 [[0; 100; 255; 7]]) = Ok (mkImg 1 1 [[255; 155; 0; 7]]) /\
  brighten Debug U8 LumaA 10 (mkImg 2 1 [[250; 3]; [20; 4]]) = Ok (mkImg 2 1 [[255; 3]; [30; 4]]).
Proof. split; reflexivity. Qed.
Example C17_ex_hyp : is_image U8 LumaA (mkImg 2 1 [[250; 3]; [20; 4]]).
Proof. repeat split; try (cbv; discriminate). repeat constructor; cbv; discriminate. Qed.

(** ** C21, integer sample types *)
Theorem C21_u16_to_u8_nearest : forall v, is_sample U16 v ->
  exists r, from_primitive U16 U8 v = Ok r /\ is_sample U8 r /\
    2 * Z.abs (r * 65535 - v * 255) <= 65535 /\
    (forall r', is_sample U8 r' -> Z.abs (r * 65535 - v * 255) <= Z.abs (r' * 65535 - v * 255)).
Proof. exact depth_spec. Qed.
Print Assumptions C21_u16_to_u8_nearest.
Theorem C21_u8_u16_roundtrip : forall v, is_sample U8 v ->
  exists w, from_primitive U8 U16 v = Ok w /\ is_sample U16 w /\ w * 255 = v * 65535 /\ from_primitive U16 U8 w = Ok v.
Proof.
  intros v H. destruct (depth_roundtrip v H) as (w & E & Hw & E2). exists w. do 2 (split; [assumption|]). split; [|assumption].
  destruct (from_primitive_ok U8 U16 v H) as [E3 _]. rewrite E3 in E. apply Ok_inj in E. cbn [conv] in E. lia.
Qed.
Print Assumptions C21_u8_u16_roundtrip.
Theorem C21_monotone : forall S T a b, is_sample S a -> is_sample S b -> a <= b ->
  exists a' b', from_primitive S T a = Ok a' /\ from_primitive S T b = Ok b' /\ a' <= b'.
Proof.
  intros S T a b Ha Hb H. destruct (from_primitive_ok S T a Ha) as [E1 _]. destruct (from_primitive_ok S T b Hb) as [E2 _].
  do 2 eexists. split; [exact E1|]. split; [exact E2|]. apply conv_mono; auto.
Qed.
Print Assumptions C21_monotone.
Theorem C21_endpoints : forall S T, from_primitive S T 0 = Ok 0 /\ from_primitive S T (smax S) = Ok (smax T).
Proof. intros [] []; split; reflexivity. Qed.
Print Assumptions C21_endpoints.
Example C21_ex : from_primitive U16 U8 32768 = Ok 128 /\ from_primitive U16 U8 128 = Ok 0 /\ from_primitive U16 U8 129 = Ok 1.
Proof. repeat split. Qed.

(** ** C22 *)
Theorem C22_luma_range : forall t r g b rest, is_sample t r -> is_sample t g -> is_sample t b ->
  exists l, rgb_to_luma t (r :: g :: b :: rest) = Ok l /\ is_sample t l /\
    Z.min r (Z.min g b) <= l <= Z.max r (Z.max g b) /\
    10000 * l <= 2126 * r + 7152 * g + 722 * b < 10000 * (l + 1).
Proof.
  intros t r g b rest Hr Hg Hb. destruct (rgb_to_luma_ok t r g b rest Hr Hg Hb) as [E H].
  eexists; split; [exact E|]. split; [auto|]. split; [apply luma_between; lia|].
  unfold luma. pose proof (Z.div_mod (2126 * r + 7152 * g + 722 * b) 10000 ltac:(lia)).
  pose proof (Z.mod_pos_bound (2126 * r + 7152 * g + 722 * b) 10000 ltac:(lia)). lia.
Qed.
Print Assumptions C22_luma_range.
Theorem C22_luma_grey : forall t v rest, is_sample t v -> rgb_to_luma t (v :: v :: v :: rest) = Ok v.
Proof. intros t v rest H. destruct (rgb_to_luma_ok t v v v rest H H H) as [E _]. rewrite E, luma_grey. reflexivity. Qed.
Print Assumptions C22_luma_grey.
Theorem C22_luma_monotone : forall t r g b r' g' b' rest rest',
  is_sample t r -> is_sample t g -> is_sample t b -> is_sample t r' -> is_sample t g' -> is_sample t b' ->
  r <= r' -> g <= g' -> b <= b' ->
  exists l l', rgb_to_luma t (r :: g :: b :: rest) = Ok l /\ rgb_to_luma t (r' :: g' :: b' :: rest') = Ok l' /\ l <= l'.
Proof.
  intros t r g b r' g' b' rest rest' H1 H2 H3 H4 H5 H6 L1 L2 L3.
  destruct (rgb_to_luma_ok t r g b rest H1 H2 H3) as [E1 _]. destruct (rgb_to_luma_ok t r' g' b' rest' H4 H5 H6) as [E2 _].
  do 2 eexists. split; [exact E1|]. split; [exact E2|]. apply luma_mono; auto.
Qed.
Print Assumptions C22_luma_monotone.
Theorem C22_coefficients : fold_right Z.add 0 srgb_luma = srgb_luma_div.
Proof. reflexivity. Qed.
Print Assumptions C22_coefficients.

(** every pixel conversion succeeds and yields a pixel of the target type; alpha is depth-converted
    (opaque when the source has none, dropped when the target has none), the grey value or the
    colour channels are depth-converted *)
Theorem C22_from_color : forall S T ks kd p, is_pixel S ks p ->
  exists q, from_color S T ks kd p = Ok q /\ is_pixel T kd q /\
    alpha_of T kd q = (if nalpha kd =? 0 then smax T else conv S T (alpha_of S ks p)) /\
    (nch kd <= 2 -> grey_of kd q = conv S T (grey_of ks p)) /\
    (3 <= nch kd -> rgb_of kd q = (let '(r, g, b) := rgb_of ks p in (conv S T r, conv S T g, conv S T b))).
Proof. exact from_color_ok. Qed.
Print Assumptions C22_from_color.
Theorem C22_conv_is_from_primitive : forall S T v, is_sample S v ->
  from_primitive S T v = Ok (conv S T v) /\ is_sample T (conv S T v).
Proof. exact from_primitive_ok. Qed.
Print Assumptions C22_conv_is_from_primitive.
Theorem C22_grey_rgb_grey : forall t k k2 p, is_pixel t k p -> (k = Luma \/ k = LumaA) -> (k2 = Rgb \/ k2 = Rgba) ->
  (nalpha k = 1 -> nalpha k2 = 1) ->
  exists q, from_color t t k k2 p = Ok q /\ from_color t t k2 k q = Ok p.
Proof.
  intros t k k2 p H Hk Hk2 Ha. apply pixel_cases in H.
  destruct Hk as [->| ->], Hk2 as [->| ->]; cbn [nalpha] in Ha; try lia;
  repeat match goal with H : exists _, _ |- _ => destruct H | H : _ /\ _ |- _ => destruct H end; subst;
  cbn [from_color];
  repeat match goal with
  | |- context [from_primitive t t ?v] =>
      replace (from_primitive t t v) with (Ok v) by (destruct t; reflexivity); cbn [bind]
  end; eexists; (split; [reflexivity|]);
  rewrite C22_luma_grey by assumption; cbn [bind];
  repeat match goal with
  | |- context [from_primitive t t ?v] =>
      replace (from_primitive t t v) with (Ok v) by (destruct t; reflexivity); cbn [bind]
  end; reflexivity.
Qed.
Print Assumptions C22_grey_rgb_grey.

(** whole-buffer conversion and grayscale are the pixel conversions at every coordinate *)
Theorem C22_convert_image : forall S T ks kd im, is_image S ks im ->
  exists im', convert S T ks kd im = Ok im' /\ is_image T kd im' /\ iw im' = iw im /\ ih im' = ih im /\
    forall x y p, pixel im x y = Some p -> exists q, from_color S T ks kd p = Ok q /\ pixel im' x y = Some q.
Proof.
  intros S T ks kd im (W & Hw & Hh & HF). rewrite Forall_forall in HF.
  set (g := fun p => match from_color S T ks kd p with Ok q => q | _ => [] end).
  assert (Hg : forall p, In p (px im) -> from_color S T ks kd p = Ok (g p) /\ is_pixel T kd (g p)).
  { intros p Hp. destruct (from_color_ok S T ks kd p (HF p Hp)) as (q & E & Hq & _). unfold g. rewrite E. auto. }
  exists (mkImg (iw im) (ih im) (map g (px im))). split; [|split; [|split; [|split]]].
  - unfold convert. rewrite (map_res_ok _ g); [reflexivity|]. intros; apply Hg; auto.
  - split; [apply wf_map; auto|]. split; [auto|]. split; [auto|]. apply Forall_forall.
    intros q Hq. apply in_map_iff in Hq as (p & <- & Hp). apply Hg; auto.
  - reflexivity.
  - reflexivity.
  - intros x y p Hp. exists (g p). rewrite pixel_map, Hp. split; [|reflexivity]. apply Hg.
    unfold pixel in Hp. destruct (inb im x y); [|discriminate].
    unfold zget in Hp. destruct (_ <? 0); [discriminate|]. eapply nth_error_In; eauto.
Qed.
Print Assumptions C22_convert_image.
Theorem C22_grayscale_image : forall t k im, is_image t k im -> (0 < iw im \/ ih im <= 1) ->
  exists im', grayscale_with_type t t k Luma im = Ok im' /\ is_image t Luma im' /\ iw im' = iw im /\ ih im' = ih im /\
    forall x y, pixel im' x y = option_map (fun p => [grey_of k p]) (pixel im x y).
Proof.
  intros t k im (W & Hw & Hh & HF) Hd. rewrite Forall_forall in HF.
  assert (Hg : forall p, In p (px im) ->
    bind (from_color t t k Luma p) (from_color t t Luma Luma) = Ok [grey_of k p] /\ is_pixel t Luma [grey_of k p]).
  { intros p Hp. destruct (from_color_ok t t k Luma p (HF p Hp)) as (q & E & Hq & _ & Hgr & _). rewrite E. cbn [bind].
    destruct (pixel_cases t Luma q Hq) as (l & -> & Hl). cbn [from_color].
    replace (from_primitive t t l) with (Ok l) by (destruct t; reflexivity). cbn [bind].
    specialize (Hgr ltac:(cbn; lia)). cbn [grey_of] in Hgr.
    replace (conv t t (grey_of k p)) with (grey_of k p) in Hgr by (destruct t; reflexivity). subst l. split; [reflexivity|auto]. }
  exists (mkImg (iw im) (ih im) (map (fun p => [grey_of k p]) (px im))).
  split; [|split; [|split; [|split]]].
  - apply pixel_loop_map; auto. intros; apply Hg; auto.
  - split; [apply wf_map; auto|]. split; [auto|]. split; [auto|]. apply Forall_forall.
    intros q Hq. apply in_map_iff in Hq as (p & <- & Hp). apply Hg; auto.
  - reflexivity.
  - reflexivity.
  - intros. apply pixel_map.
Qed.
Print Assumptions C22_grayscale_image.
Example C22_ex : from_color U8 U16 Rgba LumaA [10; 20; 30; 40] = Ok [257 * 18; 257 * 40] /\
  from_color U8 U8 LumaA Rgba [9; 8] = Ok [9; 9; 9; 8].
Proof. split; reflexivity. Qed.
