(** C66: DynamicImage.  [open d] says which of the ten types d has, [valid d] that its buffer is well
    formed, [stored d x y] is the pixel it holds at (x, y) in its own samples; see DynSpec.v. *)
From Flocq Require Import IEEE754.BinarySingleNaN.
From Coq Require Import Reals.
From Verif Require Import Base BaseLemmas GenImage GenImageProofs Affine AffineProofs AffineProps Orient OrientSpec OrientProofs Buffer ColorType Color ColorProofs Float ColorF Dyn DynSpec DynProofs DynProofs2 DynProofs3.
Local Open Scope Z_scope.

(** ** construction, type and size *)
Theorem C66_new : forall w h c, is_u32 w -> is_u32 h ->
  (ct_channels c * w * h <= u64_max -> exists d, dyn_new w h c = Ok d /\ valid d /\ dyn_color d = c /\ dyn_width d = w /\ dyn_height d = h /\
     forall x y, 0 <= x < w -> 0 <= y < h -> exists n, stored d x y = Some (match depth_of c with D32F => inr (repeat f32_zero n) | _ => inl (repeat 0 n) end)) /\
  (u64_max < ct_channels c * w * h -> dyn_new w h c = Panic).
Proof.
  intros w h c Hw Hh. split; [apply new_ok; assumption|]. intros H. unfold dyn_new, bnew_img.
  destruct c; cbn [ct_channels ect_of ect_channels nch] in *; match goal with |- context [if ?b then _ else _] => replace b with false by (symmetry; apply Z.leb_gt; lia) end; reflexivity.
Qed.
(** each typed accessor answers exactly for its own type, and the ten types have ten colour types *)
Theorem C66_views : forall d,
  (forall p, as_luma8 d = Some p <-> open d = Ints U8 Luma p) /\ (forall p, as_luma_alpha8 d = Some p <-> open d = Ints U8 LumaA p) /\
  (forall p, as_rgb8 d = Some p <-> open d = Ints U8 Rgb p) /\ (forall p, as_rgba8 d = Some p <-> open d = Ints U8 Rgba p) /\
  (forall p, as_luma16 d = Some p <-> open d = Ints U16 Luma p) /\ (forall p, as_luma_alpha16 d = Some p <-> open d = Ints U16 LumaA p) /\
  (forall p, as_rgb16 d = Some p <-> open d = Ints U16 Rgb p) /\ (forall p, as_rgba16 d = Some p <-> open d = Ints U16 Rgba p) /\
  (forall p, as_rgb32f d = Some p <-> open d = Floats Rgb p) /\ (forall p, as_rgba32f d = Some p <-> open d = Floats Rgba p) /\
  (match open d with Ints t k im => depth_of (dyn_color d) = match t with U8 => D8 | U16 => D16 end /\ kind_of (dyn_color d) = k /\ dyn_width d = iw im /\ dyn_height d = ih im
   | Floats k im => depth_of (dyn_color d) = D32F /\ kind_of (dyn_color d) = k /\ dyn_width d = iw im /\ dyn_height d = ih im end).
Proof.
  intros d. destruct d; cbn; (repeat (split; [intros q; split; intros E; try discriminate; injection E as <-; reflexivity|])); (split; [reflexivity|]); split; [reflexivity|split; reflexivity | reflexivity | split; reflexivity ..].
Qed.
Theorem C66_clone_from : forall d s, dyn_clone s = s /\ dyn_clone_from d s = s /\ dyn_color dyn_default = CRgba8 /\ dyn_width dyn_default = 0 /\ dyn_height dyn_default = 0 /\ valid dyn_default.
Proof.
  intros d s. split; [reflexivity|]. split; [destruct d, s; try reflexivity; cbn [dyn_clone_from]; unfold buf_clone_from; f_equal; match goal with |- _ = ?p => destruct p; reflexivity end|].
  split; [reflexivity|]. split; [reflexivity|]. split; [reflexivity|]. unfold valid, dyn_default, buffer_of, wf, is_u32, u32_max. cbn. repeat split; try lia; try constructor.
Qed.

(** ** conversions *)
(** to_X never fails on a valid image: the result has the same size and every pixel is the conversion of
    the stored pixel (whose meaning is C21 and C22 for integers; for floats see C66_float_px) *)
Theorem C66_to : forall d, valid d ->
  (forall T kd, exists im', to_int T kd d = Ok im' /\ buffer_of (is_pixel T kd) im' /\ iw im' = dyn_width d /\ ih im' = dyn_height d /\
     forall x y p, stored d x y = Some p -> exists q, pixel im' x y = Some q /\
       match open d, p with Ints t k _, inl p => from_color t T k kd p = Ok q | Floats k _, inr p => from_color_fi T k kd p = Ok q | _, _ => False end) /\
  (forall kd, exists im', to_f32img kd d = Ok im' /\ buffer_of (is_pixel_f kd) im' /\ iw im' = dyn_width d /\ ih im' = dyn_height d /\
     forall x y p, stored d x y = Some p -> exists q, pixel im' x y = Some q /\
       match open d, p with Ints t k _, inl p => from_color_if t k kd p = Ok q | Floats k _, inr p => from_color_ff k kd p = Ok q | _, _ => False end).
Proof.
  intros d V. split; [intros T kd|intros kd].
  - destruct (to_int_ok T kd d V) as (im' & E & B & Ew & Eh & P). exists im'. split; [exact E|]. split; [exact B|]. split; [exact Ew|]. split; [exact Eh|].
    intros x y p Hp. destruct (P x y p Hp) as (q & EQ & PQ). exists q. split; [exact PQ|]. unfold px_to_int in EQ. destruct (open d), p; try discriminate; exact EQ.
  - destruct (to_f_ok kd d V) as (im' & E & B & Ew & Eh & P). exists im'. split; [exact E|]. split; [exact B|]. split; [exact Ew|]. split; [exact Eh|].
    intros x y p Hp. destruct (P x y p Hp) as (q & EQ & PQ). exists q. split; [exact PQ|]. unfold px_to_f in EQ. destruct (open d), p; try discriminate; exact EQ.
Qed.
(** what a float pixel becomes: colours sample by sample, alpha kept or opaque, grey through the luma *)
Theorem C66_float_px : forall T r g b a,
  let s v := match f32_to_int T v with Ok n => n | _ => -1 end in
  (forall v, is_sample T (s v)) /\
  from_color_fi T Rgb Rgb [r; g; b] = Ok [s r; s g; s b] /\ from_color_fi T Rgb Rgba [r; g; b] = Ok [s r; s g; s b; smax T] /\
  from_color_fi T Rgba Rgb [r; g; b; a] = Ok [s r; s g; s b] /\ from_color_fi T Rgba Rgba [r; g; b; a] = Ok [s r; s g; s b; s a] /\
  exists l, rgb_to_luma_f [r; g; b] = Ok l /\ from_color_fi T Rgb Luma [r; g; b] = Ok [s l] /\ from_color_fi T Rgb LumaA [r; g; b] = Ok [s l; smax T] /\
    from_color_fi T Rgba Luma [r; g; b; a] = Ok [s l] /\ from_color_fi T Rgba LumaA [r; g; b; a] = Ok [s l; s a].
Proof.
  intros T r g b a s.
  assert (SV : forall v, f32_to_int T v = Ok (s v) /\ is_sample T (s v)). { intros v. unfold s. destruct (f32_to_int_total T v) as (n & -> & H). auto. }
  split; [intros; apply SV|]. unfold from_color_fi. destruct (luma_f_ok r g b []) as (l & L). pose proof L as L4. change (rgb_to_luma_f [r; g; b]) with (rgb_to_luma_f [r; g; b; a]) in L4.
  cbn [from_color_g]. rewrite L, L4. cbn [bind].
  rewrite (proj1 (SV r)), (proj1 (SV g)), (proj1 (SV b)), (proj1 (SV a)). cbn [bind].
  do 4 (split; [reflexivity|]). exists l. rewrite (proj1 (SV l)). cbn [bind]. do 4 (split; [reflexivity|]). reflexivity.
Qed.
(** what an integer pixel becomes as a float pixel: each sample its quotient by the maximum (int_to_f32, whose accuracy is C21), the colour
    before that grey if a grey kind is asked for, alpha kept or opaque *)
Theorem C66_to_float_px : forall t r g b l a, is_sample t r -> is_sample t g -> is_sample t b -> let f := int_to_f32 t in let Y := f (grey r g b) in
  (from_color_if t Luma Luma [l] = Ok [f l] /\ from_color_if t LumaA Luma [l; a] = Ok [f l] /\
   from_color_if t Rgb Luma [r; g; b] = Ok [Y] /\ from_color_if t Rgba Luma [r; g; b; a] = Ok [Y]) /\
  (from_color_if t Luma LumaA [l] = Ok [f l; f32_one] /\ from_color_if t LumaA LumaA [l; a] = Ok [f l; f a] /\
   from_color_if t Rgb LumaA [r; g; b] = Ok [Y; f32_one] /\ from_color_if t Rgba LumaA [r; g; b; a] = Ok [Y; f a]) /\
  (from_color_if t Luma Rgb [l] = Ok [f l; f l; f l] /\ from_color_if t LumaA Rgb [l; a] = Ok [f l; f l; f l] /\
   from_color_if t Rgb Rgb [r; g; b] = Ok [f r; f g; f b] /\ from_color_if t Rgba Rgb [r; g; b; a] = Ok [f r; f g; f b]) /\
  (from_color_if t Luma Rgba [l] = Ok [f l; f l; f l; f32_one] /\ from_color_if t LumaA Rgba [l; a] = Ok [f l; f l; f l; f a] /\
   from_color_if t Rgb Rgba [r; g; b] = Ok [f r; f g; f b; f32_one] /\ from_color_if t Rgba Rgba [r; g; b; a] = Ok [f r; f g; f b; f a]).
Proof.
  intros t r g b l a Hr Hg Hb f Y. destruct (rgb_to_luma_ok t r g b [] Hr Hg Hb) as (L3 & _). destruct (rgb_to_luma_ok t r g b [a] Hr Hg Hb) as (L4 & _).
  unfold from_color_if. cbn [from_color_g bind]. rewrite L3, L4. cbn [bind].
  split; [|split; [|split]]; (split; [reflexivity|]; split; [reflexivity|]; split; reflexivity).
Qed.
(** between float pixels the samples are not changed; grey through the float luma *)
Theorem C66_float_to_float_px : forall r g b l a, exists Y, rgb_to_luma_f [r; g; b] = Ok Y /\
  (from_color_ff Rgb Luma [r; g; b] = Ok [Y] /\ from_color_ff Rgba Luma [r; g; b; a] = Ok [Y]) /\
  (from_color_ff Rgb LumaA [r; g; b] = Ok [Y; f32_one] /\ from_color_ff Rgba LumaA [r; g; b; a] = Ok [Y; a]) /\
  (from_color_ff Rgb Rgb [r; g; b] = Ok [r; g; b] /\ from_color_ff Rgba Rgb [r; g; b; a] = Ok [r; g; b]) /\
  (from_color_ff Rgb Rgba [r; g; b] = Ok [r; g; b; f32_one] /\ from_color_ff Rgba Rgba [r; g; b; a] = Ok [r; g; b; a]) /\
  (from_color_ff Luma Rgb [l] = Ok [l; l; l] /\ from_color_ff LumaA Rgba [l; a] = Ok [l; l; l; a]).
Proof.
  intros r g b l a. destruct (luma_f_ok r g b []) as (Y & L). pose proof L as L4. change (rgb_to_luma_f [r; g; b]) with (rgb_to_luma_f [r; g; b; a]) in L4.
  exists Y. split; [exact L|]. unfold from_color_ff. cbn [from_color_g bind]. rewrite L, L4. cbn [bind].
  do 4 (split; [split; reflexivity|]). split; reflexivity.
Qed.
(** From for the float buffers that are not one of the ten types: grey becomes three equal channels *)
Theorem C66_from_grey_floats : forall im,
  (buffer_of (is_pixel_f Luma) im -> exists d, dyn_from_luma32f im = Ok d /\ valid d /\ dyn_color d = CRgb32F /\ dyn_width d = iw im /\ dyn_height d = ih im /\
     forall x y l, pixel im x y = Some [l] -> stored d x y = Some (inr [l; l; l])) /\
  (buffer_of (is_pixel_f LumaA) im -> exists d, dyn_from_lumaa32f im = Ok d /\ valid d /\ dyn_color d = CRgba32F /\ dyn_width d = iw im /\ dyn_height d = ih im /\
     forall x y l a, pixel im x y = Some [l; a] -> stored d x y = Some (inr [l; l; l; a])).
Proof.
  intros im. split; intros B.
  - destruct (convert_with_ok (from_color_ff Luma Rgb) (is_pixel_f Luma) (is_pixel_f Rgb) im B) as (im' & E & B' & Ew & Eh & Px).
    { intros p Hp. unfold is_pixel_f in Hp. destruct p as [|l [|? ?]]; [discriminate| |exfalso; rewrite !zlen_cons in Hp; change (nch Luma) with 1 in Hp; match type of Hp with context [zlen ?r] => pose proof (zlen_nonneg r) end; lia]. exists [l; l; l]. split; reflexivity. }
    exists (ImageRgb32F im'). unfold dyn_from_luma32f. rewrite E. cbn [bind]. split; [reflexivity|]. split; [exact B'|]. split; [reflexivity|]. split; [exact Ew|]. split; [exact Eh|].
    intros x y l H. destruct (Px x y _ H) as (q & Q & P). cbn in Q. apply Ok_inj in Q. subst q. unfold stored. cbn [open]. rewrite P. reflexivity.
  - destruct (convert_with_ok (from_color_ff LumaA Rgba) (is_pixel_f LumaA) (is_pixel_f Rgba) im B) as (im' & E & B' & Ew & Eh & Px).
    { intros p Hp. unfold is_pixel_f in Hp. destruct p as [|l [|a [|? ?]]]; [discriminate|discriminate| |exfalso; rewrite !zlen_cons in Hp; change (nch LumaA) with 2 in Hp; match type of Hp with context [zlen ?r] => pose proof (zlen_nonneg r) end; lia]. exists [l; l; l; a]. split; reflexivity. }
    exists (ImageRgba32F im'). unfold dyn_from_lumaa32f. rewrite E. cbn [bind]. split; [reflexivity|]. split; [exact B'|]. split; [reflexivity|]. split; [exact Ew|]. split; [exact Eh|].
    intros x y l a H. destruct (Px x y _ H) as (q & Q & P). cbn in Q. apply Ok_inj in Q. subst q. unfold stored. cbn [open]. rewrite P. reflexivity.
Qed.
(** the float luma: within 2^-23 of 0.2126 r + 0.7152 g + 0.0722 b and inside [0, 1] for samples inside
    [0, 1]; exact for a grey pixel of any finite value *)
Theorem C66_float_luma :
  (forall (r g b : f32) rest, is_finite r = true -> is_finite g = true -> is_finite b = true ->
    (0 <= B2R r <= 1)%R -> (0 <= B2R g <= 1)%R -> (0 <= B2R b <= 1)%R ->
    exists l, rgb_to_luma_f (r :: g :: b :: rest) = Ok l /\ is_finite l = true /\ (0 <= B2R l <= 1)%R /\
      (Rabs (B2R l - (0.2126 * B2R r + 0.7152 * B2R g + 0.0722 * B2R b)) <= / 8388608)%R) /\
  (forall (v : f32) rest, is_finite v = true -> exists l, rgb_to_luma_f (v :: v :: v :: rest) = Ok l /\ is_finite l = true /\ B2R l = B2R v).
Proof.
  split; [exact luma_f_unit|]. intros v rest F. destruct (luma_f_grey v rest F) as (l & E & A & B). exists l. auto.
Qed.
(** into_X gives what to_X gives *)
Theorem C66_into : forall d, valid d ->
  into_rgb8 d = to_rgb8 d /\ into_rgb16 d = to_rgb16 d /\ into_rgb32f d = to_rgb32f d /\ into_rgba8 d = to_rgba8 d /\ into_rgba16 d = to_rgba16 d /\ into_rgba32f d = to_rgba32f d /\
  into_luma8 d = to_luma8 d /\ into_luma16 d = to_luma16 d /\ into_luma_alpha8 d = to_luma_alpha8 d /\ into_luma_alpha16 d = to_luma_alpha16 d.
Proof.
  intros d V.
  assert (SI : forall t k im, open d = Ints t k im -> Ok im = to_int t k d).
  { intros t k im OD. unfold valid in V. rewrite to_int_open, OD in *. symmetry. apply (convert_id _ _ _ V). intros p Hp. apply same_int, Hp. }
  assert (SF : forall k im, open d = Floats k im -> Ok im = to_f32img k d).
  { intros k im OD. unfold valid in V. rewrite to_f_open, OD in *. symmetry. apply (convert_id _ _ _ V). intros p Hp. apply same_f, Hp. }
  split; [destruct d; try reflexivity; apply SI; reflexivity|]. split; [destruct d; try reflexivity; apply SI; reflexivity|]. split; [destruct d; try reflexivity; apply SF; reflexivity|].
  split; [destruct d; try reflexivity; apply SI; reflexivity|]. split; [destruct d; try reflexivity; apply SI; reflexivity|]. split; [destruct d; try reflexivity; apply SF; reflexivity|].
  split; [destruct d; try reflexivity; apply SI; reflexivity|]. split; [destruct d; try reflexivity; apply SI; reflexivity|]. split; [destruct d; try reflexivity; apply SI; reflexivity|].
  destruct d; try reflexivity; apply SI; reflexivity.
Qed.

(** ** pixel access *)
Theorem C66_get_pixel : forall d x y, valid d ->
  (0 <= x < dyn_width d -> 0 <= y < dyn_height d -> exists im p, to_rgba8 d = Ok im /\ pixel im x y = Some p /\ dyn_get d x y = Ok p /\ is_pixel U8 Rgba p) /\
  (~ (0 <= x < dyn_width d /\ 0 <= y < dyn_height d) -> dyn_get d x y = Panic).
Proof.
  intros d x y V. split; [|intros H; apply stored_out, H]. intros X Y. destruct (stored_in d x y V X Y) as (p & HP).
  destruct (to_int_ok U8 Rgba d V) as (im & E & B & _ & _ & P). destruct (P x y p HP) as (q & EQ & PQ). exists im, q. split; [exact E|]. split; [exact PQ|].
  split; [rewrite (dyn_get_ok d x y p V HP); exact EQ|]. exact (buffer_pixel _ _ _ _ _ B PQ).
Qed.
(** put_pixel changes one pixel; reading it back gives the colour that was put, as far as the type can
    hold it: luma if the type is grey, opaque if it has no alpha - and exactly so at every depth *)
Theorem C66_put_pixel : forall d x y p, valid d -> is_pixel U8 Rgba p ->
  (0 <= x < dyn_width d -> 0 <= y < dyn_height d ->
   exists g, dyn_put d x y p = Ok g /\ valid g /\ dyn_color g = dyn_color d /\ dyn_width g = dyn_width d /\ dyn_height g = dyn_height d /\
     (forall x' y', (x', y') <> (x, y) -> stored g x' y' = stored d x' y') /\ dyn_get g x y = Ok (kept (kind_of (dyn_color d)) p)) /\
  (~ (0 <= x < dyn_width d /\ 0 <= y < dyn_height d) -> dyn_put d x y p = Panic).
Proof. intros d x y p V HP. split; [intros X Y; apply dyn_put_ok; assumption|intros H; apply dyn_put_out; assumption]. Qed.
(** blend_pixel on the integer types changes one pixel, to the blend (C23) of the stored pixel and the
    pixel that put_pixel would store *)
Theorem C66_blend_pixel : forall d x y p t k im, valid d -> open d = Ints t k im -> 0 <= x < dyn_width d -> 0 <= y < dyn_height d -> is_pixel U8 Rgba p ->
  exists g g1 old q r, dyn_blend d x y p = Ok g /\ dyn_put d x y p = Ok g1 /\ valid g /\ dyn_color g = dyn_color d /\ dyn_width g = dyn_width d /\ dyn_height g = dyn_height d /\
    (forall x' y', (x', y') <> (x, y) -> stored g x' y' = stored d x' y') /\
    stored d x y = Some (inl old) /\ stored g1 x y = Some (inl q) /\ stored g x y = Some (inl r) /\ blend (smax t) k old q = Ok r.
Proof.
  intros d x y p t k im V OD X Y HP. destruct (dyn_blend_ok d x y p t k im V OD X Y HP) as (g & old & q & r & E & VG & C & W & H & O & S0 & EQ & HO & HQ & EB & SG).
  pose proof (dyn_put_open d x y p) as PO. rewrite OD in *. rewrite EQ in PO. cbn [bind put_contents] in PO.
  assert (VI : buffer_of (is_pixel t k) im) by (unfold valid in V; rewrite OD in V; exact V). pose proof (dyn_dims d) as D. rewrite OD in D. cbn [dims_of] in D. assert (D1 := f_equal fst D). assert (D2 := f_equal snd D). cbn [fst snd] in D1, D2.
  destruct (put_pixel_spec im x y q (proj1 VI) ltac:(lia) ltac:(lia)) as (im' & EP & _ & _ & _ & PX). rewrite EP in PO. cbn [bind] in PO.
  exists g, (close (Ints t k im')), old, q, r. do 7 (split; [assumption|]). split; [exact S0|]. split; [|split; [exact SG|exact EB]].
  unfold stored. replace (open (close (Ints t k im'))) with (Ints t k im') by (destruct t, k; reflexivity). rewrite PX, !Z.eqb_refl. reflexivity.
Qed.
(** so alpha is ignored by every type without an alpha channel: a fully transparent pixel replaces the
    one below it instead of leaving it alone *)
Theorem C66_blend_transparent_refuted : exists d p, valid d /\ is_pixel U8 Rgba p /\ nth 3 p 0 = 0 /\
  exists g, dyn_blend d 0 0 p = Ok g /\ stored d 0 0 = Some (inl [10; 20; 30]) /\ stored g 0 0 = Some (inl [200; 100; 50]).
Proof.
  exists (ImageRgb8 (mkImg 1 1 [[10; 20; 30]])), [200; 100; 50; 0]. split; [|split; [|split; [reflexivity|]]].
  - unfold valid, buffer_of, wf, is_u32, u32_max. cbn. repeat split; try lia. constructor; [|constructor]. split; [reflexivity|]. repeat (apply Forall_cons; [unfold is_sample, smax, u8_max; lia|]). apply Forall_nil.
  - split; [reflexivity|]. repeat (apply Forall_cons; [unfold is_sample, smax, u8_max; lia|]). apply Forall_nil.
  - eexists. split; [reflexivity|]. split; reflexivity.
Qed.

(** ** whole-image operations keep the type *)
Theorem C66_transforms : forall d, valid d -> let w := dyn_width d in let h := dyn_height d in
  (exists g, dyn_fliph d = Ok g /\ rearranged d g w h (fun X Y => (w - 1 - X, Y))) /\
  (exists g, dyn_flipv d = Ok g /\ rearranged d g w h (fun X Y => (X, h - 1 - Y))) /\
  (exists g, dyn_rotate90 d = Ok g /\ rearranged d g h w (fun X Y => (Y, h - 1 - X))) /\
  (exists g, dyn_rotate180 d = Ok g /\ rearranged d g w h (fun X Y => (w - 1 - X, h - 1 - Y))) /\
  (exists g, dyn_rotate270 d = Ok g /\ rearranged d g h w (fun X Y => (w - 1 - Y, X))).
Proof.
  intros d V w h. destruct (valid_dims d V) as (Uw & Uh). fold w in Uw. fold h in Uh.
  split; [|split; [|split; [|split]]]; (apply dyn_map_ok; [exact V|assumption|assumption|]); intros P zero im W _ _ Ew Eh; fold w in Ew; fold h in Eh; cbn [fst snd]; rewrite <- Ew, <- Eh.
  - apply C10_flip_horizontal, W.
  - apply C10_flip_vertical, W.
  - apply C10_rotate90, W.
  - apply C10_rotate180, W.
  - apply C10_rotate270, W.
Qed.
(** apply_orientation on any of the ten types: the 0th stored row and column end up on the sides that EXIF names for the tag value (OrientSpec.v) *)
Theorem C66_apply_orientation : forall d o row0 col0, valid d -> exif_sides (to_exif o) = Some (row0, col0) ->
  exists g, dyn_apply_orientation d o = Ok g /\ valid g /\ dyn_color g = dyn_color d /\
    dyn_width g = (if exchanges (to_exif o) then dyn_height d else dyn_width d) /\
    dyn_height g = (if exchanges (to_exif o) then dyn_width d else dyn_height d) /\
    forall x y X Y, 0 <= x < dyn_width d -> 0 <= y < dyn_height d ->
      at_side row0 y (dyn_width g) (dyn_height g) X Y -> at_side col0 x (dyn_width g) (dyn_height g) X Y -> stored g X Y = stored d x y.
Proof.
  intros d o row0 col0 V Hs. destruct (valid_dims d V) as (Uw & Uh).
  destruct (dyn_map_ok (fun P zero im => apply_orientation zero im o) d
    (if exchanges (to_exif o) then dyn_height d else dyn_width d) (if exchanges (to_exif o) then dyn_width d else dyn_height d)
    (orient_map o (dyn_width d) (dyn_height d)) V) as (g & G & Vg & Cg & Wg & Hg & Px).
  - destruct (exchanges _); assumption.
  - destruct (exchanges _); assumption.
  - intros P zero im W _ _ Ew Eh. destruct (apply_orientation_moved zero im o W) as (out & E & Wo & Ow & Oh & Px).
    rewrite Ew, Eh in *. exists out. split; [exact E|]. split; [exact Wo|]. split; [exact Ow|]. split; [exact Oh|]. exact Px.
  - exists g. split; [exact G|]. split; [exact Vg|]. split; [exact Cg|]. split; [exact Wg|]. split; [exact Hg|].
    intros x y X Y Hx Hy H1 H2. rewrite Wg, Hg in *.
    destruct o; cbn in *; inversion Hs; subst row0 col0; cbn in H1, H2; (rewrite Px by lia);
      cbn [fst snd]; f_equal; lia.
Qed.
(** cropping returns the part of the rectangle that lies inside the image *)
Theorem C66_crop : forall m d x y w h, valid d -> 0 <= x -> 0 <= y -> 0 <= w -> 0 <= h ->
  exists g, dyn_crop m x y w h d = Ok g /\
    rearranged d g (Z.max 0 (Z.min (x + w) (dyn_width d) - x)) (Z.max 0 (Z.min (y + h) (dyn_height d) - y)) (fun X Y => (x + X, y + Y)).
Proof.
  intros m d x y w h V Hx Hy Hw Hh. destruct (valid_dims d V) as (Uw & Uh). unfold is_u32, u32_max in Uw, Uh.
  apply dyn_map_ok; [exact V|unfold is_u32, u32_max; lia|unfold is_u32, u32_max; lia|]. intros P zero im W U1 U2 Ew Eh. cbn [fst snd].
  destruct (crop_to_image m zero im x y w h W U1 U2 Hx Hy Hw Hh) as (r & E & Wr & Rw & Rh & PX). exists r. rewrite <- Ew, <- Eh, <- Rw, <- Rh. auto 6.
Qed.
(** grayscale keeps depth and alpha: the grey type, and the luma of every pixel *)
Theorem C66_grayscale : forall d, valid d -> (0 < dyn_width d \/ dyn_height d <= 1) ->
  exists g, dyn_grayscale d = Ok g /\ dyn_color g = grey_type (dyn_color d) /\ valid g /\ dyn_width g = dyn_width d /\ dyn_height g = dyn_height d /\
    forall x y, stored g x y = option_map (greyed (dyn_color d)) (stored d x y).
Proof. intros d V HD. destruct (grayscale_ok d V HD) as (g & E & C & M). exists g. split; [exact E|]. split; [exact C|exact M]. Qed.
(** but an image with no columns and two or more rows makes it panic *)
Theorem C66_grayscale_no_columns_refuted : valid (ImageRgb8 (mkImg 0 2 [])) /\ dyn_grayscale (ImageRgb8 (mkImg 0 2 [])) = Panic.
Proof. split; [|reflexivity]. unfold valid, buffer_of, wf, is_u32, u32_max. cbn. repeat split; try lia. constructor. Qed.
Theorem C66_invert : forall d, valid d ->
  exists g, dyn_invert d = Ok g /\ dyn_color g = dyn_color d /\ valid g /\ dyn_width g = dyn_width d /\ dyn_height g = dyn_height d /\
    forall x y, stored g x y = option_map (negated (dyn_color d)) (stored d x y).
Proof. intros d V. destruct (invert_ok d V) as (g & E & C & M). exists g. split; [exact E|]. split; [exact C|exact M]. Qed.

(** ** bytes of the integer types: width * height * bytes_per_pixel of them, each pixel's samples in
    row-major order, low byte first *)
Theorem C66_bytes : forall d t k im, valid d -> open d = Ints t k im -> exists l, dyn_as_bytes d = Some l /\
  zlen l = dyn_width d * dyn_height d * ct_bytes (dyn_color d) /\ bytes l /\
  forall x y p, stored d x y = Some (inl p) -> zslice l ((y * dyn_width d + x) * ct_bytes (dyn_color d)) (ct_bytes (dyn_color d)) = pixel_bytes (dyn_color d) p.
Proof. exact bytes_ok. Qed.

Definition all_C66 := (C66_new, C66_views, C66_clone_from, C66_to, C66_float_px, C66_to_float_px, C66_float_to_float_px, C66_from_grey_floats, C66_float_luma, C66_into, C66_get_pixel, C66_put_pixel, C66_blend_pixel, C66_blend_transparent_refuted, C66_transforms, C66_apply_orientation, C66_crop, C66_grayscale, C66_grayscale_no_columns_refuted, C66_invert, C66_bytes).
Print Assumptions all_C66.

(** ** the hypotheses are met *)
Definition ex_dyn : dyn := ImageLumaA16 (mkImg 2 1 [[1000; 65535]; [2000; 7]]).
Example C66_ex_valid : valid ex_dyn.
Proof. unfold valid, buffer_of, wf, is_u32, u32_max. cbn. repeat split; try lia. repeat (apply Forall_cons; [split; [reflexivity|repeat (apply Forall_cons; [unfold is_sample, smax, u16_max; lia|]); apply Forall_nil]|]). apply Forall_nil. Qed.
Example C66_ex_float_valid : valid (ImageRgb32F (mkImg 1 1 [[f32_one; f32_zero; f32_one]])).
Proof. unfold valid, buffer_of, wf, is_u32, u32_max. cbn. repeat split; try lia. repeat constructor. Qed.
Example C66_ex : (g <- dyn_put ex_dyn 1 0 [10; 200; 30; 77] ;; Ok (dyn_color g, dyn_as_bytes g, dyn_get g 1 0, dyn_get g 0 0)) =
  Ok (CLa16, Some [232; 3; 255; 255; 147; 147; 77; 77], Ok [147; 147; 147; 77], Ok [4; 4; 4; 255]) /\
  dyn_grayscale (ImageRgba8 (mkImg 1 1 [[10; 200; 30; 77]])) = Ok (ImageLumaA8 (mkImg 1 1 [[147; 77]])) /\
  dyn_crop Debug 1 0 5 5 ex_dyn = Ok (ImageLumaA16 (mkImg 1 1 [[2000; 7]])) /\
  dyn_apply_orientation ex_dyn Rotate90FlipH = Ok (ImageLumaA16 (mkImg 1 2 [[1000; 65535]; [2000; 7]])) /\
  dyn_apply_orientation ex_dyn FlipHorizontal = Ok (ImageLumaA16 (mkImg 2 1 [[2000; 7]; [1000; 65535]])).
Proof. split; [reflexivity|]. split; [reflexivity|]. split; [reflexivity|]. split; reflexivity. Qed.
