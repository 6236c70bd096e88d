From Flocq Require Import IEEE754.BinarySingleNaN.
From Verif Require Import Base BaseLemmas ListLemmas GenImage Buffer ColorType Color ColorProofs Float ColorF Dyn DynSpec DynProofs.
Local Open Scope Z_scope.

(** the image g is d with f applied to every stored pixel *)
Definition mapped (d g : dyn) (f : list Z + list f32 -> list Z + list f32) : Prop :=
  valid g /\ dyn_width g = dyn_width d /\ dyn_height g = dyn_height d /\ forall x y, stored g x y = option_map f (stored d x y).

Lemma grey_meaning t k p : is_pixel t k p -> (match k with Luma | LumaA => grey_of k p = lum p | _ => grey_of k p = lum p end).
Proof. intros H. apply pixel_cases in H. destruct k; destr; reflexivity. Qed.


Lemma mapped_int d g f t k im t' k' im' h : open d = Ints t k im -> open g = Ints t' k' im' -> buffer_of (is_pixel t k) im -> buffer_of (is_pixel t' k') im' -> iw im' = iw im -> ih im' = ih im ->
  (forall x y, pixel im' x y = option_map h (pixel im x y)) -> (forall p, is_pixel t k p -> f (inl p) = inl (h p)) -> mapped d g f.
Proof.
  intros OD OG V V' Ew Eh P HF. pose proof (dyn_dims d) as D. pose proof (dyn_dims g) as G. rewrite OD in D. rewrite OG in G. cbn [dims_of] in D, G.
  assert (D1 := f_equal fst D). assert (D2 := f_equal snd D). assert (G1 := f_equal fst G). assert (G2 := f_equal snd G). cbn [fst snd] in *.
  split; [unfold valid; rewrite OG; exact V'|]. split; [congruence|]. split; [congruence|]. intros x y. unfold stored. rewrite OD, OG, P.
  destruct (pixel im x y) as [p|] eqn:PX; [|reflexivity]. cbn [option_map]. rewrite HF; [reflexivity|]. exact (buffer_pixel (is_pixel t k) im x y p V PX).
Qed.
Lemma mapped_f d g f k im im' h : open d = Floats k im -> open g = Floats k im' -> buffer_of (is_pixel_f k) im -> buffer_of (is_pixel_f k) im' -> iw im' = iw im -> ih im' = ih im ->
  (forall x y, pixel im' x y = option_map h (pixel im x y)) -> (forall p, is_pixel_f k p -> f (inr p) = inr (h p)) -> mapped d g f.
Proof.
  intros OD OG V V' Ew Eh P HF. pose proof (dyn_dims d) as D. pose proof (dyn_dims g) as G. rewrite OD in D. rewrite OG in G. cbn [dims_of] in D, G.
  assert (D1 := f_equal fst D). assert (D2 := f_equal snd D). assert (G1 := f_equal fst G). assert (G2 := f_equal snd G). cbn [fst snd] in *.
  split; [unfold valid; rewrite OG; exact V'|]. split; [congruence|]. split; [congruence|]. intros x y. unfold stored. rewrite OD, OG, P.
  destruct (pixel im x y) as [p|] eqn:PX; [|reflexivity]. cbn [option_map]. rewrite HF; [reflexivity|]. exact (buffer_pixel (is_pixel_f k) im x y p V PX).
Qed.
Lemma map_buffer {A B} (Q : A -> Prop) (Q' : B -> Prop) h (im : img A) : buffer_of Q im -> (forall p, Q p -> Q' (h p)) -> buffer_of Q' (mkImg (iw im) (ih im) (map h (px im))).
Proof.
  intros (W & U1 & U2 & F) H. split; [apply wf_map, W|]. split; [exact U1|]. split; [exact U2|]. cbn [px]. rewrite Forall_forall in *. intros q Hq. apply in_map_iff in Hq as (p & <- & Hp). auto.
Qed.
(** grayscale *)
Definition ghf (k : kind) (p : list f32) : list f32 :=
  match rgb_to_luma_f p with Ok l => match k, p with Rgba, [_; _; _; a] => [l; l; l; a] | _, _ => [l; l; l] end | _ => [] end.
Lemma grey_f_px k p : (k = Rgb \/ k = Rgba) -> is_pixel_f k p ->
  (l <- from_color_ff k (match k with Rgba => LumaA | _ => Luma end) p ;; from_color_ff (match k with Rgba => LumaA | _ => Luma end) k l) = Ok (ghf k p) /\ is_pixel_f k (ghf k p).
Proof.
  intros HK H. apply pixel_cases_f in H. destruct HK as [->| ->]; destr; unfold from_color_ff, ghf; cbn [from_color_g];
  match goal with |- context [rgb_to_luma_f (?r :: ?g :: ?b :: ?rest)] => destruct (luma_f_ok r g b rest) as [? X]; rewrite X end; split; reflexivity.
Qed.
Lemma grayscale_ok d : valid d -> (0 < dyn_width d \/ dyn_height d <= 1) ->
  exists g, dyn_grayscale d = Ok g /\ dyn_color g = grey_type (dyn_color d) /\ mapped d g (greyed (dyn_color d)).
Proof.
  intros V HD.
  assert (CL : forall t k im, (k = Luma) -> open d = Ints t k im -> dyn_grayscale d = Ok d -> dyn_color d = grey_type (dyn_color d) -> exists g, dyn_grayscale d = Ok g /\ dyn_color g = grey_type (dyn_color d) /\ mapped d g (greyed (dyn_color d))).
  { intros t k im -> OD E C. exists d. split; [exact E|]. split; [exact C|]. unfold mapped. split; [exact V|]. split; [reflexivity|]. split; [reflexivity|]. intros x y.
    pose proof (kind_color d) as KC. unfold greyed. rewrite KC, OD. unfold stored. rewrite OD. destruct (pixel im x y); reflexivity. }
  assert (GL : forall t k kd im (f : img (list Z) -> res (img (list Z))), (k = Rgb /\ kd = Luma \/ (k = LumaA \/ k = Rgba) /\ kd = LumaA) -> open d = Ints t k im ->
     f im = pixel_loop (repeat 0 (Z.to_nat (nch kd))) (fun p => l <- from_color t t k kd p ;; from_color t t kd kd l) im ->
     (forall q, f im = Ok q -> dyn_grayscale d = Ok (close (Ints t kd q))) ->
     exists g, dyn_grayscale d = Ok g /\ dyn_color g = grey_type (dyn_color d) /\ mapped d g (greyed (dyn_color d))).
  { intros t k kd im f HK OD EF HG. assert (V' : buffer_of (is_pixel t k) im) by (unfold valid in V; rewrite OD in V; exact V).
    assert (HD' : 0 < iw im \/ ih im <= 1). { pose proof (dyn_dims d) as D. rewrite OD in D. cbn [dims_of] in D. assert (D1 := f_equal fst D). assert (D2 := f_equal snd D). cbn [fst snd] in D1, D2. rewrite D1, D2 in HD. exact HD. }
    destruct (grayscale_loop t k kd f im ltac:(tauto) EF V' HD') as (im' & E & B & Ew & Eh & P).
    exists (close (Ints t kd im')). split; [apply HG, E|]. split; [rewrite !dyn_color_open, OD; destruct HK as [(-> & ->)|([->| ->] & ->)]; destruct t; reflexivity|].
    assert (OG : open (close (Ints t kd im')) = Ints t kd im') by (destruct t, kd; reflexivity).
    eapply mapped_int; [exact OD|exact OG|exact V'|exact B|exact Ew|exact Eh|exact P|].
    intros p Hp. pose proof (kind_color d) as KC. unfold greyed. rewrite KC, OD. apply pixel_cases in Hp. destruct HK as [(-> & ->)|([->| ->] & ->)]; destr; reflexivity. }
  assert (GF : forall k im, (k = Rgb \/ k = Rgba) -> open d = Floats k im -> (forall q, grayscale_f k im = Ok q -> dyn_grayscale d = Ok (close (Floats k q))) ->
     exists g, dyn_grayscale d = Ok g /\ dyn_color g = grey_type (dyn_color d) /\ mapped d g (greyed (dyn_color d))).
  { intros k im HK OD HG. assert (V' : buffer_of (is_pixel_f k) im) by (unfold valid in V; rewrite OD in V; exact V). pose proof V' as (W & U1 & U2 & F). rewrite Forall_forall in F.
    assert (HD' : 0 < iw im \/ ih im <= 1). { pose proof (dyn_dims d) as D. rewrite OD in D. cbn [dims_of] in D. assert (D1 := f_equal fst D). assert (D2 := f_equal snd D). cbn [fst snd] in D1, D2. rewrite D1, D2 in HD. exact HD. }
    exists (close (Floats k (mkImg (iw im) (ih im) (map (ghf k) (px im))))). split; [apply HG; unfold grayscale_f; apply pixel_loop_map; auto; intros p Hp; apply grey_f_px; auto|].
    split; [rewrite !dyn_color_open, OD; destruct HK as [->| ->]; reflexivity|].
    eapply (mapped_f d _ _ k im _ (ghf k)); [exact OD|destruct HK as [->| ->]; reflexivity|exact V'|eapply map_buffer; [exact V'|intros p Hp; apply grey_f_px; auto]|reflexivity|reflexivity|intros; apply pixel_map|].
    intros p Hp. pose proof (kind_color d) as KC. unfold greyed. rewrite KC, OD. apply pixel_cases_f in Hp. unfold ghf. destruct HK as [->| ->]; destr; match goal with |- context [rgb_to_luma_f (?r :: ?g :: ?b :: ?rest)] => destruct (luma_f_ok r g b rest) as [? X]; rewrite X end; reflexivity. }
  destruct d as [p|p|p|p|p|p|p|p|p|p].
  - apply (CL U8 Luma p); reflexivity.
  - apply (GL U8 LumaA LumaA p (grayscale_with_type_alpha U8 U8 LumaA LumaA)); [auto|reflexivity|reflexivity|intros q E; cbn [dyn_grayscale]; rewrite E; reflexivity].
  - apply (GL U8 Rgb Luma p (grayscale_with_type U8 U8 Rgb Luma)); [auto|reflexivity|reflexivity|intros q E; cbn [dyn_grayscale]; rewrite E; reflexivity].
  - apply (GL U8 Rgba LumaA p (grayscale_with_type_alpha U8 U8 Rgba LumaA)); [auto|reflexivity|reflexivity|intros q E; cbn [dyn_grayscale]; rewrite E; reflexivity].
  - apply (CL U16 Luma p); reflexivity.
  - apply (GL U16 LumaA LumaA p (grayscale_with_type_alpha U16 U16 LumaA LumaA)); [auto|reflexivity|reflexivity|intros q E; cbn [dyn_grayscale]; rewrite E; reflexivity].
  - apply (GL U16 Rgb Luma p (grayscale_with_type U16 U16 Rgb Luma)); [auto|reflexivity|reflexivity|intros q E; cbn [dyn_grayscale]; rewrite E; reflexivity].
  - apply (GL U16 Rgba LumaA p (grayscale_with_type_alpha U16 U16 Rgba LumaA)); [auto|reflexivity|reflexivity|intros q E; cbn [dyn_grayscale]; rewrite E; reflexivity].
  - apply (GF Rgb p); [auto|reflexivity|intros q E; cbn [dyn_grayscale]; rewrite E; reflexivity].
  - apply (GF Rgba p); [auto|reflexivity|intros q E; cbn [dyn_grayscale]; rewrite E; reflexivity].
Qed.
(** invert *)
Lemma dyn_invert_open d : match open d with
  | Ints t k im => dyn_invert d = (q <- invert_img t k im ;; Ok (close (Ints t k q)))
  | Floats k im => dyn_invert d = (q <- in_place (invert_px_f k) im ;; Ok (close (Floats k q)))
  end.
Proof. destruct d; reflexivity. Qed.
Lemma invert_ok d : valid d -> exists g, dyn_invert d = Ok g /\ dyn_color g = dyn_color d /\ mapped d g (negated (dyn_color d)).
Proof.
  intros V. pose proof (dyn_invert_open d) as I. pose proof (open_float_kind d) as FK. pose proof (dyn_color_open d) as CO. unfold valid in V. destruct (open d) as [t k im|k im] eqn:OD.
  - pose proof V as (W & U1 & U2 & F). rewrite Forall_forall in F. set (h := color_map k (fun v => smax t - v)).
    assert (HQ : forall p, is_pixel t k p -> invert_px t k p = Ok (h p) /\ is_pixel t k (h p)) by (intros p Hp; apply invert_px_ok; exact Hp).
    unfold invert_img in I. rewrite (in_place_map (invert_px t k) h im W) in I by (intros p Hp; apply HQ, F, Hp). cbn [bind] in I.
    eexists. split; [exact I|]. split; [rewrite dyn_color_open, CO; destruct t, k; reflexivity|].
    eapply (mapped_int d _ _ t k im t k _ h); [exact OD|destruct t, k; reflexivity|exact V|eapply map_buffer; [exact V|intros p Hp; apply HQ, Hp]|reflexivity|reflexivity|intros; apply pixel_map|].
    intros p Hp. rewrite CO. apply pixel_cases in Hp. destruct t, k; destr; reflexivity.
  - pose proof V as (W & U1 & U2 & F). rewrite Forall_forall in F. set (h := fun p => match invert_px_f k p with Ok q => q | _ => [] end).
    assert (HK := FK k im eq_refl).
    assert (HQ : forall p, is_pixel_f k p -> invert_px_f k p = Ok (h p) /\ is_pixel_f k (h p)). { intros p Hp. apply pixel_cases_f in Hp. destruct HK as [->| ->]; destr; split; reflexivity. }
    rewrite (in_place_map (invert_px_f k) h im W) in I by (intros p Hp; apply HQ, F, Hp). cbn [bind] in I.
    eexists. split; [exact I|]. split; [rewrite dyn_color_open, CO; destruct k; reflexivity|].
    eapply (mapped_f d _ _ k im _ h); [exact OD|destruct HK as [->| ->]; reflexivity|exact V|eapply map_buffer; [exact V|intros p Hp; apply HQ, Hp]|reflexivity|reflexivity|intros; apply pixel_map|].
    intros p Hp. apply pixel_cases_f in Hp. destruct HK as [->| ->]; destr; reflexivity.
Qed.
(** bytes *)
Lemma flat_map_concat {A B} (f : A -> list B) ls : flat_map f (concat ls) = concat (map (flat_map f) ls).
Proof. induction ls as [|l ls IH]; [reflexivity|]. cbn [concat map]. rewrite flat_map_app, IH. reflexivity. Qed.
Lemma bytes_open d : dyn_as_bytes d = match open d with Ints t _ im => Some (img_bytes t im) | Floats _ _ => None end.
Proof. destruct d; reflexivity. Qed.
Lemma bytes_ok d t k im : valid d -> open d = Ints t k im -> exists l, dyn_as_bytes d = Some l /\
  zlen l = dyn_width d * dyn_height d * ct_bytes (dyn_color d) /\ bytes l /\
  forall x y p, stored d x y = Some (inl p) -> zslice l ((y * dyn_width d + x) * ct_bytes (dyn_color d)) (ct_bytes (dyn_color d)) = pixel_bytes (dyn_color d) p.
Proof.
  intros V OD. pose proof (dyn_dims d) as D. pose proof (dyn_color_open d) as CO. rewrite bytes_open. unfold valid, stored in *. rewrite OD in *. cbn [dims_of] in D.
  assert (D1 := f_equal fst D). assert (D2 := f_equal snd D). cbn [fst snd] in D1, D2. clear D. rewrite D1, D2.
  destruct V as ((W1 & W2 & WL) & U1 & U2 & F). set (n := ct_bytes (dyn_color d)) in *.
  assert (PB : forall p, is_pixel t k p -> flat_map (sample_bytes t) p = pixel_bytes (dyn_color d) p /\ zlen (flat_map (sample_bytes t) p) = n /\ bytes (flat_map (sample_bytes t) p)).
  { intros p Hp. apply pixel_cases in Hp. unfold n. rewrite CO. unfold pixel_bytes, bytes, is_u8.
    destruct t, k; destr; cbn [flat_map sample_bytes le16 app color_of depth_of ct_bytes]; unfold is_sample, smax, u8_max, u16_max in *;
    (split; [repeat match goal with |- context [(?v / 256) mod 256] => rewrite (Z.mod_small (v / 256) 256) by (split; [apply Z.div_pos; lia|apply Z.div_lt_upper_bound; lia]) end; reflexivity|]); (split; [reflexivity|]);
    repeat (apply Forall_cons; [first [lia|match goal with |- 0 <= ?v mod 256 <= 255 => pose proof (Z.mod_pos_bound v 256); lia end]|]); apply Forall_nil. }
  exists (img_bytes t im). split; [reflexivity|]. unfold img_bytes. rewrite flat_map_concat.
  assert (UF : Forall (fun c => zlen c = n) (map (flat_map (sample_bytes t)) (px im))).
  { rewrite Forall_forall in *. intros c Hc. apply in_map_iff in Hc as (p & <- & Hp). apply PB, F, Hp. }
  split; [rewrite (zlen_concat n) by exact UF; rewrite zlen_map, WL; ring|]. split.
  { unfold bytes. apply Forall_concat. rewrite Forall_forall in *. intros c Hc. apply in_map_iff in Hc as (p & <- & Hp). apply PB, F, Hp. }
  intros x y p Hp. destruct (pixel im x y) as [q|] eqn:PX; [|discriminate]. injection Hp as <-. pose proof (pixel_In _ _ _ _ PX) as HI. rewrite Forall_forall in F. rewrite <- (proj1 (PB q (F q HI))).
  apply zslice_concat; [unfold n; destruct (dyn_color d); discriminate|exact UF|]. rewrite zget_map. unfold pixel in PX. destruct (inb im x y); [|discriminate]. rewrite PX. reflexivity.
Qed.
(** new *)
Lemma new_ok w h c : is_u32 w -> is_u32 h -> ct_channels c * w * h <= u64_max -> exists d, dyn_new w h c = Ok d /\ valid d /\ dyn_color d = c /\ dyn_width d = w /\ dyn_height d = h /\
  forall x y, 0 <= x < w -> 0 <= y < h -> exists n, stored d x y = Some (match depth_of c with D32F => inr (repeat f32_zero n) | _ => inl (repeat 0 n) end).
Proof.
  intros Hw Hh HL.
  assert (Wf : forall A (z : A), wf (new_img w h z)). { intros A z. unfold is_u32 in *. unfold wf, new_img. cbn [iw ih px]. split; [lia|]. split; [lia|]. rewrite zlen_repeat. nia. }
  assert (VI : forall t k, buffer_of (is_pixel t k) (new_img w h (repeat 0 (Z.to_nat (nch k))))).
  { intros t k. split; [apply Wf|]. split; [exact Hw|]. split; [exact Hh|]. apply Forall_forall. intros p Hp. apply repeat_spec in Hp. subst p. destruct t, k; (split; [reflexivity|]); repeat (apply Forall_cons; [unfold is_sample, smax, u8_max, u16_max; lia|]); apply Forall_nil. }
  assert (VF : forall k, buffer_of (is_pixel_f k) (new_img w h (repeat f32_zero (Z.to_nat (nch k))))).
  { intros k. split; [apply Wf|]. split; [exact Hw|]. split; [exact Hh|]. apply Forall_forall. intros p Hp. apply repeat_spec in Hp. subst p. destruct k; reflexivity. }
  unfold dyn_new, bnew_img. destruct c; cbn [ct_channels ct_bytes ect_of ect_channels nch] in *;
  match goal with |- context [if ?b then _ else _] => replace b with true by (symmetry; apply Z.leb_le; cbn [nch]; lia) end; cbn [bind];
  (eexists; split; [reflexivity|]); (split; [first [apply VI|apply VF]|]); (split; [reflexivity|]); (split; [reflexivity|]); (split; [reflexivity|]);
  intros x y X Y; eexists; unfold stored; cbn [open depth_of]; rewrite pixel_new_img by assumption; reflexivity.
Qed.
