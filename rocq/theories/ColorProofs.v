From Verif Require Import Base BaseLemmas ListLemmas BitLemmas GenImage Buffer Color.
Local Open Scope Z_scope.

Lemma lor_257 v : 0 <= v <= 255 -> Z.lor (Z.shiftl v 8) v = 257 * v.
Proof. intros H. rewrite (lor_shift_small v v 8) by (change (2 ^ 8) with 256; lia). change (2 ^ 8) with 256. lia. Qed.

(** ** depth conversion *)
Definition conv (S T : sty) (v : Z) : Z :=
  match S, T with U8, U16 => 257 * v | U16, U8 => (v + 128) / 257 | _, _ => v end.
Lemma from_primitive_ok S T v : is_sample S v -> from_primitive S T v = Ok (conv S T v) /\ is_sample T (conv S T v).
Proof.
  unfold is_sample. destruct S, T; cbn [smax from_primitive conv]; unfold u8_max, u16_max; intros H; auto.
  - rewrite lor_257 by lia. unfold numcast. replace ((0 <=? 257 * v) && (257 * v <=? 65535)) with true by lia. split; [reflexivity|lia].
  - unfold add_m. replace (v + 128 <=? u32_max) with true by (unfold u32_max; lia). cbn [bind].
    assert (0 <= (v + 128) / 257 <= 255).
    { split; [apply Z.div_pos; lia|]. enough ((v + 128) / 257 < 256) by lia. apply Z.div_lt_upper_bound; lia. }
    unfold numcast. replace ((0 <=? (v + 128) / 257) && ((v + 128) / 257 <=? 255)) with true by lia. auto.
Qed.
Lemma depth_spec v : is_sample U16 v -> exists r, from_primitive U16 U8 v = Ok r /\ is_sample U8 r /\
  2 * Z.abs (r * 65535 - v * 255) <= 65535 /\
  (forall r', is_sample U8 r' -> Z.abs (r * 65535 - v * 255) <= Z.abs (r' * 65535 - v * 255)).
Proof.
  intros H. destruct (from_primitive_ok U16 U8 v H) as [E1 E2]. cbn [conv] in *. exists ((v + 128) / 257).
  split; [auto|]. split; [auto|]. unfold is_sample, smax, u16_max, u8_max in *.
  pose proof (Z.div_mod (v + 128) 257 ltac:(lia)). pose proof (Z.mod_pos_bound (v + 128) 257 ltac:(lia)).
  split; [lia|]. intros r' Hr'. lia.
Qed.
Lemma depth_roundtrip v : is_sample U8 v -> exists w, from_primitive U8 U16 v = Ok w /\ is_sample U16 w /\ from_primitive U16 U8 w = Ok v.
Proof.
  intros H. destruct (from_primitive_ok U8 U16 v H) as [E1 E2]. cbn [conv] in *. exists (257 * v). split; [auto|]. split; [auto|].
  destruct (from_primitive_ok U16 U8 _ E2) as [E3 _]. rewrite E3. cbn [conv]. f_equal.
  symmetry. apply (Z.div_unique _ 257 v 128); lia.
Qed.
Lemma conv_mono S T a b : a <= b -> conv S T a <= conv S T b.
Proof. destruct S, T; cbn [conv]; intros; try lia. Qed.
Lemma conv_bounds S T : conv S T 0 = 0 /\ conv S T (smax S) = smax T.
Proof. destruct S, T; cbn; auto. Qed.

(** ** luma *)
Definition luma (r g b : Z) : Z := (2126 * r + 7152 * g + 722 * b) / 10000.
Lemma luma_between r g b lo hi : lo <= r <= hi -> lo <= g <= hi -> lo <= b <= hi -> lo <= luma r g b <= hi.
Proof.
  intros. unfold luma. split; [apply Z.div_le_lower_bound; lia|apply Z.div_le_upper_bound; lia].
Qed.
Lemma rgb_to_luma_ok t r g b rest : is_sample t r -> is_sample t g -> is_sample t b ->
  rgb_to_luma t (r :: g :: b :: rest) = Ok (luma r g b) /\ is_sample t (luma r g b).
Proof.
  unfold is_sample. intros Hr Hg Hb. pose proof (luma_between r g b 0 (smax t) Hr Hg Hb) as HL. split; [|auto].
  assert (Hm : smax t <= 65535) by (destruct t; unfold smax, u8_max, u16_max; lia).
  unfold rgb_to_luma, mul_m, add_m, larger_max, u32_max.
  destruct (Z.leb_spec (2126 * r) 4294967295); [|lia]. cbn [bind].
  destruct (Z.leb_spec (7152 * g) 4294967295); [|lia]. cbn [bind].
  destruct (Z.leb_spec (2126 * r + 7152 * g) 4294967295); [|lia]. cbn [bind].
  destruct (Z.leb_spec (722 * b) 4294967295); [|lia]. cbn [bind].
  destruct (Z.leb_spec (2126 * r + 7152 * g + 722 * b) 4294967295); [|lia]. cbn [bind].
  fold (luma r g b). change (2126 * r + 7152 * g + 722 * b) with (2126 * r + 7152 * g + 722 * b).
  unfold clamp_from, srgb_luma_div. fold (luma r g b).
  replace (smax t <? luma r g b) with false by lia. replace (luma r g b <? 0) with false by lia.
  unfold numcast. replace ((0 <=? luma r g b) && (luma r g b <=? smax t)) with true by lia. reflexivity.
Qed.
Lemma luma_grey v : luma v v v = v.
Proof. unfold luma. replace (2126 * v + 7152 * v + 722 * v) with (v * 10000) by lia. apply Z.div_mul. lia. Qed.
Lemma luma_mono r g b r' g' b' : r <= r' -> g <= g' -> b <= b' -> luma r g b <= luma r' g' b'.
Proof. intros. unfold luma. apply Z.div_le_mono; lia. Qed.

(** ** colour conversion: colour part and alpha part *)
Definition alpha_of (t : sty) (k : kind) (p : list Z) : Z :=
  match k, p with LumaA, [_; a] => a | Rgba, [_; _; _; a] => a | _, _ => smax t end.
Definition grey_of (k : kind) (p : list Z) : Z :=
  match k, p with
  | Luma, [l] => l | LumaA, [l; _] => l
  | Rgb, [r; g; b] => luma r g b | Rgba, [r; g; b; _] => luma r g b
  | _, _ => 0
  end.
Definition rgb_of (k : kind) (p : list Z) : Z * Z * Z :=
  match k, p with
  | Luma, [l] => (l, l, l) | LumaA, [l; _] => (l, l, l)
  | Rgb, [r; g; b] => (r, g, b) | Rgba, [r; g; b; _] => (r, g, b)
  | _, _ => (0, 0, 0)
  end.
Lemma pixel_cases t k p : is_pixel t k p ->
  match k with
  | Luma => exists l, p = [l] /\ is_sample t l
  | LumaA => exists l a, p = [l; a] /\ is_sample t l /\ is_sample t a
  | Rgb => exists r g b, p = [r; g; b] /\ is_sample t r /\ is_sample t g /\ is_sample t b
  | Rgba => exists r g b a, p = [r; g; b; a] /\ is_sample t r /\ is_sample t g /\ is_sample t b /\ is_sample t a
  end.
Proof.
  intros [Hl HF]. unfold zlen in Hl.
  destruct k; cbn [nch] in Hl; destruct p as [|a [|b [|c [|d [|]]]]]; cbn [length] in Hl; try lia;
    repeat match goal with H : Forall _ (_ :: _) |- _ => inversion H; clear H; subst end; eauto 10.
Qed.
Lemma smax_sample t : is_sample t (smax t).
Proof. destruct t; unfold is_sample, smax, u8_max, u16_max; lia. Qed.
Lemma from_color_ok S T ks kd p : is_pixel S ks p -> exists q, from_color S T ks kd p = Ok q /\ is_pixel T kd q /\
  alpha_of T kd q = (if nalpha kd =? 0 then smax T else conv S T (alpha_of S ks p)) /\
  (nch kd <= 2 -> grey_of kd q = conv S T (grey_of ks p)) /\
  (3 <= nch kd -> rgb_of kd q = (let '(r, g, b) := rgb_of ks p in (conv S T r, conv S T g, conv S T b))).
Proof.
  intros H. apply pixel_cases in H. pose proof (smax_sample T).
  pose proof (conv_bounds S T) as [_ CM].
  destruct ks, kd; repeat match goal with H : exists _, _ |- _ => destruct H | H : _ /\ _ |- _ => destruct H end; subst;
  cbn [from_color];
  repeat match goal with
  | |- context [rgb_to_luma S (?r :: ?g :: ?b :: ?rest)] =>
      let X := fresh "X" in let Y := fresh "Y" in
      destruct (rgb_to_luma_ok S r g b rest) as [X Y]; [assumption..|]; rewrite X; clear X; cbn [bind]
  | |- context [from_primitive S T ?v] =>
      let X := fresh "X" in let Y := fresh "Y" in
      destruct (from_primitive_ok S T v) as [X Y]; [assumption..|]; rewrite X; clear X; cbn [bind]
  end;
  (eexists; split; [reflexivity|]; split; [split; [reflexivity|repeat (apply Forall_cons; [assumption|]); apply Forall_nil]|]);
  cbn [alpha_of grey_of rgb_of nalpha nch Z.eqb];
  (split; [solve [reflexivity | symmetry; assumption | congruence]|]); split; intros; try lia; reflexivity.
Qed.

(** ** inversion and brightening of one pixel *)
(** number of colour (non-alpha) channels *)
Definition ncol (k : kind) : nat := match k with Luma | LumaA => 1 | Rgb | Rgba => 3 end.
Definition color_map (k : kind) (f : Z -> Z) (p : list Z) : list Z :=
  map f (firstn (ncol k) p) ++ skipn (ncol k) p.
Lemma ncol_eq k : Z.to_nat (nch k - nalpha k) = ncol k. Proof. destruct k; reflexivity. Qed.
Lemma invert_px_ok t k p : is_pixel t k p ->
  invert_px t k p = Ok (color_map k (fun v => smax t - v) p) /\ is_pixel t k (color_map k (fun v => smax t - v) p).
Proof.
  intros H. apply pixel_cases in H. unfold is_sample in *.
  destruct k; repeat match goal with H : exists _, _ |- _ => destruct H | H : _ /\ _ |- _ => destruct H end; subst;
  unfold invert_px, sub_m;
  repeat match goal with |- context [?a <=? smax t] => replace (a <=? smax t) with true by lia; cbn [bind] end;
  (split; [reflexivity|]); (split; [reflexivity|]); unfold color_map; cbn;
  repeat constructor; lia.
Qed.
Lemma color_map_invol t k p : is_pixel t k p ->
  color_map k (fun v => smax t - v) (color_map k (fun v => smax t - v) p) = p.
Proof.
  intros H. apply pixel_cases in H. assert (E : forall v, smax t - (smax t - v) = v) by (intros; lia).
  destruct k; repeat match goal with H : exists _, _ |- _ => destruct H | H : _ /\ _ |- _ => destruct H end; subst;
  unfold color_map; cbn [ncol firstn skipn map app]; rewrite ?E; reflexivity.
Qed.
Lemma clampu_spec a lo hi : lo <= hi -> clampu a lo hi = clampz lo hi a.
Proof. unfold clampu, clampz. intros. destruct (Z.ltb_spec a lo), (Z.ltb_spec hi a); lia. Qed.
Lemma smax_nonneg t : 255 <= smax t <= 65535. Proof. destruct t; unfold smax, u8_max, u16_max; lia. Qed.
Lemma brighten_sample_ok m t v b : is_sample t b -> i32_min <= v <= i32_max - smax t ->
  brighten_sample m t v b = Ok (clampz 0 (smax t) (b + v)).
Proof.
  unfold is_sample, i32_min, i32_max. intros Hb Hv. unfold brighten_sample, i32_add_m, i32_min, i32_max.
  replace ((-2147483648 <=? b + v) && (b + v <=? 2147483647)) with true by lia. cbn [bind].
  pose proof (smax_nonneg t). rewrite clampu_spec by lia. unfold numcast, clampz.
  match goal with |- (if ?e then _ else _) = _ => replace e with true by lia end. reflexivity.
Qed.
Lemma brighten_px_ok m t k v p : is_pixel t k p -> i32_min <= v <= i32_max - smax t ->
  brighten_px m t k v p = Ok (color_map k (fun b => clampz 0 (smax t) (b + v)) p) /\
  is_pixel t k (color_map k (fun b => clampz 0 (smax t) (b + v)) p).
Proof.
  intros H Hv. apply pixel_cases in H. unfold brighten_px, map_with_alpha, color_map. rewrite ncol_eq.
  pose proof (smax_nonneg t).
  destruct k; repeat match goal with H : exists _, _ |- _ => destruct H | H : _ /\ _ |- _ => destruct H end; subst;
  cbn [ncol firstn skipn map_res];
  rewrite ?brighten_sample_ok by (assumption || split; assumption); cbn [bind map_res];
  rewrite ?brighten_sample_ok by (assumption || split; assumption); cbn [bind map_res];
  rewrite ?brighten_sample_ok by (assumption || split; assumption); cbn [bind map_res];
  (split; [reflexivity|]); (split; [reflexivity|]); cbn; unfold is_sample in *;
  repeat constructor; unfold clampz; lia.
Qed.

(** ** whole images *)
Lemma in_place_list {P} (f : P -> res P) (g : P -> P) l im : wf im -> NoDup l ->
  (forall x y, In (x, y) l -> 0 <= x < iw im /\ 0 <= y < ih im) ->
  (forall x y p, pixel im x y = Some p -> f p = Ok (g p)) ->
  exists im', foldM (fun s c => p <- get_pixel s (fst c) (snd c) ;; q <- f p ;; put_pixel s (fst c) (snd c) q) l im = Ok im' /\
    wf im' /\ iw im' = iw im /\ ih im' = ih im /\
    (forall x y, In (x, y) l -> pixel im' x y = option_map g (pixel im x y)) /\
    (forall x y, ~ In (x, y) l -> pixel im' x y = pixel im x y).
Proof.
  intros W ND HB HF.
  assert (Gen : forall l s, NoDup l -> wf s -> iw s = iw im -> ih s = ih im ->
    (forall x y, In (x, y) l -> 0 <= x < iw im /\ 0 <= y < ih im) ->
    (forall x y, In (x, y) l -> pixel s x y = pixel im x y) ->
    exists im', foldM (fun s c => p <- get_pixel s (fst c) (snd c) ;; q <- f p ;; put_pixel s (fst c) (snd c) q) l s = Ok im' /\
    wf im' /\ iw im' = iw im /\ ih im' = ih im /\
    (forall x y, In (x, y) l -> pixel im' x y = option_map g (pixel im x y)) /\
    (forall x y, ~ In (x, y) l -> pixel im' x y = pixel s x y)).
  { clear l ND HB. induction l as [|[x y] l IH]; intros s ND Ws Ew Eh HB HS.
    - exists s. cbn [foldM]. repeat split; auto; try apply Ws. intros ? ? [].
    - inversion ND as [|? ? Hni ND']; subst. destruct (HB x y (or_introl eq_refl)) as [Hx Hy].
      destruct (pixel_in im x y W Hx Hy) as [p Hp].
      cbn [foldM fst snd]. unfold get_pixel at 1. rewrite (HS x y (or_introl eq_refl)), Hp. cbn [bind].
      rewrite (HF x y p Hp). cbn [bind].
      destruct (put_pixel_spec s x y (g p) Ws ltac:(lia) ltac:(lia)) as (s1 & -> & W1 & Ew1 & Eh1 & Hp1). cbn [bind].
      destruct (IH s1 ND' W1) as (im' & E & W' & Ew' & Eh' & Hin & Hout); try congruence.
      { intros; apply HB; right; auto. }
      { intros x' y' Hi. rewrite Hp1. destruct ((x' =? x) && (y' =? y)) eqn:Ee.
        - exfalso. apply Hni. replace x with x' by lia. replace y with y' by lia. auto.
        - apply HS. right; auto. }
      exists im'. do 4 (split; [assumption|]). split.
      + intros x' y' [Ee|Hi]; [|auto]. injection Ee as <- <-. rewrite Hout by auto. rewrite Hp1, Hp, !Z.eqb_refl. reflexivity.
      + intros x' y' Hn. rewrite Hout by (intros Hi; apply Hn; right; auto). rewrite Hp1.
        destruct ((x' =? x) && (y' =? y)) eqn:Ee; [|reflexivity].
        exfalso. apply Hn. left. f_equal; lia. }
  apply Gen; auto.
Qed.
Lemma pixel_map {P Q} (g : P -> Q) (im : img P) x y :
  pixel (mkImg (iw im) (ih im) (map g (px im))) x y = option_map g (pixel im x y).
Proof. unfold pixel, inb. cbn [iw ih px]. destruct (_ && _); [apply zget_map|reflexivity]. Qed.
Lemma wf_map {P Q} (g : P -> Q) (im : img P) : wf im -> wf (mkImg (iw im) (ih im) (map g (px im))).
Proof. intros (A & B & C). unfold wf. cbn [iw ih px]. rewrite zlen_map. auto. Qed.
Lemma in_place_map {P} (f : P -> res P) (g : P -> P) im : wf im ->
  (forall p, In p (px im) -> f p = Ok (g p)) ->
  in_place f im = Ok (mkImg (iw im) (ih im) (map g (px im))).
Proof.
  intros W HF. unfold in_place. rewrite for2_coords.
  destruct (in_place_list f g (coords (iw im) (ih im)) im W) as (im' & E & W' & Ew & Eh & Hin & _).
  - apply NoDup_coords.
  - intros x y H. apply In_coords; auto.
  - intros x y p Hp. apply HF. unfold pixel in Hp. destruct (inb im x y); [|discriminate].
    unfold zget in Hp. destruct (_ <? 0); [discriminate|]. eapply nth_error_In; eauto.
  - rewrite E. f_equal. apply img_ext; auto; [apply wf_map; auto|].
    intros x y Hx Hy. rewrite pixel_map. apply Hin, In_coords. rewrite <- Ew, <- Eh. auto.
Qed.

Lemma for_pixels_loop {P Q} (f : P -> res Q) (g : P -> Q) (im : img P) n : wf im -> 0 < iw im <= u32_max -> ih im <= u32_max ->
  (forall p, In p (px im) -> f p = Ok (g p)) -> forall x y i out,
  y * iw im + x = i -> 0 <= x <= iw im -> 0 <= y -> i + Z.of_nat n = iw im * ih im ->
  wf out -> iw out = iw im -> ih out = ih im ->
  (forall X Y, 0 <= X < iw im -> 0 <= Y < ih im -> Y * iw im + X < i -> pixel out X Y = option_map g (pixel im X Y)) ->
  for_pixels (n + 1) im f (x, y) out = Ok (mkImg (iw im) (ih im) (map g (px im))).
Proof.
  intros Hwf Hw Hh HF. induction n as [|n IH]; intros x y i out Hi Hx Hy Hn Wo Ewo Eho HP.
  - cbn [Nat.add for_pixels]. unfold gpix_next. cbn [fst snd].
    assert (HD : (iw im <= x /\ y + 1 = ih im) \/ (x < iw im /\ y = ih im)).
    { destruct (Z_lt_ge_dec x (iw im)); [right|left]; (split; [lia|]).
      - destruct (Z.lt_trichotomy y (ih im)) as [L|[L|L]]; auto; exfalso.
        + assert ((y + 1) * iw im <= ih im * iw im) by (apply Z.mul_le_mono_nonneg_r; lia). lia.
        + assert ((ih im + 1) * iw im <= y * iw im) by (apply Z.mul_le_mono_nonneg_r; lia). lia.
      - apply (Z.mul_cancel_r _ _ (iw im)); lia. }
    assert (ER : Ok out = Ok (mkImg (iw im) (ih im) (map g (px im)))).
    { f_equal. apply img_ext; auto; [apply wf_map; auto|]. intros X Y HX HY. rewrite pixel_map. rewrite Ewo, Eho in *.
      apply HP; auto. pose proof (idx_range (iw im) (ih im) X Y HX HY). lia. }
    destruct HD as [[L E]|[L E]].
    + replace (iw im <=? x) with true by lia. unfold u32_add. replace (y + 1 <=? u32_max) with true by lia. cbn [bind].
      replace (ih im <=? y + 1) with true by lia. exact ER.
    + replace (iw im <=? x) with false by lia. cbn [bind]. replace (ih im <=? y) with true by lia. exact ER.
  - cbn [Nat.add for_pixels]. unfold gpix_next at 1. cbn [fst snd].
    assert (HC : exists x1 y1, (if iw im <=? x then y0 <- u32_add y 1;; Ok (0, y0) else Ok (x, y)) = Ok (x1, y1) /\
      0 <= x1 < iw im /\ 0 <= y1 < ih im /\ y1 * iw im + x1 = i).
    { assert (Hyh : y * iw im < ih im * iw im) by lia. apply Z.mul_lt_mono_pos_r in Hyh; [|lia].
      destruct (Z.leb_spec (iw im) x).
      - assert (x = iw im) by lia. subst x. exists 0, (y + 1). unfold u32_add. replace (y + 1 <=? u32_max) with true by lia.
        split; [reflexivity|]. split; [lia|]. split; [|lia].
        assert (Hyh2 : (y + 1) * iw im < ih im * iw im) by lia. apply Z.mul_lt_mono_pos_r in Hyh2; lia.
      - exists x, y. split; [reflexivity|]. lia. }
    destruct HC as (x1 & y1 & -> & Hx1 & Hy1 & Hi1). cbn [bind]. replace (ih im <=? y1) with false by lia.
    destruct (pixel_in im x1 y1 Hwf Hx1 Hy1) as [p Hp]. unfold get_pixel at 1. rewrite Hp. cbn [bind].
    unfold u32_add. replace (x1 + 1 <=? u32_max) with true by lia. cbn [bind].
    assert (HI : In p (px im)).
    { unfold pixel in Hp. destruct (inb im x1 y1); [|discriminate].
      unfold zget in Hp. destruct (_ <? 0); [discriminate|]. eapply nth_error_In; eauto. }
    rewrite (HF p HI). cbn [bind].
    destruct (put_pixel_spec out x1 y1 (g p) Wo ltac:(lia) ltac:(lia)) as (o1 & -> & W1 & Ew1 & Eh1 & Hp1). cbn [bind].
    apply (IH _ _ (i + 1)); try lia; auto; try congruence.
    intros X Y HX HY HXY. rewrite Hp1. destruct ((X =? x1) && (Y =? y1)) eqn:Ee.
    + assert (X = x1) by lia. assert (Y = y1) by lia. subst. rewrite Hp. reflexivity.
    + apply HP; auto. destruct (Z.eq_dec (Y * iw im + X) i) as [Eq|]; [|lia]. exfalso.
      assert (HYy : Y = y1).
      { destruct (Z.lt_trichotomy Y y1) as [L|[L|L]]; auto; exfalso.
        + assert ((Y + 1) * iw im <= y1 * iw im) by (apply Z.mul_le_mono_nonneg_r; lia). lia.
        + assert ((y1 + 1) * iw im <= Y * iw im) by (apply Z.mul_le_mono_nonneg_r; lia). lia. }
      subst Y. lia.
Qed.
Lemma pixel_loop_map {P Q} (zero : Q) (f : P -> res Q) (g : P -> Q) im : wf im -> is_u32 (iw im) -> is_u32 (ih im) ->
  (0 < iw im \/ ih im <= 1) ->
  (forall p, In p (px im) -> f p = Ok (g p)) ->
  pixel_loop zero f im = Ok (mkImg (iw im) (ih im) (map g (px im))).
Proof.
  unfold is_u32. intros W Hw Hh Hd HF. unfold pixel_loop.
  destruct (Z.eq_dec (iw im) 0) as [E0|N0].
  - destruct im as [w h l]. cbn [iw ih px] in *. subst w. destruct W as (_ & _ & Wl). cbn [iw ih px] in *.
    assert (l = []) by (unfold zlen in Wl; destruct l; [auto|cbn [length] in Wl; lia]). subst l.
    replace (Z.to_nat (0 * h) + 1)%nat with 1%nat by lia. cbn [for_pixels]. unfold gpix_next. cbn [fst snd iw ih px].
    change (0 <=? 0) with true. cbn [u32_add]. unfold u32_add. change (0 + 1 <=? u32_max) with true. cbn [bind].
    replace (h <=? 0 + 1) with true by lia. cbn [bind]. unfold new_img. replace (Z.to_nat (0 * h)) with 0%nat by lia. reflexivity.
  - apply (for_pixels_loop f g im (Z.to_nat (iw im * ih im)) W) with (i := 0); try lia; auto.
    + apply wf_new_img; lia.
Qed.
Lemma map_res_ok {A B} (f : A -> res B) (g : A -> B) l : (forall a, In a l -> f a = Ok (g a)) -> map_res f l = Ok (map g l).
Proof.
  induction l as [|a l IH]; intros H; cbn [map_res map]; [reflexivity|].
  rewrite H by (left; auto). cbn [bind]. rewrite IH by (intros; apply H; right; auto). reflexivity.
Qed.
