From Flocq Require Import IEEE754.BinarySingleNaN.
From Verif Require Import Base BaseLemmas GenImage GenImageProofs Affine AffineProofs Orient OrientProofs Buffer ColorType Color ColorProofs Float ColorF ColorFProofs ColorFProps Dyn DynSpec.
Local Open Scope Z_scope.

Lemma from_color_g_int S T ks kd p : from_color S T ks kd p = from_color_g (from_primitive S T) (smax T) (rgb_to_luma S) ks kd p.
Proof. destruct ks, kd; reflexivity. Qed.

(** pixels of an image by position and by list *)
Lemma pixel_In {P} (im : img P) x y p : pixel im x y = Some p -> In p (px im).
Proof. unfold pixel. destruct (inb im x y); [|discriminate]. apply zget_In. Qed.
Lemma In_pixel {P} (im : img P) p : wf im -> In p (px im) -> exists x y, pixel im x y = Some p /\ 0 <= x < iw im /\ 0 <= y < ih im.
Proof.
  intros (Hw & Hh & Hl) H. apply In_nth_error in H as (n & Hn).
  assert (L : (n < length (px im))%nat) by (apply nth_error_Some; congruence).
  set (i := Z.of_nat n). assert (I : 0 <= i < iw im * ih im) by (unfold zlen in Hl; unfold i; lia).
  assert (W : 0 < iw im) by nia.
  exists (i mod iw im), (i / iw im).
  pose proof (Z.mod_pos_bound i (iw im) W). pose proof (Z.div_mod i (iw im) ltac:(lia)) as DM.
  assert (0 <= i / iw im) by (apply Z.div_pos; lia).
  assert (i / iw im < ih im) by (apply Z.div_lt_upper_bound; lia).
  split; [|split; lia]. unfold pixel. replace (inb im (i mod iw im) (i / iw im)) with true by (symmetry; apply inb_iff; lia).
  unfold zget.
  match goal with |- (if ?a <? 0 then _ else _) = _ => replace a with i by lia end.
  destruct (Z.ltb_spec i 0); [lia|]. unfold i. rewrite Nat2Z.id. exact Hn.
Qed.
Lemma buffer_pixel {P} (Q : P -> Prop) (im : img P) x y p : buffer_of Q im -> pixel im x y = Some p -> Q p.
Proof. intros (_ & _ & _ & F) H. rewrite Forall_forall in F. apply F. eapply pixel_In; eauto. Qed.
Lemma buffer_intro {P} (Q : P -> Prop) (im : img P) : wf im -> is_u32 (iw im) -> is_u32 (ih im) ->
  (forall x y p, 0 <= x < iw im -> 0 <= y < ih im -> pixel im x y = Some p -> Q p) -> buffer_of Q im.
Proof.
  intros W Hw Hh H. split; [exact W|]. split; [exact Hw|]. split; [exact Hh|]. apply Forall_forall. intros p Hp.
  destruct (In_pixel im p W Hp) as (x & y & E & X & Y). eauto.
Qed.

Definition dims_of (c : contents) : Z * Z := match c with Ints _ _ im => (iw im, ih im) | Floats _ im => (iw im, ih im) end.
Definition color_of (c : contents) : ctype :=
  match c with
  | Ints U8 Luma _ => CL8 | Ints U8 LumaA _ => CLa8 | Ints U8 Rgb _ => CRgb8 | Ints U8 Rgba _ => CRgba8
  | Ints U16 Luma _ => CL16 | Ints U16 LumaA _ => CLa16 | Ints U16 Rgb _ => CRgb16 | Ints U16 Rgba _ => CRgba16
  | Floats Rgba _ => CRgba32F | Floats _ _ => CRgb32F
  end.
Definition close (c : contents) : dyn :=
  match c with
  | Ints U8 Luma p => ImageLuma8 p | Ints U8 LumaA p => ImageLumaA8 p | Ints U8 Rgb p => ImageRgb8 p | Ints U8 Rgba p => ImageRgba8 p
  | Ints U16 Luma p => ImageLuma16 p | Ints U16 LumaA p => ImageLumaA16 p | Ints U16 Rgb p => ImageRgb16 p | Ints U16 Rgba p => ImageRgba16 p
  | Floats Rgba p => ImageRgba32F p | Floats _ p => ImageRgb32F p
  end.
Lemma dyn_map_open (f : forall P, P -> img P -> res (img P)) d :
  match open d with
  | Ints t k im => dyn_map f d = (q <- f _ (repeat 0 (Z.to_nat (nch k))) im ;; Ok (close (Ints t k q))) /\ d = close (Ints t k im) /\ (forall q, open (close (Ints t k q)) = Ints t k q)
  | Floats k im => dyn_map f d = (q <- f _ (repeat f32_zero (Z.to_nat (nch k))) im ;; Ok (close (Floats k q))) /\ d = close (Floats k im) /\ (forall q, open (close (Floats k q)) = Floats k q)
  end.
Proof. destruct d; (split; [reflexivity|split; [reflexivity|intros; reflexivity]]). Qed.
Lemma dyn_dims d : (dyn_width d, dyn_height d) = dims_of (open d).
Proof. destruct d; reflexivity. Qed.
Lemma dyn_color_open d : dyn_color d = color_of (open d).
Proof. destruct d; reflexivity. Qed.

Lemma dyn_map_ok (f : forall P, P -> img P -> res (img P)) d w h src : valid d -> is_u32 w -> is_u32 h ->
  (forall P (zero : P) im, wf im -> is_u32 (iw im) -> is_u32 (ih im) -> iw im = dyn_width d -> ih im = dyn_height d ->
     exists out, f P zero im = Ok out /\ wf out /\ iw out = w /\ ih out = h /\
       forall X Y, 0 <= X < w -> 0 <= Y < h -> pixel out X Y = pixel im (fst (src X Y)) (snd (src X Y))) ->
  exists g, dyn_map f d = Ok g /\ rearranged d g w h src.
Proof.
  intros V Hw Hh HF. pose proof (dyn_map_open f d) as M. pose proof (dyn_dims d) as D. unfold rearranged, valid, stored in *.
  destruct (open d) as [t k im|k im] eqn:OP; destruct M as (M & E & C); cbn [dims_of] in D; injection D as D1 D2;
  destruct V as (Wf & Uw & Uh & F);
  match goal with |- context [dyn_map f d] => rewrite M end.
  - destruct (HF _ (repeat 0 (Z.to_nat (nch k))) im Wf Uw Uh (eq_sym D1) (eq_sym D2)) as (out & Ho & Wo & Ow & Oh & Px).
    exists (close (Ints t k out)). rewrite Ho. cbn [bind]. split; [reflexivity|]. rewrite C.
    pose proof (dyn_dims (close (Ints t k out))) as D'. rewrite C in D'. cbn [dims_of] in D'. assert (D1' := f_equal fst D'). assert (D2' := f_equal snd D'). cbn [fst snd] in D1', D2'. clear D'.
    split; [|split; [|split; [congruence|split; [congruence|]]]].
    + apply buffer_intro; [exact Wo|congruence|congruence|]. intros x y p X Y Hp. rewrite Px in Hp by lia. apply pixel_In in Hp. rewrite Forall_forall in F. auto.
    + rewrite !dyn_color_open, C, OP. destruct t, k; reflexivity.
    + intros X Y HX HY. rewrite Px by assumption. reflexivity.
  - destruct (HF _ (repeat f32_zero (Z.to_nat (nch k))) im Wf Uw Uh (eq_sym D1) (eq_sym D2)) as (out & Ho & Wo & Ow & Oh & Px).
    exists (close (Floats k out)). rewrite Ho. cbn [bind]. split; [reflexivity|]. rewrite C.
    pose proof (dyn_dims (close (Floats k out))) as D'. rewrite C in D'. cbn [dims_of] in D'. assert (D1' := f_equal fst D'). assert (D2' := f_equal snd D'). cbn [fst snd] in D1', D2'. clear D'.
    split; [|split; [|split; [congruence|split; [congruence|]]]].
    + apply buffer_intro; [exact Wo|congruence|congruence|]. intros x y p X Y Hp. rewrite Px in Hp by lia. apply pixel_In in Hp. rewrite Forall_forall in F. auto.
    + rewrite !dyn_color_open, C, OP. destruct k; reflexivity.
    + intros X Y HX HY. rewrite Px by assumption. reflexivity.
Qed.
Lemma valid_dims d : valid d -> is_u32 (dyn_width d) /\ is_u32 (dyn_height d).
Proof.
  intros V. pose proof (dyn_dims d) as D. unfold valid in V. destruct (open d); injection D as -> ->; destruct V as (_ & A & B & _); auto.
Qed.

(** *** conversions *)
Lemma map_res_total {A B} (f : A -> res B) (R : A -> B -> Prop) l : (forall a, In a l -> exists b, f a = Ok b /\ R a b) ->
  exists r, map_res f l = Ok r /\ Forall2 (fun a b => f a = Ok b /\ R a b) l r.
Proof.
  induction l as [|a l IH]; intros H; [exists []; split; [reflexivity|constructor]|].
  destruct (H a (or_introl eq_refl)) as (b & E & RB). destruct IH as (r & E2 & F2); [intros; apply H; right; assumption|].
  exists (b :: r). cbn [map_res]. rewrite E. cbn [bind]. rewrite E2. cbn [bind]. split; [reflexivity|]. constructor; auto.
Qed.
Lemma Forall2_zget_some {A B} (R : A -> B -> Prop) l r i a : Forall2 R l r -> zget l i = Some a -> exists b, zget r i = Some b /\ R a b.
Proof.
  unfold zget. destruct (i <? 0); [discriminate|]. intros F. revert i. generalize (Z.to_nat).
  intros g i. generalize (g i). intros n. revert n. induction F as [|x y l r HR F IH]; intros n; [destruct n; discriminate|].
  destruct n as [|n]; cbn [nth_error]; [intros E; injection E as <-; eauto|apply IH].
Qed.
Lemma F2_length {A B} (R : A -> B -> Prop) l r : Forall2 R l r -> length l = length r.
Proof. induction 1; cbn; congruence. Qed.
Lemma convert_with_ok {A B} (f : A -> res B) (Q : A -> Prop) (Q' : B -> Prop) im : buffer_of Q im ->
  (forall p, Q p -> exists q, f p = Ok q /\ Q' q) ->
  exists im', convert_with f im = Ok im' /\ buffer_of Q' im' /\ iw im' = iw im /\ ih im' = ih im /\
    forall x y p, pixel im x y = Some p -> exists q, f p = Ok q /\ pixel im' x y = Some q.
Proof.
  intros ((W1 & W2 & WL) & Uw & Uh & F) H. rewrite Forall_forall in F.
  destruct (map_res_total f (fun _ q => Q' q) (px im)) as (r & E & F2); [intros p Hp; apply H, F, Hp|].
  exists (mkImg (iw im) (ih im) r). unfold convert_with. rewrite E. cbn [bind].
  assert (L : zlen r = zlen (px im)) by (unfold zlen; f_equal; symmetry; eapply F2_length; eauto).
  split; [reflexivity|]. split; [|split; [reflexivity|split; [reflexivity|]]].
  - split; [split; [exact W1|split; [exact W2|cbn [iw ih px]; congruence]]|]. split; [exact Uw|]. split; [exact Uh|]. cbn [px].
    clear - F2. induction F2 as [|a b l r (_ & HQ) F2 IH]; constructor; auto.
  - intros x y p. unfold pixel. change (inb (mkImg (iw im) (ih im) r) x y) with (inb im x y). destruct (inb im x y); [|discriminate].
    cbn [px iw]. intros Hp. destruct (Forall2_zget_some _ _ _ _ _ F2 Hp) as (q & G & Eq & _). eauto.
Qed.
Lemma pixel_cases_f k p : is_pixel_f k p ->
  match k with
  | Luma => exists l, p = [l] | LumaA => exists l a, p = [l; a]
  | Rgb => exists r g b, p = [r; g; b] | Rgba => exists r g b a, p = [r; g; b; a]
  end.
Proof.
  unfold is_pixel_f, zlen. intros Hl.
  destruct k; cbn [nch] in Hl; destruct p as [|a [|b [|c [|d [|]]]]]; cbn [length] in Hl; try lia; eauto 10.
Qed.
Lemma f32_to_int_total t x : exists r, f32_to_int t x = Ok r /\ is_sample t r.
Proof. destruct (f32_to_int_ok t x) as (E & H). cbv zeta in *. eexists; split; [exact E|]. apply H. Qed.
Lemma luma_f_ok r g b rest : exists l, rgb_to_luma_f (r :: g :: b :: rest) = Ok l.
Proof. eexists; reflexivity. Qed.
Ltac destr := repeat match goal with H : exists _, _ |- _ => destruct H | H : _ /\ _ |- _ => destruct H end; subst.
Lemma from_color_fi_ok T ks kd p : is_pixel_f ks p -> exists q, from_color_fi T ks kd p = Ok q /\ is_pixel T kd q.
Proof.
  intros H. apply pixel_cases_f in H. pose proof (smax_sample T). unfold from_color_fi.
  destruct ks, kd; destr; cbn [from_color_g];
  repeat match goal with
  | |- context [rgb_to_luma_f (?r :: ?g :: ?b :: ?rest)] =>
      let X := fresh "X" in destruct (luma_f_ok r g b rest) as [? X]; rewrite X; clear X; cbn [bind]
  | |- context [f32_to_int T ?v] =>
      let X := fresh "X" in let Y := fresh "Y" in destruct (f32_to_int_total T v) as (? & X & Y); rewrite X; clear X; cbn [bind]
  end;
  (eexists; split; [reflexivity|]; split; [reflexivity|repeat (apply Forall_cons; [assumption|]); apply Forall_nil]).
Qed.
Lemma from_color_ff_ok ks kd p : is_pixel_f ks p -> exists q, from_color_ff ks kd p = Ok q /\ is_pixel_f kd q.
Proof.
  intros H. apply pixel_cases_f in H. unfold from_color_ff.
  destruct ks, kd; destr; cbn [from_color_g];
  repeat match goal with
  | |- context [rgb_to_luma_f (?r :: ?g :: ?b :: ?rest)] =>
      let X := fresh "X" in destruct (luma_f_ok r g b rest) as [? X]; rewrite X; clear X; cbn [bind]
  end; cbn [bind]; (eexists; split; [reflexivity|reflexivity]).
Qed.
Lemma from_color_if_ok S ks kd p : is_pixel S ks p -> exists q, from_color_if S ks kd p = Ok q /\ is_pixel_f kd q.
Proof.
  intros H. apply pixel_cases in H. unfold from_color_if.
  destruct ks, kd; destr; cbn [from_color_g];
  repeat match goal with
  | |- context [rgb_to_luma S (?r :: ?g :: ?b :: ?rest)] =>
      let X := fresh "X" in let Y := fresh "Y" in destruct (rgb_to_luma_ok S r g b rest) as [X Y]; [assumption..|]; rewrite X; clear X; cbn [bind]
  end; cbn [bind]; (eexists; split; [reflexivity|reflexivity]).
Qed.
Lemma from_color_int S T ks kd p : is_pixel S ks p -> exists q, from_color S T ks kd p = Ok q /\ is_pixel T kd q.
Proof. intros H. destruct (from_color_ok S T ks kd p H) as (q & E & Hq & _). eauto. Qed.
(** which pixel conversion to_int and to_f32img use *)
Definition px_to_int (T : sty) (kd : kind) (d : dyn) (p : list Z + list f32) : res (list Z) :=
  match open d, p with
  | Ints t k _, inl p => from_color t T k kd p | Floats k _, inr p => from_color_fi T k kd p | _, _ => Panic
  end.
Definition px_to_f (kd : kind) (d : dyn) (p : list Z + list f32) : res (list f32) :=
  match open d, p with
  | Ints t k _, inl p => from_color_if t k kd p | Floats k _, inr p => from_color_ff k kd p | _, _ => Panic
  end.
Lemma to_int_open T kd d : to_int T kd d = match open d with Ints t k im => convert_with (from_color t T k kd) im | Floats k im => convert_with (from_color_fi T k kd) im end.
Proof. destruct d; reflexivity. Qed.
Lemma to_f_open kd d : to_f32img kd d = match open d with Ints t k im => convert_with (from_color_if t k kd) im | Floats k im => convert_with (from_color_ff k kd) im end.
Proof. destruct d; reflexivity. Qed.
Lemma to_int_ok T kd d : valid d ->
  exists im', to_int T kd d = Ok im' /\ buffer_of (is_pixel T kd) im' /\ iw im' = dyn_width d /\ ih im' = dyn_height d /\
    forall x y p, stored d x y = Some p -> exists q, px_to_int T kd d p = Ok q /\ pixel im' x y = Some q.
Proof.
  intros V. rewrite to_int_open. pose proof (dyn_dims d) as D. unfold valid, stored, px_to_int in *. destruct (open d) as [t k im|k im]; injection D as -> ->.
  - destruct (convert_with_ok (from_color t T k kd) _ (is_pixel T kd) im V (fun p H => from_color_int t T k kd p H)) as (im' & E & B & Ew & Eh & P).
    exists im'. split; [exact E|]. split; [exact B|]. split; [exact Ew|]. split; [exact Eh|]. intros x y p Hp.
    destruct (pixel im x y) as [q|] eqn:PX; [|discriminate]. injection Hp as <-. apply P, PX.
  - destruct (convert_with_ok (from_color_fi T k kd) _ (is_pixel T kd) im V (fun p H => from_color_fi_ok T k kd p H)) as (im' & E & B & Ew & Eh & P).
    exists im'. split; [exact E|]. split; [exact B|]. split; [exact Ew|]. split; [exact Eh|]. intros x y p Hp.
    destruct (pixel im x y) as [q|] eqn:PX; [|discriminate]. injection Hp as <-. apply P, PX.
Qed.
Lemma to_f_ok kd d : valid d ->
  exists im', to_f32img kd d = Ok im' /\ buffer_of (is_pixel_f kd) im' /\ iw im' = dyn_width d /\ ih im' = dyn_height d /\
    forall x y p, stored d x y = Some p -> exists q, px_to_f kd d p = Ok q /\ pixel im' x y = Some q.
Proof.
  intros V. rewrite to_f_open. pose proof (dyn_dims d) as D. unfold valid, stored, px_to_f in *. destruct (open d) as [t k im|k im]; injection D as -> ->.
  - destruct (convert_with_ok (from_color_if t k kd) _ (is_pixel_f kd) im V (fun p H => from_color_if_ok t k kd p H)) as (im' & E & B & Ew & Eh & P).
    exists im'. split; [exact E|]. split; [exact B|]. split; [exact Ew|]. split; [exact Eh|]. intros x y p Hp.
    destruct (pixel im x y) as [q|] eqn:PX; [|discriminate]. injection Hp as <-. apply P, PX.
  - destruct (convert_with_ok (from_color_ff k kd) _ (is_pixel_f kd) im V (fun p H => from_color_ff_ok k kd p H)) as (im' & E & B & Ew & Eh & P).
    exists im'. split; [exact E|]. split; [exact B|]. split; [exact Ew|]. split; [exact Eh|]. intros x y p Hp.
    destruct (pixel im x y) as [q|] eqn:PX; [|discriminate]. injection Hp as <-. apply P, PX.
Qed.
(** converting to the type an image already has changes nothing *)
Lemma same_int t k p : is_pixel t k p -> from_color t t k k p = Ok p.
Proof.
  intros H. apply pixel_cases in H.
  destruct k; destr; cbn [from_color]; replace (from_primitive t t) with (fun v : Z => Ok v) by (destruct t; reflexivity); reflexivity.
Qed.
Lemma same_f k p : is_pixel_f k p -> from_color_ff k k p = Ok p.
Proof. intros H. apply pixel_cases_f in H. destruct k; destr; reflexivity. Qed.
Lemma convert_id {A} (f : A -> res A) (Q : A -> Prop) im : buffer_of Q im -> (forall p, Q p -> f p = Ok p) -> convert_with f im = Ok im.
Proof.
  intros (_ & _ & _ & F) H. unfold convert_with. replace (map_res f (px im)) with (Ok (px im) : res (list A)); [destruct im; reflexivity|].
  symmetry. induction F as [|a l HQ F IH]; [reflexivity|]. cbn [map_res]. rewrite (H a HQ). cbn [bind]. rewrite IH. reflexivity.
Qed.
(** get_pixel is the RGBA8 conversion of the pixel *)
Lemma get_px_int t k p : is_pixel t k p -> (q <- from_color t t k Rgba p ;; from_color t U8 Rgba Rgba q) = from_color t U8 k Rgba p.
Proof.
  intros H. apply pixel_cases in H.
  destruct k; destr; cbn [from_color]; replace (from_primitive t t) with (fun v : Z => Ok v) by (destruct t; reflexivity); cbn [bind];
  rewrite ?(proj1 (from_primitive_ok t U8 _ (smax_sample t))), ?(proj2 (conv_bounds t U8)); try reflexivity;
  destr; repeat match goal with HS : is_sample t ?v |- context [from_primitive t U8 ?v] =>
     rewrite (proj1 (from_primitive_ok t U8 v HS)) end; reflexivity.
Qed.
Lemma one_to_u8 : f32_to_int U8 f32_one = Ok 255.
Proof. reflexivity. Qed.
Lemma get_px_f k p : is_pixel_f k p -> (q <- from_color_ff k Rgba p ;; from_color_fi U8 Rgba Rgba q) = from_color_fi U8 k Rgba p.
Proof.
  intros H. apply pixel_cases_f in H. unfold from_color_ff, from_color_fi.
  destruct k; destr; cbn [from_color_g bind]; rewrite ?one_to_u8; destr;
  repeat match goal with |- context [f32_to_int U8 ?v] =>
      let X := fresh "X" in destruct (f32_to_int_total U8 v) as (? & X & _); rewrite X; clear X; cbn [bind] end; reflexivity.
Qed.
Lemma dyn_get_open d x y : dyn_get d x y = match open d with Ints t k im => get_int t k im x y | Floats k im => get_f k im x y end.
Proof. destruct d; reflexivity. Qed.
Lemma dyn_get_ok d x y p : valid d -> stored d x y = Some p -> dyn_get d x y = px_to_int U8 Rgba d p.
Proof.
  intros V HS. rewrite dyn_get_open. unfold valid, stored, px_to_int in *. destruct (open d) as [t k im|k im];
  destruct (pixel im x y) as [q|] eqn:PX; try discriminate; injection HS as <-; pose proof (buffer_pixel _ _ _ _ _ V PX) as HQ.
  - unfold get_int. rewrite (proj2 (get_pixel_ok im x y q) PX). cbn [bind]. apply get_px_int, HQ.
  - unfold get_f. rewrite (proj2 (get_pixel_ok im x y q) PX). cbn [bind]. apply get_px_f, HQ.
Qed.
Lemma stored_in d x y : valid d -> 0 <= x < dyn_width d -> 0 <= y < dyn_height d -> exists p, stored d x y = Some p.
Proof.
  intros V X Y. pose proof (dyn_dims d) as D. unfold valid, stored in *. destruct (open d) as [t k im|k im]; injection D as D1 D2;
  destruct V as (W & _); destruct (pixel_in im x y W ltac:(lia) ltac:(lia)) as (p & ->); eexists; reflexivity.
Qed.
Lemma stored_out d x y : ~ (0 <= x < dyn_width d /\ 0 <= y < dyn_height d) -> stored d x y = None /\ dyn_get d x y = Panic.
Proof.
  intros H. pose proof (dyn_dims d) as D. rewrite dyn_get_open. unfold stored. destruct (open d) as [t k im|k im]; injection D as D1 D2; rewrite D1, D2 in H;
  (split; [rewrite (pixel_out im x y H); reflexivity|]); unfold get_int, get_f, get_pixel; apply inb_false_iff in H; try rewrite H;
  destruct (pixel im x y) eqn:PX; try reflexivity; apply pixel_some in PX; apply inb_false_iff in H; tauto.
Qed.

(** *** put_pixel *)
Definition px_put (c : contents) (p : list Z) : res (list Z + list f32) :=
  match c with
  | Ints U8 Rgba _ => Ok (inl p)
  | Ints U8 k _ => q <- from_color U8 U8 Rgba k p ;; Ok (inl q)
  | Ints U16 Rgba _ => q <- from_color U8 U16 Rgba Rgba p ;; Ok (inl q)
  | Ints U16 k _ => q <- from_color U8 U8 Rgba k p ;; q <- from_color U8 U16 k k q ;; Ok (inl q)
  | Floats Rgba _ => q <- from_color_if U8 Rgba Rgba p ;; Ok (inr q)
  | Floats _ _ => q <- to_rgb p ;; q <- from_color_if U8 Rgb Rgb q ;; Ok (inr q)
  end.
Definition put_contents (c : contents) (x y : Z) (q : list Z + list f32) : res dyn :=
  match c, q with
  | Ints t k im, inl q => im' <- put_pixel im x y q ;; Ok (close (Ints t k im'))
  | Floats k im, inr q => im' <- put_pixel im x y q ;; Ok (close (Floats k im'))
  | _, _ => Panic
  end.
Lemma bind_bind {A B C} (m : res A) (f : A -> res B) (g : B -> res C) : bind (bind m f) g = bind m (fun a => bind (f a) g).
Proof. destruct m; reflexivity. Qed.
Lemma dyn_put_open d x y p : dyn_put d x y p = (q <- px_put (open d) p ;; put_contents (open d) x y q).
Proof.
  destruct d; cbn [open px_put dyn_put put_contents close]; unfold to_luma, to_luma_alpha, to_rgb; rewrite ?bind_bind; try reflexivity.
  all: destruct (from_color _ _ _ _ p); cbn [bind]; [|reflexivity..]; rewrite ?bind_bind; reflexivity.
Qed.
Lemma u8_back t v : is_u8 v -> exists w, from_primitive U8 t v = Ok w /\ is_sample t w /\ from_primitive t U8 w = Ok v.
Proof. intros H. destruct t; [exists v; split; [reflexivity|split; [exact H|reflexivity]]|apply depth_roundtrip, H]. Qed.
Lemma u8_back_f v : is_u8 v -> f32_to_int U8 (int_to_f32 U8 v) = Ok v.
Proof. intros H. apply C21_int_f32_roundtrip, H. Qed.

Lemma luma_grey_eq r g b : luma r g b = grey r g b. Proof. reflexivity. Qed.
Lemma rgba_cases p : is_pixel U8 Rgba p -> exists r g b a, p = [r; g; b; a] /\ is_u8 r /\ is_u8 g /\ is_u8 b /\ is_u8 a.
Proof. intros H. apply pixel_cases in H. exact H. Qed.
(** storing an RGBA8 pixel and reading it back *)
Lemma put_get_px t k im p : is_pixel U8 Rgba p -> exists q, px_put (Ints t k im) p = Ok (inl q) /\ is_pixel t k q /\ from_color t U8 k Rgba q = Ok (kept k p).
Proof.
  intros H. destruct (rgba_cases p H) as (r & g & b & a & -> & Hr & Hg & Hb & Ha).
  destruct (rgb_to_luma_ok U8 r g b [a]) as [LU LB]; [assumption..|]. rewrite luma_grey_eq in LU, LB.
  assert (IDS : from_primitive U8 U8 = fun v : Z => Ok v) by reflexivity.
  destruct (u8_back t r Hr) as (r' & Er & Sr & Br), (u8_back t g Hg) as (g' & Eg & Sg & Bg), (u8_back t b Hb) as (b' & Eb & Sb & Bb), (u8_back t a Ha) as (a' & Ea & Sa & Ba), (u8_back t _ LB) as (l' & El & Sl & Bl).
  assert (MX : forall T, smax T = match T with U8 => 255 | U16 => 65535 end) by (intros []; reflexivity).
  destruct t.
  - injection Er as <-; injection Eg as <-; injection Eb as <-; injection Ea as <-; injection El as <-.
    destruct k; unfold px_put; cbn [from_color]; rewrite ?LU, ?IDS; cbn [bind]; (eexists; split; [reflexivity|]; split; [split; [reflexivity|repeat (apply Forall_cons; [assumption|]); apply Forall_nil]|]);
    cbn [from_color]; rewrite ?IDS; reflexivity.
  - destruct k; unfold px_put; cbn [from_color]; rewrite ?LU, ?IDS; cbn [bind]; cbn [from_color];
    rewrite ?Er, ?Eg, ?Eb, ?Ea, ?El; cbn [bind]; rewrite ?Er, ?Eg, ?Eb, ?Ea, ?El; cbn [bind];
    (eexists; split; [reflexivity|]; split; [split; [reflexivity|repeat (apply Forall_cons; [assumption|]); apply Forall_nil]|]);
    cbn [from_color]; rewrite ?Br, ?Bg, ?Bb, ?Ba, ?Bl; reflexivity.
Qed.
Lemma put_get_px_f k im p : k = Rgb \/ k = Rgba -> is_pixel U8 Rgba p -> exists q, px_put (Floats k im) p = Ok (inr q) /\ is_pixel_f k q /\ from_color_fi U8 k Rgba q = Ok (kept k p).
Proof.
  intros K H. destruct (rgba_cases p H) as (r & g & b & a & -> & Hr & Hg & Hb & Ha).
  pose proof (u8_back_f r Hr) as Br. pose proof (u8_back_f g Hg) as Bg. pose proof (u8_back_f b Hb) as Bb. pose proof (u8_back_f a Ha) as Ba.
  assert (IDS : from_primitive U8 U8 = fun v : Z => Ok v) by reflexivity.
  destruct K as [->| ->]; unfold px_put, to_rgb, from_color_if, from_color_fi; cbn [from_color]; rewrite ?IDS; cbn [bind from_color_g];
  (eexists; split; [reflexivity|]; split; [reflexivity|]); cbn [from_color_g]; rewrite ?Br, ?Bg, ?Bb, ?Ba; reflexivity.
Qed.
Lemma open_float_kind d k im : open d = Floats k im -> k = Rgb \/ k = Rgba.
Proof. destruct d; cbn [open]; intros E; try discriminate; injection E as <- _; auto. Qed.
Lemma open_close d c : (forall k im, c = Floats k im -> k = Rgb \/ k = Rgba) -> d = close c -> open d = c.
Proof. intros H ->. destruct c as [t k im|k im]; [destruct t, k; reflexivity|]. destruct (H k im eq_refl) as [->| ->]; reflexivity. Qed.
Lemma kind_color d : kind_of (dyn_color d) = match open d with Ints _ k _ => k | Floats k _ => k end.
Proof. destruct d; reflexivity. Qed.

Lemma dyn_put_ok d x y p : valid d -> 0 <= x < dyn_width d -> 0 <= y < dyn_height d -> is_pixel U8 Rgba p ->
  exists g, dyn_put d x y p = Ok g /\ valid g /\ dyn_color g = dyn_color d /\ dyn_width g = dyn_width d /\ dyn_height g = dyn_height d /\
    (forall x' y', (x', y') <> (x, y) -> stored g x' y' = stored d x' y') /\ dyn_get g x y = Ok (kept (kind_of (dyn_color d)) p).
Proof.
  intros V X Y HP. rewrite dyn_put_open, kind_color. pose proof (dyn_dims d) as D. pose proof (dyn_color_open d) as CO. pose proof (open_float_kind d) as FK.
  unfold valid in V. unfold stored at 2. destruct (open d) as [t k im|k im]; cbn [dims_of] in D; assert (D1 := f_equal fst D); assert (D2 := f_equal snd D); cbn [fst snd] in D1, D2; clear D.
  - destruct (put_get_px t k im p HP) as (q & -> & HQ & EG). cbn [bind put_contents].
    destruct (put_pixel_spec im x y q (proj1 V) ltac:(lia) ltac:(lia)) as (im' & -> & W & Ew & Eh & PX). cbn [bind].
    set (g := close (Ints t k im')). assert (OG : open g = Ints t k im') by (destruct t, k; reflexivity).
    pose proof (dyn_dims g) as D. rewrite OG in D. cbn [dims_of] in D. assert (G1 := f_equal fst D). assert (G2 := f_equal snd D). cbn [fst snd] in G1, G2. clear D.
    assert (VG : valid g). { unfold valid. rewrite OG. destruct V as (_ & U1 & U2 & F). apply buffer_intro; [exact W|congruence|congruence|].
      intros x' y' r _ _ Hr. rewrite PX in Hr. destruct ((x' =? x) && (y' =? y)); [injection Hr as <-; exact HQ|]. apply pixel_In in Hr. rewrite Forall_forall in F. auto. }
    exists g. split; [reflexivity|]. split; [exact VG|]. split; [rewrite dyn_color_open, OG, CO; destruct t, k; reflexivity|]. split; [congruence|]. split; [congruence|]. split.
    + intros x' y' N. unfold stored. rewrite OG, PX. destruct (Z.eqb_spec x' x), (Z.eqb_spec y' y); cbn [andb]; try reflexivity. congruence.
    + assert (SG : stored g x y = Some (inl q)) by (unfold stored; rewrite OG, PX, !Z.eqb_refl; reflexivity).
      rewrite (dyn_get_ok g x y _ VG SG). unfold px_to_int. rewrite OG. exact EG.
  - destruct (put_get_px_f k im p (FK k im eq_refl) HP) as (q & -> & HQ & EG). cbn [bind put_contents].
    destruct (put_pixel_spec im x y q (proj1 V) ltac:(lia) ltac:(lia)) as (im' & -> & W & Ew & Eh & PX). cbn [bind].
    set (g := close (Floats k im')). assert (OG : open g = Floats k im') by (apply open_close; [intros k' im'' E; injection E as <- _; eauto|reflexivity]).
    pose proof (dyn_dims g) as D. rewrite OG in D. cbn [dims_of] in D. assert (G1 := f_equal fst D). assert (G2 := f_equal snd D). cbn [fst snd] in G1, G2. clear D.
    assert (VG : valid g). { unfold valid. rewrite OG. destruct V as (_ & U1 & U2 & F). apply buffer_intro; [exact W|congruence|congruence|].
      intros x' y' r _ _ Hr. rewrite PX in Hr. destruct ((x' =? x) && (y' =? y)); [injection Hr as <-; exact HQ|]. apply pixel_In in Hr. rewrite Forall_forall in F. auto. }
    exists g. split; [reflexivity|]. split; [exact VG|]. split; [rewrite dyn_color_open, OG, CO; destruct k; reflexivity|]. split; [congruence|]. split; [congruence|]. split.
    + intros x' y' N. unfold stored. rewrite OG, PX. destruct (Z.eqb_spec x' x), (Z.eqb_spec y' y); cbn [andb]; try reflexivity. congruence.
    + assert (SG : stored g x y = Some (inr q)) by (unfold stored; rewrite OG, PX, !Z.eqb_refl; reflexivity).
      rewrite (dyn_get_ok g x y _ VG SG). unfold px_to_int. rewrite OG. exact EG.
Qed.
Lemma put_pixel_out {P} (im : img P) x y q : ~ (0 <= x < iw im /\ 0 <= y < ih im) -> put_pixel im x y q = Panic.
Proof. intros H. apply inb_false_iff in H. unfold put_pixel. rewrite H. reflexivity. Qed.
Lemma dyn_put_out d x y p : is_pixel U8 Rgba p -> ~ (0 <= x < dyn_width d /\ 0 <= y < dyn_height d) -> dyn_put d x y p = Panic.
Proof.
  intros HP H. rewrite dyn_put_open. pose proof (dyn_dims d) as D. pose proof (open_float_kind d) as FK. destruct (open d) as [t k im|k im]; cbn [dims_of] in D; assert (D1 := f_equal fst D); assert (D2 := f_equal snd D); cbn [fst snd] in D1, D2; rewrite D1, D2 in H.
  - destruct (put_get_px t k im p HP) as (q & -> & _). cbn [bind put_contents]. rewrite put_pixel_out by exact H. reflexivity.
  - destruct (put_get_px_f k im p (FK k im eq_refl) HP) as (q & -> & _). cbn [bind put_contents]. rewrite put_pixel_out by exact H. reflexivity.
Qed.

(** *** blend_pixel on the integer types *)
Lemma dyn_blend_open d x y p : match open d with
  | Ints t k im => dyn_blend d x y p = (q <- px_put (Ints t k im) p ;; match q with inl q => im' <- blend_at t k im x y q ;; Ok (close (Ints t k im')) | inr _ => Panic end)
  | Floats Rgb im => dyn_blend d x y p = (q <- px_put (Floats Rgb im) p ;; match q with inr q => _ <- get_pixel im x y ;; im' <- put_pixel im x y q ;; Ok (close (Floats Rgb im')) | inl _ => Panic end)
  | Floats _ _ => True
  end.
Proof.
  destruct d; cbn [open px_put dyn_blend close]; unfold to_luma, to_luma_alpha, to_rgb; rewrite ?bind_bind; try reflexivity; try exact I.
  all: destruct (from_color _ _ _ _ p); cbn [bind]; [|reflexivity..]; rewrite ?bind_bind; reflexivity.
Qed.
Lemma dyn_blend_ok d x y p t k im : valid d -> open d = Ints t k im -> 0 <= x < dyn_width d -> 0 <= y < dyn_height d -> is_pixel U8 Rgba p ->
  exists g old q r, dyn_blend d x y p = Ok g /\ valid g /\ dyn_color g = dyn_color d /\ dyn_width g = dyn_width d /\ dyn_height g = dyn_height d /\
    (forall x' y', (x', y') <> (x, y) -> stored g x' y' = stored d x' y') /\
    stored d x y = Some (inl old) /\ px_put (open d) p = Ok (inl q) /\ is_pixel t k old /\ is_pixel t k q /\
    blend (smax t) k old q = Ok r /\ stored g x y = Some (inl r).
Proof.
  intros V OP X Y HP. pose proof (dyn_blend_open d x y p) as BO. pose proof (dyn_dims d) as D. pose proof (dyn_color_open d) as CO. unfold valid, stored in *.
  rewrite OP in *. cbn [dims_of] in D; assert (D1 := f_equal fst D); assert (D2 := f_equal snd D); cbn [fst snd] in D1, D2; clear D.
  destruct (put_get_px t k im p HP) as (q & EQ & HQ & _). rewrite EQ in BO. cbn [bind] in BO.
  destruct (pixel_in im x y (proj1 V) ltac:(lia) ltac:(lia)) as (old & PO). pose proof (buffer_pixel _ _ _ _ _ V PO) as HO.
  destruct (C23_total t k old q HO HQ) as (r & ER & HR).
  unfold blend_at in BO. rewrite (proj2 (get_pixel_ok im x y old) PO) in BO. cbn [bind] in BO. rewrite ER in BO. cbn [bind] in BO.
  destruct (put_pixel_spec im x y r (proj1 V) ltac:(lia) ltac:(lia)) as (im' & EP & W & Ew & Eh & PX). rewrite EP in BO. cbn [bind] in BO.
  set (g := close (Ints t k im')) in *. assert (OG : open g = Ints t k im') by (destruct t, k; reflexivity).
  pose proof (dyn_dims g) as D. rewrite OG in D. cbn [dims_of] in D. assert (G1 := f_equal fst D). assert (G2 := f_equal snd D). cbn [fst snd] in G1, G2. clear D.
  exists g, old, q, r. split; [exact BO|]. rewrite OG. split.
  { destruct V as (_ & U1 & U2 & F). apply buffer_intro; [exact W|congruence|congruence|].
    intros x' y' s _ _ Hr. rewrite PX in Hr. destruct ((x' =? x) && (y' =? y)); [injection Hr as <-; exact HR|]. apply pixel_In in Hr. rewrite Forall_forall in F. auto. }
  split; [rewrite dyn_color_open, OG, CO; destruct t, k; reflexivity|]. split; [congruence|]. split; [congruence|]. split.
  - intros x' y' N. rewrite PX. destruct (Z.eqb_spec x' x), (Z.eqb_spec y' y); cbn [andb]; try reflexivity. congruence.
  - rewrite PO, PX, !Z.eqb_refl. cbn [andb option_map]. split; [reflexivity|]. split; [exact EQ|]. split; [exact HO|]. split; [exact HQ|]. split; [exact ER|reflexivity].
Qed.
(** *** grayscale *)
Lemma grey_px t k kd p : (kd = Luma \/ kd = LumaA) -> is_pixel t k p ->
  (l <- from_color t t k kd p ;; from_color t t kd kd l) = Ok (match kd with LumaA => [grey_of k p; alpha_of t k p] | _ => [grey_of k p] end) /\
  is_pixel t kd (match kd with LumaA => [grey_of k p; alpha_of t k p] | _ => [grey_of k p] end).
Proof.
  intros HK H. destruct (from_color_ok t t k kd p H) as (q & E & HQ & HA & HG & _). rewrite E. cbn [bind]. rewrite (same_int t kd q HQ).
  specialize (HG ltac:(destruct HK as [->| ->]; cbn; lia)).
  replace (conv t t (grey_of k p)) with (grey_of k p) in HG by (destruct t; reflexivity). replace (conv t t (alpha_of t k p)) with (alpha_of t k p) in HA by (destruct t; reflexivity).
  pose proof (pixel_cases t kd q HQ) as C. destruct HK as [->| ->]; destr; cbn [grey_of alpha_of nalpha Z.eqb] in *; subst; auto.
Qed.
Lemma grayscale_loop t k kd (f : img (list Z) -> res (img (list Z))) im : (kd = Luma \/ kd = LumaA) ->
  f im = pixel_loop (repeat 0 (Z.to_nat (nch kd))) (fun p => l <- from_color t t k kd p ;; from_color t t kd kd l) im ->
  buffer_of (is_pixel t k) im -> (0 < iw im \/ ih im <= 1) ->
  exists im', f im = Ok im' /\ buffer_of (is_pixel t kd) im' /\ iw im' = iw im /\ ih im' = ih im /\
    forall x y, pixel im' x y = option_map (fun p => match kd with LumaA => [grey_of k p; alpha_of t k p] | _ => [grey_of k p] end) (pixel im x y).
Proof.
  intros HK E (W & Uw & Uh & F) HD. rewrite Forall_forall in F.
  exists (mkImg (iw im) (ih im) (map (fun p => match kd with LumaA => [grey_of k p; alpha_of t k p] | _ => [grey_of k p] end) (px im))).
  split; [rewrite E; apply pixel_loop_map; auto; intros p Hp; apply (grey_px t k kd p HK), F, Hp|].
  split; [|split; [reflexivity|split; [reflexivity|intros; apply pixel_map]]].
  split; [apply wf_map, W|]. split; [exact Uw|]. split; [exact Uh|]. apply Forall_forall. intros q Hq. apply in_map_iff in Hq as (p & <- & Hp). apply (grey_px t k kd p HK), F, Hp.
Qed.
