From Coq Require Import Permutation.
From Coq Require FinFun.
From Verif Require Import Base BaseLemmas Affine.

Lemma copy2 {P} (src dst : img P) (tx ty sx sy : Z -> Z -> Z) :
  wf src -> wf dst ->
  (forall x y, 0 <= x < iw src -> 0 <= y < ih src ->
     0 <= tx x y < iw dst /\ 0 <= ty x y < ih dst) ->
  (forall x y, 0 <= x < iw src -> 0 <= y < ih src ->
     sx (tx x y) (ty x y) = x /\ sy (tx x y) (ty x y) = y) ->
  (forall x y, 0 <= x < iw dst -> 0 <= y < ih dst ->
     (0 <= sx x y < iw src /\ 0 <= sy x y < ih src) /\
     tx (sx x y) (sy x y) = x /\ ty (sx x y) (sy x y) = y) ->
  exists out, for2 (iw src) (ih src) (fun dst x y =>
      p <- get_pixel src x y ;; put_pixel dst (tx x y) (ty x y) p) dst = Ok out /\
    wf out /\ iw out = iw dst /\ ih out = ih dst /\
    forall x y, 0 <= x < iw dst -> 0 <= y < ih dst ->
      pixel out x y = pixel src (sx x y) (sy x y).
Proof.
  intros Hs Hd Ht Hinv Hsurj. rewrite for2_coords.
  destruct (copy_loop src fst snd (fun c => tx (fst c) (snd c)) (fun c => ty (fst c) (snd c))
              (coords (iw src) (ih src)) dst Hs Hd) as (out & E & Hw & Ew & Eh & _ & Hin).
  { intros [x y] H. apply In_coords in H. cbn; auto. }
  { intros [x y] H. apply In_coords in H as [Hx Hy]. cbn. apply Ht; auto. }
  exists out. split; [exact E|]. split; [exact Hw|]. split; [exact Ew|]. split; [exact Eh|].
  intros x y Hx Hy. destruct (Hsurj x y Hx Hy) as ((Hx' & Hy') & Ex & Ey).
  specialize (Hin (sx x y, sy x y)). cbn [fst snd] in Hin. rewrite Ex, Ey in Hin. apply Hin.
  - apply In_coords; auto.
  - intros [x2 y2] Hc E1 E2. apply In_coords in Hc as [Hx2 Hy2]. cbn [fst snd] in *.
    destruct (Hinv x2 y2 Hx2 Hy2) as [E3 E4]. rewrite E1, E2 in *. auto.
Qed.

Ltac dims_ok := match goal with |- context [if ?b then Err _ else _] =>
  replace b with false by (symmetry; lia) end.
Ltac dims_bad := match goal with |- context [if ?b then Err _ else _] =>
  replace b with true by (symmetry; lia) end.

Lemma rotate90_in_spec {P} (im dst : img P) : wf im -> wf dst ->
  (iw dst = ih im /\ ih dst = iw im ->
   exists out, rotate90_in im dst = Ok out /\ wf out /\ iw out = ih im /\ ih out = iw im /\
    forall x y, 0 <= x < ih im -> 0 <= y < iw im -> pixel out x y = pixel im y (ih im - 1 - x)) /\
  (~ (iw dst = ih im /\ ih dst = iw im) -> rotate90_in im dst = Err EParameter).
Proof.
  intros Hs Hd. unfold rotate90_in. split; [intros [E1 E2]|intros Hn].
  - dims_ok.
    destruct (copy2 im dst (fun x y => ih im - y - 1) (fun x y => x)
                (fun x y => y) (fun x y => ih im - 1 - x) Hs Hd) as (out & E & H1 & H2 & H3 & H4);
      try (intros; lia).
    exists out. split; [exact E|]. split; [exact H1|]. split; [lia|]. split; [lia|].
    intros x y Hx Hy. apply H4; lia.
  - dims_bad. reflexivity.
Qed.
Lemma rotate180_in_spec {P} (im dst : img P) : wf im -> wf dst ->
  (iw dst = iw im /\ ih dst = ih im ->
   exists out, rotate180_in im dst = Ok out /\ wf out /\ iw out = iw im /\ ih out = ih im /\
    forall x y, 0 <= x < iw im -> 0 <= y < ih im ->
      pixel out x y = pixel im (iw im - 1 - x) (ih im - 1 - y)) /\
  (~ (iw dst = iw im /\ ih dst = ih im) -> rotate180_in im dst = Err EParameter).
Proof.
  intros Hs Hd. unfold rotate180_in. split; [intros [E1 E2]|intros Hn].
  - dims_ok.
    destruct (copy2 im dst (fun x y => iw im - x - 1) (fun x y => ih im - y - 1)
                (fun x y => iw im - 1 - x) (fun x y => ih im - 1 - y) Hs Hd)
      as (out & E & H1 & H2 & H3 & H4); try (intros; lia).
    exists out. split; [exact E|]. split; [exact H1|]. split; [lia|]. split; [lia|].
    intros x y Hx Hy. apply H4; lia.
  - dims_bad. reflexivity.
Qed.
Lemma rotate270_in_spec {P} (im dst : img P) : wf im -> wf dst ->
  (iw dst = ih im /\ ih dst = iw im ->
   exists out, rotate270_in im dst = Ok out /\ wf out /\ iw out = ih im /\ ih out = iw im /\
    forall x y, 0 <= x < ih im -> 0 <= y < iw im -> pixel out x y = pixel im (iw im - 1 - y) x) /\
  (~ (iw dst = ih im /\ ih dst = iw im) -> rotate270_in im dst = Err EParameter).
Proof.
  intros Hs Hd. unfold rotate270_in. split; [intros [E1 E2]|intros Hn].
  - dims_ok.
    destruct (copy2 im dst (fun x y => y) (fun x y => iw im - x - 1)
                (fun x y => iw im - 1 - y) (fun x y => x) Hs Hd)
      as (out & E & H1 & H2 & H3 & H4); try (intros; lia).
    exists out. split; [exact E|]. split; [exact H1|]. split; [lia|]. split; [lia|].
    intros x y Hx Hy. apply H4; lia.
  - dims_bad. reflexivity.
Qed.
Lemma flip_horizontal_in_spec {P} (im dst : img P) : wf im -> wf dst ->
  (iw dst = iw im /\ ih dst = ih im ->
   exists out, flip_horizontal_in im dst = Ok out /\ wf out /\ iw out = iw im /\ ih out = ih im /\
    forall x y, 0 <= x < iw im -> 0 <= y < ih im -> pixel out x y = pixel im (iw im - 1 - x) y) /\
  (~ (iw dst = iw im /\ ih dst = ih im) -> flip_horizontal_in im dst = Err EParameter).
Proof.
  intros Hs Hd. unfold flip_horizontal_in. split; [intros [E1 E2]|intros Hn].
  - dims_ok.
    destruct (copy2 im dst (fun x y => iw im - x - 1) (fun x y => y)
                (fun x y => iw im - 1 - x) (fun x y => y) Hs Hd)
      as (out & E & H1 & H2 & H3 & H4); try (intros; lia).
    exists out. split; [exact E|]. split; [exact H1|]. split; [lia|]. split; [lia|].
    intros x y Hx Hy. apply H4; lia.
  - dims_bad. reflexivity.
Qed.
Lemma flip_vertical_in_spec {P} (im dst : img P) : wf im -> wf dst ->
  (iw dst = iw im /\ ih dst = ih im ->
   exists out, flip_vertical_in im dst = Ok out /\ wf out /\ iw out = iw im /\ ih out = ih im /\
    forall x y, 0 <= x < iw im -> 0 <= y < ih im -> pixel out x y = pixel im x (ih im - 1 - y)) /\
  (~ (iw dst = iw im /\ ih dst = ih im) -> flip_vertical_in im dst = Err EParameter).
Proof.
  intros Hs Hd. unfold flip_vertical_in. split; [intros [E1 E2]|intros Hn].
  - dims_ok.
    destruct (copy2 im dst (fun x y => x) (fun x y => ih im - 1 - y)
                (fun x y => x) (fun x y => ih im - 1 - y) Hs Hd)
      as (out & E & H1 & H2 & H3 & H4); try (intros; lia).
    exists out. split; [exact E|]. split; [exact H1|]. split; [lia|]. split; [lia|].
    intros x y Hx Hy. apply H4; lia.
  - dims_bad. reflexivity.
Qed.

(** [moved im out w h f]: out is a well-formed w*h image whose pixel (x,y) is im's pixel f x y *)
Definition moved {P} (im out : img P) (w h : Z) (f : Z -> Z -> Z * Z) : Prop :=
  wf out /\ iw out = w /\ ih out = h /\
  forall x y, 0 <= x < w -> 0 <= y < h ->
    pixel out x y = pixel im (fst (f x y)) (snd (f x y)).

Lemma moved_unique {P} (im a b : img P) w h f : moved im a w h f -> moved im b w h f -> a = b.
Proof.
  intros (Ha & Wa & Ha' & Pa) (Hb & Wb & Hb' & Pb). apply img_ext; auto; try congruence.
  intros x y Hx Hy. rewrite Pa, Pb by (rewrite <- ?Wa, <- ?Ha'; auto). reflexivity.
Qed.
Lemma moved_ext {P} (im a : img P) w h f g :
  (forall x y, 0 <= x < w -> 0 <= y < h -> f x y = g x y) -> moved im a w h f -> moved im a w h g.
Proof.
  intros E (H1 & H2 & H3 & H4). split; [auto|]. split; [auto|]. split; [auto|].
  intros x y Hx Hy. rewrite <- E by auto. auto.
Qed.
Lemma moved_id {P} (im : img P) : wf im -> moved im im (iw im) (ih im) (fun x y => (x, y)).
Proof. intros H. split; [auto|]. repeat split; reflexivity. Qed.

Lemma new_dims {P} (w h : Z) (z : P) : iw (new_img w h z) = w /\ ih (new_img w h z) = h.
Proof. split; reflexivity. Qed.

Lemma rotate90_moved {P} (z : P) im : wf im ->
  exists out, rotate90 z im = Ok out /\
    moved im out (ih im) (iw im) (fun x y => (y, ih im - 1 - x)).
Proof.
  intros H. pose proof H as (Hw & Hh & _).
  destruct (rotate90_in_spec im (new_img (ih im) (iw im) z) H (wf_new_img _ _ _ Hh Hw)) as [Hs _].
  destruct Hs as (out & E & H1 & H2 & H3 & H4); [split; reflexivity|].
  exists out. unfold rotate90. rewrite E. repeat split; auto; apply H1.
Qed.
Lemma rotate180_moved {P} (z : P) im : wf im ->
  exists out, rotate180 z im = Ok out /\
    moved im out (iw im) (ih im) (fun x y => (iw im - 1 - x, ih im - 1 - y)).
Proof.
  intros H. pose proof H as (Hw & Hh & _).
  destruct (rotate180_in_spec im (new_img (iw im) (ih im) z) H (wf_new_img _ _ _ Hw Hh)) as [Hs _].
  destruct Hs as (out & E & H1 & H2 & H3 & H4); [split; reflexivity|].
  exists out. unfold rotate180. rewrite E. repeat split; auto; apply H1.
Qed.
Lemma rotate270_moved {P} (z : P) im : wf im ->
  exists out, rotate270 z im = Ok out /\
    moved im out (ih im) (iw im) (fun x y => (iw im - 1 - y, x)).
Proof.
  intros H. pose proof H as (Hw & Hh & _).
  destruct (rotate270_in_spec im (new_img (ih im) (iw im) z) H (wf_new_img _ _ _ Hh Hw)) as [Hs _].
  destruct Hs as (out & E & H1 & H2 & H3 & H4); [split; reflexivity|].
  exists out. unfold rotate270. rewrite E. repeat split; auto; apply H1.
Qed.
Lemma flip_horizontal_moved {P} (z : P) im : wf im ->
  exists out, flip_horizontal z im = Ok out /\
    moved im out (iw im) (ih im) (fun x y => (iw im - 1 - x, y)).
Proof.
  intros H. pose proof H as (Hw & Hh & _).
  destruct (flip_horizontal_in_spec im (new_img (iw im) (ih im) z) H (wf_new_img _ _ _ Hw Hh)) as [Hs _].
  destruct Hs as (out & E & H1 & H2 & H3 & H4); [split; reflexivity|].
  exists out. unfold flip_horizontal. rewrite E. repeat split; auto; apply H1.
Qed.
Lemma flip_vertical_moved {P} (z : P) im : wf im ->
  exists out, flip_vertical z im = Ok out /\
    moved im out (iw im) (ih im) (fun x y => (x, ih im - 1 - y)).
Proof.
  intros H. pose proof H as (Hw & Hh & _).
  destruct (flip_vertical_in_spec im (new_img (iw im) (ih im) z) H (wf_new_img _ _ _ Hw Hh)) as [Hs _].
  destruct Hs as (out & E & H1 & H2 & H3 & H4); [split; reflexivity|].
  exists out. unfold flip_vertical. rewrite E. repeat split; auto; apply H1.
Qed.

(** ** nothing lost or duplicated *)
Lemma px_coords {P} (im : img P) : wf im ->
  map Some (px im) = map (fun c => pixel im (fst c) (snd c)) (coords (iw im) (ih im)).
Proof.
  intros (Hw & Hh & Hl). apply zget_ext; [rewrite !zlen_map, zlen_coords; auto|].
  intros i Hi. rewrite zlen_map, Hl in Hi. rewrite !zget_map.
  assert (0 < iw im) by nia. rewrite zget_coords by auto. cbn [option_map fst snd].
  unfold pixel, inb.
  assert (0 <= i mod iw im < iw im) by (apply Z.mod_pos_bound; lia).
  assert (0 <= i / iw im < ih im) by (split; [apply Z.div_pos; lia|apply Z.div_lt_upper_bound; lia]).
  replace ((0 <=? i mod iw im) && (i mod iw im <? iw im) && (0 <=? i / iw im) && (i / iw im <? ih im))
    with true by lia.
  replace (i / iw im * iw im + i mod iw im) with i by (pose proof (Z.div_mod i (iw im)); lia).
  destruct (zget_some (px im) i) as [p Hp]; [lia|]. rewrite Hp. reflexivity.
Qed.
Lemma Permutation_map_Some {A} (l1 l2 : list A) :
  Permutation (map Some l1) (map Some l2) -> Permutation l1 l2.
Proof.
  intros H.
  apply (Permutation_flat_map (fun o : option A => match o with Some a => [a] | None => [] end)) in H.
  assert (Hid : forall l : list A,
    flat_map (fun o => match o with Some a => [a] | None => [] end) (map Some l) = l).
  { induction l; simpl; congruence. }
  rewrite !Hid in H. exact H.
Qed.
Lemma moved_perm {P} (im out : img P) w h f g : wf im -> moved im out w h f ->
  (forall x y, 0 <= x < w -> 0 <= y < h ->
     (0 <= fst (f x y) < iw im /\ 0 <= snd (f x y) < ih im) /\
     g (fst (f x y)) (snd (f x y)) = (x, y)) ->
  (forall x y, 0 <= x < iw im -> 0 <= y < ih im ->
     (0 <= fst (g x y) < w /\ 0 <= snd (g x y) < h) /\
     f (fst (g x y)) (snd (g x y)) = (x, y)) ->
  Permutation (px im) (px out).
Proof.
  intros Him (Hwf & Ew & Eh & Hp) Hf Hg. apply Permutation_map_Some.
  rewrite (px_coords im Him), (px_coords out Hwf), Ew, Eh.
  rewrite (map_ext_in (fun c => pixel out (fst c) (snd c))
             (fun c => pixel im (fst (f (fst c) (snd c))) (snd (f (fst c) (snd c))))).
  2:{ intros [x y] Hc. apply In_coords in Hc as [Hx Hy]. cbn. apply Hp; auto. }
  rewrite <- (map_map (fun c => f (fst c) (snd c)) (fun c => pixel im (fst c) (snd c))).
  apply Permutation_map. apply NoDup_Permutation.
  - apply NoDup_coords.
  - assert (Hnd := NoDup_coords w h).
    assert (Hin : forall c, In c (coords w h) -> 0 <= fst c < w /\ 0 <= snd c < h).
    { intros [x y] Hc. apply In_coords in Hc. auto. }
    induction (coords w h) as [|c l IH]; cbn [map]; [constructor|].
    inversion Hnd as [|? ? Hn Hnd']; subst. constructor.
    + intros Hc. apply in_map_iff in Hc as (d & Ed & Hd). apply Hn.
      destruct (Hin c (or_introl eq_refl)) as [H1 H2].
      destruct (Hin d (or_intror Hd)) as [H3 H4].
      destruct (Hf _ _ H1 H2) as [_ E1]. destruct (Hf _ _ H3 H4) as [_ E2].
      rewrite <- Ed in E1. rewrite E1 in E2. destruct c, d; cbn in *. congruence.
    + apply IH; auto. intros d Hd. apply Hin; right; auto.
  - intros [x y]. rewrite In_coords. rewrite in_map_iff. split.
    + intros [Hx Hy]. destruct (Hg x y Hx Hy) as [[H1 H2] E]. exists (g x y).
      split; [exact E|]. destruct (g x y). apply In_coords; auto.
    + intros ([x' y'] & E & Hc). apply In_coords in Hc as [Hx Hy]. cbn [fst snd] in E.
      destruct (Hf x' y' Hx Hy) as [H1 _]. rewrite E in H1. exact H1.
Qed.

(** ** in-place variants *)
Lemma swap_step {P} (im : img P) x y x2 y2 : wf im ->
  0 <= x < iw im -> 0 <= y < ih im -> 0 <= x2 < iw im -> 0 <= y2 < ih im ->
  exists p p2 im1 im2, get_pixel im x y = Ok p /\ get_pixel im x2 y2 = Ok p2 /\
    put_pixel im x y p2 = Ok im1 /\ put_pixel im1 x2 y2 p = Ok im2 /\
    wf im2 /\ iw im2 = iw im /\ ih im2 = ih im /\
    forall a b, pixel im2 a b = if (a =? x2) && (b =? y2) then pixel im x y
      else if (a =? x) && (b =? y) then pixel im x2 y2 else pixel im a b.
Proof.
  intros H Hx Hy Hx2 Hy2.
  destruct (pixel_in im x y H Hx Hy) as [p Hp]. destruct (pixel_in im x2 y2 H Hx2 Hy2) as [p2 Hp2].
  destruct (put_pixel_spec im x y p2 H Hx Hy) as (im1 & E1 & W1 & A1 & B1 & Q1).
  destruct (put_pixel_spec im1 x2 y2 p W1) as (im2 & E2 & W2 & A2 & B2 & Q2); try lia.
  exists p, p2, im1, im2. unfold get_pixel. rewrite Hp, Hp2.
  repeat split; auto; try congruence; try apply W2.
  intros a b. rewrite Q2, Q1. reflexivity.
Qed.

Lemma swap_loop {P A} (step : img P -> A -> res (img P)) (ax ay bx by_ : A -> Z) (l : list A) w h :
  (forall im a, In a l -> wf im -> iw im = w -> ih im = h ->
     exists im', step im a = Ok im' /\ wf im' /\ iw im' = w /\ ih im' = h /\
       forall x y, pixel im' x y = if (x =? bx a) && (y =? by_ a) then pixel im (ax a) (ay a)
         else if (x =? ax a) && (y =? ay a) then pixel im (bx a) (by_ a) else pixel im x y) ->
  NoDup l ->
  (forall a b, In a l -> In b l -> a <> b ->
     ~ (ax a = ax b /\ ay a = ay b) /\ ~ (ax a = bx b /\ ay a = by_ b) /\
     ~ (bx a = ax b /\ by_ a = ay b) /\ ~ (bx a = bx b /\ by_ a = by_ b)) ->
  forall im, wf im -> iw im = w -> ih im = h ->
  exists im', foldM step l im = Ok im' /\ wf im' /\ iw im' = w /\ ih im' = h /\
    (forall a, In a l -> pixel im' (ax a) (ay a) = pixel im (bx a) (by_ a) /\
                         pixel im' (bx a) (by_ a) = pixel im (ax a) (ay a)) /\
    (forall x y, (forall a, In a l -> ~ (ax a = x /\ ay a = y) /\ ~ (bx a = x /\ by_ a = y)) ->
       pixel im' x y = pixel im x y).
Proof.
  induction l as [|a l IH]; intros Hstep Hnd Hdis im Hwf Hw Hh.
  - exists im. cbn [foldM]. repeat split; auto; try apply Hwf; destruct H.
  - destruct (Hstep im a (or_introl eq_refl) Hwf Hw Hh) as (im1 & E1 & W1 & A1 & B1 & Q1).
    inversion Hnd as [|? ? Hn Hnd']; subst.
    destruct (IH) with (im := im1) as (im2 & E2 & W2 & A2 & B2 & Q2 & R2); auto.
    { intros; apply Hstep; auto. right; auto. }
    { intros; apply Hdis; auto; right; auto. }
    exists im2. cbn [foldM]. rewrite E1. cbn [bind]. rewrite E2.
    split; [reflexivity|]. split; [auto|]. split; [auto|]. split; [auto|].
    assert (Hne : forall b, In b l -> a <> b) by (intros b Hb ->; contradiction).
    split.
    + intros b [<-|Hb].
      * assert (Hd : forall b, In b l -> _) by
          (intros b Hb; exact (Hdis a b (or_introl eq_refl) (or_intror Hb) (Hne b Hb))).
        split.
        -- rewrite R2.
           ++ rewrite Q1. rewrite !Z.eqb_refl. cbn [andb].
              destruct (Z.eqb_spec (ax a) (bx a)), (Z.eqb_spec (ay a) (by_ a)); cbn [andb]; auto.
              congruence.
           ++ intros c Hc. destruct (Hd c Hc) as (h1 & h2 & h3 & h4). split; intros [? ?]; [apply h1|apply h2]; auto.
        -- rewrite R2.
           ++ rewrite Q1. rewrite !Z.eqb_refl. reflexivity.
           ++ intros c Hc. destruct (Hd c Hc) as (h1 & h2 & h3 & h4). split; intros [? ?]; [apply h3|apply h4]; auto.
      * destruct (Q2 b Hb) as [T1 T2].
        destruct (Hdis a b (or_introl eq_refl) (or_intror Hb) (Hne b Hb)) as (h1 & h2 & h3 & h4).
        rewrite T1, T2, !Q1.
        assert (Hb4 : forall u v c d, ~ (u = c /\ v = d) -> (c =? u) && (d =? v) = false) by lia.
        rewrite (Hb4 _ _ _ _ h1), (Hb4 _ _ _ _ h2), (Hb4 _ _ _ _ h3), (Hb4 _ _ _ _ h4). auto.
    + intros x y Hout. rewrite R2.
      * rewrite Q1. destruct (Hout a (or_introl eq_refl)) as [h1 h2].
        assert (Hb4 : forall u v c d, ~ (u = c /\ v = d) -> (c =? u) && (d =? v) = false) by lia.
        rewrite (Hb4 _ _ _ _ h1), (Hb4 _ _ _ _ h2). reflexivity.
      * intros c Hc. apply Hout; right; auto.
Qed.

Lemma flip_h_in_place_moved {P} (im : img P) : wf im ->
  exists out, flip_horizontal_in_place im = Ok out /\
    moved im out (iw im) (ih im) (fun x y => (iw im - 1 - x, y)).
Proof.
  intros H. unfold flip_horizontal_in_place. rewrite for2_coords.
  assert (H2 : 2 * (iw im / 2) <= iw im < 2 * (iw im / 2) + 2) by (destruct H; zdm).
  destruct (swap_loop (fun (s : img P) (c : Z * Z) =>
      p2 <- get_pixel s (iw im - fst c - 1) (snd c) ;;
      p <- get_pixel s (fst c) (snd c) ;;
      im' <- put_pixel s (iw im - fst c - 1) (snd c) p ;;
      put_pixel im' (fst c) (snd c) p2)
    (fun c => iw im - fst c - 1) snd fst snd (coords (iw im / 2) (ih im)) (iw im) (ih im))
    with (im := im) as (out & E & W & A & B & Q & R); auto.
  - intros s [x y] Hc Hwf Hw Hh. apply In_coords in Hc as [Hx Hy]. cbn [fst snd].
    destruct (swap_step s (iw im - x - 1) y x y Hwf) as (p & p2 & i1 & i2 & G1 & G2 & S1 & S2 & W2 & A2 & B2 & Q2); try lia.
    rewrite G1. cbn [bind]. rewrite G2. cbn [bind]. rewrite S1. cbn [bind].
    exists i2. rewrite S2. split; [reflexivity|]. split; [auto|]. split; [congruence|]. split; [congruence|].
    intros a b. rewrite Q2. reflexivity.
  - apply NoDup_coords.
  - intros [x y] [x' y'] Ha Hb Hne. apply In_coords in Ha as [? ?], Hb as [? ?]. cbn [fst snd].
    assert (~ (x = x' /\ y = y')) by (intros [-> ->]; auto). lia.
  - exists out. split; [exact E|]. split; [auto|]. split; [auto|]. split; [auto|].
    intros x y Hx Hy. cbn [fst snd].
    destruct (Z_lt_ge_dec x (iw im / 2)) as [Hlt|Hge].
    + destruct (Q (x, y)) as [_ Q2]; [apply In_coords; lia|]. cbn [fst snd] in Q2.
      rewrite Q2. f_equal. lia.
    + destruct (Z_lt_ge_dec (iw im - 1 - x) (iw im / 2)) as [Hlt2|Hge2].
      * destruct (Q (iw im - 1 - x, y)) as [Q1 _]; [apply In_coords; lia|]. cbn [fst snd] in Q1.
        replace (iw im - (iw im - 1 - x) - 1) with x in Q1 by lia. exact Q1.
      * rewrite R; [f_equal; lia|]. intros [x' y'] Hc. apply In_coords in Hc as [? ?].
        cbn [fst snd]. lia.
Qed.

Lemma flip_v_in_place_moved {P} (im : img P) : wf im ->
  exists out, flip_vertical_in_place im = Ok out /\
    moved im out (iw im) (ih im) (fun x y => (x, ih im - 1 - y)).
Proof.
  intros H. unfold flip_vertical_in_place. rewrite for2_coords.
  assert (H2 : 2 * (ih im / 2) <= ih im < 2 * (ih im / 2) + 2) by (destruct H as (?&?&?); zdm).
  destruct (swap_loop (fun (s : img P) (c : Z * Z) =>
      p2 <- get_pixel s (fst c) (ih im - snd c - 1) ;;
      p <- get_pixel s (fst c) (snd c) ;;
      im' <- put_pixel s (fst c) (ih im - snd c - 1) p ;;
      put_pixel im' (fst c) (snd c) p2)
    fst (fun c => ih im - snd c - 1) fst snd (coords (iw im) (ih im / 2)) (iw im) (ih im))
    with (im := im) as (out & E & W & A & B & Q & R); auto.
  - intros s [x y] Hc Hwf Hw Hh. apply In_coords in Hc as [Hx Hy]. cbn [fst snd].
    destruct (swap_step s x (ih im - y - 1) x y Hwf) as (p & p2 & i1 & i2 & G1 & G2 & S1 & S2 & W2 & A2 & B2 & Q2); try lia.
    rewrite G1. cbn [bind]. rewrite G2. cbn [bind]. rewrite S1. cbn [bind].
    exists i2. rewrite S2. split; [reflexivity|]. split; [auto|]. split; [congruence|]. split; [congruence|].
    intros a b. rewrite Q2. reflexivity.
  - apply NoDup_coords.
  - intros [x y] [x' y'] Ha Hb Hne. apply In_coords in Ha as [? ?], Hb as [? ?]. cbn [fst snd].
    assert (~ (x = x' /\ y = y')) by (intros [-> ->]; auto). lia.
  - exists out. split; [exact E|]. split; [auto|]. split; [auto|]. split; [auto|].
    intros x y Hx Hy. cbn [fst snd].
    destruct (Z_lt_ge_dec y (ih im / 2)) as [Hlt|Hge].
    + destruct (Q (x, y)) as [_ Q2]; [apply In_coords; lia|]. cbn [fst snd] in Q2.
      rewrite Q2. f_equal. lia.
    + destruct (Z_lt_ge_dec (ih im - 1 - y) (ih im / 2)) as [Hlt2|Hge2].
      * destruct (Q (x, ih im - 1 - y)) as [Q1 _]; [apply In_coords; lia|]. cbn [fst snd] in Q1.
        replace (ih im - (ih im - 1 - y) - 1) with y in Q1 by lia. exact Q1.
      * rewrite R; [f_equal; lia|]. intros [x' y'] Hc. apply In_coords in Hc as [? ?].
        cbn [fst snd]. lia.
Qed.

Lemma rotate180_in_place_moved {P} (im : img P) : wf im ->
  exists out, rotate180_in_place im = Ok out /\
    moved im out (iw im) (ih im) (fun x y => (iw im - 1 - x, ih im - 1 - y)).
Proof.
  intros H. unfold rotate180_in_place. rewrite for2_coords.
  pose proof H as (Hw0 & Hh0 & _).
  assert (H2 : 2 * (ih im / 2) <= ih im < 2 * (ih im / 2) + 2) by zdm.
  destruct (swap_loop (fun (s : img P) (c : Z * Z) =>
      p <- get_pixel s (fst c) (snd c) ;;
      p2 <- get_pixel s (iw im - fst c - 1) (ih im - snd c - 1) ;;
      im' <- put_pixel s (fst c) (snd c) p2 ;;
      put_pixel im' (iw im - fst c - 1) (ih im - snd c - 1) p)
    fst snd (fun c => iw im - fst c - 1) (fun c => ih im - snd c - 1)
    (coords (iw im) (ih im / 2)) (iw im) (ih im))
    with (im := im) as (o1 & E & W & A & B & Q & R); auto.
  - intros s [x y] Hc Hwf Hw Hh. apply In_coords in Hc as [Hx Hy]. cbn [fst snd].
    destruct (swap_step s x y (iw im - x - 1) (ih im - y - 1) Hwf) as (p & p2 & i1 & i2 & G1 & G2 & S1 & S2 & W2 & A2 & B2 & Q2); try lia.
    rewrite G1. cbn [bind]. rewrite G2. cbn [bind]. rewrite S1. cbn [bind].
    exists i2. rewrite S2. split; [reflexivity|]. split; [auto|]. split; [congruence|]. split; [congruence|].
    intros a b. rewrite Q2. reflexivity.
  - apply NoDup_coords.
  - intros [x y] [x' y'] Ha Hb Hne. apply In_coords in Ha as [? ?], Hb as [? ?]. cbn [fst snd].
    assert (~ (x = x' /\ y = y')) by (intros [-> ->]; auto). lia.
  - assert (Htop : forall x y, 0 <= x < iw im -> 0 <= y < ih im -> 2 * y + 1 <> ih im ->
       pixel o1 x y = pixel im (iw im - 1 - x) (ih im - 1 - y)).
    { intros x y Hx Hy Hm. destruct (Z_lt_ge_dec y (ih im / 2)).
      - destruct (Q (x, y)) as [Q1 _]; [apply In_coords; lia|]. cbn [fst snd] in Q1.
        rewrite Q1. f_equal; lia.
      - destruct (Q (iw im - 1 - x, ih im - 1 - y)) as [_ Q2]; [apply In_coords; lia|].
        cbn [fst snd] in Q2.
        replace (iw im - (iw im - 1 - x) - 1) with x in Q2 by lia.
        replace (ih im - (ih im - 1 - y) - 1) with y in Q2 by lia. exact Q2. }
    assert (Hmid : forall x y, 2 * y + 1 = ih im -> pixel o1 x y = pixel im x y).
    { intros x y Hm. apply R. intros [x' y'] Hc. apply In_coords in Hc as [? ?]. cbn [fst snd]. lia. }
    rewrite E. cbn [bind].
    destruct (Z.eqb_spec (ih im mod 2) 0) as [He|Ho]; cbn [negb].
    + exists o1. split; [reflexivity|]. split; [auto|]. split; [auto|]. split; [auto|].
      intros x y Hx Hy. cbn [fst snd]. apply Htop; auto. pose proof (Z.div_mod (ih im) 2). lia.
    + set (mid := ih im / 2) in *.
      assert (Hmid2 : 2 * mid + 1 = ih im) by (pose proof (Z.mod_pos_bound (ih im) 2); pose proof (Z.div_mod (ih im) 2); lia).
      assert (H3 : 2 * (iw im / 2) <= iw im < 2 * (iw im / 2) + 2) by zdm.
      destruct (swap_loop (fun (s : img P) (x : Z) =>
          p <- get_pixel s x mid ;;
          p2 <- get_pixel s (iw im - x - 1) mid ;;
          im' <- put_pixel s x mid p2 ;;
          put_pixel im' (iw im - x - 1) mid p)
        (fun x => x) (fun _ => mid) (fun x => iw im - x - 1) (fun _ => mid)
        (zrange 0 (iw im / 2)) (iw im) (ih im))
        with (im := o1) as (o2 & E2 & W2 & A2 & B2 & Q2 & R2); auto.
      * intros s x Hc Hwf Hw Hh. apply In_zrange in Hc.
        destruct (swap_step s x mid (iw im - x - 1) mid Hwf) as (p & p2 & i1 & i2 & G1 & G2 & S1 & S2 & W2 & A2 & B2 & Q2); try lia.
        rewrite G1. cbn [bind]. rewrite G2. cbn [bind]. rewrite S1. cbn [bind].
        exists i2. rewrite S2. split; [reflexivity|]. split; [auto|]. split; [congruence|]. split; [congruence|].
        intros a b. rewrite Q2. reflexivity.
      * apply NoDup_zrange.
      * intros x x' Ha Hb Hne. apply In_zrange in Ha, Hb. lia.
      * exists o2. split; [exact E2|]. split; [auto|]. split; [auto|]. split; [auto|].
        intros x y Hx Hy. cbn [fst snd]. destruct (Z.eq_dec y mid) as [->|Hny].
        -- destruct (Z_lt_ge_dec x (iw im / 2)).
           ++ destruct (Q2 x) as [q1 _]; [apply In_zrange; lia|]. cbn beta in q1. rewrite q1, Hmid by lia.
              f_equal; lia.
           ++ destruct (Z_lt_ge_dec (iw im - 1 - x) (iw im / 2)).
              ** destruct (Q2 (iw im - 1 - x)) as [_ q2]; [apply In_zrange; lia|]. cbn beta in q2.
                 replace (iw im - (iw im - 1 - x) - 1) with x in q2 by lia.
                 rewrite q2, Hmid by lia. f_equal; lia.
              ** rewrite R2; [rewrite Hmid by lia; f_equal; lia|].
                 intros a Hc. apply In_zrange in Hc. lia.
        -- rewrite R2; [apply Htop; auto; lia|]. intros a _. lia.
Qed.
