From Coq Require Import Sorting.Sorted.
From Verif Require Import Base BaseLemmas GenImage OverlayProofs.
Local Open Scope Z_scope.

(** ** ordered lists *)
Lemma SS_app {A} (R : A -> A -> Prop) l1 l2 :
  StronglySorted R l1 -> StronglySorted R l2 -> (forall a b, In a l1 -> In b l2 -> R a b) ->
  StronglySorted R (l1 ++ l2).
Proof.
  induction 1 as [|a l1 HS IH HF]; intros H2 Hab; cbn [app]; [auto|].
  constructor.
  - apply IH; auto. intros; apply Hab; auto; right; auto.
  - rewrite Forall_forall in *. intros x Hx. apply in_app_iff in Hx as [Hx|Hx]; auto.
    apply Hab; [left; auto|auto].
Qed.
Lemma SS_rev {A} (R : A -> A -> Prop) l : StronglySorted R l -> StronglySorted (fun a b => R b a) (rev l).
Proof.
  induction 1 as [|a l HS IH HF]; cbn [rev]; [constructor|]. apply SS_app; auto.
  - constructor; [constructor|constructor].
  - intros x b Hx [<-|[]]. apply in_rev in Hx. rewrite Forall_forall in HF. auto.
Qed.
Lemma SS_zrange a n : StronglySorted Z.lt (zrange a n).
Proof.
  unfold zrange. generalize (Z.to_nat n) as k. intros k. generalize 0%nat as s.
  induction k as [|k IH]; intros s; cbn [seq map]; constructor; auto.
  rewrite Forall_forall. intros x Hx. apply in_map_iff in Hx as (j & <- & Hj). apply in_seq in Hj. lia.
Qed.
Lemma SS_map {A B} (f : A -> B) (R : B -> B -> Prop) l :
  StronglySorted (fun a b => R (f a) (f b)) l -> StronglySorted R (map f l).
Proof.
  induction 1 as [|a l HS IH HF]; cbn; constructor; auto.
  rewrite Forall_forall in *. intros x Hx. apply in_map_iff in Hx as (b & <- & Hb). auto.
Qed.
Lemma SS_impl {A} (R R' : A -> A -> Prop) l : (forall a b, R a b -> R' a b) ->
  StronglySorted R l -> StronglySorted R' l.
Proof. intros H. induction 1; constructor; auto. eapply Forall_impl; [|eassumption]. auto. Qed.

Definition lex (Rx Ry : Z -> Z -> Prop) (a b : Z * Z) : Prop :=
  Ry (snd a) (snd b) \/ (snd a = snd b /\ Rx (fst a) (fst b)).
Lemma SS_product Rx Ry xs ys : StronglySorted Rx xs -> StronglySorted Ry ys ->
  StronglySorted (lex Rx Ry) (flat_map (fun y => map (fun x => (x, y)) xs) ys).
Proof.
  intros Hx. induction 1 as [|y ys HS IH HF]; cbn [flat_map]; [constructor|].
  apply SS_app; auto.
  - apply SS_map. eapply SS_impl; [|exact Hx]. intros a b H. right. cbn; auto.
  - intros a b Ha Hb. apply in_map_iff in Ha as (x & <- & _). apply in_flat_map in Hb as (y' & Hy' & Hb).
    apply in_map_iff in Hb as (x' & <- & _). left. cbn. rewrite Forall_forall in HF. auto.
Qed.

(** ** moving pixels within one image, never reading a position already written *)
Lemma move_loop {P A} (fx fy tx ty : A -> Z) (l : list A) (im : img P) :
  wf im ->
  StronglySorted (fun a b => ~ (tx a = fx b /\ ty a = fy b) /\ ~ (tx a = tx b /\ ty a = ty b)) l ->
  (forall a, In a l -> 0 <= fx a < iw im /\ 0 <= fy a < ih im) ->
  (forall a, In a l -> 0 <= tx a < iw im /\ 0 <= ty a < ih im) ->
  exists im', foldM (fun im a => p <- get_pixel im (fx a) (fy a) ;;
                                 put_pixel im (tx a) (ty a) p) l im = Ok im' /\
    wf im' /\ iw im' = iw im /\ ih im' = ih im /\
    (forall x y, (forall a, In a l -> ~ (tx a = x /\ ty a = y)) -> pixel im' x y = pixel im x y) /\
    (forall a, In a l -> pixel im' (tx a) (ty a) = pixel im (fx a) (fy a)).
Proof.
  revert im. induction l as [|a l IH]; intros im Hwf HS Hf Ht.
  - exists im. cbn [foldM]. repeat split; auto; try apply Hwf. intros a [].
  - inversion HS as [|? ? HS' HF]; subst. rewrite Forall_forall in HF.
    destruct (Hf a (or_introl eq_refl)) as [F1 F2]. destruct (Ht a (or_introl eq_refl)) as [T1 T2].
    destruct (pixel_in im _ _ Hwf F1 F2) as [p Hp].
    destruct (put_pixel_spec im (tx a) (ty a) p Hwf T1 T2) as (im1 & E1 & Hwf1 & Ew1 & Eh1 & Hp1).
    destruct (IH im1 Hwf1 HS') as (im2 & E2 & Hwf2 & Ew2 & Eh2 & Hout & Hins).
    { intros b Hb. rewrite Ew1, Eh1. apply Hf; right; auto. }
    { intros b Hb. rewrite Ew1, Eh1. apply Ht; right; auto. }
    exists im2. cbn [foldM]. unfold get_pixel at 1. rewrite Hp. cbn [bind]. rewrite E1. cbn [bind].
    split; [exact E2|]. split; [auto|]. split; [congruence|]. split; [congruence|]. split.
    + intros x y Hn. rewrite Hout by (intros; apply Hn; right; auto). rewrite Hp1.
      specialize (Hn a (or_introl eq_refl)).
      destruct (Z.eqb_spec x (tx a)), (Z.eqb_spec y (ty a)); cbn; auto. exfalso; auto.
    + intros b [->|Hb].
      * rewrite Hout; [rewrite Hp1, !Z.eqb_refl, Hp; reflexivity|].
        intros b' Hb' [X1 X2]. destruct (HF b' Hb') as [_ H]. apply H; auto.
      * rewrite (Hins b Hb), Hp1. destruct (HF b Hb) as [H _].
        destruct (Z.eqb_spec (fx b) (tx a)), (Z.eqb_spec (fy b) (ty a)); cbn; auto. exfalso; auto.
Qed.

Section G.
Context {P : Type}.

(** the value a simultaneous copy of the w*h rectangle from (sx,sy) to (dx,dy) assigns to (X,Y) *)
Definition moved_rect (im : img P) (sx sy w h dx dy X Y : Z) : option P :=
  if (dx <=? X) && (X <? dx + w) && (dy <=? Y) && (Y <? dy + h)
  then pixel im (X - dx + sx) (Y - dy + sy) else pixel im X Y.

Lemma foldM_product {S} (f : S -> Z -> Z -> res S) xs ys s :
  foldM (fun s y => foldM (fun s x => f s x y) xs s) ys s =
  foldM (fun s c => f s (fst c) (snd c)) (flat_map (fun y => map (fun x => (x, y)) xs) ys) s.
Proof.
  revert s; induction ys as [|y ys IH]; intros s; cbn [foldM flat_map]; [reflexivity|].
  rewrite foldM_app, foldM_map. cbn [fst snd]. destruct (foldM _ xs s); cbn [bind]; auto.
Qed.
Lemma In_product xs ys (c : Z * Z) :
  In c (flat_map (fun y => map (fun x => (x, y)) xs) ys) <-> In (fst c) xs /\ In (snd c) ys.
Proof.
  rewrite in_flat_map. split.
  - intros (y & Hy & H). apply in_map_iff in H as (x & <- & Hx). auto.
  - intros [Hx Hy]. exists (snd c). split; auto. apply in_map_iff. exists (fst c). destruct c; auto.
Qed.
Lemma In_rev_if (b : bool) n i : In i (if b then rev (zrange 0 n) else zrange 0 n) <-> 0 <= i < n.
Proof. destruct b; [rewrite <- in_rev|]; rewrite In_zrange; lia. Qed.

Lemma copy_within_correct (im : img P) sx sy w h dx dy :
  wf im -> 0 <= sx < iw im -> 0 <= dx < iw im -> 0 <= sy < ih im -> 0 <= dy < ih im -> 0 <= w -> 0 <= h ->
  sx + w <= iw im -> dx + w <= iw im -> sy + h <= ih im -> dy + h <= ih im ->
  exists r, copy_within im sx sy w h dx dy = Ok (true, r) /\ wf r /\ iw r = iw im /\ ih r = ih im /\
    forall X Y, pixel r X Y = moved_rect im sx sy w h dx dy X Y.
Proof.
  intros Hwf H1 H2 H3 H4 H5 H6 H7 H8 H9 H10. unfold copy_within.
  replace ((sx <? iw im) && (dx <? iw im)) with true by lia.
  replace ((sy <? ih im) && (dy <? ih im)) with true by lia. cbn [negb].
  replace ((iw im - Z.max dx sx <? w) || (ih im - Z.max dy sy <? h)) with false by lia.
  set (xs := if sx <? dx then rev (zrange 0 w) else zrange 0 w).
  set (ys := if sy <? dy then rev (zrange 0 h) else zrange 0 h).
  cbv zeta. fold xs ys.
  rewrite (foldM_product (fun s x y => p <- get_pixel s (sx + x) (sy + y) ;; put_pixel s (dx + x) (dy + y) p)).
  destruct (move_loop (fun c => sx + fst c) (fun c => sy + snd c) (fun c => dx + fst c) (fun c => dy + snd c)
              (flat_map (fun y => map (fun x => (x, y)) xs) ys) im Hwf) as (r & E & Hwr & Ew & Eh & Hout & Hins).
  - eapply SS_impl; [|apply (SS_product (if sx <? dx then Z.gt else Z.lt) (if sy <? dy then Z.gt else Z.lt))].
    + intros [a b] [a' b']. unfold lex. cbn [fst snd].
      destruct (Z.ltb_spec sx dx), (Z.ltb_spec sy dy); intros [?|[? ?]]; lia.
    + unfold xs. destruct (sx <? dx); [|apply SS_zrange]. apply SS_rev.
      eapply SS_impl; [|apply SS_zrange]. intros; cbn; lia.
    + unfold ys. destruct (sy <? dy); [|apply SS_zrange]. apply SS_rev.
      eapply SS_impl; [|apply SS_zrange]. intros; cbn; lia.
  - intros c Hc. apply In_product in Hc as [Hx Hy]. apply In_rev_if in Hx, Hy. lia.
  - intros c Hc. apply In_product in Hc as [Hx Hy]. apply In_rev_if in Hx, Hy. lia.
  - exists r. rewrite E. cbn [bind]. split; [reflexivity|]. repeat split; auto; try apply Hwr.
    intros X Y. unfold moved_rect.
    destruct ((dx <=? X) && (X <? dx + w) && (dy <=? Y) && (Y <? dy + h)) eqn:EC.
    + specialize (Hins (X - dx, Y - dy)). cbn [fst snd] in Hins.
      replace (dx + (X - dx)) with X in Hins by lia. replace (dy + (Y - dy)) with Y in Hins by lia.
      rewrite Hins; [f_equal; lia|]. apply In_product. cbn [fst snd]. split; apply In_rev_if; lia.
    + apply Hout. intros c Hc [X1 X2]. apply In_product in Hc as [Hx Hy]. apply In_rev_if in Hx, Hy. lia.
Qed.
Lemma copy_within_reject (im : img P) sx sy w h dx dy :
  wf im -> 0 <= sx < iw im -> 0 <= dx < iw im -> 0 <= sy < ih im -> 0 <= dy < ih im -> 0 <= w -> 0 <= h ->
  iw im < sx + w \/ iw im < dx + w \/ ih im < sy + h \/ ih im < dy + h ->
  copy_within im sx sy w h dx dy = Ok (false, im).
Proof.
  intros Hwf H1 H2 H3 H4 H5 H6 H. unfold copy_within.
  replace ((sx <? iw im) && (dx <? iw im)) with true by lia.
  replace ((sy <? ih im) && (dy <? ih im)) with true by lia. cbn [negb].
  replace ((iw im - Z.max dx sx <? w) || (ih im - Z.max dy sy <? h)) with true by lia. reflexivity.
Qed.
Lemma copy_within_panic (im : img P) sx sy w h dx dy :
  iw im <= sx \/ iw im <= dx \/ ih im <= sy \/ ih im <= dy ->
  copy_within im sx sy w h dx dy = Panic.
Proof.
  intros H. unfold copy_within.
  destruct ((sx <? iw im) && (dx <? iw im)) eqn:E1; [|reflexivity].
  destruct ((sy <? ih im) && (dy <? ih im)) eqn:E2; [lia|reflexivity].
Qed.

(** ** copy_from *)
Lemma u32_add_ok m a b : 0 <= a -> 0 <= b -> a + b <= u32_max -> u32_add_m m a b = Ok (a + b).
Proof. intros. unfold u32_add_m. destruct (Z.leb_spec (a + b) u32_max); [reflexivity|lia]. Qed.

Definition pasted (dst src : img P) (x y X Y : Z) : option P :=
  match pixel src (X - x) (Y - y) with Some p => Some p | None => pixel dst X Y end.

Lemma copy_from_fits m (self other : img P) x y :
  wf self -> wf other -> is_u32 (iw self) -> is_u32 (ih self) -> is_u32 x -> is_u32 y ->
  iw other + x <= iw self -> ih other + y <= ih self ->
  exists r, copy_from m self other x y = Ok (r, inl tt) /\ wf r /\ iw r = iw self /\ ih r = ih self /\
    forall X Y, pixel r X Y = pasted self other x y X Y.
Proof.
  intros Hs Ho B1 B2 B3 B4 Fx Fy. unfold is_u32 in *.
  pose proof Ho as (O1 & O2 & _). unfold copy_from.
  rewrite u32_add_ok by lia. cbn [bind].
  replace (iw self <? iw other + x) with false by lia. rewrite u32_add_ok by lia. cbn [bind].
  replace (ih self <? ih other + y) with false by lia.
  rewrite for2_coords.
  destruct (copy_loop other fst snd (fun c => fst c + x) (fun c => snd c + y) (coords (iw other) (ih other)) self Ho Hs)
    as (r & E & Hwr & Ew & Eh & Hout & Hins).
  - intros [a b] H. apply In_coords in H. cbn. lia.
  - intros [a b] H. apply In_coords in H. cbn. lia.
  - exists r.
    assert (E' : foldM (fun (s : img P) (c : Z * Z) =>
        p <- get_pixel other (fst c) (snd c) ;; tx <- u32_add_m m (fst c) x ;; ty <- u32_add_m m (snd c) y ;;
        put_pixel s tx ty p) (coords (iw other) (ih other)) self = Ok r).
    { rewrite <- E. apply foldM_ext. intros s [a b] H. apply In_coords in H. cbn [fst snd].
      rewrite !u32_add_ok by lia. destruct (get_pixel other a b); reflexivity. }
    rewrite E'. cbn [bind]. split; [reflexivity|]. repeat split; auto; try apply Hwr.
    intros X Y. unfold pasted. destruct (pixel other (X - x) (Y - y)) as [p|] eqn:Ep.
    + pose proof (pixel_some _ _ _ _ Ep). specialize (Hins (X - x, Y - y)). cbn [fst snd] in Hins.
      replace (X - x + x) with X in Hins by lia. replace (Y - y + y) with Y in Hins by lia.
      rewrite Hins; auto; [apply In_coords; lia|]. intros; cbn in *; lia.
    + apply Hout. intros [a b] H [X1 X2]. apply In_coords in H. cbn [fst snd] in *.
      destruct (pixel_in other a b Ho) as [q Hq]; try lia.
      replace (X - x) with a in Ep by lia. replace (Y - y) with b in Ep by lia. congruence.
Qed.
Lemma copy_from_rejects m (self other : img P) x y :
  wf self -> wf other -> is_u32 x -> is_u32 y ->
  iw other + x <= u32_max -> ih other + y <= u32_max ->
  iw self < iw other + x \/ ih self < ih other + y ->
  copy_from m self other x y = Ok (self, inr EParameter).
Proof.
  intros Hs Ho B3 B4 Ox Oy H. unfold is_u32 in *. pose proof Ho as (O1 & O2 & _). unfold copy_from.
  rewrite u32_add_ok by lia. cbn [bind].
  destruct (Z.ltb_spec (iw self) (iw other + x)); cbn [bind]; [reflexivity|].
  rewrite u32_add_ok by lia. cbn [bind].
  replace (ih self <? ih other + y) with true by lia. reflexivity.
Qed.

(** ** sub-images *)
Lemma view_ok (im : img P) x y w h s :
  view im x y w h = Ok s <-> s = mkSub x y w h /\ x + w <= iw im /\ y + h <= ih im.
Proof.
  unfold view. destruct (Z.leb_spec (x + w) (iw im)); [destruct (Z.leb_spec (y + h) (ih im))|];
    (split; [intros E; try discriminate; apply Ok_inj in E; subst; auto|intros (-> & ? & ?); try lia; auto]).
Qed.
Lemma view_panics (im : img P) x y w h :
  view im x y w h = Panic <-> iw im < x + w \/ ih im < y + h.
Proof.
  unfold view. destruct (Z.leb_spec (x + w) (iw im)); [destruct (Z.leb_spec (y + h) (ih im))|];
    (split; [intros; try discriminate; lia|intros; try lia; auto]).
Qed.
Lemma sub_get_spec m (im : img P) s x y : wf im -> is_u32 (iw im) -> is_u32 (ih im) ->
  0 <= s_xo s -> 0 <= s_yo s -> s_xo s + s_w s <= iw im -> s_yo s + s_h s <= ih im ->
  0 <= x < s_w s -> 0 <= y < s_h s ->
  exists p, sub_get m im s x y = Ok p /\ pixel im (s_xo s + x) (s_yo s + y) = Some p.
Proof.
  unfold is_u32. intros Hwf B1 B2 O1 O2 F1 F2 Hx Hy. unfold sub_get.
  rewrite !u32_add_ok by lia. cbn [bind].
  destruct (pixel_in im (s_xo s + x) (s_yo s + y) Hwf) as [p Hp]; try lia.
  exists p. split; auto. rewrite (Z.add_comm x), (Z.add_comm y). unfold get_pixel. rewrite Hp. reflexivity.
Qed.
Lemma sub_put_spec m (im : img P) s x y p : wf im -> is_u32 (iw im) -> is_u32 (ih im) ->
  0 <= s_xo s -> 0 <= s_yo s -> s_xo s + s_w s <= iw im -> s_yo s + s_h s <= ih im ->
  0 <= x < s_w s -> 0 <= y < s_h s ->
  exists im', sub_put m im s x y p = Ok im' /\ wf im' /\ iw im' = iw im /\ ih im' = ih im /\
    forall X Y, pixel im' X Y = if (X =? s_xo s + x) && (Y =? s_yo s + y) then Some p else pixel im X Y.
Proof.
  unfold is_u32. intros Hwf B1 B2 O1 O2 F1 F2 Hx Hy. unfold sub_put.
  rewrite !u32_add_ok by lia. cbn [bind]. rewrite (Z.add_comm x), (Z.add_comm y).
  apply put_pixel_spec; auto; lia.
Qed.
Lemma sub_view_compose (im : img P) x y w h s x' y' w' h' s' :
  is_u32 (iw im) -> is_u32 (ih im) -> 0 <= x -> 0 <= y -> 0 <= x' -> 0 <= y' -> 0 <= w' -> 0 <= h' ->
  view im x y w h = Ok s -> sub_view s x' y' w' h' = Ok s' ->
  view im (x + x') (y + y') w' h' = Ok s' /\ x' + w' <= w /\ y' + h' <= h.
Proof.
  unfold is_u32. intros B1 B2 X Y X' Y' W' H' E E'. apply view_ok in E as (-> & F1 & F2).
  unfold sub_view in E'. cbn [s_w s_h s_xo s_yo] in E'.
  destruct (Z.leb_spec (x' + w') w); [|discriminate]. destruct (Z.leb_spec (y' + h') h); [|discriminate].
  apply Ok_inj in E'. subst s'. split; [|auto]. apply view_ok. split; [|lia].
  rewrite !Z.min_r by lia. reflexivity.
Qed.
Lemma sub_view_panics s x' y' w' h' :
  sub_view s x' y' w' h' = Panic <-> s_w s < x' + w' \/ s_h s < y' + h'.
Proof.
  unfold sub_view. destruct (Z.leb_spec (x' + w') (s_w s)); [destruct (Z.leb_spec (y' + h') (s_h s))|];
    (split; [intros; try discriminate; lia|intros; try lia; auto]).
Qed.
Lemma to_image_spec m z (im : img P) s : wf im -> is_u32 (iw im) -> is_u32 (ih im) ->
  0 <= s_xo s -> 0 <= s_yo s -> 0 <= s_w s -> 0 <= s_h s ->
  s_xo s + s_w s <= iw im -> s_yo s + s_h s <= ih im ->
  exists r, to_image m z im s = Ok r /\ wf r /\ iw r = s_w s /\ ih r = s_h s /\
    forall x y, 0 <= x < s_w s -> 0 <= y < s_h s -> pixel r x y = pixel im (s_xo s + x) (s_yo s + y).
Proof.
  unfold is_u32. intros Hwf B1 B2 O1 O2 W H F1 F2. unfold to_image. rewrite for2_coords.
  destruct (copy_loop im (fun c => s_xo s + fst c) (fun c => s_yo s + snd c) fst snd (coords (s_w s) (s_h s))
     (new_img (s_w s) (s_h s) z) Hwf (wf_new_img _ _ z W H)) as (r & E & Hwr & Ew & Eh & Hout & Hins).
  - intros [a b] Hc. apply In_coords in Hc. cbn. lia.
  - intros [a b] Hc. apply In_coords in Hc. cbn. lia.
  - exists r. split.
    { rewrite <- E. apply foldM_ext. intros t [a b] Hc. apply In_coords in Hc. unfold sub_get. cbn [fst snd].
      rewrite !u32_add_ok by lia. cbn [bind]. rewrite (Z.add_comm a), (Z.add_comm b). reflexivity. }
    split; [auto|]. split; [auto|]. split; [auto|]. intros x y Hx Hy.
    apply (Hins (x, y)); [apply In_coords; auto|]. intros [a b] Hc E1 E2. cbn in *. lia.
Qed.

Lemma crop_spec (im : img P) x y w h :
  wf im -> 0 <= x -> 0 <= y -> 0 <= w -> 0 <= h ->
  let s := crop im x y w h in
  0 <= s_w s <= w /\ 0 <= s_h s <= h /\ 0 <= s_xo s /\ 0 <= s_yo s /\
  s_xo s + s_w s <= iw im /\ s_yo s + s_h s <= ih im /\
  forall X Y, (s_xo s <= X < s_xo s + s_w s <-> x <= X < x + w /\ 0 <= X < iw im) /\
              (s_yo s <= Y < s_yo s + s_h s <-> y <= Y < y + h /\ 0 <= Y < ih im).
Proof.
  intros (W & H & _) Hx Hy Hw Hh. unfold crop, crop_dimms. cbn [s_w s_h s_xo s_yo]. cbv zeta. cbn [s_w s_h s_xo s_yo]. do 6 (split; [lia|]). intros X Y. lia.
Qed.
(** cropping and copying out: pixel (i,j) of the result is pixel (x+i, y+j) of the image *)
Lemma crop_to_image m z (im : img P) x y w h :
  wf im -> is_u32 (iw im) -> is_u32 (ih im) -> 0 <= x -> 0 <= y -> 0 <= w -> 0 <= h ->
  exists r, to_image m z im (crop im x y w h) = Ok r /\ wf r /\
    iw r = Z.max 0 (Z.min (x + w) (iw im) - x) /\ ih r = Z.max 0 (Z.min (y + h) (ih im) - y) /\
    forall i j, 0 <= i < iw r -> 0 <= j < ih r -> pixel r i j = pixel im (x + i) (y + j).
Proof.
  intros Hwf B1 B2 Hx Hy Hw Hh. pose proof (crop_spec im x y w h Hwf Hx Hy Hw Hh) as H. cbv zeta in H.
  destruct H as (A1 & A2 & A3 & A4 & A5 & A6 & _).
  destruct (to_image_spec m z im (crop im x y w h) Hwf B1 B2) as (r & E & Hwr & Ew & Eh & Hp); try lia.
  exists r. split; [auto|]. split; [auto|].
  unfold crop, crop_dimms in *. cbn [s_w s_h s_xo s_yo] in *. destruct Hwf as (W & H & _).
  split; [lia|]. split; [lia|]. intros i j Hi Hj. rewrite Hp by lia. f_equal; lia.
Qed.
End G.
