From Coq Require Import ZArith Bool Lia Sorted.
From Verif Require Import Base BaseLemmas ListLemmas Color ColorProofs Dither DitherSpec.
Local Open Scope Z_scope.

(** ** visiting pixels, abstractly *)
Section visits.
  Context {C P : Type} (eqb : C -> C -> bool) (eqb_ok : forall a b, eqb a b = true <-> a = b).
  Variable mc : P -> P.
  Variable reach : C -> C -> P -> P -> P.   (* reach c d old p: the effect of visiting c, of old value old, on the value p of d *)
  Variable quiet : C -> C -> Prop.          (* quiet c d: visiting c does not change d *)
  Hypothesis quiet_ok : forall c d old p, quiet c d -> reach c d old p = p.
  Definition visitf (g : C -> P) (c : C) : C -> P := fun d => if eqb d c then mc (g c) else reach c d (g c) (g d).
  Lemma visits_other l : forall g d, (forall c, In c l -> d <> c /\ quiet c d) -> fold_left visitf l g d = g d.
  Proof.
    induction l as [|c l IH]; intros g d H; [reflexivity|]. cbn [fold_left]. rewrite IH by (intros; apply H; right; assumption). destruct (H c (or_introl eq_refl)) as (N & Q). unfold visitf. destruct (eqb d c) eqn:E; [apply eqb_ok in E; contradiction|]. apply quiet_ok. exact Q.
  Qed.
  Lemma fold_quiet l (seen : C -> P) d : forall p, (forall c, In c l -> quiet c d) -> fold_left (fun p c => reach c d (seen c) p) l p = p.
  Proof. induction l as [|c l IH]; intros p H; [reflexivity|]. cbn [fold_left]. rewrite (quiet_ok c d) by (apply H; left; reflexivity). apply IH. intros; apply H; right; assumption. Qed.
  Lemma fold_seen l (s s' : C -> P) d : forall p, (forall c, In c l -> s c = s' c) -> fold_left (fun p c => reach c d (s c) p) l p = fold_left (fun p c => reach c d (s' c) p) l p.
  Proof. induction l as [|c l IH]; intros p H; [reflexivity|]. cbn [fold_left]. rewrite (H c (or_introl eq_refl)). apply IH. intros; apply H; right; assumption. Qed.
  Lemma visits l : forall g, NoDup l -> ForallOrdPairs (fun c d => quiet d c) l -> (forall c, In c l -> quiet c c) ->
    exists seen, forall d, In d l -> fold_left visitf l g d = mc (seen d) /\ seen d = fold_left (fun p c => reach c d (seen c) p) l (g d).
  Proof.
    induction l as [|c l IH]; intros g ND OP QS; [exists g; intros d []|]. inversion_clear ND as [|? ? N1 N2]. inversion_clear OP as [|? ? O1 O2].
    destruct (IH (visitf g c) N2 O2 (fun d H => QS d (or_intror H))) as (seen & HS). exists (fun d => if eqb d c then g c else seen d). intros d [<-|Hd].
    - assert (EC : eqb c c = true) by (apply eqb_ok; reflexivity). rewrite EC. split.
      + cbn [fold_left]. rewrite visits_other. * unfold visitf. rewrite EC. reflexivity. * intros c' Hc'. split; [intros ->; contradiction|]. exact (proj1 (Forall_forall _ _) O1 c' Hc').
      + symmetry. apply fold_quiet. intros c' [<-|Hc']; [apply QS; left; reflexivity|exact (proj1 (Forall_forall _ _) O1 c' Hc')].
    - assert (ND : d <> c) by (intros ->; contradiction). destruct (eqb d c) eqn:E; [apply eqb_ok in E; contradiction|]. destruct (HS d Hd) as (H1 & H2). split; [exact H1|]. cbn [fold_left].
      assert (EC : eqb c c = true) by (apply eqb_ok; reflexivity). rewrite EC. rewrite H2 at 1. unfold visitf at 1. rewrite E. apply fold_seen. intros c' Hc'. destruct (eqb c' c) eqn:E'; [apply eqb_ok in E'; subst; contradiction|reflexivity].
  Qed.
End visits.

(** ** sorted lists *)
Lemma sorted_map {A} (f : A -> Z) l : StronglySorted Z.lt (map f l) -> StronglySorted (fun a b => f a < f b) l.
Proof. induction l as [|a l IH]; intros H; [constructor|]. cbn [map] in H. inversion_clear H as [|? ? H1 H2]. constructor; [apply IH; exact H1|]. apply Forall_forall. intros b Hb. apply (proj1 (Forall_forall _ _) H2). apply in_map. exact Hb. Qed.
Lemma zrange_sorted a n : StronglySorted Z.lt (zrange a n).
Proof.
  destruct (Z_le_gt_dec n 0) as [N|N]. - replace (zrange a n) with (@nil Z); [constructor|]. symmetry. destruct (zrange a n) as [|b l] eqn:E; [reflexivity|]. assert (H : In b (zrange a n)) by (rewrite E; left; reflexivity). apply In_zrange in H. lia.
  - revert a. assert (G : forall m a, StronglySorted Z.lt (zrange a (Z.of_nat m))); [|intros a; specialize (G (Z.to_nat n) a); rewrite Z2Nat.id in G by lia; exact G]. induction m as [|m IH]; intros a; [constructor|]. rewrite zrange_cons by lia. constructor; [replace (Z.of_nat (S m) - 1) with (Z.of_nat m) by lia; apply IH|]. apply Forall_forall. intros b Hb. apply In_zrange in Hb. lia.
Qed.
Lemma sorted_filter {A} (R : A -> A -> Prop) f l : StronglySorted R l -> StronglySorted R (filter f l).
Proof. induction 1 as [|a l H IH F]; [constructor|]. cbn [filter]. destruct (f a); [|exact IH]. constructor; [exact IH|]. apply Forall_forall. intros b Hb. apply filter_In in Hb. exact (proj1 (Forall_forall _ _) F b (proj1 Hb)). Qed.
Lemma sorted_map_filter {A B} (R : B -> B -> Prop) (g : A -> B) f l : StronglySorted R (map g l) -> StronglySorted R (map g (filter f l)).
Proof. induction l as [|a l IH]; intros H; [constructor|]. cbn [map] in H. inversion_clear H as [|? ? H1 H2]. cbn [filter]. destruct (f a); [|apply IH; exact H1]. cbn [map]. constructor; [apply IH; exact H1|]. apply Forall_forall. intros b Hb. apply in_map_iff in Hb. destruct Hb as (c & <- & Hc). apply filter_In in Hc. apply (proj1 (Forall_forall _ _) H2). apply in_map. exact (proj1 Hc). Qed.
Lemma sorted_unique {A} (R : A -> A -> Prop) : (forall a b c, R a b -> R b c -> R a c) -> (forall a, ~ R a a) -> forall l1 l2, StronglySorted R l1 -> StronglySorted R l2 -> (forall x, In x l1 <-> In x l2) -> l1 = l2.
Proof.
  intros T I. induction l1 as [|a l1 IH]; intros [|b l2] H1 H2 H; [reflexivity|exfalso; apply (proj2 (H b)); left; reflexivity|exfalso; apply (proj1 (H a)); left; reflexivity|].
  inversion_clear H1 as [|? ? S1 F1]. inversion_clear H2 as [|? ? S2 F2]. rewrite Forall_forall in F1, F2.
  assert (E : a = b). { destruct (proj1 (H a) (or_introl eq_refl)) as [E|E]; [symmetry; exact E|]. destruct (proj2 (H b) (or_introl eq_refl)) as [E'|E']; [exact E'|]. exfalso. apply (I a). exact (T _ _ _ (F1 b E') (F2 a E)). }
  subst b. f_equal. apply IH; [exact S1|exact S2|]. intros x. split; intros Hx.
  - destruct (proj1 (H x) (or_intror Hx)) as [<-|E]; [exfalso; exact (I a (F1 a Hx))|exact E].
  - destruct (proj2 (H x) (or_intror Hx)) as [<-|E]; [exfalso; exact (I a (F2 a Hx))|exact E].
Qed.
Lemma ssorted_fop {A} (R : A -> A -> Prop) l : StronglySorted R l -> ForallOrdPairs R l.
Proof. induction 1; constructor; assumption. Qed.
Lemma bind_assoc' {A B C} (r : res A) (f : A -> res B) (g : B -> res C) : bind (bind r f) g = bind r (fun a => bind (f a) g).
Proof. destruct r; reflexivity. Qed.
(** ** the error terms *)
Lemma clamp3 v : (if v <? 0 then 0 else if v >? 255 then 255 else v) = clampz 0 255 v.
Proof. unfold clampz. destruct (Z.ltb_spec v 0); [lia|]. destruct (Z.gtb_spec v 255); lia. Qed.
Definition same_len (a b : list Z) : Prop := length a = length b.
Lemma diffuse_ok k err old new p f : length err = 3%nat -> is_pixel U8 k old -> is_pixel U8 k new -> is_pixel U8 k p -> diffuse p (new_err err old new) f = add_error f old new p.
Proof.
  intros HE (L1 & _) (L2 & _) (L3 & _). destruct err as [|e0 [|e1 [|e2 [|]]]]; try discriminate HE.
  unfold zlen in *. destruct k; cbn [nch] in *;
    (destruct old as [|o0 [|o1 [|o2 [|o3 [|]]]]]; try (cbn in L1; lia)); (destruct new as [|n0 [|n1 [|n2 [|n3 [|]]]]]; try (cbn in L2; lia)); (destruct p as [|p0 [|p1 [|p2 [|p3 [|]]]]]; try (cbn in L3; lia));
    unfold add_error; cbn [new_err diffuse firstn skipn combine map app]; cbv zeta; rewrite ?clamp3; reflexivity.
Qed.
Lemma new_err_len err old new : length (new_err err old new) = length err.
Proof. revert old new. induction err as [|e err IH]; intros [|o old] [|n new]; cbn [new_err length]; try reflexivity. rewrite IH. reflexivity. Qed.
Lemma add_error_ok k old new p f : is_pixel U8 k old -> is_pixel U8 k new -> is_pixel U8 k p -> is_pixel U8 k (add_error f old new p).
Proof.
  intros (L1 & _) (L2 & _) (L3 & F3).
  assert (CL : forall v, is_sample U8 (clampz 0 255 v)) by (intros v; change (0 <= clampz 0 255 v <= 255); unfold clampz; lia).
  unfold zlen, is_pixel in *. unfold zlen. destruct k; cbn [nch] in *;
    (destruct old as [|o0 [|o1 [|o2 [|o3 [|]]]]]; try (cbn in L1; lia)); (destruct new as [|n0 [|n1 [|n2 [|n3 [|]]]]]; try (cbn in L2; lia)); (destruct p as [|p0 [|p1 [|p2 [|p3 [|]]]]]; try (cbn in L3; lia));
    unfold add_error; cbn [firstn skipn combine map app].
  - split; [reflexivity|]. constructor; [apply CL|constructor].
  - split; [reflexivity|]. constructor; [apply CL|constructor; [apply CL|constructor]].
  - split; [reflexivity|]. constructor; [apply CL|constructor; [apply CL|constructor; [apply CL|constructor]]].
  - split; [reflexivity|]. constructor; [apply CL|constructor; [apply CL|constructor; [apply CL|constructor; [|constructor]]]]. exact (Forall_inv (Forall_inv_tail (Forall_inv_tail (Forall_inv_tail F3)))).
Qed.

(** ** the loop *)
Section loop.
  Variable mc : list Z -> list Z.
  Variable k : kind.
  Hypothesis mc_ok : forall p, is_pixel U8 k p -> is_pixel U8 k (mc p).
  Variables w h : Z.
  Hypothesis Hw : 2 <= w.
  Hypothesis Hh : 1 <= h.

  Definition eqc (a b : Z * Z) : bool := (fst a =? fst b) && (snd a =? snd b).
  Lemma eqc_ok a b : eqc a b = true <-> a = b.
  Proof. destruct a, b. unfold eqc. cbn [fst snd]. rewrite andb_true_iff, !Z.eqb_eq. split; [intros (-> & ->); reflexivity|]. intros H. split; congruence. Qed.
  (** the factor from c to d *)
  Definition factor (c d : Z * Z) : option Z :=
    let dx := fst d - fst c in let dy := snd d - snd c in
    if (dy =? 0) && (dx =? 1) then Some 7 else if (dy =? 1) && (dx =? -1) then Some 3 else if (dy =? 1) && (dx =? 0) then Some 5 else if (dy =? 1) && (dx =? 1) then Some 1 else None.
  Definition reach (c d : Z * Z) (old p : list Z) : list Z := match factor c d with Some f => add_error f old (mc old) p | None => p end.
  Definition quiet (c d : Z * Z) : Prop := factor c d = None.
  Definition vis := visitf eqc mc reach.

  (** [im] holds the values [g] *)
  Definition holds (im : img (list Z)) (g : Z * Z -> list Z) : Prop :=
    wf im /\ iw im = w /\ ih im = h /\ forall x y, 0 <= x < w -> 0 <= y < h -> pixel im x y = Some (g (x, y)) /\ is_pixel U8 k (g (x, y)).
  Definition upd (g : Z * Z -> list Z) (c : Z * Z) (p : list Z) : Z * Z -> list Z := fun d => if eqc d c then p else g d.
  Lemma holds_put im g x y p : holds im g -> 0 <= x < w -> 0 <= y < h -> is_pixel U8 k p -> exists im', put_pixel im x y p = Ok im' /\ holds im' (upd g (x, y) p).
  Proof.
    intros (W & E1 & E2 & G) Hx Hy HP. destruct (put_pixel_spec im x y p W ltac:(lia) ltac:(lia)) as (im' & E & W' & F1 & F2 & GP). exists im'. split; [exact E|]. split; [exact W'|]. split; [lia|]. split; [lia|]. intros x' y' Hx' Hy'. rewrite GP. unfold upd, eqc. cbn [fst snd].
    destruct ((x' =? x) && (y' =? y)); [split; [reflexivity|exact HP]|apply G; assumption].
  Qed.
  Lemma holds_get im g x y : holds im g -> 0 <= x < w -> 0 <= y < h -> get_pixel im x y = Ok (g (x, y)) /\ is_pixel U8 k (g (x, y)).
  Proof. intros (W & E1 & E2 & G) Hx Hy. destruct (G x y Hx Hy) as (H1 & H2). split; [apply get_pixel_ok; exact H1|exact H2]. Qed.
  Lemma holds_ext im g g' : holds im g -> (forall x y, 0 <= x < w -> 0 <= y < h -> g (x, y) = g' (x, y)) -> holds im g'.
  Proof. intros (W & E1 & E2 & G) H. split; [exact W|]. split; [exact E1|]. split; [exact E2|]. intros x y Hx Hy. rewrite <- H by assumption. apply G; assumption. Qed.

  (** state: the error array is the error of some pixel value [old] *)
  Definition st (s : img (list Z) * list Z) (g : Z * Z -> list Z) (old : list Z) : Prop := holds (fst s) g /\ exists err, length err = 3%nat /\ snd s = new_err err old (mc old) /\ is_pixel U8 k old.
  Definition st0 (s : img (list Z) * list Z) (g : Z * Z -> list Z) : Prop := holds (fst s) g /\ length (snd s) = 3%nat.
  Lemma st_st0 s g old : st s g old -> st0 s g.
  Proof. intros (H & err & L & E & _). split; [exact H|]. rewrite E, new_err_len. exact L. Qed.
  Lemma do_ok s g x y : st0 s g -> 0 <= x < w -> 0 <= y < h -> exists s', do_dithering mc s x y = Ok s' /\ st s' (upd g (x, y) (mc (g (x, y)))) (g (x, y)).
  Proof.
    intros (H & L) Hx Hy. destruct s as [im err]. cbn [fst snd] in *. destruct (holds_get im g x y H Hx Hy) as (E & PX). destruct (holds_put im g x y (mc (g (x, y))) H Hx Hy (mc_ok _ PX)) as (im' & E' & H').
    unfold do_dithering. rewrite E. cbn [bind]. rewrite E'. cbn [bind]. eexists. split; [reflexivity|]. split; [exact H'|]. exists err. cbn [snd]. auto.
  Qed.
  Lemma spread_ok s g old x y f : st s g old -> 0 <= x < w -> 0 <= y < h -> exists s', spread x y f s = Ok s' /\ st s' (upd g (x, y) (add_error f old (mc old) (g (x, y)))) old.
  Proof.
    intros (H & err & L & E & PO) Hx Hy. destruct s as [im err']. cbn [fst snd] in *. subst err'. destruct (holds_get im g x y H Hx Hy) as (E & PX). unfold spread. rewrite E. cbn [bind]. rewrite (diffuse_ok k) by auto.
    destruct (holds_put im g x y (add_error f old (mc old) (g (x, y))) H Hx Hy) as (im' & E' & H'); [apply add_error_ok; auto|]. rewrite E'. cbn [bind]. eexists. split; [reflexivity|]. split; [exact H'|]. exists err. cbn [snd]. auto.
  Qed.
  (** the code at one pixel, with the accesses of the four cases *)
  Definition at_pixel (s : img (list Z) * list Z) (x y : Z) : res (img (list Z) * list Z) :=
    s <- do_dithering mc s x y ;;
    s <- (if x <? w - 1 then spread (x + 1) y 7 s else Ok s) ;;
    s <- (if (0 <? x) && (y <? h - 1) then spread (x - 1) (y + 1) 3 s else Ok s) ;;
    s <- (if y <? h - 1 then spread x (y + 1) 5 s else Ok s) ;;
    if (x <? w - 1) && (y <? h - 1) then spread (x + 1) (y + 1) 1 s else Ok s.
  Lemma spread_if b s g old x y f : st s g old -> (b = true -> 0 <= x < w /\ 0 <= y < h) -> exists s', (if b then spread x y f s else Ok s) = Ok s' /\ st s' (if b then upd g (x, y) (add_error f old (mc old) (g (x, y))) else g) old.
  Proof. intros H HB. destruct b; [apply spread_ok; [exact H|apply HB; reflexivity|apply HB; reflexivity]|]. exists s. split; [reflexivity|exact H]. Qed.
  Lemma at_pixel_ok s g x y : st0 s g -> 0 <= x < w -> 0 <= y < h -> exists s', at_pixel s x y = Ok s' /\ st0 s' (vis g (x, y)).
  Proof.
    intros H Hx Hy. unfold at_pixel. destruct (do_ok s g x y H Hx Hy) as (s1 & E1 & H1). rewrite E1. cbn [bind].
    destruct (spread_if (x <? w - 1) s1 _ _ (x + 1) y 7 H1 ltac:(intros; lia)) as (s2 & E2 & H2). rewrite E2. cbn [bind].
    destruct (spread_if ((0 <? x) && (y <? h - 1)) s2 _ _ (x - 1) (y + 1) 3 H2 ltac:(intros; lia)) as (s3 & E3 & H3). rewrite E3. cbn [bind].
    destruct (spread_if (y <? h - 1) s3 _ _ x (y + 1) 5 H3 ltac:(intros; lia)) as (s4 & E4 & H4). rewrite E4. cbn [bind].
    destruct (spread_if ((x <? w - 1) && (y <? h - 1)) s4 _ _ (x + 1) (y + 1) 1 H4 ltac:(intros; lia)) as (s5 & E5 & H5). exists s5. split; [exact E5|]. apply st_st0 in H5. destruct H5 as (H5 & L5). split; [|exact L5]. apply (holds_ext _ _ _ H5).
    intros x' y' Hx' Hy'. clear - Hx Hy Hx' Hy'. unfold vis, visitf, reach, factor, upd, eqc.
    destruct (Z.ltb_spec x (w - 1)); destruct (Z.ltb_spec 0 x); destruct (Z.ltb_spec y (h - 1)); cbn [andb fst snd]; cbv beta zeta; cbn [fst snd];
      destruct (Z.eqb_spec x' x); destruct (Z.eqb_spec y' y); cbn [andb]; try lia;
      destruct (Z.eqb_spec x' (x + 1)); destruct (Z.eqb_spec x' (x - 1)); destruct (Z.eqb_spec y' (y + 1)); cbn [andb]; try lia; subst;
      repeat (match goal with |- context [?a =? ?b] => first [replace (a =? b) with true by lia | replace (a =? b) with false by lia] end; cbn [andb]); reflexivity.
  Qed.

  Lemma bind_ret {A} (r : res A) : bind r Ok = r. Proof. destruct r; reflexivity. Qed.
  Lemma bind_ext {A B} (r : res A) (f g : A -> res B) : (forall a, f a = g a) -> bind r f = bind r g.
  Proof. intros H. destruct r; cbn [bind]; [apply H|reflexivity|reflexivity]. Qed.
  Lemma row_cols : zrange 0 w = [0] ++ zrange 1 (w - 2) ++ [w - 1].
  Proof. rewrite zrange_cons by lia. cbn [app]. f_equal. replace (w - 1) with (w - 2 + 1) at 1 by lia. rewrite zrange_snoc by lia. do 2 f_equal. lia. Qed.
  Lemma row_at s y : 0 <= y < h - 1 -> dither_row mc w y s = foldM (fun s x => at_pixel s x y) (zrange 0 w) s.
  Proof.
    intros Hy. rewrite row_cols. rewrite !foldM_app. unfold dither_row. cbn [foldM]. unfold at_pixel at 1. replace (0 <? w - 1) with true by lia. replace (y <? h - 1) with true by lia. cbn [andb bind]. change (0 <? 0) with false. cbn [andb]. change (0 + 1) with 1.
    rewrite ?bind_assoc'. apply bind_ext. intros s1. rewrite ?bind_assoc'. apply bind_ext. intros s2. cbn [bind]. rewrite ?bind_assoc'. apply bind_ext. intros s3. rewrite ?bind_assoc'. apply bind_ext. intros s4. cbn [bind].
    rewrite foldM_app. match goal with |- bind ?a _ = bind ?b _ => replace b with a end.
    - apply bind_ext. intros s5. cbn [foldM]. unfold at_pixel. replace (w - 1 <? w - 1) with false by lia. replace (0 <? w - 1) with true by lia. replace (y <? h - 1) with true by lia. cbn [andb bind]. replace (w - 1 - 1) with (w - 2) by lia.
      rewrite ?bind_assoc'. apply bind_ext. intros s6. cbn [bind]. rewrite ?bind_assoc'. apply bind_ext. intros s7. rewrite bind_ret, bind_ret. reflexivity.
    - apply foldM_ext. intros s5 x Hx. apply In_zrange in Hx. unfold at_pixel. replace (x <? w - 1) with true by lia. replace (0 <? x) with true by lia. replace (y <? h - 1) with true by lia. cbn [andb]. reflexivity.
  Qed.
  Lemma last_at s : dither_last mc w (h - 1) s = foldM (fun s x => at_pixel s x (h - 1)) (zrange 0 w) s.
  Proof.
    rewrite row_cols. rewrite !foldM_app. unfold dither_last. cbn [foldM]. unfold at_pixel at 1. replace (0 <? w - 1) with true by lia. replace (h - 1 <? h - 1) with false by lia. cbn [andb bind]. change (0 <? 0) with false. cbn [andb]. change (0 + 1) with 1.
    rewrite ?bind_assoc'. apply bind_ext. intros s1. cbn [bind]. rewrite ?bind_assoc'. apply bind_ext. intros s2. cbn [bind].
    rewrite foldM_app. match goal with |- bind ?a _ = bind ?b _ => replace b with a end.
    - apply bind_ext. intros s5. cbn [foldM]. unfold at_pixel. replace (w - 1 <? w - 1) with false by lia. replace (h - 1 <? h - 1) with false by lia. replace (0 <? w - 1) with true by lia. cbn [andb bind].
      rewrite !bind_ret. cbn [bind]. rewrite ?bind_ret. reflexivity.
    - apply foldM_ext. intros s5 x Hx. apply In_zrange in Hx. unfold at_pixel. replace (x <? w - 1) with true by lia. replace (0 <? x) with true by lia. replace (h - 1 <? h - 1) with false by lia. cbn [andb]. apply bind_ext. intros s6. cbn [bind]. rewrite bind_ret. reflexivity.
  Qed.
  Lemma dither_coords im : iw im = w -> ih im = h -> dither mc im = bind (foldM (fun s c => at_pixel s (fst c) (snd c)) (coords w h) (im, [0; 0; 0])) (fun s => Ok (fst s)).
  Proof.
    intros E1 E2. unfold dither. rewrite E1, E2. replace (h =? 0) with false by lia. rewrite <- (for2_coords w h (fun s x y => at_pixel s x y)). unfold for2. replace (zrange 0 h) with (zrange 0 (h - 1) ++ [h - 1]) by (replace h with (h - 1 + 1) at 3 by lia; rewrite zrange_snoc by lia; reflexivity).
    rewrite foldM_app. rewrite bind_assoc'. match goal with |- bind ?a _ = bind ?b _ => replace b with a end.
    - apply bind_ext. intros s. cbn [foldM]. rewrite last_at. rewrite bind_ret. reflexivity.
    - apply foldM_ext. intros s y Hy. apply In_zrange in Hy. apply row_at. lia.
  Qed.
  Lemma at_fold l : forall s g, (forall c, In c l -> 0 <= fst c < w /\ 0 <= snd c < h) -> st0 s g -> exists s', foldM (fun s c => at_pixel s (fst c) (snd c)) l s = Ok s' /\ st0 s' (fold_left vis l g).
  Proof.
    induction l as [|[x y] l IH]; intros s g HL H; [exists s; split; [reflexivity|exact H]|]. destruct (HL (x, y) (or_introl eq_refl)) as (Hx & Hy). cbn [fst snd] in *. destruct (at_pixel_ok s g x y H Hx Hy) as (s1 & E & H1). cbn [foldM fold_left fst snd]. rewrite E. cbn [bind]. apply IH; [intros; apply HL; right; assumption|exact H1].
  Qed.
  (** *** the order of visits *)
  Definition idx (c : Z * Z) : Z := snd c * w + fst c.
  Definition before (c d : Z * Z) : Prop := idx c < idx d.
  Lemma coords_sorted : StronglySorted before (coords w h).
  Proof. apply sorted_map. unfold idx. rewrite coords_idx by lia. apply zrange_sorted. Qed.
  Lemma quiet_back c d : 0 <= fst c < w -> 0 <= fst d < w -> idx c <= idx d -> quiet d c.
  Proof.
    destruct c as [x y], d as [x' y']. unfold idx, quiet, factor. cbn [fst snd]. cbv zeta. intros H1 H2 H.
    destruct (Z.eqb_spec (y - y') 0); destruct (Z.eqb_spec (y - y') 1); try lia; cbn [andb].
    - destruct (Z.eqb_spec (x - x') 1); [|reflexivity]. exfalso. replace y with y' in H by lia. lia.
    - reflexivity.
  Qed.
  Definition hits (d c : Z * Z) : bool := match factor c d with Some _ => true | None => false end.
  Lemma fold_hits (seen : Z * Z -> list Z) d l : forall p, fold_left (fun p c => reach c d (seen c) p) l p = fold_left (fun p c => reach c d (seen c) p) (filter (hits d) l) p.
  Proof. induction l as [|c l IH]; intros p; [reflexivity|]. cbn [filter fold_left]. assert (Q : hits d c = false -> reach c d (seen c) p = p) by (unfold hits, reach; destruct (factor c d); [discriminate|reflexivity]). destruct (hits d c); [cbn [fold_left]; apply IH|]. rewrite Q by reflexivity. apply IH. Qed.
  Definition spot (e : Z * Z * Z) : Z * Z := fst e.
  Lemma sources_ok x y : 0 <= x < w -> 0 <= y < h -> filter (hits (x, y)) (coords w h) = map spot (sources w x y).
  Proof.
    intros Hx Hy. apply (sorted_unique before).
    - intros a b c. unfold before. lia.
    - intros a. unfold before. lia.
    - apply sorted_filter. exact coords_sorted.
    - unfold sources. cbn [filter]. replace (x - 1 <? w) with true by lia. replace (x <? w) with true by lia. replace (0 <=? x) with true by lia. replace (0 <=? x + 1) with true by lia. replace (0 <=? y) with true by lia. destruct (Z.leb_spec 0 (x - 1)); destruct (Z.leb_spec 0 (y - 1)); destruct (Z.ltb_spec (x + 1) w); cbn [andb map spot fst]; unfold before, idx; repeat first [apply SSorted_nil | apply SSorted_cons | apply Forall_nil | apply Forall_cons]; cbn [spot fst snd]; nia.
    - intros [x' y']. rewrite filter_In, In_coords, in_map_iff. unfold sources. split.
      + intros ((Hx' & Hy') & HH). unfold hits, factor in HH. cbn [fst snd] in HH. cbv zeta in HH.
        destruct (Z.eqb_spec (y - y') 0); destruct (Z.eqb_spec (y - y') 1); try lia; cbn [andb] in HH.
        * destruct (Z.eqb_spec (x - x') 1); [|discriminate HH]. exists (x - 1, y, 7). split; [unfold spot; cbn [fst]; f_equal; lia|]. apply filter_In. split; [cbn; auto|]. cbv beta iota. lia.
        * destruct (Z.eqb_spec (x - x') (-1)). { exists (x + 1, y - 1, 3). split; [unfold spot; cbn [fst]; f_equal; lia|]. apply filter_In. split; [cbn; auto|]. cbv beta iota. lia. }
          destruct (Z.eqb_spec (x - x') 0). { exists (x, y - 1, 5). split; [unfold spot; cbn [fst]; f_equal; lia|]. apply filter_In. split; [cbn; auto|]. cbv beta iota. lia. }
          destruct (Z.eqb_spec (x - x') 1); [|discriminate HH]. exists (x - 1, y - 1, 1). split; [unfold spot; cbn [fst]; f_equal; lia|]. apply filter_In. split; [cbn; auto|]. cbv beta iota. lia.
        * discriminate HH.
      + intros ([[a b] f] & E & HF). unfold spot in E. cbn [fst] in E. assert (a = x' /\ b = y') as (-> & ->) by (split; congruence). clear E. apply filter_In in HF. destruct HF as (HF & HB). cbv beta iota in HB. cbn [In] in HF.
        assert (CS : (x' = x - 1 /\ y' = y - 1) \/ (x' = x /\ y' = y - 1) \/ (x' = x + 1 /\ y' = y - 1) \/ (x' = x - 1 /\ y' = y)) by (destruct HF as [HF|[HF|[HF|[HF|[]]]]]; [left|right; left|right; right; left|right; right; right]; split; congruence).
        clear HF. split; [lia|]. unfold hits, factor. cbn [fst snd]. cbv zeta. destruct CS as [(-> & ->)|[(-> & ->)|[(-> & ->)|(-> & ->)]]];
          repeat match goal with |- context [?a =? ?b] => first [replace (a =? b) with true by lia | replace (a =? b) with false by lia] end; reflexivity.
  Qed.
  Lemma fold_sources (seen : Z -> Z -> list Z) x y p : 0 <= x < w -> 0 <= y < h ->
    fold_left (fun p c => reach c (x, y) (seen (fst c) (snd c)) p) (coords w h) p = fold_left (fun p '(x', y', f) => add_error f (seen x' y') (mc (seen x' y')) p) (sources w x y) p.
  Proof.
    intros Hx Hy. rewrite (fold_hits (fun c => seen (fst c) (snd c))). rewrite sources_ok by assumption.
    assert (FS : Forall (fun e : Z * Z * Z => factor (fst e) (x, y) = Some (snd e)) (sources w x y)).
    { unfold sources. apply Forall_forall. intros [[a b] f] H. apply filter_In in H. destruct H as (H & _). cbn [In] in H. unfold factor. cbn [fst snd]. cbv zeta.
      destruct H as [H|[H|[H|[H|[]]]]]; assert (E : a = fst (fst (a, b, f)) /\ b = snd (fst (a, b, f)) /\ f = snd (a, b, f)) by (split; [reflexivity|split; reflexivity]); destruct E as (E1 & E2 & E3); rewrite <- H in E1, E2, E3; cbn [fst snd] in E1, E2, E3; subst a b f;
        repeat match goal with |- context [?a =? ?b] => first [replace (a =? b) with true by lia | replace (a =? b) with false by lia] end; reflexivity. }
    revert p FS. generalize (sources w x y) as l. induction l as [|[[a b] f] l IH]; intros p FS; [reflexivity|]. inversion_clear FS as [|? ? F1 F2]. cbn [fst snd] in F1. cbn [map fold_left spot fst]. unfold reach at 2. cbn [spot fst snd]. rewrite F1. apply IH. exact F2.
  Qed.
  Lemma dither_ok im (orig : Z -> Z -> list Z) : wf im -> iw im = w -> ih im = h -> Forall (is_pixel U8 k) (px im) -> (forall x y, 0 <= x < w -> 0 <= y < h -> pixel im x y = Some (orig x y)) ->
    exists r seen, dither mc im = Ok r /\ wf r /\ iw r = w /\ ih r = h /\ diffused w h mc orig seen /\ forall x y, 0 <= x < w -> 0 <= y < h -> pixel r x y = Some (mc (seen x y)) /\ is_pixel U8 k (mc (seen x y)).
  Proof.
    intros W E1 E2 F G. set (g := fun c : Z * Z => orig (fst c) (snd c)).
    assert (H0 : st0 (im, [0; 0; 0]) g). { split; [|reflexivity]. cbn [fst]. split; [exact W|]. split; [exact E1|]. split; [exact E2|]. intros x y Hx Hy. split; [apply G; assumption|]. unfold g. cbn [fst snd]. pose proof (G x y Hx Hy) as E. unfold pixel in E. destruct (inb im x y); [|discriminate E]. apply zget_In in E. exact (proj1 (Forall_forall _ _) F _ E). }
    destruct (at_fold (coords w h) (im, [0; 0; 0]) g) as (s & E & (HH & _)). { intros [x y] H. apply In_coords in H. cbn [fst snd]. exact H. } { exact H0. }
    destruct (visits eqc eqc_ok mc reach quiet) with (l := coords w h) (g := g) as (seen & HS).
    - intros c d old p Q. unfold reach. rewrite Q. reflexivity.
    - apply NoDup_coords.
    - apply ssorted_fop. generalize coords_sorted. assert (B : forall c, In c (coords w h) -> 0 <= fst c < w) by (intros [x y] H; apply In_coords in H; cbn [fst]; lia). revert B. generalize (coords w h) as l. induction l as [|c l IH]; intros B SS; [constructor|]. inversion_clear SS as [|? ? S1 S2]. constructor.
      + apply IH; [intros; apply B; right; assumption|exact S1].
      + apply Forall_forall. intros d Hd. apply quiet_back; [apply B; left; reflexivity|apply B; right; exact Hd|]. pose proof (proj1 (Forall_forall _ _) S2 d Hd) as BB. unfold before in BB. lia.
    - intros c _. destruct c as [x y]. unfold quiet, factor. cbn [fst snd]. cbv zeta. rewrite !Z.sub_diag. reflexivity.
    - exists (fst s), (fun x y => seen (x, y)). split; [rewrite (dither_coords im E1 E2), E; reflexivity|]. destruct HH as (W' & F1 & F2 & GP). split; [exact W'|]. split; [exact F1|]. split; [exact F2|]. split.
      + intros x y Hx Hy. destruct (HS (x, y) (proj2 (In_coords w h x y) (conj Hx Hy))) as (_ & HE). rewrite HE. rewrite <- (fold_sources (fun x y => seen (x, y)) x y) by assumption. unfold g. cbn [fst snd]. apply fold_seen. intros [a b] _. reflexivity.
      + intros x y Hx Hy. destruct (HS (x, y) (proj2 (In_coords w h x y) (conj Hx Hy))) as (HE & _). destruct (GP x y Hx Hy) as (P1 & P2). unfold vis in P1, P2. rewrite HE in P1, P2. split; assumption.
  Qed.
End loop.
