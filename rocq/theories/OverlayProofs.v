From Verif Require Import Base BaseLemmas Overlay.
Local Open Scope Z_scope.

Lemma wrap_u32_id z : 0 <= z <= u32_max -> wrap_u32 z = z.
Proof. unfold wrap_u32, u32_max. intros. apply Z.mod_small. lia. Qed.

Lemma overlay_bounds_exact bw bh tw th x y rw rh :
  is_u32 bw -> is_u32 bh -> is_u32 tw -> is_u32 th -> is_u32 x -> is_u32 y ->
  overlay_bounds bw bh tw th x y = (rw, rh) ->
  is_u32 rw /\ is_u32 rh /\
  (forall i, 0 <= i < rw <-> 0 <= i < tw /\ 0 <= x + i < bw) /\
  (forall j, 0 <= j < rh <-> 0 <= j < th /\ 0 <= y + j < bh).
Proof.
  unfold overlay_bounds, is_u32, sat_sub_u32, sat_add_u32. intros Hbw Hbh Htw Hth Hx Hy E.
  injection E as <- <-. repeat split; lia.
Qed.

Lemma clamp_i64_spec lo hi z : lo <= hi -> clamp_i64 lo hi z = Z.max lo (Z.min hi z).
Proof. unfold clamp_i64. destruct (z <? lo) eqn:A; destruct (hi <? z) eqn:B; lia. Qed.

Definition bw_out (b x t : Z) : bool := (b <? x) || (sat_i64 (x + t) <=? 0).
(** one dimension of overlay_bounds_ext *)
Lemma overlay_dim b t x : 0 <= b <= u32_max -> 0 <= t <= u32_max -> is_i64 x ->
  (bw_out b x t = true -> forall X, ~ (0 <= X < b /\ 0 <= X - x < t)) /\
  (bw_out b x t = false ->
   let hi := as_u32 (clamp_i64 0 b (sat_i64 (x + t))) in
   let lo := as_u32 (clamp_i64 0 b x) in
   let ot := as_u32 (clamp_i64 0 t (sat_i64 (x * -1))) in
   u32_subp hi lo = Ok (hi - lo) /\ is_u32 lo /\ is_u32 ot /\ is_u32 (hi - lo) /\
   (forall X, lo <= X < lo + (hi - lo) <-> 0 <= X < b /\ 0 <= X - x < t) /\
   (0 < hi - lo -> ot - lo = - x)).
Proof.
  unfold bw_out, is_i64. intros Hb Ht Hx.
  assert (S1 : sat_i64 (x + t) = Z.min i64_max (x + t)) by (unfold sat_i64, clampz, i64_min, i64_max in *; lia).
  assert (S2 : sat_i64 (x * -1) = Z.min i64_max (- x)) by (unfold sat_i64, clampz, i64_min, i64_max in *; lia).
  rewrite S1, S2. clear S1 S2. split.
  - intros E X. unfold i64_max, u32_max in *. destruct (Z.ltb_spec b x); cbn [orb] in E; lia.
  - intros E. cbv zeta. apply orb_false_iff in E as [E1 E2]. apply Z.ltb_ge in E1. apply Z.leb_gt in E2.
    rewrite !clamp_i64_spec by lia. unfold as_u32.
    assert (Em : Z.max 0 (Z.min b (Z.min i64_max (x + t))) = Z.min b (x + t)) by (unfold i64_max, u32_max in *; lia).
    assert (Eo : Z.max 0 (Z.min b x) = Z.max 0 x) by lia.
    assert (Et : Z.max 0 (Z.min t (Z.min i64_max (- x))) = Z.max 0 (- x)) by (unfold i64_max, u32_max in *; lia).
    rewrite Em, Eo, Et. clear Em Eo Et. unfold u32_max, i64_max in *.
    rewrite !wrap_u32_id by (unfold u32_max; lia). unfold u32_subp, is_u32, u32_max.
    destruct (Z.leb_spec (Z.max 0 x) (Z.min b (x + t))); [|lia].
    split; [reflexivity|]. split; [lia|]. split; [lia|]. split; [lia|]. split; [|lia]. intros X. lia.
Qed.
Lemma overlay_bounds_ext_exact bw bh tw th x y :
  is_u32 bw -> is_u32 bh -> is_u32 tw -> is_u32 th -> is_i64 x -> is_i64 y ->
  exists obx oby otx oty rw rh,
    overlay_bounds_ext bw bh tw th x y = Ok (obx, oby, otx, oty, rw, rh) /\
    is_u32 obx /\ is_u32 oby /\ is_u32 otx /\ is_u32 oty /\ is_u32 rw /\ is_u32 rh /\
    (forall X Y, (obx <= X < obx + rw /\ oby <= Y < oby + rh) <->
                 (0 <= X < bw /\ 0 <= Y < bh /\ 0 <= X - x < tw /\ 0 <= Y - y < th)) /\
    (0 < rw /\ 0 < rh -> otx - obx = - x /\ oty - oby = - y).
Proof.
  intros Hbw Hbh Htw Hth Hx Hy. unfold overlay_bounds_ext.
  destruct (overlay_dim bw tw x Hbw Htw Hx) as [X1 X2]. destruct (overlay_dim bh th y Hbh Hth Hy) as [Y1 Y2].
  replace ((bw <? x) || (bh <? y) || (sat_i64 (x + tw) <=? 0) || (sat_i64 (y + th) <=? 0))
    with (bw_out bw x tw || bw_out bh y th).
  2:{ unfold bw_out. destruct (bw <? x), (bh <? y), (sat_i64 (x + tw) <=? 0); reflexivity. }
  destruct (bw_out bw x tw) eqn:EX; [|destruct (bw_out bh y th) eqn:EY]; cbn [orb].
  - exists 0, 0, 0, 0, 0, 0. split; [reflexivity|]. unfold is_u32, u32_max.
    do 6 (split; [lia|]). split; [|lia]. intros X Y. specialize (X1 eq_refl X). split; [lia|tauto].
  - exists 0, 0, 0, 0, 0, 0. split; [reflexivity|]. unfold is_u32, u32_max.
    do 6 (split; [lia|]). split; [|lia]. intros X Y. specialize (Y1 eq_refl Y). split; [lia|tauto].
  - specialize (X2 eq_refl). specialize (Y2 eq_refl). cbv zeta in *.
    destruct X2 as (A1 & A2 & A3 & A4 & A5 & A6). destruct Y2 as (B1 & B2 & B3 & B4 & B5 & B6).
    rewrite A1. cbn [bind]. rewrite B1. cbn [bind].
    do 6 eexists. split; [reflexivity|]. do 6 (split; [assumption|]). split.
    + intros X Y. specialize (A5 X). specialize (B5 Y). tauto.
    + intros [R1 R2]. auto.
Qed.

(** a loop that combines pixels of [src] into an image, each target hit once *)
Lemma blend_loop {P A} (bl : P -> P -> P) (src : img P) (fx fy tx ty : A -> Z) (l : list A) (im : img P) :
  wf src -> wf im -> NoDup (map (fun a => (tx a, ty a)) l) ->
  (forall a, In a l -> 0 <= fx a < iw src /\ 0 <= fy a < ih src) ->
  (forall a, In a l -> 0 <= tx a < iw im /\ 0 <= ty a < ih im) ->
  exists im', foldM (fun im a => p <- get_pixel src (fx a) (fy a) ;;
                                 q <- get_pixel im (tx a) (ty a) ;;
                                 put_pixel im (tx a) (ty a) (bl q p)) l im = Ok im' /\
    wf im' /\ iw im' = iw im /\ ih im' = ih im /\
    (forall x y, (forall a, In a l -> ~ (tx a = x /\ ty a = y)) -> pixel im' x y = pixel im x y) /\
    (forall a, In a l -> exists p q, pixel src (fx a) (fy a) = Some p /\ pixel im (tx a) (ty a) = Some q /\
       pixel im' (tx a) (ty a) = Some (bl q p)).
Proof.
  intros Hs. revert im. induction l as [|a l IH]; intros im Hwf Hnd Hf Ht.
  - exists im. cbn [foldM]. repeat split; auto; try apply Hwf. intros a [].
  - cbn [map] in Hnd. inversion Hnd as [|? ? Hni Hnd']; subst.
    destruct (Hf a (or_introl eq_refl)) as [F1 F2]. destruct (Ht a (or_introl eq_refl)) as [T1 T2].
    destruct (pixel_in src _ _ Hs F1 F2) as [p Hp]. destruct (pixel_in im _ _ Hwf T1 T2) as [q Hq].
    destruct (put_pixel_spec im (tx a) (ty a) (bl q p) Hwf T1 T2) as (im1 & E1 & Hwf1 & Ew1 & Eh1 & Hp1).
    destruct (IH im1 Hwf1 Hnd') as (im2 & E2 & Hwf2 & Ew2 & Eh2 & Hout & Hins).
    { intros; apply Hf; right; auto. }
    { intros b Hb. rewrite Ew1, Eh1. apply Ht; right; auto. }
    assert (Hne : forall b, In b l -> ~ (tx b = tx a /\ ty b = ty a)).
    { intros b Hb [X1 X2]. apply Hni. apply in_map_iff. exists b. rewrite X1, X2. auto. }
    exists im2. cbn [foldM]. unfold get_pixel at 1 2. rewrite Hp, Hq. cbn [bind]. rewrite E1. cbn [bind].
    split; [exact E2|]. split; [auto|]. split; [congruence|]. split; [congruence|]. split.
    + intros x y Hn. rewrite Hout by (intros; apply Hn; right; auto). rewrite Hp1.
      specialize (Hn a (or_introl eq_refl)).
      destruct (Z.eqb_spec x (tx a)), (Z.eqb_spec y (ty a)); cbn; auto. exfalso; auto.
    + intros b [->|Hb].
      * exists p, q. repeat split; auto. rewrite Hout by exact Hne. rewrite Hp1, !Z.eqb_refl. reflexivity.
      * destruct (Hins b Hb) as (p' & q' & A1 & A2 & A3). exists p', q'. repeat split; auto.
        rewrite Hp1 in A2. specialize (Hne b Hb).
        destruct (Z.eqb_spec (tx b) (tx a)), (Z.eqb_spec (ty b) (ty a)); cbn in A2; auto. exfalso; auto.
Qed.

Lemma NoDup_map_inj {A B} (f : A -> B) l :
  (forall a b, In a l -> In b l -> f a = f b -> a = b) -> NoDup l -> NoDup (map f l).
Proof.
  intros Hi Hn. induction Hn as [|a l Ha Hn IH]; cbn; [constructor|]. constructor.
  - intros H. apply in_map_iff in H as (b & E & Hb). apply Hi in E; [subst; auto|right; auto|left; auto].
  - apply IH. intros; apply Hi; auto; right; auto.
Qed.

Section Ov.
Context {P : Type}.
(** the value the property assigns to bottom coordinate (X,Y) *)
Definition overlaid (bl : P -> P -> P) (bottom top : img P) (x y X Y : Z) : option P :=
  match pixel bottom X Y, pixel top (X - x) (Y - y) with
  | Some q, Some p => Some (bl q p)
  | o, _ => o
  end.

Lemma overlay_correct bl (bottom top : img P) x y :
  wf bottom -> wf top -> is_u32 (iw bottom) -> is_u32 (ih bottom) -> is_u32 (iw top) -> is_u32 (ih top) ->
  is_i64 x -> is_i64 y ->
  exists r, overlay bl bottom top x y = Ok r /\ wf r /\ iw r = iw bottom /\ ih r = ih bottom /\
    forall X Y, pixel r X Y = overlaid bl bottom top x y X Y.
Proof.
  intros Hb Ht B1 B2 B3 B4 Hx Hy.
  destruct (overlay_bounds_ext_exact _ _ _ _ x y B1 B2 B3 B4 Hx Hy)
    as (obx & oby & otx & oty & rw & rh & E & _ & _ & _ & _ & Hrw & Hrh & Hreg & Hoff).
  unfold overlay. rewrite E. cbn [bind]. rewrite for2_coords.
  destruct (blend_loop bl top (fun c => otx + fst c) (fun c => oty + snd c)
              (fun c => obx + fst c) (fun c => oby + snd c) (coords rw rh) bottom Ht Hb)
    as (r & Er & Hwf & Ew & Eh & Hout & Hins).
  - apply NoDup_map_inj; [|apply NoDup_coords]. intros [a b] [a' b'] _ _. cbn [fst snd]. intros H.
    assert (obx + a = obx + a' /\ oby + b = oby + b') by (split; congruence). f_equal; lia.
  - intros [a b] H. apply In_coords in H. cbn [fst snd]. unfold is_u32 in *.
    destruct (Hoff ltac:(lia)). specialize (Hreg (obx + a) (oby + b)). lia.
  - intros [a b] H. apply In_coords in H. cbn [fst snd].
    specialize (Hreg (obx + a) (oby + b)). lia.
  - exists r. split; [exact Er|]. repeat split; auto; try apply Hwf.
    intros X Y. unfold overlaid.
    destruct ((obx <=? X) && (X <? obx + rw) && (oby <=? Y) && (Y <? oby + rh)) eqn:EC.
    + assert (HI : In (X - obx, Y - oby) (coords rw rh)) by (apply In_coords; lia).
      destruct (Hins _ HI) as (p & q & A1 & A2 & A3). cbn [fst snd] in *.
      replace (obx + (X - obx)) with X in * by lia. replace (oby + (Y - oby)) with Y in * by lia.
      destruct (Hoff ltac:(lia)). replace (otx + (X - obx)) with (X - x) in A1 by lia.
      replace (oty + (Y - oby)) with (Y - y) in A1 by lia. rewrite A1, A2. exact A3.
    + rewrite Hout.
      * destruct (pixel bottom X Y) as [q|] eqn:Eq; [|reflexivity].
        destruct (pixel top (X - x) (Y - y)) as [p|] eqn:Ep; [|reflexivity].
        apply pixel_some in Eq. apply pixel_some in Ep. specialize (Hreg X Y). lia.
      * intros [a b] H [H1 H2]. apply In_coords in H. cbn [fst snd] in *. lia.
Qed.

Lemma replace_correct (bottom top : img P) x y :
  wf bottom -> wf top -> is_u32 (iw bottom) -> is_u32 (ih bottom) -> is_u32 (iw top) -> is_u32 (ih top) ->
  is_i64 x -> is_i64 y ->
  exists r, replace bottom top x y = Ok r /\ wf r /\ iw r = iw bottom /\ ih r = ih bottom /\
    forall X Y, pixel r X Y = overlaid (fun _ p => p) bottom top x y X Y.
Proof.
  intros Hb Ht B1 B2 B3 B4 Hx Hy.
  destruct (overlay_bounds_ext_exact _ _ _ _ x y B1 B2 B3 B4 Hx Hy)
    as (obx & oby & otx & oty & rw & rh & E & _ & _ & _ & _ & Hrw & Hrh & Hreg & Hoff).
  unfold replace. rewrite E. cbn [bind]. rewrite for2_coords.
  destruct (copy_loop top (fun c => otx + fst c) (fun c => oty + snd c)
              (fun c => obx + fst c) (fun c => oby + snd c) (coords rw rh) bottom Ht Hb)
    as (r & Er & Hwf & Ew & Eh & Hout & Hins).
  - intros [a b] H. apply In_coords in H. cbn [fst snd]. unfold is_u32 in *.
    destruct (Hoff ltac:(lia)). specialize (Hreg (obx + a) (oby + b)). lia.
  - intros [a b] H. apply In_coords in H. cbn [fst snd].
    specialize (Hreg (obx + a) (oby + b)). lia.
  - exists r. split; [exact Er|]. repeat split; auto; try apply Hwf.
    intros X Y. unfold overlaid.
    destruct ((obx <=? X) && (X <? obx + rw) && (oby <=? Y) && (Y <? oby + rh)) eqn:EC.
    + assert (HI : In (X - obx, Y - oby) (coords rw rh)) by (apply In_coords; lia).
      specialize (Hins _ HI). cbn [fst snd] in *.
      replace (obx + (X - obx)) with X in * by lia. replace (oby + (Y - oby)) with Y in * by lia.
      rewrite Hins by (intros [a b] H; cbn [fst snd]; lia).
      destruct (Hoff ltac:(lia)). replace (otx + (X - obx)) with (X - x) by lia.
      replace (oty + (Y - oby)) with (Y - y) by lia.
      destruct (Hreg X Y) as [Hr _]. specialize (Hr ltac:(lia)).
      destruct (pixel_in bottom X Y Hb ltac:(lia) ltac:(lia)) as [q ->].
      destruct (pixel_in top (X - x) (Y - y) Ht ltac:(lia) ltac:(lia)) as [p ->]. reflexivity.
    + rewrite Hout.
      * destruct (pixel bottom X Y) as [q|] eqn:Eq; [|reflexivity].
        destruct (pixel top (X - x) (Y - y)) as [p|] eqn:Ep; [|reflexivity].
        apply pixel_some in Eq. apply pixel_some in Ep. specialize (Hreg X Y). lia.
      * intros [a b] H [H1 H2]. apply In_coords in H. cbn [fst snd] in *. lia.
Qed.

(** folding overlay over a list of offsets none of whose areas overlap *)
Lemma overlay_list bl (top : img P) (offs : list (Z * Z)) (bottom : img P) :
  wf bottom -> wf top -> is_u32 (iw bottom) -> is_u32 (ih bottom) -> is_u32 (iw top) -> is_u32 (ih top) ->
  Forall (fun o => is_i64 (fst o) /\ is_i64 (snd o)) offs -> NoDup offs ->
  (forall o o' X Y, In o offs -> In o' offs ->
     pixel top (X - fst o) (Y - snd o) <> None -> pixel top (X - fst o') (Y - snd o') <> None -> o = o') ->
  exists r, foldM (fun s o => overlay bl s top (fst o) (snd o)) offs bottom = Ok r /\
    wf r /\ iw r = iw bottom /\ ih r = ih bottom /\
    forall X Y,
      (forall o, In o offs -> pixel top (X - fst o) (Y - snd o) <> None ->
         pixel r X Y = overlaid bl bottom top (fst o) (snd o) X Y) /\
      ((forall o, In o offs -> pixel top (X - fst o) (Y - snd o) = None) -> pixel r X Y = pixel bottom X Y).
Proof.
  revert bottom. induction offs as [|o offs IH]; intros bottom Hb Ht B1 B2 B3 B4 HF Hnd Hun.
  - exists bottom. cbn [foldM]. split; [reflexivity|]. repeat split; auto; try apply Hb. intros o [].
  - inversion HF as [|? ? [Hx Hy] HF']; subst. inversion Hnd; subst.
    destruct (overlay_correct bl bottom top (fst o) (snd o) Hb Ht B1 B2 B3 B4 Hx Hy)
      as (r1 & E1 & Hw1 & Ew1 & Eh1 & Hp1).
    destruct (IH r1 Hw1 Ht) as (r2 & E2 & Hw2 & Ew2 & Eh2 & Hp2); try congruence; auto.
    { intros; eapply Hun; eauto; right; auto. }
    exists r2. cbn [foldM]. rewrite E1. cbn [bind]. split; [exact E2|].
    split; [auto|]. split; [congruence|]. split; [congruence|]. intros X Y.
    destruct (Hp2 X Y) as [Hc Hn]. split.
    + intros o' [<-|Ho'] Hpx.
      * rewrite Hn; [apply Hp1|]. intros o2 Ho2.
        destruct (pixel top (X - fst o2) (Y - snd o2)) eqn:Eo; [|reflexivity].
        assert (o = o2); [|subst; contradiction]. eapply Hun with (X := X) (Y := Y); eauto; [left; auto|right; auto|congruence].
      * rewrite (Hc o' Ho' Hpx). unfold overlaid. rewrite Hp1. unfold overlaid.
        destruct (pixel top (X - fst o) (Y - snd o)) eqn:Eo.
        -- assert (o = o'); [|subst; contradiction]. eapply Hun with (X := X) (Y := Y); eauto; [left; auto|right; auto|congruence].
        -- destruct (pixel bottom X Y); reflexivity.
    + intros Hall. rewrite Hn by (intros; apply Hall; right; auto). rewrite Hp1. unfold overlaid.
      rewrite (Hall o (or_introl eq_refl)). destruct (pixel bottom X Y); reflexivity.
Qed.

Lemma step_by_ok n s : 0 < s -> step_by n s = Ok (map (fun k => k * s) (zrange 0 ((n + s - 1) / s))).
Proof. intros. unfold step_by. destruct (Z.eqb_spec s 0); [lia|reflexivity]. Qed.

Lemma foldM_nested {T A B} (f : T -> A -> B -> res T) (ys : res (list B)) l2 xs s :
  ys = Ok l2 ->
  foldM (fun s x => ys' <- ys ;; foldM (fun s y => f s x y) ys' s) xs s =
  foldM (fun s o => f s (fst o) (snd o)) (flat_map (fun x => map (fun y => (x, y)) l2) xs) s.
Proof.
  intros ->. revert s; induction xs as [|x xs IH]; intros s; cbn [foldM flat_map]; [reflexivity|].
  rewrite foldM_app. cbn [bind]. rewrite foldM_map. cbn [fst snd].
  destruct (foldM (fun s y => f s x y) l2 s); cbn [bind]; auto.
Qed.

Lemma tile_correct bl (bottom top : img P) :
  wf bottom -> wf top -> is_u32 (iw bottom) -> is_u32 (ih bottom) -> is_u32 (iw top) -> is_u32 (ih top) ->
  0 < iw top -> 0 < ih top ->
  exists r, tile bl bottom top = Ok r /\ wf r /\ iw r = iw bottom /\ ih r = ih bottom /\
    forall X Y, 0 <= X < iw bottom -> 0 <= Y < ih bottom ->
      exists q p, pixel bottom X Y = Some q /\ pixel top (X mod iw top) (Y mod ih top) = Some p /\
                  pixel r X Y = Some (bl q p).
Proof.
  intros Hb Ht B1 B2 B3 B4 Hw Hh. unfold tile. rewrite step_by_ok by auto. cbn [bind].
  rewrite (foldM_nested (fun s x y => overlay bl s top x y) _ _ _ _ (step_by_ok (ih bottom) (ih top) Hh)).
  set (offs := flat_map _ _).
  assert (Hin : forall o, In o offs <-> exists i j, o = (i * iw top, j * ih top) /\
      0 <= i < (iw bottom + iw top - 1) / iw top /\ 0 <= j < (ih bottom + ih top - 1) / ih top).
  { intros o. unfold offs. rewrite in_flat_map. split.
    - intros (x & Hx & Ho). apply in_map_iff in Hx as (i & <- & Hi). apply in_map_iff in Ho as (y & <- & Hy).
      apply in_map_iff in Hy as (j & <- & Hj). rewrite In_zrange in Hi, Hj. exists i, j. repeat split; lia.
    - intros (i & j & -> & Hi & Hj). exists (i * iw top). split.
      + apply in_map_iff. exists i. rewrite In_zrange. split; [auto|lia].
      + apply in_map_iff. exists (j * ih top). split; [auto|]. apply in_map_iff. exists j. rewrite In_zrange. split; [auto|lia]. }
  assert (Hnd : NoDup offs).
  { unfold offs. clear Hin offs. set (ys := map _ (zrange 0 ((ih bottom + ih top - 1) / ih top))).
    assert (Hys : NoDup ys) by (apply NoDup_map_inj; [intros; nia|apply NoDup_zrange]).
    assert (Hxs : NoDup (map (fun k => k * iw top) (zrange 0 ((iw bottom + iw top - 1) / iw top))))
      by (apply NoDup_map_inj; [intros; nia|apply NoDup_zrange]).
    revert Hxs. generalize (map (fun k => k * iw top) (zrange 0 ((iw bottom + iw top - 1) / iw top))) as xs.
    induction xs as [|x xs IH]; intros Hxs; cbn [flat_map]; [constructor|].
    inversion Hxs as [|? ? Hnx Hxs']; subst.
    assert (D : forall A (l1 l2 : list A), NoDup l1 -> NoDup l2 -> (forall a, In a l1 -> ~ In a l2) -> NoDup (l1 ++ l2)).
    { intros A l1 l2 N1 N2 N3. induction N1; cbn; auto. constructor.
      - rewrite in_app_iff. intros [H1|H1]; [auto|eapply N3; [left; reflexivity|auto]].
      - apply IHN1. intros; apply N3; right; auto. }
    apply D; [apply NoDup_map_inj; [intros; congruence|auto]|auto|].
    intros a Ha Ha'. apply in_map_iff in Ha as (y & <- & _). apply in_flat_map in Ha' as (x' & Hx' & Hy').
    apply in_map_iff in Hy' as (y' & E & _). assert (x' = x) by congruence. subst. contradiction. }
  destruct (overlay_list bl top offs bottom Hb Ht B1 B2 B3 B4) as (r & E & Hwf & Ew & Eh & Hp); auto.
  - apply Forall_forall. intros o Ho. apply Hin in Ho as (i & j & -> & Hi & Hj). cbn [fst snd].
    unfold is_u32, u32_max, is_i64, i64_min, i64_max in *.
    pose proof (Z.mul_div_le (iw bottom + iw top - 1) (iw top) ltac:(lia)).
    pose proof (Z.mul_div_le (ih bottom + ih top - 1) (ih top) ltac:(lia)). nia.
  - intros o o' X Y Ho Ho' H1 H2.
    apply Hin in Ho as (i & j & -> & Hi & Hj). apply Hin in Ho' as (i' & j' & -> & Hi' & Hj').
    cbn [fst snd] in *.
    destruct (pixel top (X - i * iw top) (Y - j * ih top)) eqn:P1; [|congruence].
    destruct (pixel top (X - i' * iw top) (Y - j' * ih top)) eqn:P2; [|congruence].
    apply pixel_some in P1. apply pixel_some in P2.
    assert (i = i') by nia. assert (j = j') by nia. subst. reflexivity.
  - exists r. split; [exact E|]. repeat split; auto; try apply Hwf. intros X Y HX HY.
    destruct (pixel_in bottom X Y Hb HX HY) as [q Hq].
    pose proof (Z.mod_pos_bound X (iw top) Hw). pose proof (Z.mod_pos_bound Y (ih top) Hh).
    destruct (pixel_in top (X mod iw top) (Y mod ih top) Ht) as [p Hpp]; [lia|lia|].
    exists q, p. split; [auto|]. split; [auto|].
    pose proof (Z.div_mod X (iw top) ltac:(lia)) as DX. pose proof (Z.div_mod Y (ih top) ltac:(lia)) as DY.
    destruct (Hp X Y) as [Hc _].
    specialize (Hc (X / iw top * iw top, Y / ih top * ih top)). cbn [fst snd] in Hc.
    replace (X - X / iw top * iw top) with (X mod iw top) in Hc by lia.
    replace (Y - Y / ih top * ih top) with (Y mod ih top) in Hc by lia.
    rewrite Hpp in Hc. rewrite Hc; [|apply Hin|congruence].
    + unfold overlaid. rewrite Hq. replace (X - X / iw top * iw top) with (X mod iw top) by lia.
      replace (Y - Y / ih top * ih top) with (Y mod ih top) by lia. rewrite Hpp. reflexivity.
    + exists (X / iw top), (Y / ih top). split; [reflexivity|].
      assert (forall v w n, 0 < w -> 0 <= v < n -> 0 <= v / w < (n + w - 1) / w).
      { intros v w n Hw0 Hv. split; [apply Z.div_pos; lia|]. apply Z.div_lt_upper_bound; [lia|].
        pose proof (Z.div_mod (n + w - 1) w ltac:(lia)). pose proof (Z.mod_pos_bound (n + w - 1) w ltac:(lia)). nia. }
      split; auto.
Qed.

Lemma tile_panics bl (bottom top : img P) : iw top = 0 \/ (0 < iw bottom /\ 0 < iw top /\ ih top = 0) ->
  tile bl bottom top = Panic.
Proof.
  unfold tile. intros [->|(Hb & Hw & Hh)]; [reflexivity|]. rewrite step_by_ok by auto. cbn [bind].
  rewrite zrange_cons; [|apply Z.div_str_pos; lia]. cbn [map foldM]. rewrite Hh. reflexivity.
Qed.
End Ov.
