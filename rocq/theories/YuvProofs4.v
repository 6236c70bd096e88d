(** From dav1d's planes to the decoded image. *)
From Coq Require Import ZArith Reals Lra Lia List Bool.
From Verif Require Import Base BaseLemmas ListLemmas ListMore Color ColorProofs BitsProofs BufferProofs Yuv YuvSpec YuvProofs YuvProofs2 YuvProofs3.
Import ListNotations.
Local Open Scope Z_scope.

(** the colour functions *)
Definition good (d : Z) (l : layout) (r : yuv_range) (m : yuv_matrix) (y u v R G B : Z) : Prop :=
  (0 <= R < 2 ^ d /\ 0 <= G < 2 ^ d /\ 0 <= B < 2 ^ d) /\
  let Y := luma d r y in
  if is_400 l then close d R Y /\ G = R /\ B = R /\ (r = Pc -> R = y)
  else if is_identity m then
    close d G Y /\ close d B (luma d r u) /\ close d R (luma d r v) /\ (r = Pc -> R = v /\ G = y /\ B = u)
  else let kr := kr_of m in let kb := kb_of m in let Cb := chroma d r u in let Cr := chroma d r v in
    close d R (red kr kb Y Cb Cr) /\ close d G (green kr kb Y Cb Cr) /\ close d B (blue kr kb Y Cb Cr) /\
    (u = 2 ^ (d - 1) -> v = 2 ^ (d - 1) -> G = R /\ B = R /\ (r = Pc -> R = y)).
Definition gooder (d : Z) (l : layout) (r : yuv_range) (m : yuv_matrix) (f : Z -> Z -> Z -> list Z) : Prop :=
  (forall y u v, zlen (f y u v) = 4) /\
  forall y u v, 0 <= y < 2 ^ d -> (l <> I400 -> 0 <= u < 2 ^ d /\ 0 <= v < 2 ^ d) -> exists R G B, f y u v = [R; G; B; 2 ^ d - 1] /\ good d l r m y u v R G B.
Lemma qq_range d n : depth_ok d -> 0 <= qq d n < 2 ^ d.
Proof. intros Hd. destruct (max_ok d Hd) as (_ & M & _). unfold qq, clampz. lia. Qed.

Definition lay_ok (l : layout) (m : yuv_matrix) : Prop := is_identity m = true -> l = I444.
Definition im_ok (l : layout) (im : yuv_image) : Prop :=
  0 < yw im /\ 0 < yh im /\ pl_ok u16s (yp im) (ys im) (yw im) (yh im) /\
  (l <> I400 -> pl_ok u16s (up im) (us im) (chroma_w l (yw im)) (chroma_h l (yh im)) /\ pl_ok u16s (vp im) (vs im) (chroma_w l (yw im)) (chroma_h l (yh im))).
Lemma check_ok l s h : zlen l = s * h -> check_len l s h = Ok tt.
Proof. intros H. unfold check_len. rewrite H, Z.eqb_refl. reflexivity. Qed.
Lemma worker_ok l d im rgb r m : depth_ok d -> lay_ok l m -> im_ok l im -> zlen rgb = yw im * 4 * yh im ->
  exists f, gooder d l r m f /\
    worker l d im rgb r m = Ok (full (fun x y => f (elt (yp im) (y * ys im + x)) (elt (up im) (cy l y * us im + cx l x)) (elt (vp im) (cy l y * vs im + cx l x))) (yw im) (yh im)).
Proof.
  intros Hd Hl (Hw & Hh & Py & Pc') Hr. destruct (max_ok d Hd) as (M1 & M2 & M3 & M4).
  assert (Cr : check_len rgb (yw im * 4) (yh im) = Ok tt) by (apply check_ok; lia).
  assert (Cy : check_len (yp im) (ys im) (yh im) = Ok tt) by (apply check_ok; apply Py).
  assert (PX : forall t, tr_ok m r d t -> gooder d l r m (pixv d t (get_range r d)) \/ is_400 l = true \/ is_identity m = true).
  { intros t T. destruct (is_400 l) eqn:E4; [right; left; reflexivity|]. destruct (is_identity m) eqn:Ei; [right; right; reflexivity|]. left.
    split; [intros; reflexivity|]. intros y u v Hy Huv. destruct Huv as [Hu Hv]; [destruct l; discriminate|].
    destruct (pixv_close m r d t y u v Hd T Hy Hu Hv) as (R & G & B & E & C). exists R, G, B. split; [exact E|]. split.
    - unfold pixv in E. injection E as <- <- <-. repeat split; apply qq_range; assumption.
    - cbv zeta. rewrite E4, Ei. exact C. }
  destruct l; cbn [worker cx cy].
  - (* I400 *)
    assert (Hm : is_identity m = false) by (destruct (is_identity m) eqn:E; [discriminate (Hl E)|reflexivity]).
    unfold yuv400. rewrite Hm, Cy, Cr. cbn [bind].
    assert (exists t, (match r with Pc => Ok (mkTr 0 0 0 0 0) | Tv => transform_of m r d end) = Ok t /\ (r = Tv -> tr_ok m r d t)) as (t & Et & T).
    { destruct r; [destruct (transform_ok m Tv d Hm Hd) as (t & E & T); exists t; auto|]. eexists; split; [reflexivity|discriminate]. }
    rewrite Et. cbn [bind]. exists (fun y _ _ => let v := grey_val d r t y in [v; v; v; 2 ^ d - 1]). split.
    + split; [reflexivity|]. intros y u v Hy _. exists (grey_val d r t y), (grey_val d r t y), (grey_val d r t y). split; [reflexivity|]. split.
      * assert (0 <= grey_val d r t y < 2 ^ d) by (unfold grey_val; destruct r; [apply qq_range; assumption|assumption]). tauto.
      * cbn [is_400]. split; [apply (grey_close m); assumption|]. repeat split. intros ->. reflexivity.
    + (* a row of 4:0:0 is a row of 4:4:4 that ignores its chroma *)
      pose proof (rows444_ok u16s (fun a _ _ => grey_pixel d r t (get_range r d) a) (fun y _ _ => let v := grey_val d r t y in [v; v; v; 2 ^ d - 1])
        (fun a b c Ha Hb Hc => grey_pixel_ok m r d t a Hd T Ha) (fun a b c => eq_refl) (mkYuv (yp im) (ys im) (yp im) (ys im) (yp im) (ys im) (yw im) (yh im)) rgb Hw Hh Py Py Py Hr) as Q.
      unfold rows444 in Q. cbn [yp ys up us vp vs yw yh] in Q.
      rewrite (chunkR_pl u16s _ _ _ _ Hw (Z.lt_le_incl _ _ Hh) Py) in Q |- *. rewrite !chunksR_ok in Q |- * by lia. cbn [bind] in Q |- *. unfold combine3 in Q. rewrite !combine_map_same in Q.
      rewrite (chunks_full (yw im * 4) rgb (yh im)) in Q by lia. rewrite (chunks_full (yw im * 4) rgb (yh im)) by lia. rewrite !combine_map_same in Q. rewrite !combine_map_same. rewrite <- Q.
      f_equal. clear Q. induction (zrange 0 (yh im)) as [|i li IH]; cbn [map map_res]; [reflexivity|]. rewrite IH.
      replace (row444 (fun a _ _ => grey_pixel d r t (get_range r d) a) (zslice (yp im) (i * ys im) (ys im)) (zslice (yp im) (i * ys im) (ys im)) (zslice (yp im) (i * ys im) (ys im)) (zslice rgb (i * (yw im * 4)) (yw im * 4)))
        with (row400 (grey_pixel d r t (get_range r d)) (zslice (yp im) (i * ys im) (ys im)) (zslice rgb (i * (yw im * 4)) (yw im * 4))); [reflexivity|].
      unfold row400, row444, combine3. f_equal. rewrite !combine_firstn. generalize (firstn (Z.to_nat (zlen (zslice rgb (i * (yw im * 4)) (yw im * 4)) / 4)) (zslice (yp im) (i * ys im) (ys im))) as q.
      induction q as [|a q IHq]; cbn [combine map_res]; [reflexivity|]. rewrite IHq. reflexivity.
  - (* I420 *)
    destruct (Pc' ltac:(discriminate)) as [Pu Pv].
    assert (Hm : is_identity m = false) by (destruct (is_identity m) eqn:E; [discriminate (Hl E)|reflexivity]).
    destruct (transform_ok m r d Hm Hd) as (t & Et & T). destruct (PX t T) as [G|[E|E]]; [|discriminate E|congruence].
    exists (pixv d t (get_range r d)). split; [exact G|]. unfold yuv420. rewrite Hm, Cy, Cr, Et. cbv zeta.
    rewrite (check_ok (up im)) by apply Pu. rewrite (check_ok (vp im)) by apply Pv. cbn [bind].
    apply (rows420_ok u16s _ (pixv d t (get_range r d))); auto. intros a b c Ha Hb Hc. apply (yuv_pixel_ok m); assumption.
  - (* I422 *)
    destruct (Pc' ltac:(discriminate)) as [Pu Pv].
    assert (Hm : is_identity m = false) by (destruct (is_identity m) eqn:E; [discriminate (Hl E)|reflexivity]).
    destruct (transform_ok m r d Hm Hd) as (t & Et & T). destruct (PX t T) as [G|[E|E]]; [|discriminate E|congruence].
    exists (pixv d t (get_range r d)). split; [exact G|]. unfold yuv422. rewrite Hm, Cy, Cr, Et. cbv zeta.
    rewrite (check_ok (up im)) by apply Pu. rewrite (check_ok (vp im)) by apply Pv. cbn [bind].
    apply (rows422_ok u16s _ (pixv d t (get_range r d))); auto. intros a b c Ha Hb Hc. apply (yuv_pixel_ok m); assumption.
  - (* I444 *)
    destruct (Pc' ltac:(discriminate)) as [Pu Pv]. cbn [chroma_w chroma_h] in Pu, Pv. unfold yuv444. rewrite Cy, Cr. cbv zeta.
    rewrite (check_ok (up im)) by apply Pu. rewrite (check_ok (vp im)) by apply Pv. cbn [bind].
    destruct (is_identity m) eqn:Ei.
    + exists (fun y u v => [gbr_val d r v; gbr_val d r y; gbr_val d r u; 2 ^ d - 1]). split.
      * split; [reflexivity|]. intros y u v Hy Huv. destruct (Huv ltac:(discriminate)) as [Hu Hv]. exists (gbr_val d r v), (gbr_val d r y), (gbr_val d r u). split; [reflexivity|].
        assert (RG : forall z, 0 <= z < 2 ^ d -> 0 <= gbr_val d r z < 2 ^ d) by (intros z Hz; unfold gbr_val; destruct r; [apply qq_range; assumption|assumption]).
        split; [auto|]. cbn [is_400]. cbv zeta. rewrite Ei. split; [|split; [|split]]; [apply gbr_close; assumption..|]. intros ->. auto.
      * apply (rows444_ok u16s _ (fun y u v => [gbr_val d r v; gbr_val d r y; gbr_val d r u; 2 ^ d - 1])); auto. intros a b c Ha Hb Hc. apply gbr_pixel_ok; assumption.
    + destruct (transform_ok m r d Ei Hd) as (t & Et & T). destruct (PX t T) as [G|[E|E]]; [|discriminate E|congruence].
      exists (pixv d t (get_range r d)). split; [exact G|]. rewrite Et. cbn [bind].
      apply (rows444_ok u16s _ (pixv d t (get_range r d))); auto. intros a b c Ha Hb Hc. apply (yuv_pixel_ok m); assumption.
Qed.

(** planes of bytes *)
Definition views (big : bool) (d : Z) (p : plane) (w h : Z) (l : list Z) (s : Z) : Prop :=
  pl_ok u16s l s w h /\ forall x y, 0 <= x < w -> 0 <= y < h -> elt l (y * s + x) = sample big d p x y.
Lemma elt_map f l i : 0 <= i < zlen l -> elt (map f l) i = f (elt l i).
Proof. intros H. apply Some_inj. rewrite <- zget_elt by (rewrite zlen_map; lia). rewrite zget_map, zget_elt by lia. reflexivity. Qed.
Lemma elt_zrange f n i : 0 <= i < n -> elt (map f (zrange 0 n)) i = f i.
Proof. intros H. apply Some_inj. rewrite <- zget_elt by (rewrite zlen_map, zlen_zrange; lia). rewrite zget_map, zget_zrange by lia. reflexivity. Qed.
Lemma pairs_map big l k : 0 <= k -> k * 2 <= zlen l < (k + 1) * 2 -> pairs big l = map (fun i => u16_ne big (elt l (2 * i)) (elt l (2 * i + 1))) (zrange 0 k).
Proof.
  intros Hk H. unfold pairs. rewrite (chunks_rem 2 l k) by lia. rewrite map_map. apply map_zrange_ext. intros i Hi. rewrite slice_map by lia.
  change (zrange 0 2) with [0; 1]. cbn [map]. replace (i * 2 + 0) with (2 * i) by ring. replace (i * 2 + 1) with (2 * i + 1) by ring. reflexivity.
Qed.
Lemma elt_byte l i : Forall (fun b => 0 <= b <= 255) l -> 0 <= elt l i <= 255.
Proof.
  intros H. unfold elt. destruct (Nat.lt_ge_cases (Z.to_nat i) (length l)) as [L|L].
  - rewrite Forall_forall in H. apply H, nth_In, L.
  - rewrite nth_overflow by lia. lia.
Qed.
Lemma u16_ne_range big a b : 0 <= a <= 255 -> 0 <= b <= 255 -> u16s (u16_ne big a b).
Proof. intros. unfold u16_ne, u16s. destruct big; lia. Qed.
Lemma sample16 big d p x y : d <> 8 -> 0 <= y * stride p + 2 * x ->
  sample big d p x y = u16_ne big (elt (data p) (y * stride p + 2 * x)) (elt (data p) (y * stride p + 2 * x + 1)).
Proof.
  intros Hd H. unfold sample. destruct (Z.eqb_spec d 8); [contradiction|]. cbv zeta. unfold u16_ne, elt.
  replace (Z.to_nat (y * stride p + 2 * x + 1)) with (Z.to_nat (y * stride p + 2 * x) + 1)%nat by lia. destruct big; ring.
Qed.
Lemma elt_concat f n k y x : 0 < n -> (forall i, 0 <= i < k -> zlen (f i) = n) -> 0 <= y < k -> 0 <= x < n ->
  elt (concat (map f (zrange 0 k))) (y * n + x) = elt (f y) x.
Proof.
  intros Hn H Hy Hx. assert (Z1 : zlen (concat (map f (zrange 0 k))) = k * n) by (apply zlen_concat_map; [assumption|lia]).
  rewrite <- (elt_zslice _ (y * n) n x) by nia. f_equal. apply zslice_concat; [lia| |].
  - apply Forall_map_iff, Forall_forall. intros i Hi. apply In_zrange in Hi. apply H. lia.
  - rewrite zget_map, zget_zrange by lia. reflexivity.
Qed.
Lemma view8 big p w h : 0 < w -> 0 < h -> plane_ok big 8 p w h -> views big 8 p w h (data p) (stride p).
Proof.
  intros Hw Hh (H1 & H2 & H3 & H4). cbn in H2. split.
  - split; [exact H1|]. split; [lia|]. eapply Forall_impl; [|exact H3]. intros a Ha; cbv beta in Ha; unfold u16s; lia.
  - intros x y Hx Hy. unfold elt, sample. reflexivity.
Qed.
Lemma view16_ok big d p w h : d <> 8 -> 0 < w -> 0 < h -> plane_ok big d p w h ->
  exists l s, view16 big p w h = Ok (l, s) /\ views big d p w h l s.
Proof.
  intros Hd Hw Hh (H1 & H2 & H3 & H4). destruct (Z.eqb_spec d 8) as [|_] in H2; [contradiction|].
  assert (Hs : 0 < stride p) by lia. unfold view16. destruct (Z.even (stride p) && _) eqn:E.
  - apply andb_true_iff in E as [E _]. apply Z.even_spec in E as [q Eq]. do 2 eexists. split; [reflexivity|].
    assert (Sh : Z.shiftr (stride p) 1 = q) by (rewrite Z.shiftr_div_pow2 by lia; rewrite Eq; change (2 ^ 1) with 2; rewrite Z.mul_comm, Z.div_mul by lia; reflexivity).
    rewrite Sh. rewrite (pairs_map big _ (q * h)) by nia. split; [split; [|split]|].
    + rewrite zlen_map, zlen_zrange. nia.
    + lia.
    + apply Forall_map_iff, Forall_forall. intros i _. apply u16_ne_range; apply elt_byte; assumption.
    + intros x y Hx Hy. assert (0 <= y * q) by (apply Z.mul_nonneg_nonneg; lia). rewrite elt_zrange by nia. rewrite sample16 by (rewrite ?Eq; nia).
      rewrite Eq. replace (2 * (y * q + x)) with (y * (2 * q) + 2 * x) by ring. reflexivity.
  - clear E. do 2 eexists.
    set (rowv := fun y => map (fun x => u16_ne big (elt (data p) (y * stride p + 2 * x)) (elt (data p) (y * stride p + 2 * x + 1))) (zrange 0 w)).
    assert (Zr : forall y, zlen (rowv y) = w) by (intros; unfold rowv; rewrite zlen_map, zlen_zrange; lia).
    assert (R : reshape big (data p) (stride p) w h = Ok (concat (map rowv (zrange 0 h)))).
    { unfold reshape. rewrite !chunksR_ok by lia. cbn [bind]. assert (Zt : zlen (repeat 0 (Z.to_nat (w * h))) = w * h) by (rewrite zlen_repeat; nia).
      rewrite (chunks_full w _ h) by lia. rewrite (chunks_full (stride p) _ h) by lia. rewrite combine_map_same, map_map.
      rewrite (map_zrange_ext _ rowv).
      - f_equal. apply overwrite_all. rewrite (zlen_concat_map _ _ w); auto; lia.
      - intros i Hi. rewrite (zlen_chunk _ _ h) by lia.
        assert (Lc : zlen (zslice (data p) (i * stride p) (stride p)) = stride p) by (apply (zlen_chunk _ _ h); lia).
        set (k := stride p / 2). assert (Hk : 2 * k <= stride p < 2 * k + 2) by (unfold k; Z.div_mod_to_equations; lia).
        rewrite (pairs_map big _ k) by lia. rewrite firstn_map by (rewrite zlen_map, zlen_zrange; lia).
        rewrite (map_zrange_ext _ (fun x => u16_ne big (elt (data p) (i * stride p + 2 * x)) (elt (data p) (i * stride p + 2 * x + 1)))).
        + apply overwrite_all. fold (rowv i). rewrite Zr. rewrite (zlen_chunk _ _ h) by lia. reflexivity.
        + intros x Hx. rewrite elt_zrange by lia. rewrite !(elt_chunk _ _ h) by lia. rewrite Z.add_assoc. reflexivity. }
    rewrite R. split; [reflexivity|]. split; [split; [|split]|].
    + rewrite (zlen_concat_map _ _ w); [ring|intros; apply Zr|lia].
    + lia.
    + apply Forall_concat, Forall_map_iff, Forall_forall. intros y _. apply Forall_map_iff, Forall_forall. intros x _. apply u16_ne_range; apply elt_byte; assumption.
    + intros x y Hx Hy. rewrite (elt_concat _ w h) by (assumption || (intros; apply Zr)). unfold rowv. rewrite elt_zrange by lia. rewrite sample16 by nia. reflexivity.
Qed.

(** the alpha plane *)
Lemma put_alpha_ok f w h pl st : 0 < w -> 0 < h -> (forall x y, zlen (f x y) = 4) -> pl_ok u16s pl st w h ->
  put_alpha w pl st (full f w h) = Ok (full (fun x y => zset (f x y) 3 (elt pl (y * st + x))) w h).
Proof.
  intros Hw Hh Hf Hp. unfold put_alpha. rewrite (chunkR_pl u16s _ _ _ _ Hw (Z.lt_le_incl _ _ Hh) Hp). pose proof (pl_stride _ _ _ _ _ Hw Hp) as Hs. destruct Hp as (P1 & P2 & P3).
  rewrite chunksR_ok by lia. cbn [bind]. unfold full at 1. rewrite chunks_exact_concat.
  2:{ lia. }
  2:{ apply Forall_map_iff, Forall_forall. intros y _. apply zlen_concat_map; auto; lia. }
  rewrite combine_map_same, map_map. f_equal. unfold full at 2.
  rewrite (map_zrange_ext _ (fun y => concat (map (fun x => zset (f x y) 3 (elt pl (y * st + x))) (zrange 0 w)))).
  - apply overwrite_all. rewrite zlen_full by (auto; lia). rewrite (zlen_concat_map _ _ (w * 4)); try lia. intros y _. apply zlen_concat_map; try lia. intros x _. rewrite zlen_zset. apply Hf.
  - intros y Hy. unfold alpha_row. rewrite chunks_exact_concat; [|lia|apply Forall_map_iff, Forall_forall; intros x _; apply Hf].
    rewrite slice_map by nia. rewrite combine_ge by lia. rewrite map_map.
    apply overwrite_all. rewrite !(zlen_concat_map _ _ 4); try lia; intros x _; rewrite ?zlen_zset; apply Hf.
Qed.
