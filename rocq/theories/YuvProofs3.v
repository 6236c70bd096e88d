(** The four layouts. *)
From Coq Require Import ZArith Lia List Bool.
From Verif Require Import Base BaseLemmas ListLemmas ListMore Color ColorProofs BitsProofs BufferProofs Yuv YuvProofs2.
Import ListNotations.
Local Open Scope Z_scope.

Definition full (f : Z -> Z -> list Z) (w h : Z) : list Z := concat (map (fun y => concat (map (fun x => f x y) (zrange 0 w))) (zrange 0 h)).
Lemma zlen_full f w h : 0 <= w -> 0 <= h -> (forall x y, zlen (f x y) = 4) -> zlen (full f w h) = w * 4 * h.
Proof.
  intros Hw Hh H. unfold full. rewrite (zlen_concat_map _ _ (w * 4)); try lia. intros i _. apply zlen_concat_map; auto.
Qed.
Lemma zlen_chunk (l : list Z) n k i : 0 < n -> 0 <= i < k -> zlen l = n * k -> zlen (zslice l (i * n) n) = n.
Proof. intros. rewrite zlen_zslice_gen. nia. Qed.
Lemma elt_chunk l n k i x : 0 <= x < n -> 0 <= i < k -> zlen l = n * k -> elt (zslice l (i * n) n) x = elt l (i * n + x).
Proof. intros. apply elt_zslice; nia. Qed.
Lemma map_zrange_ext {B} (f g : Z -> B) n : (forall i, 0 <= i < n -> f i = g i) -> map f (zrange 0 n) = map g (zrange 0 n).
Proof. intros H. apply map_ext_in. intros i Hi. apply In_zrange in Hi. apply H. lia. Qed.

Definition pl_ok (P : Z -> Prop) (l : list Z) (s w h : Z) : Prop := zlen l = s * h /\ w <= s /\ Forall P l.
Lemma pl_stride P l s w h : 0 < w -> pl_ok P l s w h -> 0 < s. Proof. intros H (_ & H1 & _). lia. Qed.
Lemma chunkR_pl P l s w h : 0 < w -> 0 <= h -> pl_ok P l s w h -> chunksR s l = Ok (map (fun i => zslice l (i * s) s) (zrange 0 h)).
Proof.
  intros Hw Hh H. pose proof (pl_stride _ _ _ _ _ Hw H). destruct H as (H1 & H2 & _). rewrite chunksR_ok by lia. rewrite (chunks_full s l h) by lia. reflexivity.
Qed.

Section px.
Context (P : Z -> Prop) (px : Z -> Z -> Z -> res (list Z)) (pv : Z -> Z -> Z -> list Z).
Context (Hpx : forall a b c, P a -> P b -> P c -> px a b c = Ok (pv a b c)) (Hpv : forall a b c, zlen (pv a b c) = 4).
Lemma rows444_ok im rgb : 0 < yw im -> 0 < yh im -> pl_ok P (yp im) (ys im) (yw im) (yh im) -> pl_ok P (up im) (us im) (yw im) (yh im) ->
  pl_ok P (vp im) (vs im) (yw im) (yh im) -> zlen rgb = yw im * 4 * yh im ->
  rows444 px im rgb = Ok (full (fun x y => pv (elt (yp im) (y * ys im + x)) (elt (up im) (y * us im + x)) (elt (vp im) (y * vs im + x))) (yw im) (yh im)).
Proof.
  intros Hw Hh Hy Hu Hv Hr. unfold rows444, combine3. rewrite (chunkR_pl _ _ _ _ _ Hw (Z.lt_le_incl _ _ Hh) Hy), (chunkR_pl _ _ _ _ _ Hw (Z.lt_le_incl _ _ Hh) Hu), (chunkR_pl _ _ _ _ _ Hw (Z.lt_le_incl _ _ Hh) Hv). cbn [bind].
  rewrite chunksR_ok by lia. cbn [bind]. rewrite (chunks_full (yw im * 4) rgb (yh im)) by lia. rewrite !combine_map_same.
  pose proof (pl_stride _ _ _ _ _ Hw Hy). pose proof (pl_stride _ _ _ _ _ Hw Hu). pose proof (pl_stride _ _ _ _ _ Hw Hv).
  destruct Hy as (Y1 & Y2 & Y3). destruct Hu as (U1 & U2 & U3). destruct Hv as (V1 & V2 & V3).
  rewrite (map_res_ok _ (fun '(((y, u), v), old) => concat (map (fun x => pv (elt y x) (elt u x) (elt v x)) (zrange 0 (yw im))))).
  - cbn [bind]. rewrite map_map. f_equal. unfold full.
    rewrite (map_zrange_ext _ (fun y => concat (map (fun x => pv (elt (yp im) (y * ys im + x)) (elt (up im) (y * us im + x)) (elt (vp im) (y * vs im + x))) (zrange 0 (yw im))))).
    + apply overwrite_all. rewrite (zlen_concat_map _ _ (yw im * 4)); try lia. intros i _. apply zlen_concat_map; auto; lia.
    + intros i Hi. f_equal. apply map_zrange_ext. intros x Hx. rewrite !(elt_chunk _ _ (yh im)) by lia. reflexivity.
  - intros [[[y u] v] old] H'. apply in_map_iff in H' as (i & E & Hi). apply In_zrange in Hi. injection E as <- <- <- <-.
    apply (row444_ok P); auto; try lia; try (rewrite (zlen_chunk _ _ (yh im)) by lia; lia); apply Forall_zslice; auto.
Qed.

(** chroma planes of (w + 1) / 2 columns *)
Lemma rows422_ok im rgb : 0 < yw im -> 0 < yh im -> pl_ok P (yp im) (ys im) (yw im) (yh im) -> pl_ok P (up im) (us im) ((yw im + 1) / 2) (yh im) ->
  pl_ok P (vp im) (vs im) ((yw im + 1) / 2) (yh im) -> zlen rgb = yw im * 4 * yh im ->
  (yr <- chunksR (ys im) (yp im) ;; rr <- chunksR (yw im * 4) rgb ;; ur <- chunksR (us im) (up im) ;; vr <- chunksR (vs im) (vp im) ;;
   l <- map_res (fun '(((y, u), v), old) => halved_row px (yw im) y u v) (combine (combine3 yr ur vr) rr) ;; Ok (overwrite (concat l) rgb)) =
  Ok (full (fun x y => pv (elt (yp im) (y * ys im + x)) (elt (up im) (y * us im + x / 2)) (elt (vp im) (y * vs im + x / 2))) (yw im) (yh im)).
Proof.
  intros Hw Hh Hy Hu Hv Hr. assert (Hc : 0 < (yw im + 1) / 2) by (Z.div_mod_to_equations; lia).
  unfold combine3. rewrite (chunkR_pl _ _ _ _ _ Hw (Z.lt_le_incl _ _ Hh) Hy), (chunkR_pl _ _ _ _ _ Hc (Z.lt_le_incl _ _ Hh) Hu), (chunkR_pl _ _ _ _ _ Hc (Z.lt_le_incl _ _ Hh) Hv). cbn [bind].
  rewrite chunksR_ok by lia. cbn [bind]. rewrite (chunks_full (yw im * 4) rgb (yh im)) by lia. rewrite !combine_map_same.
  pose proof (pl_stride _ _ _ _ _ Hw Hy). pose proof (pl_stride _ _ _ _ _ Hc Hu). pose proof (pl_stride _ _ _ _ _ Hc Hv).
  destruct Hy as (Y1 & Y2 & Y3). destruct Hu as (U1 & U2 & U3). destruct Hv as (V1 & V2 & V3).
  rewrite (map_res_ok _ (fun '(((y, u), v), old) => concat (map (fun x => pv (elt y x) (elt u (x / 2)) (elt v (x / 2))) (zrange 0 (yw im))))).
  - cbn [bind]. rewrite map_map. f_equal. unfold full.
    rewrite (map_zrange_ext _ (fun y => concat (map (fun x => pv (elt (yp im) (y * ys im + x)) (elt (up im) (y * us im + x / 2)) (elt (vp im) (y * vs im + x / 2))) (zrange 0 (yw im))))).
    + apply overwrite_all. rewrite (zlen_concat_map _ _ (yw im * 4)); try lia. intros i _. apply zlen_concat_map; auto; lia.
    + intros i Hi. f_equal. apply map_zrange_ext. intros x Hx. assert (0 <= x / 2 < (yw im + 1) / 2) by (Z.div_mod_to_equations; lia).
      rewrite !(elt_chunk _ _ (yh im)) by lia. reflexivity.
  - intros [[[y u] v] old] H'. apply in_map_iff in H' as (i & E & Hi). apply In_zrange in Hi. injection E as <- <- <- <-.
    apply (halved_row_ok P); auto; try lia; try (rewrite (zlen_chunk _ _ (yh im)) by lia; lia); apply Forall_zslice; auto.
Qed.

Lemma rows420_ok im rgb : let ch := (yh im + 1) / 2 in let cw := (yw im + 1) / 2 in let st := yw im * 4 in
  0 < yw im -> 0 < yh im -> pl_ok P (yp im) (ys im) (yw im) (yh im) -> pl_ok P (up im) (us im) cw ch ->
  pl_ok P (vp im) (vs im) cw ch -> zlen rgb = st * yh im ->
  (y2 <- chunksR (ys im * 2) (yp im) ;; rr2 <- chunksR (st * 2) rgb ;; ur <- chunksR (us im) (up im) ;; vr <- chunksR (vs im) (vp im) ;;
   l <- map_res (fun '(((y, u), v), old) =>
         a <- chunksR (ys im) y ;; o <- chunksR st old ;;
         q <- map_res (fun '(y1, _) => halved_row px (yw im) y1 u v) (combine a o) ;; Ok (overwrite (concat q) old)) (combine (combine3 y2 ur vr) rr2) ;;
   let rgb := overwrite (concat l) rgb in
   a <- chunksR (ys im) (skipn (Z.to_nat (zlen (yp im) / (ys im * 2) * (ys im * 2))) (yp im)) ;; o <- chunksR st rgb ;;
   foldM (fun rgb '(((y1, u), v), i) => p <- halved_row px (yw im) y1 u v ;; Ok (zsplice rgb (i * st) p))
    (combine (combine3 a (rev ur) (rev vr)) (rev (zrange 0 (zlen o)))) rgb) =
  Ok (full (fun x y => pv (elt (yp im) (y * ys im + x)) (elt (up im) (y / 2 * us im + x / 2)) (elt (vp im) (y / 2 * vs im + x / 2))) (yw im) (yh im)).
Proof.
  intros ch cw st Hw Hh Hy Hu Hv Hr. assert (Hc : 0 < cw) by (unfold cw; Z.div_mod_to_equations; lia).
  assert (Hch : 0 < ch) by (unfold ch; Z.div_mod_to_equations; lia).
  set (k := yh im / 2). assert (Hk : 2 * k <= yh im <= 2 * k + 1 /\ ch = yh im - k /\ 0 <= k) by (unfold k, ch; Z.div_mod_to_equations; lia).
  pose proof (pl_stride _ _ _ _ _ Hw Hy) as Sy. pose proof (pl_stride _ _ _ _ _ Hc Hu) as Su. pose proof (pl_stride _ _ _ _ _ Hc Hv) as Sv.
  unfold combine3. rewrite (chunkR_pl _ _ _ _ _ Hc (Z.lt_le_incl _ _ Hch) Hu), (chunkR_pl _ _ _ _ _ Hc (Z.lt_le_incl _ _ Hch) Hv).
  destruct Hy as (Y1 & Y2 & Y3). destruct Hu as (U1 & U2 & U3). destruct Hv as (V1 & V2 & V3).
  rewrite !chunksR_ok by (unfold st; lia). cbn [bind]. rewrite (chunks_rem (ys im * 2) (yp im) k) by nia.
  rewrite (chunks_rem (st * 2) rgb k) by (unfold st in *; nia).
  rewrite combine_ge by lia. rewrite combine_ge by lia. rewrite combine_map_same.
  set (row := fun y => concat (map (fun x => pv (elt (yp im) (y * ys im + x)) (elt (up im) (y / 2 * us im + x / 2)) (elt (vp im) (y / 2 * vs im + x / 2))) (zrange 0 (yw im)))).
  assert (Zrow : forall y, zlen (row y) = st) by (intros y; unfold row, st; apply zlen_concat_map; auto; lia).
  assert (ROW : forall y, 0 <= y < yh im -> halved_row px (yw im) (zslice (yp im) (y * ys im) (ys im)) (zslice (up im) (y / 2 * us im) (us im))
            (zslice (vp im) (y / 2 * vs im) (vs im)) = Ok (row y)).
  { intros y Hi. assert (0 <= y / 2 < ch) by (unfold ch; Z.div_mod_to_equations; lia). rewrite (halved_row_ok P px pv Hpx).
    - f_equal. unfold row. f_equal. apply map_zrange_ext. intros x Hx. assert (0 <= x / 2 < cw) by (unfold cw; Z.div_mod_to_equations; lia).
      rewrite (elt_chunk _ _ (yh im)), !(elt_chunk _ _ ch) by lia. reflexivity.
    - exact Hpv.
    - lia.
    - rewrite (zlen_chunk _ _ (yh im)) by lia. lia.
    - rewrite (zlen_chunk _ _ ch) by lia. exact U2.
    - rewrite (zlen_chunk _ _ ch) by lia. exact V2.
    - apply Forall_zslice; auto.
    - apply Forall_zslice; auto.
    - apply Forall_zslice; auto. }
  match goal with |- context [map_res ?f (map ?g (zrange 0 k))] => assert (MR : map_res f (map g (zrange 0 k)) = Ok (map (fun i => row (2 * i) ++ row (2 * i + 1)) (zrange 0 k))) end.
  { rewrite <- (map_map (fun i => i) (fun i => row (2 * i) ++ row (2 * i + 1)) (zrange 0 k)), map_id.
    assert (G : forall i, 0 <= i < k -> (fun '(((y, u), v), old) =>
         a <- chunksR (ys im) y ;; o <- chunksR st old ;;
         q <- map_res (fun '(y1, _) => halved_row px (yw im) y1 u v) (combine a o) ;; Ok (overwrite (concat q) old))
         (((zslice (yp im) (i * (ys im * 2)) (ys im * 2), zslice (up im) (i * us im) (us im)), zslice (vp im) (i * vs im) (vs im)), zslice rgb (i * (st * 2)) (st * 2)) =
         Ok (row (2 * i) ++ row (2 * i + 1))).
    { intros i Hi. rewrite !chunksR_ok by (unfold st; lia). cbn [bind].
      assert (L1 : zlen (zslice (yp im) (i * (ys im * 2)) (ys im * 2)) = ys im * 2) by (rewrite zlen_zslice_gen; nia).
      assert (L2 : zlen (zslice rgb (i * (st * 2)) (st * 2)) = st * 2) by (rewrite zlen_zslice_gen; unfold st in *; nia).
      rewrite (chunks_full (ys im) _ 2), (chunks_full st _ 2) by (unfold st in *; lia). rewrite combine_map_same. change (zrange 0 2) with [0; 1]. cbn [map map_res].
      rewrite !zslice_zslice by (unfold st in *; nia).
      replace (i * (ys im * 2) + 0 * ys im) with (2 * i * ys im) by ring. replace (i * (ys im * 2) + 1 * ys im) with ((2 * i + 1) * ys im) by ring.
      pose proof (ROW (2 * i) ltac:(lia)) as R0. pose proof (ROW (2 * i + 1) ltac:(lia)) as R1.
      replace (2 * i / 2) with i in R0 by (Z.div_mod_to_equations; lia). replace ((2 * i + 1) / 2) with i in R1 by (Z.div_mod_to_equations; lia).
      rewrite R0. cbn [bind]. rewrite R1. cbn [bind concat]. rewrite app_nil_r. f_equal. apply overwrite_all. rewrite zlen_app, !Zrow, L2. lia. }
    revert G. generalize (fun '(((y, u), v), old) =>
         a <- chunksR (ys im) y ;; o <- chunksR st old ;;
         q <- map_res (fun '(y1, _) => halved_row px (yw im) y1 u v) (combine a o) ;; Ok (overwrite (concat q) old)) as F. intros F G.
    assert (Q : forall l, (forall i, In i l -> 0 <= i < k) -> map_res F (map (fun a => (zslice (yp im) (a * (ys im * 2)) (ys im * 2), zslice (up im) (a * us im) (us im), zslice (vp im) (a * vs im) (vs im), zslice rgb (a * (st * 2)) (st * 2))) l)
        = Ok (map (fun i => row (2 * i) ++ row (2 * i + 1)) l)).
    { induction l as [|a l IH]; intros Hl; cbn [map map_res]; [reflexivity|]. rewrite G by (apply Hl; left; reflexivity). cbn [bind].
      rewrite IH by (intros; apply Hl; right; assumption). reflexivity. }
    apply Q. intros i Hi. apply In_zrange in Hi. lia. }
  rewrite MR. cbn [bind]. clear MR. rewrite pairs_concat by lia. cbv zeta.
  set (done := concat (map row (zrange 0 (2 * k)))).
  assert (Zd : zlen done = 2 * k * st) by (unfold done; apply zlen_concat_map; auto; lia).
  assert (Zo : zlen (overwrite done rgb) = st * yh im) by (unfold overwrite; rewrite zlen_app, zlen_skipn; unfold zlen in *; unfold st in *; nia).
  rewrite !chunksR_ok by (unfold st; lia). cbn [bind].
  rewrite (chunks_full st (overwrite done rgb) (yh im)) by (unfold st in *; lia). rewrite zlen_map, zlen_zrange.
  assert (Q2 : zlen (yp im) / (ys im * 2) * (ys im * 2) = 2 * k * ys im).
  { rewrite Y1. replace (ys im * yh im / (ys im * 2)) with k; [ring|]. unfold k. rewrite Z.mul_comm, (Z.mul_comm (ys im) 2). rewrite Z.div_mul_cancel_r by lia. reflexivity. }
  rewrite Q2. rewrite (skipn_zslice' _ (2 * k * ys im) (ys im)) by nia.
  change (full _ (yw im) (yh im)) with (concat (map row (zrange 0 (yh im)))).
  destruct (Z.eq_dec (yh im) (2 * k)) as [Ev|Od].
  - rewrite chunks_exact_short by (rewrite zlen_zslice_gen; nia). cbn [combine foldM]. f_equal. unfold overwrite.
    rewrite skipn_all2, app_nil_r by (unfold zlen in *; unfold st in *; nia). unfold done. rewrite <- Ev. reflexivity.
  - assert (Od' : yh im = 2 * k + 1) by lia. assert (Ech : ch = k + 1) by lia.
    assert (E1 : st * yh im = 2 * k * st + st) by (rewrite Od'; ring). assert (E2 : ys im * yh im = 2 * k * ys im + ys im) by (rewrite Od'; ring).
    assert (E3 : 0 <= 2 * k * ys im) by (apply Z.mul_nonneg_nonneg; lia). assert (E4 : 0 <= 2 * k * st) by (apply Z.mul_nonneg_nonneg; unfold st; lia).
    assert (E5 : zlen (zslice (yp im) (2 * k * ys im) (ys im)) = ys im) by (rewrite zlen_zslice_gen; lia).
    rewrite (chunks_full (ys im) (zslice (yp im) (2 * k * ys im) (ys im)) 1) by lia.
    change (zrange 0 1) with [0]. cbn [map]. rewrite zslice_zslice by nia. rewrite Z.mul_0_l, Z.add_0_r. rewrite Ech. rewrite (zrange_snoc 0 k) by lia.
    rewrite !map_app, !rev_app_distr. cbn [map rev app combine]. rewrite Z.max_r by lia. rewrite Od'. rewrite (zrange_snoc 0 (2 * k)) by lia. rewrite rev_app_distr. cbn [rev app combine]. rewrite !Z.add_0_l.
    cbn [foldM]. pose proof (ROW (2 * k) ltac:(lia)) as R0. replace (2 * k / 2) with k in R0 by (Z.div_mod_to_equations; lia). rewrite R0. cbn [bind foldM].
    f_equal. rewrite map_app, concat_app. cbn [map concat]. rewrite app_nil_r. fold done. unfold zsplice, overwrite.
    rewrite firstn_app_exact by (unfold zlen in Zd; lia). f_equal. rewrite skipn_all2, app_nil_r; [reflexivity|].
    rewrite app_length, skipn_length. pose proof (Zrow (2 * k)). rewrite E1 in Hr. unfold zlen in *. clear - Hr Zd H E4. lia.
Qed.
End px.
