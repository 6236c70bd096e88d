From Verif Require Import Base BaseLemmas ListLemmas BitsProofs Limits Orient Delay ColorType GenImage Buffer BufferProofs Color ColorProofs TgaProofs3 YuvProofs2 Glue.
Local Open Scope Z_scope.

(** ** filling a buffer chunk by chunk *)
Lemma write_at_ok buf off new : 0 <= off -> off + zlen new <= zlen buf -> write_at buf off new = Ok (zsplice buf off new).
Proof. intros. unfold write_at. replace ((0 <=? off) && (off + zlen new <=? zlen buf)) with true by lia. reflexivity. Qed.
Lemma fill (f : Z -> res (list Z)) (g : Z -> list Z) c n buf : 0 <= c -> 0 <= n -> n * c <= zlen buf ->
  (forall k, 0 <= k < n -> f k = Ok (g k) /\ zlen (g k) = c) ->
  exists s, foldM (fun b k => v <- f k ;; write_at b (k * c) v) (zrange 0 n) buf = Ok s /\ zlen s = zlen buf /\ zslice s 0 (n * c) = concat (map g (zrange 0 n)).
Proof.
  intros Hc Hn Hl H.
  destruct (foldM_zrange_inv (fun b k => v <- f k ;; write_at b (k * c) v) (fun k s => zlen s = zlen buf /\ zslice s 0 (k * c) = concat (map g (zrange 0 k))) 0 n buf) as (s & E & I); [exact Hn| | |exists s; split; [exact E|exact I]].
  - split; [reflexivity|]. rewrite zslice_nil_n by lia. reflexivity.
  - intros k s Hk [L P]. destruct (H k Hk) as [E G]. rewrite Z.add_0_l, E. cbn [bind].
    assert (M : k * c + c <= zlen buf) by nia. assert (0 <= k * c) by nia.
    rewrite write_at_ok by lia. eexists; split; [reflexivity|]. split; [rewrite zlen_zsplice; lia|].
    replace ((k + 1) * c) with (k * c + c) by lia. rewrite zslice_split by lia. rewrite zslice_zsplice_other by lia.
    rewrite P, Z.add_0_l.
    replace (zslice (zsplice s (k * c) (g k)) (k * c) c) with (g k) by (rewrite <- (zslice_zsplice_same s (k * c) (g k)) at 1 by lia; rewrite G; reflexivity).
    rewrite zrange_snoc, map_app, concat_app by lia. cbn [map concat]. rewrite app_nil_r, Z.add_0_l. reflexivity.
Qed.
Lemma fill_all (f : Z -> res (list Z)) (g : Z -> list Z) c n buf : 0 <= c -> 0 <= n -> zlen buf = n * c ->
  (forall k, 0 <= k < n -> f k = Ok (g k) /\ zlen (g k) = c) ->
  foldM (fun b k => v <- f k ;; write_at b (k * c) v) (zrange 0 n) buf = Ok (concat (map g (zrange 0 n))).
Proof.
  intros Hc Hn Hl H. destruct (fill f g c n buf Hc Hn ltac:(lia) H) as (s & E & L & P). rewrite E. f_equal. rewrite <- P. symmetry. apply zslice_full. lia.
Qed.
(** the first failure decides *)
Lemma fill_stop (f : Z -> res (list Z)) (g : Z -> list Z) c n buf i r : 0 <= c -> n * c <= zlen buf -> 0 <= i < n ->
  (forall k, 0 <= k < i -> f k = Ok (g k) /\ zlen (g k) = c) -> f i = r -> (forall v, r <> Ok v) ->
  foldM (fun b k => v <- f k ;; write_at b (k * c) v) (zrange 0 n) buf = r.
Proof.
  intros Hc Hl Hi H E N. destruct (fill f g c i buf Hc ltac:(lia) ltac:(nia) H) as (s & Es & _ & _).
  replace n with (i + (n - i)) by lia. rewrite zrange_app, foldM_app, Es by lia. cbn [bind].
  replace (n - i) with (1 + (n - i - 1)) by lia. rewrite zrange_app by lia. change (zrange (0 + i) 1) with [0 + i + 0]. cbn [app foldM].
  replace (0 + i + 0) with i by lia. rewrite E. destruct r; [exfalso; apply (N a); reflexivity|reflexivity|reflexivity].
Qed.

(** ** PCX *)
Lemma pcx_total d : 0 <= p_w d <= 65535 -> 0 <= p_h d <= 65535 -> total_bytes (p_w d) (p_h d) (pcx_color_type d) = Ok (p_w d * p_h d * 3).
Proof. intros. rewrite total_bytes_16 by lia. reflexivity. Qed.
Definition pal_px (pal_buf palette : list Z) (k : Z) : res (list Z) :=
  pixel <- index pal_buf k ;; r <- index palette (pixel * 3) ;; g <- index palette (pixel * 3 + 1) ;; b <- index palette (pixel * 3 + 2) ;; Ok [r; g; b].
Lemma pcx_pixels_loop w h pal_buf palette buf : 0 <= w -> 0 <= h ->
  foldM (pcx_pixel w pal_buf palette) (flat_map (fun i => map (fun j => (i, j)) (zrange 0 w)) (zrange 0 h)) buf =
  foldM (fun b k => v <- pal_px pal_buf palette k ;; write_at b (k * 3) v) (zrange 0 (h * w)) buf.
Proof.
  intros Hw Hh. destruct (Z.eq_dec w 0) as [->|Hne].
  { rewrite Z.mul_0_r. change (zrange 0 0) with (@nil Z). rewrite foldM_flat_map. cbn [map foldM]. clear. induction (zrange 0 h) as [|a l IH]; [reflexivity|]. cbn [foldM bind]. exact IH. }
  transitivity (foldM (pcx_pixel w pal_buf palette) (map (fun p => (snd p, fst p)) (coords w h)) buf).
  { f_equal. unfold coords. rewrite !flat_map_concat_map, concat_map, map_map. f_equal. apply map_ext. intros i. rewrite map_map. reflexivity. }
  rewrite coords_map, map_map, foldM_map by lia. rewrite (Z.mul_comm h w). apply foldM_ext. intros b k Hk. cbn [fst snd]. unfold pcx_pixel, pal_px.
  assert (K : k / w * w + k mod w = k) by (pose proof (Z.div_mod k w Hne); lia).
  rewrite K. replace (k / w * w * 3 + k mod w * 3) with (k * 3) by lia.
  destruct (index pal_buf k) as [v| |]; [|reflexivity..]. cbn [bind].
  destruct (index palette (v * 3)); [|reflexivity..]. cbn [bind].
  destruct (index palette (v * 3 + 1)); [|reflexivity..]. cbn [bind].
  destruct (index palette (v * 3 + 2)); reflexivity.
Qed.
Lemma index_ok {A} (l : list A) i : 0 <= i < zlen l -> exists a, index l i = Ok a /\ zget l i = Some a.
Proof. intros H. destruct (zget l i) eqn:E. { exists a. unfold index. rewrite E. auto. } exfalso. destruct (zget_some l i H) as [x X]. congruence. Qed.
Lemma pal_px_ok pal_buf palette n k v : zget pal_buf k = Some v -> 0 <= v < n -> zlen palette = 3 * n ->
  pal_px pal_buf palette k = Ok (zslice palette (3 * v) 3).
Proof.
  intros G Hv L. unfold pal_px. unfold index at 1. rewrite G. cbn [bind].
  destruct (index_ok palette (v * 3)) as (a & -> & Ga); [lia|]. destruct (index_ok palette (v * 3 + 1)) as (b & -> & Gb); [lia|].
  destruct (index_ok palette (v * 3 + 2)) as (c & -> & Gc); [lia|]. cbn [bind]. f_equal. symmetry.
  rewrite (Z.mul_comm 3 v). apply zget_ext'. intros i Hi. rewrite zget_zslice_gen by lia. 
  destruct (Z.ltb_spec i 3); [|rewrite andb_false_r; symmetry; apply zget_none; cbn; lia].
  replace (0 <=? i) with true by lia. cbn [andb].
  assert (D : i = 0 \/ i = 1 \/ i = 2) by lia. destruct D as [->|[->| ->]]; [rewrite Z.add_0_r, Ga|rewrite Gb|rewrite Gc]; reflexivity.
Qed.
Lemma pal_px_panics pal_buf palette n k v : zget pal_buf k = Some v -> n <= v -> zlen palette = 3 * n -> pal_px pal_buf palette k = Panic.
Proof.
  intros G Hv L. unfold pal_px. unfold index at 1. rewrite G. cbn [bind]. unfold index at 1. rewrite zget_none by lia. reflexivity.
Qed.
(** the palette index of pixel (j, i) in the row by row buffer *)
Lemma zget_rows (row : Z -> list Z) w h i j : 0 < w -> (forall k, 0 <= k < h -> zlen (row k) = w) -> 0 <= i < h -> 0 <= j < w ->
  zget (concat (map row (zrange 0 h))) (i * w + j) = zget (row i) j.
Proof.
  intros Hw H Hi Hj.
  assert (Z1 : zslice (concat (map row (zrange 0 h))) (i * w) w = row i).
  { apply zslice_concat; [lia| |]. { apply Forall_forall. intros l Hl. apply in_map_iff in Hl as (k & <- & Hk). apply In_zrange in Hk. apply H. lia. }
    rewrite zget_map, zget_zrange by lia. reflexivity. }
  rewrite <- Z1. rewrite zget_zslice_gen by nia. replace ((0 <=? j) && (j <? w)) with true by lia. reflexivity.
Qed.
(** the first element of a range with a decidable property *)
Lemma first_bad (P : Z -> bool) n k : 0 <= k < n -> P k = true -> exists i, 0 <= i < n /\ P i = true /\ forall j, 0 <= j < i -> P j = false.
Proof.
  intros Hk. revert Hk. pattern k. apply (well_founded_ind (Z.lt_wf 0)). clear k. intros k IH Hk E.
  destruct (existsb P (zrange 0 k)) eqn:X.
  - apply existsb_exists in X as (j & Hj & Ej). apply In_zrange in Hj. apply (IH j); auto; lia.
  - exists k. split; [exact Hk|]. split; [exact E|]. intros j Hj. destruct (P j) eqn:Ej; [|reflexivity].
    assert (Y : existsb P (zrange 0 k) = true) by (apply existsb_exists; exists j; split; [apply In_zrange; lia|exact Ej]). congruence.
Qed.

(** ** whole images of chunks *)
Lemma to_img_exact c (l : list Z) w h : 0 < c -> 0 <= w * h -> zlen l = w * h * c ->
  to_img c (mkBuf w h l) = mkImg w h (map (fun k => zslice l (k * c) c) (zrange 0 (w * h))).
Proof.
  intros Hc Hn L. unfold to_img. cbn [bw bh data]. f_equal. rewrite zslice_full by lia. apply chunks_full; lia.
Qed.
Lemma byte_slice_pixel t k l i n : 0 <= i < n -> zlen l = n * nch k -> Forall (is_sample t) l -> is_pixel t k (zslice l (i * nch k) (nch k)).
Proof.
  intros Hi L F. assert (1 <= nch k <= 4) by (destruct k; cbn; lia). split; [rewrite zlen_zslice_gen; nia|].
  rewrite Forall_forall in F. apply Forall_forall. intros x Hx. apply F.
  unfold zslice in Hx. rewrite <- (firstn_skipn (Z.to_nat (i * nch k)) l). apply in_or_app; right.
  rewrite <- (firstn_skipn (Z.to_nat (nch k)) (skipn _ l)). apply in_or_app; left. exact Hx.
Qed.
