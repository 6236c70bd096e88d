(** More list facts shared by the proofs. *)
From Verif Require Import Base BaseLemmas.
Local Open Scope Z_scope.

Lemma zslice_nil_n {A} (l : list A) a n : n <= 0 -> zslice l a n = [].
Proof. intros. unfold zslice. replace (Z.to_nat n) with O by lia. reflexivity. Qed.
Lemma zlen_zslice_gen {A} (l : list A) a n : zlen (zslice l a n) = Z.max 0 (Z.min n (zlen l - Z.max 0 a)).
Proof. unfold zslice. rewrite zlen_firstn, zlen_skipn. pose proof (zlen_nonneg l). lia. Qed.
Lemma zget_zslice_gen {A} (l : list A) a n i : 0 <= a ->
  zget (zslice l a n) i = if (0 <=? i) && (i <? n) then zget l (a + i) else None.
Proof.
  intros Ha. destruct ((0 <=? i) && (i <? n)) eqn:E.
  - apply zget_zslice; lia.
  - apply zget_none. rewrite zlen_zslice_gen. lia.
Qed.
Lemma zget_ext' {A} (l1 l2 : list A) : (forall i, 0 <= i -> zget l1 i = zget l2 i) -> l1 = l2.
Proof.
  intros H. assert (zlen l1 = zlen l2).
  { destruct (Z_lt_ge_dec (zlen l1) (zlen l2)) as [L|L].
    - destruct (zget_some l2 (zlen l1)) as [a Ha]; [pose proof (zlen_nonneg l1); lia|].
      rewrite <- H in Ha by apply zlen_nonneg. apply zget_range in Ha. lia.
    - destruct (Z_lt_ge_dec (zlen l2) (zlen l1)) as [L'|L']; [|lia].
      destruct (zget_some l1 (zlen l2)) as [a Ha]; [pose proof (zlen_nonneg l2); lia|].
      rewrite H in Ha by apply zlen_nonneg. apply zget_range in Ha. lia. }
  apply zget_ext; [auto|]. intros i Hi. apply H. lia.
Qed.
Lemma zslice_split {A} (l : list A) a n m : 0 <= a -> 0 <= n -> 0 <= m ->
  zslice l a (n + m) = zslice l a n ++ zslice l (a + n) m.
Proof.
  intros Ha Hn Hm. apply zget_ext'. intros i Hi. rewrite zget_app, !zget_zslice_gen by lia.
  rewrite zlen_zslice_gen. pose proof (zlen_nonneg l).
  destruct (Z.ltb_spec i (Z.max 0 (Z.min n (zlen l - Z.max 0 a)))).
  - replace ((0 <=? i) && (i <? n + m)) with true by lia.
    replace ((0 <=? i) && (i <? n)) with true by lia. reflexivity.
  - destruct ((0 <=? i) && (i <? n + m)) eqn:E.
    + destruct (Z_lt_ge_dec (zlen l) (a + n)) as [L|L].
      * rewrite zget_none by lia. destruct ((0 <=? i - _) && _) eqn:E2; [|reflexivity]. symmetry; apply zget_none. lia.
      * replace (Z.max 0 (Z.min n (zlen l - Z.max 0 a))) with n by lia.
        replace ((0 <=? i - n) && (i - n <? m)) with true by lia. f_equal. lia.
    + destruct ((0 <=? i - _) && _) eqn:E2; [|reflexivity]. symmetry; apply zget_none. lia.
Qed.
Lemma zslice_zslice {A} (l : list A) a n b m : 0 <= a -> 0 <= b -> b + m <= n ->
  zslice (zslice l a n) b m = zslice l (a + b) m.
Proof.
  intros Ha Hb Hm. apply zget_ext'. intros i Hi. rewrite !zget_zslice_gen by lia.
  destruct ((0 <=? i) && (i <? m)) eqn:E; [|reflexivity].
  replace ((0 <=? b + i) && (b + i <? n)) with true by lia. f_equal; lia.
Qed.
Lemma zslice_app1 {A} (l1 l2 : list A) a n : 0 <= a -> a + n <= zlen l1 -> zslice (l1 ++ l2) a n = zslice l1 a n.
Proof.
  intros Ha Hn. apply zget_ext'. intros i Hi. rewrite !zget_zslice_gen by lia.
  destruct ((0 <=? i) && (i <? n)) eqn:E; [|reflexivity]. rewrite zget_app.
  replace (a + i <? zlen l1) with true by lia. reflexivity.
Qed.
Lemma zslice_app2 {A} (l1 l2 : list A) a n : zlen l1 <= a -> zslice (l1 ++ l2) a n = zslice l2 (a - zlen l1) n.
Proof.
  intros Ha. pose proof (zlen_nonneg l1). apply zget_ext'. intros i Hi. rewrite !zget_zslice_gen by lia.
  destruct ((0 <=? i) && (i <? n)) eqn:E; [|reflexivity]. rewrite zget_app.
  replace (a + i <? zlen l1) with false by lia. f_equal; lia.
Qed.
Lemma firstn_zslice {A} (l : list A) n : firstn n l = zslice l 0 (Z.of_nat n).
Proof. unfold zslice. rewrite Nat2Z.id. reflexivity. Qed.
Lemma skipn_zslice {A} (l : list A) n : skipn n l = zslice l (Z.of_nat n) (zlen l).
Proof.
  unfold zslice. rewrite Nat2Z.id. symmetry. apply firstn_all2. rewrite skipn_length. unfold zlen. lia.
Qed.
Lemma skipn_zslice' {A} (l : list A) n m : 0 <= n -> zlen l - n <= m -> skipn (Z.to_nat n) l = zslice l n m.
Proof.
  intros. unfold zslice. symmetry. apply firstn_all2. rewrite skipn_length. unfold zlen in *. lia.
Qed.
Lemma zslice_full {A} (l : list A) n : zlen l <= n -> zslice l 0 n = l.
Proof. intros. unfold zslice. cbn [Z.to_nat skipn]. apply firstn_all2. unfold zlen in *; lia. Qed.

Lemma map_zrange_shift {A} (f : Z -> A) a n : map f (zrange a n) = map (fun i => f (a + i)) (zrange 0 n).
Proof. unfold zrange. rewrite !map_map. apply map_ext. intros; f_equal. Qed.

(** consecutive slices *)
Lemma chunks_exact_slices {A} n (l : list A) a k : 0 < n -> 0 <= a -> 0 <= k -> a + k * n <= zlen l ->
  chunks_exact n (zslice l a (k * n)) = map (fun i => zslice l (a + i * n) n) (zrange 0 k).
Proof.
  intros Hn Ha Hk. revert a Ha. pattern k. apply natlike_ind; [|intros j Hj IH|exact Hk].
  - intros a Ha Hl. rewrite zslice_nil_n by lia. rewrite chunks_exact_short; [reflexivity|].
    rewrite zlen_nil; lia.
  - intros a Ha Hl. unfold Z.succ in *. replace ((j + 1) * n) with (n + j * n) by lia.
    rewrite zslice_split by nia. rewrite chunks_exact_cons; [|auto|apply zlen_zslice; nia].
    rewrite IH by nia. rewrite (zrange_cons 0 (j + 1)) by lia. cbn [map].
    replace (a + 0 * n) with a by lia. f_equal.
    rewrite map_zrange_shift. replace (j + 1 - 1) with j by lia. rewrite (map_zrange_shift _ (0 + 1)).
    apply map_ext. intros i. f_equal. lia.
Qed.
Lemma concat_slices {A} n (l : list A) a k : 0 <= n -> 0 <= a -> 0 <= k ->
  concat (map (fun i => zslice l (a + i * n) n) (zrange 0 k)) = zslice l a (k * n).
Proof.
  intros Hn Ha Hk. revert a Ha. pattern k. apply natlike_ind; [|intros j Hj IH|exact Hk].
  - intros a Ha. rewrite zslice_nil_n by lia. reflexivity.
  - intros a Ha. unfold Z.succ in *. rewrite (zrange_cons 0 (j + 1)) by lia. cbn [map concat].
    replace (j + 1 - 1) with j by lia. rewrite map_zrange_shift.
    replace ((j + 1) * n) with (n + j * n) by lia. rewrite zslice_split by nia. f_equal.
    + f_equal; lia.
    + rewrite <- IH by lia. f_equal. apply map_ext. intros i. f_equal. lia.
Qed.
Lemma zlen_concat {A} n (ls : list (list A)) : Forall (fun c => zlen c = n) ls -> zlen (concat ls) = zlen ls * n.
Proof.
  induction 1; cbn [concat]; [reflexivity|]. rewrite zlen_app, zlen_cons, IHForall. lia.
Qed.
(** slice number i of a concatenation of equal chunks *)
Lemma zslice_concat {A} n (ls : list (list A)) i c : 0 <= n -> Forall (fun c => zlen c = n) ls ->
  zget ls i = Some c -> zslice (concat ls) (i * n) n = c.
Proof.
  intros Hn HF. revert i. induction HF as [|d ls Hd HF IH]; intros i Hi.
  - rewrite zget_nil in Hi. discriminate.
  - cbn [concat]. pose proof (zget_range _ _ _ Hi). rewrite zget_cons in Hi.
    destruct (Z.eqb_spec i 0) as [Ei|Hne].
    + apply Some_inj in Hi. subst d. rewrite Ei, Z.mul_0_l. apply zslice_app_l. auto.
    + rewrite zslice_app2 by nia. rewrite <- (IH (i - 1)); auto. f_equal. lia.
Qed.
Lemma coords_map w h : 0 < w -> 0 <= h -> coords w h = map (fun k => (k mod w, k / w)) (zrange 0 (w * h)).
Proof.
  intros Hw Hh. apply zget_ext.
  - rewrite zlen_coords, zlen_map, zlen_zrange by lia. nia.
  - intros i Hi. rewrite zlen_coords in Hi by lia. rewrite zget_coords by lia.
    rewrite zget_map, zget_zrange by lia. reflexivity.
Qed.
Lemma coords_0 h : coords 0 h = [].
Proof. unfold coords. cbn. induction (zrange 0 h); auto. Qed.
Lemma coords_idx w h : 0 <= w -> 0 <= h ->
  map (fun c => snd c * w + fst c) (coords w h) = zrange 0 (w * h).
Proof.
  intros Hw Hh. destruct (Z.eq_dec w 0) as [->|Hne]; [rewrite coords_0; reflexivity|].
  rewrite coords_map, map_map by lia. rewrite <- (map_id (zrange 0 (w * h))) at 2.
  apply map_ext. intros k. cbn [fst snd]. pose proof (Z.div_mod k w Hne). lia.
Qed.
Lemma Forall_map_iff {A B} (P : B -> Prop) (f : A -> B) l : Forall P (map f l) <-> Forall (fun a => P (f a)) l.
Proof. rewrite !Forall_forall. split; intros H x Hx; [apply H, in_map; auto|].
  apply in_map_iff in Hx as (a & <- & Ha). auto. Qed.
Lemma Forall_slices {A} (l : list A) a n k : 0 <= n -> 0 <= a -> a + k * n <= zlen l ->
  Forall (fun c => zlen c = n) (map (fun i => zslice l (a + i * n) n) (zrange 0 k)).
Proof.
  intros. apply Forall_map_iff, Forall_forall. intros i Hi. apply In_zrange in Hi.
  apply zlen_zslice; nia.
Qed.
