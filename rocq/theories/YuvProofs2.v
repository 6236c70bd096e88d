(** Rows and whole planes. *)
From Coq Require Import ZArith Lia List Bool.
From Verif Require Import Base BaseLemmas ListLemmas ListMore Color ColorProofs BitsProofs BufferProofs Yuv.
Import ListNotations.
Local Open Scope Z_scope.

Definition elt (l : list Z) (i : Z) : Z := nth (Z.to_nat i) l 0.
Lemma zget_elt l i : 0 <= i < zlen l -> zget l i = Some (elt l i).
Proof. intros H. rewrite zget_nth by lia. unfold elt. apply nth_error_nth'. unfold zlen in H. lia. Qed.
Lemma elt_zslice l a n i : 0 <= a -> 0 <= i < n -> a + n <= zlen l -> elt (zslice l a n) i = elt l (a + i).
Proof.
  intros. assert (L : zlen (zslice l a n) = n) by (rewrite zlen_zslice_gen; lia).
  apply Some_inj. rewrite <- zget_elt by lia. rewrite zget_zslice_gen by lia. destruct (_ && _) eqn:E; [|lia]. apply zget_elt. lia.
Qed.
Lemma slice_map l a n : 0 <= a -> a + n <= zlen l -> zslice l a n = map (fun i => elt l (a + i)) (zrange 0 n).
Proof.
  intros Ha H. apply zget_ext'. intros i Hi. rewrite zget_zslice_gen, zget_map by lia. destruct ((0 <=? i) && (i <? n)) eqn:E.
  - rewrite zget_zrange by lia. cbn. rewrite zget_elt by lia. reflexivity.
  - rewrite zget_none by (rewrite zlen_zrange; lia). reflexivity.
Qed.
Lemma firstn_map l n : n <= zlen l -> firstn (Z.to_nat n) l = map (elt l) (zrange 0 n).
Proof.
  intros H. destruct (Z_lt_le_dec n 0) as [Hn|Hn].
  - replace (Z.to_nat n) with O by lia. rewrite zrange_nil by lia. reflexivity.
  - rewrite firstn_zslice, Z2Nat.id by lia. rewrite slice_map by lia. apply map_ext. intros i. f_equal.
Qed.
Lemma all_map l n : zlen l = n -> l = map (elt l) (zrange 0 n).
Proof. intros H. rewrite <- firstn_map by lia. symmetry. apply firstn_all2. unfold zlen in H. lia. Qed.

(** chunks, with a remainder *)
Lemma chunks_rem (n : Z) (l : list Z) k : 0 < n -> 0 <= k -> k * n <= zlen l < (k + 1) * n ->
  chunks_exact n l = map (fun i => zslice l (i * n) n) (zrange 0 k).
Proof.
  intros Hn Hk. revert l. pattern k. apply natlike_ind; [|intros j Hj IH|exact Hk].
  - intros l H. rewrite chunks_exact_short by lia. reflexivity.
  - intros l H. assert (E : l = zslice l 0 n ++ zslice l n (zlen l - n)).
    { rewrite <- (zslice_all l) at 1. replace (zlen l) with (n + (zlen l - n)) at 1 by lia. rewrite zslice_split by lia. reflexivity. }
    assert (Z1 : zlen (zslice l 0 n) = n) by (rewrite zlen_zslice_gen; lia).
    assert (Z2 : zlen (zslice l n (zlen l - n)) = zlen l - n) by (rewrite zlen_zslice_gen; lia).
    rewrite E at 1. rewrite chunks_exact_cons by (auto with zarith). rewrite IH by (rewrite Z2; lia).
    rewrite (zrange_cons 0 (Z.succ j)) by lia. cbn [map]. f_equal. replace (Z.succ j - 1) with j by lia. rewrite (map_zrange_shift _ (0 + 1)).
    apply map_ext_in. intros i Hi. apply In_zrange in Hi. rewrite zslice_zslice by nia. f_equal. ring.
Qed.
Lemma chunks_full (n : Z) (l : list Z) k : 0 < n -> 0 <= k -> zlen l = n * k ->
  chunks_exact n l = map (fun i => zslice l (i * n) n) (zrange 0 k).
Proof. intros. apply chunks_rem; lia. Qed.
Lemma chunksR_ok (n : Z) (l : list Z) : 0 < n -> chunksR n l = Ok (chunks_exact n l).
Proof. intros. unfold chunksR. destruct (Z.eqb_spec n 0); [lia|reflexivity]. Qed.

Lemma overwrite_all new old : zlen new = zlen old -> overwrite new old = new.
Proof. intros H. unfold overwrite. rewrite skipn_all2, app_nil_r; [reflexivity|]. unfold zlen in H. lia. Qed.
Lemma zlen_concat_map (f : Z -> list Z) n k : (forall i, 0 <= i < n -> zlen (f i) = k) -> 0 <= n -> zlen (concat (map f (zrange 0 n))) = n * k.
Proof.
  intros H Hn. rewrite (zlen_concat k). { rewrite zlen_map, zlen_zrange, Z.max_r by lia. reflexivity. }
  apply Forall_map_iff, Forall_forall. intros i Hi. apply In_zrange in Hi. apply H. lia.
Qed.
Lemma combine_ge {A B} (f : Z -> A) (g : Z -> B) n k : 0 <= n <= k ->
  combine (map f (zrange 0 n)) (map g (zrange 0 k)) = map (fun t => (f t, g t)) (zrange 0 n).
Proof.
  intros H. replace k with (n + (k - n)) by lia. rewrite zrange_app by lia. rewrite map_app. generalize (map g (zrange (0 + n) (k - n))) as r.
  intros r. generalize (zrange 0 n) as l. induction l as [|a l IH]; cbn; [reflexivity|]. f_equal. exact IH.
Qed.

(** pairs of pixels *)
Lemma pairs_concat (f : Z -> list Z) k : 0 <= k -> concat (map (fun i => f (2 * i) ++ f (2 * i + 1)) (zrange 0 k)) = concat (map f (zrange 0 (2 * k))).
Proof.
  intros Hk. pattern k. apply natlike_ind; [reflexivity| |exact Hk]. intros j Hj IH.
  unfold Z.succ. rewrite zrange_snoc by lia. rewrite map_app, concat_app, IH. replace (2 * (j + 1)) with (2 * j + 1 + 1) by lia.
  rewrite (zrange_snoc 0 (2 * j + 1)), (zrange_snoc 0 (2 * j)) by lia. rewrite !map_app, !concat_app. cbn [map concat]. rewrite !app_nil_r, !Z.add_0_l, <- app_assoc. reflexivity.
Qed.

(** pixel functions that succeed on samples *)
Section px.
Context (P : Z -> Prop) (px : Z -> Z -> Z -> res (list Z)) (pv : Z -> Z -> Z -> list Z).
Context (Hpx : forall a b c, P a -> P b -> P c -> px a b c = Ok (pv a b c)) (Hpv : forall a b c, zlen (pv a b c) = 4).
Lemma P_elt l i : Forall P l -> 0 <= i < zlen l -> P (elt l i).
Proof. intros H Hi. rewrite Forall_forall in H. apply H. apply (zget_In _ i). apply zget_elt. exact Hi. Qed.

Lemma row444_ok w y u v old : 0 <= w -> zlen old = w * 4 -> w <= zlen y -> w <= zlen u -> w <= zlen v -> Forall P y -> Forall P u -> Forall P v ->
  row444 px y u v old = Ok (concat (map (fun x => pv (elt y x) (elt u x) (elt v x)) (zrange 0 w))).
Proof.
  intros Hw Ho Hy Hu Hv Fy Fu Fv. unfold row444, combine3. rewrite Ho. rewrite Z.div_mul by lia.
  rewrite !combine_firstn. rewrite !firstn_map by assumption. rewrite !combine_map_same.
  rewrite (map_res_ok _ (fun '((a, b), c) => pv a b c)).
  - cbn [bind]. rewrite map_map. f_equal. apply overwrite_all. rewrite (zlen_concat_map _ _ 4); try lia. intros; apply Hpv.
  - intros [[a b] c] H. apply in_map_iff in H as (i & E & Hi). apply In_zrange in Hi. injection E as <- <- <-.
    apply Hpx; apply P_elt; auto; lia.
Qed.

Lemma halved_row_ok w y u v : 0 < w -> w <= zlen y -> (w + 1) / 2 <= zlen u -> (w + 1) / 2 <= zlen v -> Forall P y -> Forall P u -> Forall P v ->
  halved_row px w y u v = Ok (concat (map (fun x => pv (elt y x) (elt u (x / 2)) (elt v (x / 2))) (zrange 0 w))).
Proof.
  intros Hw Hy Hu Hv Fy Fu Fv. unfold halved_row, slice_to, combine3. set (c := (w + 1) / 2) in *. set (k := w / 2).
  assert (Hk : 0 <= k) by (apply Z.div_pos; lia).
  assert (Hc : if Z.odd w then w = 2 * k + 1 /\ c = k + 1 else w = 2 * k /\ c = k).
  { unfold c, k. destruct (Z.odd w) eqn:E; [apply Zodd_bool_iff, Zodd_ex in E as [j ->]|rewrite <- Z.negb_even in E; apply negb_false_iff, Zeven_bool_iff, Zeven_ex in E as [j ->]].
    - replace (2 * j + 1 + 1) with ((j + 1) * 2) by ring. rewrite Z.div_mul by lia. split; [|]; Z.div_mod_to_equations; lia.
    - split; Z.div_mod_to_equations; lia. }
  assert (B : 2 * k <= w < 2 * k + 2 /\ k <= c <= k + 1) by (destruct (Z.odd w); lia).
  destruct (Z.leb_spec w (zlen y)); [|lia]. cbn [bind]. destruct (Z.leb_spec c (zlen u)); [|lia]. cbn [bind]. destruct (Z.leb_spec c (zlen v)); [|lia]. cbn [bind].
  set (y' := firstn (Z.to_nat w) y). assert (Ly : zlen y' = w) by (unfold y'; rewrite zlen_firstn; lia).
  assert (Ey : forall i, 0 <= i < w -> elt y' i = elt y i).
  { intros i Hi. unfold y'. rewrite firstn_zslice. rewrite Z2Nat.id by lia. apply elt_zslice; lia. }
  rewrite (chunks_rem 2 y' k) by lia. rewrite !firstn_map by lia. rewrite combine_ge by lia. rewrite combine_ge by lia.
  rewrite (map_res_ok _ (fun '((a, b), c) => match a with [a0; a1] => pv a0 b c ++ pv a1 b c | _ => [] end)).
  2:{ intros [[a b] d] H'. apply in_map_iff in H' as (i & E & Hi). apply In_zrange in Hi. injection E as <- <- <-.
      rewrite slice_map by lia. change (zrange 0 2) with [0; 1]. cbn [map]. rewrite !Hpx; [reflexivity| ..]; try (rewrite Ey by lia); apply P_elt; auto; lia. }
  cbn [bind]. rewrite map_map.
  rewrite (map_ext_in _ (fun i => (fun x => pv (elt y x) (elt u (x / 2)) (elt v (x / 2))) (2 * i) ++ (fun x => pv (elt y x) (elt u (x / 2)) (elt v (x / 2))) (2 * i + 1))).
  2:{ intros i Hi. apply In_zrange in Hi. rewrite slice_map by lia. change (zrange 0 2) with [0; 1]. cbn [map].
      replace (2 * i / 2) with i by (Z.div_mod_to_equations; lia). replace ((2 * i + 1) / 2) with i by (Z.div_mod_to_equations; lia).
      rewrite !Ey by lia. replace (i * 2 + 0) with (2 * i) by ring. replace (i * 2 + 1) with (2 * i + 1) by ring. reflexivity. }
  rewrite (pairs_concat (fun x => pv (elt y x) (elt u (x / 2)) (elt v (x / 2))) k Hk). destruct (Z.odd w).
  - destruct Hc as [Hw' Hc']. replace (k * 2) with (2 * k) by ring. rewrite (skipn_zslice' _ (2 * k) 1) by lia.
    rewrite slice_map by lia. change (zrange 0 1) with [0]. cbn [map].
    rewrite Hc'. rewrite zrange_snoc by lia. rewrite !map_app, !rev_app_distr. cbn [map rev app combine map_res]. rewrite !Z.add_0_l, Z.add_0_r.
    rewrite Hpx; [|rewrite Ey by lia; apply P_elt; auto; lia|apply P_elt; auto; lia|apply P_elt; auto; lia]. cbn [bind]. rewrite Hw'. rewrite (zrange_snoc 0 (2 * k)) by lia.
    rewrite !map_app, concat_app. cbn [map concat]. rewrite !Z.add_0_l. replace (2 * k / 2) with k by (Z.div_mod_to_equations; lia). rewrite Ey by lia. reflexivity.
  - destruct Hc as [Hw' Hc']. cbn [bind concat]. rewrite app_nil_r, Hw'. reflexivity.
Qed.
End px.
