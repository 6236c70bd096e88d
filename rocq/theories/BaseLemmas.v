(** Lemmas about the shared vocabulary of Base.v. *)
From Coq Require FinFun.
From Verif Require Import Base.

Ltac zdm := Z.div_mod_to_equations; nia.

Lemma bind_ok {A B} (r : res A) (f : A -> res B) b :
  bind r f = Ok b -> exists a, r = Ok a /\ f a = Ok b.
Proof. destruct r; simpl; intros H; try discriminate; eauto. Qed.

Lemma foldM_app {S A} (f : S -> A -> res S) l1 l2 s :
  foldM f (l1 ++ l2) s = bind (foldM f l1 s) (foldM f l2).
Proof.
  revert s; induction l1 as [|a l1 IH]; intros s; simpl; [reflexivity|].
  destruct (f s a); simpl; auto.
Qed.

Lemma foldM_map {S A B} (f : S -> B -> res S) (g : A -> B) l s :
  foldM f (map g l) s = foldM (fun s a => f s (g a)) l s.
Proof. revert s; induction l as [|a l IH]; intros s; simpl; [reflexivity|].
  destruct (f s (g a)); simpl; auto. Qed.

Lemma foldM_flat_map {S A B} (f : S -> B -> res S) (g : A -> list B) l s :
  foldM f (flat_map g l) s = foldM (fun s a => foldM f (g a) s) l s.
Proof. revert s; induction l as [|a l IH]; intros s; simpl; [reflexivity|].
  rewrite foldM_app. destruct (foldM f (g a) s); simpl; auto. Qed.

(** an invariant rule for loops *)
Lemma foldM_inv {S A} (f : S -> A -> res S) (I : S -> Prop) l :
  (forall s a, In a l -> I s -> exists s', f s a = Ok s' /\ I s') ->
  forall s, I s -> exists s', foldM f l s = Ok s' /\ I s'.
Proof.
  intros Hstep. induction l as [|a l IH]; intros s Hs; simpl; [eauto|].
  destruct (Hstep s a (or_introl eq_refl) Hs) as (s1 & E & Hs1). rewrite E; simpl.
  apply IH; auto. intros; apply Hstep; simpl; auto.
Qed.

(** ** zlen *)
Lemma zlen_nonneg {A} (l : list A) : 0 <= zlen l.
Proof. unfold zlen; lia. Qed.
Lemma zlen_nil {A} : zlen (@nil A) = 0. Proof. reflexivity. Qed.
Lemma zlen_cons {A} (a : A) l : zlen (a :: l) = 1 + zlen l.
Proof. unfold zlen; simpl length; lia. Qed.
Lemma zlen_app {A} (l1 l2 : list A) : zlen (l1 ++ l2) = zlen l1 + zlen l2.
Proof. unfold zlen; rewrite app_length; lia. Qed.
Lemma zlen_map {A B} (f : A -> B) l : zlen (map f l) = zlen l.
Proof. unfold zlen; rewrite map_length; reflexivity. Qed.
Lemma zlen_repeat {A} (a : A) n : zlen (repeat a n) = Z.of_nat n.
Proof. unfold zlen; rewrite repeat_length; reflexivity. Qed.
Lemma zlen_rev {A} (l : list A) : zlen (rev l) = zlen l.
Proof. unfold zlen; rewrite rev_length; reflexivity. Qed.
Lemma zlen_zero {A} (l : list A) : zlen l = 0 -> l = [].
Proof. destruct l; [reflexivity|rewrite zlen_cons; pose proof (zlen_nonneg l); lia]. Qed.
Lemma zlen_firstn {A} n (l : list A) : zlen (firstn n l) = Z.min (Z.of_nat n) (zlen l).
Proof. unfold zlen; rewrite firstn_length; lia. Qed.
Lemma zlen_skipn {A} n (l : list A) : zlen (skipn n l) = Z.max 0 (zlen l - Z.of_nat n).
Proof. unfold zlen; rewrite skipn_length; lia. Qed.

(** ** zget *)
Lemma zget_neg {A} (l : list A) i : i < 0 -> zget l i = None.
Proof. intros; unfold zget. destruct (Z.ltb_spec i 0); [reflexivity|lia]. Qed.
Lemma zget_nth {A} (l : list A) i : 0 <= i -> zget l i = nth_error l (Z.to_nat i).
Proof. intros; unfold zget. destruct (Z.ltb_spec i 0); [lia|reflexivity]. Qed.
Lemma zget_of_nat {A} (l : list A) n : zget l (Z.of_nat n) = nth_error l n.
Proof. rewrite zget_nth by lia. rewrite Nat2Z.id. reflexivity. Qed.
Lemma zget_some_iff {A} (l : list A) i : (exists a, zget l i = Some a) <-> 0 <= i < zlen l.
Proof.
  unfold zget, zlen. destruct (Z.ltb_spec i 0).
  - split; [intros [a H']; discriminate|lia].
  - split.
    + intros [a H']. assert (nth_error l (Z.to_nat i) <> None) by congruence.
      apply nth_error_Some in H0. lia.
    + intros H'. destruct (nth_error l (Z.to_nat i)) eqn:E; [eauto|].
      apply nth_error_None in E. lia.
Qed.
Lemma zget_range {A} (l : list A) i a : zget l i = Some a -> 0 <= i < zlen l.
Proof. intros H. apply zget_some_iff; eauto. Qed.
Lemma zget_some {A} (l : list A) i : 0 <= i < zlen l -> exists a, zget l i = Some a.
Proof. apply zget_some_iff. Qed.
Lemma zget_none {A} (l : list A) i : ~ (0 <= i < zlen l) -> zget l i = None.
Proof.
  intros H. destruct (zget l i) eqn:E; [|reflexivity].
  apply zget_range in E. contradiction.
Qed.
Lemma zget_cons {A} (a : A) l i :
  zget (a :: l) i = if i =? 0 then Some a else zget l (i - 1).
Proof.
  unfold zget. destruct (Z.eqb_spec i 0) as [->|Hn]; [reflexivity|].
  destruct (Z.ltb_spec i 0), (Z.ltb_spec (i - 1) 0); try lia; [reflexivity|].
  replace (Z.to_nat i) with (S (Z.to_nat (i - 1))) by lia. reflexivity.
Qed.
Lemma zget_nil {A} i : zget (@nil A) i = None.
Proof. unfold zget. destruct (i <? 0); [reflexivity|]. destruct (Z.to_nat i); reflexivity. Qed.
Lemma zget_app {A} (l1 l2 : list A) i :
  zget (l1 ++ l2) i = if i <? zlen l1 then zget l1 i else zget l2 (i - zlen l1).
Proof.
  unfold zget, zlen.
  destruct (Z.ltb_spec i 0).
  - destruct (Z.ltb_spec i (Z.of_nat (length l1))); [reflexivity|].
    destruct (Z.ltb_spec (i - Z.of_nat (length l1)) 0); [reflexivity|lia].
  - destruct (Z.ltb_spec i (Z.of_nat (length l1))).
    + rewrite nth_error_app1 by lia. reflexivity.
    + destruct (Z.ltb_spec (i - Z.of_nat (length l1)) 0); [lia|].
      rewrite nth_error_app2 by lia. f_equal; lia.
Qed.
Lemma zget_map {A B} (f : A -> B) l i : zget (map f l) i = option_map f (zget l i).
Proof. unfold zget. destruct (i <? 0); [reflexivity|]. apply nth_error_map. Qed.
Lemma zget_repeat {A} (a : A) n i : 0 <= i < Z.of_nat n -> zget (repeat a n) i = Some a.
Proof.
  intros H. rewrite zget_nth by lia.
  rewrite (nth_error_nth' _ a) by (rewrite repeat_length; lia).
  f_equal. apply nth_repeat.
Qed.
Lemma zget_ext {A} (l1 l2 : list A) :
  zlen l1 = zlen l2 -> (forall i, 0 <= i < zlen l1 -> zget l1 i = zget l2 i) -> l1 = l2.
Proof.
  revert l2; induction l1 as [|a l1 IH]; intros [|b l2] Hlen H.
  { reflexivity. }
  { rewrite zlen_cons, zlen_nil in Hlen. pose proof (zlen_nonneg l2). lia. }
  { rewrite zlen_cons, zlen_nil in Hlen. pose proof (zlen_nonneg l1). lia. }
  rewrite !zlen_cons in Hlen. rewrite zlen_cons in H. pose proof (zlen_nonneg l1).
  f_equal.
  - specialize (H 0 ltac:(lia)). rewrite !zget_cons in H. simpl in H. congruence.
  - apply IH; [lia|]. intros i Hi. specialize (H (i + 1) ltac:(lia)).
    rewrite !zget_cons in H. destruct (Z.eqb_spec (i + 1) 0); [lia|].
    replace (i + 1 - 1) with i in H by lia. exact H.
Qed.
Lemma zget_In {A} (l : list A) i a : zget l i = Some a -> In a l.
Proof. unfold zget. destruct (i <? 0); [discriminate|]. apply nth_error_In. Qed.
Lemma In_zget {A} (l : list A) a : In a l -> exists i, zget l i = Some a.
Proof.
  intros H. apply In_nth_error in H as [n Hn]. exists (Z.of_nat n). rewrite zget_of_nat; auto.
Qed.
Lemma zget_firstn {A} (l : list A) n i :
  zget (firstn n l) i = if i <? Z.of_nat n then zget l i else None.
Proof.
  destruct (Z.ltb_spec i (Z.of_nat n)).
  - rewrite <- (firstn_skipn n l) at 2. rewrite zget_app.
    destruct (Z.ltb_spec i (zlen (firstn n l))) as [|H0]; [reflexivity|].
    rewrite zlen_firstn in H0.
    rewrite zget_none; [|rewrite zlen_firstn; lia].
    symmetry; apply zget_none. rewrite zlen_skipn, zlen_firstn. lia.
  - apply zget_none. rewrite zlen_firstn. lia.
Qed.
Lemma zget_skipn {A} (l : list A) n i :
  0 <= i -> zget (skipn n l) i = zget l (Z.of_nat n + i).
Proof.
  intros Hi. destruct (Z_le_gt_dec (Z.of_nat n) (zlen l)) as [Hle|Hgt].
  - rewrite <- (firstn_skipn n l) at 2. rewrite zget_app, zlen_firstn.
    destruct (Z.ltb_spec (Z.of_nat n + i) (Z.min (Z.of_nat n) (zlen l))); [lia|].
    f_equal. lia.
  - rewrite !zget_none; try reflexivity; rewrite ?zlen_skipn; lia.
Qed.
Lemma zget_rev {A} (l : list A) i : zget (rev l) i = zget l (zlen l - 1 - i).
Proof.
  destruct (Z_lt_ge_dec i 0); [rewrite !zget_none; [reflexivity| |]; rewrite ?zlen_rev; lia|].
  destruct (Z_lt_ge_dec i (zlen l)).
  2:{ rewrite !zget_none; [reflexivity| |]; rewrite ?zlen_rev; lia. }
  revert i g l0; induction l as [|a l IH]; intros i Hi Hl; [rewrite zlen_nil in Hl; lia|].
  simpl rev. rewrite zget_app, (zget_cons a l), zlen_rev. rewrite zlen_cons in *.
  destruct (Z.ltb_spec i (zlen l)).
  - destruct (Z.eqb_spec (1 + zlen l - 1 - i) 0); [lia|].
    rewrite IH by lia. f_equal; lia.
  - assert (i = zlen l) by lia. subst i.
    replace (zlen l - zlen l) with 0 by lia.
    destruct (Z.eqb_spec (1 + zlen l - 1 - zlen l) 0); [reflexivity|lia].
Qed.

(** ** zset *)
Lemma zlen_set_nat {A} (l : list A) i v : zlen (set_nat l i v) = zlen l.
Proof.
  revert i; induction l as [|a l IH]; intros [|i]; simpl; rewrite ?zlen_cons; auto.
  rewrite IH; reflexivity.
Qed.
Lemma zlen_zset {A} (l : list A) i v : zlen (zset l i v) = zlen l.
Proof. unfold zset. destruct (i <? 0); [reflexivity|apply zlen_set_nat]. Qed.
Lemma nth_error_set_nat {A} (l : list A) i j v :
  nth_error (set_nat l i v) j
  = if (j =? i)%nat then (match nth_error l j with Some _ => Some v | None => None end)
    else nth_error l j.
Proof.
  revert i j; induction l as [|a l IH]; intros [|i] [|j]; simpl; auto.
  destruct (j =? i)%nat; reflexivity.
Qed.
Lemma zget_zset {A} (l : list A) i j v :
  0 <= i < zlen l -> zget (zset l i v) j = if j =? i then Some v else zget l j.
Proof.
  intros Hi. unfold zset. destruct (Z.ltb_spec i 0); [lia|].
  destruct (Z_lt_ge_dec j 0).
  { rewrite !zget_neg by lia. destruct (Z.eqb_spec j i); [lia|reflexivity]. }
  rewrite !zget_nth by lia. rewrite nth_error_set_nat.
  destruct (Z.eqb_spec j i) as [->|Hn].
  - rewrite Nat.eqb_refl. destruct (zget_some l i Hi) as [a Ha].
    rewrite zget_nth in Ha by lia. rewrite Ha. reflexivity.
  - destruct (Nat.eqb_spec (Z.to_nat j) (Z.to_nat i)); [lia|reflexivity].
Qed.
Lemma zget_zset_same {A} (l : list A) i v : 0 <= i < zlen l -> zget (zset l i v) i = Some v.
Proof. intros. rewrite zget_zset by auto. rewrite Z.eqb_refl. reflexivity. Qed.
Lemma zget_zset_other {A} (l : list A) i j v :
  0 <= i < zlen l -> j <> i -> zget (zset l i v) j = zget l j.
Proof. intros. rewrite zget_zset by auto. destruct (Z.eqb_spec j i); [lia|reflexivity]. Qed.
Lemma set_nat_app {A} (l1 l2 : list A) x v : set_nat (l1 ++ x :: l2) (length l1) v = l1 ++ v :: l2.
Proof. induction l1; simpl; congruence. Qed.

(** ** zslice / zsplice *)
Lemma zlen_zslice {A} (l : list A) off n :
  0 <= off -> 0 <= n -> off + n <= zlen l -> zlen (zslice l off n) = n.
Proof. intros. unfold zslice. rewrite zlen_firstn, zlen_skipn. lia. Qed.
Lemma zget_zslice {A} (l : list A) off n i :
  0 <= off -> 0 <= i < n -> zget (zslice l off n) i = zget l (off + i).
Proof.
  intros. unfold zslice. rewrite zget_firstn.
  destruct (Z.ltb_spec i (Z.of_nat (Z.to_nat n))); [|lia].
  rewrite zget_skipn by lia. f_equal; lia.
Qed.
Lemma zslice_all {A} (l : list A) : zslice l 0 (zlen l) = l.
Proof. unfold zslice. simpl skipn. apply firstn_all2. unfold zlen; lia. Qed.
Lemma zslice_app_l {A} (l1 l2 : list A) n :
  n = zlen l1 -> zslice (l1 ++ l2) 0 n = l1.
Proof.
  intros ->. unfold zslice. simpl skipn. unfold zlen. rewrite Nat2Z.id.
  rewrite firstn_app, Nat.sub_diag, firstn_all2 by lia. simpl. apply app_nil_r.
Qed.
Lemma zlen_zsplice {A} (l : list A) off new :
  0 <= off -> off + zlen new <= zlen l -> zlen (zsplice l off new) = zlen l.
Proof.
  intros. unfold zsplice. rewrite !zlen_app, zlen_firstn, zlen_skipn.
  unfold zlen in *. lia.
Qed.
Lemma zget_zsplice {A} (l : list A) off new i :
  0 <= off -> off + zlen new <= zlen l ->
  zget (zsplice l off new) i
  = if (off <=? i) && (i <? off + zlen new) then zget new (i - off) else zget l i.
Proof.
  intros Ho Hl. unfold zsplice. rewrite !zget_app, zlen_firstn.
  pose proof (zlen_nonneg new).
  replace (Z.min (Z.of_nat (Z.to_nat off)) (zlen l)) with off by lia.
  destruct (Z.leb_spec off i), (Z.ltb_spec i (off + zlen new)), (Z.ltb_spec i off); simpl;
    try lia.
  - destruct (Z.ltb_spec (i - off) (zlen new)); [reflexivity|lia].
  - destruct (Z.ltb_spec (i - off) (zlen new)); [lia|].
    rewrite zget_skipn by lia. unfold zlen in *. f_equal; lia.
  - rewrite zget_firstn. destruct (Z.ltb_spec i (Z.of_nat (Z.to_nat off))); [reflexivity|lia].
Qed.

(** ** zrange *)
Lemma zlen_zrange a n : zlen (zrange a n) = Z.max 0 n.
Proof. unfold zrange. rewrite zlen_map. unfold zlen. rewrite seq_length. lia. Qed.
Lemma In_zrange a n i : In i (zrange a n) <-> a <= i < a + n.
Proof.
  unfold zrange. rewrite in_map_iff. split.
  - intros (k & <- & Hk). apply in_seq in Hk. lia.
  - intros H. exists (Z.to_nat (i - a)). split; [lia|]. apply in_seq. lia.
Qed.
Lemma nth_error_seq s n i : (i < n)%nat -> nth_error (seq s n) i = Some (s + i)%nat.
Proof.
  revert s i; induction n as [|n IH]; intros s i Hi; [lia|].
  destruct i as [|i]; simpl; [f_equal; lia|]. rewrite IH by lia. f_equal; lia.
Qed.
Lemma zget_zrange a n i : 0 <= i < n -> zget (zrange a n) i = Some (a + i).
Proof.
  intros H. unfold zrange. rewrite zget_map, zget_nth by lia.
  rewrite nth_error_seq by lia. simpl. f_equal. lia.
Qed.
Lemma zrange_nil a n : n <= 0 -> zrange a n = [].
Proof. intros. unfold zrange. replace (Z.to_nat n) with 0%nat by lia. reflexivity. Qed.
Lemma zrange_cons a n : 0 < n -> zrange a n = a :: zrange (a + 1) (n - 1).
Proof.
  intros. apply zget_ext.
  - rewrite zlen_cons, !zlen_zrange. lia.
  - intros i Hi. rewrite zlen_zrange in Hi. rewrite zget_cons, zget_zrange by lia.
    destruct (Z.eqb_spec i 0); [f_equal; lia|]. rewrite zget_zrange by lia. f_equal; lia.
Qed.
Lemma zrange_snoc a n : 0 <= n -> zrange a (n + 1) = zrange a n ++ [a + n].
Proof.
  intros. apply zget_ext.
  - rewrite zlen_app, zlen_cons, zlen_nil, !zlen_zrange. lia.
  - intros i Hi. rewrite zlen_zrange in Hi. rewrite zget_app, zlen_zrange, zget_zrange by lia.
    destruct (Z.ltb_spec i (Z.max 0 n)).
    + rewrite zget_zrange by lia. reflexivity.
    + rewrite zget_cons. destruct (Z.eqb_spec (i - Z.max 0 n) 0); [f_equal; lia|lia].
Qed.
Lemma zrange_app a n m : 0 <= n -> 0 <= m -> zrange a (n + m) = zrange a n ++ zrange (a + n) m.
Proof.
  intros. apply zget_ext.
  - rewrite zlen_app, !zlen_zrange. lia.
  - intros i Hi. rewrite zlen_zrange in Hi. rewrite zget_app, zlen_zrange, zget_zrange by lia.
    destruct (Z.ltb_spec i (Z.max 0 n)); rewrite zget_zrange by lia; f_equal; lia.
Qed.
Lemma NoDup_zrange a n : NoDup (zrange a n).
Proof.
  unfold zrange. apply FinFun.Injective_map_NoDup; [|apply seq_NoDup].
  intros x y; lia.
Qed.

(** induction for loops over a range *)
Lemma foldM_zrange_inv {S} (f : S -> Z -> res S) (I : Z -> S -> Prop) a n s0 :
  0 <= n -> I 0 s0 ->
  (forall k s, 0 <= k < n -> I k s -> exists s', f s (a + k) = Ok s' /\ I (k + 1) s') ->
  exists s', foldM f (zrange a n) s0 = Ok s' /\ I n s'.
Proof.
  intros Hn H0 Hstep.
  assert (Hg : forall m, (m <= Z.to_nat n)%nat ->
     exists s', foldM f (zrange a (Z.of_nat m)) s0 = Ok s' /\ I (Z.of_nat m) s').
  { induction m as [|m IH]; intros Hm.
    - exists s0. rewrite zrange_nil by lia. split; [reflexivity|exact H0].
    - destruct IH as (s1 & E & H1); [lia|].
      replace (Z.of_nat (Datatypes.S m)) with (Z.of_nat m + 1) by lia.
      rewrite zrange_snoc by lia. rewrite foldM_app, E. simpl.
      destruct (Hstep (Z.of_nat m) s1) as (s2 & E2 & H2); [lia|exact H1|].
      rewrite E2. simpl. eauto. }
  destruct (Hg (Z.to_nat n)) as (s' & E & H'); [lia|].
  rewrite Z2Nat.id in E, H' by lia. eauto.
Qed.

(** ** coords *)
Lemma In_coords w h x y : In (x, y) (coords w h) <-> 0 <= x < w /\ 0 <= y < h.
Proof.
  unfold coords. rewrite in_flat_map. split.
  - intros (y' & Hy & Hx). apply in_map_iff in Hx as (x' & E & Hx). inversion E; subst.
    apply In_zrange in Hy, Hx. lia.
  - intros [Hx Hy]. exists y. split; [apply In_zrange; lia|].
    apply in_map_iff. exists x. split; [reflexivity|apply In_zrange; lia].
Qed.
Lemma coords_snoc w h : 0 <= h ->
  coords w (h + 1) = coords w h ++ map (fun x => (x, h)) (zrange 0 w).
Proof.
  intros. unfold coords. rewrite zrange_snoc by lia. rewrite flat_map_app. simpl.
  rewrite app_nil_r. reflexivity.
Qed.
Lemma zlen_coords w h : 0 <= w -> 0 <= h -> zlen (coords w h) = w * h.
Proof.
  intros Hw Hh. pattern h. apply natlike_ind; [|intros k Hk IH|exact Hh].
  - simpl. unfold coords. simpl. rewrite zlen_nil; lia.
  - unfold Z.succ. rewrite coords_snoc by lia.
    rewrite zlen_app, IH, zlen_map, zlen_zrange. nia.
Qed.
Lemma zget_coords w h i : 0 < w -> 0 <= h -> 0 <= i < w * h ->
  zget (coords w h) i = Some (i mod w, i / w).
Proof.
  intros Hw Hh. revert i. pattern h. apply natlike_ind; [|intros k Hk IH|exact Hh].
  - intros; lia.
  - intros i Hi. unfold Z.succ in *. rewrite coords_snoc by lia.
    rewrite zget_app, zlen_coords by lia.
    destruct (Z.ltb_spec i (w * k)).
    + apply IH; lia.
    + rewrite zget_map, zget_zrange by nia. simpl.
      assert (i / w = k) by (symmetry; apply (Z.div_unique i w k (i - w * k)); [left|]; nia).
      assert (i mod w = i - w * k) by (symmetry; apply (Z.mod_unique i w k (i - w * k)); [left|]; nia).
      congruence.
Qed.
Lemma NoDup_coords w h : NoDup (coords w h).
Proof.
  unfold coords. pose proof (NoDup_zrange 0 h) as Hh. induction (zrange 0 h) as [|y l IH]; simpl.
  - constructor.
  - inversion Hh as [|? ? Hnin Hnd]; subst.
    assert (Hm : NoDup (map (fun x => (x, y)) (zrange 0 w))).
    { apply FinFun.Injective_map_NoDup; [|apply NoDup_zrange]. intros a b E; congruence. }
    revert Hm. generalize (zrange 0 w) at 1 2 as lx.
    induction lx as [|x lx IHx]; simpl; intros Hm; [apply IH; exact Hnd|].
    inversion Hm as [|? ? Hn Hm']; subst. constructor; [|apply IHx; exact Hm'].
    rewrite in_app_iff. intros [Hin|Hin]; [contradiction|].
    apply in_flat_map in Hin as (y' & Hy' & Hin). apply in_map_iff in Hin as (? & E & _).
    inversion E; subst. contradiction.
Qed.

(** ** images *)
Lemma inb_iff {P} (im : img P) x y :
  inb im x y = true <-> 0 <= x < iw im /\ 0 <= y < ih im.
Proof. unfold inb. lia. Qed.
Lemma inb_false_iff {P} (im : img P) x y :
  inb im x y = false <-> ~ (0 <= x < iw im /\ 0 <= y < ih im).
Proof. unfold inb. lia. Qed.
Lemma idx_range w h x y : 0 <= x < w -> 0 <= y < h -> 0 <= y * w + x < w * h.
Proof. nia. Qed.
Lemma idx_inj w x y x' y' :
  0 <= x < w -> 0 <= x' < w -> y * w + x = y' * w + x' -> x = x' /\ y = y'.
Proof.
  intros Hx Hx' E.
  assert (y = y') by nia. subst. lia.
Qed.
Lemma pixel_in {P} (im : img P) x y :
  wf im -> 0 <= x < iw im -> 0 <= y < ih im -> exists p, pixel im x y = Some p.
Proof.
  intros (Hw & Hh & Hl) Hx Hy. unfold pixel.
  replace (inb im x y) with true by (symmetry; apply inb_iff; auto).
  apply zget_some. rewrite Hl. apply idx_range; auto.
Qed.
Lemma pixel_some {P} (im : img P) x y p :
  pixel im x y = Some p -> 0 <= x < iw im /\ 0 <= y < ih im.
Proof. unfold pixel. destruct (inb im x y) eqn:E; [|discriminate]. intros _. apply inb_iff; auto. Qed.
Lemma pixel_out {P} (im : img P) x y :
  ~ (0 <= x < iw im /\ 0 <= y < ih im) -> pixel im x y = None.
Proof. intros H. unfold pixel. apply inb_false_iff in H. rewrite H. reflexivity. Qed.
Lemma get_pixel_ok {P} (im : img P) x y p : get_pixel im x y = Ok p <-> pixel im x y = Some p.
Proof. unfold get_pixel. destruct (pixel im x y); split; congruence. Qed.

Lemma put_pixel_spec {P} (im : img P) x y p :
  wf im -> 0 <= x < iw im -> 0 <= y < ih im ->
  exists im', put_pixel im x y p = Ok im' /\ wf im' /\ iw im' = iw im /\ ih im' = ih im /\
    forall x' y', pixel im' x' y' = if (x' =? x) && (y' =? y) then Some p else pixel im x' y'.
Proof.
  intros (Hw & Hh & Hl) Hx Hy. unfold put_pixel.
  replace (inb im x y) with true by (symmetry; apply inb_iff; auto).
  eexists; split; [reflexivity|]. unfold wf, pixel, inb; simpl.
  repeat split; auto; [rewrite zlen_zset; auto|].
  intros x' y'. pose proof (idx_range _ _ _ _ Hx Hy) as Hr.
  match goal with |- (if ?b then _ else _) = _ => destruct b eqn:E end.
  - rewrite zget_zset by lia.
    destruct (Z.eqb_spec (y' * iw im + x') (y * iw im + x)) as [E'|E'].
    + apply idx_inj in E'; [|lia|lia]. destruct E'; subst. rewrite !Z.eqb_refl. reflexivity.
    + destruct (Z.eqb_spec x' x), (Z.eqb_spec y' y); simpl; subst; try reflexivity; lia.
  - destruct (Z.eqb_spec x' x), (Z.eqb_spec y' y); simpl; subst; try reflexivity; lia.
Qed.
Lemma put_pixel_panic {P} (im : img P) x y p :
  ~ (0 <= x < iw im /\ 0 <= y < ih im) -> put_pixel im x y p = Panic.
Proof. intros H. unfold put_pixel. apply inb_false_iff in H. rewrite H. reflexivity. Qed.

Lemma img_ext {P} (a b : img P) :
  wf a -> wf b -> iw a = iw b -> ih a = ih b ->
  (forall x y, 0 <= x < iw a -> 0 <= y < ih a -> pixel a x y = pixel b x y) -> a = b.
Proof.
  intros (Hw & Hh & Hl) (Hw' & Hh' & Hl') Ew Eh H.
  destruct a as [w h l], b as [w' h' l']; simpl in *; subst w' h'. f_equal.
  apply zget_ext; [lia|]. intros i Hi. rewrite Hl in Hi.
  assert (0 < w) by nia.
  specialize (H (i mod w) (i / w)).
  assert (0 <= i mod w < w) by (apply Z.mod_pos_bound; lia).
  assert (0 <= i / w < h) by (split; [apply Z.div_pos; lia|apply Z.div_lt_upper_bound; lia]).
  specialize (H H1 H2). unfold pixel, inb in H; simpl in H.
  replace ((0 <=? i mod w) && (i mod w <? w) && (0 <=? i / w) && (i / w <? h)) with true in H by lia.
  replace (i / w * w + i mod w) with i in H by (pose proof (Z.div_mod i w); lia).
  exact H.
Qed.

Lemma wf_new_img {P} w h (z : P) : 0 <= w -> 0 <= h -> wf (new_img w h z).
Proof.
  intros. unfold wf, new_img; simpl. repeat split; auto. rewrite zlen_repeat.
  rewrite Z2Nat.id; [reflexivity|nia].
Qed.
Lemma pixel_new_img {P} w h (z : P) x y :
  0 <= x < w -> 0 <= y < h -> pixel (new_img w h z) x y = Some z.
Proof.
  intros Hx Hy. unfold pixel, inb, new_img; simpl.
  replace ((0 <=? x) && (x <? w) && (0 <=? y) && (y <? h)) with true by lia.
  apply zget_repeat. pose proof (idx_range _ _ _ _ Hx Hy). lia.
Qed.

(** A loop of put_pixel calls: it succeeds when all targets are in bounds, changes only the
    targets, and a target written with one value by all iterations that hit it ends with it. *)
Lemma put_loop {P A} (tx ty : A -> Z) (val : A -> P) (l : list A) (im : img P) :
  wf im ->
  (forall a, In a l -> 0 <= tx a < iw im /\ 0 <= ty a < ih im) ->
  exists im', foldM (fun im a => put_pixel im (tx a) (ty a) (val a)) l im = Ok im' /\
    wf im' /\ iw im' = iw im /\ ih im' = ih im /\
    (forall x y, (forall a, In a l -> ~ (tx a = x /\ ty a = y)) -> pixel im' x y = pixel im x y) /\
    (forall a, In a l ->
       (forall b, In b l -> tx b = tx a -> ty b = ty a -> val b = val a) ->
       pixel im' (tx a) (ty a) = Some (val a)).
Proof.
  revert im. induction l as [|a l IH]; intros im Hwf Hin.
  - exists im. simpl. repeat split; auto; try apply Hwf. intros a [].
  - destruct (Hin a (or_introl eq_refl)) as [Hx Hy].
    destruct (put_pixel_spec im (tx a) (ty a) (val a) Hwf Hx Hy)
      as (im1 & E1 & Hwf1 & Ew1 & Eh1 & Hp1).
    destruct (IH im1 Hwf1) as (im2 & E2 & Hwf2 & Ew2 & Eh2 & Hout & Hins).
    { intros b Hb. rewrite Ew1, Eh1. apply Hin; right; auto. }
    exists im2. simpl. rewrite E1. simpl. rewrite E2. split; [reflexivity|].
    split; [auto|]. split; [congruence|]. split; [congruence|]. split.
    + intros x y Hn. rewrite Hout.
      * rewrite Hp1. specialize (Hn a (or_introl eq_refl)).
        destruct (Z.eqb_spec x (tx a)), (Z.eqb_spec y (ty a)); simpl; auto.
        exfalso; apply Hn; auto.
      * intros b Hb. apply Hn; right; auto.
    + intros b Hb Huniq.
      destruct (in_dec (fun p q : Z * Z => ltac:(repeat decide equality)) (tx b, ty b)
                  (map (fun c => (tx c, ty c)) l)) as [Hi|Hni].
      * apply in_map_iff in Hi as (c & Ec & Hc). inversion Ec as [[Ecx Ecy]].
        assert (Hvc : val c = val b) by (apply Huniq; [right|..]; auto).
        rewrite <- Hvc. apply Hins; auto.
        intros d Hd Ex Ey. rewrite Hvc. apply Huniq; [right; auto|congruence|congruence].
      * assert (Hba : tx a = tx b /\ ty a = ty b -> val a = val b)
          by (intros []; apply Huniq; [left|..]; auto).
        assert (Hnb : forall c, In c l -> ~ (tx c = tx b /\ ty c = ty b)).
        { intros c Hc [E E']. apply Hni. apply in_map_iff. exists c. split; [congruence|auto]. }
        rewrite Hout by exact Hnb. rewrite Hp1.
        destruct Hb as [->|Hb].
        -- rewrite !Z.eqb_refl. reflexivity.
        -- exfalso. apply (Hnb b Hb); auto.
Qed.

(** ** endianness *)
Lemma le16_read v r : 0 <= v <= u16_max -> read_u16le (le16 v ++ r) = Ok (v, r).
Proof. unfold u16_max; intros; unfold le16; cbn [app read_u16le]. do 2 f_equal. zdm. Qed.
Lemma be16_read v r : 0 <= v <= u16_max -> read_u16be (be16 v ++ r) = Ok (v, r).
Proof. unfold u16_max; intros; unfold be16; cbn [app read_u16be]. do 2 f_equal. zdm. Qed.
Lemma div_div_mod v : 0 <= v <= u32_max ->
  v = v mod 256 + 256 * ((v / 256) mod 256) + 65536 * ((v / 65536) mod 256)
      + 16777216 * ((v / 16777216) mod 256).
Proof.
  unfold u32_max; intros.
  replace 65536 with (256 * 256) by lia. replace 16777216 with (256 * 256 * 256) by lia.
  rewrite <- !Z.div_div by lia. zdm.
Qed.
Lemma le32_read v r : 0 <= v <= u32_max -> read_u32le (le32 v ++ r) = Ok (v, r).
Proof. intros; unfold le32; cbn [app read_u32le]. do 2 f_equal. symmetry; apply div_div_mod; auto. Qed.
Lemma be32_read v r : 0 <= v <= u32_max -> read_u32be (be32 v ++ r) = Ok (v, r).
Proof. intros; unfold be32; cbn [app read_u32be]. do 2 f_equal. pose proof (div_div_mod v H). lia. Qed.

Lemma read_exact_app a r n : n = zlen a -> read_exact n (a ++ r) = Ok (a, r).
Proof.
  intros ->. unfold read_exact. rewrite zlen_app. pose proof (zlen_nonneg r).
  destruct (Z.ltb_spec (zlen a + zlen r) (zlen a)); [lia|].
  unfold zlen. rewrite Nat2Z.id. rewrite firstn_app, Nat.sub_diag, firstn_all2 by lia.
  rewrite skipn_app, Nat.sub_diag, skipn_all2 by lia. simpl. rewrite app_nil_r. reflexivity.
Qed.
Lemma read_exact_nopanic n r : read_exact n r <> Panic.
Proof. unfold read_exact. destruct (_ <? _); discriminate. Qed.
Lemma read_exact_ok n r a r' : 0 <= n ->
  read_exact n r = Ok (a, r') -> r = a ++ r' /\ zlen a = n.
Proof.
  intros Hn. unfold read_exact. destruct (Z.ltb_spec (zlen r) n); [discriminate|].
  intros E; inversion E; subst. split; [symmetry; apply firstn_skipn|].
  rewrite zlen_firstn. lia.
Qed.

(** ** chunks *)
Lemma chunks_aux_app {A} n (c : list A) l fuel :
  (0 < n)%nat -> length c = n -> (length c + length l <= fuel)%nat ->
  chunks_aux fuel n (c ++ l) = c :: chunks_aux (fuel - 1) n l.
Proof.
  intros Hn Hc Hf. destruct fuel as [|fuel]; [lia|]. cbn [chunks_aux].
  rewrite app_length. destruct (Nat.ltb_spec (length c + length l) n); [lia|].
  rewrite firstn_app, skipn_app. replace (n - length c)%nat with 0%nat by lia.
  simpl firstn at 2. simpl skipn at 2. rewrite app_nil_r.
  rewrite firstn_all2, skipn_all2 by lia. simpl. rewrite Nat.sub_0_r. reflexivity.
Qed.
Lemma chunks_aux_fuel {A} n (l : list A) f1 f2 :
  (0 < n)%nat -> (length l <= f1)%nat -> (length l <= f2)%nat ->
  chunks_aux f1 n l = chunks_aux f2 n l.
Proof.
  intros Hn. revert l f2; induction f1 as [|f1 IH]; intros l f2 H1 H2.
  - destruct l; simpl in *; [|lia]. destruct f2; simpl; [reflexivity|].
    destruct n; [lia|reflexivity].
  - destruct f2 as [|f2].
    + destruct l; simpl in *; [|lia]. destruct n; [lia|reflexivity].
    + cbn [chunks_aux]. destruct (Nat.ltb_spec (length l) n); [reflexivity|].
      f_equal. apply IH; rewrite skipn_length; lia.
Qed.
Lemma chunks_exact_cons {A} n (c : list A) l :
  0 < n -> zlen c = n -> chunks_exact n (c ++ l) = c :: chunks_exact n l.
Proof.
  intros Hn Hc. unfold chunks_exact. unfold zlen in Hc.
  rewrite chunks_aux_app; [|lia|lia|rewrite app_length; lia].
  f_equal. apply chunks_aux_fuel; [lia| |lia]. rewrite app_length; lia.
Qed.
Lemma chunks_exact_short {A} n (l : list A) : zlen l < n -> chunks_exact n l = [].
Proof.
  intros H. unfold chunks_exact, zlen in *. destruct (length l) eqn:E; [reflexivity|].
  cbn [chunks_aux]. destruct (Nat.ltb_spec (length l) (Z.to_nat n)); [reflexivity|lia].
Qed.
Lemma chunks_exact_concat {A} n (ls : list (list A)) :
  0 < n -> Forall (fun c => zlen c = n) ls -> chunks_exact n (concat ls) = ls.
Proof.
  intros Hn HF. induction ls as [|c ls IH]; simpl.
  - apply chunks_exact_short. rewrite zlen_nil. lia.
  - inversion HF; subst. rewrite chunks_exact_cons by lia. rewrite IH by auto. reflexivity.
Qed.

(** ** nested loops *)
Lemma for2_coords {S} w h (body : S -> Z -> Z -> res S) s :
  for2 w h body s = foldM (fun s c => body s (fst c) (snd c)) (coords w h) s.
Proof.
  unfold for2, coords. rewrite foldM_flat_map.
  generalize (zrange 0 h) as ly. intros ly. revert s.
  induction ly as [|y ly IH]; intros s; cbn [foldM]; [reflexivity|].
  rewrite foldM_map. cbn [fst snd].
  destruct (foldM (fun s0 x => body s0 x y) (zrange 0 w) s); cbn [bind]; auto.
Qed.

Lemma foldM_ext {S A} (f g : S -> A -> res S) l s :
  (forall s a, In a l -> f s a = g s a) -> foldM f l s = foldM g l s.
Proof.
  revert s; induction l as [|a l IH]; intros s H; cbn [foldM]; [reflexivity|].
  rewrite H by (left; auto). destruct (g s a); cbn [bind]; auto.
  apply IH. intros; apply H; right; auto.
Qed.

(** a loop that copies pixels of [src] to pixels of an image *)
Lemma copy_loop {P A} (src : img P) (fx fy tx ty : A -> Z) (l : list A) (im : img P) :
  wf src -> wf im ->
  (forall a, In a l -> 0 <= fx a < iw src /\ 0 <= fy a < ih src) ->
  (forall a, In a l -> 0 <= tx a < iw im /\ 0 <= ty a < ih im) ->
  exists im', foldM (fun im a => p <- get_pixel src (fx a) (fy a) ;;
                                 put_pixel im (tx a) (ty a) p) l im = Ok im' /\
    wf im' /\ iw im' = iw im /\ ih im' = ih im /\
    (forall x y, (forall a, In a l -> ~ (tx a = x /\ ty a = y)) -> pixel im' x y = pixel im x y) /\
    (forall a, In a l ->
       (forall b, In b l -> tx b = tx a -> ty b = ty a -> fx b = fx a /\ fy b = fy a) ->
       pixel im' (tx a) (ty a) = pixel src (fx a) (fy a)).
Proof.
  intros Hs Him Hf Ht. destruct l as [|a0 l0].
  { exists im. cbn [foldM]. repeat split; auto; try apply Him. intros a []. }
  destruct (Hf a0 (or_introl eq_refl)) as [H1 H2].
  destruct (pixel_in src _ _ Hs H1 H2) as [d Hd].
  set (val := fun a => match pixel src (fx a) (fy a) with Some p => p | None => d end).
  assert (Hval : forall a, In a (a0 :: l0) -> pixel src (fx a) (fy a) = Some (val a)).
  { intros a Ha. destruct (Hf a Ha) as [H3 H4].
    destruct (pixel_in src _ _ Hs H3 H4) as [p Hp]. unfold val. rewrite Hp. reflexivity. }
  destruct (put_loop tx ty val (a0 :: l0) im Him Ht) as (im' & E & Hwf & Ew & Eh & Hout & Hins).
  exists im'. split.
  { rewrite <- E. apply foldM_ext. intros s a Ha. unfold get_pixel. rewrite Hval by auto.
    reflexivity. }
  repeat split; auto; try apply Hwf.
  intros a Ha Hu. rewrite Hval by auto. apply Hins; auto.
  intros b Hb Ex Ey. destruct (Hu b Hb Ex Ey) as [E1 E2]. unfold val. rewrite E1, E2. reflexivity.
Qed.

Lemma Some_inj {A} (a b : A) : Some a = Some b -> a = b.
Proof. congruence. Qed.
Lemma Ok_inj {A} (a b : A) : Ok a = Ok b -> a = b.
Proof. congruence. Qed.
Lemma leqb_eq a b : leqb a b = true <-> a = b.
Proof.
  revert b; induction a as [|x a IH]; intros [|y b]; simpl; try (split; [discriminate|discriminate]).
  - split; auto.
  - rewrite andb_true_iff, IH, Z.eqb_eq. split; [intros [-> ->]; auto|intros E; inversion E; auto].
Qed.
Lemma leqb_refl a : leqb a a = true.
Proof. apply leqb_eq; reflexivity. Qed.
Lemma leqb_neq a b : leqb a b = false <-> a <> b.
Proof. rewrite <- leqb_eq. destruct (leqb a b); split; congruence. Qed.

(** total correctness of [loopk] *)
Lemma loopk_progress {S R} (step : S -> S + R) (Inv : S -> Prop) (Post : R -> Prop) (mu : S -> Z) :
  (forall s, Inv s -> match step s with
                      | inl s' => Inv s' /\ 0 <= mu s' < mu s
                      | inr r => Post r end) ->
  forall k s, Inv s -> match loopk k step s with
                       | inl s' => Inv s' /\ 0 <= mu s' <= mu s - 2 ^ Z.of_nat k
                       | inr r => Post r end.
Proof.
  intros Hs. induction k as [|k IH]; intros s HI.
  - cbn [loopk]. specialize (Hs s HI). destruct (step s); auto. change (2 ^ Z.of_nat 0) with 1. destruct Hs. split; [auto|lia].
  - cbn [loopk]. pose proof (IH s HI) as H1. destruct (loopk k step s) as [s1|r]; [|auto].
    destruct H1 as [HI1 Hm1]. pose proof (IH s1 HI1) as H2.
    destruct (loopk k step s1) as [s2|r]; [|auto]. destruct H2 as [HI2 Hm2]. split; [auto|].
    replace (Z.of_nat (Datatypes.S k)) with (Z.of_nat k + 1) by lia.
    rewrite Z.pow_add_r by lia. lia.
Qed.
Lemma loopk_total {S R} (step : S -> S + R) (Inv : S -> Prop) (Post : R -> Prop) (mu : S -> Z) :
  (forall s, Inv s -> match step s with
                      | inl s' => Inv s' /\ 0 <= mu s' < mu s
                      | inr r => Post r end) ->
  forall k s, Inv s -> mu s < 2 ^ Z.of_nat k -> exists r, loopk k step s = inr r /\ Post r.
Proof.
  intros Hs k s HI Hm. pose proof (loopk_progress step Inv Post mu Hs k s HI) as H.
  destruct (loopk k step s) as [s'|r]; [lia|eauto].
Qed.
