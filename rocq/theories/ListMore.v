(** More list lemmas shared by the codec proofs. *)
From Verif Require Import Base BaseLemmas ListLemmas.
Local Open Scope Z_scope.

Lemma zset_app {A} (a : list A) p b v : zset (a ++ p :: b) (zlen a) v = a ++ v :: b.
Proof. unfold zset, zlen. replace (_ <? 0) with false by lia. rewrite Nat2Z.id. apply set_nat_app. Qed.
Lemma zget_app_mid {A} (a : list A) p b : zget (a ++ p :: b) (zlen a) = Some p.
Proof. rewrite zget_app. rewrite Z.ltb_irrefl. rewrite Z.sub_diag. reflexivity. Qed.
Lemma skipn_split_at {A} (l : list A) s t : 0 <= s <= t -> t <= zlen l ->
  skipn (Z.to_nat s) l = zslice l s (t - s) ++ skipn (Z.to_nat t) l.
Proof.
  intros H1 H2. rewrite (skipn_zslice' l s (zlen l - s)) by lia. rewrite (skipn_zslice' l t (zlen l - t)) by lia.
  replace (zlen l - s) with ((t - s) + (zlen l - t)) by lia. rewrite zslice_split by lia. f_equal. f_equal; lia.
Qed.
Lemma Forall_firstn' {A} (P : A -> Prop) n l : Forall P l -> Forall P (firstn n l).
Proof. intros H. rewrite <- (firstn_skipn n l) in H. apply Forall_app in H. tauto. Qed.
Lemma Forall_skipn' {A} (P : A -> Prop) n l : Forall P l -> Forall P (skipn n l).
Proof. intros H. rewrite <- (firstn_skipn n l) in H. apply Forall_app in H. tauto. Qed.
Lemma Forall_zslice {A} (P : A -> Prop) l a n : Forall P l -> Forall P (zslice l a n).
Proof. intros. apply Forall_firstn', Forall_skipn'. auto. Qed.
Lemma zlen_0_nil {A} (l : list A) : zlen l <= 0 -> l = [].
Proof. destruct l; auto. rewrite zlen_cons. pose proof (zlen_nonneg l). lia. Qed.
Lemma zlen_Forall2 {A B} (P : A -> B -> Prop) l1 l2 : Forall2 P l1 l2 -> zlen l1 = zlen l2.
Proof. induction 1; [reflexivity|]. rewrite !zlen_cons. lia. Qed.
Lemma firstn_app_exact {A} (a b : list A) n : n = length a -> firstn n (a ++ b) = a.
Proof. intros ->. rewrite firstn_app, Nat.sub_diag, firstn_all. cbn. apply app_nil_r. Qed.
Lemma skipn_app_exact {A} (a b : list A) n : n = length a -> skipn n (a ++ b) = b.
Proof. intros ->. rewrite skipn_app, Nat.sub_diag, skipn_all. reflexivity. Qed.
Lemma bytes_app a b : bytes (a ++ b) <-> bytes a /\ bytes b.
Proof. unfold bytes. apply Forall_app. Qed.
Lemma bytes_cons a l : bytes (a :: l) <-> is_u8 a /\ bytes l.
Proof. unfold bytes. split; [inversion 1; auto|intros []; constructor; auto]. Qed.
Lemma bind_assoc {A B C} (x : res A) (f : A -> res B) (g : B -> res C) :
  bind (bind x f) g = bind x (fun a => bind (f a) g).
Proof. destruct x; reflexivity. Qed.
Lemma skipn_skipn {A} a b (l : list A) : skipn a (skipn b l) = skipn (b + a) l.
Proof. revert l. induction b as [|b IH]; intros [|x l]; cbn; auto. destruct a; reflexivity. Qed.
Lemma chunks_aux_In {A} (f n : nat) : forall (l c : list A) z, In c (chunks_aux f n l) -> In z c -> In z l.
Proof.
  induction f as [|f IH]; intros l c z H Hz; cbn [chunks_aux] in H; [contradiction|].
  destruct (length l <? n)%nat; [contradiction|]. destruct H as [<-|H].
  - rewrite <- (firstn_skipn n l). apply in_or_app. left. exact Hz.
  - rewrite <- (firstn_skipn n l). apply in_or_app. right. eapply IH; eauto.
Qed.
Lemma chunks_exact_In {A} n (l c : list A) z : In c (chunks_exact n l) -> In z c -> In z l.
Proof. apply chunks_aux_In. Qed.
