(** A small logic for "never panics, and if it succeeds then Q". *)
From Verif Require Import Base BaseLemmas ListLemmas ListMore.
Local Open Scope Z_scope.

Definition post {A} (r : res A) (Q : A -> Prop) : Prop := match r with Ok a => Q a | Err e => e <> EFuel | Panic => False end.
Lemma post_ok {A} (a : A) (Q : A -> Prop) : Q a -> post (Ok a) Q.
Proof. auto. Qed.
Lemma post_err {A} e (Q : A -> Prop) : e <> EFuel -> post (Err e) Q.
Proof. auto. Qed.
Lemma post_bind {A B} (m : res A) (k : A -> res B) Q (Q' : B -> Prop) : post m Q -> (forall a, Q a -> post (k a) Q') -> post (bind m k) Q'.
Proof. destruct m; cbn; auto. Qed.
Lemma post_imp {A} (m : res A) (Q Q' : A -> Prop) : post m Q -> (forall a, Q a -> Q' a) -> post m Q'.
Proof. destruct m; cbn; auto. Qed.
Lemma post_if {A} (b : bool) (x y : res A) Q : (b = true -> post x Q) -> (b = false -> post y Q) -> post (if b then x else y) Q.
Proof. destruct b; auto. Qed.
Lemma post_foldM {S A} (f : S -> A -> res S) (I : S -> Prop) l : (forall s a, In a l -> I s -> post (f s a) I) -> forall s, I s -> post (foldM f l s) I.
Proof.
  induction l as [|a l IH]; intros H s Hs; cbn [foldM]; [exact Hs|]. eapply post_bind; [apply H; [left; reflexivity|exact Hs]|].
  intros s' Hs'. apply IH; auto. intros; apply H; auto. right. assumption.
Qed.
Lemma post_foldM_range {S} (f : S -> Z -> res S) (I : Z -> S -> Prop) n : 0 <= n -> (forall k s, 0 <= k < n -> I k s -> post (f s k) (I (k + 1))) -> forall s, I 0 s -> post (foldM f (zrange 0 n) s) (I n).
Proof.
  intros Hn H. revert H. pattern n. apply natlike_ind; [intros; assumption| |exact Hn]. intros j Hj IH H s Hs. unfold Z.succ in *. rewrite zrange_snoc by lia. rewrite foldM_app.
  eapply post_bind; [apply IH; [intros; apply H; auto; lia|exact Hs]|]. intros s' Hs'. cbn [foldM]. rewrite Z.add_0_l. eapply post_bind; [apply H; [lia|exact Hs']|]. auto.
Qed.
Lemma post_inv {A} (m : res A) Q : post m Q -> (exists e, m = Err e /\ e <> EFuel) \/ exists a, m = Ok a /\ Q a.
Proof. destruct m; cbn; intros; [right|left|contradiction]; eauto. Qed.

Definition rdv (P : Z -> Prop) (p : Z * list Z) : Prop := P (fst p) /\ bytes (snd p).
Lemma post_u8 r : bytes r -> post (read_u8 r) (rdv is_u8).
Proof. intros B. destruct r as [|a r]; cbn; [discriminate|]. inversion B; subst. split; auto. Qed.
Lemma post_u16le r : bytes r -> post (read_u16le r) (rdv is_u16).
Proof.
  intros B. destruct r as [|a [|b r]]; cbn [read_u16le post]; try discriminate. inversion B as [|? ? Ha B1]; subst. inversion B1 as [|? ? Hb B2]; subst.
  unfold is_u8, is_u16, u8_max, u16_max in *. split; cbn [fst snd]; [lia|assumption].
Qed.
Lemma post_u32le r : bytes r -> post (read_u32le r) (rdv is_u32).
Proof.
  intros B. destruct r as [|a [|b [|c [|d r]]]]; cbn [read_u32le post]; try discriminate. inversion B as [|? ? Ha B1]; subst. inversion B1 as [|? ? Hb B2]; subst. inversion B2 as [|? ? Hc B3]; subst. inversion B3 as [|? ? Hd B4]; subst.
  unfold is_u8, is_u32, u8_max, u32_max in *. split; cbn [fst snd]; [lia|assumption].
Qed.
Lemma post_exact n r : bytes r -> 0 <= n -> post (read_exact n r) (fun p => zlen (fst p) = n /\ bytes (fst p) /\ bytes (snd p)).
Proof.
  intros B Hn. unfold read_exact. destruct (Z.ltb_spec (zlen r) n); cbn; [discriminate|]. split; [rewrite zlen_firstn; lia|]. split; [apply Forall_firstn'|apply Forall_skipn']; exact B.
Qed.
Ltac prd := eapply post_bind; [first [apply post_u8; assumption|apply post_u16le; assumption|apply post_u32le; assumption]|
  let v := fresh "v" in let r := fresh "r" in let H := fresh "H" in let B := fresh "B" in intros [v r] [H B]; cbn [fst snd] in H, B].
Ltac pex := eapply post_bind; [apply post_exact; [assumption|lia]|
  let v := fresh "v" in let r := fresh "r" in let H := fresh "L" in let B := fresh "B" in let C := fresh "B" in intros [v r] (H & B & C); cbn [fst snd] in H, B, C].
