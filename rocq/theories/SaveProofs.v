From Verif Require Import Base BaseLemmas ListLemmas Limits ColorType Formats Buffer Color Float Dyn Gif Save SaveSpec.

(** ** put *)
Lemma skipn_twice : forall (l : list Z) n m, skipn n (skipn m l) = skipn (m + n) l.
Proof. intros l n m. revert l. induction m as [|m IH]; intros [|x l]; cbn; rewrite ?skipn_nil; auto. Qed.
Lemma put_nil : forall c p, put c p [] = c. Proof. reflexivity. Qed.
Lemma put_cons : forall c p b, b <> [] ->
  put c p b = firstn p c ++ repeat 0 (p - length c) ++ b ++ skipn (p + length b) c.
Proof. intros c p [|x b] H; [congruence|reflexivity]. Qed.
Lemma put_put : forall c p a b, put (put c p a) (p + length a) b = put c p (a ++ b).
Proof.
  intros c p a b. destruct a as [|x a']; [rewrite put_nil; cbn [length app]; rewrite Nat.add_0_r; reflexivity|].
  destruct b as [|y b']; [rewrite put_nil, app_nil_r; reflexivity|].
  set (a := x :: a'). set (b := y :: b').
  rewrite (put_cons c p a) by (subst a; congruence). rewrite (put_cons c p (a ++ b)) by (subst a; cbn; congruence).
  rewrite put_cons by (subst b; congruence).
  set (F := firstn p c). set (R := repeat 0 (p - length c)). set (Sf := skipn (p + length a) c).
  assert (L : length (F ++ R) = p).
  { subst F R. rewrite app_length, firstn_length, repeat_length. lia. }
  assert (L2 : length (F ++ R ++ a) = (p + length a)%nat) by (rewrite app_assoc, app_length, L; reflexivity).
  replace (F ++ R ++ a ++ Sf) with ((F ++ R ++ a) ++ Sf) by (rewrite <- !app_assoc; reflexivity).
  rewrite firstn_app, L2, Nat.sub_diag. cbn [firstn]. rewrite app_nil_r. rewrite firstn_all2 by lia.
  replace (p + length a - length ((F ++ R ++ a) ++ Sf))%nat with O by (rewrite app_length, L2; lia). cbn [repeat app].
  rewrite skipn_app, L2. rewrite (skipn_all2 (F ++ R ++ a)) by lia. cbn [app].
  replace (p + length a + length b - (p + length a))%nat with (length b) by lia.
  subst Sf. rewrite skipn_twice. rewrite app_length.
  rewrite <- !app_assoc. rewrite Nat.add_assoc. reflexivity.
Qed.
Lemma put_end : forall c b, put c (length c) b = c ++ b.
Proof.
  intros c [|x b]; [rewrite put_nil, app_nil_r; reflexivity|]. rewrite put_cons by congruence.
  rewrite firstn_all, Nat.sub_diag, skipn_all2 by lia. rewrite app_nil_r. reflexivity.
Qed.

(** ** the raw loop *)
Lemma raw_all_spec : forall fs b ok n r, raw_all fs b = (ok, n, r) -> (n <= length b)%nat /\ (ok = true -> n = length b).
Proof.
  induction fs as [|f fs IH]; intros b ok n r H; (destruct b as [|x b]; [cbn in H; injection H as <- <- <-; cbn; lia|]).
  - cbn in H. injection H as <- <- <-. cbn. lia.
  - cbn [raw_all] in H. destruct f as [k| | |].
    + destruct (Nat.min k (length (x :: b))) as [|k'] eqn:E; [injection H as <- <- <-; cbn; split; [lia|congruence]|].
      destruct (raw_all fs (skipn (Datatypes.S k') (x :: b))) as [[o m] r'] eqn:E2. injection H as <- <- <-.
      apply IH in E2. rewrite skipn_length in E2. set (l := length (x :: b)) in *. destruct E2 as [A B]. split; [lia|].
      intros O. specialize (B O). lia.
    + apply IH in H. exact H.
    + injection H as <- <- <-. cbn. split; [lia|congruence].
    + injection H as <- <- <-. cbn. split; [lia|congruence].
Qed.
Lemma raw_all_harmless : forall fs b, Forall harmless fs ->
  exists r, raw_all fs b = (true, length b, r) /\ Forall harmless r.
Proof.
  induction fs as [|f fs IH]; intros b H; (destruct b as [|x b]; [cbn; eauto|]).
  - cbn. eauto.
  - inversion_clear H. cbn [raw_all]. destruct f as [k| | |]; try contradiction.
    + cbn in H0. destruct (Nat.min k (length (x :: b))) as [|k'] eqn:E; [cbn [length] in E; lia|].
      destruct (IH (skipn (Datatypes.S k') (x :: b)) H1) as (r & E2 & F). rewrite E2, skipn_length. exists r. split; [|exact F].
      do 2 f_equal. cbn [length] in *. lia.
    + apply IH; auto.
Qed.

(** ** BufWriter: what has been written so far, on disk and held back *)
Definition whole (s : bufw) : list Z := put (w_file s) (w_pos s) (w_buf s).
Definition wpos (s : bufw) : nat := w_pos s + length (w_buf s).
Definition okw (s : bufw) : Prop := Forall harmless (w_calls s).

Lemma flush_true : forall s s', flush_buf s = (true, s') ->
  whole s' = whole s /\ wpos s' = wpos s /\ w_buf s' = [] /\ w_file s' = whole s /\ w_pos s' = wpos s.
Proof.
  intros s s' H. unfold flush_buf in H. destruct (raw_all (w_calls s) (w_buf s)) as [[ok n] r] eqn:E.
  injection H as -> <-. apply raw_all_spec in E. destruct E as [_ E]. specialize (E eq_refl). subst n.
  unfold whole, wpos. cbn [w_file w_pos w_buf w_calls]. rewrite skipn_all, firstn_all. cbn. repeat split; lia.
Qed.
Lemma flush_harmless : forall s, okw s -> exists s', flush_buf s = (true, s') /\ okw s'.
Proof.
  intros s H. destruct (raw_all_harmless _ (w_buf s) H) as (r & E & F). unfold flush_buf. rewrite E. eexists. split; [reflexivity|]. exact F.
Qed.
Lemma write_true : forall cap b s s', bw_write_all cap b s = (true, s') ->
  whole s' = put (whole s) (wpos s) b /\ wpos s' = (wpos s + length b)%nat.
Proof.
  intros cap b s s' H. unfold bw_write_all in H.
  assert (K : forall s, whole (mkW (w_file s) (w_pos s) (w_calls s) (w_buf s ++ b)) = put (whole s) (wpos s) b /\
                        wpos (mkW (w_file s) (w_pos s) (w_calls s) (w_buf s ++ b)) = (wpos s + length b)%nat).
  { intros t. unfold whole, wpos. cbn [w_file w_pos w_buf]. rewrite put_put, app_length. split; [reflexivity|lia]. }
  destruct (length b <? cap - length (w_buf s))%nat eqn:E1; [injection H as <-; apply K|].
  assert (D : forall t, (cap <= length b)%nat -> (w_buf t = [] \/ b = []) ->
    (let '(ok, n, fs) := raw_all (w_calls t) b in (ok, mkW (put (w_file t) (w_pos t) (firstn n b)) (w_pos t + n) fs (w_buf t))) = (true, s') ->
    whole s' = put (whole t) (wpos t) b /\ wpos s' = (wpos t + length b)%nat).
  { intros t C B G. destruct (raw_all (w_calls t) b) as [[ok n] r] eqn:E. injection G as -> <-.
    apply raw_all_spec in E. destruct E as [_ E]. specialize (E eq_refl). subst n. unfold whole, wpos. cbn [w_file w_pos w_buf].
    rewrite firstn_all. destruct B as [B|B]; rewrite B; cbn [length put]; split; rewrite ?Nat.add_0_r; auto. }
  destruct (cap - length (w_buf s) <? length b)%nat eqn:E2.
  - destruct (flush_buf s) as [ok s1] eqn:F. destruct ok; cbn [negb] in H; [|discriminate].
    destruct (flush_true _ _ F) as (W & P & B & _).
    destruct (cap <=? length b)%nat eqn:E3.
    + apply Nat.leb_le in E3. destruct (D s1 E3 (or_introl B) H) as [X Y]. rewrite X, Y, W, P. auto.
    + injection H as <-. destruct (K s1) as [X Y]. rewrite X, Y, W, P. auto.
  - cbn [negb] in H. apply Nat.ltb_ge in E1, E2. destruct (cap <=? length b)%nat eqn:E3.
    + apply Nat.leb_le in E3. apply D; auto. destruct (w_buf s); [auto|]. right. cbn [length] in *. destruct b; [auto|]. cbn [length] in *. lia.
    + injection H as <-. apply K.
Qed.
Lemma write_harmless : forall cap b s, okw s -> exists s', bw_write_all cap b s = (true, s') /\ okw s'.
Proof.
  intros cap b s H. unfold bw_write_all.
  destruct (length b <? cap - length (w_buf s))%nat eqn:E1; [eexists; split; [reflexivity|exact H]|].
  destruct (cap - length (w_buf s) <? length b)%nat eqn:E2.
  - destruct (flush_harmless s H) as (s1 & E & O). rewrite E. cbn [negb]. destruct (cap <=? length b)%nat.
    + destruct (raw_all_harmless _ b O) as (r & Er & F). rewrite Er. eexists. split; [reflexivity|exact F].
    + eexists. split; [reflexivity|exact O].
  - cbn [negb]. destruct (cap <=? length b)%nat.
    + destruct (raw_all_harmless _ b H) as (r & Er & F). rewrite Er. eexists. split; [reflexivity|exact F].
    + eexists. split; [reflexivity|exact H].
Qed.

(** every schedule of short and interrupted writes: the BufWriter is transparent *)
Lemma run_harmless : forall cap p s, okw s ->
  exists s', run cap p s = (fst (fst (run_mem p (whole s) (wpos s))), s') /\ okw s' /\
             run_mem p (whole s) (wpos s) = (fst (fst (run_mem p (whole s) (wpos s))), whole s', wpos s').
Proof.
  intros cap p. induction p as [r|b k IH|q k IH|k IH|k IH]; intros s H; cbn [run run_mem].
  - exists s. auto.
  - destruct (write_harmless cap b s H) as (s1 & E & O). rewrite E. destruct (write_true _ _ _ _ E) as [W P].
    rewrite <- W, <- P. apply IH. exact O.
  - unfold bw_seek. destruct (flush_harmless s H) as (s1 & E & O). rewrite E. destruct (flush_true _ _ E) as (W & P & B & F & Q).
    set (s2 := mkW (w_file s1) q (w_calls s1) (w_buf s1)).
    assert (W2 : whole s2 = whole s) by (unfold whole, s2; cbn [w_file w_pos w_buf]; rewrite B, put_nil; exact F).
    assert (P2 : wpos s2 = q) by (unfold wpos, s2; cbn [w_pos w_buf]; rewrite B; cbn; lia).
    rewrite <- W2. destruct (IH true s2 O) as (s' & A). rewrite P2 in A. exists s'. exact A.
  - unfold bw_position. destruct (flush_harmless s H) as (s1 & E & O). rewrite E. destruct (flush_true _ _ E) as (W & P & B & F & Q).
    rewrite Q, <- W, <- P. apply IH. exact O.
  - destruct (flush_harmless s H) as (s1 & E & O). rewrite E. destruct (flush_true _ _ E) as (W & P & _).
    rewrite <- W, <- P. apply IH. exact O.
Qed.
Lemma drop_harmless : forall s, okw s -> w_file (bw_drop s) = whole s.
Proof. intros s H. unfold bw_drop. destruct (flush_harmless s H) as (s1 & E & _). rewrite E. cbn [snd]. apply flush_true in E. tauto. Qed.

(** every fault: encoders that report errors *)
Lemma fails_run : forall cap p s, fails p -> fst (run cap p s) <> Ok tt.
Proof.
  intros cap p. induction p as [r|b k IH|q k IH|k IH|k IH]; intros s H; cbn [run]; cbn [fails] in H.
  - exact H.
  - destruct (bw_write_all cap b s) as [ok s1]. apply IH. destruct ok; tauto.
  - destruct (bw_seek q s) as [ok s1]. apply IH. destruct ok; tauto.
  - destruct (bw_position s) as [o s1]. apply IH. destruct o; destruct H as [A B]; auto.
  - destruct (flush_buf s) as [ok s1]. apply IH. destruct ok; tauto.
Qed.
Lemma run_reporting : forall cap p d s s', reports p -> ends_flushed d p -> (d = false -> w_buf s = []) ->
  run cap p s = (Ok tt, s') ->
  run_mem p (whole s) (wpos s) = (Ok tt, whole s', wpos s') /\ w_buf s' = [].
Proof.
  intros cap p. induction p as [r|b k IH|q k IH|k IH|k IH]; intros d s s' R E D H; cbn [run run_mem] in *; cbn [reports ends_flushed] in R, E.
  - injection H as -> <-. split; auto.
  - destruct R as [R1 R2]. destruct (bw_write_all cap b s) as [ok s1] eqn:W. destruct ok.
    + destruct (write_true _ _ _ _ W) as [A B]. rewrite <- A, <- B. apply (IH true true s1 s'); auto. congruence.
    + exfalso. apply (fails_run cap _ s1 R2). rewrite H. reflexivity.
  - destruct R as [R1 R2]. unfold bw_seek in H. destruct (flush_buf s) as [ok s1] eqn:F. destruct ok.
    + destruct (flush_true _ _ F) as (W & P & B & Fi & Q).
      set (s2 := mkW (w_file s1) q (w_calls s1) (w_buf s1)) in *.
      assert (W2 : whole s2 = whole s) by (unfold whole, s2; cbn [w_file w_pos w_buf]; rewrite B, put_nil; exact Fi).
      assert (P2 : wpos s2 = q) by (unfold wpos, s2; cbn [w_pos w_buf]; rewrite B; cbn; lia).
      rewrite <- W2. replace q with (wpos s2) by exact P2. apply (IH true d s2 s'); auto.
    + exfalso. apply (fails_run cap _ s1 R2). rewrite H. reflexivity.
  - destruct R as [R1 R2]. unfold bw_position in H. destruct (flush_buf s) as [ok s1] eqn:F. destruct ok.
    + destruct (flush_true _ _ F) as (W & P & B & Fi & Q). rewrite Q in H.
      rewrite <- P in H. rewrite <- W, <- P. apply (IH (Some (wpos s1)) d s1 s'); auto.
    + exfalso. apply (fails_run cap _ s1 R2). rewrite H. reflexivity.
  - destruct R as [R1 R2]. destruct (flush_buf s) as [ok s1] eqn:F. destruct ok.
    + destruct (flush_true _ _ F) as (W & P & B & _). rewrite <- W, <- P. apply (IH true false s1 s'); auto.
    + exfalso. apply (fails_run cap _ s1 R2). rewrite H. reflexivity.
Qed.
Lemma drop_empty : forall s, w_buf s = [] -> w_file (bw_drop s) = w_file s.
Proof. intros s H. unfold bw_drop, flush_buf. rewrite H. destruct (w_calls s); reflexivity. Qed.

(** ** the file at any moment holds a beginning of the output *)
Lemma prefix_refl : forall l, prefix l l. Proof. intros l. exists []. rewrite app_nil_r. reflexivity. Qed.
Lemma prefix_trans : forall a b c, prefix a b -> prefix b c -> prefix a c.
Proof. intros a b c (t & ->) (u & ->). exists (t ++ u). rewrite app_assoc. reflexivity. Qed.
Lemma prefix_app : forall a b, prefix a (a ++ b). Proof. intros; exists b; reflexivity. Qed.
Lemma prefix_firstn : forall c n b, prefix (c ++ firstn n b) (c ++ b).
Proof. intros c n b. exists (skipn n b). rewrite <- app_assoc, firstn_skipn. reflexivity. Qed.
Definition appending (s : bufw) : Prop := w_pos s = length (w_file s).
Lemma app_whole : forall s, appending s -> whole s = w_file s ++ w_buf s.
Proof. intros s H. unfold whole. rewrite H, put_end. reflexivity. Qed.
Lemma app_wpos : forall s, appending s -> wpos s = length (whole s).
Proof. intros s H. rewrite app_whole by exact H. unfold wpos. rewrite H, app_length. reflexivity. Qed.
Lemma flush_appending : forall s ok s', appending s -> flush_buf s = (ok, s') -> appending s' /\ whole s' = whole s /\ (ok = true -> w_buf s' = []).
Proof.
  intros s ok s' H E. unfold flush_buf in E. destruct (raw_all (w_calls s) (w_buf s)) as [[o n] r] eqn:R. injection E as <- <-.
  apply raw_all_spec in R. destruct R as [R1 R2].
  assert (A : appending (mkW (put (w_file s) (w_pos s) (firstn n (w_buf s))) (w_pos s + n) r (skipn n (w_buf s)))).
  { unfold appending in *. cbn [w_file w_pos]. rewrite H, put_end, app_length, firstn_length. lia. }
  split; [exact A|]. split.
  - rewrite !app_whole by assumption. cbn [w_file w_buf]. unfold appending in H. rewrite H, put_end, <- app_assoc, firstn_skipn. reflexivity.
  - intros O. cbn [w_buf]. rewrite (R2 O). apply skipn_all.
Qed.
Lemma write_appending : forall cap b s ok s', appending s -> bw_write_all cap b s = (ok, s') ->
  appending s' /\ prefix (whole s') (whole s ++ b) /\ (ok = true -> whole s' = whole s ++ b).
Proof.
  intros cap b s ok s' H E. unfold bw_write_all in E.
  assert (K : forall t, appending t -> appending (mkW (w_file t) (w_pos t) (w_calls t) (w_buf t ++ b)) /\
                        whole (mkW (w_file t) (w_pos t) (w_calls t) (w_buf t ++ b)) = whole t ++ b).
  { intros t A. assert (A' : appending (mkW (w_file t) (w_pos t) (w_calls t) (w_buf t ++ b))) by exact A. split; [exact A'|].
    rewrite !app_whole by assumption. cbn [w_file w_buf]. apply app_assoc. }
  assert (D : forall t, appending t -> (cap <= length b)%nat -> (w_buf t = [] \/ b = []) ->
    (let '(ok, n, fs) := raw_all (w_calls t) b in (ok, mkW (put (w_file t) (w_pos t) (firstn n b)) (w_pos t + n) fs (w_buf t))) = (ok, s') ->
    appending s' /\ prefix (whole s') (whole t ++ b) /\ (ok = true -> whole s' = whole t ++ b)).
  { intros t A C B G. destruct (raw_all (w_calls t) b) as [[o n] r] eqn:R. injection G as <- <-.
    apply raw_all_spec in R. destruct R as [R1 R2].
    assert (A' : appending (mkW (put (w_file t) (w_pos t) (firstn n b)) (w_pos t + n) r (w_buf t))).
    { unfold appending in *. cbn [w_file w_pos]. rewrite A, put_end, app_length, firstn_length. lia. }
    split; [exact A'|]. rewrite !app_whole by assumption. cbn [w_file w_buf]. red in A. rewrite A, put_end.
    destruct B as [B|B]; rewrite B; rewrite ?app_nil_r.
    - split; [apply prefix_firstn|]. intros O. rewrite (R2 O), firstn_all. reflexivity.
    - rewrite firstn_nil, app_nil_r. split; [apply prefix_refl|reflexivity]. }
  destruct (length b <? cap - length (w_buf s))%nat eqn:E1.
  { injection E as <- <-. destruct (K s H) as [X Y]. rewrite Y. split; [exact X|]. split; [apply prefix_refl|reflexivity]. }
  destruct (cap - length (w_buf s) <? length b)%nat eqn:E2.
  - destruct (flush_buf s) as [o s1] eqn:F. destruct (flush_appending _ _ _ H F) as (A & W & B). destruct o; cbn [negb] in E.
    + destruct (cap <=? length b)%nat eqn:E3.
      * apply Nat.leb_le in E3. rewrite <- W. apply D; auto.
      * injection E as <- <-. destruct (K s1 A) as [X Y]. rewrite Y, W. split; [exact X|]. split; [apply prefix_refl|reflexivity].
    + injection E as <- <-. rewrite W. split; [exact A|]. split; [apply prefix_app|congruence].
  - cbn [negb] in E. apply Nat.ltb_ge in E1, E2. destruct (cap <=? length b)%nat eqn:E3.
    + apply Nat.leb_le in E3. apply D; auto. destruct (w_buf s); [auto|]. right. cbn [length] in *. destruct b; [auto|]. cbn [length] in *. lia.
    + injection E as <- <-. destruct (K s H) as [X Y]. rewrite Y. split; [exact X|]. split; [apply prefix_refl|reflexivity].
Qed.
Lemma mem_grows : forall p c, straight p -> prefix c (snd (fst (run_mem p c (length c)))).
Proof.
  induction p as [r|b k IH|q k IH|k IH|k IH]; intros c H; cbn [run_mem]; cbn [straight] in H; try contradiction.
  - apply prefix_refl.
  - destruct H as [H _]. rewrite put_end. eapply prefix_trans; [apply (prefix_app c b)|]. rewrite <- app_length. apply IH. exact H.
  - apply IH. tauto.
Qed.
Lemma drop_prefix : forall s, appending s -> prefix (w_file (bw_drop s)) (whole s).
Proof.
  intros s H. unfold bw_drop. destruct (flush_buf s) as [ok s1] eqn:F. cbn [snd]. destruct (flush_appending _ _ _ H F) as (A & W & _).
  rewrite <- W, app_whole by exact A. apply prefix_app.
Qed.
Lemma run_prefix : forall cap p s, straight p -> appending s ->
  prefix (w_file (bw_drop (snd (run cap p s)))) (snd (fst (run_mem p (whole s) (wpos s)))).
Proof.
  intros cap p. induction p as [r|b k IH|q k IH|k IH|k IH]; intros s H A; cbn [run run_mem]; cbn [straight] in H; try contradiction.
  - apply drop_prefix. exact A.
  - destruct H as (H & e & He). destruct (bw_write_all cap b s) as [ok s1] eqn:W. destruct (write_appending _ _ _ _ _ A W) as (A1 & P1 & Q1).
    rewrite app_wpos by exact A. rewrite put_end. rewrite <- app_length. destruct ok.
    + rewrite <- (Q1 eq_refl). rewrite <- app_wpos by exact A1. apply IH; auto.
    + rewrite He. cbn [run snd]. eapply prefix_trans; [apply drop_prefix; exact A1|]. eapply prefix_trans; [exact P1|]. apply mem_grows. exact H.
  - destruct H as (H & e & He). destruct (flush_buf s) as [ok s1] eqn:F. destruct (flush_appending _ _ _ A F) as (A1 & W1 & _). destruct ok.
    + rewrite <- W1. rewrite app_wpos by exact A. rewrite <- W1. rewrite <- app_wpos by exact A1. apply IH; auto.
    + rewrite He. cbn [run snd]. eapply prefix_trans; [apply drop_prefix; exact A1|]. rewrite W1. rewrite app_wpos by exact A. apply mem_grows. exact H.
Qed.

(** ** extensions *)
Lemma split_dot_some : forall l a r, split_dot l = (a, Some r) -> l = a ++ 46 :: r /\ ~ In 46 a.
Proof.
  induction l as [|c l IH]; intros a r H; [discriminate|]. cbn [split_dot] in H. destruct (c =? 46) eqn:E.
  - injection H as <- <-. apply Z.eqb_eq in E. subst. cbn. auto.
  - destruct (split_dot l) as [a' r'] eqn:S. injection H as <- ->. destruct (IH _ _ eq_refl) as [-> N]. split; [reflexivity|].
    apply Z.eqb_neq in E. cbn. intros [X|X]; [congruence|auto].
Qed.
Lemma split_dot_app : forall a r, ~ In 46 a -> split_dot (a ++ 46 :: r) = (a, Some r).
Proof.
  induction a as [|c a IH]; intros r H; [reflexivity|]. cbn [app split_dot]. destruct (c =? 46) eqn:E.
  - apply Z.eqb_eq in E. exfalso. apply H. cbn. auto.
  - rewrite IH; [reflexivity|]. intros X. apply H. cbn. auto.
Qed.
Lemma extension_spec : forall p e, extension p = Some e <->
  p_name p <> [46; 46] /\ exists stem, p_name p = stem ++ 46 :: e /\ stem <> [] /\ ~ In 46 e.
Proof.
  intros p e. unfold extension. destruct (leqb (p_name p) [46; 46]) eqn:L.
  - apply leqb_eq in L. split; [discriminate|]. intros [X _]. congruence.
  - assert (N : p_name p <> [46; 46]) by (intros X; rewrite X in L; discriminate).
    destruct (split_dot (rev (p_name p))) as [a r] eqn:E. split.
    + intros H. destruct r as [[|c r]|]; try discriminate. injection H as <-. split; [exact N|].
      apply split_dot_some in E. destruct E as [E1 E2]. exists (rev (c :: r)).
      rewrite <- (rev_involutive (p_name p)), E1, rev_app_distr. cbn [rev]. rewrite <- !app_assoc. cbn [app]. split; [reflexivity|]. split.
      * destruct (rev r); discriminate.
      * rewrite <- in_rev. exact E2.
    + intros (_ & stem & H & S & I). rewrite H in E. rewrite rev_app_distr in E. cbn [rev] in E. rewrite <- app_assoc in E. cbn [app] in E.
      rewrite split_dot_app in E by (rewrite <- in_rev; exact I). injection E as <- <-.
      destruct (rev stem) eqn:R; [exfalso; apply S; rewrite <- (rev_involutive stem), R; reflexivity|]. rewrite rev_involutive. reflexivity.
Qed.
