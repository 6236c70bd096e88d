From Verif Require Import Base BaseLemmas Limits.

Lemma check_dimensions_iff l w h :
  check_dimensions l w h = Ok tt <->
  (forall mw, max_image_width l = Some mw -> w <= mw) /\
  (forall mh, max_image_height l = Some mh -> h <= mh).
Proof.
  unfold check_dimensions. destruct (max_image_width l) as [mw|], (max_image_height l) as [mh|].
  - destruct (Z.ltb_spec mw w), (Z.ltb_spec mh h);
      (split; [try discriminate; intros _; split; intros ? E; inversion E; subst; lia
              |intros [H1 H2]; specialize (H1 _ eq_refl); specialize (H2 _ eq_refl); auto; lia]).
  - destruct (Z.ltb_spec mw w);
      (split; [try discriminate; intros _; split; intros ? E; inversion E; subst; lia
              |intros [H1 H2]; specialize (H1 _ eq_refl); auto; lia]).
  - destruct (Z.ltb_spec mh h);
      (split; [try discriminate; intros _; split; intros ? E; inversion E; subst; lia
              |intros [H1 H2]; specialize (H2 _ eq_refl); auto; lia]).
  - split; auto. intros _; split; discriminate.
Qed.
Lemma check_dimensions_cases l w h :
  check_dimensions l w h = Ok tt \/ check_dimensions l w h = Err ELimits.
Proof.
  unfold check_dimensions. destruct (max_image_width l), (max_image_height l);
    repeat match goal with |- context [if ?b then _ else _] => destruct b end; auto.
Qed.

(** the amount charged by a successful call; None for free *)
Definition charge (o : lop) : Z :=
  match o with
  | OReserve n => n
  | OReserveBuffer w h b => Z.min u64_max (w * h * b)
  | OFree n => - n
  end.
Fixpoint outstanding (tr : list (lop * res unit)) : Z :=
  match tr with
  | [] => 0
  | (o, Ok _) :: tr' => charge o + outstanding tr'
  | _ :: tr' => outstanding tr'
  end.
Definition op_ok (o : lop) : Prop :=
  match o with
  | OReserve n => 0 <= n <= u64_max
  | OReserveBuffer w h b => 0 <= w <= u32_max /\ 0 <= h <= u32_max /\ 0 <= b <= 255
  | OFree n => 0 <= n <= u64_max
  end.

Lemma sat_buffer w h b : 0 <= w -> 0 <= h -> 0 <= b ->
  sat_mul_u64 (sat_mul_u64 w h) b = if b =? 0 then 0 else Z.min u64_max (w * h * b).
Proof.
  intros. unfold sat_mul_u64. destruct (Z.eqb_spec b 0) as [->|].
  - unfold u64_max. lia.
  - unfold u64_max. destruct (Z_le_gt_dec (w * h) 18446744073709551615).
    + replace (Z.min 18446744073709551615 (w * h)) with (w * h) by lia. reflexivity.
    + replace (Z.min 18446744073709551615 (w * h)) with 18446744073709551615 by lia. nia.
Qed.
Lemma sat_buffer' w h b : 0 <= w -> 0 <= h -> 0 <= b ->
  sat_mul_u64 (sat_mul_u64 w h) b = Z.min u64_max (w * h * b).
Proof.
  intros. rewrite sat_buffer by auto. destruct (Z.eqb_spec b 0); [subst|reflexivity].
  unfold u64_max; lia.
Qed.

Definition dims_allowed (l : limits) (o : lop) : Prop :=
  match o with
  | OReserveBuffer w h _ =>
      (forall mw, max_image_width l = Some mw -> w <= mw) /\
      (forall mh, max_image_height l = Some mh -> h <= mh)
  | _ => True
  end.

(** exact description of one call *)
Lemma lstep_spec l o b : max_alloc l = Some b -> 0 <= b <= u64_max -> op_ok o ->
  let '(l', r) := lstep l o in
  max_image_width l' = max_image_width l /\ max_image_height l' = max_image_height l /\
  ((dims_allowed l o /\ charge o <= b /\ r = Ok tt /\
      max_alloc l' = Some (Z.min u64_max (b - charge o))) \/
   (~ (dims_allowed l o /\ charge o <= b) /\ r = Err ELimits /\ l' = l)).
Proof.
  intros Hb Hr Ho. destruct o as [n|w h bp|n]; cbn [lstep op_ok charge dims_allowed] in *.
  - unfold reserve. rewrite Hb. destruct (Z.ltb_spec b n); cbn.
    + repeat split; auto. right. repeat split; auto. lia.
    + repeat split; auto. left. repeat split; auto. f_equal. lia.
  - unfold reserve_buffer. destruct (check_dimensions_cases l w h) as [E|E]; rewrite E.
    + rewrite sat_buffer' by lia. apply check_dimensions_iff in E.
      unfold reserve. rewrite Hb. destruct (Z.ltb_spec b (Z.min u64_max (w * h * bp))); cbn [max_image_width max_image_height max_alloc].
      * repeat split; auto. right. repeat split; auto. lia.
      * repeat split; auto. left. split; [exact E|]. split; [auto|]. split; [auto|]. f_equal.
        assert (0 <= w * h * bp) by nia. lia.
    + repeat split; auto. right. repeat split; auto. intros [H _].
      apply check_dimensions_iff in H. congruence.
  - unfold free. rewrite Hb. cbn. repeat split; auto. left. repeat split; auto; [lia|].
    unfold sat_add_u64. do 2 f_equal. lia.
Qed.

(** a client that frees only what it has reserved *)
Definition disciplined (tr : list (lop * res unit)) : Prop :=
  forall tr1 tr2, tr = tr1 ++ tr2 -> 0 <= outstanding tr1.

Lemma outstanding_app a b : outstanding (a ++ b) = outstanding a + outstanding b.
Proof.
  induction a as [|[o r] a IH]; [reflexivity|]. cbn [app outstanding].
  destruct r; rewrite IH; lia.
Qed.

Lemma lrun_app l os1 os2 :
  lrun l (os1 ++ os2) = (fst (lrun (fst (lrun l os1)) os2),
                         snd (lrun l os1) ++ snd (lrun (fst (lrun l os1)) os2)).
Proof.
  revert l; induction os1 as [|o os1 IH]; intros l; cbn [app lrun].
  - cbn. destruct (lrun l os2); reflexivity.
  - destruct (lstep l o) as [l1 r]. rewrite IH.
    destruct (lrun l1 os1) as [l2 tr]. cbn [fst snd app]. destruct (lrun l2 os2); reflexivity.
Qed.

Lemma lrun_ledger l os init : max_alloc l = Some init -> 0 <= init <= u64_max ->
  Forall op_ok os -> disciplined (snd (lrun l os)) ->
  max_alloc (fst (lrun l os)) = Some (init - outstanding (snd (lrun l os))) /\
  0 <= outstanding (snd (lrun l os)) <= init.
Proof.
  revert os. intros os. pattern os. apply rev_ind; clear os.
  - intros Hm Hi _ _. cbn. split; [rewrite Hm; f_equal; lia|lia].
  - intros o os IH Hm Hi Hok Hd. apply Forall_app in Hok as [Hok1 Hok2].
    inversion Hok2 as [|? ? Ho _]; subst.
    rewrite lrun_app in *. cbn [fst snd] in *.
    assert (Hd1 : disciplined (snd (lrun l os))).
    { intros t1 t2 E. apply (Hd t1 (t2 ++ snd (lrun (fst (lrun l os)) [o]))).
      rewrite E, app_assoc. reflexivity. }
    destruct (IH Hm Hi Hok1 Hd1) as [Hb Hr].
    set (l1 := fst (lrun l os)) in *. set (tr1 := snd (lrun l os)) in *.
    pose proof (lstep_spec l1 o (init - outstanding tr1) Hb ltac:(lia) Ho) as Hs.
    assert (Hdall := Hd (tr1 ++ snd (lrun l1 [o])) [] ltac:(rewrite app_nil_r; reflexivity)).
    rewrite outstanding_app in *. cbn [lrun] in *. destruct (lstep l1 o) as [l2 r] eqn:Es.
    cbn [fst snd outstanding] in *.
    destruct Hs as (_ & _ & [(H1 & H2 & -> & H3)|(H1 & -> & ->)]).
    + rewrite H3. split; [f_equal; lia|lia].
    + rewrite Hb. split; [f_equal; lia|lia].
Qed.

Lemma reserve_free l n b : max_alloc l = Some b -> 0 <= b <= u64_max -> 0 <= n ->
  snd (reserve l n) = Ok tt -> free (fst (reserve l n)) n = l.
Proof.
  intros Hm Hb Hn. unfold reserve. rewrite Hm. destruct (Z.ltb_spec b n); [discriminate|].
  intros _. cbn. unfold free. cbn. destruct l; cbn in *. subst. f_equal.
  unfold sat_add_u64. f_equal. lia.
Qed.
Lemma no_limits_never_fails os : lrun no_limits os = (no_limits, map (fun o => (o, Ok tt)) os).
Proof.
  induction os as [|o os IH]; [reflexivity|]. cbn [lrun map].
  assert (E : lstep no_limits o = (no_limits, Ok tt)) by (destruct o; reflexivity).
  rewrite E, IH. reflexivity.
Qed.
