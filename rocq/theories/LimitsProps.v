(** C28: allocation limits. *)
From Verif Require Import Base Limits LimitsProofs.

(** dimension limits are enforced exactly *)
Theorem C28_dimensions : forall l w h,
  check_dimensions l w h = Ok tt <->
  (forall mw, max_image_width l = Some mw -> w <= mw) /\
  (forall mh, max_image_height l = Some mh -> h <= mh).
Proof. exact check_dimensions_iff. Qed.
Print Assumptions C28_dimensions.

(** One call: it succeeds exactly when the dimensions are allowed and the requested number of
    bytes (for a buffer min(2^64-1, w*h*bpp)) fits the remaining budget; the budget then drops
    by exactly that amount; a failed call changes nothing. *)
Theorem C28_one_call : forall l o b, max_alloc l = Some b -> 0 <= b <= u64_max -> op_ok o ->
  let '(l', r) := lstep l o in
  max_image_width l' = max_image_width l /\ max_image_height l' = max_image_height l /\
  ((dims_allowed l o /\ charge o <= b /\ r = Ok tt /\
      max_alloc l' = Some (Z.min u64_max (b - charge o))) \/
   (~ (dims_allowed l o /\ charge o <= b) /\ r = Err ELimits /\ l' = l)).
Proof. exact lstep_spec. Qed.
Print Assumptions C28_one_call.

(** Every history of a client that frees no more than it holds: the remaining budget is the
    initial one minus what is outstanding, which never exceeds the initial budget. *)
Theorem C28_ledger : forall l os init, max_alloc l = Some init -> 0 <= init <= u64_max ->
  Forall op_ok os -> disciplined (snd (lrun l os)) ->
  max_alloc (fst (lrun l os)) = Some (init - outstanding (snd (lrun l os))) /\
  0 <= outstanding (snd (lrun l os)) <= init.
Proof. exact lrun_ledger. Qed.
Print Assumptions C28_ledger.

Theorem C28_reserve_free : forall l n b, max_alloc l = Some b -> 0 <= b <= u64_max -> 0 <= n ->
  snd (reserve l n) = Ok tt -> free (fst (reserve l n)) n = l.
Proof. exact reserve_free. Qed.
Print Assumptions C28_reserve_free.

Theorem C28_no_limits : forall os, lrun no_limits os = (no_limits, map (fun o => (o, Ok tt)) os).
Proof. exact no_limits_never_fails. Qed.
Print Assumptions C28_no_limits.

(** a history with a success, a refusal, a free and a retry *)
Definition ex_ops := [OReserveBuffer 10 10 4; OReserve 700; OFree 400; OReserve 700].
Example ex_trace : lrun (mkLimits (Some 100) None (Some 1000)) ex_ops =
  (mkLimits (Some 100) None (Some 300),
   combine ex_ops [Ok tt; Err ELimits; Ok tt; Ok tt]).
Proof. reflexivity. Qed.
Example ex_ok : Forall op_ok ex_ops.
Proof. repeat constructor; cbn; unfold u64_max, u32_max; lia. Qed.
Example ex_disciplined : disciplined (snd (lrun (mkLimits (Some 100) None (Some 1000)) ex_ops)).
Proof.
  intros t1 t2 E. rewrite ex_trace in E. cbn [ex_ops combine snd] in E.
  destruct t1 as [|? [|? [|? [|? [|? ?]]]]]; cbn in E; inversion E; subst; cbn; unfold u64_max; lia.
Qed.
