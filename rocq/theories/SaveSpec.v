(** Words for the statements about saving: kinds of write schedules and of encoders. *)
From Verif Require Import Base Save.

(** a system call that makes progress, or is only interrupted *)
Definition harmless (o : rawout) : Prop := match o with Takes n => (0 < n)%nat | Interrupted => True | Refuses | Dead => False end.
(** the encoder can no longer report success *)
Fixpoint fails (p : prog) : Prop :=
  match p with
  | Ret r => r <> Ok tt
  | Write _ k | Seek _ k | Flush k => fails (k true) /\ fails (k false)
  | Position k => (forall n, fails (k (Some n))) /\ fails (k None)
  end.
(** the encoder reports every error its writer reports *)
Fixpoint reports (p : prog) : Prop :=
  match p with
  | Ret _ => True
  | Write _ k | Seek _ k | Flush k => reports (k true) /\ fails (k false)
  | Position k => (forall n, reports (k (Some n))) /\ fails (k None)
  end.
(** the encoder reports success only after a flush that no write has followed; [d]: something has been written since the last flush *)
Fixpoint ends_flushed (d : bool) (p : prog) : Prop :=
  match p with
  | Ret r => r = Ok tt -> d = false
  | Write _ k => ends_flushed true (k true)
  | Seek _ k => ends_flushed d (k true)
  | Position k => forall n, ends_flushed d (k (Some n))
  | Flush k => ends_flushed false (k true)
  end.
(** the encoder writes from front to back and stops at the first error (`?`, nothing in its Drop) *)
Fixpoint straight (p : prog) : Prop :=
  match p with
  | Ret _ => True
  | Write _ k | Flush k => straight (k true) /\ exists r, k false = Ret r
  | Seek _ _ | Position _ => False
  end.
Definition prefix (a b : list Z) : Prop := exists t, b = a ++ t.
(** the same encoder writing into memory, from the start of an empty Vec: its result and what it has written *)
Definition in_memory (p : prog) : res unit * list Z := fst (run_mem p [] 0).
