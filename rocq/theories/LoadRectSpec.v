(** What load_rect and ImageReadBuffer may assume about the callbacks they are given. *)
From Verif Require Import Base.
Local Open Scope Z_scope.

(** A decoder whose image data, decoded in full, is [data], handed out in scanlines of [sb] bytes (the last one may be
    incomplete).  [at_ d n]: decoder state [d] stands at scanline [n]. *)
Definition seek_ok {D} (seek : D -> Z -> res D) (at_ : D -> Z -> Prop) (data : list Z) (sb : Z) : Prop :=
  forall d m n, at_ d m -> 0 <= n -> n * sb < zlen data \/ n = 0 -> exists d', seek d n = Ok d' /\ at_ d' n.
Definition read_ok {D} (read : D -> list Z -> res (list Z * D)) (at_ : D -> Z -> Prop) (data : list Z) (sb : Z) : Prop :=
  forall d n b, at_ d n -> zlen b = sb -> 0 <= n -> n * sb < zlen data ->
  exists b' d', read d b = Ok (b', d') /\ at_ d' (n + 1) /\ zlen b' = sb /\
    forall i, 0 <= i < sb -> n * sb + i < zlen data -> zget b' i = zget data (n * sb + i).

(** A byte source: [rep src rest] says which bytes are left; a read fills the slice it is given unless fewer are left. *)
Definition source_ok {Src} (rd : Src -> Z -> res (list Z * Src)) (rep : Src -> list Z -> Prop) : Prop :=
  forall src rest n, rep src rest -> 0 < n ->
  exists src', rd src n = Ok (firstn (Z.to_nat n) rest, src') /\ rep src' (skipn (Z.to_nat n) rest).
