(** C70: a decoder in a box. *)
From Verif Require Import Base BaseLemmas Limits ColorType Orient Glue Boxed.
Local Open Scope Z_scope.

(** what a client sees: the answers to any sequence of calls, and the buffer of the read_image that ends it *)
Definition seen {S} (d : obj S) (s : S) (cs : list call) (buf : list Z) : list answer * res (list Z) :=
  let '(s, l) := history d s cs in (l, o_read d s buf).
(** the same decoder in n boxes *)
Definition in_boxes {S} (n : nat) (d : obj S) : obj S := Nat.iter n boxed d.

Lemma ask_boxed : forall {S} (d : obj S) n s c, c <> Orient -> ask (in_boxes n d) s c = ask d s c.
Proof.
  intros S d n s c H. induction n as [|n IH]; [reflexivity|]. rewrite <- IH. unfold in_boxes. cbn [Nat.iter]. destruct c; try reflexivity. contradiction.
Qed.
Lemma read_boxed : forall {S} (d : obj S) n s buf, o_read (in_boxes n d) s buf = o_read d s buf.
Proof. intros S d n s buf. induction n as [|n IH]; [reflexivity|]. exact IH. Qed.
Lemma exif_boxed : forall {S} (d : obj S) n s, o_exif (in_boxes n d) s = o_exif d s.
Proof. intros S d n s. induction n as [|n IH]; [reflexivity|]. exact IH. Qed.
Lemma orient_boxed : forall {S} (d : obj S) n s, o_orientation (in_boxes (Datatypes.S n) d) s = default_orientation (o_exif d) s.
Proof.
  intros S d n s. unfold in_boxes. cbn [Nat.iter boxed o_orientation]. unfold default_orientation.
  rewrite <- (exif_boxed d n s). reflexivity.
Qed.

(** Every call but orientation is answered by the decoder inside, whatever was called before; so is read_image. *)
Theorem C70_forwards : forall S (d : obj S) n s cs buf, ~ In Orient cs -> seen (in_boxes n d) s cs buf = seen d s cs buf.
Proof.
  intros S d n s cs buf H. unfold seen.
  assert (E : history (in_boxes n d) s cs = history d s cs).
  { revert s. induction cs as [|c cs IH]; intros s; [reflexivity|]. cbn [history]. rewrite ask_boxed by (intros ->; apply H; left; reflexivity).
    destruct (ask d s c) as [s' a]. rewrite IH by (intros X; apply H; right; exact X). reflexivity. }
  rewrite E. destruct (history d s cs) as [s' l]. rewrite read_boxed. reflexivity.
Qed.

(** A decoder whose orientation is, as the documentation of the trait has it, the one in its Exif chunk is indistinguishable from itself in any number
    of boxes. *)
Theorem C70_provided_orientation : forall S (d : obj S), (forall s, o_orientation d s = default_orientation (o_exif d) s) ->
  forall n s cs buf, seen (in_boxes n d) s cs buf = seen d s cs buf.
Proof.
  intros S d H n s cs buf. unfold seen.
  assert (E : history (in_boxes n d) s cs = history d s cs).
  { revert s. induction cs as [|c cs IH]; intros s; [reflexivity|]. cbn [history].
    assert (A : ask (in_boxes n d) s c = ask d s c).
    { destruct c; try (apply ask_boxed; discriminate). destruct n; [reflexivity|]. unfold ask. rewrite orient_boxed, <- H. reflexivity. }
    rewrite A. destruct (ask d s c) as [s' a]. rewrite IH. reflexivity. }
  rewrite E. destruct (history d s cs) as [s' l]. rewrite read_boxed. reflexivity.
Qed.

(** JPEG and WebP override orientation to cache it: in any number of boxes and without one, after any calls, the answers are the same, and
    orientation is that of the Exif chunk of the file. *)
Theorem C70_cached_orientation : forall S (rest : obj S) exif n s cs buf,
  seen (in_boxes n (with_cache rest exif)) (s, None) cs buf = seen (with_cache rest exif) (s, None) cs buf /\
  (forall pre, snd (o_orientation (in_boxes n (with_cache rest exif)) (fst (history (in_boxes n (with_cache rest exif)) (s, None) pre))) =
     match exif with
     | Ok chunk => Ok (match chunk with Some c => match from_exif_chunk c with Some o => o | None => NoTransforms end | None => NoTransforms end)
     | Err e => Err e
     | Panic => Panic
     end).
Proof.
  intros S rest exif n s cs buf. set (d := with_cache rest exif).
  set (inv := fun st : S * option orientation => match exif with Ok e => snd st = None \/ snd st = Some (cached_orientation e) | _ => snd st = None end).
  assert (O : forall st, inv st -> o_orientation d st = default_orientation (o_exif d) st).
  { intros [x c] I. unfold inv in I. cbn [snd] in I. unfold default_orientation, d, with_cache. cbn [o_orientation o_exif fst snd mstep].
    destruct exif as [e|e|]; cbn [exif_metadata].
    - destruct I as [-> | ->]; reflexivity.
    - rewrite I. reflexivity.
    - rewrite I. reflexivity. }
  assert (ST : forall st c, inv st -> inv (fst (ask d st c))).
  { intros [x c] k I. assert (X : forall y, inv (y, c)) by (intros y; exact I).
    destruct k; try exact I; unfold ask, d, with_cache; cbn [o_icc o_exif o_orientation o_set_limits fst snd].
    - destruct (o_icc rest x). cbn [fst snd]. apply X.
    - unfold inv in I |- *. cbn [snd] in I. destruct exif; cbn [exif_metadata fst snd]; auto.
    - unfold inv in I |- *. cbn [snd] in I. cbn [mstep]. destruct c as [o|]; [exact I|]. destruct exif; cbn [exif_metadata fst snd]; auto.
    - destruct (o_set_limits rest x l). cbn [fst snd]. apply X. }
  assert (A : forall st c, inv st -> ask (in_boxes n d) st c = ask d st c).
  { intros st c I. destruct c; try (apply ask_boxed; discriminate). destruct n; [reflexivity|]. unfold ask. rewrite orient_boxed, <- O by exact I. reflexivity. }
  assert (H : forall l st, inv st -> history (in_boxes n d) st l = history d st l /\ inv (fst (history d st l))).
  { induction l as [|c l IH]; intros st I; [split; [reflexivity|exact I]|]. cbn [history]. rewrite A by exact I. specialize (ST st c I).
    destruct (ask d st c) as [s' a]. cbn [fst] in ST. destruct (IH s' ST) as [E F]. rewrite E. destruct (history d s' l) as [s'' r].
    split; [reflexivity|exact F]. }
  assert (I0 : inv (s, None)) by (unfold inv; destruct exif; auto).
  split.
  - unfold seen. rewrite (proj1 (H cs _ I0)). destruct (history d (s, None) cs). rewrite read_boxed. reflexivity.
  - intros pre. destruct (H pre _ I0) as [E F]. rewrite E. set (st := fst (history d (s, None) pre)) in *.
    assert (K : o_orientation (in_boxes n d) st = default_orientation (o_exif d) st) by (destruct n; [apply O; exact F|apply orient_boxed]).
    rewrite K. unfold default_orientation, d, with_cache. cbn [o_exif fst snd]. destruct exif as [e|e|]; cbn [exif_metadata bind snd]; try reflexivity.
    destruct e; reflexivity.
Qed.

(** TIFF, without a box: orientation is the value of the Orientation tag, if it is one of the eight; a missing or senseless value is no
    transformation; an unreadable directory is an error. *)
Theorem C70_tiff_orientation : forall I (tag : I -> res (option (option Z))) icc rest i,
  (forall o, o_orientation (tiff_obj tag icc rest) (Some i) = (Some i, Ok o) <->
     (tag i = Ok (Some (Some (to_exif o))) \/
      (o = NoTransforms /\ exists v, tag i = Ok v /\ forall n, v = Some (Some n) -> ~ 1 <= n <= 8))) /\
  (forall e, tag i = Err e -> o_orientation (tiff_obj tag icc rest) (Some i) = (Some i, Err e)).
Proof.
  intros I tag icc rest i. split.
  - intros o. unfold tiff_obj. cbn [o_orientation tiff_orientation]. split.
    + destruct (tag i) as [v|e|]; cbn [bind]; [|discriminate|discriminate]. intros H. injection H as H.
      destruct v as [[n|]|]; cbn [obind] in H.
      * assert (C : 1 <= n <= 8 \/ ~ 1 <= n <= 8) by lia. destruct C as [C|C].
        -- left. do 3 f_equal. assert (n = 1 \/ n = 2 \/ n = 3 \/ n = 4 \/ n = 5 \/ n = 6 \/ n = 7 \/ n = 8) as D by lia.
           destruct D as [->|[->|[->|[->|[->|[->|[->| ->]]]]]]]; subst o; reflexivity.
        -- right. assert (F : from_exif (Z.min n 255) = None).
           { unfold from_exif. repeat (match goal with |- (if ?a =? ?b then _ else _) = _ => replace (a =? b) with false by lia end). reflexivity. }
           rewrite F in H. split; [congruence|]. eexists. split; [reflexivity|]. intros m E. injection E as <-. exact C.
      * right. split; [congruence|]. eexists. split; [reflexivity|]. discriminate.
      * right. split; [congruence|]. eexists. split; [reflexivity|]. discriminate.
    + intros [T|(-> & v & T & N)]; rewrite T; cbn [bind obind].
      * destruct o; reflexivity.
      * destruct v as [[n|]|]; try reflexivity. cbn [obind]. specialize (N n eq_refl).
        assert (F : from_exif (Z.min n 255) = None).
        { unfold from_exif. repeat (match goal with |- (if ?a =? ?b then _ else _) = _ => replace (a =? b) with false by lia end). reflexivity. }
        rewrite F. reflexivity.
  - intros e E. unfold tiff_obj. cbn [o_orientation tiff_orientation]. rewrite E. reflexivity.
Qed.

(** In a box, and so for every decoder that ImageReader returns, a TIFF has no orientation, whatever its tag says: a picture stored sideways is
    reported as upright, and an unreadable tag goes unnoticed. *)
Theorem C70_tiff_boxed_refuted : forall I (tag : I -> res (option (option Z))) icc rest n st,
  o_orientation (in_boxes (Datatypes.S n) (tiff_obj tag icc rest)) st = (st, Ok NoTransforms).
Proof. intros. rewrite orient_boxed. reflexivity. Qed.
(** what ImageReader::into_decoder returns behaves as the decoder in a box after set_limits; for TIFF the box loses the tag, and nothing else *)
Theorem C70_reader : forall I (tag : I -> res (option (option Z))) icc rest i l d st,
  reader_decoder (Ok (tiff_obj tag icc rest, Some i)) l = Ok (d, st) ->
  o_set_limits rest (Some i) l = (st, Ok tt) /\
  (forall cs buf, ~ In Orient cs -> seen d st cs buf = seen (tiff_obj tag icc rest) st cs buf) /\
  snd (o_orientation d st) = Ok NoTransforms /\
  (snd (o_orientation d st) = snd (o_orientation (tiff_obj tag icc rest) st) <->
     (st = None \/ exists j, st = Some j /\ exists v, tag j = Ok v /\ forall n, v = Some (Some n) -> ~ 2 <= n <= 8)).
Proof.
  intros I tag icc rest i l d st H. unfold reader_decoder in H. cbn [bind boxed o_set_limits tiff_obj] in H.
  destruct (o_set_limits rest (Some i) l) as [s' r]. destruct r as [[]|e|]; cbn [bind] in H; [|discriminate|discriminate].
  injection H as Hd Hs. subst s'. subst d. split; [reflexivity|].
  change (boxed (tiff_obj tag icc rest)) with (in_boxes 1 (tiff_obj tag icc rest)).
  split; [intros cs buf N; apply C70_forwards; exact N|].
  assert (B : o_orientation (in_boxes 1 (tiff_obj tag icc rest)) st = (st, Ok NoTransforms)) by apply C70_tiff_boxed_refuted.
  rewrite B. split; [reflexivity|]. cbn [snd tiff_obj o_orientation]. destruct st as [j|].
  - destruct (proj1 (C70_tiff_orientation I tag icc rest j) NoTransforms) as [P Q]. cbn [tiff_obj o_orientation] in P, Q. split.
    + intros E. right. exists j. split; [reflexivity|]. rewrite <- E in P. specialize (P eq_refl). destruct P as [P|(_ & v & P & N)].
      * eexists. split; [exact P|]. intros n X. injection X as <-. cbn. lia.
      * exists v. split; [exact P|]. intros n X. specialize (N n X). lia.
    + intros [X|(j' & X & v & T & N)]; [discriminate|]. injection X as <-.
      assert (K : tag j = Ok (Some (Some (to_exif NoTransforms))) \/
                  (NoTransforms = NoTransforms /\ exists v, tag j = Ok v /\ forall n, v = Some (Some n) -> ~ 1 <= n <= 8)).
      { destruct v as [[n|]|].
        - destruct (Z.eq_dec n 1) as [->|D]; [left; exact T|]. right. split; [reflexivity|]. eexists. split; [exact T|].
          intros m E. injection E as <-. specialize (N n eq_refl). lia.
        - right. split; [reflexivity|]. eexists. split; [exact T|]. discriminate.
        - right. split; [reflexivity|]. eexists. split; [exact T|]. discriminate. }
      specialize (Q K). injection Q as Q. symmetry. exact Q.
  - split; [intros _; left; reflexivity|]. intros _. reflexivity.
Qed.

Definition c70_theorems := (C70_forwards, C70_provided_orientation, C70_cached_orientation, C70_tiff_orientation, C70_tiff_boxed_refuted, C70_reader).
Print Assumptions c70_theorems.

(** non-vacuity: a 3x2 picture stored with the tag "rotate by 90 degrees" (6), directly and through ImageReader; a cached JPEG orientation *)
Definition c70_rest {S} (x : S -> S) : obj S :=
  mkObj (fun _ => (3, 2)) (fun _ => CL8) (fun _ => XL8) default_none default_none (default_orientation default_none)
    (default_total (fun _ => (3, 2)) (fun _ => CL8)) (fun s l => let '(_, r) := default_set_limits_obj (fun _ => (3, 2)) s l in (x s, r)) (fun _ b => Ok b).
Definition c70_tiff : obj (option unit) := tiff_obj (fun _ => Ok (Some (Some 6))) (fun _ => None) (c70_rest (fun s => s)).
Example C70_ex_tiff : exists d st, reader_decoder (Ok (c70_tiff, Some tt)) limits_default = Ok (d, st) /\
  o_orientation c70_tiff (Some tt) = (Some tt, Ok Rotate90) /\ o_orientation d st = (st, Ok NoTransforms) /\
  fst (seen d st [Dims; Orient; Total] []) = [ADims (3, 2); AOrient (Ok NoTransforms); ATotal (Ok 6)].
Proof. eexists. eexists. split; [reflexivity|]. repeat split; reflexivity. Qed.
(** an Exif chunk with the orientation 6 *)
Definition c70_exif : list Z := [73; 73; 42; 0; 8; 0; 0; 0; 1; 0; 18; 1; 3; 0; 1; 0; 0; 0; 6; 0; 0; 0].
Example C70_ex_cached :
  fst (seen (in_boxes 2 (with_cache (c70_rest (fun s : unit => s)) (Ok (Some c70_exif)))) (tt, None) [Orient; Exif; Orient] []) =
    [AOrient (Ok Rotate90); AExif (Ok (Some c70_exif)); AOrient (Ok Rotate90)].
Proof. reflexivity. Qed.
