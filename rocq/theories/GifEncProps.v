(** C71: the GIF encoder across calls.  In every statement [quant] is whatever the gif crate's quantiser does and [fate] says which of the crate's
    operations fail, and how; the log lists the operations in order with their outcomes. *)
From Verif Require Import Base BaseLemmas GenImage ColorType Delay Gif GifEnc GifEncSpec GifEncProofs.
From Coq Require Import Lia.
Local Open Scope Z_scope.

(** If nothing fails: repetition counts are set before the first picture, then pictures and further repetition counts follow in any order.  The file
    has one header with the first picture's size, the last repetition count set, then everything asked for in the order asked, then the trailer. *)
Theorem C71_faultless : forall (X : Type) (quant : bool -> Z -> Z -> Z -> list Z -> X) fate speed pre c post,
  (forall n, fate n = None) -> 1 <= speed <= 30 ->
  Forall (fun c => exists r, c = CRepeat r) pre -> drawable c -> Forall (fun c => drawable c \/ exists r, c = CRepeat r) post ->
  session quant fate speed (pre ++ c :: post) =
  Ok (map (fun o => (o, None))
        (Header (fst (size_of c)) (snd (size_of c)) :: last_repeat pre ++ asked quant speed c ++ flat_map (shown quant speed) post ++ [Trailer]),
      map (fun _ => Ok tt) (pre ++ c :: post)).
Proof. intros. now apply faultless. Qed.

(** Whatever fails: the pictures in the file are those of the calls that returned Ok, in order *)
Theorem C71_pictures : forall (X : Type) (quant : bool -> Z -> Z -> Z -> list Z -> X) fate speed cs log rs,
  Forall honest cs -> session quant fate speed cs = Ok (log, rs) ->
  pictures log = flat_map (asked quant speed) (accepted cs rs).
Proof.
  intros X quant fate speed cs log rs H E. unfold session, new_with_speed in E. destruct (_ && _); cbn [bind] in E; [|discriminate].
  destruct (run quant fate _ cs) as [[e l] rs'] eqn:R. injection E as <- <-.
  destruct (run_inv quant fate cs (mkE true false speed None, []) _ _ (or_introl (conj eq_refl (conj eq_refl eq_refl))) H R) as (_ & new & L & P & _).
  cbn [fst snd app e_speed] in L, P. subst l. destruct (e_encoder e); [|exact P]. unfold drop_encoder. rewrite pictures_app, P. apply app_nil_r.
Qed.

(** Whatever fails, and whatever the caller does: nothing is written, or the start failed, or the file is a header of the first picture's size, at most
    one repetition count, that picture, any pictures and repetition counts, and the trailer *)
Theorem C71_shape : forall (X : Type) (quant : bool -> Z -> Z -> Z -> list Z -> X) fate speed cs log rs,
  Forall honest cs -> session quant fate speed cs = Ok (log, rs) ->
  log = [] \/ (exists w h e, log = [(Header w h, Some e)]) \/
  (exists w h r e, log = [(Header w h, None); (Repetitions r, Some e); (Trailer, None)]) \/
  (exists f x o pre rest, log = (Header (g_w f) (g_h f), None) :: pre ++ (Picture f x, o) :: rest ++ [(Trailer, None)] /\
     (pre = [] \/ exists r, pre = [(Repetitions r, None)]) /\
     Forall (fun p => match fst p with Repetitions _ | Picture _ _ => True | _ => False end) rest).
Proof.
  intros X quant fate speed cs log rs H E. unfold session, new_with_speed in E. destruct (_ && _); cbn [bind] in E; [|discriminate].
  destruct (run quant fate _ cs) as [[e l] rs'] eqn:R. injection E as <- <-.
  destruct (run_inv quant fate cs (mkE true false speed None, []) _ _ (or_introl (conj eq_refl (conj eq_refl eq_refl))) H R) as (I & _).
  destruct I as [(W & N & L)|[(W & N & L)|(W & N & f & x & o & pre & rest & L & Q & M)]]; cbn [fst snd] in *; rewrite N.
  - now left.
  - destruct L as [L|L]; auto.
  - right. right. right. exists f, x, o, pre, rest. subst l. unfold drop_encoder. cbn [app]. rewrite <- app_assoc. auto.
Qed.

(** A call that fails says so, and one that says Ok has had no failure *)
Theorem C71_reports : forall (X : Type) (quant : bool -> Z -> Z -> Z -> list Z -> X) fate speed cs c log rs log' rs',
  Forall honest cs -> honest c ->
  session quant fate speed cs = Ok (log, rs) -> ~ In Panic rs -> session quant fate speed (cs ++ [c]) = Ok (log', rs') ->
  exists r, rs' = rs ++ [r] /\
    match r with
    | Ok _ => forall o e, In (o, Some e) log' -> In (o, Some e) log
    | Err _ => True
    | Panic => log' = log
    end.
Proof.
  intros X quant fate speed cs c log rs log' rs' H Hc E NP E'. unfold session, new_with_speed in E, E'. destruct (_ && _); cbn [bind] in E, E'; [|discriminate].
  assert (R0 : forall (s : st X), run quant fate s (cs ++ [c]) =
     let '(s1, rs1) := run quant fate s cs in if existsb (fun r => match r with Panic => true | _ => false end) rs1 then (s1, rs1) else let '(s2, r) := step quant fate s1 c in (s2, rs1 ++ [r])).
  { clear. induction cs as [|d cs IH]; intros s; cbn [app run existsb].
    - destruct (step quant fate s c) as [s2 [| |]]; reflexivity.
    - destruct (step quant fate s d) as [s1 [[]|y|]]; [| |reflexivity].
      all: rewrite IH; destruct (run quant fate s1 cs) as [s2 rs2]; cbn [existsb orb]; destruct (existsb _ rs2); [reflexivity|]; destruct (step quant fate s2 c); reflexivity. }
  rewrite R0 in E'. destruct (run quant fate _ cs) as [[e1 l1] rs1] eqn:R1. injection E as <- <-.
  destruct (existsb _ rs1) eqn:B.
  { apply existsb_exists in B as (q & Q & T). destruct q; try discriminate. now destruct NP. }
  destruct (run_inv quant fate cs (mkE true false speed None, []) _ _ (or_introl (conj eq_refl (conj eq_refl eq_refl))) H R1) as (I1 & _).
  destruct (step quant fate (e1, l1) c) as [[e2 l2] r] eqn:S. injection E' as <- <-. exists r. split; [reflexivity|].
  destruct (step_inv quant fate _ _ _ _ I1 Hc S) as (I2 & _ & new & L & A & _ & K). cbn [fst snd] in *. destruct r as [[]|y|]; [|exact Logic.I|].
  - subst l2. intros o e Q. cbn [agrees] in A. unfold drop_encoder in *.
    assert (Q' : In (o, Some e) (l1 ++ new)). { destruct (e_encoder e2); [|exact Q]. apply in_app_iff in Q as [Q|[Q|[]]]; [exact Q|discriminate]. }
    apply in_app_iff in Q' as [Q'|Q'].
    + destruct (e_encoder e1); [apply in_app_iff; now left|exact Q'].
    + rewrite Forall_forall in A. apply A in Q'. discriminate.
  - cbn [agrees] in A. subst new. rewrite app_nil_r in L. subst l2. specialize (K eq_refl). destruct K as (_ & N1 & K). cbn [fst snd] in *. rewrite N1.
    destruct I2 as [(_ & N & _)|[(_ & N & _)|(_ & N & f & x & o & pre & rest & L & Q & _)]]; cbn [fst snd] in *; rewrite ?N; auto.
    exfalso. destruct K as [(w & h & q & T)|(w & h & rr & q & T)]; rewrite T in L; try discriminate. injection L as _ _ L. destruct Q as [->|(? & ->)]; discriminate.
Qed.

(** The error of a call is that of the operation that failed: its kind is kept *)
Theorem C71_error_kind : forall (X : Type) (quant : bool -> Z -> Z -> Z -> list Z -> X) fate s c s' log y,
  honest c -> (exists speed cs rs, Forall honest cs /\ 1 <= speed <= 30 /\ run quant fate (mkE true false speed None, []) cs = (s, rs)) ->
  step quant fate s c = (s', Err y) -> snd s' = log ->
  (exists a o t, (log = snd s ++ a ++ (o, Some GIo) :: t /\ y = EEof \/ log = snd s ++ a ++ (o, Some GFormat) :: t /\ y = EEncoding) /\
    Forall (fun p => snd p = None) a /\ (t = [] \/ t = [(Trailer, None)])) \/
  s' = s.
Proof.
  intros X quant fate s c s' log y Hc (speed & cs & rs & H & Sp & R) S <-.
  destruct (run_inv quant fate cs (mkE true false speed None, []) _ _ (or_introl (conj eq_refl (conj eq_refl eq_refl))) H R) as (I & _).
  destruct (step_inv quant fate _ _ _ _ I Hc S) as (_ & _ & new & L & A & _). cbn [agrees] in A. destruct A as [(a & o & e & t & N & F & T & Y)|N].
  - left. exists a, o, t. split; [|auto]. rewrite L, N. destruct e; subst y; auto.
  - right. subst new. rewrite app_nil_r in L. destruct s as [e l], s' as [e' l']. cbn [snd] in *. subst l'. f_equal.
    destruct c as [r|d w h c|a].
    + cbn [step] in S. unfold set_repeat, external in S. destruct (e_encoder e); [|discriminate]. destruct (fate (length l)); [|discriminate]. congruence.
    + rewrite step_handed in S by discriminate. destruct (handed _ _) as [[f x]|z|]; [|congruence..]. revert S. clear. intros S.
      unfold encode_gif, external in S. destruct (e_encoder e).
      * cbn [fst snd] in S. destruct (fate (length l)); congruence.
      * destruct (e_w e); [|congruence]. destruct (fate (length l)).
        -- injection S as _ S. exfalso. apply (f_equal (@length _)) in S. rewrite app_length in S. cbn [length] in S. lia.
        -- exfalso. destruct (e_repeat e).
           ++ destruct (fate (length (l ++ _))) in S; [injection S as _ S _; unfold drop_encoder in S; apply (f_equal (@length _)) in S; rewrite !app_length in S; cbn [length] in S; lia|].
              cbn [fst snd] in S. destruct (fate _) in S; [|discriminate]. injection S as _ S _. apply (f_equal (@length _)) in S. rewrite !app_length in S. cbn [length] in S. lia.
           ++ cbn [fst snd] in S. destruct (fate _) in S; [|discriminate]. injection S as _ S _. apply (f_equal (@length _)) in S. rewrite !app_length in S. cbn [length] in S. lia.
    + rewrite step_handed in S by discriminate. destruct (handed _ _) as [[f x]|z|]; [|congruence..]. revert S. clear. intros S.
      unfold encode_gif, external in S. destruct (e_encoder e).
      * cbn [fst snd] in S. destruct (fate (length l)); congruence.
      * destruct (e_w e); [|congruence]. destruct (fate (length l)).
        -- injection S as _ S. exfalso. apply (f_equal (@length _)) in S. rewrite app_length in S. cbn [length] in S. lia.
        -- exfalso. destruct (e_repeat e).
           ++ destruct (fate (length (l ++ _))) in S; [injection S as _ S _; unfold drop_encoder in S; apply (f_equal (@length _)) in S; rewrite !app_length in S; cbn [length] in S; lia|].
              cbn [fst snd] in S. destruct (fate _) in S; [|discriminate]. injection S as _ S _. apply (f_equal (@length _)) in S. rewrite !app_length in S. cbn [length] in S. lia.
           ++ cbn [fst snd] in S. destruct (fate _) in S; [|discriminate]. injection S as _ S _. apply (f_equal (@length _)) in S. rewrite !app_length in S. cbn [length] in S. lia.
Qed.

(** What a GIF cannot hold is refused, whatever has happened before, without touching the encoder or the file *)
Theorem C71_refused : forall (X : Type) (quant : bool -> Z -> Z -> Z -> list Z -> X) fate (s : st X),
  (forall data w h c, 65535 < w \/ 65535 < h -> encode quant fate s data w h c = (s, Err EParameter)) /\
  (forall data w h c, w <= 65535 -> h <= 65535 -> c <> XRgb8 -> c <> XRgba8 -> encode quant fate s data w h c = (s, Err EUnsupported)) /\
  (forall a, denom (a_delay a) <> 0 -> 65535 < iw (a_image a) \/ 65535 < ih (a_image a) -> encode_frame quant fate s a = (s, Err EParameter)).
Proof.
  intros X quant fate s. split; [|split].
  - intros data w h c H. unfold encode, gif_dimensions. change u16_max with 65535. now replace ((w <=? 65535) && (h <=? 65535)) with false by lia.
  - intros data w h c W H A B. unfold encode, gif_dimensions. change u16_max with 65535. replace ((w <=? 65535) && (h <=? 65535)) with true by lia.
    destruct c; congruence.
  - intros a D H. unfold encode_frame, to_gif_frame, to_integer, gif_dimensions. replace (denom (a_delay a) =? 0) with false by lia. cbn [bind].
    change u16_max with 65535. now replace ((iw (a_image a) <=? 65535) && (ih (a_image a) <=? 65535)) with false by lia.
Qed.

(** A call panics only after the header or the first repetition count could not be written *)
Theorem C71_panics : forall (X : Type) (quant : bool -> Z -> Z -> Z -> list Z -> X) fate speed cs log rs,
  Forall honest cs -> session quant fate speed cs = Ok (log, rs) -> In Panic rs ->
  (exists w h e, log = [(Header w h, Some e)]) \/ (exists w h r e, log = [(Header w h, None); (Repetitions r, Some e); (Trailer, None)]).
Proof.
  intros X quant fate speed cs log rs H E IP. unfold session, new_with_speed in E. destruct (_ && _); cbn [bind] in E; [|discriminate].
  destruct (run quant fate _ cs) as [[e l] rs'] eqn:R. injection E as <- <-.
  destruct (run_inv quant fate cs (mkE true false speed None, []) _ _ (or_introl (conj eq_refl (conj eq_refl eq_refl))) H R) as (_ & new & _ & _ & K).
  destruct (K IP) as (_ & N & L). cbn [fst snd] in *. now rewrite N.
Qed.
(** ... and then the next picture always does: an error of the first picture is not one a caller can go on from *)
Theorem C71_failed_start_refuted : forall (X : Type) (quant : bool -> Z -> Z -> Z -> list Z -> X) fate speed c d e,
  1 <= speed <= 30 -> drawable c -> drawable d -> fate 0%nat = Some e ->
  session quant fate speed [c; d] = Ok ([(Header (fst (size_of c)) (snd (size_of c)), Some e)], [Err (from_encoding e); Panic]).
Proof.
  intros X quant fate speed c d e S Hc Hd F. unfold session, new_with_speed. replace ((1 <=? speed) && (speed <=? 30)) with true by lia. cbn [bind run].
  destruct (drawable_handed quant speed c Hc) as (f & x & G & Z0 & _). rewrite step_handed by (intros r ->; exact Hc). cbn [fst e_speed]. rewrite G.
  unfold encode_gif, external. cbn [e_encoder e_w e_speed e_repeat length app fst snd]. rewrite F. rewrite <- Z0. cbn [fst snd].
  destruct (drawable_handed quant speed d Hd) as (f' & x' & G' & _ & _). rewrite step_handed by (intros r ->; exact Hd). cbn [fst e_speed]. rewrite G'.
  reflexivity.
Qed.

(** encode_frames is encode_frame on each frame up to the first that is not Ok; the frames after that are not taken *)
Theorem C71_frames : forall (X : Type) (quant : bool -> Z -> Z -> Z -> list Z -> X) fate fs (s s' : st X) r rest,
  encode_frames quant fate s fs = (s', r, rest) ->
  exists used, fs = used ++ rest /\
    (r = Ok tt -> rest = [] /\ run quant fate s (map CFrame fs) = (s', map (fun _ => Ok tt) fs)) /\
    (r <> Ok tt -> exists ok a, used = ok ++ [a] /\ run quant fate s (map CFrame used) = (s', map (fun _ => Ok tt) ok ++ [r])).
Proof.
  intros X quant fate fs. induction fs as [|a fs IH]; intros s s' r rest E; cbn [encode_frames] in E.
  - injection E as <- <- <-. exists []. split; [reflexivity|]. split; [intros _; split; reflexivity|intros []; reflexivity].
  - destruct (encode_frame quant fate s a) as [s1 r1] eqn:S. destruct r1 as [[]|y|].
    + destruct (IH _ _ _ _ E) as (used & -> & A & B). exists (a :: used). split; [reflexivity|]. split.
      * intros K. destruct (A K) as (-> & R). split; [reflexivity|]. cbn [map run step]. rewrite S. now rewrite R.
      * intros K. destruct (B K) as (ok & z & -> & R). exists (a :: ok), z. split; [reflexivity|]. cbn [map run step app]. rewrite S. now rewrite R.
    + injection E as <- <- <-. exists [a]. split; [reflexivity|]. split; [discriminate|]. intros _. exists [], a. split; [reflexivity|]. cbn [map run step]. now rewrite S.
    + injection E as <- <- <-. exists [a]. split; [reflexivity|]. split; [discriminate|]. intros _. exists [], a. split; [reflexivity|]. cbn [map run step]. now rewrite S.
Qed.
(** try_encode_frames: an Err item is returned as it is without further actions; up to there it is encode_frames *)
Theorem C71_try_frames : forall (X : Type) (quant : bool -> Z -> Z -> Z -> list Z -> X) fate fs (s : st X),
  try_encode_frames quant fate s (map Ok fs) = (let '(s', r, rest) := encode_frames quant fate s fs in (s', r, map Ok rest)) /\
  (forall y later s', encode_frames quant fate s fs = (s', Ok tt, []) ->
     try_encode_frames quant fate s (map Ok fs ++ Err y :: later) = (s', Err y, later)).
Proof.
  intros X quant fate fs. induction fs as [|a fs IH]; intros s; cbn [map app try_encode_frames encode_frames].
  - split; [reflexivity|]. intros y later s' E. now injection E as <-.
  - destruct (encode_frame quant fate s a) as [s1 [[]|y|]]; [apply IH| |].
    all: split; [reflexivity|]; intros; discriminate.
Qed.

(** Encoding no frames at all says Ok and leaves an empty file *)
Theorem C71_no_frames_refuted : forall (X : Type) (quant : bool -> Z -> Z -> Z -> list Z -> X) fate speed r,
  1 <= speed <= 30 ->
  encode_frames quant fate (mkE true false speed None, []) [] = ((mkE true false speed None, []), Ok tt, []) /\
  session quant fate speed [] = Ok ([], []) /\ session quant fate speed [CRepeat r] = Ok ([], [Ok tt]).
Proof.
  intros X quant fate speed r S. unfold session, new_with_speed. replace ((1 <=? speed) && (speed <=? 30)) with true by lia. repeat split.
Qed.
(** A frame's position does not reach the file *)
Theorem C71_position_refuted : forall (X : Type) (quant : bool -> Z -> Z -> Z -> list Z -> X) fate (s : st X) l t l' t' d im,
  encode_frame quant fate s (mkAnim l t d im) = encode_frame quant fate s (mkAnim l' t' d im).
Proof. reflexivity. Qed.
(** The speed given at construction has no effect on single images *)
Theorem C71_speed_refuted : forall (X : Type) (quant : bool -> Z -> Z -> Z -> list Z -> X) fate speed speed' data w h c,
  1 <= speed <= 30 -> 1 <= speed' <= 30 ->
  session quant fate speed [CEncode data w h c] = session quant fate speed' [CEncode data w h c].
Proof.
  intros X quant fate speed speed' data w h c A B. unfold session, new_with_speed.
  replace ((1 <=? speed) && (speed <=? 30)) with true by lia. replace ((1 <=? speed') && (speed' <=? 30)) with true by lia. cbn [bind run step].
  unfold encode. destruct (gif_dimensions w h) as [[w' h']|y|]; [|reflexivity..].
  assert (Q : forall f (x : X), exists l r e1 e2, encode_gif fate (mkE true false speed None, []) f x = ((e1, l), r) /\ encode_gif fate (mkE true false speed' None, []) f x = ((e2, l), r) /\ e_encoder e1 = e_encoder e2).
  { intros f x. unfold encode_gif, external. cbn [e_encoder e_w e_speed e_repeat length app fst snd].
    destruct (fate 0%nat); [repeat eexists|]. cbn [fst snd length]. destruct (fate 1%nat); repeat eexists. }
  destruct c; try reflexivity; unfold frame_from; destruct (_ =? _); try reflexivity;
    match goal with |- context [encode_gif fate (mkE true false speed None, []) ?f ?x] => destruct (Q f x) as (l & r & e1 & e2 & -> & -> & N) end;
    destruct r; now rewrite N.
Qed.
(** A speed outside 1..30 panics *)
Theorem C71_speed_range : forall (X : Type) (quant : bool -> Z -> Z -> Z -> list Z -> X) fate speed cs,
  session quant fate speed cs = Panic <-> ~ 1 <= speed <= 30.
Proof.
  intros X quant fate speed cs. unfold session, new_with_speed. destruct (_ && _) eqn:E; cbn [bind].
  - destruct (run _ _ _ _) as [[e l] rs]. split; [discriminate|lia].
  - split; [lia|reflexivity].
Qed.

(** A later picture may exceed the screen that the header declares: 1x1 first, then 2x1 *)
Example C71_screen : let quant := fun (_ : bool) (_ w h : Z) (_ : list Z) => w * h in
  session quant (fun _ => None) 10 [CRepeat Infinite; CEncode [1; 2; 3] 1 1 XRgb8; CFrame (mkAnim 5 6 (mkRatio 45 2) (mkImg 2 1 [[1; 2; 3; 4]; [5; 6; 7; 8]]))] =
  Ok ([(Header 1 1, None); (Repetitions Infinite, None); (Picture (mkG 0 0 1 1 GBackground 0) 1, None);
       (Picture (mkG 0 0 2 1 GBackground 2) 2, None); (Trailer, None)], [Ok tt; Ok tt; Ok tt]).
Proof. vm_compute. reflexivity. Qed.
Theorem C71_screen_refuted : forall (X : Type) (quant : bool -> Z -> Z -> Z -> list Z -> X) speed c d,
  1 <= speed <= 30 -> drawable c -> drawable d ->
  exists log, session quant (fun _ => None) speed [c; d] = Ok (log, [Ok tt; Ok tt]) /\
    In (Header (fst (size_of c)) (snd (size_of c)), None) log /\
    exists f x, In (Picture f x, None) log /\ (g_w f, g_h f) = size_of d.
Proof.
  intros X quant speed c d S Hc Hd. eexists. split; [apply (faultless quant (fun _ => None) (fun _ => eq_refl) speed [] c [d] S)|].
  - constructor.
  - exact Hc.
  - constructor; [now left|constructor].
  - destruct (drawable_handed quant speed d Hd) as (f & x & _ & Z0 & A). split; [now left|]. exists (mkG (g_left f) (g_top f) (g_w f) (g_h f) GBackground (g_delay f)), x.
    split; [|exact Z0]. right. cbn [app flat_map last_repeat]. unfold last_repeat. cbn [flat_map rev app]. rewrite map_app. apply in_app_iff. right. cbn [flat_map].
    replace (shown quant speed d) with (asked quant speed d) by (destruct d; [destruct Hd|reflexivity..]). rewrite A. now left.
Qed.
(** the hypotheses are met *)
Example C71_honest : honest (CEncode [1; 2; 3] 1 1 XRgb8) /\ drawable (CEncode [1; 2; 3] 1 1 XRgb8) /\
  drawable (CFrame (mkAnim 5 6 (mkRatio 45 2) (mkImg 2 1 [[1; 2; 3; 4]; [5; 6; 7; 8]]))).
Proof. cbn. unfold zlen. cbn. lia. Qed.
(** a schedule in which the second picture fails: the file has the first and the third *)
Example C71_fault : let quant := fun (_ : bool) (_ w h : Z) (d : list Z) => d in
  session quant (fun n => if Nat.eqb n 2 then Some GIo else None) 1 [CEncode [1; 2; 3] 1 1 XRgb8; CEncode [4; 5; 6] 1 1 XRgb8; CEncode [7; 8; 9] 1 1 XRgb8] =
  Ok ([(Header 1 1, None); (Picture (mkG 0 0 1 1 GBackground 0) [1; 2; 3], None); (Picture (mkG 0 0 1 1 GBackground 0) [4; 5; 6], Some GIo);
       (Picture (mkG 0 0 1 1 GBackground 0) [7; 8; 9], None); (Trailer, None)], [Ok tt; Err EEof; Ok tt]).
Proof. vm_compute. reflexivity. Qed.

Definition C71_all := (C71_faultless, C71_pictures, C71_shape, C71_reports, C71_error_kind, C71_refused, C71_panics, C71_failed_start_refuted, C71_frames,
  C71_try_frames, C71_no_frames_refuted, C71_position_refuted, C71_speed_refuted, C71_speed_range, C71_screen_refuted).
Print Assumptions C71_all.
