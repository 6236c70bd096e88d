From Verif Require Import Base BaseLemmas GenImage ColorType Delay Gif GifEnc GifEncSpec.
From Coq Require Import Lia.
Local Open Scope Z_scope.

Section P.
Context {X : Type}.
Variable quant : bool -> Z -> Z -> Z -> list Z -> X.
Variable fate : nat -> option gerr.

Lemma done_app (a b : oplog X) : done (a ++ b) = done a ++ done b.
Proof. unfold done. now rewrite filter_app, map_app. Qed.
Lemma pictures_app (a b : oplog X) : pictures (a ++ b) = pictures a ++ pictures b.
Proof. unfold pictures. now rewrite done_app, filter_app. Qed.

(** ** What one call does *)
(** the picture, before disposal is set, that a call hands to the crate *)
Definition handed (speed : Z) (c : call) : res (gframe * X) :=
  match c with
  | CRepeat _ => Err EParameter
  | CEncode data w h c =>
    match gif_dimensions w h with
    | Ok (w, h) => match c with XRgb8 => frame_from quant false 1 w h data | XRgba8 => frame_from quant true 1 w h data | _ => Err EUnsupported end
    | Err y => Err y
    | Panic => Panic
    end
  | CFrame a => to_gif_frame quant speed a
  end.
Lemma step_handed (s : st X) c : (forall r, c <> CRepeat r) ->
  step quant fate s c = match handed (e_speed (fst s)) c with
                        | Ok (f, x) => encode_gif fate s f x
                        | Err y => (s, Err y)
                        | Panic => (s, Panic)
                        end.
Proof.
  intros H. destruct c as [r|d w h c|a]; [now destruct (H r)| |reflexivity]. cbn [step handed]. unfold encode.
  destruct (gif_dimensions w h) as [[w' h']|y|]; [|reflexivity..]. destruct c; reflexivity.
Qed.
Lemma handed_asked speed c f x : handed speed c = Ok (f, x) ->
  asked quant speed c = [Picture (mkG (g_left f) (g_top f) (g_w f) (g_h f) GBackground (g_delay f)) x] \/ (match c with CFrame a => ~ (0 <= numer (a_delay a) /\ 0 < denom (a_delay a)) | _ => False end).
Proof.
  destruct c as [r|d w h c|a]; cbn [handed]; [discriminate| |].
  - unfold gif_dimensions. destruct ((w <=? u16_max) && (h <=? u16_max)); [|discriminate].
    destruct c; try discriminate; unfold frame_from; destruct (_ =? _); try discriminate; intros [= <- <-]; left; reflexivity.
  - unfold to_gif_frame, to_integer, gif_dimensions, frame_from.
    destruct (denom (a_delay a) =? 0) eqn:D; cbn [bind]; [discriminate|]. destruct (_ && _); cbn [bind]; [|discriminate].
    destruct (zlen (concat _) =? _); cbn [bind]; [|discriminate]. intros [= <- <-].
    destruct (Z_le_dec 0 (numer (a_delay a))); [|right; tauto]. destruct (Z_lt_dec 0 (denom (a_delay a))); [left|right; tauto].
    cbn [g_left g_top g_w g_h g_delay asked]. unfold hundredths. rewrite Z.div_div by lia. change u16_max with 65535. rewrite (Z.mul_comm (denom _) 10).
    destruct (_ <=? 65535) eqn:L; f_equal; f_equal; f_equal; lia.
Qed.

(** ** The shape of the log *)
Definition middle (o : op X) : Prop := match o with Repetitions _ | Picture _ _ => True | _ => False end.
Definition fresh (s : st X) : Prop := e_w (fst s) = true /\ e_encoder (fst s) = false /\ snd s = [].
Definition lost (s : st X) : Prop := e_w (fst s) = false /\ e_encoder (fst s) = false /\
  ((exists w h e, snd s = [(Header w h, Some e)]) \/ (exists w h r e, snd s = [(Header w h, None); (Repetitions r, Some e); (Trailer, None)])).
Definition running (s : st X) : Prop := e_w (fst s) = false /\ e_encoder (fst s) = true /\
  exists f x o pre rest, snd s = (Header (g_w f) (g_h f), None) :: pre ++ (Picture f x, o) :: rest /\
    (pre = [] \/ exists r, pre = [(Repetitions r, None)]) /\ Forall (fun p => middle (fst p)) rest.
Definition inv (s : st X) : Prop := fresh s \/ lost s \/ running s.

(** the new entries of the log and the result agree *)
Definition agrees (new : oplog X) (r : res unit) : Prop :=
  match r with
  | Ok _ => Forall (fun p => snd p = None) new
  | Err y => (exists a o e t, new = a ++ (o, Some e) :: t /\ Forall (fun p => snd p = None) a /\ (t = [] \/ t = [(Trailer, None)]) /\ y = from_encoding e)
             \/ new = []
  | Panic => new = []
  end.

Lemma running_app (e e' : enc) (l : oplog X) p : running (e, l) -> e_w e' = false -> e_encoder e' = true -> middle (fst p) -> running (e', l ++ [p]).
Proof.
  intros (_ & _ & f & x & o & pre & rest & L & P & R) W E M. cbn [snd] in L. split; [exact W|split; [exact E|]].
  exists f, x, o, pre, (rest ++ [p]). cbn [snd]. split; [|split; [exact P|]].
  - rewrite L. cbn [app]. now rewrite <- app_assoc.
  - apply Forall_app. split; [exact R|]. now constructor.
Qed.

Lemma encode_gif_inv (s : st X) f x s' r : inv s -> encode_gif fate s f x = (s', r) ->
  inv s' /\ e_speed (fst s') = e_speed (fst s) /\
  exists new, snd s' = snd s ++ new /\ agrees new r /\
    pictures new = (match r with Ok _ => [Picture (mkG (g_left f) (g_top f) (g_w f) (g_h f) GBackground (g_delay f)) x] | _ => [] end) /\
    (r = Panic <-> lost s).
Proof.
  intros I E. destruct s as [e l]. unfold encode_gif, external in E. cbn [fst snd] in *.
  destruct I as [(W & N & L)|[(W & N & L)|R]]; cbn [fst snd] in *.
  - rewrite W, N in E. subst l. cbn [length app] in E. destruct (fate 0) as [y|].
    + injection E as <- <-. cbn [fst snd e_speed]. split; [right; left; split; [reflexivity|split; [reflexivity|left; repeat eexists]]|split; [reflexivity|]].
      eexists. split; [reflexivity|]. split; [left; exists [], (Header (g_w f) (g_h f)), y, []; repeat split; auto|split; [reflexivity|]].
      split; [discriminate|]. intros (? & ? & ?). cbn [fst] in *. congruence.
    + destruct (e_repeat e) as [rr|].
      * cbn [length app] in E. destruct (fate 1) as [y|].
        -- injection E as <- <-. cbn [fst snd e_speed]. split; [right; left; split; [reflexivity|split; [reflexivity|right; repeat eexists]]|split; [reflexivity|]].
           unfold drop_encoder. cbn [app]. eexists. split; [reflexivity|]. split; [left; exists [(Header (g_w f) (g_h f), None)], (Repetitions rr), y, [(Trailer, None)]; repeat split; auto|split; [reflexivity|]].
           split; [discriminate|]. intros (? & ? & ?). cbn [fst] in *. congruence.
        -- cbn [fst snd length app] in E. destruct (fate 2) as [y|] eqn:F2; injection E as <- <-; cbn [fst snd e_speed];
           (split; [right; right; split; [reflexivity|split; [reflexivity|]]; cbn [snd]; eexists (mkG (g_left f) (g_top f) (g_w f) (g_h f) GBackground (g_delay f)), x, _, [(Repetitions rr, None)], []; split; [reflexivity|split; [right; eauto|constructor]]|split; [reflexivity|]]).
           ++ eexists. split; [reflexivity|]. split; [left; exists [(Header (g_w f) (g_h f), None); (Repetitions rr, None)]; do 3 eexists; split; [reflexivity|split; [repeat constructor|split; [left; reflexivity|reflexivity]]]|split; [reflexivity|]].
              split; [discriminate|]. intros (? & ? & ?). cbn [fst] in *. congruence.
           ++ eexists. split; [reflexivity|]. split; [repeat constructor|split; [reflexivity|]].
              split; [discriminate|]. intros (? & ? & ?). cbn [fst] in *. congruence.
      * cbn [fst snd length app] in E. destruct (fate 1) as [y|]; injection E as <- <-; cbn [fst snd e_speed];
           (split; [right; right; split; [reflexivity|split; [reflexivity|]]; cbn [snd]; eexists (mkG (g_left f) (g_top f) (g_w f) (g_h f) GBackground (g_delay f)), x, _, [], []; split; [reflexivity|split; [left; reflexivity|constructor]]|split; [reflexivity|]]).
           ++ eexists. split; [reflexivity|]. split; [left; exists [(Header (g_w f) (g_h f), None)]; do 3 eexists; split; [reflexivity|split; [repeat constructor|split; [left; reflexivity|reflexivity]]]|split; [reflexivity|]].
              split; [discriminate|]. intros (? & ? & ?). cbn [fst] in *. congruence.
           ++ eexists. split; [reflexivity|]. split; [repeat constructor|split; [reflexivity|]].
              split; [discriminate|]. intros (? & ? & ?). cbn [fst] in *. congruence.
  - rewrite W, N in E. injection E as <- <-. split; [right; left; now repeat split|split; [reflexivity|]]. exists []. rewrite app_nil_r.
    split; [reflexivity|split; [reflexivity|split; [reflexivity|]]]. split; [intros _; now repeat split|reflexivity].
  - pose proof R as (W & N & _). cbn [fst] in W, N. rewrite N in E. cbn [fst snd] in E.
    destruct (fate (length l)) as [y|]; injection E as <- <-; cbn [fst snd].
    + split; [right; right; eapply running_app; eauto; exact I|split; [reflexivity|]]. eexists. split; [reflexivity|].
      split; [left; exists []; do 3 eexists; split; [reflexivity|split; [constructor|split; [left; reflexivity|reflexivity]]]|split; [reflexivity|]].
      split; [discriminate|]. intros (_ & Q & _). cbn [fst] in *. congruence.
    + split; [right; right; eapply running_app; eauto; exact I|split; [reflexivity|]]. eexists. split; [reflexivity|].
      split; [repeat constructor|split; [reflexivity|]].
      split; [discriminate|]. intros (_ & Q & _). cbn [fst] in *. congruence.
Qed.

Lemma handed_panic speed c : honest c -> handed speed c <> Panic.
Proof.
  destruct c as [r|d w h c|a]; cbn [handed honest]; [discriminate| |].
  - unfold gif_dimensions. destruct (_ && _); [|discriminate]. unfold frame_from.
    destruct c; intros H; try discriminate; rewrite H, Z.eqb_refl; discriminate.
  - intros (L & N & D). unfold to_gif_frame, to_integer, gif_dimensions, frame_from. replace (denom (a_delay a) =? 0) with false by lia. cbn [bind].
    destruct (_ && _); cbn [bind]; [|discriminate]. rewrite L, Z.eqb_refl. cbn [bind]. discriminate.
Qed.

Lemma step_inv (s : st X) c s' r : inv s -> honest c -> step quant fate s c = (s', r) ->
  inv s' /\ e_speed (fst s') = e_speed (fst s) /\
  exists new, snd s' = snd s ++ new /\ agrees new r /\
    pictures new = (match r with Ok _ => asked quant (e_speed (fst s)) c | _ => [] end) /\
    (r = Panic -> lost s).
Proof.
  intros I H E.
  destruct c as [r0|d w h c|a].
  - destruct s as [e l]. cbn [step fst snd] in *. unfold set_repeat, external in E. destruct (e_encoder e) eqn:N.
    + assert (R : running (e, l)). { destruct I as [(_ & Q & _)|[(_ & Q & _)|R]]; cbn [fst] in *; [congruence..|exact R]. }
      pose proof R as (W & _ & _). cbn [fst] in W.
      destruct (fate (length l)) as [y|]; injection E as <- <-; cbn [fst snd e_speed].
      * split; [right; right; eapply running_app; eauto; exact I|split; [reflexivity|]]. eexists. split; [reflexivity|].
        split; [left; exists []; do 3 eexists; split; [reflexivity|split; [constructor|split; [left; reflexivity|reflexivity]]]|split; [reflexivity|discriminate]].
      * split; [right; right; eapply running_app; eauto; exact I|split; [reflexivity|]]. eexists. split; [reflexivity|].
        split; [repeat constructor|split; [reflexivity|discriminate]].
    + injection E as <- <-. cbn [fst snd e_speed]. split; [|split; [reflexivity|exists []; rewrite app_nil_r; split; [reflexivity|split; [constructor|split; [reflexivity|discriminate]]]]].
      destruct I as [(W & _ & L)|[(W & _ & L)|(_ & Q & _)]]; cbn [fst snd] in *; [left|right; left|congruence]; repeat split; auto.
  - rewrite step_handed in E by discriminate. destruct (handed _ _) as [[f x]|y|] eqn:G.
    + destruct (handed_asked _ _ _ _ G) as [A|[]]. destruct (encode_gif_inv _ _ _ _ _ I E) as (I' & S & new & L & Q & P & K).
      split; [exact I'|split; [exact S|exists new]]. split; [exact L|split; [exact Q|split; [now rewrite A|now rewrite K]]].
    + injection E as <- <-. split; [exact I|split; [reflexivity|exists []]]. rewrite app_nil_r. split; [reflexivity|split; [now right|split; [reflexivity|discriminate]]].
    + now destruct (handed_panic _ _ H G).
  - rewrite step_handed in E by discriminate. destruct (handed _ _) as [[f x]|y|] eqn:G.
    + destruct (handed_asked _ _ _ _ G) as [A|B]; [|cbn [honest] in H; tauto].
      destruct (encode_gif_inv _ _ _ _ _ I E) as (I' & S & new & L & Q & P & K).
      split; [exact I'|split; [exact S|exists new]]. split; [exact L|split; [exact Q|split; [now rewrite A|now rewrite K]]].
    + injection E as <- <-. split; [exact I|split; [reflexivity|exists []]]. rewrite app_nil_r. split; [reflexivity|split; [now right|split; [reflexivity|discriminate]]].
    + now destruct (handed_panic _ _ H G).
Qed.

Lemma run_inv cs : forall (s : st X) s' rs, inv s -> Forall honest cs -> run quant fate s cs = (s', rs) ->
  inv s' /\ exists new, snd s' = snd s ++ new /\ pictures new = flat_map (asked quant (e_speed (fst s))) (accepted cs rs) /\
    (In Panic rs -> lost s').
Proof.
  induction cs as [|c cs IH]; intros s s' rs I H E; cbn [run] in E.
  - injection E as <- <-. split; [exact I|]. exists []. rewrite app_nil_r. split; [reflexivity|split; [reflexivity|intros []]].
  - inversion_clear H as [|? ? Hc Hs]. destruct (step quant fate s c) as [s1 r] eqn:Es.
    destruct (step_inv _ _ _ _ I Hc Es) as (I1 & S1 & n1 & L1 & A1 & P1 & K1).
    destruct r as [[]|y|].
    1,2: destruct (run quant fate s1 cs) as [s2 rs2] eqn:Er; injection E as <- <-;
      destruct (IH _ _ _ I1 Hs Er) as (I2 & n2 & L2 & P2 & K2); split; [exact I2|]; exists (n1 ++ n2); rewrite L2, L1, <- app_assoc;
      split; [reflexivity|]; rewrite pictures_app, P1, P2, S1; (split; [reflexivity|intros [|Q]; [discriminate|now apply K2]]).
    injection E as <- <-. split; [exact I1|]. exists n1. split; [exact L1|split; [rewrite P1; unfold accepted; cbn [combine filter snd map]; now rewrite combine_nil|]]. intros _.
    specialize (K1 eq_refl). cbn [agrees] in A1. subst n1. rewrite app_nil_r in L1.
    destruct I1 as [(W & N & L)|[Q|(W & N & f & x & o & pre & rest & L & Q & _)]]; [exfalso|exact Q|exfalso]; destruct K1 as (_ & _ & [(w & h & e & T)|(w & h & q & e & T)]); rewrite L1, T in L; try discriminate.
    injection L as _ _ L. destruct Q as [->|(? & ->)]; discriminate.
Qed.

Lemma drawable_handed speed c : drawable c -> exists f x, handed speed c = Ok (f, x) /\ (g_w f, g_h f) = size_of c /\
  asked quant speed c = [Picture (mkG (g_left f) (g_top f) (g_w f) (g_h f) GBackground (g_delay f)) x].
Proof.
  destruct c as [r|d w h c|a]; cbn [drawable]; [intros []| |].
  - destruct c; intros H; try contradiction; destruct H as (W & H & L); cbn [handed]; unfold gif_dimensions, frame_from;
      (replace ((w <=? u16_max) && (h <=? u16_max)) with true by (change u16_max with 65535; lia)); rewrite L, Z.eqb_refl; repeat eexists.
  - intros (W & H & L & N & D). cbn [handed]. unfold to_gif_frame, to_integer, gif_dimensions, frame_from.
    replace (denom (a_delay a) =? 0) with false by lia. cbn [bind].
    replace ((iw (a_image a) <=? u16_max) && (ih (a_image a) <=? u16_max)) with true by (change u16_max with 65535; lia). cbn [bind].
    rewrite L, Z.eqb_refl. cbn [bind]. do 2 eexists. split; [reflexivity|split; [reflexivity|]].
    cbn [g_left g_top g_w g_h g_delay asked]. unfold hundredths. rewrite Z.div_div by lia. change u16_max with 65535. rewrite (Z.mul_comm (denom _) 10).
    destruct (_ <=? 65535) eqn:K; f_equal; f_equal; f_equal; lia.
Qed.
Lemma drawable_honest c : drawable c -> honest c.
Proof. destruct c as [|? ? ? []|]; cbn [drawable honest]; tauto. Qed.

Hypothesis healthy : forall n, fate n = None.

Lemma run_running cs : forall (e : enc) (l : oplog X), e_encoder e = true -> Forall (fun c => drawable c \/ exists r, c = CRepeat r) cs ->
  exists e', e_encoder e' = true /\
    run quant fate (e, l) cs = ((e', l ++ map (fun o => (o, None)) (flat_map (shown quant (e_speed e)) cs)), map (fun _ => Ok tt) cs).
Proof.
  induction cs as [|c cs IH]; intros e l N H; cbn [run flat_map map].
  - exists e. rewrite app_nil_r. auto.
  - inversion_clear H as [|? ? [Hc|[r ->]] Hs].
    + destruct (drawable_handed (e_speed e) c Hc) as (f & x & G & S & A).
      rewrite step_handed by (intros r ->; exact Hc). cbn [fst]. rewrite G. unfold encode_gif, external. rewrite N. cbn [fst snd]. rewrite healthy.
      destruct (IH e (l ++ [(Picture (mkG (g_left f) (g_top f) (g_w f) (g_h f) GBackground (g_delay f)) x, None)]) N Hs) as (e' & N' & R).
      rewrite R. exists e'. split; [exact N'|]. f_equal. f_equal. rewrite <- app_assoc. f_equal.
      replace (shown quant (e_speed e) c) with (asked quant (e_speed e) c) by (destruct c; [destruct Hc|reflexivity..]). now rewrite A.
    + cbn [step]. unfold set_repeat, external. rewrite N, healthy.
      destruct (IH (mkE (e_w e) true (e_speed e) (Some r)) (l ++ [(Repetitions r, None)]) eq_refl Hs) as (e' & N' & R).
      rewrite R. exists e'. split; [exact N'|]. f_equal. f_equal. now rewrite <- app_assoc.
Qed.

Definition last_set (o : option rep) (cs : list call) : option rep := fold_left (fun o c => match c with CRepeat r => Some r | _ => o end) cs o.
Lemma run_pre cs rest : forall (e : enc), e_encoder e = false -> Forall (fun c => exists r, c = CRepeat r) cs ->
  run quant fate (e, []) (cs ++ rest) = (let '(s, rs) := run quant fate (mkE (e_w e) false (e_speed e) (last_set (e_repeat e) cs), []) rest in (s, map (fun _ => Ok tt) cs ++ rs)).
Proof.
  induction cs as [|c cs IH]; intros e N H.
  - cbn [app map]. unfold last_set. cbn [fold_left]. destruct e as [w n sp rp]. cbn [e_w e_speed e_repeat e_encoder] in *. subst n. destruct (run _ _ _ rest); reflexivity.
  - inversion_clear H as [|? ? [r ->] Hs]. cbn [app run step]. unfold set_repeat. rewrite N.
    pose proof (IH (mkE (e_w e) false (e_speed e) (Some r)) eq_refl Hs) as Q. cbn [e_w e_speed e_repeat] in Q. unfold last_set in *. cbn [fold_left] in *.
    cbv beta iota zeta. cbn [fst snd]. setoid_rewrite Q. destruct (run _ _ _ rest) as [s rs]. reflexivity.
Qed.
Lemma last_set_repeat cs : map Repetitions (match last_set None cs with Some r => [r] | None => [] end) = @last_repeat X cs.
Proof.
  unfold last_set, last_repeat. rewrite <- fold_left_rev_right. 
  rewrite <- (rev_involutive cs) at 2. induction (rev cs) as [|c l IH]; [reflexivity|].
  cbn [fold_right rev]. rewrite flat_map_app, rev_app_distr. destruct c; cbn [flat_map app rev]; auto.
Qed.

Lemma faultless speed pre c post : 1 <= speed <= 30 ->
  Forall (fun c => exists r, c = CRepeat r) pre -> drawable c -> Forall (fun c => drawable c \/ exists r, c = CRepeat r) post ->
  session quant fate speed (pre ++ c :: post) =
  Ok (map (fun o => (o, None))
        (Header (fst (size_of c)) (snd (size_of c)) :: last_repeat pre ++ asked quant speed c ++ flat_map (shown quant speed) post ++ [Trailer]),
      map (fun _ => Ok tt) (pre ++ c :: post)).
Proof.
  intros S Hp Hc Hq. unfold session, new_with_speed. replace ((1 <=? speed) && (speed <=? 30)) with true by lia. cbn [bind].
  rewrite run_pre by auto. cbn [e_w e_speed e_repeat run].
  destruct (drawable_handed speed c Hc) as (f & x & G & Z0 & A).
  rewrite step_handed by (intros r ->; exact Hc). cbn [fst e_speed]. rewrite G. unfold encode_gif, external. cbn [e_encoder e_w e_speed e_repeat]. rewrite !healthy.
  rewrite <- (last_set_repeat pre). rewrite <- Z0. rewrite A. cbn [fst snd].
  destruct (last_set None pre) as [r|]; rewrite !healthy; cbn [fst snd app map].
  - destruct (run_running post (mkE false true speed (Some r)) (([(Header (g_w f) (g_h f), None)] ++ [(Repetitions r, None)]) ++ [(Picture (mkG (g_left f) (g_top f) (g_w f) (g_h f) GBackground (g_delay f)) x, None)]) eq_refl Hq) as (e' & N & R).
    cbn [app e_speed] in R |- *. try rewrite !healthy. rewrite R, N. unfold drop_encoder. rewrite !map_app. cbn [map app]. reflexivity.
  - destruct (run_running post (mkE false true speed None) (([(Header (g_w f) (g_h f), None)]) ++ [(Picture (mkG (g_left f) (g_top f) (g_w f) (g_h f) GBackground (g_delay f)) x, None)]) eq_refl Hq) as (e' & N & R).
    cbn [app e_speed] in R |- *. try rewrite !healthy. rewrite R, N. unfold drop_encoder. rewrite !map_app. cbn [map app]. reflexivity.
Qed.
End P.
