(** Facts about the OpenEXR glue. *)
From Coq Require Import ZArith Bool List Lia.
From Verif Require Import Base BaseLemmas ListLemmas Color ColorProofs GenImage ColorType Tiff Exr.
Import ListNotations.
Local Open Scope Z_scope.

Lemma i32_m_in m z : is_i32 z -> i32_m m z = Ok z.
Proof. unfold is_i32, i32_m. intros H. replace ((i32_min <=? z) && (z <=? i32_max)) with true by lia. reflexivity. Qed.
Lemma wrap_i32_id z : is_i32 z -> wrap_i32 z = z.
Proof. unfold is_i32, i32_min, i32_max, wrap_i32. intros H. rewrite Z.mod_small by lia. lia. Qed.
Lemma zlen_pat big v : zlen (pat_bytes big v) = 4.
Proof. destruct big; reflexivity. Qed.
Lemma flat_pat_len big l : zlen (flat_map (pat_bytes big) l) = zlen l * 4.
Proof. induction l as [|v l IH]; [reflexivity|]. cbn [flat_map]. rewrite zlen_app, zlen_pat, zlen_cons, IH. lia. Qed.
Lemma flat_pat_slice big l i v : zget l i = Some v -> zslice (flat_map (pat_bytes big) l) (i * 4) 4 = pat_bytes big v.
Proof.
  intros H. rewrite flat_map_concat_map. apply zslice_concat; [lia|apply Forall_map_iff, Forall_forall; intros; apply zlen_pat|]. rewrite zget_map, H. reflexivity.
Qed.
Lemma slices_eq (a b : list Z) n : zlen a = n * 4 -> zlen b = n * 4 -> (forall i, 0 <= i < n -> zslice a (i * 4) 4 = zslice b (i * 4) 4) -> a = b.
Proof.
  intros A B H. pose proof (zlen_nonneg a).
  rewrite <- (zslice_all a), <- (zslice_all b), A, B. rewrite <- !(concat_slices 4) by lia. f_equal. apply map_ext_in. intros i Hi. apply In_zrange in Hi. apply H. lia.
Qed.

Lemma area_idx w h X Y : 0 <= X < w -> 0 <= Y < h -> 0 <= Y * w + X < w * h.
Proof. intros. nia. Qed.

Section Place.
Variables (m : mode) (w h ch ox oy : Z).
Hypothesis (Hw : 0 <= w <= i32_max) (Hh : 0 <= h <= i32_max) (Hc : 1 <= ch <= 4) (Hox : is_i32 ox) (Hoy : is_i32 oy).
Definition deliverable (p : (Z * Z) * list Z) : Prop :=
  let '((x, y), s) := p in 0 <= x <= i32_max /\ 0 <= y <= i32_max /\ zlen s = 4 /\ (m = Debug -> x + ox <= i32_max /\ y + oy <= i32_max).
Definition at_pos (p : (Z * Z) * list Z) (X Y : Z) : Prop := fst (fst p) + ox = X /\ snd (fst p) + oy = Y.
Lemma i32_m_add x o : 0 <= x <= i32_max -> is_i32 o -> (m = Debug -> x + o <= i32_max) -> exists z, i32_m m (x + o) = Ok z /\ (z = x + o \/ (z < 0 /\ i32_max < x + o)).
Proof.
  intros Hx Ho D. unfold is_i32 in Ho. destruct (Z_le_gt_dec (x + o) i32_max) as [L|L].
  - exists (x + o). split; [apply i32_m_in; unfold is_i32; unfold i32_min in *; lia|left; reflexivity].
  - unfold i32_m. replace ((i32_min <=? x + o) && (x + o <=? i32_max)) with false by (unfold i32_min, i32_max in *; lia). destruct m; [specialize (D eq_refl); lia|].
    exists (wrap_i32 (x + o)). split; [reflexivity|right]. unfold wrap_i32, i32_max in *. split; [|lia]. replace (x + o + 2147483648) with (x + o - 2147483648 + 1 * 4294967296) by lia. rewrite Z.mod_add, Z.mod_small by lia. lia.
Qed.
Lemma place_ok buf p : zlen buf = w * h * ch -> deliverable p -> exists out, place m w h ch ox oy buf p = Ok out /\ zlen out = zlen buf /\
  forall X Y c, 0 <= X < w -> 0 <= Y < h -> 0 <= c < ch ->
    (at_pos p X Y -> zget out ((Y * w + X) * ch + c) = zget (snd p) c) /\ (~ at_pos p X Y -> zget out ((Y * w + X) * ch + c) = zget buf ((Y * w + X) * ch + c)).
Proof.
  intros L D. destruct p as ((x, y), s). destruct D as (Dx & Dy & Ds & Dd). unfold place. unfold to_i32. replace (x <=? i32_max) with true by lia. replace (y <=? i32_max) with true by lia. cbn [bind].
  destruct (i32_m_add x ox Dx Hox) as (X0 & -> & EX); [intros; apply Dd; assumption|]. destruct (i32_m_add y oy Dy Hoy) as (Y0 & -> & EY); [intros; apply Dd; assumption|]. cbn [bind].
  rewrite !wrap_i32_id by (unfold is_i32, i32_min in *; lia). unfold at_pos. cbn [fst snd].
  destruct ((0 <=? X0) && (0 <=? Y0) && (X0 <? w) && (Y0 <? h)) eqn:E.
  - assert (B : 0 <= X0 < w /\ 0 <= Y0 < h) by lia. destruct B as (BX & BY). pose proof (area_idx w h X0 Y0 BX BY) as AI.
    assert (F1 : X0 = x + ox) by lia. assert (F2 : Y0 = y + oy) by lia. cbv zeta.
    assert (AE : (Y0 * w + X0 + 1) * ch <= w * h * ch) by (apply Z.mul_le_mono_nonneg_r; lia).
    replace ((Y0 * w + X0 + 1) * ch <=? zlen buf) with true by lia.
    assert (LF : zlen (firstn (Z.to_nat ch) s) = ch) by (rewrite zlen_firstn; lia).
    assert (P0 : 0 <= (Y0 * w + X0) * ch) by (apply Z.mul_nonneg_nonneg; lia).
    assert (LE : (Y0 * w + X0) * ch + zlen (firstn (Z.to_nat ch) s) <= zlen buf) by (rewrite LF, L; lia).
    eexists. split; [reflexivity|]. split; [apply zlen_zsplice; assumption|].
    intros X Y c HX HY HC. rewrite zget_zsplice by assumption. rewrite LF. split.
    + intros (<- & <-). subst X0 Y0. replace ((_ <=? _) && (_ <? _)) with true by lia. replace (((y + oy) * w + (x + ox)) * ch + c - ((y + oy) * w + (x + ox)) * ch) with c by lia. rewrite zget_firstn. replace (c <? Z.of_nat (Z.to_nat ch)) with true by lia. reflexivity.
    + intros N. assert (NE : Y0 * w + X0 <> Y * w + X). { intros EQ. apply N. assert (Y0 = Y) by nia. nia. }
      replace (((Y0 * w + X0) * ch <=? (Y * w + X) * ch + c) && ((Y * w + X) * ch + c <? (Y0 * w + X0) * ch + ch)) with false; [reflexivity|]. symmetry. apply andb_false_iff.
      destruct (Z_lt_ge_dec (Y * w + X) (Y0 * w + X0)); [left; apply Z.leb_gt|right; apply Z.ltb_ge]; nia.
  - exists buf. split; [reflexivity|]. split; [reflexivity|]. intros X Y c HX HY HC. split; [|reflexivity]. intros (<- & <-). exfalso. lia.
Qed.
Lemma place_loop ps : forall buf, zlen buf = w * h * ch -> (forall p, In p ps -> deliverable p) -> exists out, foldM (place m w h ch ox oy) ps buf = Ok out /\ zlen out = zlen buf /\
  forall X Y c, 0 <= X < w -> 0 <= Y < h -> 0 <= c < ch ->
    (forall p, In p ps -> at_pos p X Y -> (forall q, In q ps -> at_pos q X Y -> snd q = snd p) -> zget out ((Y * w + X) * ch + c) = zget (snd p) c) /\
    ((forall p, In p ps -> ~ at_pos p X Y) -> zget out ((Y * w + X) * ch + c) = zget buf ((Y * w + X) * ch + c)).
Proof.
  induction ps as [|p ps IH]; intros buf L D.
  - exists buf. cbn [foldM]. split; [reflexivity|]. split; [reflexivity|]. intros X Y c _ _ _. split; [intros p []|reflexivity].
  - destruct (place_ok buf p L (D p (or_introl eq_refl))) as (b1 & E1 & L1 & P1). destruct (IH b1 ltac:(lia) ltac:(intros q Hq; apply D; right; exact Hq)) as (b2 & E2 & L2 & P2).
    exists b2. cbn [foldM]. rewrite E1. cbn [bind]. split; [exact E2|]. split; [lia|]. intros X Y c HX HY HC. destruct (P1 X Y c HX HY HC) as (A1 & B1). destruct (P2 X Y c HX HY HC) as (A2 & B2).
    assert (DEC : forall l : list ((Z * Z) * list Z), (exists q, In q l /\ at_pos q X Y) \/ (forall q, In q l -> ~ at_pos q X Y)).
    { induction l as [|q l IHl]; [right; intros q []|]. destruct IHl as [(r & R1 & R2)|N]; [left; exists r; split; [right; exact R1|exact R2]|].
      destruct (Z.eq_dec (fst (fst q) + ox) X) as [e1|n1]; [destruct (Z.eq_dec (snd (fst q) + oy) Y) as [e2|n2]|].
      - left. exists q. split; [left; reflexivity|split; assumption].
      - right. intros r [<-|R]; [intros (_ & e); contradiction|apply N; exact R].
      - right. intros r [<-|R]; [intros (e & _); contradiction|apply N; exact R]. }
    split.
    + intros r [<-|R] AT U.
      * destruct (DEC ps) as [(q & Q1 & Q2)|N].
        -- rewrite <- (U q (or_intror Q1) Q2). apply A2; [exact Q1|exact Q2|]. intros q' Q' AT'. rewrite (U q' (or_intror Q') AT'). symmetry. apply U; [right; exact Q1|exact Q2].
        -- rewrite B2 by exact N. apply A1. exact AT.
      * apply A2; [exact R|exact AT|]. intros q Q AQ. apply U; [right; exact Q|exact AQ].
    + intros N. rewrite B2 by (intros q Q; apply N; right; exact Q). apply B1. apply N. left. reflexivity.
Qed.
End Place.
