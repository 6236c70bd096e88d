(** C18: error-diffusion dithering *)
From Coq Require Import ZArith Bool Lia.
From Verif Require Import Base BaseLemmas Color ColorProofs Dither DitherSpec DitherProofs.
Local Open Scope Z_scope.

(** For images at least 2 wide and 1 high, and any colour map, dithering reads and writes in bounds only, and every pixel becomes the map's
    colour for its value with the diffused, clamped errors of the pixels visited before it. *)
Theorem C18_dither k map_color im orig : (forall p, is_pixel U8 k p -> is_pixel U8 k (map_color p)) -> wf im -> 2 <= iw im -> 1 <= ih im -> Forall (is_pixel U8 k) (px im) ->
  (forall x y, 0 <= x < iw im -> 0 <= y < ih im -> pixel im x y = Some (orig x y)) ->
  exists r seen, dither map_color im = Ok r /\ wf r /\ iw r = iw im /\ ih r = ih im /\ diffused (iw im) (ih im) map_color orig seen /\
    forall x y, 0 <= x < iw im -> 0 <= y < ih im -> pixel r x y = Some (map_color (seen x y)) /\ is_pixel U8 k (map_color (seen x y)).
Proof. intros HM W HW HH F G. exact (dither_ok map_color k HM (iw im) (ih im) HW HH im orig W eq_refl eq_refl F G). Qed.
Print Assumptions C18_dither.

(** The equation determines the values: at most one [seen] satisfies it. *)
Theorem C18_unique w h map_color orig s1 s2 : 2 <= w -> diffused w h map_color orig s1 -> diffused w h map_color orig s2 -> forall x y, 0 <= x < w -> 0 <= y < h -> s1 x y = s2 x y.
Proof.
  intros HW D1 D2. assert (G : forall n x y, 0 <= x < w -> 0 <= y < h -> y * w + x < Z.of_nat n -> s1 x y = s2 x y).
  { induction n as [|n IH]; intros x y Hx Hy HN; [exfalso; nia|]. rewrite (D1 x y Hx Hy), (D2 x y Hx Hy).
    assert (FS : Forall (fun e : Z * Z * Z => s1 (fst (fst e)) (snd (fst e)) = s2 (fst (fst e)) (snd (fst e))) (sources w x y)).
    { unfold sources. apply Forall_forall. intros [[a b] f] H. apply filter_In in H. destruct H as (H & HB). cbv beta iota in HB. cbn [fst snd]. cbn [In] in H.
      assert (CS : (a = x - 1 /\ b = y - 1) \/ (a = x /\ b = y - 1) \/ (a = x + 1 /\ b = y - 1) \/ (a = x - 1 /\ b = y)) by (destruct H as [H|[H|[H|[H|[]]]]]; [left|right; left|right; right; left|right; right; right]; split; congruence).
      clear H. apply IH; [lia|lia|]. destruct CS as [(-> & ->)|[(-> & ->)|[(-> & ->)|(-> & ->)]]]; nia. }
    revert FS. generalize (orig x y) as p. generalize (sources w x y) as l. induction l as [|[[a b] f] l IHl]; intros p FS; [reflexivity|]. inversion_clear FS as [|? ? F1 F2]. cbn [fst snd] in F1. cbn [fold_left]. rewrite F1. apply IHl. exact F2. }
  intros x y Hx Hy. apply (G (S (Z.to_nat (y * w + x)))); [exact Hx|exact Hy|nia].
Qed.
Print Assumptions C18_unique.

(** With BiLevel, every pixel becomes black or white. *)
Theorem C18_bilevel im : wf im -> 2 <= iw im -> 1 <= ih im -> Forall (is_pixel U8 Luma) (px im) ->
  exists r, dither bilevel_map im = Ok r /\ wf r /\ iw r = iw im /\ ih r = ih im /\ Forall (fun p => p = [0] \/ p = [255]) (px r).
Proof.
  intros W HW HH F. assert (HM : forall p, is_pixel U8 Luma p -> is_pixel U8 Luma (bilevel_map p)). { intros p _. unfold bilevel_map, bilevel_index. split; [reflexivity|]. constructor; [|constructor]. change (0 <= 255 * (if nth 0 p 0 >? 127 then 1 else 0) <= 255). destruct (nth 0 p 0 >? 127); lia. }
  destruct (C18_dither Luma bilevel_map im (fun x y => match pixel im x y with Some p => p | None => [] end) HM W HW HH F) as (r & seen & E & W' & E1 & E2 & _ & GP). { intros x y Hx Hy. destruct (pixel_in im x y W Hx Hy) as (p & EP). rewrite EP. reflexivity. }
  exists r. split; [exact E|]. split; [exact W'|]. split; [exact E1|]. split; [exact E2|]. apply Forall_forall. intros p Hp. apply In_zget in Hp. destruct Hp as (i & Hi).
  assert (R : 0 <= i < zlen (px r)) by (exact (zget_range _ _ _ Hi)). destruct W' as (W1 & W2 & W3). rewrite W3 in R. assert (M : 0 <= i mod iw r < iw r) by (apply Z.mod_pos_bound; lia). assert (Q : 0 <= i / iw r < ih r) by (split; [apply Z.div_pos; lia|apply Z.div_lt_upper_bound; lia]).
  destruct (GP (i mod iw r) (i / iw r) ltac:(lia) ltac:(lia)) as (P & _). unfold pixel in P. replace (inb r (i mod iw r) (i / iw r)) with true in P by (symmetry; apply inb_iff; auto). replace (i / iw r * iw r + i mod iw r) with i in P by (pose proof (Z.div_mod i (iw r)); lia). rewrite Hi in P. apply Some_inj in P. rewrite P. unfold bilevel_map, bilevel_index. destruct (_ >? 127); [right|left]; reflexivity.
Qed.
Print Assumptions C18_bilevel.

(** BiLevel's mapping, index and lookup agree: a colour is mapped to the entry of its index, the nearer of black and white. *)
Theorem C18_bilevel_lookup p : is_pixel U8 Luma p -> exists v, p = [v] /\ 0 <= v <= 255 /\ bilevel_lookup (bilevel_index p) = Some (bilevel_map p) /\ forall i e, bilevel_lookup i = Some [e] -> Z.abs (v - nth 0 (bilevel_map p) 0) <= Z.abs (v - e).
Proof.
  intros (L & F). unfold zlen in L. cbn [nch] in L. destruct p as [|v [|]]; try (cbn in L; lia). exists v. apply Forall_inv in F. change (0 <= v <= 255) in F. split; [reflexivity|]. split; [exact F|]. unfold bilevel_map, bilevel_index, bilevel_lookup. cbn [nth]. destruct (Z.gtb_spec v 127).
  - split; [reflexivity|]. intros i e H1. change (255 * 1) with 255. destruct (i =? 0); [assert (e = 0) by congruence; lia|]. destruct (i =? 1); [assert (e = 255) by congruence; lia|discriminate H1].
  - split; [reflexivity|]. intros i e H1. change (255 * 0) with 0. destruct (i =? 0); [assert (e = 0) by congruence; lia|]. destruct (i =? 1); [assert (e = 255) by congruence; lia|discriminate H1].
Qed.
Print Assumptions C18_bilevel_lookup.

(** index_colors keeps the size and replaces every pixel of the original by its index. *)
Theorem C18_index index_of im x y : (forall p, In p (px im) -> 0 <= index_of p <= 255) -> iw (index_colors index_of im) = iw im /\ ih (index_colors index_of im) = ih im /\
  (wf im -> wf (index_colors index_of im)) /\ pixel (index_colors index_of im) x y = match pixel im x y with Some p => Some [index_of p] | None => None end.
Proof.
  intros HI. split; [reflexivity|]. split; [reflexivity|]. split; [intros (W1 & W2 & W3); unfold wf, index_colors; cbn [iw ih px]; rewrite zlen_map; auto|].
  unfold pixel, index_colors, inb. cbn [iw ih px]. destruct ((0 <=? x) && (x <? iw im) && (0 <=? y) && (y <? ih im)); [|reflexivity]. rewrite zget_map. destruct (zget (px im) (y * iw im + x)) eqn:E; cbn [option_map]; [|reflexivity]. f_equal. f_equal. apply zget_In in E. specialize (HI l E). unfold wrap_u8. apply Z.mod_small. lia.
Qed.
Print Assumptions C18_index.
(** After dithering with BiLevel, the indices look up to the dithered image. *)
Theorem C18_palette p : p = [0] \/ p = [255] -> bilevel_lookup (bilevel_index p) = Some p /\ bilevel_map p = p.
Proof. intros [->| ->]; split; reflexivity. Qed.
Print Assumptions C18_palette.

(** What fails: images one pixel wide, and empty ones, panic, whatever the map. *)
Theorem C18_narrow_refuted map_color im : wf im -> iw im <= 1 \/ ih im = 0 -> dither map_color im = Panic.
Proof.
  intros W H. unfold dither. destruct (Z.eqb_spec (ih im) 0) as [E|N]; [reflexivity|]. destruct W as (W1 & W2 & W3). assert (HW : iw im <= 1) by lia.
  assert (D : forall A y (K : img (list Z) * list Z -> res A), 0 <= y < ih im -> (s <- do_dithering map_color (im, [0; 0; 0]) 0 y ;; bind (spread 1 y 7 s) K) = Panic).
  { intros A y K Hy. unfold do_dithering. destruct (get_pixel im 0 y) as [p| |] eqn:EG; cbn [bind].
    - assert (HX : 0 <= 0 < iw im). { unfold get_pixel, pixel in EG. destruct (inb im 0 y) eqn:EI; [apply inb_iff in EI; lia|discriminate EG]. } destruct (put_pixel_spec im 0 y (map_color p) (conj W1 (conj W2 W3)) HX Hy) as (im' & EP & W' & E1 & E2 & _). rewrite EP. cbn [bind]. unfold spread, get_pixel, pixel. replace (inb im' 1 y) with false; [reflexivity|]. symmetry. unfold inb. rewrite E1. lia.
    - exfalso. unfold get_pixel in EG. destruct (pixel im 0 y); discriminate EG.
    - reflexivity. }
  destruct (Z.eq_dec (ih im) 1) as [E1|N1].
  - rewrite E1. change (zrange 0 (1 - 1)) with (@nil Z). cbn [foldM bind]. unfold dither_last. change (1 - 1) with 0. rewrite D by lia. reflexivity.
  - rewrite zrange_cons by lia. cbn [foldM]. unfold dither_row at 1. rewrite D by lia. reflexivity.
Qed.
Print Assumptions C18_narrow_refuted.

(** Non-vacuity *)
Example C18_dither_nonvacuous : dither bilevel_map (mkImg 2 2 [[127]; [127]; [127]; [127]]) = Ok (mkImg 2 2 [[0]; [255]; [255]; [0]]).
Proof. vm_compute. reflexivity. Qed.
Example C18_dither_wide : dither bilevel_map (mkImg 4 3 [[100]; [50]; [200]; [90]; [10]; [120]; [130]; [140]; [77]; [88]; [99]; [111]]) = Ok (mkImg 4 3 [[0]; [0]; [255]; [0]; [0]; [255]; [0]; [255]; [0]; [0]; [255]; [0]]).
Proof. vm_compute. reflexivity. Qed.
Example C18_narrow_nonvacuous : wf (mkImg 1 2 [[1]; [2]]). Proof. unfold wf. cbn. lia. Qed.
