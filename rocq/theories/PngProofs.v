(** Lemmas for C34 and C50. *)
From Verif Require Import Base BaseLemmas ListLemmas ListMore GenImage GenImageProofs Color ColorProofs ColorType Farbfeld FarbfeldSpec FarbfeldProofs OverlayProofs Delay Png PngSpec.
Local Open Scope Z_scope.

Lemma shows_ext W H im c c' : shows W H im c -> (forall x y, 0 <= x < W -> 0 <= y < H -> c x y = c' x y) -> shows W H im c'.
Proof. intros (A & B & C & D) E. split; [auto|]. split; [auto|]. split; [auto|]. intros x y Hx Hy. rewrite D, E by auto. reflexivity. Qed.
Lemma shows_new W H : 0 <= W -> 0 <= H -> shows W H (new_img W H transparent) blank.
Proof.
  intros HW HH. split; [apply wf_new_img; auto|]. split; [reflexivity|]. split; [reflexivity|].
  intros x y Hx Hy. apply pixel_new_img; lia.
Qed.
Lemma shows_blanked W H (im : img (list Z)) : wf im -> iw im = W -> ih im = H -> shows W H (mkImg (iw im) (ih im) (map (fun _ => transparent) (px im))) blank.
Proof.
  intros (A & B & C) E1 E2. subst W H. split; [split; [auto|]; split; [auto|]; cbn; rewrite zlen_map; auto|]. split; [reflexivity|]. split; [reflexivity|].
  intros x y Hx Hy. assert (I : 0 <= y * iw im + x < iw im * ih im) by (apply idx_range; lia). unfold pixel, inb. cbn [iw ih px].
  replace ((0 <=? x) && (x <? iw im) && (0 <=? y) && (y <? ih im)) with true by lia.
  rewrite zget_map. destruct (zget_some (px im) (y * iw im + x)) as (p & ->); [lia|]. reflexivity.
Qed.

(** clearing a region *)
Lemma clear_region_ok m im x0 y0 w h : wf im -> is_u32 (iw im) -> is_u32 (ih im) -> 0 <= x0 -> 0 <= y0 -> 0 <= w -> 0 <= h -> x0 + w <= iw im -> y0 + h <= ih im ->
  exists r, clear_region m im (mkSub x0 y0 w h) = Ok r /\ wf r /\ iw r = iw im /\ ih r = ih im /\
    forall x y, pixel r x y = if (x0 <=? x) && (x <? x0 + w) && (y0 <=? y) && (y <? y0 + h) then Some transparent else pixel im x y.
Proof.
  unfold is_u32. intros Hwf B1 B2 O1 O2 W H F1 F2. unfold clear_region. cbn [s_w s_h]. rewrite for2_coords.
  destruct (put_loop (fun c => x0 + fst c) (fun c => y0 + snd c) (fun _ => transparent) (coords w h) im Hwf) as (r & E & Hwr & Ew & Eh & Hout & Hins).
  - intros [a b] Hc. apply In_coords in Hc. cbn. lia.
  - exists r. split.
    { rewrite <- E. apply foldM_ext. intros t [a b] Hc. apply In_coords in Hc. unfold sub_put. cbn [fst snd s_xo s_yo].
      rewrite !u32_add_ok by lia. cbn [bind]. rewrite (Z.add_comm a), (Z.add_comm b). reflexivity. }
    split; [auto|]. split; [auto|]. split; [auto|]. intros x y.
    destruct ((x0 <=? x) && (x <? x0 + w) && (y0 <=? y) && (y <? y0 + h)) eqn:C.
    + specialize (Hins (x - x0, y - y0)). cbn [fst snd] in Hins. replace (x0 + (x - x0)) with x in Hins by lia. replace (y0 + (y - y0)) with y in Hins by lia.
      apply Hins; [apply In_coords; lia|]. intros; reflexivity.
    + apply Hout. intros [a b] Hc. apply In_coords in Hc. cbn. lia.
Qed.

(** the frame as an RGBA image *)
Lemma rgba_of_conv k p : is_pixel U8 k p -> from_color U8 U8 k Rgba p = Ok (rgba_of p).
Proof.
  intros [L F]. unfold zlen in L. destruct k; cbn [nch] in L;
  destruct p as [|a [|b [|c [|d [|e q]]]]]; cbn [length] in L; try lia; reflexivity.
Qed.
Lemma frame_image_ok k w h buf : 0 <= w -> 0 <= h -> bytes buf -> w * h * nch k <= zlen buf ->
  exists im, frame_image k w h buf = Ok im /\ wf im /\ iw im = w /\ ih im = h /\
    forall i j, 0 <= i < w -> 0 <= j < h -> pixel im i j = Some (rgba_of (zslice buf ((j * w + i) * nch k) (nch k))).
Proof.
  intros Hw Hh B L. unfold frame_image. replace (zlen buf <? w * h * nch k) with false by lia.
  assert (N : 0 < nch k) by (destruct k; cbn; lia). assert (P : 0 <= w * h) by (apply Z.mul_nonneg_nonneg; auto).
  unfold convert. cbn [px iw ih]. rewrite chunks_exact_slices by lia.
  rewrite (map_res_ok _ rgba_of).
  2:{ intros p Hp. apply in_map_iff in Hp. destruct Hp as (i & <- & Hi). apply In_zrange in Hi. apply rgba_of_conv.
      split; [rewrite zlen_zslice_gen by lia; nia|]. apply Forall_zslice. exact B. }
  cbn [bind]. eexists. split; [reflexivity|]. cbn [iw ih].
  split; [split; [cbn; lia|]; split; [cbn; lia|]; cbn [px iw ih]; rewrite !zlen_map, zlen_zrange; lia|]. split; [reflexivity|]. split; [reflexivity|].
  intros i j Hi Hj. assert (I : 0 <= j * w + i < w * h) by (apply idx_range; lia). unfold pixel, inb. cbn [iw ih px].
  replace ((0 <=? i) && (i <? w) && (0 <=? j) && (j <? h)) with true by lia.
  rewrite !zget_map, zget_zrange by lia. cbn [option_map]. repeat f_equal; lia.
Qed.

(** rendering *)
Lemma render_ok m bl W H k f buf cur c : is_u32 W -> is_u32 H -> valid_frame k W H (f, buf) -> shows W H cur c ->
  exists r, (source <- frame_image k (f_w f) (f_h f) buf ;; render m bl (f_blend f) cur source (f_x f) (f_y f)) = Ok r /\
    shows W H r (drawn bl k c f buf).
Proof.
  unfold is_u32. intros BW BH (V1 & V2 & V3 & V4 & V5 & V6 & V7 & V8 & V9 & V10) (S1 & S2 & S3 & S4). cbn [fst snd] in *.
  destruct (frame_image_ok k (f_w f) (f_h f) buf ltac:(lia) ltac:(lia) V9 V10) as (src & E & Ws & Ew & Eh & Px). rewrite E. cbn [bind].
  unfold render. destruct (f_blend f) eqn:Eb.
  - destruct (copy_from_fits m cur src (f_x f) (f_y f) S1 Ws) as (r & Er & Wr & Rw & Rh & Rp); unfold is_u32; try lia.
    rewrite Er. cbn [bind]. exists r. split; [reflexivity|]. split; [auto|]. split; [lia|]. split; [lia|].
    intros x y Hx Hy. rewrite Rp. unfold pasted, drawn, in_frame, frame_px. rewrite Eb.
    destruct ((f_x f <=? x) && (x <? f_x f + f_w f) && (f_y f <=? y) && (y <? f_y f + f_h f)) eqn:C.
    + rewrite Px by lia. reflexivity.
    + rewrite pixel_out by (unfold inb; rewrite Ew, Eh; lia). apply S4; auto.
  - rewrite for2_coords.
    destruct (blend_loop bl src fst snd (fun c => fst c + f_x f) (fun c => snd c + f_y f) (coords (iw src) (ih src)) cur Ws S1) as (r & Er & Wr & Rw & Rh & Hout & Hin).
    { apply NoDup_map_inj; [|apply NoDup_coords]. intros [a b] [a' b'] _ _ H0. cbn in H0. injection H0; intros. f_equal; lia. }
    { intros [a b] Hc. apply In_coords in Hc. cbn. lia. }
    { intros [a b] Hc. apply In_coords in Hc. cbn. lia. }
    exists r. split.
    { rewrite <- Er. apply foldM_ext. intros t [a b] Hc. apply In_coords in Hc. cbn [fst snd].
      destruct (get_pixel src a b); cbn [bind]; auto. rewrite !u32_add_ok by lia. reflexivity. }
    split; [auto|]. split; [lia|]. split; [lia|]. intros x y Hx Hy. unfold drawn, in_frame, frame_px. rewrite Eb.
    destruct ((f_x f <=? x) && (x <? f_x f + f_w f) && (f_y f <=? y) && (y <? f_y f + f_h f)) eqn:C.
    + destruct (Hin (x - f_x f, y - f_y f)) as (p & q & P1 & P2 & P3); [apply In_coords; lia|]. cbn [fst snd] in *.
      replace (x - f_x f + f_x f) with x in * by lia. replace (y - f_y f + f_y f) with y in * by lia.
      rewrite P3. rewrite S4 in P2 by lia. rewrite Px in P1 by lia. apply Some_inj in P1, P2. subst. reflexivity.
    + rewrite Hout; [apply S4; auto|]. intros [a b] Hc. apply In_coords in Hc. cbn. lia.
Qed.

(** disposal.  [ready]: the coming disposal produces the canvas c; with okp it also leaves c in `previous` *)
Definition eff (W H : Z) (o : option (img (list Z))) := match o with Some i => i | None => new_img W H transparent end.
Definition ready (m : mode) (W H : Z) (a : apng) (c : canvas) (okp : bool) : Prop :=
  exists p cu, dispose_step m (a_dispose a) (a_region a) (eff W H (a_previous a)) (eff W H (a_current a)) = Ok (p, cu) /\
    shows W H cu c /\ (wf p /\ iw p = W /\ ih p = H) /\ (okp = true -> shows W H p c).

Lemma ready_new m W H n first frames : is_u32 W -> is_u32 H -> ready m W H (apng_new n first frames) blank true.
Proof.
  unfold is_u32. intros BW BH. unfold ready, apng_new. cbn [a_dispose a_region a_previous a_current eff dispose_step].
  eexists _, _. split; [reflexivity|]. pose proof (shows_new W H ltac:(lia) ltac:(lia)) as S.
  split; [apply shows_blanked; [apply wf_new_img; lia|reflexivity|reflexivity]|]. split; [|intros _; exact S].
  destruct S as (A & B & C & _). auto.
Qed.
Lemma ready_after m W H bl k f buf c cur prev rem rd : is_u32 W -> is_u32 H -> valid_frame k W H (f, buf) ->
  shows W H cur (drawn bl k c f buf) -> (wf prev /\ iw prev = W /\ ih prev = H) -> (f_disp f = DPrevious -> shows W H prev c) ->
  ready m W H (mkApng (Some cur) (Some prev) (f_disp f) (Some (f_x f, f_y f, f_w f, f_h f)) rem false rd (Some f))
    (disposed c (drawn bl k c f buf) f) (match f_disp f with DBackground => false | _ => true end).
Proof.
  unfold is_u32. intros BW BH (V1 & V2 & V3 & V4 & V5 & V6 & V7 & V8 & V9 & V10) S (P1 & P2 & P3) Pp. cbn [fst snd] in *.
  unfold ready. cbn [a_dispose a_region a_previous a_current eff]. destruct (f_disp f) eqn:Ed; cbn [dispose_step].
  - exists cur, cur. split; [reflexivity|]. assert (S' : shows W H cur (disposed c (drawn bl k c f buf) f)).
    { apply (shows_ext _ _ _ _ _ S). intros. unfold disposed. rewrite Ed. destruct (in_frame f x y); reflexivity. }
    split; [auto|]. split; [destruct S as (A & B & C & _); auto|auto].
  - destruct S as (S1 & S2 & S3 & S4). unfold view. replace (f_x f + f_w f <=? iw cur) with true by lia. replace (f_y f + f_h f <=? ih cur) with true by lia. cbn [bind].
    destruct (clear_region_ok m cur (f_x f) (f_y f) (f_w f) (f_h f)) as (r & E & Wr & Rw & Rh & Rp); auto; unfold is_u32; try lia.
    rewrite E. cbn [bind]. exists cur, r. split; [reflexivity|]. split; [|split; [auto|discriminate]].
    split; [auto|]. split; [lia|]. split; [lia|]. intros x y Hx Hy. rewrite Rp. unfold disposed. rewrite Ed. unfold in_frame.
    destruct ((f_x f <=? x) && (x <? f_x f + f_w f) && (f_y f <=? y) && (y <? f_y f + f_h f)); [reflexivity|apply S4; auto].
  - specialize (Pp eq_refl). destruct Pp as (_ & _ & _ & Pp). destruct S as (S1 & S2 & S3 & S4).
    unfold view. replace (f_x f + f_w f <=? iw prev) with true by lia. replace (f_y f + f_h f <=? ih prev) with true by lia. cbn [bind].
    destruct (to_image_spec m transparent prev (mkSub (f_x f) (f_y f) (f_w f) (f_h f))) as (t & E & Wt & Tw & Th & Tp); auto; unfold is_u32; cbn [s_xo s_yo s_w s_h] in *; try lia.
    rewrite E. cbn [bind].
    destruct (copy_from_fits m cur t (f_x f) (f_y f) S1 Wt) as (r & Er & Wr & Rw & Rh & Rp); unfold is_u32; try lia.
    rewrite Er. cbn [bind]. exists prev, r. split; [reflexivity|].
    assert (D : forall x y, disposed c (drawn bl k c f buf) f x y = c x y).
    { intros. unfold disposed, drawn. rewrite Ed. destruct (in_frame f x y); reflexivity. }
    split; [|split; [auto|]].
    + split; [auto|]. split; [lia|]. split; [lia|]. intros x y Hx Hy. rewrite D, Rp. unfold pasted.
      destruct ((f_x f <=? x) && (x <? f_x f + f_w f) && (f_y f <=? y) && (y <? f_y f + f_h f)) eqn:C.
      * rewrite Tp by lia. replace (f_x f + (x - f_x f)) with x by lia. replace (f_y f + (y - f_y f)) with y by lia. rewrite Pp by auto. reflexivity.
      * rewrite pixel_out by (unfold inb; rewrite Tw, Th; lia). rewrite S4 by auto. unfold drawn, in_frame. rewrite C. reflexivity.
    + intros _. split; [auto|]. split; [auto|]. split; [auto|]. intros x y Hx Hy. rewrite D. apply Pp; auto.
Qed.

(** the duration a frame control asks for, in milliseconds *)
Definition ms_of (f : fctl) : ratio := mkRatio (f_num f * 1000) (if f_den f =? 0 then 100 else f_den f).

Lemma next_step m bl W H k a c okp f buf rd : is_u32 W -> is_u32 H -> valid_frame k W H (f, buf) ->
  ready m W H a c okp -> (f_disp f = DPrevious -> okp = true) ->
  0 < a_remaining a -> (if a_thumb a then exists t, a_reader a = t :: (Some f, buf) :: rd else a_reader a = (Some f, buf) :: rd) ->
  exists a' im, apng_next m bl W H k U8 a = (a', Some (Ok (im, ms_of f))) /\ shows W H im (drawn bl k c f buf) /\
    a_remaining a' = a_remaining a - 1 /\ a_thumb a' = false /\ a_reader a' = rd /\
    ready m W H a' (disposed c (drawn bl k c f buf) f) (match f_disp f with DBackground => false | _ => true end).
Proof.
  intros BW BH V (p & cu & E & Sc & Wp & Sp) Ho Hr Ht. unfold apng_next, mix_next_frame.
  replace (a_remaining a =? 0) with false by lia.
  assert (T : (if a_thumb a then match a_reader a with [] => None | _ :: r => Some r end else Some (a_reader a)) = Some ((Some f, buf) :: rd)).
  { destruct (a_thumb a); [destruct Ht as (t & ->); reflexivity|rewrite Ht; reflexivity]. }
  rewrite T. fold (eff W H (a_previous a)). fold (eff W H (a_current a)). rewrite E.
  destruct (render_ok m bl W H k f buf cu c BW BH V Sc) as (r & Er & Sr). rewrite Er. cbn [a_info].
  pose proof V as (V1 & V2 & V3 & V4 & V5 & V6 & V7 & V8 & V9 & V10). cbn [fst snd] in *. unfold is_u16 in *.
  unfold mul_m. replace (f_num f * 1000 <=? u32_max) with true by (unfold u32_max, u16_max in *; lia). cbn [bind].
  unfold ratio_new. destruct (f_den f =? 0) eqn:D0.
  - cbn [Z.eqb bind]. eexists _, r. split; [unfold ms_of; rewrite D0; reflexivity|]. split; [auto|]. cbn [a_remaining a_thumb a_reader]. split; [auto|]. split; [auto|]. split; [auto|].
    apply ready_after; auto.
  - rewrite D0. cbn [bind]. eexists _, r. split; [unfold ms_of; rewrite D0; reflexivity|]. split; [auto|]. cbn [a_remaining a_thumb a_reader]. split; [auto|]. split; [auto|]. split; [auto|].
    apply ready_after; auto.
Qed.

Definition stream (fs : list (fctl * list Z)) : list raw_frame := map (fun fb => (Some (fst fb), snd fb)) fs.
Definition frame_ok (W H : Z) (o : option (res (img (list Z) * ratio))) (e : canvas * fctl) : Prop :=
  exists im, o = Some (Ok (im, ms_of (snd e))) /\ shows W H im (fst e).
Definition first_prev (fs : list (fctl * list Z)) : bool := match fs with (f, _) :: _ => match f_disp f with DPrevious => true | _ => false end | [] => false end.

Lemma frames_run m bl W H k fs : is_u32 W -> is_u32 H -> Forall (valid_frame k W H) fs -> no_bg_prev fs = true ->
  forall a c okp, ready m W H a c okp -> (first_prev fs = true -> okp = true) ->
  a_remaining a = zlen fs -> (if a_thumb a then exists t, a_reader a = t :: stream fs else a_reader a = stream fs) ->
  exists a' outs, apng_frames m bl W H k U8 (length fs) a = (a', outs) /\ a_remaining a' = 0 /\
    Forall2 (frame_ok W H) outs (combine (reference bl k c fs) (map fst fs)).
Proof.
  intros BW BH F NB. induction fs as [|[f buf] fs IH]; intros a c okp R Ho Hr Ht.
  - exists a, []. split; [reflexivity|]. split; [exact Hr|constructor].
  - inversion F as [|? ? V F']; subst. rewrite zlen_cons in Hr. pose proof (zlen_nonneg fs) as Ln.
    destruct (next_step m bl W H k a c okp f buf (stream fs) BW BH V R) as (a' & im & E & Sh & Rm & Th & Rd & R').
    { intros Hd. apply Ho. cbn [first_prev]. rewrite Hd. reflexivity. }
    { lia. }
    { exact Ht. }
    cbn [length apng_frames]. rewrite E.
    destruct (IH F') with (a := a') (c := disposed c (drawn bl k c f buf) f) (okp := match f_disp f with DBackground => false | _ => true end) as (a2 & outs & E2 & Z2 & FF).
    { cbn [no_bg_prev] in NB. destruct fs as [|[g b2] fs]; [reflexivity|]. destruct (f_disp f), (f_disp g); congruence. }
    { exact R'. }
    { intros Hp. cbn [no_bg_prev] in NB. destruct fs as [|[g b2] fs]; [discriminate|]. cbn [first_prev] in Hp. destruct (f_disp f), (f_disp g); congruence. }
    { lia. }
    { rewrite Th. exact Rd. }
    rewrite E2. eexists _, _. split; [reflexivity|]. split; [exact Z2|].
    cbn [reference map fst combine]. constructor; [|exact FF]. exists im. cbn [fst snd]. auto.
Qed.
