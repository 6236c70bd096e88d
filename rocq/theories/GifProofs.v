(** Lemmas for C33. *)
From Verif Require Import Base BaseLemmas ListLemmas ListMore GenImage GenImageProofs Color ColorProofs OverlayProofs Delay Gif GifSpec.
Local Open Scope Z_scope.

Lemma wsub_in a b w : is_u16 a -> is_u16 b -> is_u16 w -> (wsub a b <? w) = (b <=? a) && (a <? b + w) /\ (b <= a -> wsub a b = a - b).
Proof.
  unfold is_u16, u16_max, wsub, wrap_u32. intros A B C. destruct (Z.leb_spec b a).
  - rewrite Z.mod_small by lia. split; [|auto]. cbn [andb]. destruct (Z.ltb_spec (a - b) w), (Z.ltb_spec a (b + w)); auto; lia.
  - split; [|lia]. cbn [andb]. replace (a - b) with (a - b + 4294967296 + (-1) * 4294967296) by lia. rewrite Z.mod_add by lia. rewrite Z.mod_small by lia. lia.
Qed.
Lemma slices_img W H (l : list Z) : 0 <= W -> 0 <= H -> zlen l = W * H * 4 ->
  let im := mkImg W H (chunks_exact 4 (zslice l 0 (W * H * 4))) in
  wf im /\ forall x y, 0 <= x < W -> 0 <= y < H -> pixel im x y = Some (zslice l ((y * W + x) * 4) 4).
Proof.
  intros HW HH L. assert (P : 0 <= W * H) by (apply Z.mul_nonneg_nonneg; auto). cbv zeta. rewrite chunks_exact_slices by lia.
  split; [split; [cbn; lia|]; split; [cbn; lia|]; cbn [px iw ih]; rewrite zlen_map, zlen_zrange; lia|].
  intros x y Hx Hy. assert (I : 0 <= y * W + x < W * H) by (apply idx_range; lia). unfold pixel, inb. cbn [iw ih px].
  replace ((0 <=? x) && (x <? W) && (0 <=? y) && (y <? H)) with true by lia.
  rewrite zget_map, zget_zrange by lia. cbn [option_map]. repeat f_equal; lia.
Qed.
Lemma frame_of_ok f d : gframe_ok (f, d) -> exists fb, frame_of (g_w f) (g_h f) d = Some fb /\ wf fb /\ iw fb = g_w f /\ ih fb = g_h f /\
  forall i j, 0 <= i < g_w f -> 0 <= j < g_h f -> pixel fb i j = Some (zslice d ((j * g_w f + i) * 4) 4).
Proof.
  intros (A & B & C & D & E & L). cbn [fst snd] in *. unfold is_u16 in *. unfold frame_of. replace (g_w f * g_h f * 4 <=? zlen d) with true by lia.
  eexists. split; [reflexivity|]. destruct (slices_img (g_w f) (g_h f) d ltac:(lia) ltac:(lia) L) as [W P]. split; [exact W|]. split; [reflexivity|]. split; [reflexivity|exact P].
Qed.
Lemma fpix_len f d x y : gframe_ok (f, d) -> inside f x y = true -> zlen (fpix f d x y) = 4.
Proof.
  intros (A & B & C & D & E & L). cbn [fst snd] in *. unfold is_u16, inside, fpix in *. intros I.
  assert (R : 0 <= (y - g_top f) * g_w f + (x - g_left f) < g_w f * g_h f) by (apply idx_range; lia). rewrite zlen_zslice_gen by lia. lia.
Qed.
Lemma bad_pixel d p c : zlen c = 4 -> exists p' c', blend_and_dispose_pixel d p c = Ok (p', c') /\
  c' = (if opaque c then c else p) /\
  p' = match d with GAny | GKeep => c' | GBackground => clear4 | GPrevious => p end.
Proof.
  intros L. destruct c as [|a0 [|a1 [|a2 [|a3 [|a4 q]]]]]; unfold zlen in L; cbn [length] in L; try lia.
  cbn [blend_and_dispose_pixel opaque]. destruct (a3 =? 0); destruct d; cbn [negb]; eexists _, _; (split; [reflexivity|auto]).
Qed.

(** a loop over all coordinates that at each step updates two images at the current coordinate only *)
Lemma two_loop {P} W H (body : img P * img P -> Z -> Z -> res (img P * img P)) (pa pb : Z -> Z -> P) a b :
  0 <= W -> 0 <= H -> wf a -> wf b -> iw a = W -> ih a = H -> iw b = W -> ih b = H ->
  (forall s t x y, 0 <= x < W -> 0 <= y < H -> wf s -> wf t -> iw s = W -> ih s = H -> iw t = W -> ih t = H ->
     pixel s x y = pixel a x y -> pixel t x y = pixel b x y ->
     exists s' t', body (s, t) x y = Ok (s', t') /\ wf s' /\ wf t' /\ iw s' = W /\ ih s' = H /\ iw t' = W /\ ih t' = H /\
       (forall X Y, pixel s' X Y = if (X =? x) && (Y =? y) then Some (pa x y) else pixel s X Y) /\
       (forall X Y, pixel t' X Y = if (X =? x) && (Y =? y) then Some (pb x y) else pixel t X Y)) ->
  exists a' b', for2 W H body (a, b) = Ok (a', b') /\ wf a' /\ wf b' /\ iw a' = W /\ ih a' = H /\ iw b' = W /\ ih b' = H /\
    (forall x y, 0 <= x < W -> 0 <= y < H -> pixel a' x y = Some (pa x y) /\ pixel b' x y = Some (pb x y)).
Proof.
  intros HW HH Wa Wb A1 A2 B1 B2 Step. rewrite for2_coords.
  assert (G : forall l, NoDup l -> (forall c, In c l -> 0 <= fst c < W /\ 0 <= snd c < H) -> forall s t,
    wf s -> wf t -> iw s = W -> ih s = H -> iw t = W -> ih t = H ->
    (forall c, In c l -> pixel s (fst c) (snd c) = pixel a (fst c) (snd c) /\ pixel t (fst c) (snd c) = pixel b (fst c) (snd c)) ->
    exists a' b', foldM (fun s c => body s (fst c) (snd c)) l (s, t) = Ok (a', b') /\ wf a' /\ wf b' /\ iw a' = W /\ ih a' = H /\ iw b' = W /\ ih b' = H /\
      (forall c, In c l -> pixel a' (fst c) (snd c) = Some (pa (fst c) (snd c)) /\ pixel b' (fst c) (snd c) = Some (pb (fst c) (snd c))) /\
      (forall x y, ~ In (x, y) l -> pixel a' x y = pixel s x y /\ pixel b' x y = pixel t x y)).
  { induction l as [|[x y] l IH]; intros ND Hr s t Ws Wt S1 S2 T1 T2 Eq.
    - exists s, t. split; [reflexivity|]. do 6 (split; [auto|]). split; [intros c []|]. auto.
    - inversion ND as [|? ? Nin ND']; subst. destruct (Hr (x, y) (or_introl eq_refl)) as [Hx Hy]. cbn [fst snd] in *.
      destruct (Eq (x, y) (or_introl eq_refl)) as [E1 E2]. cbn [fst snd] in *.
      destruct (Step s t x y Hx Hy Ws Wt S1 S2 T1 T2 E1 E2) as (s' & t' & E & Ws' & Wt' & S1' & S2' & T1' & T2' & Ps & Pt).
      cbn [foldM fst snd]. rewrite E. cbn [bind].
      assert (NE : forall c, In c l -> (fst c =? x) && (snd c =? y) = false).
      { intros [cx cy] Hc. cbn. destruct ((cx =? x) && (cy =? y)) eqn:Q; auto. exfalso. apply Nin. replace x with cx by lia. replace y with cy by lia. exact Hc. }
      destruct (IH ND') with (s := s') (t := t') as (a' & b' & Ef & R1 & R2 & R3 & R4 & R5 & R6 & Hin & Hout); auto.
      { intros c Hc. apply Hr. right. auto. }
      { intros c Hc. rewrite Ps, Pt. rewrite (NE c Hc). apply Eq. right. auto. }
      exists a', b'. split; [exact Ef|]. do 6 (split; [auto|]). split.
      + intros c [<-|Hc]; [|apply Hin; auto]. cbn [fst snd]. destruct (Hout x y Nin) as [-> ->]. rewrite Ps, Pt. rewrite !Z.eqb_refl. cbn [andb]. auto.
      + intros X Y NI. destruct (Hout X Y) as [-> ->]; [intros Hc; apply NI; right; auto|]. rewrite Ps, Pt.
        replace ((X =? x) && (Y =? y)) with false; [auto|]. symmetry. destruct ((X =? x) && (Y =? y)) eqn:Q; auto. exfalso. apply NI. left. f_equal; lia. }
  destruct (G (coords W H) (NoDup_coords W H)) with (s := a) (t := b) as (a' & b' & Ef & R1 & R2 & R3 & R4 & R5 & R6 & Hin & Hout); auto.
  { intros [x y] Hc. apply In_coords in Hc. cbn. lia. }
  exists a', b'. split; [exact Ef|]. do 6 (split; [auto|]). intros x y Hx Hy. apply (Hin (x, y)). apply In_coords. lia.
Qed.

Lemma get_pixel_some {P} (im : img P) x y p : wf im -> 0 <= x < iw im -> 0 <= y < ih im -> pixel im x y = Some p -> get_pixel im x y = Ok p.
Proof. intros W Hx Hy E. unfold get_pixel. rewrite E. reflexivity. Qed.

Lemma compose_ok W H f d fb nd c : is_u16 W -> is_u16 H -> gframe_ok (f, d) -> frame_of (g_w f) (g_h f) d = Some fb -> gshows W H nd c ->
  exists nd' im, compose W H f nd fb = Ok (nd', im) /\ gshows W H im (gdrawn c f d) /\ gshows W H nd' (gdisposed c (gdrawn c f d) f).
Proof.
  intros BW BH OK Ef (N1 & N2 & N3 & N4). destruct (frame_of_ok f d OK) as (fb' & Ef' & F1 & F2 & F3 & F4). rewrite Ef in Ef'. apply Some_inj in Ef'. subst fb'.
  pose proof OK as (A & B & C & D & E & L). cbn [fst snd] in *. unfold compose.
  assert (BW' := BW). assert (BH' := BH). unfold is_u16 in BW', BH'.
  assert (G : forall x y, pixel nd x y = Some (c x y) -> True) by auto. clear G.
  destruct ((g_left f =? 0) && (g_top f =? 0) && ((W =? iw fb) && (H =? ih fb))) eqn:Full.
  - assert (g_left f = 0 /\ g_top f = 0 /\ iw fb = W /\ ih fb = H) as (L0 & T0 & Hw & Hh) by lia. rewrite Hw, Hh.
    assert (In' : forall x y, 0 <= x < W -> 0 <= y < H -> inside f x y = true) by (intros x y Hx Hy; unfold inside; lia).
    destruct (two_loop W H (fun '(nd, fb) x y =>
      p <- get_pixel nd x y ;; c <- get_pixel fb x y ;;
      '(p, c) <- blend_and_dispose_pixel (g_disp f) p c ;;
      nd <- put_pixel nd x y p ;; fb <- put_pixel fb x y c ;; Ok (nd, fb)) (gdisposed c (gdrawn c f d) f) (gdrawn c f d) nd fb) as (a' & b' & Er & R1 & R2 & R3 & R4 & R5 & R6 & Rp); auto; try lia.
    { intros s t x y Hx Hy Ws Wt S1 S2 T1 T2 P1 P2. rewrite N4 in P1 by auto.
      assert (P2' : pixel fb x y = Some (fpix f d x y)). { rewrite F4 by lia. unfold fpix. rewrite L0, T0. repeat f_equal; lia. }
      rewrite P2' in P2. unfold get_pixel. rewrite P1, P2. cbn [bind].
      destruct (bad_pixel (g_disp f) (c x y) (fpix f d x y) (fpix_len f d x y OK (In' x y Hx Hy))) as (p' & c' & Eb & Ec & Ep). rewrite Eb. cbn [bind].
      destruct (put_pixel_spec s x y p' Ws) as (s' & Es & Ws' & Sw & Sh & Sp); try lia. rewrite Es. cbn [bind].
      destruct (put_pixel_spec t x y c' Wt) as (t' & Et & Wt' & Tw & Th & Tp); try lia. rewrite Et. cbn [bind].
      assert (C' : gdrawn c f d x y = c') by (unfold gdrawn; rewrite In' by auto; cbn [andb]; auto).
      assert (P' : gdisposed c (gdrawn c f d) f x y = p') by (unfold gdisposed; rewrite In', C' by auto; rewrite Ep; destruct (g_disp f); reflexivity).
      exists s', t'. split; [reflexivity|]. do 2 (split; [auto|]). do 4 (split; [lia|]). rewrite P', C'. auto. }
    exists a', b'. split; [exact Er|]. split.
    + split; [auto|]. split; [lia|]. split; [lia|]. intros x y Hx Hy. apply Rp; auto.
    + split; [auto|]. split; [lia|]. split; [lia|]. intros x y Hx Hy. apply Rp; auto.
  - destruct (two_loop W H (fun '(nd, out) x y =>
      let fx := wsub x (g_left f) in
      let fy := wsub y (g_top f) in
      p <- get_pixel nd x y ;;
      if (fx <? iw fb) && (fy <? ih fb) then
        c <- get_pixel fb fx fy ;;
        '(p, c) <- blend_and_dispose_pixel (g_disp f) p c ;;
        nd <- put_pixel nd x y p ;; out <- put_pixel out x y c ;; Ok (nd, out)
      else out <- put_pixel out x y p ;; Ok (nd, out)) (gdisposed c (gdrawn c f d) f) (gdrawn c f d) nd (new_img W H clear4)) as (a' & b' & Er & R1 & R2 & R3 & R4 & R5 & R6 & Rp); auto; try lia.
    { apply wf_new_img; lia. }
    { intros s t x y Hx Hy Ws Wt S1 S2 T1 T2 P1 P2. rewrite N4 in P1 by auto. unfold get_pixel. rewrite P1. cbn [bind]. cbv zeta.
      destruct (wsub_in x (g_left f) (iw fb)) as [Ix Dx]; [unfold is_u16 in *; lia|auto|rewrite F2; auto|].
      destruct (wsub_in y (g_top f) (ih fb)) as [Iy Dy]; [unfold is_u16 in *; lia|auto|rewrite F3; auto|].
      assert (IN : (wsub x (g_left f) <? iw fb) && (wsub y (g_top f) <? ih fb) = inside f x y).
      { rewrite Ix, Iy. unfold inside. rewrite F2, F3. rewrite !Bool.andb_assoc. reflexivity. }
      rewrite IN. destruct (inside f x y) eqn:I.
      - assert (g_left f <= x < g_left f + g_w f /\ g_top f <= y < g_top f + g_h f) as [Rx Ry] by (unfold inside in I; lia).
        rewrite Dx, Dy by lia. rewrite F4 by lia. fold (fpix f d x y). cbn [bind].
        destruct (bad_pixel (g_disp f) (c x y) (fpix f d x y) (fpix_len f d x y OK I)) as (p' & c' & Eb & Ec & Ep). rewrite Eb. cbn [bind].
        destruct (put_pixel_spec s x y p' Ws) as (s' & Es & Ws' & Sw & Sh & Sp); try lia. rewrite Es. cbn [bind].
        destruct (put_pixel_spec t x y c' Wt) as (t' & Et & Wt' & Tw & Th & Tp); try lia. rewrite Et. cbn [bind].
        assert (C' : gdrawn c f d x y = c') by (unfold gdrawn; rewrite I; cbn [andb]; auto).
        assert (P' : gdisposed c (gdrawn c f d) f x y = p') by (unfold gdisposed; rewrite I, C'; rewrite Ep; destruct (g_disp f); reflexivity).
        exists s', t'. split; [reflexivity|]. do 2 (split; [auto|]). do 4 (split; [lia|]). rewrite P', C'. auto.
      - destruct (put_pixel_spec t x y (c x y) Wt) as (t' & Et & Wt' & Tw & Th & Tp); try lia. rewrite Et. cbn [bind].
        assert (C' : gdrawn c f d x y = c x y) by (unfold gdrawn; rewrite I; reflexivity).
        assert (P' : gdisposed c (gdrawn c f d) f x y = c x y) by (unfold gdisposed; rewrite I; auto).
        exists s, t'. split; [reflexivity|]. do 2 (split; [auto|]). do 4 (split; [lia|]). rewrite P', C'. split; [|auto].
        intros X Y. destruct ((X =? x) && (Y =? y)) eqn:Q; auto. replace X with x by lia. replace Y with y by lia. exact P1. }
    exists a', b'. split; [exact Er|]. split.
    + split; [auto|]. split; [lia|]. split; [lia|]. intros x y Hx Hy. apply Rp; auto.
    + split; [auto|]. split; [lia|]. split; [lia|]. intros x y Hx Hy. apply Rp; auto.
Qed.

Definition gstream (fs : list (gframe * list Z)) : list (gframe * res (list Z)) := map (fun fd => (fst fd, Ok (snd fd))) fs.
Definition gframe_shown (W H : Z) (o : option (res (img (list Z) * ratio))) (e : gcanvas * gframe) : Prop :=
  exists im, o = Some (Ok (im, mkRatio (g_delay (snd e) * 10) 1)) /\ gshows W H im (fst e).
Lemma gshows_new W H : 0 <= W -> 0 <= H -> gshows W H (new_img W H clear4) gblank.
Proof.
  intros HW HH. split; [apply wf_new_img; auto|]. split; [reflexivity|]. split; [reflexivity|].
  intros x y Hx Hy. apply pixel_new_img; lia.
Qed.
Lemma gif_run W H fs : is_u16 W -> is_u16 H -> Forall gframe_ok fs -> forall s c,
  gi_w s = W -> gi_h s = H -> gshows W H (match gi_nd s with Some i => i | None => new_img W H clear4 end) c -> gi_reader s = gstream fs ->
  exists s' outs, gif_frames (length fs) s = (s', outs) /\ gi_reader s' = [] /\ Forall2 (gframe_shown W H) outs (combine (gif_reference c fs) (map fst fs)).
Proof.
  intros BW BH F. induction fs as [|[f d] fs IH]; intros s c Sw Sh S R.
  - exists s, []. split; [reflexivity|]. split; [exact R|constructor].
  - inversion F as [|? ? OK F']; subst. pose proof OK as (A & B & C & D & E & L). cbn [fst snd] in *.
    cbn [length gif_frames]. unfold gif_next. rewrite R. cbn [gstream map fst snd bind].
    destruct (frame_of_ok f d OK) as (fb & Ef & _). rewrite Ef.
    destruct (compose_ok (gi_w s) (gi_h s) f d fb _ c BW BH OK Ef S) as (nd' & im & Ec & S1 & S2). rewrite Ec. cbn [bind].
    unfold frame_delay, mul_m. unfold is_u16, u16_max in E. replace (g_delay f * 10 <=? u32_max) with true by (unfold u32_max; lia).
    cbn [bind ratio_new Z.eqb].
    destruct (IH F' (mkGi (gi_w s) (gi_h s) (Some nd') (map (fun fd => (fst fd, Ok (snd fd))) fs)) (gdisposed c (gdrawn c f d) f)) as (s' & outs & E' & R' & FF); auto.
    rewrite E'. eexists _, _. split; [reflexivity|]. split; [auto|]. cbn [gif_reference map fst combine]. constructor; [|exact FF].
    exists im. cbn [fst snd]. auto.
Qed.
