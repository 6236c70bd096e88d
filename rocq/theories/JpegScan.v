(** Scans: the blocks of an image through the entropy coder and back. *)
From Verif Require Import Base BaseLemmas ListLemmas ListMore BitLemmas GenImage Color ColorProofs Overlay OverlayProofs Jpeg JpegSpec JpegProofs JpegProofs2 JpegDct JpegQuant.
Local Open Scope Z_scope.

Definition dct (b : list Z) : list Z := match fdct b with Ok d => d | _ => [] end.
Definition coefs (q b : list Z) : list Z := quantised q (dct b).
Definition table_ok (q : list Z) : Prop := zlen q = 64 /\ Forall (fun v => 1 <= v <= 255) q.
Definition samples_ok (b : list Z) : Prop := zlen b = 64 /\ Forall (fun v => 0 <= v <= 255) b.
Definition in_range (c : list Z) : Prop := zlen c = 64 /\ -1024 <= nth 0 c 0 <= 1016 /\ Forall (fun v => Z.abs v < 2 ^ 10) (skipn 1 c).
Lemma div_round_between n q : 1 <= q -> Z.min 0 n <= div_round n q <= Z.max 0 n.
Proof.
  intros Hq. pose proof (div_round_abs n q Hq) as A. unfold div_round in *. assert (0 <= (2 * Z.abs n + q) / (2 * q)) by (apply Z.div_pos; lia). destruct (Z.sgn_spec n) as [(S & ->)|[(S & ->)|(S & ->)]]; lia.
Qed.
Lemma quot8 d M : Z.abs d <= 8 * M + 7 -> 0 <= M -> Z.abs (Z.quot d 8) <= M.
Proof. intros H HM. rewrite <- Z.quot_abs by lia. change (Z.abs 8) with 8. rewrite Z.quot_div_nonneg by lia. apply Z.lt_succ_r. apply Z.div_lt_upper_bound; lia. Qed.
Lemma coefs_ok q b : table_ok q -> samples_ok b -> exists d, fdct b = Ok d /\ quantize d q = coefs q b /\ in_range (coefs q b).
Proof.
  intros (LQ & FQ) (LB & FB). destruct (fdct_range b LB FB) as (dc & acs & E & LA & DC & AC). exists (dc :: acs). split; [exact E|]. unfold coefs, dct. rewrite E.
  assert (LD : zlen (dc :: acs) = 64) by (rewrite zlen_cons; lia).
  assert (FD : Forall (fun p => Z.abs (Z.quot (fst p) 8) <= 1024 /\ 1 <= snd p <= 255) (combine (dc :: acs) q)).
  { apply Forall_forall. intros [d v] H. pose proof (in_combine_l _ _ _ _ H) as H1. pose proof (in_combine_r _ _ _ _ H) as H2. rewrite Forall_forall in FQ, AC. split; [|exact (FQ _ H2)]. cbn [fst]. apply quot8; [|lia]. destruct H1 as [<-|H1]; [lia|]. specialize (AC _ H1). cbv beta in AC. lia. }
  split.
  - unfold quantize, quantised. apply map_ext_in. intros p Hp. rewrite Forall_forall in FD. destruct (FD p Hp). apply quantize1_ok; assumption.
  - unfold quantised. destruct q as [|q0 q]; [unfold zlen in LQ; cbn in LQ; lia|]. inversion FQ as [|? ? Q0 FQ']; subst. cbn [combine map fst snd]. split; [|split].
    + rewrite zlen_cons in *. rewrite zlen_map. unfold zlen in *. rewrite combine_length. lia.
    + cbn [nth]. pose proof (div_round_between (Z.quot dc 8) q0 ltac:(lia)) as B. assert (-1024 <= Z.quot dc 8 <= 1016); [|lia].
      split; [change (-1024) with (Z.quot (-8192) 8)|change 1016 with (Z.quot 8128 8)]; apply Z.quot_le_mono; lia.
    + cbn [skipn]. apply Forall_forall. intros v Hv. apply in_map_iff in Hv. destruct Hv as ([d w] & <- & H). cbn [fst snd]. pose proof (in_combine_l _ _ _ _ H) as H1. pose proof (in_combine_r _ _ _ _ H) as H2. rewrite Forall_forall in FQ', AC.
      specialize (AC _ H1). specialize (FQ' _ H2). cbv beta in *. pose proof (div_round_abs (Z.quot d 8) w ltac:(lia)). pose proof (quot8 d 1023 ltac:(lia) ltac:(lia)). change (2 ^ 10) with 1024. lia.
Qed.
Lemma in_range_block c prev : in_range c -> -1024 <= prev <= 1016 -> block_ok c prev.
Proof. intros (L & D & A) P. split; [exact L|]. split; [change (2 ^ 11) with 2048; lia|exact A]. Qed.
(** the sequence of blocks of a one-component scan *)
Lemma gray_scan {A} (step : bw * Z -> A -> res (bw * Z)) (blk : A -> list Z) dcl acl dct act base : dc_ok dcl dct -> ac_ok acl act ->
  forall ps, (forall p s dc, In p ps -> step (s, dc) p = write_block s (blk p) dc dcl acl) -> (forall p, In p ps -> in_range (blk p)) ->
  forall s B dc, rep base s B -> -1024 <= dc <= 1016 ->
  exists s' dc' E, foldM step ps (s, dc) = Ok (s', dc') /\ rep base s' (B ++ E) /\ forall r, decode_scan (length ps) [(dct, act)] [dc] (E ++ r) = Some (map (fun p => [in_zigzag (blk p)]) ps).
Proof.
  intros TD TA. induction ps as [|p ps IH]; intros ST RG s B dc R D.
  - exists s, dc, []. cbn [foldM length decode_scan map]. rewrite app_nil_r. auto.
  - cbn [foldM]. rewrite ST by (left; reflexivity). assert (IR := RG p ltac:(left; reflexivity)). destruct (write_block_ok base s B (blk p) dc dcl acl dct act TD TA (in_range_block _ _ IR D) R) as (s1 & E1 & W & R1 & DB). rewrite W. cbn [bind].
    destruct (IH ltac:(intros; apply ST; right; assumption) ltac:(intros; apply RG; right; assumption) s1 (B ++ E1) (nth 0 (blk p) 0) R1 ltac:(apply IR)) as (s2 & dc2 & E2 & W2 & R2 & D2).
    exists s2, dc2, (E1 ++ E2). split; [exact W2|]. split; [rewrite app_assoc; exact R2|]. intros r. cbn [length decode_scan decode_mcu]. rewrite <- app_assoc. rewrite DB. cbn [map nth]. replace (nth 0 (zz (blk p)) 0) with (nth 0 (blk p) 0) by reflexivity. rewrite D2. reflexivity.
Qed.
(** three components *)
Lemma rgb_scan {A} (step : bw * (Z * Z * Z) -> A -> res (bw * (Z * Z * Z))) (b1 b2 b3 : A -> list Z) base :
  forall ps, (forall p s d1 d2 d3, In p ps -> step (s, (d1, d2, d3)) p =
      ('(s, d1) <- write_block s (b1 p) d1 luma_dc_lut luma_ac_lut ;; '(s, d2) <- write_block s (b2 p) d2 chroma_dc_lut chroma_ac_lut ;;
       '(s, d3) <- write_block s (b3 p) d3 chroma_dc_lut chroma_ac_lut ;; Ok (s, (d1, d2, d3)))) ->
  (forall p, In p ps -> in_range (b1 p) /\ in_range (b2 p) /\ in_range (b3 p)) ->
  forall s B d1 d2 d3, rep base s B -> -1024 <= d1 <= 1016 -> -1024 <= d2 <= 1016 -> -1024 <= d3 <= 1016 ->
  exists s' d' E, foldM step ps (s, (d1, d2, d3)) = Ok (s', d') /\ rep base s' (B ++ E) /\
    forall r, decode_scan (length ps) [(luma_dc_t, luma_ac_t); (chroma_dc_t, chroma_ac_t); (chroma_dc_t, chroma_ac_t)] [d1; d2; d3] (E ++ r) =
      Some (map (fun p => [in_zigzag (b1 p); in_zigzag (b2 p); in_zigzag (b3 p)]) ps).
Proof.
  induction ps as [|p ps IH]; intros ST RG s B d1 d2 d3 R D1 D2 D3.
  - exists s, (d1, d2, d3), []. cbn [foldM length decode_scan map]. rewrite app_nil_r. auto.
  - cbn [foldM]. rewrite ST by (left; reflexivity). destruct (RG p ltac:(left; reflexivity)) as (I1 & I2 & I3).
    destruct (write_block_ok base s B (b1 p) d1 _ _ _ _ luma_dc_ok luma_ac_ok (in_range_block _ _ I1 D1) R) as (s1 & E1 & W1 & R1 & DB1). rewrite W1. cbn [bind].
    destruct (write_block_ok base s1 _ (b2 p) d2 _ _ _ _ chroma_dc_ok chroma_ac_ok (in_range_block _ _ I2 D2) R1) as (s2 & E2 & W2 & R2 & DB2). rewrite W2. cbn [bind].
    destruct (write_block_ok base s2 _ (b3 p) d3 _ _ _ _ chroma_dc_ok chroma_ac_ok (in_range_block _ _ I3 D3) R2) as (s3 & E3 & W3 & R3 & DB3). rewrite W3. cbn [bind].
    destruct (IH ltac:(intros; apply ST; right; assumption) ltac:(intros; apply RG; right; assumption) s3 _ (nth 0 (b1 p) 0) (nth 0 (b2 p) 0) (nth 0 (b3 p) 0) R3 ltac:(apply I1) ltac:(apply I2) ltac:(apply I3)) as (s4 & d4 & E4 & W4 & R4 & DS).
    exists s4, d4, (E1 ++ E2 ++ E3 ++ E4). split; [exact W4|]. split; [rewrite !app_assoc in *; exact R4|]. intros r. cbn [length decode_scan decode_mcu]. rewrite <- !app_assoc. rewrite DB1, DB2, DB3. cbn [map].
    replace (nth 0 (zz (b1 p)) 0) with (nth 0 (b1 p) 0) by reflexivity. replace (nth 0 (zz (b2 p)) 0) with (nth 0 (b2 p) 0) by reflexivity. replace (nth 0 (zz (b3 p)) 0) with (nth 0 (b3 p) 0) by reflexivity. rewrite DS. reflexivity.
Qed.
(** ** from the image *)
Lemma origins_in w h o : 0 <= w -> 0 <= h -> In o (block_origins w h) -> 0 <= fst o < w /\ 0 <= snd o < h.
Proof.
  intros Hw Hh H. apply in_map_iff in H. destruct H as ([a b] & <- & H). apply In_coords in H. cbn [fst snd]. zdm.
Qed.
Lemma near_pixel {P} (im : img P) x y : wf im -> 0 <= x -> 0 <= y -> 0 < iw im -> 0 < ih im -> exists p, pixel im (Z.min x (iw im - 1)) (Z.min y (ih im - 1)) = Some p /\ pixel_at_or_near im x y = Ok p /\ In p (px im).
Proof.
  intros W Hx Hy Hw Hh. destruct (pixel_in im (Z.min x (iw im - 1)) (Z.min y (ih im - 1)) W) as (p & E); [lia|lia|]. exists p. split; [exact E|]. split.
  - unfold pixel_at_or_near. destruct (inb im x y) eqn:I; apply get_pixel_ok; [|exact E]. unfold inb in I. rewrite <- E. f_equal; lia.
  - unfold pixel in E. destruct (inb im _ _); [|discriminate]. exact (zget_In _ _ _ E).
Qed.
Lemma block_coords_in c : In c (coords 8 8) -> 0 <= fst c < 8 /\ 0 <= snd c < 8.
Proof. destruct c. intros H. apply In_coords in H. exact H. Qed.
Lemma block_samples_ok {P} (f : P -> Z) (im : img P) o : wf im -> Forall (fun p => 0 <= f p <= 255) (px im) -> samples_ok (block_samples f im o).
Proof.
  intros W F. split; [unfold block_samples; rewrite zlen_map; reflexivity|]. unfold block_samples. apply Forall_map. apply Forall_forall. intros c _. destruct (pixel im _ _) as [p|] eqn:E; [|lia]. unfold pixel in E. destruct (inb im _ _); [|discriminate]. rewrite Forall_forall in F. exact (F _ (zget_In _ _ _ E)).
Qed.
Definition is_gray (k : kind) : Prop := k = Luma \/ k = LumaA.
Lemma gray_pixel k p : is_gray k -> is_pixel U8 k p -> from_color U8 U8 k Luma p = Ok [chan 0 p] /\ 0 <= chan 0 p <= 255.
Proof.
  intros K H. apply pixel_cases in H. destruct K as [-> | ->]; repeat match goal with H : exists _, _ |- _ => destruct H | H : _ /\ _ |- _ => destruct H end; subst; unfold is_sample, smax, u8_max in *; cbn; auto.
Qed.
Lemma copy_block_gray_ok k im o : is_gray k -> wf im -> Forall (is_pixel U8 k) (px im) -> In o (block_origins (iw im) (ih im)) -> copy_block_gray U8 k im (fst o) (snd o) = Ok (block_samples (chan 0) im o).
Proof.
  intros K W F H. destruct (origins_in (iw im) (ih im) o ltac:(apply W) ltac:(apply W) H) as (H1 & H2). unfold copy_block_gray, block_samples, block_coords. apply map_res_ok. intros c Hc. apply block_coords_in in Hc.
  destruct (near_pixel im (fst o + fst c) (snd o + snd c) W ltac:(lia) ltac:(lia) ltac:(lia) ltac:(lia)) as (p & E & -> & IP). rewrite E. cbn [bind]. rewrite Forall_forall in F. destruct (gray_pixel k p K (F p IP)) as (-> & R). cbn [bind]. unfold to_u8. replace ((0 <=? chan 0 p) && (chan 0 p <=? 255)) with true by lia. reflexivity.
Qed.
Lemma origins_nested w h : map (fun p => (snd p, fst p)) (flat_map (fun y => map (fun x => (y, x)) (map (fun k => k * 8) (zrange 0 ((w + 8 - 1) / 8)))) (map (fun k => k * 8) (zrange 0 ((h + 8 - 1) / 8)))) = block_origins w h.
Proof.
  unfold block_origins, coords. replace (w + 8 - 1) with (w + 7) by lia. replace (h + 8 - 1) with (h + 7) by lia. generalize (zrange 0 ((h + 7) / 8)) as ys. intros ys. induction ys as [|y ys IH]; [reflexivity|]. cbn [map flat_map]. rewrite !map_app, IH. f_equal. rewrite !map_map. apply map_ext. intros a. cbn [fst snd]. f_equal; lia.
Qed.
Lemma foldM_swap {T A B} (f : T -> A -> B -> res T) l s : foldM (fun s o => f s (fst o) (snd o)) l s = foldM (fun s o => f s (snd o) (fst o)) (map (fun p => (snd p, fst p)) l) s.
Proof. revert s. induction l as [|a l IH]; intros s; cbn [map foldM fst snd]; [reflexivity|]. destruct (f s (fst a) (snd a)); cbn [bind]; auto. Qed.
Lemma encode_gray_ok base s B k im q0 : is_gray k -> wf im -> Forall (is_pixel U8 k) (px im) -> table_ok q0 -> rep base s B ->
  exists s' E, encode_gray s U8 k im q0 = Ok s' /\ rep base s' (B ++ E) /\
    forall r, decode_scan (length (block_origins (iw im) (ih im))) [(luma_dc_t, luma_ac_t)] [0] (E ++ r) = Some (map (fun o => [in_zigzag (coefs q0 (block_samples (chan 0) im o))]) (block_origins (iw im) (ih im))).
Proof.
  intros K W F TQ R. unfold encode_gray. rewrite (step_by_ok (ih im) 8) by lia. cbn [bind].
  rewrite (foldM_nested (fun st y x => let '(s, dc) := st in b <- copy_block_gray U8 k im x y ;; d <- fdct b ;; write_block s (quantize d q0) dc luma_dc_lut luma_ac_lut) (step_by (iw im) 8) _ _ _ (step_by_ok (iw im) 8 ltac:(lia))).
  rewrite (foldM_swap (fun st y x => let '(s, dc) := st in b <- copy_block_gray U8 k im x y ;; d <- fdct b ;; write_block s (quantize d q0) dc luma_dc_lut luma_ac_lut)). rewrite origins_nested.
  assert (FS : Forall (fun p => 0 <= chan 0 p <= 255) (px im)) by (eapply Forall_impl; [|exact F]; intros p Hp; apply (gray_pixel k p K Hp)).
  destruct (gray_scan (fun st o => let '(s, dc) := st in b <- copy_block_gray U8 k im (fst o) (snd o) ;; d <- fdct b ;; write_block s (quantize d q0) dc luma_dc_lut luma_ac_lut) (fun o => coefs q0 (block_samples (chan 0) im o)) _ _ _ _ base luma_dc_ok luma_ac_ok (block_origins (iw im) (ih im))) with (s := s) (B := B) (dc := 0) as (s' & dc' & E & EF & R' & D).
  - intros o s0 dc Ho. rewrite (copy_block_gray_ok k im o K W F Ho). cbn [bind]. destruct (coefs_ok q0 (block_samples (chan 0) im o) TQ (block_samples_ok _ _ _ W FS)) as (d & -> & Q & _). cbn [bind]. rewrite Q. reflexivity.
  - intros o Ho. destruct (coefs_ok q0 (block_samples (chan 0) im o) TQ (block_samples_ok _ _ _ W FS)) as (d & _ & _ & IR). exact IR.
  - exact R.
  - lia.
  - rewrite EF. cbn [bind]. exists s', E. auto.
Qed.
Definition is_color (k : kind) : Prop := k = Rgb \/ k = Rgba.
Definition y_of (p : list Z) : Z := fst (fst (ycbcr (chan 0 p) (chan 1 p) (chan 2 p))).
Definition cb_of (p : list Z) : Z := snd (fst (ycbcr (chan 0 p) (chan 1 p) (chan 2 p))).
Definition cr_of (p : list Z) : Z := snd (ycbcr (chan 0 p) (chan 1 p) (chan 2 p)).
Lemma color_pixel k p : is_color k -> is_pixel U8 k p -> rgb_to_ycbcr U8 k p = Ok (y_of p, cb_of p, cr_of p) /\ 0 <= y_of p <= 255 /\ 0 <= cb_of p <= 255 /\ 0 <= cr_of p <= 255.
Proof.
  intros K H. split.
  - apply pixel_cases in H. destruct K as [-> | ->]; repeat match goal with H : exists _, _ |- _ => destruct H | H : _ /\ _ |- _ => destruct H end; subst; unfold is_sample, smax, u8_max in *; unfold rgb_to_ycbcr; cbn [from_color from_primitive bind]; unfold to_u8;
      repeat match goal with |- context [(0 <=? ?v) && (?v <=? 255)] => replace ((0 <=? v) && (v <=? 255)) with true by lia end; cbn [bind]; unfold y_of, cb_of, cr_of, chan; cbn [nth]; destruct (ycbcr _ _ _) as [[a b] c]; reflexivity.
  - unfold y_of, cb_of, cr_of, ycbcr, wrap_u8. cbn [fst snd]. zdm.
Qed.
Lemma copy_block_ycbcr_ok k im o : is_color k -> wf im -> Forall (is_pixel U8 k) (px im) -> In o (block_origins (iw im) (ih im)) ->
  exists bs, copy_block_ycbcr U8 k im (fst o) (snd o) = Ok bs /\ map (fun c => fst (fst c)) bs = block_samples y_of im o /\ map (fun c => snd (fst c)) bs = block_samples cb_of im o /\ map snd bs = block_samples cr_of im o.
Proof.
  intros K W F H. destruct (origins_in (iw im) (ih im) o ltac:(apply W) ltac:(apply W) H) as (H1 & H2).
  set (g := fun c : Z * Z => match pixel im (Z.min (fst o + fst c) (iw im - 1)) (Z.min (snd o + snd c) (ih im - 1)) with Some p => (y_of p, cb_of p, cr_of p) | None => (0, 0, 0) end). exists (map g (coords 8 8)). split.
  - unfold copy_block_ycbcr, block_coords. apply map_res_ok. intros c Hc. apply block_coords_in in Hc. unfold g. destruct (near_pixel im (fst o + fst c) (snd o + snd c) W ltac:(lia) ltac:(lia) ltac:(lia) ltac:(lia)) as (p & E & -> & IP). rewrite E. cbn [bind]. rewrite Forall_forall in F. apply (color_pixel k p K (F p IP)).
  - unfold block_samples. rewrite !map_map. repeat split; apply map_ext; intros c; unfold g; destruct (pixel im _ _); reflexivity.
Qed.
Lemma encode_rgb_ok base s B k im q0 q1 : is_color k -> wf im -> Forall (is_pixel U8 k) (px im) -> table_ok q0 -> table_ok q1 -> rep base s B ->
  exists s' E, encode_rgb s U8 k im q0 q1 = Ok s' /\ rep base s' (B ++ E) /\
    forall r, decode_scan (length (block_origins (iw im) (ih im))) [(luma_dc_t, luma_ac_t); (chroma_dc_t, chroma_ac_t); (chroma_dc_t, chroma_ac_t)] [0; 0; 0] (E ++ r) =
      Some (map (fun o => [in_zigzag (coefs q0 (block_samples y_of im o)); in_zigzag (coefs q1 (block_samples cb_of im o)); in_zigzag (coefs q1 (block_samples cr_of im o))]) (block_origins (iw im) (ih im))).
Proof.
  intros K W F TQ TQ1 R. unfold encode_rgb. rewrite (step_by_ok (ih im) 8) by lia. cbn [bind].
  set (body := fun (st : bw * (Z * Z * Z)) (y x : Z) => let '(s, (dy, db, dr)) := st in bs <- copy_block_ycbcr U8 k im x y ;; fy <- fdct (map (fun c => fst (fst c)) bs) ;; fb <- fdct (map (fun c => snd (fst c)) bs) ;; fr <- fdct (map snd bs) ;;
      '(s, dy) <- write_block s (quantize fy q0) dy luma_dc_lut luma_ac_lut ;; '(s, db) <- write_block s (quantize fb q1) db chroma_dc_lut chroma_ac_lut ;; '(s, dr) <- write_block s (quantize fr q1) dr chroma_dc_lut chroma_ac_lut ;; Ok (s, (dy, db, dr))).
  rewrite (foldM_nested body (step_by (iw im) 8) _ _ _ (step_by_ok (iw im) 8 ltac:(lia))). rewrite (foldM_swap body). rewrite origins_nested.
  assert (FS : Forall (fun p => 0 <= y_of p <= 255 /\ 0 <= cb_of p <= 255 /\ 0 <= cr_of p <= 255) (px im)) by (eapply Forall_impl; [|exact F]; intros p Hp; apply (color_pixel k p K Hp)).
  assert (S1 : forall o, samples_ok (block_samples y_of im o)) by (intros o; apply block_samples_ok; [exact W|eapply Forall_impl; [|exact FS]; intros p Hp; apply Hp]).
  assert (S2 : forall o, samples_ok (block_samples cb_of im o)) by (intros o; apply block_samples_ok; [exact W|eapply Forall_impl; [|exact FS]; intros p Hp; apply Hp]).
  assert (S3 : forall o, samples_ok (block_samples cr_of im o)) by (intros o; apply block_samples_ok; [exact W|eapply Forall_impl; [|exact FS]; intros p Hp; apply Hp]).
  destruct (rgb_scan (fun st o => body st (snd o) (fst o)) (fun o => coefs q0 (block_samples y_of im o)) (fun o => coefs q1 (block_samples cb_of im o)) (fun o => coefs q1 (block_samples cr_of im o)) base (block_origins (iw im) (ih im))) with (s := s) (B := B) (d1 := 0) (d2 := 0) (d3 := 0) as (s' & dc' & E & EF & R' & D); try lia; try exact R.
  - intros o s0 d1 d2 d3 Ho. unfold body. destruct (copy_block_ycbcr_ok k im o K W F Ho) as (bs & -> & M1 & M2 & M3). cbn [bind]. rewrite M1, M2, M3. destruct (coefs_ok q0 _ TQ (S1 o)) as (e1 & -> & Q1 & _). destruct (coefs_ok q1 _ TQ1 (S2 o)) as (e2 & -> & Q2 & _). destruct (coefs_ok q1 _ TQ1 (S3 o)) as (e3 & -> & Q3 & _). cbn [bind]. rewrite Q1, Q2, Q3. reflexivity.
  - intros o Ho. destruct (coefs_ok q0 _ TQ (S1 o)) as (e1 & _ & _ & I1). destruct (coefs_ok q1 _ TQ1 (S2 o)) as (e2 & _ & _ & I2). destruct (coefs_ok q1 _ TQ1 (S3 o)) as (e3 & _ & _ & I3). auto.
  - rewrite EF. cbn [bind]. exists s', E. auto.
Qed.
