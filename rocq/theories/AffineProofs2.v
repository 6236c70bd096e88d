From Coq Require Import Permutation.
From Verif Require Import Base BaseLemmas Affine AffineProofs OrientProofs.

Lemma then_moved {P} (im : img P) (f g : img P -> res (img P)) w h F w2 h2 G K :
  (exists a, f im = Ok a /\ moved im a w h F) ->
  (forall a, wf a -> iw a = w -> ih a = h -> exists b, g a = Ok b /\ moved a b w2 h2 G) ->
  (forall x y, 0 <= x < w2 -> 0 <= y < h2 -> 0 <= fst (G x y) < w /\ 0 <= snd (G x y) < h) ->
  (forall x y, 0 <= x < w2 -> 0 <= y < h2 -> F (fst (G x y)) (snd (G x y)) = K x y) ->
  exists b, bind (f im) g = Ok b /\ moved im b w2 h2 K.
Proof.
  intros (a & Ea & Ma) Hg Hr HK. pose proof Ma as (Wa & Ew & Eh & _).
  destruct (Hg a Wa Ew Eh) as (b & Eb & Mb). exists b. rewrite Ea. split; [exact Eb|].
  eapply moved_ext; [exact HK|]. eapply moved_trans; eauto.
Qed.
Lemma moved_is_id {P} (im b : img P) r K : wf im ->
  r = Ok b -> moved im b (iw im) (ih im) K ->
  (forall x y, 0 <= x < iw im -> 0 <= y < ih im -> K x y = (x, y)) -> r = Ok im.
Proof.
  intros H -> M HK. f_equal. eapply moved_unique; [|apply moved_id; exact H].
  eapply moved_ext; [exact HK|exact M].
Qed.

Lemma r90_4 {P} (z : P) im : wf im ->
  (a <- rotate90 z im ;; b <- rotate90 z a ;; c <- rotate90 z b ;; rotate90 z c) = Ok im.
Proof.
  intros H.
  destruct (rotate90_moved z im H) as (a & E & M). rewrite E. cbn [bind].
  pose proof M as (Wa & Aw & Ah & _).
  destruct (rotate90_moved z a Wa) as (b & E2 & M2). rewrite E2. cbn [bind].
  pose proof M2 as (Wb & Bw & Bh & _).
  destruct (rotate90_moved z b Wb) as (c & E3 & M3). rewrite E3. cbn [bind].
  pose proof M3 as (Wc & Cw & Ch & _).
  destruct (rotate90_moved z c Wc) as (d & E4 & M4). rewrite E4. f_equal.
  rewrite Ch, Cw, Bh, Bw, Ah, Aw in *.
  eapply moved_unique; [|apply moved_id; exact H].
  eapply moved_ext; [|eapply moved_trans; [exact M|eapply moved_trans; [exact M2|eapply moved_trans; [exact M3|exact M4|]|]|]].
  all: cbn; intros; try (f_equal); lia.
Qed.
Lemma r90_270 {P} (z : P) im : wf im ->
  (a <- rotate90 z im ;; rotate270 z a) = Ok im /\
  (a <- rotate270 z im ;; rotate90 z a) = Ok im.
Proof.
  intros H. split.
  - destruct (then_moved im (rotate90 z) (rotate270 z) (ih im) (iw im) _ (iw im) (ih im)
      (fun x y => (ih im - 1 - y, x)) (fun x y => (x, y)) (rotate90_moved z im H)) as (b & E & M).
    + intros a Wa Aw Ah. destruct (rotate270_moved z a Wa) as (b & E & M). rewrite Aw, Ah in M. eauto.
    + cbn; intros; lia.
    + cbn; intros; f_equal; lia.
    + exact (moved_is_id im b _ _ H E M (fun x y _ _ => eq_refl)).
  - destruct (then_moved im (rotate270 z) (rotate90 z) (ih im) (iw im) _ (iw im) (ih im)
      (fun x y => (y, iw im - 1 - x)) (fun x y => (x, y)) (rotate270_moved z im H)) as (b & E & M).
    + intros a Wa Aw Ah. destruct (rotate90_moved z a Wa) as (b & E & M). rewrite Aw, Ah in M. eauto.
    + cbn; intros; lia.
    + cbn; intros; f_equal; lia.
    + exact (moved_is_id im b _ _ H E M (fun x y _ _ => eq_refl)).
Qed.
Lemma r180_2 {P} (z : P) im : wf im -> (a <- rotate180 z im ;; rotate180 z a) = Ok im.
Proof.
  intros H. destruct (then_moved im (rotate180 z) (rotate180 z) (iw im) (ih im) _ (iw im) (ih im)
      (fun x y => (iw im - 1 - x, ih im - 1 - y)) (fun x y => (x, y)) (rotate180_moved z im H)) as (b & E & M).
  - intros a Wa Aw Ah. destruct (rotate180_moved z a Wa) as (b & E & M). rewrite Aw, Ah in M. eauto.
  - cbn; intros; lia.
  - cbn; intros; f_equal; lia.
  - exact (moved_is_id im b _ _ H E M (fun x y _ _ => eq_refl)).
Qed.
Lemma fh_2 {P} (z : P) im : wf im -> (a <- flip_horizontal z im ;; flip_horizontal z a) = Ok im.
Proof.
  intros H. destruct (then_moved im (flip_horizontal z) (flip_horizontal z) (iw im) (ih im) _ (iw im) (ih im)
      (fun x y => (iw im - 1 - x, y)) (fun x y => (x, y)) (flip_horizontal_moved z im H)) as (b & E & M).
  - intros a Wa Aw Ah. destruct (flip_horizontal_moved z a Wa) as (b & E & M). rewrite Aw, Ah in M. eauto.
  - cbn; intros; lia.
  - cbn; intros; f_equal; lia.
  - exact (moved_is_id im b _ _ H E M (fun x y _ _ => eq_refl)).
Qed.
Lemma fv_2 {P} (z : P) im : wf im -> (a <- flip_vertical z im ;; flip_vertical z a) = Ok im.
Proof.
  intros H. destruct (then_moved im (flip_vertical z) (flip_vertical z) (iw im) (ih im) _ (iw im) (ih im)
      (fun x y => (x, ih im - 1 - y)) (fun x y => (x, y)) (flip_vertical_moved z im H)) as (b & E & M).
  - intros a Wa Aw Ah. destruct (flip_vertical_moved z a Wa) as (b & E & M). rewrite Aw, Ah in M. eauto.
  - cbn; intros; lia.
  - cbn; intros; f_equal; lia.
  - exact (moved_is_id im b _ _ H E M (fun x y _ _ => eq_refl)).
Qed.
Lemma r180_decomp {P} (z : P) im : wf im ->
  (a <- flip_vertical z im ;; flip_horizontal z a) = rotate180 z im /\
  (a <- flip_horizontal z im ;; flip_vertical z a) = rotate180 z im /\
  (a <- rotate90 z im ;; rotate90 z a) = rotate180 z im.
Proof.
  intros H. destruct (rotate180_moved z im H) as (r & Er & Mr). rewrite Er.
  assert (Hfin : forall x b, x = Ok b ->
    moved im b (iw im) (ih im) (fun x y => (iw im - 1 - x, ih im - 1 - y)) -> x = Ok r).
  { intros x b -> M. f_equal. eapply moved_unique; eauto. }
  split; [|split].
  - destruct (then_moved im (flip_vertical z) (flip_horizontal z) (iw im) (ih im) _ (iw im) (ih im)
      (fun x y => (iw im - 1 - x, y)) (fun x y => (iw im - 1 - x, ih im - 1 - y)) (flip_vertical_moved z im H)) as (b & E & M).
    + intros a Wa Aw Ah. destruct (flip_horizontal_moved z a Wa) as (b & E & M). rewrite Aw, Ah in M. eauto.
    + cbn; intros; lia.
    + cbn; intros; f_equal; lia.
    + exact (Hfin _ b E M).
  - destruct (then_moved im (flip_horizontal z) (flip_vertical z) (iw im) (ih im) _ (iw im) (ih im)
      (fun x y => (x, ih im - 1 - y)) (fun x y => (iw im - 1 - x, ih im - 1 - y)) (flip_horizontal_moved z im H)) as (b & E & M).
    + intros a Wa Aw Ah. destruct (flip_vertical_moved z a Wa) as (b & E & M). rewrite Aw, Ah in M. eauto.
    + cbn; intros; lia.
    + cbn; intros; f_equal; lia.
    + exact (Hfin _ b E M).
  - destruct (then_moved im (rotate90 z) (rotate90 z) (ih im) (iw im) _ (iw im) (ih im)
      (fun x y => (y, iw im - 1 - x)) (fun x y => (iw im - 1 - x, ih im - 1 - y)) (rotate90_moved z im H)) as (b & E & M).
    + intros a Wa Aw Ah. destruct (rotate90_moved z a Wa) as (b & E & M). rewrite Aw, Ah in M. eauto.
    + cbn; intros; lia.
    + cbn; intros; f_equal; lia.
    + exact (Hfin _ b E M).
Qed.

Lemma in_place_agree {P} (z : P) im : wf im ->
  rotate180_in_place im = rotate180 z im /\
  flip_horizontal_in_place im = flip_horizontal z im /\
  flip_vertical_in_place im = flip_vertical z im.
Proof.
  intros H. split; [|split].
  - destruct (rotate180_moved z im H) as (a & -> & Ma).
    destruct (rotate180_in_place_moved im H) as (b & -> & Mb). f_equal. eapply moved_unique; eauto.
  - destruct (flip_horizontal_moved z im H) as (a & -> & Ma).
    destruct (flip_h_in_place_moved im H) as (b & -> & Mb). f_equal. eapply moved_unique; eauto.
  - destruct (flip_vertical_moved z im H) as (a & -> & Ma).
    destruct (flip_v_in_place_moved im H) as (b & -> & Mb). f_equal. eapply moved_unique; eauto.
Qed.

Lemma affine_perm {P} (z : P) im f out : wf im ->
  In f [rotate90 z; rotate180 z; rotate270 z; flip_horizontal z; flip_vertical z] ->
  f im = Ok out -> Permutation (px im) (px out).
Proof.
  intros H Hf E. cbn [In] in Hf. destruct Hf as [<-|[<-|[<-|[<-|[<-|[]]]]]].
  - destruct (rotate90_moved z im H) as (a & Ea & M). rewrite E in Ea. injection Ea as <-.
    eapply moved_perm with (g := fun x y => (ih im - 1 - y, x)); eauto; cbn; intros;
      (split; [lia|f_equal; lia]).
  - destruct (rotate180_moved z im H) as (a & Ea & M). rewrite E in Ea. injection Ea as <-.
    eapply moved_perm with (g := fun x y => (iw im - 1 - x, ih im - 1 - y)); eauto; cbn; intros;
      (split; [lia|f_equal; lia]).
  - destruct (rotate270_moved z im H) as (a & Ea & M). rewrite E in Ea. injection Ea as <-.
    eapply moved_perm with (g := fun x y => (y, iw im - 1 - x)); eauto; cbn; intros;
      (split; [lia|f_equal; lia]).
  - destruct (flip_horizontal_moved z im H) as (a & Ea & M). rewrite E in Ea. injection Ea as <-.
    eapply moved_perm with (g := fun x y => (iw im - 1 - x, y)); eauto; cbn; intros;
      (split; [lia|f_equal; lia]).
  - destruct (flip_vertical_moved z im H) as (a & Ea & M). rewrite E in Ea. injection Ea as <-.
    eapply moved_perm with (g := fun x y => (x, ih im - 1 - y)); eauto; cbn; intros;
      (split; [lia|f_equal; lia]).
Qed.
