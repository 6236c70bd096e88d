(** C61: fast_blur *)
From Coq Require Import ZArith Bool Reals Psatz.
From Flocq Require Import Core IEEE754.BinarySingleNaN.
From Verif Require Import Base BaseLemmas ListLemmas Color Float FloatProofs ColorF ColorFProofs GenImage Buffer Thumb ThumbSpec ThumbProofs Sample SampleProofs SampleProofs5 FastBlur FastBlurSpec FastBlurProofs FastBlurProofs2 FastBlurProofs3 FastBlurProofs4.
Local Open Scope Z_scope.

(** an image with u8 or u16 samples, n to a pixel; its Vec may be longer than needed *)
Definition buf_ok (t : sty) (n : Z) (b : ibuf Z) : Prop :=
  1 <= n /\ 1 <= bw b <= u32_max /\ 1 <= bh b <= u32_max /\ n * (bw b * bh b) <= zlen (data b) <= u64_max /\ Forall (is_sample t) (data b).
(** channel c of the pixel at (x, y) *)
Definition chan (n : Z) (b : ibuf Z) (c x y : Z) : Z := sample n (bw b) (data b) c x y.
(** (x, y) is a pixel of b and c a channel *)
Definition at_pixel (n : Z) (b : ibuf Z) (c x y : Z) : Prop := 0 <= c < n /\ 0 <= x < bw b /\ 0 <= y < bh b.
(** an image of the same size *)
Definition same_size (t : sty) (n : Z) (b o : ibuf Z) : Prop := bw o = bw b /\ bh o = bh b /\ zlen (data o) = n * (bw b * bh b) /\ Forall (is_sample t) (data o).
(** |sigma| is at most 32768 for u8, 126 for u16 *)
Definition moderate (t : sty) (sigma : f32) : Prop := is_finite sigma = true /\ (Rabs (B2R sigma) <= match t with U8 => 32768 | U16 => 126 end)%R.

Lemma from_raw_fits n w h (s : list Z) : 1 <= n -> 1 <= w -> 1 <= h -> zlen s = n * (w * h) -> zlen s <= u64_max -> from_raw n w h s = Some (mkBuf w h s).
Proof.
  intros N W H L U. unfold from_raw, check_image_fits, image_buffer_len, us_cmul. assert (A : n * w * h = zlen s) by (rewrite L; ring). assert (B : n * w <= zlen s) by nia. destruct (n * w <=? u64_max) eqn:X; [|lia]. destruct (n * w * h <=? u64_max) eqn:Y; [|lia]. destruct (n * w * h <=? zlen s) eqn:Q; [reflexivity|lia].
Qed.
(** The widths of the three boxes: odd, two neighbouring odd numbers, and with sigma^2 as the sum of their variances up to 0.18 (k + 1). *)
Theorem C61_widths sigma : is_finite sigma = true -> (Rabs (B2R sigma) <= 32768)%R -> gauss_widths (B2R sigma) (boxes_for_gauss sigma).
Proof. intros F B. apply gauss_ok; [split; [reflexivity|exact F]|exact B]. Qed.
(** fast_blur is three box blurs in each direction with these widths, each rounded down, the border pixels repeated. *)
Theorem C61_box_blur m t n b sigma : buf_ok t n b -> moderate t sigma -> exists o, fast_blur m t n b sigma = Ok o /\ same_size t n b o /\
  forall c x y, at_pixel n b c x y -> chan n o c x y = boxes (bw b) (bh b) (map (fun k => (k - 1) / 2) (boxes_for_gauss sigma)) (chan n b c) x y.
Proof.
  intros (N & W & H & L & F) (FS & BS). destruct (widths_fit t sigma (B2R sigma)) as (FT & LN); [split; [reflexivity|exact FS]|destruct t; exact BS|].
  destruct (passes_ok m t n (bw b) (bh b) (boxes_for_gauss sigma) W H N FT ltac:(intros E; rewrite E in LN; discriminate LN) (data b) ltac:(lia) F) as (o & E & LO & FO & G).
  exists (mkBuf (bw b) (bh b) o). unfold fast_blur. destruct (bw b =? 0) eqn:W0; [lia|]. destruct (bh b =? 0) eqn:H0; [lia|]. cbn [orb]. rewrite E. cbn [bind]. rewrite from_raw_fits by lia. split; [reflexivity|]. split; [repeat split; assumption|]. intros c x y (C & X & Y). exact (G c C x y X Y).
Qed.
Lemma blurred m t n b sigma o : buf_ok t n b -> moderate t sigma -> fast_blur m t n b sigma = Ok o -> same_size t n b o /\ exists p q r, 0 <= p /\ 0 <= q /\ 0 <= r /\ forall c x y, at_pixel n b c x y -> chan n o c x y = boxes (bw b) (bh b) [p; q; r] (chan n b c) x y.
Proof.
  intros HB HM E. destruct (C61_box_blur m t n b sigma HB HM) as (o' & E' & SS & G). rewrite E in E'. apply Ok_inj in E'. subst o'. split; [exact SS|]. destruct (widths_fit t sigma (B2R sigma)) as (FT & LN); [split; [reflexivity|apply HM]|destruct t; apply HM|].
  destruct (boxes_for_gauss sigma) as [|p [|q [|r [|]]]]; try discriminate LN. inversion FT as [|? ? P FT1]; subst. inversion FT1 as [|? ? Q FT2]; subst. inversion FT2 as [|? ? R _]; subst. exists (radius p), (radius q), (radius r). repeat (split; [eapply radius_ok; eassumption|]). exact G.
Qed.
(** The values of a channel stay between its smallest and its largest value; an area of one colour keeps it. *)
Theorem C61_range m t n b sigma o lo hi c : buf_ok t n b -> moderate t sigma -> fast_blur m t n b sigma = Ok o -> (forall x y, at_pixel n b c x y -> lo <= chan n b c x y <= hi) -> forall x y, at_pixel n b c x y -> lo <= chan n o c x y <= hi.
Proof.
  intros HB HM E B x y A. destruct (blurred m t n b sigma o HB HM E) as (_ & p & q & r & P & Q & R & G). rewrite G by exact A. destruct HB as (_ & W & H & _). destruct A as (C & X & Y). apply (boxes_bounded (bw b) (bh b) [p; q; r] lo hi); try lia; [repeat constructor; assumption|]. intros x' y' X' Y'. apply B. repeat split; lia.
Qed.
Theorem C61_constant m t n b sigma o c v : buf_ok t n b -> moderate t sigma -> fast_blur m t n b sigma = Ok o -> (forall x y, at_pixel n b c x y -> chan n b c x y = v) -> forall x y, at_pixel n b c x y -> chan n o c x y = v.
Proof. intros HB HM E B x y A. pose proof (C61_range m t n b sigma o v v c HB HM E) as Q. assert (v <= chan n o c x y <= v); [|lia]. apply Q; [|exact A]. intros x' y' A'. rewrite (B x' y' A'). lia. Qed.
(** A brighter image has a brighter blur; brightening by k brightens the blur by k. *)
Theorem C61_monotone m t n b b' sigma o o' c : buf_ok t n b -> buf_ok t n b' -> bw b' = bw b -> bh b' = bh b -> moderate t sigma -> fast_blur m t n b sigma = Ok o -> fast_blur m t n b' sigma = Ok o' ->
  (forall x y, at_pixel n b c x y -> chan n b c x y <= chan n b' c x y) -> forall x y, at_pixel n b c x y -> chan n o c x y <= chan n o' c x y.
Proof.
  intros HB HB' EW EH HM E E' B x y A. destruct (C61_box_blur m t n b sigma HB HM) as (o1 & E1 & _ & G1). destruct (C61_box_blur m t n b' sigma HB' HM) as (o2 & E2 & _ & G2). rewrite E in E1. apply Ok_inj in E1. subst o1. rewrite E' in E2. apply Ok_inj in E2. subst o2. rewrite G1 by exact A. rewrite G2 by (destruct A; split; [assumption|rewrite EW, EH; assumption]). rewrite EW, EH. destruct (widths_fit t sigma (B2R sigma)) as (FT & _); [split; [reflexivity|apply HM]|destruct t; apply HM|]. destruct HB as (_ & W & H & _). destruct A as (C & X & Y). apply (boxes_mono (bw b) (bh b)); try lia.
  - apply Forall_map_iff. eapply Forall_impl; [|exact FT]. intros k K. exact (proj1 (radius_ok t k K)).
  - intros x' y' X' Y'. apply B. repeat split; lia.
Qed.
Theorem C61_brightness m t n b b' sigma o o' c k : buf_ok t n b -> buf_ok t n b' -> bw b' = bw b -> bh b' = bh b -> moderate t sigma -> fast_blur m t n b sigma = Ok o -> fast_blur m t n b' sigma = Ok o' ->
  (forall x y, at_pixel n b c x y -> chan n b' c x y = chan n b c x y + k) -> forall x y, at_pixel n b c x y -> chan n o' c x y = chan n o c x y + k.
Proof.
  intros HB HB' EW EH HM E E' B x y A. destruct (C61_box_blur m t n b sigma HB HM) as (o1 & E1 & _ & G1). destruct (C61_box_blur m t n b' sigma HB' HM) as (o2 & E2 & _ & G2). rewrite E in E1. apply Ok_inj in E1. subst o1. rewrite E' in E2. apply Ok_inj in E2. subst o2. rewrite G1 by exact A. rewrite G2 by (destruct A; split; [assumption|rewrite EW, EH; assumption]). rewrite EW, EH. destruct (widths_fit t sigma (B2R sigma)) as (FT & _); [split; [reflexivity|apply HM]|destruct t; apply HM|]. destruct HB as (_ & W & H & _). destruct A as (C & X & Y). apply (boxes_shift (bw b) (bh b)); try lia.
  - apply Forall_map_iff. eapply Forall_impl; [|exact FT]. intros j K. exact (proj1 (radius_ok t j K)).
  - intros x' y' X' Y'. apply B. repeat split; lia.
Qed.
(** The blur of the mirror image is the mirror image of the blur. *)
Theorem C61_mirror m t n b b' sigma o o' c : buf_ok t n b -> buf_ok t n b' -> bw b' = bw b -> bh b' = bh b -> moderate t sigma -> fast_blur m t n b sigma = Ok o -> fast_blur m t n b' sigma = Ok o' ->
  ((forall x y, at_pixel n b c x y -> chan n b' c x y = chan n b c (bw b - 1 - x) y) -> forall x y, at_pixel n b c x y -> chan n o' c x y = chan n o c (bw b - 1 - x) y) /\
  ((forall x y, at_pixel n b c x y -> chan n b' c x y = chan n b c x (bh b - 1 - y)) -> forall x y, at_pixel n b c x y -> chan n o' c x y = chan n o c x (bh b - 1 - y)).
Proof.
  intros HB HB' EW EH HM E E'. destruct (C61_box_blur m t n b sigma HB HM) as (o1 & E1 & _ & G1). destruct (C61_box_blur m t n b' sigma HB' HM) as (o2 & E2 & _ & G2). rewrite E in E1. apply Ok_inj in E1. subst o1. rewrite E' in E2. apply Ok_inj in E2. subst o2. destruct (widths_fit t sigma (B2R sigma)) as (FT & _); [split; [reflexivity|apply HM]|destruct t; apply HM|].
  assert (RS : Forall (fun r => 0 <= r) (map (fun k => (k - 1) / 2) (boxes_for_gauss sigma))) by (apply Forall_map_iff; eapply Forall_impl; [|exact FT]; intros k K; exact (proj1 (radius_ok t k K))).
  split; intros B x y A; (rewrite G1 by (destruct A as (A1 & A2 & A3); repeat split; lia)); (rewrite G2 by (destruct A; split; [assumption|rewrite EW, EH; assumption])); rewrite EW, EH; destruct HB as (_ & W & H & _); destruct A as (C & X & Y).
  - apply (boxes_mirror_h (bw b) (bh b)); try lia; [exact RS|]. intros x' y' X' Y'. apply B. repeat split; lia.
  - apply (boxes_mirror_v (bw b) (bh b)); try lia; [exact RS|]. intros x' y' X' Y'. apply B. repeat split; lia.
Qed.
(** Against the same boxes without rounding the result is too dark by less than 6, and never too bright. *)
Theorem C61_darkening m t n b sigma o : buf_ok t n b -> moderate t sigma -> fast_blur m t n b sigma = Ok o -> forall c x y, at_pixel n b c x y ->
  (0 <= means (bw b) (bh b) (map (fun k => ((k - 1) / 2)%Z) (boxes_for_gauss sigma)) (fun x y => IZR (chan n b c x y)) x y - IZR (chan n o c x y) < 6)%R.
Proof.
  intros HB HM E c x y A. destruct (C61_box_blur m t n b sigma HB HM) as (o1 & E1 & _ & G1). rewrite E in E1. apply Ok_inj in E1. subst o1. rewrite G1 by exact A. destruct (widths_fit t sigma (B2R sigma)) as (FT & LN); [split; [reflexivity|apply HM]|destruct t; apply HM|].
  destruct (boxes_for_gauss sigma) as [|p [|q [|r [|]]]]; try discriminate LN. inversion FT as [|? ? P FT1]; subst. inversion FT1 as [|? ? Q FT2]; subst. inversion FT2 as [|? ? R _]; subst. destruct HB as (_ & W & H & _). destruct A as (C & X & Y). apply (boxes_lag (bw b) (bh b) (radius p) (radius q) (radius r)); try lia; eapply radius_ok; eassumption.
Qed.
(** |sigma| <= 0.55: nothing changes. *)
Theorem C61_small m t n b sigma : buf_ok t n b -> is_finite sigma = true -> (Rabs (B2R sigma) <= 0.55)%R -> exists o, fast_blur m t n b sigma = Ok o /\ same_size t n b o /\ forall c x y, at_pixel n b c x y -> chan n o c x y = chan n b c x y.
Proof.
  intros HB F B. destruct (C61_box_blur m t n b sigma HB) as (o & E & SS & G); [split; [exact F|destruct t; lra]|]. exists o. split; [exact E|]. split; [exact SS|]. intros c x y A. rewrite G by exact A. rewrite (small_widths sigma (B2R sigma)) by (exact B || (split; [reflexivity|exact F])). cbn [map]. change ((1 - 1) / 2) with 0. destruct A as (C & X & Y).
  assert (I1 : forall f : Z -> Z -> Z, forall x y, 0 <= x < bw b -> hbox (bw b) 0 f x y = f x y). { intros f x' y' X'. unfold hbox. change (offsets 0) with [0]. cbn [map zsum fold_right]. change (2 * 0 + 1) with 1. rewrite Z.div_1_r, !Z.add_0_r. f_equal. unfold clampz. lia. }
  assert (I2 : forall f : Z -> Z -> Z, forall x y, 0 <= y < bh b -> vbox (bh b) 0 f x y = f x y). { intros f x' y' Y'. unfold vbox. change (offsets 0) with [0]. cbn [map zsum fold_right]. change (2 * 0 + 1) with 1. rewrite Z.div_1_r, !Z.add_0_r. f_equal. unfold clampz. lia. }
  cbn [boxes fold_left]. rewrite !I2, !I1, !I2, !I1, !I2, !I1 by assumption. reflexivity.
Qed.
(** The sign of sigma does not matter; an empty image is returned as it is. *)
Theorem C61_sign m t n b sigma : fast_blur m t n b (f32_neg sigma) = fast_blur m t n b sigma.
Proof. assert (E : powi2 (f32_neg sigma) = powi2 sigma) by (apply B2SF_inj; destruct sigma as [s|s| |s mm e B]; [destruct s; reflexivity|destruct s; reflexivity|reflexivity|]; unfold powi2, f32_mul, f32_neg, Bopp, Bmult; rewrite !B2SF_SF2B; destruct s; reflexivity). unfold fast_blur, boxes_for_gauss, box_count, box_low. rewrite E. reflexivity. Qed.
Theorem C61_empty m t n b sigma : bw b = 0 \/ bh b = 0 -> fast_blur m t n b sigma = Ok b.
Proof. intros [E|E]; unfold fast_blur; rewrite E, Z.eqb_refl; rewrite ?orb_true_r; reflexivity. Qed.
(** An infinite or huge sigma gives a black image (transparent, with an alpha channel), a NaN panics in a debug build and gives a black image otherwise. *)
Definition black (n : Z) (b : ibuf Z) : ibuf Z := mkBuf (bw b) (bh b) (repeat 0 (Z.to_nat (n * (bw b * bh b)))).
Lemma passes_black m t n b ws : buf_ok t n b -> (exists k d, us_sub_m m k 1 = Ok d /\ d / 2 = huge /\ ws = [k; k; k]) -> passes m t n (bw b) (bh b) ws (data b) = Ok (data (black n b)).
Proof.
  intros (N & W & H & L & F) Q. destruct Q as (k & d & E & D & ->). unfold passes. cbn [foldM]. rewrite !E. cbn [bind]. rewrite !D.
  rewrite (half_black t (data b)) by (assumption || lia). cbn [bind]. set (z := repeat 0 (Z.to_nat (n * (bw b * bh b)))). assert (LZ : zlen z = n * (bw b * bh b)) by (unfold z; rewrite zlen_repeat; nia). assert (FZ : Forall (is_sample t) z) by (apply Forall_forall; intros v Hv; apply repeat_spec in Hv; subst v; unfold is_sample; pose proof (smax_range t); lia).
  assert (A : half t z (bh b) (bw b) huge n = Ok z) by (rewrite half_black by (assumption || lia); unfold z; do 3 f_equal; lia). assert (B : half t z (bw b) (bh b) huge n = Ok z) by (rewrite half_black by (assumption || lia); reflexivity). rewrite A. cbn [bind]. rewrite B. cbn [bind]. rewrite A. cbn [bind]. rewrite B. cbn [bind]. rewrite A. reflexivity.
Qed.
Lemma black_ok m t n b sigma : buf_ok t n b -> passes m t n (bw b) (bh b) (boxes_for_gauss sigma) (data b) = Ok (data (black n b)) -> fast_blur m t n b sigma = Ok (black n b).
Proof.
  intros (N & W & H & L & F) E. unfold fast_blur. destruct (bw b =? 0) eqn:W0; [lia|]. destruct (bh b =? 0) eqn:H0; [lia|]. cbn [orb]. rewrite E. cbn [bind]. assert (LZ : zlen (data (black n b)) = n * (bw b * bh b)) by (unfold black; cbn [data]; rewrite zlen_repeat; nia). rewrite from_raw_fits by lia. reflexivity.
Qed.
Theorem C61_huge m t n b sigma : buf_ok t n b -> is_nan sigma = false -> is_finite sigma = false \/ (IZR (2 ^ 64) <= Rabs (B2R sigma))%R -> fast_blur m t n b sigma = Ok (black n b).
Proof. intros HB NN HS. apply black_ok; [exact HB|]. rewrite (boxes_inf sigma (square_inf sigma NN HS)). apply passes_black; [exact HB|]. exists u64_max, (u64_max - 1). split; [reflexivity|]. split; reflexivity. Qed.
Theorem C61_nan t n b sigma : buf_ok t n b -> is_nan sigma = true -> fast_blur Debug t n b sigma = Panic /\ fast_blur Release t n b sigma = Ok (black n b).
Proof.
  intros HB NN. assert (E : boxes_for_gauss sigma = [0; 0; 0]) by (apply boxes_nan; destruct sigma; try discriminate NN; reflexivity). split.
  - destruct HB as (_ & W & H & _). unfold fast_blur. destruct (bw b =? 0) eqn:W0; [lia|]. destruct (bh b =? 0) eqn:H0; [lia|]. cbn [orb]. rewrite E. reflexivity.
  - apply black_ok; [exact HB|]. rewrite E. apply passes_black; [exact HB|]. exists 0, (0 - 1 + 2 ^ 64). split; [reflexivity|]. split; reflexivity.
Qed.
(** With 16-bit samples and a larger sigma the sums are no longer exact, and even a single pixel changes: 64001 becomes 64000. *)
Theorem C61_constant_u16_refuted m : fast_blur m U16 1 (mkBuf 1 1 [64001]) (f32_of_Z 200) = Ok (mkBuf 1 1 [64000]).
Proof. destruct m; vm_compute; reflexivity. Qed.

(** ** the hypotheses can be met *)
Example ex_buf : ibuf Z := mkBuf 3 2 [0; 10; 200; 20; 100; 30; 255; 40; 7; 50; 90; 60].
Example ex_ok : buf_ok U8 2 ex_buf.
Proof. unfold buf_ok, ex_buf, u32_max, u64_max. cbn [bw bh data]. repeat split; try lia; try (vm_compute; discriminate). repeat constructor; vm_compute; discriminate. Qed.
Example ex_moderate : moderate U8 (f32_of_Z 2) /\ moderate U16 (f32_of_Z 2).
Proof. destruct (int_isf 2 ltac:(lia)) as (E & F). split; split; try exact F; rewrite E, Rabs_pos_eq; lra. Qed.
Example ex_blur : fast_blur Debug U8 2 ex_buf (f32_of_Z 1) = Ok (mkBuf 3 2 [101; 23; 105; 30; 109; 36; 136; 33; 111; 40; 85; 46]).
Proof. vm_compute. reflexivity. Qed.
Example ex_huge : is_nan (f32_dyadic 1 80) = false /\ (IZR (2 ^ 64) <= Rabs (B2R (f32_dyadic 1 80)))%R.
Proof. destruct (isf_dyadic 1 80 ltac:(lia) ltac:(lia)) as (E & F). split; [destruct (f32_dyadic 1 80); reflexivity || discriminate F|]. rewrite E, Rmult_1_l. rewrite Rabs_pos_eq by apply bpow_ge_0. replace (bpow radix2 80) with (IZR (2 ^ 80)) by (apply (IZR_Zpower radix2); lia). apply IZR_le. lia. Qed.

Definition c61_theorems := (C61_widths, C61_box_blur, C61_range, C61_constant, C61_monotone, C61_brightness, C61_mirror, C61_darkening, C61_small, C61_sign, C61_empty, C61_huge, C61_nan, C61_constant_u16_refuted).
Print Assumptions c61_theorems.
