(** C72: hue rotation.  [cosd], [sind]: the platform's cosine and sine of an angle in degrees; nothing is assumed of them beyond what a statement says. *)
From Coq Require Import ZArith Bool Reals Lia Lra.
From Flocq Require Import Core IEEE754.BinarySingleNaN.
From Verif Require Import Base BaseLemmas GenImage Color Float FloatProofs ColorProofs Thumb ThumbSpec ThumbProofs3 Filter3Spec Hue HueSpec HueProofs.
Local Open Scope Z_scope.

(** Whatever cosine and sine in [-1, 1] the platform returns, hue rotation does not panic, the two functions agree, size and type are kept, and each of
    the first three samples is the rotated one limited to 0..255 and rounded down, up to 2^-31; in RGBA alpha is kept (up to 255). *)
Theorem C72_rotates cosd sind t k im v :
  img_ok t k im ->
  is_finite (cosd v) = true -> (Rabs (B2R (cosd v)) <= 1)%R -> is_finite (sind v) = true -> (Rabs (B2R (sind v)) <= 1)%R ->
  exists r, huerotate cosd sind t k im v = Ok r /\ huerotate_in_place cosd sind t k im v = Ok r /\
    iw r = iw im /\ ih r = ih im /\ img_ok t k r /\
    forall x y p, pixel im x y = Some p -> exists q, pixel r x y = Some q /\
      (forall i, (i < 3)%nat -> (i < Z.to_nat (nch k))%nat ->
         let w := limited 0 255 (rotated i (B2R (cosd v)) (B2R (sind v)) (IZR (nth 0 p (smax t))) (IZR (nth 1 p (smax t))) (IZR (nth 2 p (smax t)))) in
         (- (/ 2147483648) <= w - IZR (nth i q 0%Z) < 1 + / 2147483648)%R) /\
      (k = Rgba -> nth 3 q 0 = Z.min 255 (nth 3 p 0)).
Proof.
  intros HI Fc Hc Fs Hs. eexists. split; [apply hue_img; [exact HI|split; assumption..]|]. split; [apply hue_img_in_place; [exact HI|split; assumption..]|].
  split; [reflexivity|split; [reflexivity|]]. pose proof HI as (W & F). rewrite Forall_forall in F.
  assert (T : forall p, In p (px im) -> px_ok t k (B2R (cosd v)) (B2R (sind v)) p (total t k (cosd v) (sind v) p)).
  { intros p Hp. destruct (hue_pixel_ok t k (cosd v) (sind v) p (conj Fc Hc) (conj Fs Hs) (F p Hp)) as (q & E & Q). unfold total. now rewrite E. }
  split.
  - split; [apply wf_map, W|]. cbn [px]. apply Forall_forall. intros q Hq. apply in_map_iff in Hq as (p & <- & Hp). apply (T p Hp).
  - intros x y p Hp. exists (total t k (cosd v) (sind v) p). rewrite pixel_map, Hp. split; [reflexivity|].
    assert (I : In p (px im)) by (unfold pixel in Hp; destruct (inb im x y); [now apply zget_In in Hp|discriminate]).
    destruct (T p I) as (_ & _ & Q & A). split; [exact Q|exact A].
Qed.

(** With a cosine and sine within d of those of the angle, the result is that of the true rotation up to 2^-31 + 4 d max *)
Theorem C72_angle cosd sind t k im v (d : R) :
  img_ok t k im ->
  is_finite (cosd v) = true -> (Rabs (B2R (cosd v)) <= 1)%R -> is_finite (sind v) = true -> (Rabs (B2R (sind v)) <= 1)%R ->
  (Rabs (B2R (cosd v) - cos (IZR v * PI / 180)) <= d)%R -> (Rabs (B2R (sind v) - sin (IZR v * PI / 180)) <= d)%R ->
  exists r, huerotate cosd sind t k im v = Ok r /\
    forall x y p, pixel im x y = Some p -> exists q, pixel r x y = Some q /\
      (forall i, (i < 3)%nat -> (i < Z.to_nat (nch k))%nat ->
         let w := limited 0 255 (rotated i (cos (IZR v * PI / 180)) (sin (IZR v * PI / 180)) (IZR (nth 0 p (smax t))) (IZR (nth 1 p (smax t))) (IZR (nth 2 p (smax t)))) in
         let e := (/ 2147483648 + 4 * d * IZR (smax t))%R in
         (- e <= w - IZR (nth i q 0%Z) < 1 + e)%R).
Proof.
  intros HI Fc Hc Fs Hs Dc Ds. destruct (C72_rotates cosd sind t k im v HI Fc Hc Fs Hs) as (r & E & _ & _ & _ & _ & H). exists r. split; [exact E|].
  intros x y p Hp. destruct (H x y p Hp) as (q & Hq & Q & _). exists q. split; [exact Hq|]. intros i H3 Hk. specialize (Q i H3 Hk). cbv zeta in Q |- *.
  assert (SP : forall j, (0 <= IZR (nth j p (smax t)) <= IZR (smax t))%R).
  { intros j. destruct HI as (_ & F). rewrite Forall_forall in F. assert (I : In p (px im)) by (unfold pixel in Hp; destruct (inb im x y); [now apply zget_In in Hp|discriminate]).
    pose proof (proj2 (channels4_ok t k p (F p I)) j) as S. unfold is_sample in S. split; apply IZR_le; lia. }
  pose proof (SP 0%nat) as R0. pose proof (SP 1%nat) as R1. pose proof (SP 2%nat) as R2.
  set (C := B2R (cosd v)) in *. set (S := B2R (sind v)) in *. set (c := cos _) in *. set (s := sin _) in *.
  set (a := IZR (nth 0 p (smax t))) in *. set (g := IZR (nth 1 p (smax t))) in *. set (b := IZR (nth 2 p (smax t))) in *. set (M := IZR (smax t)) in *.
  assert (D0 : (0 <= d)%R) by (eapply Rle_trans; [apply Rabs_pos|exact Dc]).
  assert (L : forall kc ks z, (Rabs kc + Rabs ks <= 1430 / 1000)%R -> (0 <= z <= M)%R -> (Rabs (((C - c) * kc + (S - s) * ks) * z) <= d * (Rabs kc + Rabs ks) * M)%R).
  { intros kc ks z K Z. rewrite Rabs_mult, (Rabs_pos_eq z) by lra. apply Rmult_le_compat; [apply Rabs_pos|lra| |lra].
    eapply Rle_trans; [apply Rabs_triang|]. rewrite !Rabs_mult. rewrite Rmult_plus_distr_l. apply Rplus_le_compat; apply Rmult_le_compat_r; auto using Rabs_pos. }
  assert (DM : (0 <= d * M)%R) by (apply Rmult_le_pos; lra).
  assert (N : (Rabs (rotated i C S a g b - rotated i c s a g b) <= 4 * d * M)%R).
  { destruct i as [|[|[|i]]]; [| | |lia]; cbn [rotated].
    - replace (_ - _)%R with (((C - c) * (787 / 1000) + (S - s) * (- (213 / 1000))) * a + ((C - c) * (- (715 / 1000)) + (S - s) * (- (715 / 1000))) * g + ((C - c) * (- (72 / 1000)) + (S - s) * (928 / 1000)) * b)%R by ring.
      pose proof (L (787 / 1000) (- (213 / 1000)) a)%R as L0. pose proof (L (- (715 / 1000)) (- (715 / 1000)) g)%R as L1. pose proof (L (- (72 / 1000)) (928 / 1000) b)%R as L2.
      rewrite ?Rabs_Ropp in *. rewrite !(Rabs_pos_eq (_ / 1000)) in * by lra. specialize (L0 ltac:(lra) R0). specialize (L1 ltac:(lra) R1). specialize (L2 ltac:(lra) R2).
      eapply Rle_trans; [apply Rabs_triang|]. eapply Rle_trans; [apply Rplus_le_compat_r, Rabs_triang|]. lra.
    - replace (_ - _)%R with (((C - c) * (- (213 / 1000)) + (S - s) * (143 / 1000)) * a + ((C - c) * (285 / 1000) + (S - s) * (140 / 1000)) * g + ((C - c) * (- (72 / 1000)) + (S - s) * (- (283 / 1000))) * b)%R by ring.
      pose proof (L (- (213 / 1000)) (143 / 1000) a)%R as L0. pose proof (L (285 / 1000) (140 / 1000) g)%R as L1. pose proof (L (- (72 / 1000)) (- (283 / 1000)) b)%R as L2.
      rewrite ?Rabs_Ropp in *. rewrite !(Rabs_pos_eq (_ / 1000)) in * by lra. specialize (L0 ltac:(lra) R0). specialize (L1 ltac:(lra) R1). specialize (L2 ltac:(lra) R2).
      eapply Rle_trans; [apply Rabs_triang|]. eapply Rle_trans; [apply Rplus_le_compat_r, Rabs_triang|]. lra.
    - replace (_ - _)%R with (((C - c) * (- (213 / 1000)) + (S - s) * (- (787 / 1000))) * a + ((C - c) * (- (715 / 1000)) + (S - s) * (715 / 1000)) * g + ((C - c) * (928 / 1000) + (S - s) * (72 / 1000)) * b)%R by ring.
      pose proof (L (- (213 / 1000)) (- (787 / 1000)) a)%R as L0. pose proof (L (- (715 / 1000)) (715 / 1000) g)%R as L1. pose proof (L (928 / 1000) (72 / 1000) b)%R as L2.
      rewrite ?Rabs_Ropp in *. rewrite !(Rabs_pos_eq (_ / 1000)) in * by lra. specialize (L0 ltac:(lra) R0). specialize (L1 ltac:(lra) R1). specialize (L2 ltac:(lra) R2).
      eapply Rle_trans; [apply Rabs_triang|]. eapply Rle_trans; [apply Rplus_le_compat_r, Rabs_triang|]. lra. }
  apply limited_close in N. apply Rabs_le_inv in N. lra.
Qed.

(** Greys of RGB and RGBA images stay greys, at most one darker *)
Theorem C72_greys cosd sind t k im v : k = Rgb \/ k = Rgba ->
  img_ok t k im ->
  is_finite (cosd v) = true -> (Rabs (B2R (cosd v)) <= 1)%R -> is_finite (sind v) = true -> (Rabs (B2R (sind v)) <= 1)%R ->
  exists r, huerotate cosd sind t k im v = Ok r /\
    forall x y p l, pixel im x y = Some p -> 0 <= l <= 255 -> (forall i, (i < 3)%nat -> nth i p 0 = l) ->
    exists q, pixel r x y = Some q /\ forall i, (i < 3)%nat -> nth i q 0 = l \/ nth i q 0 = l - 1.
Proof.
  intros HK HI Fc Hc Fs Hs. destruct (C72_rotates cosd sind t k im v HI Fc Hc Fs Hs) as (r & E & _ & _ & _ & _ & H). exists r. split; [exact E|].
  intros x y p l Hp Hl G. destruct (H x y p Hp) as (q & Hq & Q & _). exists q. split; [exact Hq|]. intros i H3.
  specialize (Q i H3 ltac:(destruct HK as [-> | ->]; cbn; lia)). cbv zeta in Q.
  assert (LP : (3 <= length p)%nat).
  { destruct HI as (_ & F). rewrite Forall_forall in F. assert (I : In p (px im)) by (unfold pixel in Hp; destruct (inb im x y); [now apply zget_In in Hp|discriminate]).
    destruct (F p I) as (Lp & _). unfold zlen in Lp. destruct HK as [-> | ->]; cbn [nch] in Lp; lia. }
  rewrite !(nth_indep p (smax t) 0) in Q by lia. rewrite !G in Q by lia.
  assert (R : rotated i (B2R (cosd v)) (B2R (sind v)) (IZR l) (IZR l) (IZR l) = IZR l) by (destruct i as [|[|i]]; cbn [rotated]; field).
  rewrite R in Q. assert (LM : limited 0 255 (IZR l) = IZR l) by (unfold limited; rewrite Rmax_right by (apply IZR_le; lia); apply Rmin_right; apply IZR_le; lia).
  rewrite LM, <- minus_IZR in Q. destruct Q as (Q1 & Q2).
  assert (0 <= l - nth i q 0) by (apply Z.lt_pred_le, lt_IZR; cbn; lra). assert (l - nth i q 0 < 2) by (apply lt_IZR; lra). lia.
Qed.

(** "0 does nothing": for 8-bit images of every kind, if cos 0 = 1 and sin 0 = 0 *)
Definition one : f64 := f64_of_Z 1.
Definition zero : f64 := f64_of_Z 0.
Lemma exact_row m0 m1 m2 (a0 a1 a2 : Z) r g b : B2R m0 = IZR a0 -> B2R m1 = IZR a1 -> B2R m2 = IZR a2 -> is_finite m0 = true -> is_finite m1 = true -> is_finite m2 = true ->
  0 <= a0 <= 1 -> 0 <= a1 <= 1 -> 0 <= a2 <= 1 -> 0 <= r <= 255 -> 0 <= g <= 255 -> 0 <= b <= 255 ->
  is_finite (hue_row (m0, m1, m2) (f64_of_Z r) (f64_of_Z g) (f64_of_Z b)) = true /\
  B2R (hue_row (m0, m1, m2) (f64_of_Z r) (f64_of_Z g) (f64_of_Z b)) = IZR (a0 * r + a1 * g + a2 * b).
Proof.
  intros E0 E1 E2 F0 F1 F2 A0 A1 A2 Hr Hg Hb.
  assert (P : forall m a n, B2R m = IZR a -> is_finite m = true -> 0 <= a <= 1 -> 0 <= n <= 255 -> is_finite (f64_mul m (f64_of_Z n)) = true /\ B2R (f64_mul m (f64_of_Z n)) = IZR (a * n)).
  { intros m a n E F A N. destruct (ofZ_ok 53 1024 _ _ n ltac:(lia)) as (En & Fn). fold (f64_of_Z n) in En, Fn.
    destruct (mul_ok 53 1024 _ _ m (f64_of_Z n) 255 F Fn ltac:(lia)) as (V & G); [rewrite E, En, <- mult_IZR, <- abs_IZR; apply IZR_le; nia|].
    split; [exact G|]. unfold f64_mul. rewrite V, E, En, <- mult_IZR. apply (RN_repr 53 1024 _). apply (repr_Z 53 1024 _ _). nia. }
  assert (S : forall x y i j, B2R x = IZR i -> is_finite x = true -> B2R y = IZR j -> is_finite y = true -> 0 <= i <= 1000 -> 0 <= j <= 1000 -> is_finite (f64_add x y) = true /\ B2R (f64_add x y) = IZR (i + j)).
  { intros x y i j Ex Fx Ey Fy Hi Hj. destruct (add_ok 53 1024 _ _ x y 2000 Fx Fy ltac:(lia)) as (V & G); [rewrite Ex, Ey, <- plus_IZR, <- abs_IZR; apply IZR_le; lia|].
    split; [exact G|]. unfold f64_add. rewrite V, Ex, Ey, <- plus_IZR. apply (RN_repr 53 1024 _). apply (repr_Z 53 1024 _ _). lia. }
  destruct (P _ _ _ E0 F0 A0 Hr) as (G0 & V0). destruct (P _ _ _ E1 F1 A1 Hg) as (G1 & V1). destruct (P _ _ _ E2 F2 A2 Hb) as (G2 & V2).
  destruct (S _ _ _ _ V0 G0 V1 G1 ltac:(nia) ltac:(nia)) as (G3 & V3). unfold hue_row. apply S; auto; nia.
Qed.
Definition unit_bit (x : f64) (a : Z) : bool :=
  match B2SF x with SpecFloat.S754_zero _ => a =? 0 | SpecFloat.S754_finite false 4503599627370496 (-52) => a =? 1 | _ => false end.
Lemma unit_bit_ok x a : unit_bit x a = true -> is_finite x = true /\ B2R x = IZR a /\ 0 <= a <= 1.
Proof.
  intros H. unfold unit_bit in H. pose proof (SF2R_B2SF 53 1024 x) as E. rewrite <- is_finite_SF_B2SF. destruct (B2SF x) as [s | s | | s m e]; try discriminate.
  - apply Z.eqb_eq in H as ->. rewrite <- E. repeat split; try lia.
  - assert (C : s = false /\ m = 4503599627370496%positive /\ e = -52 /\ a = 1).
    { destruct s; [discriminate|]. destruct (Pos.eq_dec m 4503599627370496) as [-> | N]; [destruct (Z.eq_dec e (-52)) as [-> | N]|].
      - apply Z.eqb_eq in H. auto.
      - exfalso. clear E. repeat (destruct e as [|e|e]; try discriminate; try (now apply N)); repeat (destruct e as [e|e|]; try discriminate; try (now apply N)).
      - exfalso. clear E. repeat (destruct m as [m|m|]; try discriminate; try (now apply N)). }
    destruct C as (-> & -> & -> & ->). rewrite <- E. repeat split; try lia. cbn [SF2R]. unfold F2R. cbn. lra.
Qed.
Lemma matrix_rows : exists m0 m1 m2 m3 m4 m5 m6 m7 m8, hue_matrix one zero = [(m0, m1, m2); (m3, m4, m5); (m6, m7, m8)] /\
  unit_bit m0 1 = true /\ unit_bit m1 0 = true /\ unit_bit m2 0 = true /\ unit_bit m3 0 = true /\ unit_bit m4 1 = true /\ unit_bit m5 0 = true /\
  unit_bit m6 0 = true /\ unit_bit m7 0 = true /\ unit_bit m8 1 = true.
Proof.
  unfold hue_matrix. do 9 eexists. split; [reflexivity|]. repeat apply conj; vm_compute; reflexivity.
Qed.
Lemma same_channels k p : is_pixel U8 k p -> from_channels k [nth 0 p (smax U8); nth 1 p (smax U8); nth 2 p (smax U8); nth 3 p (smax U8)] = p.
Proof.
  intros (L & _). unfold zlen in L.
  destruct k; cbn [nch] in L; destruct p as [|? [|? [|? [|? [|]]]]]; cbn [length] in L; try (exfalso; lia); reflexivity.
Qed.
Lemma zero_pixel k p : is_pixel U8 k p -> hue_pixel U8 k one zero p = Ok p.
Proof.
  intros HP. destruct (channels4_ok U8 k p HP) as (E & HS). unfold hue_pixel. rewrite E.
  assert (R : forall i, 0 <= nth i p (smax U8) <= 255) by (intros i; specialize (HS i); unfold is_sample in HS; change (smax U8) with 255 in *; lia).
  set (a := nth 0 p (smax U8)) in *. set (g := nth 1 p (smax U8)) in *. set (b := nth 2 p (smax U8)) in *. set (l := nth 3 p (smax U8)) in *.
  pose proof (R 0%nat) as Ra. pose proof (R 1%nat) as Rg. pose proof (R 2%nat) as Rb. pose proof (R 3%nat) as Rl. fold a in Ra. fold g in Rg. fold b in Rb. fold l in Rl.
  assert (CI : forall v n, is_finite v = true -> B2R v = IZR n -> 0 <= n <= 255 -> hue_cast U8 v = Ok n).
  { intros v n F V N. destruct (hue_cast_ok U8 v F) as (z & Ez & Bz & Q1 & Q2). rewrite Ez. f_equal. rewrite V in Q1, Q2.
    assert (LM : limited 0 255 (IZR n) = IZR n) by (unfold limited; rewrite Rmax_right by (apply IZR_le; lia); apply Rmin_right; apply IZR_le; lia).
    rewrite LM in Q1, Q2. apply le_IZR in Q1. rewrite <- plus_IZR in Q2. apply lt_IZR in Q2. lia. }
  assert (M : forall m0 m1 m2 a0 a1 a2 n, unit_bit m0 a0 = true -> unit_bit m1 a1 = true -> unit_bit m2 a2 = true -> a0 * a + a1 * g + a2 * b = n -> 0 <= n <= 255 ->
    hue_cast U8 (hue_row (m0, m1, m2) (f64_of_Z a) (f64_of_Z g) (f64_of_Z b)) = Ok n).
  { intros m0 m1 m2 a0 a1 a2 n U0 U1 U2 <- N. apply unit_bit_ok in U0 as (F0 & V0 & A0). apply unit_bit_ok in U1 as (F1 & V1 & A1). apply unit_bit_ok in U2 as (F2 & V2 & A2).
    destruct (exact_row m0 m1 m2 a0 a1 a2 a g b V0 V1 V2 F0 F1 F2 A0 A1 A2 Ra Rg Rb) as (F & V). apply CI; assumption. }
  destruct matrix_rows as (m0 & m1 & m2 & m3 & m4 & m5 & m6 & m7 & m8 & EM & U0 & U1 & U2 & U3 & U4 & U5 & U6 & U7 & U8'). cbv zeta. rewrite EM. cbn [map_res bind].
  rewrite (M m0 m1 m2 1 0 0 a), (M m3 m4 m5 0 1 0 g), (M m6 m7 m8 0 0 1 b) by (assumption || lia). cbn [bind].
  destruct (ofZ_ok 53 1024 _ _ l ltac:(lia)) as (En & Fn). fold (f64_of_Z l) in En, Fn. rewrite (CI _ l Fn En Rl). cbn [bind app]. f_equal.
  exact (same_channels k p HP).
Qed.
Theorem C72_zero cosd sind k im : img_ok U8 k im -> cosd 0 = f64_of_Z 1 -> sind 0 = f64_of_Z 0 ->
  huerotate cosd sind U8 k im 0 = Ok im /\ huerotate_in_place cosd sind U8 k im 0 = Ok im.
Proof.
  intros HI C S. assert (T1 : trig (cosd 0)). { rewrite C. destruct (ofZ_ok 53 1024 _ _ 1 ltac:(lia)) as (E & F). fold (f64_of_Z 1) in E, F. split; [exact F|]. rewrite E, Rabs_R1. lra. }
  assert (T0 : trig (sind 0)). { rewrite S. destruct (ofZ_ok 53 1024 _ _ 0 ltac:(lia)) as (E & F). fold (f64_of_Z 0) in E, F. split; [exact F|]. rewrite E, Rabs_R0. lra. }
  assert (M : mkImg (iw im) (ih im) (map (total U8 k (cosd 0) (sind 0)) (px im)) = im).
  { destruct im as [w h l]. cbn [iw ih px]. f_equal. rewrite <- (map_id l) at 2. apply map_ext_in. intros p Hp. destruct HI as (_ & F). rewrite Forall_forall in F.
    unfold total. rewrite C, S. pose proof (zero_pixel k p (F p Hp)) as Z; unfold one, zero in Z; now rewrite Z. }
  rewrite <- M at 2 4. split; [apply hue_img; assumption|apply hue_img_in_place; assumption].
Qed.

(** "360 does nothing" is false: libm's sine of a full turn is -0x1.1a62633145c07p-52, and a red of 255 becomes 254 *)
Definition sin360 : f64 := binary_normalize 53 1024 _ _ mode_NE (-4967757600021511) (-104) false.
Theorem C72_full_turn_refuted cosd sind : cosd 360 = f64_of_Z 1 -> sind 360 = sin360 ->
  let im := new_img 1 1 [255; 100; 255] in img_ok U8 Rgb im /\ huerotate cosd sind U8 Rgb im 360 = Ok (new_img 1 1 [254; 100; 255]).
Proof.
  intros C S. cbv zeta. split; [split; [apply wf_new_img; lia|cbn [px new_img]; change (Z.to_nat (1 * 1)) with 1%nat; cbn [repeat]; apply Forall_cons; [split; [reflexivity|repeat (apply Forall_cons; [unfold is_sample; change (smax U8) with 255; lia|]); apply Forall_nil]|apply Forall_nil]]|]. unfold huerotate. rewrite C, S. vm_compute. reflexivity.
Qed.
(** 16-bit images: every sample of the result is at most 255, even after a rotation by 0 *)
Theorem C72_deep_refuted cosd sind k im v :
  img_ok U16 k im ->
  is_finite (cosd v) = true -> (Rabs (B2R (cosd v)) <= 1)%R -> is_finite (sind v) = true -> (Rabs (B2R (sind v)) <= 1)%R ->
  exists r, huerotate cosd sind U16 k im v = Ok r /\ Forall (fun q => Forall (fun s => s <= 255) q) (px r).
Proof.
  intros HI Fc Hc Fs Hs. eexists. split; [apply hue_img; [exact HI|split; assumption..]|]. cbn [px]. apply Forall_forall. intros q Hq. apply in_map_iff in Hq as (p & <- & Hp).
  destruct HI as (_ & F). rewrite Forall_forall in F. destruct (hue_pixel_ok U16 k (cosd v) (sind v) p (conj Fc Hc) (conj Fs Hs) (F p Hp)) as (q & E & _ & B & _). unfold total. now rewrite E.
Qed.
(** Grey images are treated as if green and blue were at their maximum: half a turn makes black white *)
Theorem C72_luma_refuted cosd sind im v :
  img_ok U8 Luma im ->
  is_finite (cosd v) = true -> (-1 <= B2R (cosd v) <= - (999 / 1000))%R -> is_finite (sind v) = true -> (Rabs (B2R (sind v)) <= 1 / 1000)%R ->
  exists r, huerotate cosd sind U8 Luma im v = Ok r /\ forall x y, pixel im x y = Some [0] -> pixel r x y = Some [255] \/ pixel r x y = Some [254].
Proof.
  intros HI Fc Hc Fs Hs. apply Rabs_le_inv in Hs. destruct (C72_rotates cosd sind U8 Luma im v HI Fc) as (r & E & _ & _ & _ & K & H); [apply Rabs_le; lra|exact Fs|apply Rabs_le; lra|].
  exists r. split; [exact E|]. intros x y Hp. destruct (H x y _ Hp) as (q & Hq & Q & _). specialize (Q 0%nat ltac:(lia) ltac:(cbn; lia)). cbv zeta in Q.
  change (nth 0 [0] (smax U8)) with 0 in Q. change (nth 1 [0] (smax U8)) with 255 in Q. change (nth 2 [0] (smax U8)) with 255 in Q. cbn [rotated] in Q.
  assert (I : In q (px r)) by (unfold pixel in Hq; destruct (inb r x y); [now apply zget_In in Hq|discriminate]). destruct K as (_ & K). rewrite Forall_forall in K. destruct (K q I) as (L & S).
  destruct q as [|z [|]]; try (unfold zlen in L; cbn in L; lia). cbn [nth] in Q.
  set (w := limited 0 255 _) in Q. assert (W : w = 255%R). { unfold w, limited. rewrite Rmax_right by nra. apply Rmin_left. nra. }
  rewrite W, <- minus_IZR in Q. destruct Q as (Q1 & Q2). assert (0 <= 255 - z) by (apply Z.lt_pred_le, lt_IZR; change (Z.pred 0) with (-1); lra). assert (255 - z < 2) by (apply lt_IZR; eapply Rlt_trans; [exact Q2|lra]).
  rewrite Hq. assert (z = 255 \/ z = 254) as [-> | ->] by lia; auto.
Qed.
(** and in grey images with alpha, alpha is rotated as if it were green: opaque black becomes translucent white *)
Definition sin180 : f64 := binary_normalize 53 1024 _ _ mode_NE 4967757600021511 (-105) false.
Theorem C72_luma_alpha_refuted cosd sind : cosd 180 = f64_of_Z (-1) -> sind 180 = sin180 ->
  let im := new_img 1 1 [0; 255] in img_ok U8 LumaA im /\ huerotate cosd sind U8 LumaA im 180 = Ok (new_img 1 1 [255; 146]).
Proof.
  intros C S. cbv zeta. split; [split; [apply wf_new_img; lia|cbn [px new_img]; change (Z.to_nat (1 * 1)) with 1%nat; cbn [repeat]; apply Forall_cons; [split; [reflexivity|repeat (apply Forall_cons; [unfold is_sample; change (smax U8) with 255; lia|]); apply Forall_nil]|apply Forall_nil]]|]. unfold huerotate. rewrite C, S. vm_compute. reflexivity.
Qed.
(** a non-trivial case: red turned by half a turn, and the hypotheses of the theorems above *)
Example C72_ex : let C := fun _ : Z => f64_of_Z (-1) in let S := fun _ : Z => sin180 in
  huerotate C S U8 Rgba (new_img 2 1 [200; 10; 30; 77]) 180 = Ok (new_img 2 1 [0; 93; 73; 77]) /\
  (is_finite (C 180) = true /\ B2SF (C 180) = B2SF (f64_of_Z (-1)) /\ is_finite (S 180) = true).
Proof. cbv zeta. split; [vm_compute; reflexivity|repeat split; vm_compute; reflexivity]. Qed.

Definition c72_theorems := (C72_rotates, C72_angle, C72_greys, C72_zero, C72_full_turn_refuted, C72_deep_refuted, C72_luma_refuted, C72_luma_alpha_refuted).
Print Assumptions c72_theorems.
