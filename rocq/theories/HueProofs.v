From Coq Require Import ZArith Bool Reals Lia Lra.
From Flocq Require Import Core IEEE754.BinarySingleNaN.
From Verif Require Import Base BaseLemmas GenImage Color Float FloatProofs ColorProofs Thumb ThumbSpec ThumbProofs3 Filter3Spec Hue HueSpec.
Local Open Scope Z_scope.

Ltac cases := repeat match goal with |- context [Rle_dec ?x ?y] =>
  lazymatch x with context [Rle_dec _ _] => fail | _ => lazymatch y with context [Rle_dec _ _] => fail | _ => destruct (Rle_dec x y) end end end.
Definition u : R := bpow radix2 (-54).
Lemma bpow_u k : 0 <= k -> bpow radix2 (k - 54) = (IZR (2 ^ k) * u)%R.
Proof. intros H. unfold u. change (2 ^ k) with (Zpower radix2 k). rewrite IZR_Zpower by exact H. rewrite <- bpow_plus. f_equal. Qed.
Lemma u_pos : (0 < u)%R.
Proof. apply bpow_gt_0. Qed.
Lemma u_val : (u = / IZR 18014398509481984)%R.
Proof. reflexivity. Qed.
Lemma err_k k x : 0 <= k -> (Rabs x < IZR (2 ^ k))%R -> (Rabs (RN 53 1024 x - x) <= IZR (2 ^ k) * u)%R.
Proof.
  intros Hk H. rewrite <- bpow_u by exact Hk. replace (k - 54) with (k - 53 - 1) by ring. apply (RN_err 53 1024 _ _); [lia|]. change (2 ^ k) with (Zpower radix2 k) in H. now rewrite IZR_Zpower in H.
Qed.

(** x is a finite float near r, of magnitude at most B *)
Definition ap (x : f64) (r e B : R) : Prop := is_finite x = true /\ (Rabs (B2R x - r) <= e)%R /\ (Rabs (B2R x) <= B)%R.
Lemma ap_weak x r e B e' B' : ap x r e B -> (e <= e')%R -> (B <= B')%R -> ap x r e' B'.
Proof. intros (F & E & M) H1 H2. split; [exact F|split; lra]. Qed.
Lemma ap_Z n M : 0 <= n <= M -> M < 2 ^ 53 -> ap (f64_of_Z n) (IZR n) 0 (IZR M).
Proof.
  intros H HM. destruct (ofZ_ok 53 1024 _ _ n ltac:(lia)) as (E & F). split; [exact F|]. unfold f64_of_Z. rewrite E. split; [rewrite Rminus_diag_eq, Rabs_R0 by reflexivity; lra|].
  rewrite <- abs_IZR. apply IZR_le. lia.
Qed.
Lemma ap_op (rn x y : f64) (v r e : R) M k : is_finite rn = true -> B2R rn = RN 53 1024 v -> (Rabs v <= IZR M)%R -> 0 <= M < 2 ^ k -> 0 <= k <= 53 -> (Rabs (v - r) <= e)%R ->
  ap rn r (e + IZR (2 ^ k) * u) (IZR M).
Proof.
  intros F E HV HM Hk HE. split; [exact F|]. rewrite E. split.
  - assert (Rabs v < IZR (2 ^ k))%R by (apply Rle_lt_trans with (IZR M); [exact HV|apply IZR_lt; lia]). pose proof (err_k k v (proj1 Hk) H) as Q.
    replace (RN 53 1024 v - r)%R with ((RN 53 1024 v - v) + (v - r))%R by ring. eapply Rle_trans; [apply Rabs_triang|]. lra.
  - apply (RN_abs 53 1024 _ _); [|exact HV]. split; [lia|]. apply Z.lt_le_trans with (2 ^ k); [lia|]. apply Z.pow_le_mono_r; lia.
Qed.
Ltac small M := assert (0 <= M < 2 ^ 53) by lia.
Lemma ap_add x y r e B s f C M k : ap x r e B -> ap y s f C -> (B + C <= IZR M)%R -> 0 <= M < 2 ^ k -> 0 <= k <= 53 ->
  ap (f64_add x y) (r + s) (e + f + IZR (2 ^ k) * u) (IZR M).
Proof.
  intros (Fx & Ex & Mx) (Fy & Ey & My) HB HM Hk.
  assert (HV : (Rabs (B2R x + B2R y) <= IZR M)%R) by (eapply Rle_trans; [apply Rabs_triang|lra]).
  assert (H53 : 0 <= M < 2 ^ 53) by (split; [lia|apply Z.lt_le_trans with (2 ^ k); [lia|apply Z.pow_le_mono_r; lia]]).
  destruct (add_ok 53 1024 _ _ x y M Fx Fy H53 HV) as (E & F). apply (ap_op _ x y _ _ _ M k F E HV HM Hk).
  replace (B2R x + B2R y - (r + s))%R with ((B2R x - r) + (B2R y - s))%R by ring. eapply Rle_trans; [apply Rabs_triang|lra].
Qed.
Lemma ap_sub x y r e B s f C M k : ap x r e B -> ap y s f C -> (B + C <= IZR M)%R -> 0 <= M < 2 ^ k -> 0 <= k <= 53 ->
  ap (f64_sub x y) (r - s) (e + f + IZR (2 ^ k) * u) (IZR M).
Proof.
  intros (Fx & Ex & Mx) (Fy & Ey & My) HB HM Hk.
  assert (HV : (Rabs (B2R x - B2R y) <= IZR M)%R) by (unfold Rminus; eapply Rle_trans; [apply Rabs_triang|rewrite Rabs_Ropp; lra]).
  assert (H53 : 0 <= M < 2 ^ 53) by (split; [lia|apply Z.lt_le_trans with (2 ^ k); [lia|apply Z.pow_le_mono_r; lia]]).
  destruct (sub_ok 53 1024 _ _ x y M Fx Fy H53 HV) as (E & F). apply (ap_op _ x y _ _ _ M k F E HV HM Hk).
  replace (B2R x - B2R y - (r - s))%R with ((B2R x - r) + - (B2R y - s))%R by ring. eapply Rle_trans; [apply Rabs_triang|rewrite Rabs_Ropp; lra].
Qed.
Lemma ap_mul x y r e B s f C S M k : ap x r e B -> ap y s f C -> (Rabs s <= S)%R -> (B * C <= IZR M)%R -> 0 <= M < 2 ^ k -> 0 <= k <= 53 ->
  ap (f64_mul x y) (r * s) (B * f + e * S + IZR (2 ^ k) * u) (IZR M).
Proof.
  intros (Fx & Ex & Mx) (Fy & Ey & My) HS HB HM Hk.
  assert (HV : (Rabs (B2R x * B2R y) <= IZR M)%R).
  { rewrite Rabs_mult. apply Rle_trans with (B * C)%R; [|exact HB]. apply Rmult_le_compat; auto using Rabs_pos. }
  assert (H53 : 0 <= M < 2 ^ 53) by (split; [lia|apply Z.lt_le_trans with (2 ^ k); [lia|apply Z.pow_le_mono_r; lia]]).
  destruct (mul_ok 53 1024 _ _ x y M Fx Fy H53 HV) as (E & F). apply (ap_op _ x y _ _ _ M k F E HV HM Hk).
  replace (B2R x * B2R y - r * s)%R with (B2R x * (B2R y - s) + (B2R x - r) * s)%R by ring. eapply Rle_trans; [apply Rabs_triang|]. rewrite !Rabs_mult.
  apply Rplus_le_compat; apply Rmult_le_compat; auto using Rabs_pos.
Qed.
Lemma ap_lit n : 0 <= n <= 1000 -> ap (lit n) (IZR n / 1000) (2 * u) 1.
Proof.
  intros H. unfold lit. destruct (ap_Z n 1000 H ltac:(lia)) as (F & E & _). destruct (ofZ_ok 53 1024 _ _ n ltac:(lia)) as (En & Fn). destruct (ofZ_ok 53 1024 _ _ 1000 ltac:(lia)) as (Ek & Fk).
  fold (f64_of_Z n) in En, Fn. fold (f64_of_Z 1000) in Ek, Fk.
  assert (HV : (Rabs (B2R (f64_of_Z n) / B2R (f64_of_Z 1000)) <= 1)%R).
  { rewrite En, Ek. assert (0 <= IZR n <= 1000)%R by (split; apply IZR_le; lia). rewrite Rabs_pos_eq by lra. lra. }
  destruct (div_ok 53 1024 _ _ (f64_of_Z n) (f64_of_Z 1000) 1 Fn ltac:(rewrite Ek; lra) ltac:(lia) HV) as (E1 & F1).
  apply ap_weak with (0 + IZR (2 ^ 1) * u)%R (IZR 1); [|change (IZR (2 ^ 1)) with 2%R; lra|lra].
  apply (ap_op _ (f64_of_Z n) (f64_of_Z n) _ _ _ 1 1 F1 E1 HV); [lia|lia|]. rewrite En, Ek, Rminus_diag_eq, Rabs_R0 by reflexivity. lra.
Qed.
Lemma ap_trig c n : is_finite c = true -> (Rabs (B2R c) <= 1)%R -> 0 <= n <= 1000 -> ap (f64_mul c (lit n)) (B2R c * (IZR n / 1000)) (4 * u) 1.
Proof.
  intros F H Hn. assert (HN : (0 <= IZR n <= 1000)%R) by (split; apply IZR_le; lia).
  apply ap_weak with (1 * (2 * u) + 0 * 1 + IZR (2 ^ 1) * u)%R (IZR 1); [|change (IZR (2 ^ 1)) with 2%R; pose proof u_pos; lra|lra].
  apply (ap_mul c (lit n) (B2R c) 0 1 (IZR n / 1000) (2 * u) 1 1 1 1); [|apply ap_lit, Hn|rewrite Rabs_pos_eq by lra; lra|lra|lia|lia].
  split; [exact F|]. split; [rewrite Rminus_diag_eq, Rabs_R0 by reflexivity; lra|exact H].
Qed.
(** an entry of the matrix; p, q: whether the terms are added *)
Lemma ap_entry (p q : bool) c s k0 kc ks : is_finite c = true -> (Rabs (B2R c) <= 1)%R -> is_finite s = true -> (Rabs (B2R s) <= 1)%R ->
  0 <= k0 <= 1000 -> 0 <= kc <= 1000 -> 0 <= ks <= 1000 ->
  ap ((if q then f64_add else f64_sub) ((if p then f64_add else f64_sub) (lit k0) (f64_mul c (lit kc))) (f64_mul s (lit ks)))
     ((if q then Rplus else Rminus) ((if p then Rplus else Rminus) (IZR k0 / 1000) (B2R c * (IZR kc / 1000))) (B2R s * (IZR ks / 1000)))%R (18 * u) 3.
Proof.
  intros Fc Hc Fs Hs H0 H1 H2. pose proof (ap_lit k0 H0) as A. pose proof (ap_trig c kc Fc Hc H1) as B. pose proof (ap_trig s ks Fs Hs H2) as C. pose proof u_pos.
  assert (D : ap ((if p then f64_add else f64_sub) (lit k0) (f64_mul c (lit kc))) ((if p then Rplus else Rminus) (IZR k0 / 1000) (B2R c * (IZR kc / 1000)))%R (2 * u + 4 * u + IZR (2 ^ 2) * u) (IZR 2)).
  { destruct p; [apply (ap_add _ _ _ _ 1 _ _ 1)|apply (ap_sub _ _ _ _ 1 _ _ 1)]; auto; try lra; lia. }
  change (IZR (2 ^ 2)) with 4%R in D.
  apply ap_weak with ((2 * u + 4 * u + 4 * u) + 4 * u + IZR (2 ^ 2) * u)%R (IZR 3); [|change (IZR (2 ^ 2)) with 4%R; lra|lra].
  destruct q; [apply (ap_add _ _ _ _ 2 _ _ 1)|apply (ap_sub _ _ _ _ 2 _ _ 1)]; auto; try lra; lia.
Qed.
Lemma ap_term m mr n : ap m mr (18 * u) 3 -> 0 <= n <= 65535 -> ap (f64_mul m (f64_of_Z n)) (mr * IZR n) (1441774 * u) 196605.
Proof.
  intros A H. pose proof u_pos. assert (0 <= IZR n <= 65535)%R by (split; apply IZR_le; lia).
  apply ap_weak with (3 * 0 + 18 * u * 65535 + IZR (2 ^ 18) * u)%R (IZR 196605); [|change (IZR (2 ^ 18)) with 262144%R; lra|lra].
  apply (ap_mul _ _ _ _ _ _ _ 65535 _ 196605 18 A (ap_Z n 65535 H ltac:(lia))); [rewrite Rabs_pos_eq by lra; lra|lra|lia|lia].
Qed.
Lemma ap_row m0 m1 m2 a0 a1 a2 r g b : ap m0 a0 (18 * u) 3 -> ap m1 a1 (18 * u) 3 -> ap m2 a2 (18 * u) 3 -> 0 <= r <= 65535 -> 0 <= g <= 65535 -> 0 <= b <= 65535 ->
  ap (hue_row (m0, m1, m2) (f64_of_Z r) (f64_of_Z g) (f64_of_Z b)) (a0 * IZR r + a1 * IZR g + a2 * IZR b)%R (/ IZR (2 ^ 31)) 589815.
Proof.
  intros A0 A1 A2 Hr Hg Hb. pose proof u_pos as UP. unfold hue_row.
  apply ap_weak with ((1441774 * u + 1441774 * u + IZR (2 ^ 19) * u) + 1441774 * u + IZR (2 ^ 20) * u)%R (IZR 589815); [| |lra].
  - apply (ap_add _ _ _ _ 393210 _ _ 196605); [|apply ap_term; assumption|lra|lia|lia].
    apply (ap_add _ _ _ _ 196605 _ _ 196605 393210); [apply ap_term; assumption|apply ap_term; assumption|lra|lia|lia].
  - change (IZR (2 ^ 19)) with 524288%R. change (IZR (2 ^ 20)) with 1048576%R. rewrite u_val. change (IZR (2 ^ 31)) with 2147483648%R. lra.
Qed.

Lemma lt_ok (x y : f64) : is_finite x = true -> is_finite y = true -> f64_lt x y = Rlt_bool (B2R x) (B2R y).
Proof. intros F F'. unfold f64_lt. apply Bltb_correct; assumption. Qed.
Lemma limited_close a b e : (Rabs (a - b) <= e)%R -> (Rabs (limited 0 255 a - limited 0 255 b) <= e)%R.
Proof.
  intros H. apply Rabs_le_inv in H. apply Rabs_le. unfold limited, Rmin, Rmax.
  cases; lra.
Qed.
Lemma hue_cast_ok t v : is_finite v = true -> exists z, hue_cast t v = Ok z /\ 0 <= z <= 255 /\ (IZR z <= limited 0 255 (B2R v) < IZR z + 1)%R.
Proof.
  intros F. unfold hue_cast. destruct (ofZ_ok 53 1024 _ _ 0 ltac:(lia)) as (E0 & F0). destruct (ofZ_ok 53 1024 _ _ 255 ltac:(lia)) as (E1 & F1).
  fold (f64_of_Z 0) in E0, F0. fold (f64_of_Z 255) in E1, F1.
  assert (D : is_finite (dclamp v (f64_of_Z 0) (f64_of_Z 255)) = true /\ B2R (dclamp v (f64_of_Z 0) (f64_of_Z 255)) = limited 0 255 (B2R v)).
  { unfold dclamp. rewrite !lt_ok by assumption. rewrite E0, E1. unfold limited, Rmin, Rmax.
    destruct (Rlt_bool_spec (B2R v) 0); [|destruct (Rlt_bool_spec 255 (B2R v))]; (split; [assumption|]); rewrite ?E0, ?E1;
      cases; lra. }
  destruct D as (FD & ED). rewrite (cast_ok 53 1024 _ 0 (smax t) _ FD). cbv zeta. rewrite ED.
  assert (L : (0 <= limited 0 255 (B2R v) <= 255)%R) by (unfold limited, Rmin, Rmax; cases; lra).
  rewrite Ztrunc_floor by lra. set (w := limited 0 255 (B2R v)) in *. exists (Zfloor w).
  assert (Z0 : 0 <= Zfloor w) by (apply Zfloor_lub; simpl; lra). assert (Z1 : Zfloor w <= 255) by (apply le_IZR; eapply Rle_trans; [apply Zfloor_lb|lra]).
  assert (255 <= smax t) by (destruct t; cbn; unfold u8_max, u16_max; lia).
  replace ((0 <=? Zfloor w) && (Zfloor w <=? smax t)) with true by lia. split; [reflexivity|split; [lia|]]. split; [apply Zfloor_lb|apply Zfloor_ub].
Qed.

(** ** One pixel *)
Definition trig (c : f64) : Prop := is_finite c = true /\ (Rabs (B2R c) <= 1)%R.
Definition px_ok (t : sty) (k : kind) (C S : R) (p q : list Z) : Prop :=
  is_pixel t k q /\ Forall (fun v => v <= 255) q /\
  (forall i, (i < 3)%nat -> (i < Z.to_nat (nch k))%nat ->
     let w := limited 0 255 (rotated i C S (IZR (nth 0 p (smax t))) (IZR (nth 1 p (smax t))) (IZR (nth 2 p (smax t)))) in
     (- (/ IZR (2 ^ 31)) <= w - IZR (nth i q 0%Z) < 1 + / IZR (2 ^ 31))%R) /\
  (k = Rgba -> nth 3 q 0 = Z.min 255 (nth 3 p 0)).
Lemma cast_near t v r B : ap v r (/ IZR (2 ^ 31)) B ->
  exists z, hue_cast t v = Ok z /\ 0 <= z <= 255 /\ (- (/ IZR (2 ^ 31)) <= limited 0 255 r - IZR z < 1 + / IZR (2 ^ 31))%R.
Proof.
  intros (F & E & _). destruct (hue_cast_ok t v F) as (z & H & Hz & Q). exists z. split; [exact H|split; [exact Hz|]].
  apply limited_close in E. apply Rabs_le_inv in E. lra.
Qed.
Lemma row_ok c s i m : trig c -> trig s -> nth_error (hue_matrix c s) i = Some m -> forall r g b,
  0 <= r <= 65535 -> 0 <= g <= 65535 -> 0 <= b <= 65535 ->
  ap (hue_row m (f64_of_Z r) (f64_of_Z g) (f64_of_Z b)) (rotated i (B2R c) (B2R s) (IZR r) (IZR g) (IZR b)) (/ IZR (2 ^ 31)) 589815.
Proof.
  intros (Fc & Hc) (Fs & Hs) E r g b Hr Hg Hb.
  assert (A : forall p q k0 kc ks, 0 <= k0 <= 1000 -> 0 <= kc <= 1000 -> 0 <= ks <= 1000 -> _) by (intros p q k0 kc ks; exact (ap_entry p q c s k0 kc ks Fc Hc Fs Hs)).
  destruct i as [|[|[|i]]]; cbn [hue_matrix nth_error] in E; [injection E as <-..|destruct i; discriminate]; cbn [rotated].
  - exact (ap_row _ _ _ _ _ _ r g b (A true false 213 787 213 ltac:(lia) ltac:(lia) ltac:(lia)) (A false false 715 715 715 ltac:(lia) ltac:(lia) ltac:(lia)) (A false true 72 72 928 ltac:(lia) ltac:(lia) ltac:(lia)) Hr Hg Hb).
  - exact (ap_row _ _ _ _ _ _ r g b (A false true 213 213 143 ltac:(lia) ltac:(lia) ltac:(lia)) (A true true 715 285 140 ltac:(lia) ltac:(lia) ltac:(lia)) (A false false 72 72 283 ltac:(lia) ltac:(lia) ltac:(lia)) Hr Hg Hb).
  - exact (ap_row _ _ _ _ _ _ r g b (A false false 213 213 787 ltac:(lia) ltac:(lia) ltac:(lia)) (A false true 715 715 715 ltac:(lia) ltac:(lia) ltac:(lia)) (A true true 72 928 72 ltac:(lia) ltac:(lia) ltac:(lia)) Hr Hg Hb).
Qed.
Lemma hue_pixel_ok t k c s p : trig c -> trig s -> is_pixel t k p -> exists q, hue_pixel t k c s p = Ok q /\ px_ok t k (B2R c) (B2R s) p q.
Proof.
  intros Hc Hs HP. destruct (channels4_ok t k p HP) as (E & HS). unfold hue_pixel. rewrite E.
  assert (SM : smax t <= 65535) by (destruct t; cbn; unfold u8_max, u16_max; lia).
  assert (R : forall i, 0 <= nth i p (smax t) <= 65535) by (intros i; specialize (HS i); unfold is_sample in HS; lia).
  destruct (cast_near t _ _ _ (row_ok c s 0 _ Hc Hs eq_refl _ _ _ (R 0%nat) (R 1%nat) (R 2%nat))) as (z0 & E0 & B0 & Q0).
  destruct (cast_near t _ _ _ (row_ok c s 1 _ Hc Hs eq_refl _ _ _ (R 0%nat) (R 1%nat) (R 2%nat))) as (z1 & E1 & B1 & Q1).
  destruct (cast_near t _ _ _ (row_ok c s 2 _ Hc Hs eq_refl _ _ _ (R 0%nat) (R 1%nat) (R 2%nat))) as (z2 & E2 & B2 & Q2).
  destruct (ap_Z (nth 3 p (smax t)) 65535 (R 3%nat) ltac:(lia)) as (F3 & _). destruct (hue_cast_ok t _ F3) as (z3 & E3 & B3 & Q3).
  destruct (ofZ_ok 53 1024 _ _ (nth 3 p (smax t)) ltac:(specialize (R 3%nat); lia)) as (V3 & _). fold (f64_of_Z (nth 3 p (smax t))) in V3. rewrite V3 in Q3.
  exists (from_channels k [z0; z1; z2; z3]). split.
  - cbv zeta. unfold hue_matrix in *. cbn [map_res bind]. rewrite E0, E1, E2. cbn [bind]. rewrite E3. reflexivity.
  - assert (S0 : forall z, 0 <= z <= 255 -> is_sample t z) by (intros z Hz; unfold is_sample; destruct t; cbn; unfold u8_max, u16_max; lia).
    split; [|split; [|split]].
    + unfold from_channels. destruct k; cbn [nch Z.to_nat Pos.to_nat Pos.iter_op Nat.add firstn]; (split; [reflexivity|repeat constructor; apply S0; assumption]).
    + unfold from_channels. destruct k; cbn [nch Z.to_nat Pos.to_nat Pos.iter_op Nat.add firstn]; repeat constructor; lia.
    + intros i H3 Hk. cbv zeta. assert (N : nth i (from_channels k [z0; z1; z2; z3]) 0 = nth i [z0; z1; z2; z3] 0).
      { unfold from_channels. destruct k; cbn [nch Z.to_nat Pos.to_nat Pos.iter_op Nat.add firstn] in *; destruct i as [|[|[|[|i]]]]; try reflexivity; lia. }
      rewrite N. destruct i as [|[|[|i]]]; [exact Q0|exact Q1|exact Q2|lia].
    + intros ->. change (nth 3 (from_channels Rgba [z0; z1; z2; z3]) 0) with z3.
      destruct HP as (LP & _). rewrite (nth_indep p 0 (smax t)) by (unfold zlen in LP; cbn in LP; lia).
      specialize (R 3%nat). set (a := nth 3 p (smax t)) in *. assert (LM : limited 0 255 (IZR a) = IZR (Z.min 255 a)).
      { unfold limited. rewrite Rmax_right by (apply IZR_le; lia). destruct (Z.min_spec 255 a) as [(L & ->)|(L & ->)]; [apply Rmin_left; apply IZR_le; lia|apply Rmin_right; apply IZR_le; lia]. }
      rewrite LM in Q3. destruct Q3 as (Q3 & Q4). apply le_IZR in Q3. rewrite <- plus_IZR in Q4. apply lt_IZR in Q4. lia.
Qed.

(** ** Images *)
Definition total (t : sty) (k : kind) (c s : f64) (p : list Z) : list Z := match hue_pixel t k c s p with Ok q => q | _ => [] end.
Section Img.
Variables cosd sind : Z -> f64.
Lemma hue_img_in_place t k im v : img_ok t k im -> trig (cosd v) -> trig (sind v) ->
  huerotate_in_place cosd sind t k im v = Ok (mkImg (iw im) (ih im) (map (total t k (cosd v) (sind v)) (px im))).
Proof.
  intros (W & F) Hc Hs. apply (in_place_map (hue_pixel t k (cosd v) (sind v)) (total t k (cosd v) (sind v)) im W).
  intros p Hp. rewrite Forall_forall in F. destruct (hue_pixel_ok t k _ _ p Hc Hs (F p Hp)) as (q & E & _). unfold total. now rewrite E.
Qed.
Lemma hue_img t k im v : img_ok t k im -> trig (cosd v) -> trig (sind v) ->
  huerotate cosd sind t k im v = Ok (mkImg (iw im) (ih im) (map (total t k (cosd v) (sind v)) (px im))).
Proof.
  intros HI Hc Hs. pose proof HI as (W & F). unfold huerotate. rewrite for2_coords. rewrite Forall_forall in F.
  set (g := total t k (cosd v) (sind v)). set (val := fun c : Z * Z => match pixel im (fst c) (snd c) with Some p => g p | None => [] end).
  assert (PX : forall c, In c (coords (iw im) (ih im)) -> exists p, pixel im (fst c) (snd c) = Some p /\ In p (px im)).
  { intros [x y] H. apply In_coords in H. destruct (pixel_at t k im (x, y) HI H) as (p & _ & E & _).
    exists p. split; [exact E|]. cbn [fst snd] in E. unfold pixel in E. destruct (inb im x y); [|discriminate]. now apply zget_In in E. }
  rewrite (foldM_ext _ (fun o c => put_pixel o (fst c) (snd c) (val c))).
  2: { intros o c H. destruct (PX c H) as (p & E & I). unfold get_pixel, val. rewrite E. cbn [bind].
       destruct (hue_pixel_ok t k _ _ p Hc Hs (F p I)) as (q & Eq & _). unfold g, total. now rewrite Eq. }
  pose proof W as (A & B & C).
  assert (WN : wf (new_img (iw im) (ih im) (repeat 0 (Z.to_nat (nch k))))) by (apply wf_new_img; lia).
  destruct (put_loop fst snd val (coords (iw im) (ih im)) _ WN) as (im' & E & W' & Ew & Eh & _ & Hin).
  { intros [x y] H. apply In_coords in H. exact H. }
  rewrite E. f_equal. apply img_ext; auto; [apply wf_map; exact W|].
  intros x y Hx Hy. rewrite pixel_map. change (iw (new_img (iw im) (ih im) (repeat 0 (Z.to_nat (nch k))))) with (iw im) in Ew. change (ih (new_img (iw im) (ih im) (repeat 0 (Z.to_nat (nch k))))) with (ih im) in Eh.
  assert (I : In (x, y) (coords (iw im) (ih im))) by (apply In_coords; rewrite <- Ew, <- Eh; auto).
  specialize (Hin (x, y) I). cbn [fst snd] in Hin. rewrite Hin by (intros [x' y'] _ X Y; cbn [fst snd] in X, Y; now subst).
  destruct (PX (x, y) I) as (p & Ep & _). cbn [fst snd] in Ep. unfold val. cbn [fst snd]. rewrite Ep. reflexivity.
Qed.
End Img.
