From Coq Require Import ZArith Bool Reals Lia Lra.
From Flocq Require Import Core IEEE754.BinarySingleNaN.
From Verif Require Import Base BaseLemmas ListMore Color ColorProofs Float FloatProofs JpegQuant ColorF ColorFProofs GenImage Thumb ThumbSpec ThumbProofs ThumbProofs2 ThumbProofs3 ThumbProofs4 Sample SampleProofs SampleProofs2 SampleProofs4 SampleProofs5 Interp InterpSpec.
Local Open Scope Z_scope.

Lemma within_isf lo hi x : within lo hi x <-> exists r, isf x r /\ (lo <= r <= hi)%R.
Proof. split; [intros (F & H); exists (B2R x); split; [split; [reflexivity|exact F]|exact H]|intros (r & (E & F) & H); split; [exact F|rewrite E; exact H]]. Qed.
Lemma le_ok x y r s : isf x r -> isf y s -> f32_le x y = Rle_bool r s.
Proof. intros (E & F) (E' & F'). unfold f32_le. rewrite (Bleb_correct _ _ x y F F'), E, E'. reflexivity. Qed.
Lemma contains_iff lo hi x r s : isf lo r -> isf hi s -> contains lo hi x = true <-> within r s x.
Proof.
  intros I1 I2. unfold contains, within. destruct (is_finite x) eqn:F.
  - rewrite (le_ok _ _ _ _ I1 (conj eq_refl F)), (le_ok _ _ _ _ (conj eq_refl F) I2), andb_true_iff. split.
    + intros [A B]. split; [reflexivity|]. split; [revert A; case Rle_bool_spec|revert B; case Rle_bool_spec]; auto; discriminate.
    + intros (_ & A & B). split; apply Rle_bool_true; assumption.
  - split; [|intros (H & _); discriminate H]. intros H. exfalso. destruct I1 as [_ I1]. destruct I2 as [_ I2]. apply andb_true_iff in H. destruct H as [H1 H2]. unfold f32_le, Bleb in *. destruct x as [sx|[|]| |sx mx ex Bx]; try discriminate F; destruct lo as [[|]|[|]| |[|] ml el Bl]; try discriminate I1; try discriminate H1; destruct hi as [[|]|[|]| |[|] mh eh Bh]; try discriminate I2; discriminate H2.
Qed.
Lemma RN_int k : 0 <= k <= 16777216 -> RN32 (IZR k) = IZR k.
Proof. intros H. destruct (Z.eq_dec k 16777216) as [->|]; [|apply RN_small; lia]. apply RN_repr. change 16777216 with (2 ^ 24). apply repr32_pow2. lia. Qed.
Lemma int_ok k : 0 <= k <= 16777216 -> isf (f32_of_Z k) (IZR k).
Proof. intros H. pose proof (fb_ofZ k ltac:(unfold u32_max; lia)) as I. rewrite RN_int in I by lia. exact I. Qed.
Lemma round_isf x r : isf x r -> isf (f32_round x) (IZR (ZnearestA r)).
Proof. intros (E & F). destruct (round_ok 24 128 f32_emax x) as (A & B). unfold f32_round. split; [rewrite A, E; reflexivity|rewrite B; exact F]. Qed.
Lemma floor_in X w : 1 <= w -> (0 <= X <= IZR (w - 1))%R -> 0 <= Zfloor X <= w - 1.
Proof. intros H HX. split; [apply Zfloor_lub; lra|]. apply le_IZR. pose proof (Zfloor_lb X). lra. Qed.
Lemma near_in X w : 1 <= w -> (0 <= X <= IZR (w - 1))%R -> 0 <= ZnearestA X <= w - 1.
Proof.
  intros H HX. pose proof (ZnearestA_le 0 X (proj1 HX)) as A. pose proof (ZnearestA_le X (IZR (w - 1)) (proj2 HX)) as B. rewrite ZnearestA_Z in A, B. lia.
Qed.
(** one axis: the lower column, the two weights *)
Lemma axis_ok x X w : 1 <= w <= 16777216 -> isf x X -> (0 <= X <= IZR (w - 1))%R -> let u := Zfloor X in
  f32_as 0 u32_max (f32_floor x) = u /\ 0 <= u <= w - 1 /\ (0 <= X - IZR u <= 1)%R /\
  exists a b, isf (f32_sub (f32_of_Z (u + 1)) x) a /\ isf (f32_sub x (f32_of_Z u)) b /\ (0 <= a <= 1)%R /\ (0 <= b <= 1)%R /\ (Rabs (a - (1 - (X - IZR u))) <= 1.001 * uu)%R /\ (Rabs (b - (X - IZR u)) <= 1.001 * uu)%R.
Proof.
  intros HW I HX u. pose proof (floor_in X w ltac:(lia) HX) as UB. fold u in UB. pose proof (Zfloor_lb X) as FL. pose proof (Zfloor_ub X) as FU. fold u in FL, FU.
  split. { rewrite (as32_ok _ _ _ _ (floor_ok _ _ I)). rewrite Ztrunc_IZR. fold u. unfold clampz, u32_max. lia. }
  split; [exact UB|]. split; [lra|]. pose proof big_B as BB. destruct uu_val as [U0 U1]. pose proof eta_uu as ET. rewrite <- (plus_IZR u 1) in FU.
  assert (H1 : (IZR (u + 1) = IZR u + 1)%R) by (rewrite plus_IZR; reflexivity). pose proof (fb_sub _ _ _ _ (int_ok (u + 1) ltac:(lia)) I ltac:(lra)) as Ia. pose proof (fb_sub _ _ _ _ I (int_ok u ltac:(lia)) ltac:(lra)) as Ib.
  exists (RN32 (IZR (u + 1) - X)), (RN32 (X - IZR u)). split; [exact Ia|]. split; [exact Ib|]. split; [apply RN_01; lra|]. split; [apply RN_01; lra|].
  assert (E : forall z, (0 <= z <= 1 -> Rabs (RN32 z - z) <= 1.001 * uu)%R). { intros z Hz. pose proof (RN_ae z ltac:(lra)). assert (uu * z <= uu * 1)%R by (apply Rmult_le_compat_l; lra). lra. }
  split; [|apply E; lra]. replace (1 - (X - IZR u))%R with (IZR (u + 1) - X)%R by lra. apply E. lra.
Qed.
(** products and sums *)
Lemma RN_e z m : (0 <= z <= m)%R -> (1 <= m)%R -> (Rabs (RN32 z - z) <= 1.001 * uu * m)%R.
Proof. intros Hz Hm. destruct uu_val as [U0 U1]. pose proof eta_uu as ET. pose proof (RN_ae z ltac:(lra)). assert (uu * z <= uu * m)%R by (apply Rmult_le_compat_l; lra). assert (uu * 1 <= uu * m)%R by (apply Rmult_le_compat_l; lra). lra. Qed.
Lemma prod_ok a c A C : (0 <= a <= 1)%R -> (0 <= c <= 1)%R -> (0 <= A <= 1)%R -> (0 <= C <= 1)%R -> (Rabs (a - A) <= 1.001 * uu)%R -> (Rabs (c - C) <= 1.001 * uu)%R -> (0 <= RN32 (a * c) <= 1)%R /\ (Rabs (RN32 (a * c) - A * C) <= 3.01 * uu)%R.
Proof.
  intros Ha Hc HA HC E1 E2. destruct uu_val as [U0 U1]. assert (P : (0 <= a * c <= 1)%R) by (split; [apply Rmult_le_pos; lra|rewrite <- (Rmult_1_r 1); apply Rmult_le_compat; lra]). split; [apply RN_01; exact P|].
  pose proof (RN_e (a * c) 1 P ltac:(lra)) as E3. replace (RN32 (a * c) - A * C)%R with ((RN32 (a * c) - a * c) + (a * (c - C) + C * (a - A)))%R by ring.
  assert (T1 : (Rabs (a * (c - C)) <= 1 * (1.001 * uu))%R) by (rewrite Rabs_mult, (Rabs_pos_eq a) by lra; apply Rmult_le_compat; try lra; apply Rabs_pos). assert (T2 : (Rabs (C * (a - A)) <= 1 * (1.001 * uu))%R) by (rewrite Rabs_mult, (Rabs_pos_eq C) by lra; apply Rmult_le_compat; try lra; apply Rabs_pos).
  eapply Rle_trans; [apply Rabs_triang|]. eapply Rle_trans; [apply Rplus_le_compat_l; apply Rabs_triang|]. lra.
Qed.
Lemma term_ok w W s S M : (1 <= M)%R -> (0 <= w <= 1)%R -> (0 <= W <= 1)%R -> (0 <= s <= M)%R -> s = S -> (Rabs (w - W) <= 3.01 * uu)%R -> (0 <= RN32 (w * s) <= 1.001 * M)%R /\ (Rabs (RN32 (w * s) - W * S) <= 4.02 * uu * M)%R.
Proof.
  intros HM Hw HW Hs <- E. destruct uu_val as [U0 U1]. assert (P : (0 <= w * s <= M)%R) by (split; [apply Rmult_le_pos; lra|rewrite <- (Rmult_1_l M); apply Rmult_le_compat; lra]). pose proof (RN_e _ M P HM) as E1.
  assert (T : (Rabs ((w - W) * s) <= 3.01 * uu * M)%R) by (rewrite Rabs_mult, (Rabs_pos_eq s) by lra; apply Rmult_le_compat; try lra; apply Rabs_pos). split.
  - split; [apply RN_nonneg; lra|]. apply Rabs_le_inv in E1. assert (uu * M <= / 16700000 * M)%R by (apply Rmult_le_compat_r; lra). lra.
  - assert (0 <= uu * M)%R by (apply Rmult_le_pos; lra). replace (RN32 (w * s) - W * s)%R with ((RN32 (w * s) - w * s) + (w - W) * s)%R by ring. eapply Rle_trans; [apply Rabs_triang|]. lra.
Qed.
(** a sum of four rounded terms *)
Lemma sum4_ok p q r s P Q R S M e x1 x2 x3 x4 : (1 <= M <= 65535)%R -> (0 <= e <= 8)%R -> isf x1 p -> isf x2 q -> isf x3 r -> isf x4 s -> (0 <= p <= 1.001 * M)%R -> (0 <= q <= 1.001 * M)%R -> (0 <= r <= 1.001 * M)%R -> (0 <= s <= 1.001 * M)%R -> (0 <= P)%R -> (0 <= Q)%R -> (0 <= R)%R -> (0 <= S)%R -> (P + Q + R + S <= M)%R ->
  (Rabs (p - P) <= e * uu * M)%R -> (Rabs (q - Q) <= e * uu * M)%R -> (Rabs (r - R) <= e * uu * M)%R -> (Rabs (s - S) <= e * uu * M)%R ->
  exists v, isf (f32_add (f32_add (f32_add x1 x2) x3) x4) v /\ (0 <= v)%R /\ (Rabs (v - (P + Q + R + S)) <= (4 * e + 3.1) * uu * M)%R.
Proof.
  intros HM He I1 I2 I3 I4 Hp Hq Hr Hs HP HQ HR HS HT E1 E2 E3 E4. destruct uu_val as [U0 U1]. assert (BB : (400000 <= B100)%R) by (unfold B100; apply IZR_le; vm_compute; discriminate). apply Rabs_le_inv in E1, E2, E3, E4.
  assert (UM : (0 < uu * M <= / 16700000 * M)%R) by (split; [apply Rmult_lt_0_compat; lra|apply Rmult_le_compat_r; lra]). set (k := (uu * M)%R) in *. assert (EK : (0 <= e * k <= 8 * k)%R) by (split; [apply Rmult_le_pos; lra|apply Rmult_le_compat_r; lra]). replace (e * uu * M)%R with (e * k)%R in * by (unfold k; ring). replace ((4 * e + 3.1) * uu * M)%R with (4 * (e * k) + 3.1 * k)%R by (unfold k; ring).
  pose proof (fb_add _ _ _ _ I1 I2 ltac:(lra)) as J1. pose proof (RN_e (p + q) (1.001 * M) ltac:(lra) ltac:(lra)) as F1. assert (N1 : (0 <= RN32 (p + q))%R) by (apply RN_nonneg; lra). set (v1 := RN32 (p + q)) in *. clearbody v1. replace (1.001 * uu * (1.001 * M))%R with (1.002001 * k)%R in F1 by (unfold k; lra). apply Rabs_le_inv in F1.
  pose proof (fb_add _ _ _ _ J1 I3 ltac:(lra)) as J2. pose proof (RN_e (v1 + r) (1.001 * M) ltac:(lra) ltac:(lra)) as F2. assert (N2 : (0 <= RN32 (v1 + r))%R) by (apply RN_nonneg; lra). set (v2 := RN32 (v1 + r)) in *. clearbody v2. replace (1.001 * uu * (1.001 * M))%R with (1.002001 * k)%R in F2 by (unfold k; lra). apply Rabs_le_inv in F2.
  pose proof (fb_add _ _ _ _ J2 I4 ltac:(lra)) as J3. pose proof (RN_e (v2 + s) (1.001 * M) ltac:(lra) ltac:(lra)) as F3. assert (N3 : (0 <= RN32 (v2 + s))%R) by (apply RN_nonneg; lra). set (v3 := RN32 (v2 + s)) in *. clearbody v3. replace (1.001 * uu * (1.001 * M))%R with (1.002001 * k)%R in F3 by (unfold k; lra). apply Rabs_le_inv in F3.
  exists v3. split; [exact J3|]. split; [exact N3|]. apply Rabs_le. lra.
Qed.
Lemma mix_ok t wff wfc wcf wcc a0 b0 c0 d0 A B C D a b c d V : isf wff a0 -> isf wfc b0 -> isf wcf c0 -> isf wcc d0 -> (0 <= a0 <= 1)%R -> (0 <= b0 <= 1)%R -> (0 <= c0 <= 1)%R -> (0 <= d0 <= 1)%R -> (0 <= A)%R -> (0 <= B)%R -> (0 <= C)%R -> (0 <= D)%R -> (A + B + C + D = 1)%R ->
  (Rabs (a0 - A) <= 3.01 * uu)%R -> (Rabs (b0 - B) <= 3.01 * uu)%R -> (Rabs (c0 - C) <= 3.01 * uu)%R -> (Rabs (d0 - D) <= 3.01 * uu)%R -> is_sample t a -> is_sample t b -> is_sample t c -> is_sample t d ->
  V = (A * IZR a + B * IZR b + C * IZR c + D * IZR d)%R -> is_sample t (mix t wff wfc wcf wcc a b c d) /\ (Rabs (IZR (mix t wff wfc wcf wcc a b c d) - V) <= / 2 + 20 * uu * IZR (smax t))%R.
Proof.
  intros I1 I2 I3 I4 B1 B2 B3 B4 P1 P2 P3 P4 ST E1 E2 E3 E4 S1 S2 S3 S4 EV. pose proof (smax_range t) as SM. assert (SI : forall z, is_sample t z -> isf (f32_of_Z z) (IZR z) /\ (0 <= IZR z <= IZR (smax t))%R) by (intros z [Z1 Z2]; split; [apply int_ok; lia|split; apply IZR_le; lia]).
  destruct (SI a S1) as (Ia & Ra). destruct (SI b S2) as (Ib & Rb). destruct (SI c S3) as (Ic & Rc). destruct (SI d S4) as (Id & Rd). assert (MB : (1 <= IZR (smax t) <= 65535)%R) by (split; apply IZR_le; lia). set (M := IZR (smax t)) in *. assert (BB : (400000 <= B100)%R) by (unfold B100; apply IZR_le; vm_compute; discriminate).
  assert (PB : forall w z, (0 <= w <= 1)%R -> (0 <= z <= M)%R -> (0 <= w * z <= B100)%R) by (intros w z Hw Hz; split; [apply Rmult_le_pos; lra|]; apply Rle_trans with (1 * M)%R; [apply Rmult_le_compat; lra|lra]).
  destruct (term_ok a0 A _ _ M ltac:(lra) B1 ltac:(lra) Ra eq_refl E1) as (T1 & F1). destruct (term_ok b0 B _ _ M ltac:(lra) B2 ltac:(lra) Rb eq_refl E2) as (T2 & F2). destruct (term_ok c0 C _ _ M ltac:(lra) B3 ltac:(lra) Rc eq_refl E3) as (T3 & F3). destruct (term_ok d0 D _ _ M ltac:(lra) B4 ltac:(lra) Rd eq_refl E4) as (T4 & F4).
  assert (PM : forall w z, (0 <= w)%R -> (0 <= z <= M)%R -> (0 <= w * z <= w * M)%R) by (intros w z Hw Hz; split; [apply Rmult_le_pos; lra|apply Rmult_le_compat_l; lra]).
  pose proof (PM A (IZR a) P1 Ra) as Q1. pose proof (PM B (IZR b) P2 Rb) as Q2. pose proof (PM C (IZR c) P3 Rc) as Q3. pose proof (PM D (IZR d) P4 Rd) as Q4. assert (SS : (A * M + B * M + C * M + D * M = M)%R) by (rewrite <- !Rmult_plus_distr_r, ST; ring).
  destruct (sum4_ok _ _ _ _ (A * IZR a) (B * IZR b) (C * IZR c) (D * IZR d) M 4.02 _ _ _ _ MB ltac:(lra) (fb_mul _ _ _ _ I1 Ia (PB _ _ B1 Ra)) (fb_mul _ _ _ _ I2 Ib (PB _ _ B2 Rb)) (fb_mul _ _ _ _ I3 Ic (PB _ _ B3 Rc)) (fb_mul _ _ _ _ I4 Id (PB _ _ B4 Rd)) T1 T2 T3 T4 ltac:(lra) ltac:(lra) ltac:(lra) ltac:(lra) ltac:(lra) F1 F2 F3 F4) as (v & Iv & Pv & Ev).
  rewrite <- EV in Ev. destruct uu_val as [U0 U1]. assert (UM : (0 < uu * M <= 0.004)%R) by (split; [apply Rmult_lt_0_compat; lra|]; apply Rle_trans with (/ 16700000 * 65535)%R; [apply Rmult_le_compat; lra|lra]). replace ((4 * 4.02 + 3.1) * uu * M)%R with (19.18 * (uu * M))%R in Ev by lra. apply Rabs_le_inv in Ev.
  assert (VB : (0 <= V <= M)%R) by lra. assert (ZR : 0 <= ZnearestA v <= smax t). { split; [pose proof (ZnearestA_le 0 v Pv) as N0; rewrite ZnearestA_Z in N0; exact N0|]. assert (N := Znearest_half (Z.leb 0) v). fold (ZnearestA v) in N. apply Rabs_le_inv in N. assert (IZR (ZnearestA v) < IZR (smax t + 1))%R by (rewrite plus_IZR; fold M; lra). apply lt_IZR in H. lia. }
  assert (EM : mix t wff wfc wcf wcc a b c d = ZnearestA v). { unfold mix. cbv zeta. pose proof (round_isf _ _ Iv) as (RE & RF). rewrite (cast_ok 24 128 f32_emax 0 (smax t) _ RF). cbv zeta. rewrite RE, Ztrunc_IZR. replace ((0 <=? ZnearestA v) && (ZnearestA v <=? smax t)) with true by lia. reflexivity. }
  rewrite EM. split; [exact ZR|]. assert (N := Znearest_half (Z.leb 0) v). fold (ZnearestA v) in N. apply Rabs_le_inv in N. replace (20 * uu * M)%R with (20 * (uu * M))%R by ring. apply Rabs_le. lra.
Qed.
Lemma mix4_ok t k f a b c d : is_pixel t k a -> is_pixel t k b -> is_pixel t k c -> is_pixel t k d -> (forall w x y z, is_sample t w -> is_sample t x -> is_sample t y -> is_sample t z -> is_sample t (f w x y z)) ->
  is_pixel t k (mix4 f a b c d) /\ forall i dflt, (i < Z.to_nat (nch k))%nat -> nth i (mix4 f a b c d) dflt = f (nth i a dflt) (nth i b dflt) (nth i c dflt) (nth i d dflt).
Proof.
  intros [La Fa] [Lb Fb] [Lc Fc] [Ld Fd] HF. set (n := Z.to_nat (nch k)). assert (N : forall l : list Z, zlen l = nch k -> length l = n) by (intros l Hl; unfold n, zlen in *; lia). apply N in Lb, Lc, Ld. pose proof (N a La) as La'. clear N.
  assert (G : length (mix4 f a b c d) = n /\ Forall (is_sample t) (mix4 f a b c d) /\ forall i dflt, (i < n)%nat -> nth i (mix4 f a b c d) dflt = f (nth i a dflt) (nth i b dflt) (nth i c dflt) (nth i d dflt)).
  { clear La. clearbody n. revert b c d n Fb Fc Fd La' Lb Lc Ld. induction a as [|a0 a IH]; intros b c d n Fb Fc Fd La Lb Lc Ld; [cbn in La; subst n; split; [reflexivity|]; split; [constructor|intros; lia]|].
    cbn [length] in La. subst n. destruct b as [|b0 b]; [discriminate Lb|]. destruct c as [|c0 c]; [discriminate Lc|]. destruct d as [|d0 d]; [discriminate Ld|]. cbn [length] in Lb, Lc, Ld. apply Nat.succ_inj in Lb, Lc, Ld. inversion_clear Fa as [|? ? A1 A2]. inversion_clear Fb as [|? ? B1 B2]. inversion_clear Fc as [|? ? C1 C2]. inversion_clear Fd as [|? ? D1 D2].
    destruct (IH A2 b c d (length a) B2 C2 D2 eq_refl Lb Lc Ld) as (G1 & G2 & G3). cbn [mix4]. split; [cbn [length]; rewrite G1; reflexivity|]. split; [constructor; [apply HF; assumption|exact G2]|]. intros [|i] dflt Hi; [reflexivity|]. cbn [nth]. apply G3. lia. }
  destruct G as (G1 & G2 & G3). split; [split; [unfold zlen in *; lia|exact G2]|exact G3].
Qed.
Lemma chan_nth t k im i x y p : pixel im x y = Some p -> is_pixel t k p -> (i < Z.to_nat (nch k))%nat -> forall d, nth i p d = chan_at t im i (x, y).
Proof. intros E [L _] Hi d. unfold chan_at. cbn [fst snd]. rewrite E. apply nth_indep. unfold zlen in L. lia. Qed.
Definition sized (im : img (list Z)) : Prop := 1 <= iw im <= 16777216 /\ 1 <= ih im <= 16777216.
Lemma nearest_at t k im x y X Y : img_ok t k im -> sized im -> isf x X -> isf y Y -> (0 <= X <= IZR (iw im - 1))%R -> (0 <= Y <= IZR (ih im - 1))%R ->
  exists p, interpolate_nearest im x y = Ok (Some p) /\ pixel im (ZnearestA X) (ZnearestA Y) = Some p.
Proof.
  intros HI (HW & HH) IX IY HX HY. unfold interpolate_nearest. replace ((iw im =? 0) || (ih im =? 0)) with false by lia.
  rewrite (proj2 (contains_iff f32_zero (f32_of_Z (iw im - 1)) x 0 (IZR (iw im - 1)) isf_zero (int_ok (iw im - 1) ltac:(lia)))) by (apply within_isf; exists X; split; assumption). rewrite (proj2 (contains_iff f32_zero (f32_of_Z (ih im - 1)) y 0 (IZR (ih im - 1)) isf_zero (int_ok (ih im - 1) ltac:(lia)))) by (apply within_isf; exists Y; split; assumption). cbn [negb].
  pose proof (near_in X (iw im) ltac:(lia) HX) as NX. pose proof (near_in Y (ih im) ltac:(lia) HY) as NY.
  rewrite (as32_ok _ _ _ _ (round_isf _ _ IX)), (as32_ok _ _ _ _ (round_isf _ _ IY)), !Ztrunc_IZR. replace (clampz 0 u32_max (ZnearestA X)) with (ZnearestA X) by (unfold clampz, u32_max; lia). replace (clampz 0 u32_max (ZnearestA Y)) with (ZnearestA Y) by (unfold clampz, u32_max; lia).
  destruct (pixel_at t k im (ZnearestA X, ZnearestA Y) HI) as (p & G & P & _); [split; cbn [fst snd]; lia|]. cbn [fst snd] in G, P. rewrite G. exists p. split; [reflexivity|exact P].
Qed.
Lemma outside_none m t im x y : sized im -> ~ (within 0 (IZR (iw im - 1)) x /\ within 0 (IZR (ih im - 1)) y) -> interpolate_nearest im x y = Ok None /\ interpolate_bilinear m t im x y = Ok None.
Proof.
  intros (HW & HH) N. unfold interpolate_nearest, interpolate_bilinear. replace ((iw im =? 0) || (ih im =? 0)) with false by lia.
  destruct (contains f32_zero (f32_of_Z (iw im - 1)) x) eqn:E1; [|split; reflexivity]. destruct (contains f32_zero (f32_of_Z (ih im - 1)) y) eqn:E2; [|split; reflexivity]. exfalso. apply N.
  split; [apply (contains_iff f32_zero (f32_of_Z (iw im - 1)) x 0 (IZR (iw im - 1)) isf_zero (int_ok (iw im - 1) ltac:(lia))); exact E1|apply (contains_iff f32_zero (f32_of_Z (ih im - 1)) y 0 (IZR (ih im - 1)) isf_zero (int_ok (ih im - 1) ltac:(lia))); exact E2].
Qed.
Lemma milli_ok : exists r, isf f32_milli r /\ (0.0005 <= r)%R.
Proof. eexists. split; [apply isf_dyadic; lia|]. change (bpow radix2 (-33)) with (/ 8589934592)%R. lra. Qed.
Lemma bilinear_at m t k im x y X Y : img_ok t k im -> sized im -> isf x X -> isf y Y -> (0 <= X <= IZR (iw im - 1))%R -> (0 <= Y <= IZR (ih im - 1))%R ->
  exists p, interpolate_bilinear m t im x y = Ok (Some p) /\ is_pixel t k p /\ forall i, (i < Z.to_nat (nch k))%nat -> (Rabs (IZR (nth i p 0%Z) - bilinear t im i X Y) <= / 2 + 20 * uu * IZR (smax t))%R.
Proof.
  intros HI (HW & HH) IX IY HX HY. unfold interpolate_bilinear. replace ((iw im =? 0) || (ih im =? 0)) with false by lia.
  rewrite (proj2 (contains_iff f32_zero (f32_of_Z (iw im - 1)) x 0 (IZR (iw im - 1)) isf_zero (int_ok (iw im - 1) ltac:(lia)))) by (apply within_isf; exists X; split; assumption). rewrite (proj2 (contains_iff f32_zero (f32_of_Z (ih im - 1)) y 0 (IZR (ih im - 1)) isf_zero (int_ok (ih im - 1) ltac:(lia)))) by (apply within_isf; exists Y; split; assumption). cbn [negb]. cbv zeta.
  destruct (axis_ok x X (iw im) HW IX HX) as (EU & UB & FX & a & b & Ia & Ib & Ba & Bb & Ea & Eb). destruct (axis_ok y Y (ih im) HH IY HY) as (EV & VB & FY & c & d & Ic & Id & Bc & Bd & Ec & Ed). cbv zeta in *. rewrite EU, EV. set (u := Zfloor X) in *. set (v := Zfloor Y) in *.
  unfold u32_add_m. replace (u + 1 <=? u32_max) with true by (unfold u32_max; lia). replace (v + 1 <=? u32_max) with true by (unfold u32_max; lia). cbn [bind]. set (u1 := Z.min (u + 1) (iw im - 1)). set (v1 := Z.min (v + 1) (ih im - 1)).
  destruct (pixel_at t k im (u, v) HI) as (pff & G1 & P1 & K1); [split; cbn [fst snd]; lia|]. destruct (pixel_at t k im (u, v1) HI) as (pfc & G2 & P2 & K2); [split; cbn [fst snd]; lia|]. destruct (pixel_at t k im (u1, v) HI) as (pcf & G3 & P3 & K3); [split; cbn [fst snd]; lia|]. destruct (pixel_at t k im (u1, v1) HI) as (pcc & G4 & P4 & K4); [split; cbn [fst snd]; lia|]. cbn [fst snd] in *. rewrite G1, G2, G3, G4. cbn [bind].
  set (fx := (X - IZR u)%R) in *. set (fy := (Y - IZR v)%R) in *. set (ucw := f32_sub (f32_of_Z (u + 1)) x) in *. set (ufw := f32_sub x (f32_of_Z u)) in *. set (vcw := f32_sub (f32_of_Z (v + 1)) y) in *. set (vfw := f32_sub y (f32_of_Z v)) in *.
  pose proof big_B as BB. assert (PB : forall w z, (0 <= w <= 1)%R -> (0 <= z <= 1)%R -> (0 <= w * z <= B100)%R) by (intros w z Hw Hz; split; [apply Rmult_le_pos; lra|]; apply Rle_trans with (1 * 1)%R; [apply Rmult_le_compat; lra|lra]).
  pose proof (fb_mul _ _ _ _ Ia Ic (PB _ _ Ba Bc)) as W1. pose proof (fb_mul _ _ _ _ Ia Id (PB _ _ Ba Bd)) as W2. pose proof (fb_mul _ _ _ _ Ib Ic (PB _ _ Bb Bc)) as W3. pose proof (fb_mul _ _ _ _ Ib Id (PB _ _ Bb Bd)) as W4.
  destruct (prod_ok a c (1 - fx) (1 - fy) Ba Bc ltac:(lra) ltac:(lra) Ea Ec) as (Q1 & E1). destruct (prod_ok a d (1 - fx) fy Ba Bd ltac:(lra) ltac:(lra) Ea Ed) as (Q2 & E2). destruct (prod_ok b c fx (1 - fy) Bb Bc ltac:(lra) ltac:(lra) Eb Ec) as (Q3 & E3). destruct (prod_ok b d fx fy Bb Bd ltac:(lra) ltac:(lra) Eb Ed) as (Q4 & E4).
  assert (N1 : (0 <= (1 - fx) * (1 - fy))%R) by (apply Rmult_le_pos; lra). assert (N2 : (0 <= (1 - fx) * fy)%R) by (apply Rmult_le_pos; lra). assert (N3 : (0 <= fx * (1 - fy))%R) by (apply Rmult_le_pos; lra). assert (N4 : (0 <= fx * fy)%R) by (apply Rmult_le_pos; lra). assert (NS : ((1 - fx) * (1 - fy) + (1 - fx) * fy + fx * (1 - fy) + fx * fy = 1)%R) by ring.
  set (A := ((1 - fx) * (1 - fy))%R) in *. set (B := ((1 - fx) * fy)%R) in *. set (C := (fx * (1 - fy))%R) in *. set (D := (fx * fy)%R) in *. destruct uu_val as [U0 U1].
  (** the debug_assert *)
  destruct (sum4_ok _ _ _ _ A B C D 1 3.01 _ _ _ _ ltac:(lra) ltac:(lra) W1 W2 W3 W4 ltac:(lra) ltac:(lra) ltac:(lra) ltac:(lra) N1 N2 N3 N4 ltac:(lra) ltac:(lra) ltac:(lra) ltac:(lra) ltac:(lra)) as (s & Is & Ps & Es). rewrite NS in Es. replace ((4 * 3.01 + 3.1) * uu * 1)%R with (15.14 * uu)%R in Es by lra. apply Rabs_le_inv in Es.
  pose proof (isf_abs _ _ (fs_sub _ _ _ _ Is isf_one ltac:(apply Rabs_le; lra))) as IO. destruct milli_ok as (r & Ir & Br). rewrite (lt_ok _ _ _ _ IO Ir). assert (OB : (Rabs (RN32 (s - 1)) <= / IZR (2 ^ 12))%R) by (apply RN_absr; [apply repr_pow; lia|]; change (IZR (2 ^ 12)) with 4096%R; apply Rabs_le; lra). change (IZR (2 ^ 12)) with 4096%R in OB. rewrite Rlt_bool_true by lra.
  replace (match m with Debug | _ => Ok (Some (mix4 (mix t (f32_mul ucw vcw) (f32_mul ucw vfw) (f32_mul ufw vcw) (f32_mul ufw vfw)) pff pfc pcf pcc)) end) with (Ok (Some (mix4 (mix t (f32_mul ucw vcw) (f32_mul ucw vfw) (f32_mul ufw vcw) (f32_mul ufw vfw)) pff pfc pcf pcc))) by (destruct m; reflexivity).
  set (wff := f32_mul ucw vcw) in *. set (wfc := f32_mul ucw vfw) in *. set (wcf := f32_mul ufw vcw) in *. set (wcc := f32_mul ufw vfw) in *.
  assert (MX : forall w x' y' z, is_sample t w -> is_sample t x' -> is_sample t y' -> is_sample t z -> is_sample t (mix t wff wfc wcf wcc w x' y' z) /\ (Rabs (IZR (mix t wff wfc wcf wcc w x' y' z) - (A * IZR w + B * IZR x' + C * IZR y' + D * IZR z)) <= / 2 + 20 * uu * IZR (smax t))%R) by (intros w x' y' z S1 S2 S3 S4; exact (mix_ok t wff wfc wcf wcc _ _ _ _ A B C D w x' y' z _ W1 W2 W3 W4 Q1 Q2 Q3 Q4 N1 N2 N3 N4 NS E1 E2 E3 E4 S1 S2 S3 S4 eq_refl)).
  destruct (mix4_ok t k (mix t wff wfc wcf wcc) pff pfc pcf pcc K1 K2 K3 K4 (fun w x' y' z S1 S2 S3 S4 => proj1 (MX w x' y' z S1 S2 S3 S4))) as (KP & KN). eexists. split; [reflexivity|]. split; [exact KP|]. intros i Hi. rewrite (KN i 0 Hi).
  rewrite (chan_nth t k im i _ _ _ P1 K1 Hi), (chan_nth t k im i _ _ _ P2 K2 Hi), (chan_nth t k im i _ _ _ P3 K3 Hi), (chan_nth t k im i _ _ _ P4 K4 Hi).
  assert (CS : forall x' y', 0 <= x' < iw im -> 0 <= y' < ih im -> is_sample t (chan_at t im i (x', y'))) by (intros x' y' Hx Hy; apply (chan_sample t k im i); [exact HI|split; assumption]).
  exact (proj2 (MX _ _ _ _ (CS u v ltac:(lia) ltac:(lia)) (CS u v1 ltac:(lia) ltac:(lia)) (CS u1 v ltac:(lia) ltac:(lia)) (CS u1 v1 ltac:(lia) ltac:(lia)))).
Qed.
(** bilinear interpolation stays between the extremes of the four pixels, and is the pixel itself at a pixel *)
Lemma bilinear_range t im i X Y lo hi : (let u := Zfloor X in let v := Zfloor Y in forall x y, (x = u \/ x = Z.min (u + 1) (iw im - 1)) -> (y = v \/ y = Z.min (v + 1) (ih im - 1)) -> lo <= chan_at t im i (x, y) <= hi) -> (IZR lo <= bilinear t im i X Y <= IZR hi)%R.
Proof.
  intros H. cbv zeta in H. unfold bilinear. cbv zeta. set (u := Zfloor X) in *. set (v := Zfloor Y) in *. pose proof (Zfloor_lb X) as F1. pose proof (Zfloor_ub X) as F2. pose proof (Zfloor_lb Y) as F3. pose proof (Zfloor_ub Y) as F4. fold u in F1, F2. fold v in F3, F4. set (fx := (X - IZR u)%R). set (fy := (Y - IZR v)%R). assert (HX : (0 <= fx <= 1)%R) by (unfold fx; lra). assert (HY : (0 <= fy <= 1)%R) by (unfold fy; lra). clearbody fx fy.
  assert (G : forall x y, (x = u \/ x = Z.min (u + 1) (iw im - 1)) -> (y = v \/ y = Z.min (v + 1) (ih im - 1)) -> (IZR lo <= IZR (chan_at t im i (x, y)) <= IZR hi)%R) by (intros x y Hx Hy; specialize (H x y Hx Hy); split; apply IZR_le; lia).
  pose proof (G u v (or_introl eq_refl) (or_introl eq_refl)) as G1. pose proof (G u _ (or_introl eq_refl) (or_intror eq_refl)) as G2. pose proof (G _ v (or_intror eq_refl) (or_introl eq_refl)) as G3. pose proof (G _ _ (or_intror eq_refl) (or_intror eq_refl)) as G4.
  set (c1 := IZR (chan_at t im i (u, v))) in *. set (c2 := IZR (chan_at t im i (u, Z.min (v + 1) (ih im - 1)))) in *. set (c3 := IZR (chan_at t im i (Z.min (u + 1) (iw im - 1), v))) in *. set (c4 := IZR (chan_at t im i (Z.min (u + 1) (iw im - 1), Z.min (v + 1) (ih im - 1)))) in *. clearbody c1 c2 c3 c4.
  assert (N1 : (0 <= (1 - fx) * (1 - fy))%R) by (apply Rmult_le_pos; lra). assert (N2 : (0 <= (1 - fx) * fy)%R) by (apply Rmult_le_pos; lra). assert (N3 : (0 <= fx * (1 - fy))%R) by (apply Rmult_le_pos; lra). assert (N4 : (0 <= fx * fy)%R) by (apply Rmult_le_pos; lra). assert (NS : ((1 - fx) * (1 - fy) + (1 - fx) * fy + fx * (1 - fy) + fx * fy = 1)%R) by ring.
  set (A := ((1 - fx) * (1 - fy))%R) in *. set (B := ((1 - fx) * fy)%R) in *. set (C := (fx * (1 - fy))%R) in *. set (D := (fx * fy)%R) in *. clearbody A B C D.
  assert (L : forall w c, (0 <= w)%R -> (IZR lo <= c <= IZR hi)%R -> (w * IZR lo <= w * c <= w * IZR hi)%R) by (intros w c Hw Hc; split; apply Rmult_le_compat_l; lra).
  pose proof (L A c1 N1 G1). pose proof (L B c2 N2 G2). pose proof (L C c3 N3 G3). pose proof (L D c4 N4 G4). assert (EL : (A * IZR lo + B * IZR lo + C * IZR lo + D * IZR lo = IZR lo)%R) by (rewrite <- !Rmult_plus_distr_r, NS; ring). assert (EH : (A * IZR hi + B * IZR hi + C * IZR hi + D * IZR hi = IZR hi)%R) by (rewrite <- !Rmult_plus_distr_r, NS; ring). lra.
Qed.
Lemma bilinear_pixel t im i x y : bilinear t im i (IZR x) (IZR y) = IZR (chan_at t im i (x, y)).
Proof. unfold bilinear. cbv zeta. rewrite !Zfloor_IZR. ring. Qed.
(** integers near a range *)
Lemma int_in_range t z V lo hi : (Rabs (IZR z - V) <= / 2 + 20 * uu * IZR (smax t))%R -> (IZR lo <= V <= IZR hi)%R -> lo <= z <= hi.
Proof.
  intros H HV. pose proof (smax_range t) as SM. assert (MB : (1 <= IZR (smax t) <= 65535)%R) by (split; apply IZR_le; lia). destruct uu_val as [U0 U1]. assert (UM : (uu * IZR (smax t) <= 0.004)%R) by (apply Rle_trans with (/ 16700000 * 65535)%R; [apply Rmult_le_compat; lra|lra]). apply Rabs_le_inv in H. replace (20 * uu * IZR (smax t))%R with (20 * (uu * IZR (smax t)))%R in H by ring.
  assert (A : (IZR (lo - 1) < IZR z)%R) by (rewrite minus_IZR; lra). assert (B : (IZR z < IZR (hi + 1))%R) by (rewrite plus_IZR; lra). apply lt_IZR in A, B. lia.
Qed.
(** ** coordinates in [0, 1] *)
Lemma coordinate_ok w u U : 1 <= w <= 16777216 -> isf u U -> (0 <= U <= 1)%R -> exists X, isf (coordinate w (w - 1) u) X /\ (0 <= X <= IZR (w - 1))%R /\ (Rabs (X - column_at w U) <= IZR w / 4194304)%R /\ (U = 0%R -> X = 0%R) /\ (U = 1%R -> X = IZR (w - 1)).
Proof.
  intros HW IU HU. assert (WB : (1 <= IZR w <= 16777216)%R) by (split; apply IZR_le; lia). assert (BB : (33554432 <= B100)%R) by (unfold B100; apply IZR_le; vm_compute; discriminate). destruct uu_val as [U0 U1]. pose proof eta_uu as ET.
  assert (P : (0 <= IZR w * U <= IZR w)%R) by (split; [apply Rmult_le_pos; lra|rewrite <- (Rmult_1_r (IZR w)) at 2; apply Rmult_le_compat_l; lra]).
  pose proof (fb_mul _ _ _ _ (int_ok w ltac:(lia)) IU ltac:(lra)) as I1. assert (R1 : (0 <= RN32 (IZR w * U) <= IZR w)%R) by (split; [apply RN_nonneg; lra|]; apply RN_le_r; [exact eq_refl|exact (isf_repr _ _ (int_ok w ltac:(lia)))|lra]). pose proof (RN_e _ _ P ltac:(lra)) as E1.
  pose proof (fs_sub _ _ _ _ I1 half_ok ltac:(apply Rabs_le; lra)) as I2. pose proof (RN_aes (RN32 (IZR w * U) - / 2)) as E2. set (r1 := RN32 (IZR w * U)) in *. set (r2 := RN32 (r1 - / 2)) in *.
  assert (A2 : (Rabs (r1 - / 2) <= IZR w)%R) by (apply Rabs_le; lra). assert (UA : (uu * Rabs (r1 - / 2) <= uu * IZR w)%R) by (apply Rmult_le_compat_l; lra). assert (UW : (uu * 1 <= uu * IZR w)%R) by (apply Rmult_le_compat_l; lra). apply Rabs_le_inv in E1, E2.
  assert (UV : (uu <= / 16777000)%R) by (unfold uu; change (IZR (2 ^ 24)) with 16777216%R; apply Rinv_le_contravar; lra). assert (UW2 : (uu * IZR w <= / 16777000 * IZR w)%R) by (apply Rmult_le_compat_r; lra).
  assert (NN : forall z r, isf z r -> is_nan z = false) by (intros z r (_ & F); destruct z; try discriminate F; reflexivity).
  assert (M : isf (f32_max (f32_sub (f32_mul (f32_of_Z w) u) f32_half) f32_zero) (Rmax 0 r2)). { unfold f32_max. rewrite (NN _ _ I2), (NN _ _ isf_zero), (lt_ok _ _ _ _ I2 isf_zero). destruct (Rlt_bool_spec r2 0) as [G|G]; [rewrite Rmax_left by lra; exact isf_zero|rewrite Rmax_right by lra; exact I2]. }
  pose proof (int_ok (w - 1) ltac:(lia)) as IL. assert (LW : (IZR (w - 1) = IZR w - 1)%R) by (rewrite minus_IZR; reflexivity).
  exists (Rmin (IZR (w - 1)) (Rmax 0 r2)). split. { unfold coordinate, f32_min. rewrite (NN _ _ M), (NN _ _ IL), (lt_ok _ _ _ _ IL M). destruct (Rlt_bool_spec (IZR (w - 1)) (Rmax 0 r2)) as [G|G]; [rewrite Rmin_left by lra; exact IL|rewrite Rmin_right by lra; exact M]. }
  assert (M0 : (0 <= Rmax 0 r2)%R) by apply Rmax_l. split; [split; [apply Rmin_glb; lra|apply Rmin_l]|]. rewrite LW. split; [|split].
  - unfold column_at. assert (D : (Rabs (r2 - (IZR w * U - / 2)) <= IZR w / 4194304)%R) by (apply Rabs_le; lra). apply Rabs_le_inv in D. set (q := (IZR w * U - / 2)%R) in *. clearbody q. set (e := (IZR w / 4194304)%R) in *. assert (0 <= e)%R by (unfold e; lra). clearbody e. clear - D WB H. apply Rabs_le. unfold Rmin, Rmax. destruct (Rle_dec 0 r2), (Rle_dec (IZR w - 1) q); repeat match goal with |- context [Rle_dec ?a ?b] => destruct (Rle_dec a b) end; lra.
  - intros ->. assert (Z1 : r1 = 0%R) by (unfold r1; rewrite Rmult_0_r; apply RN_0). assert (Z2 : (r2 <= 0)%R) by (unfold r2; rewrite Z1; apply RN_le_r; [exact eq_refl|exact (isf_repr _ _ isf_zero)|lra]). rewrite (Rmax_left 0 r2) by lra. apply Rmin_right. lra.
  - intros ->. assert (Z1 : r1 = IZR w) by (unfold r1; rewrite Rmult_1_r; apply RN_int; lia). assert (Z2 : (IZR w - 1 <= r2)%R) by (unfold r2; rewrite Z1, <- LW; apply RN_ge; [exact eq_refl|exact (isf_repr _ _ IL)|lra]). apply Rmin_left. rewrite Rmax_right by lra. exact Z2.
Qed.
