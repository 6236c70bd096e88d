From Coq Require Import ZArith Bool Reals Lia Lra.
From Flocq Require Import Core IEEE754.BinarySingleNaN.
From Verif Require Import Base BaseLemmas ListLemmas ListMore Color ColorProofs Float FloatProofs JpegQuant ColorF ColorFProofs GenImage Thumb ThumbSpec ThumbProofs ThumbProofs2 ThumbProofs3 ThumbProofs4 Sample SampleSpec SampleProofs SampleProofs2 SampleProofs3 SampleProofs4 SampleProofs5 SampleProofs7.
Local Open Scope Z_scope.

(** the two passes: the mean of the columns' means *)
Definition mean2 (t : sty) (im : img (list Z)) (i : nat) (Kx Ky : Z -> R) (lx nx ly ny : Z) : R := mean Kx (fun x' => mean Ky (fun y' => IZR (chan_at t im i (x', y'))) ly ny) lx nx.
Lemma vertical_mean t k f im nh Ky : img_ok t k im -> 1 <= iw im -> 1 <= ih im -> 0 <= nh -> (forall y, 0 <= y < nh -> taps_val f (ih im) nh y (Ky y) /\ ntaps f (ih im) nh y <= 524288) ->
  exists tmp, vertical_sample t f im nh = Ok tmp /\ four tmp /\ iw tmp = iw im /\ ih tmp = nh /\ forall x y i, 0 <= x < iw im -> 0 <= y < nh -> (i < 4)%nat ->
    let n := Z.to_nat (ntaps f (ih im) nh y) in let M := mean (Ky y) (fun j => IZR (chan_at t im i (x, j))) (left_tap f (ih im) nh y) (ntaps f (ih im) nh y) in
    exists T, isf (fchan tmp i x y) T /\ (0 <= T)%R /\ (M * pp ^ (2 * n + 4) - / B60 <= T <= M * qq ^ (2 * n + 4) + / B60)%R.
Proof.
  intros HI HW HH HN HG. unfold vertical_sample. replace (negb (negb (ih im =? 0) || (iw im =? 0))) with false by lia.
  destruct (fill_loop zero4 (iw im) nh (vertical_pixel t f im nh) (fun x y p => length p = 4%nat)) as (tmp & E & W & E1 & E2 & GP); [lia|lia| |].
  { intros x y Hx Hy. rewrite (vertical_pixel_eq t k f im nh x y HI HH Hx). eexists. split; reflexivity. }
  exists tmp. split; [exact E|]. split; [split; [exact W|]|split; [exact E1|split; [exact E2|]]].
  - intros x y Hx Hy. rewrite E1 in Hx. rewrite E2 in Hy. destruct (GP x y Hx Hy) as (p & EP & _ & L). exists p. auto.
  - intros x y i Hx Hy Hi. destruct (GP x y Hx Hy) as (p & EP & EV & _). rewrite (vertical_pixel_eq t k f im nh x y HI HH Hx) in EV. apply Ok_inj in EV.
    set (g := fun i => dot (column t im x (left_tap f (ih im) nh y) (ntaps f (ih im) nh y) i) (weights f (ih im) nh y)) in EV.
    assert (EF : fchan tmp i x y = g i). { unfold fchan. rewrite EP, <- EV. destruct i as [|[|[|[|]]]]; try lia; reflexivity. }
    rewrite EF. unfold g. destruct (HG y Hy) as [G1 G2]. pose proof (taps_range f (ih im) nh y HH) as TR. pose proof (smax_range t) as SM.
    apply (pass_mean f (ih im) nh y (Ky y) (fun j => f32_of_Z (chan_at t im i (x, j))) (fun j => IZR (chan_at t im i (x, j))) (IZR (smax t))); [exact HH|lia|exact G1| |apply IZR_le; lia].
    intros j Hj. assert (B : 0 <= chan_at t im i (x, j) <= smax t) by (apply (chan_sample t k im i); [exact HI|split; cbn [fst snd]; lia]). split; [apply of_Z_ok; lia|split; apply IZR_le; lia].
Qed.
Lemma qq_pow N : (INR N * uu <= / 4)%R -> (qq ^ N - 1 <= 4 / 3 * (INR N * uu))%R.
Proof.
  intros H. pose proof (pp_bern N) as B. pose proof (pq N) as PQ. pose proof (qq1 N) as Q1. set (z := (INR N * uu)%R) in *. set (q := (qq ^ N)%R) in *. set (p := (pp ^ N)%R) in *. clearbody p q. destruct uu_val as [U0 _]. assert (Z0 : (0 <= z)%R) by (unfold z; apply Rmult_le_pos; [apply pos_INR|lra]). clearbody z.
  assert (A : ((1 - z) * q <= 1)%R) by (rewrite <- PQ; apply Rmult_le_compat_r; lra). assert (C : (3 / 4 * q <= 1)%R) by (apply Rle_trans with ((1 - z) * q)%R; [apply Rmult_le_compat_r; lra|lra]). assert (z * q <= z * (4 / 3))%R by (apply Rmult_le_compat_l; lra). lra.
Qed.
Lemma resample_mean t k f im nw nh Kx Ky : img_ok t k im -> 1 <= iw im -> 1 <= ih im -> 0 <= nw -> 0 <= nh ->
  (forall x, 0 <= x < nw -> taps_val f (iw im) nw x (Kx x) /\ ntaps f (iw im) nw x <= 524288) -> (forall y, 0 <= y < nh -> taps_val f (ih im) nh y (Ky y) /\ ntaps f (ih im) nh y <= 524288) ->
  exists r, resample t k f im nw nh = Ok r /\ wf r /\ iw r = nw /\ ih r = nh /\ forall x y, 0 <= x < nw -> 0 <= y < nh -> exists p, pixel r x y = Some p /\ is_pixel t k p /\
    forall i, (i < Z.to_nat (nch k))%nat -> let nx := ntaps f (iw im) nw x in let ny := ntaps f (ih im) nh y in
      (Rabs (IZR (nth i p 0%Z) - mean2 t im i (Kx x) (Ky y) (left_tap f (iw im) nw x) nx (left_tap f (ih im) nh y) ny) <= / 2 + IZR (smax t) * (4 / 3 * ((2 * (IZR nx + IZR ny) + 9) * uu)))%R.
Proof.
  intros HI HW HH HNW HNH GX GY. unfold resample. destruct (vertical_mean t k f im nh Ky HI HW HH HNH GY) as (tmp & EV & F4 & EW & EH & CH). rewrite EV. cbn [bind]. unfold horizontal_sample. rewrite EW, EH. replace (negb (negb (iw im =? 0) || (nh =? 0))) with false by lia.
  pose proof (smax_range t) as SM. set (M2 := fun x y i => mean2 t im i (Kx x) (Ky y) (left_tap f (iw im) nw x) (ntaps f (iw im) nw x) (left_tap f (ih im) nh y) (ntaps f (ih im) nh y)).
  set (er := fun x y => (/ 2 + IZR (smax t) * (4 / 3 * ((2 * (IZR (ntaps f (iw im) nw x) + IZR (ntaps f (ih im) nh y)) + 9) * uu)))%R).
  set (fx := fun x y => c <- horizontal_pixel t f tmp nw x y ;; Ok (from_channels k c)).
  set (Q := fun x y (p : list Z) => is_pixel t k p /\ forall i, (i < Z.to_nat (nch k))%nat -> (Rabs (IZR (nth i p 0%Z) - M2 x y i) <= er x y)%R).
  destruct (fill_loop_cols (repeat 0 (Z.to_nat (nch k))) nw nh fx Q HNW HNH) as (r & E & W & E1 & E2 & GP).
  2:{ exists r. split; [|split; [exact W|split; [exact E1|split; [exact E2|]]]].
      - rewrite <- E. unfold for2. apply foldM_ext. intros s x _. apply foldM_ext. intros s' y _. unfold fx. destruct (horizontal_pixel t f tmp nw x y); reflexivity.
      - intros x y Hx Hy. destruct (GP x y Hx Hy) as (p & EP & _ & HQ). exists p. split; [exact EP|exact HQ]. }
  intros x y Hx Hy. destruct (GX x Hx) as [G1 G2]. destruct (GY y Hy) as [GY1 GY2]. pose proof (taps_range f (iw im) nw x HW) as TX. pose proof (taps_range f (ih im) nh y HH) as TY.
  unfold fx. pose proof (horizontal_pixel_eq t f tmp nw x y F4 ltac:(lia) ltac:(lia)) as HE. rewrite EW in HE. rewrite HE.
  set (g := fun i => dot (frow tmp y (left_tap f (iw im) nw x) (ntaps f (iw im) nw x) i) (weights f (iw im) nw x)).
  set (n1 := ntaps f (ih im) nh y) in *. set (n2 := ntaps f (iw im) nw x) in *. assert (N1 : 1 <= n1) by (unfold n1, ntaps; lia). assert (N2 : 1 <= n2) by (unfold n2, ntaps; lia). set (lx := left_tap f (iw im) nw x) in *. set (ly := left_tap f (ih im) nh y) in *.
  assert (KX0 : forall i, lx <= i < lx + n2 -> (0 <= Kx x i)%R) by (intros i Hi; apply (proj1 G1 i); unfold n2, ntaps in Hi; fold lx in Hi; lia). assert (KY0 : forall i, ly <= i < ly + n1 -> (0 <= Ky y i)%R) by (intros i Hi; apply (proj1 GY1 i); unfold n1, ntaps in Hi; fold ly in Hi; lia).
  pose proof (taps_sum _ _ _ _ _ G1) as SX. pose proof (taps_sum _ _ _ _ _ GY1) as SY. fold lx n2 in SX. fold ly n1 in SY.
  assert (CS : forall i x' y', lx <= x' < lx + n2 -> ly <= y' < ly + n1 -> 0 <= chan_at t im i (x', y') <= smax t).
  { intros i x' y' H1 H2. unfold n1, n2, ntaps in H1, H2. fold lx in H1. fold ly in H2. apply (chan_sample t k im i (x', y') HI). unfold inside. cbn [fst snd]. lia. }
  destruct uu_val as [U0 U1]. pose proof e60 as E60. assert (SMR : (1 <= IZR (smax t) <= 65535)%R) by (split; apply IZR_le; lia).
  set (N := (2 * Z.to_nat n1 + 4 + (2 * Z.to_nat n2 + 4))%nat). assert (INN : INR N = (2 * (IZR n2 + IZR n1) + 8)%R) by (rewrite INR_IZR_INZ; replace (Z.of_nat N) with (2 * (n2 + n1) + 8) by (unfold N; lia); rewrite !plus_IZR, mult_IZR, plus_IZR; reflexivity).
  assert (NB : (1 <= IZR n1 <= 524288)%R /\ (1 <= IZR n2 <= 524288)%R) by (split; split; apply IZR_le; lia). destruct NB as [NB1 NB2].
  assert (NU : (INR N * uu <= / 4)%R) by (rewrite INN; apply Rle_trans with (2097160 * / 16700000)%R; [apply Rmult_le_compat; lra|lra]).
  assert (GM : forall i, (i < 4)%nat -> (0 <= M2 x y i <= IZR (smax t))%R /\ exists T, isf (g i) T /\ (0 <= T)%R /\ (M2 x y i * pp ^ N - 3 * / B60 <= T <= M2 x y i * qq ^ N + 3 * / B60)%R).
  { intros i Hi. set (k1 := (2 * Z.to_nat n1 + 4)%nat) in *. set (k2 := (2 * Z.to_nat n2 + 4)%nat) in *. set (v := fun x' => mean (Ky y) (fun j => IZR (chan_at t im i (x', j))) ly n1).
    assert (VB : forall x', lx <= x' < lx + n2 -> (0 <= v x' <= IZR (smax t))%R). { intros x' Hx'. apply (mean_range (Ky y) _ ly n1 0 (IZR (smax t)) KY0 SY). intros y' Hy'. specialize (CS i x' y' Hx' Hy'). split; apply IZR_le; lia. }
    assert (MB : (0 <= M2 x y i <= IZR (smax t))%R) by exact (mean_range (Kx x) v lx n2 0 (IZR (smax t)) KX0 SX VB). split; [exact MB|].
    assert (P1 : (0 < pp ^ k1 <= 1)%R) by apply pp1. assert (P2 : (0 < pp ^ k2 <= 1)%R) by apply pp1. assert (Q1 : (1 <= qq ^ k1)%R) by apply qq1. assert (Q2 : (1 <= qq ^ k2)%R) by apply qq1.
    assert (QB : forall n, 1 <= n <= 524288 -> (qq ^ (2 * Z.to_nat n + 4) <= 1.5)%R). { intros n Hn. replace (2 * Z.to_nat n + 4)%nat with ((Z.to_nat n + 2) + (Z.to_nat n + 2))%nat by lia. rewrite pow_add. pose proof (qq_two (Z.to_nat n + 2) ltac:(lia)) as QT. pose proof (qq1 (Z.to_nat n + 2)). apply Rle_trans with (1.2 * 1.2)%R; [apply Rmult_le_compat; lra|lra]. }
    pose proof (QB n1 ltac:(lia)) as QB1. pose proof (QB n2 ltac:(lia)) as QB2. fold k1 in QB1. fold k2 in QB2.
    (** the intermediate values as a function of the column *)
    assert (VF : exists w : Z -> R, forall x', lx <= x' < lx + n2 -> isf (fchan tmp i x' y) (w x') /\ (0 <= w x')%R /\ (v x' * pp ^ k1 - / B60 <= w x' <= v x' * qq ^ k1 + / B60)%R).
    { exists (fun x' => B2R (fchan tmp i x' y)). intros x' Hx'. unfold n2, ntaps in Hx'. fold lx in Hx'. destruct (CH x' y i ltac:(lia) Hy Hi) as (T & HT & T0 & TB). cbv zeta in TB. fold n1 ly k1 in TB. destruct HT as [ET FT]. rewrite ET. split; [split; assumption|]. split; [exact T0|exact TB]. }
    destruct VF as (w & VF).
    destruct (pass_mean f (iw im) nw x (Kx x) (fun x' => fchan tmp i x' y) w 100000 HW ltac:(fold n2; lia) G1) as (T & HT & T0 & TB).
    { intros x' Hx'. assert (Hx2 : lx <= x' < lx + n2) by (unfold n2, ntaps; fold lx; fold lx in Hx'; lia). destruct (VF x' Hx2) as (A1 & A2 & A3). specialize (VB x' Hx2). split; [exact A1|]. split; [exact A2|]. assert (v x' * qq ^ k1 <= 65535 * 1.5)%R by (apply Rmult_le_compat; lra). lra. } { lra. }
    cbv zeta in TB. fold n2 lx k2 in TB. exists T. split; [exact HT|]. split; [exact T0|].
    assert (MH : (mean (Kx x) w lx n2 <= M2 x y i * qq ^ k1 + / B60)%R) by (apply (mean_scaled_hi (Kx x) w v lx n2 _ _ KX0 SX); intros x' Hx'; apply (VF x' Hx')).
    assert (ML : (M2 x y i * pp ^ k1 - / B60 <= mean (Kx x) w lx n2)%R) by (apply (mean_scaled_lo (Kx x) w v lx n2 _ _ KX0 SX); intros x' Hx'; apply (VF x' Hx')).
    unfold N. rewrite !(pow_add _ k1 k2). set (m := mean (Kx x) w lx n2) in *. clearbody m.
    apply (Rmult_le_compat_r (pp ^ k2)%R) in ML; [|lra]. apply (Rmult_le_compat_r (qq ^ k2)%R) in MH; [|lra]. assert (EP : (/ B60 * pp ^ k2 <= / B60 * 1)%R) by (apply Rmult_le_compat_l; lra). assert (EQ : (/ B60 * qq ^ k2 <= / B60 * 1.5)%R) by (apply Rmult_le_compat_l; lra).
    split; [replace (M2 x y i * (pp ^ k1 * pp ^ k2))%R with (M2 x y i * pp ^ k1 * pp ^ k2)%R by ring|replace (M2 x y i * (qq ^ k1 * qq ^ k2))%R with (M2 x y i * qq ^ k1 * qq ^ k2)%R by ring]; lra. }
  assert (QS : forall i, (i < 4)%nat -> exists z, quantize t (g i) = Ok z /\ is_sample t z /\ (Rabs (IZR z - M2 x y i) <= er x y)%R).
  { intros i Hi. destruct (GM i Hi) as (MB & T & HT & T0 & TB). destruct (quantize_ok t (g i) T HT) as [EQ SQ]. eexists. split; [exact EQ|]. split; [exact SQ|]. set (m := M2 x y i) in *. clearbody m.
    pose proof (qq_pow N NU) as QP. pose proof (pp_bern N) as PB. set (c := Rmin (IZR (smax t)) (Rmax 0 T)). assert (ZN : (Rabs (IZR (ZnearestA c) - c) <= / 2)%R) by (rewrite Rabs_minus_sym; apply Znearest_half). rewrite INN in QP, PB. set (d := ((2 * (IZR n2 + IZR n1) + 8) * uu)%R) in *.
    assert (D0 : (0 <= d)%R) by (unfold d; apply Rmult_le_pos; lra). assert (MH : (m * qq ^ N <= m + IZR (smax t) * (4 / 3 * d))%R) by (assert (m * (qq ^ N - 1) <= IZR (smax t) * (4 / 3 * d))%R by (apply Rmult_le_compat; try lra; pose proof (qq1 N); lra); lra). assert (ML : (m - IZR (smax t) * (4 / 3 * d) <= m * pp ^ N)%R) by (assert (m * (1 - pp ^ N) <= IZR (smax t) * (4 / 3 * d))%R by (apply Rmult_le_compat; try lra; pose proof (pp1 N); lra); lra).
    assert (ERV : (er x y = / 2 + IZR (smax t) * (4 / 3 * d) + IZR (smax t) * (4 / 3 * uu))%R) by (unfold er, d; fold n1 n2; ring). assert (TINY : (3 * / B60 <= IZR (smax t) * (4 / 3 * uu))%R). { apply Rle_trans with (1 * (4 / 3 * uu))%R; [|apply Rmult_le_compat_r; lra]. assert (/ B60 <= uu * / 3)%R; [|lra]. unfold B60, uu. rewrite <- Rinv_mult. rewrite <- mult_IZR. apply Rinv_le_contravar; [apply IZR_lt; lia|apply IZR_le; vm_compute; discriminate]. }
    rewrite ERV. set (s := IZR (smax t)) in *. clearbody s. set (e := (s * (4 / 3 * d))%R) in *. clearbody e. set (e' := (s * (4 / 3 * uu))%R) in *. clearbody e'.
    assert (CC : (m - e - e' <= c <= m + e + e')%R). { rewrite Rmax_right in * by lra. unfold c. rewrite Rmax_right by lra. destruct (Rle_or_lt s T) as [G|G]; [rewrite Rmin_left by lra|rewrite Rmin_right by lra]; split; lra. }
    apply Rabs_le_inv in ZN. apply Rabs_le. split; lra. }
  destruct (QS 0%nat ltac:(lia)) as (z0 & Q0 & S0 & R0). destruct (QS 1%nat ltac:(lia)) as (z1 & Q1 & S1 & R1). destruct (QS 2%nat ltac:(lia)) as (z2 & Q2 & S2 & R2). destruct (QS 3%nat ltac:(lia)) as (z3 & Q3 & S3 & R3).
  exists (from_channels k [z0; z1; z2; z3]). change (map g [0; 1; 2; 3]%nat) with [g 0%nat; g 1%nat; g 2%nat; g 3%nat]. rewrite (map_res4 (quantize t) _ _ _ _ z0 z1 z2 z3 Q0 Q1 Q2 Q3). split; [reflexivity|]. unfold Q. split.
  - destruct k; (split; [reflexivity|]); repeat (apply Forall_cons; [assumption|]); apply Forall_nil.
  - intros i Hi. assert (NI : nth i (from_channels k [z0; z1; z2; z3]) 0 = match i with 0 => z0 | 1 => z1 | 2 => z2 | _ => z3 end%nat).
    { destruct k; cbn [nch] in Hi; destruct i as [|[|[|[|]]]]; try lia; reflexivity. }
    rewrite NI. assert (I4 : (i < 4)%nat) by (destruct k; cbn [nch] in Hi; lia). destruct i as [|[|[|[|]]]]; [exact R0|exact R1|exact R2|exact R3|lia].
Qed.
