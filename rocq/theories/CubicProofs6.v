From Coq Require Import ZArith Bool Reals Lia Lra.
From Flocq Require Import Core IEEE754.BinarySingleNaN.
From Verif Require Import Base BaseLemmas ListLemmas ListMore Color ColorProofs Float FloatProofs JpegQuant ColorF ColorFProofs GenImage Thumb ThumbSpec ThumbProofs ThumbProofs2 ThumbProofs3 ThumbProofs4 Sample SampleSpec SampleProofs SampleProofs2 SampleProofs3 SampleProofs4 SampleProofs5 SampleProofs7 SampleProofs8 SampleProofs9 SampleProofs10 Filter3Spec Filter3Proofs CubicSpec CubicProofs CubicProofs2 CubicProofs3 CubicProofs4 CubicProofs5.
Local Open Scope Z_scope.

(** ** both passes with weights of both signs *)
Definition staps (f : filter) (size ns out : Z) (K : Z -> R) : Prop :=
  let l := left_tap f size ns out in let n := ntaps f size ns out in let S := sumr K l n in
  (forall i, l <= i < l + n -> isf (kernel f (kernel_arg size ns out i)) (K i) /\ (Rabs (K i) <= 2)%R) /\ (IZR n <= 136 * S)%R /\ (sumr (fun i => Rabs (K i)) l n <= 4.4 * S)%R /\ 1 <= n <= 262200.
Lemma abssum_sumr K a n : abssum (map K (zrange a n)) = sumr (fun i => Rabs (K i)) a n.
Proof. unfold sumr, abssum. induction (zrange a n) as [|i l IH]; [reflexivity|]. cbn [map fold_right]. rewrite IH. reflexivity. Qed.
Lemma pass_signed f size ns out K (vs : Z -> f32) (vr : Z -> R) b : 1 <= size -> staps f size ns out K -> let l := left_tap f size ns out in let n := ntaps f size ns out in (forall i, l <= i < l + n -> isf (vs i) (vr i) /\ (Rabs (vr i) <= b)%R) -> (1 <= b <= 1000000)%R ->
  exists T, isf (dot (map (fun j => vs (l + j)) (zrange 0 n)) (weights f size ns out)) T /\ (Rabs (T - mean K vr l n) <= b * ((27 * IZR n + 11) * uu))%R.
Proof.
  intros HS (TV & N136 & A44 & NB) l n HV HB. fold l n in TV, N136, A44, NB. pose proof (zlen_raw f size ns out HS) as LR. fold n in LR. rewrite <- (map_zrange_shift vs l n). unfold weights. cbv zeta.
  assert (G : forall i, In i (zrange l n) -> l <= i < l + n) by (intros i Hi; apply In_zrange in Hi; lia). assert (LZ : length (raw_weights f size ns out) = Z.to_nat n) by (unfold zlen in LR; lia).
  destruct (signed_dot (raw_weights f size ns out) (map K (zrange l n)) (map vs (zrange l n)) (map vr (zrange l n)) b) as (T & H1 & H2).
  - rewrite raw_map. apply Forall2_map_isf. intros i Hi. apply (TV i (G i Hi)).
  - apply Forall_forall. intros r Hr. apply in_map_iff in Hr. destruct Hr as (i & <- & Hi). apply (TV i (G i Hi)).
  - apply Forall2_map_isf. intros i Hi. apply (HV i (G i Hi)).
  - apply Forall_forall. intros r Hr. apply in_map_iff in Hr. destruct Hr as (i & <- & Hi). apply (HV i (G i Hi)).
  - rewrite map_length, LZ. pose proof (zlen_zrange l n) as Z. unfold zlen in Z. lia.
  - exact HB.
  - lia.
  - rewrite LR. exact N136.
  - rewrite abssum_sumr. exact A44.
  - rewrite LR, wsum_mean in H2. exists T. split; [exact H1|exact H2].
Qed.
Lemma mean_abs K v a n b : (0 < sumr K a n)%R -> (0 <= b)%R -> (sumr (fun i => Rabs (K i)) a n <= 4.4 * sumr K a n)%R -> (forall i, a <= i < a + n -> (Rabs (v i) <= b)%R) -> (Rabs (mean K v a n) <= 4.4 * b)%R.
Proof.
  intros HS HB HA HV. unfold mean, Rdiv. rewrite Rabs_mult, (Rabs_pos_eq (/ _)) by (left; apply Rinv_0_lt_compat; exact HS). apply Rmult_le_reg_r with (sumr K a n); [exact HS|]. rewrite Rmult_assoc, Rinv_l, Rmult_1_r by lra.
  eapply Rle_trans; [apply sumr_abs|]. apply Rle_trans with (sumr (fun i => b * Rabs (K i)) a n)%R; [apply sumr_le; intros i Hi; rewrite Rabs_mult; apply Rmult_le_compat_r; [apply Rabs_pos|apply HV; exact Hi]|]. rewrite sumr_scale. assert (b * sumr (fun i => Rabs (K i)) a n <= b * (4.4 * sumr K a n))%R by (apply Rmult_le_compat_l; assumption). lra.
Qed.
Lemma mean_minus K v w a n : mean K (fun i => v i - w i)%R a n = (mean K v a n - mean K w a n)%R.
Proof.
  assert (E : (sumr (fun i => (v i - w i) * K i) a n = sumr (fun i => v i * K i) a n - sumr (fun i => w i * K i) a n)%R) by (unfold sumr; induction (zrange a n) as [|i l IH]; cbn [map fold_right]; [ring|rewrite IH; ring]). unfold mean. rewrite E. unfold Rdiv. ring.
Qed.
Lemma mean_ext_v K v w a n : (forall i, a <= i < a + n -> v i = w i) -> mean K v a n = mean K w a n.
Proof. intros H. unfold mean. rewrite (sumr_ext (fun i => v i * K i)%R (fun i => w i * K i)%R) by (intros i Hi; rewrite (H i Hi); reflexivity). reflexivity. Qed.
Lemma staps_pos f size ns out K : staps f size ns out K -> (0 < sumr K (left_tap f size ns out) (ntaps f size ns out))%R.
Proof. intros (_ & N & _ & B). assert (1 <= IZR (ntaps f size ns out))%R by (apply IZR_le; lia). lra. Qed.
Lemma vertical_signed t k f im nh Ky : img_ok t k im -> 1 <= iw im -> 1 <= ih im -> 0 <= nh -> (forall y, 0 <= y < nh -> staps f (ih im) nh y (Ky y)) ->
  exists tmp, vertical_sample t f im nh = Ok tmp /\ four tmp /\ iw tmp = iw im /\ ih tmp = nh /\ forall x y i, 0 <= x < iw im -> 0 <= y < nh -> (i < 4)%nat ->
    let n := ntaps f (ih im) nh y in exists T, isf (fchan tmp i x y) T /\ (Rabs (T - mean (Ky y) (fun j => IZR (chan_at t im i (x, j))) (left_tap f (ih im) nh y) n) <= IZR (smax t) * ((27 * IZR n + 11) * uu))%R.
Proof.
  intros HI HW HH HN HG. unfold vertical_sample. replace (negb (negb (ih im =? 0) || (iw im =? 0))) with false by lia.
  destruct (fill_loop zero4 (iw im) nh (vertical_pixel t f im nh) (fun x y p => length p = 4%nat)) as (tmp & E & W & E1 & E2 & GP); [lia|lia| |].
  { intros x y Hx Hy. rewrite (vertical_pixel_eq t k f im nh x y HI HH Hx). eexists. split; reflexivity. }
  exists tmp. split; [exact E|]. split; [split; [exact W|]|split; [exact E1|split; [exact E2|]]].
  - intros x y Hx Hy. rewrite E1 in Hx. rewrite E2 in Hy. destruct (GP x y Hx Hy) as (p & EP & _ & L). exists p. auto.
  - intros x y i Hx Hy Hi. destruct (GP x y Hx Hy) as (p & EP & EV & _). rewrite (vertical_pixel_eq t k f im nh x y HI HH Hx) in EV. apply Ok_inj in EV.
    set (g := fun i => dot (column t im x (left_tap f (ih im) nh y) (ntaps f (ih im) nh y) i) (weights f (ih im) nh y)) in EV.
    assert (EF : fchan tmp i x y = g i). { unfold fchan. rewrite EP, <- EV. destruct i as [|[|[|[|]]]]; try lia; reflexivity. }
    rewrite EF. unfold g. pose proof (taps_range f (ih im) nh y HH) as TR. pose proof (smax_range t) as SM.
    apply (pass_signed f (ih im) nh y (Ky y) (fun j => f32_of_Z (chan_at t im i (x, j))) (fun j => IZR (chan_at t im i (x, j))) (IZR (smax t))); [exact HH|apply HG; exact Hy| |split; apply IZR_le; lia].
    intros j Hj. unfold ntaps in Hj. assert (B : 0 <= chan_at t im i (x, j) <= smax t) by (apply (chan_sample t k im i); [exact HI|split; cbn [fst snd]; lia]). split; [apply of_Z_ok; lia|]. rewrite Rabs_pos_eq by (apply IZR_le; lia). apply IZR_le. lia.
Qed.
Lemma resample_signed t k f im nw nh Kx Ky : img_ok t k im -> 1 <= iw im -> 1 <= ih im -> 0 <= nw -> 0 <= nh ->
  (forall x, 0 <= x < nw -> staps f (iw im) nw x (Kx x)) -> (forall y, 0 <= y < nh -> staps f (ih im) nh y (Ky y)) ->
  exists r, resample t k f im nw nh = Ok r /\ wf r /\ iw r = nw /\ ih r = nh /\ forall x y, 0 <= x < nw -> 0 <= y < nh -> exists p, pixel r x y = Some p /\ is_pixel t k p /\
    forall i, (i < Z.to_nat (nch k))%nat -> let nx := ntaps f (iw im) nw x in let ny := ntaps f (ih im) nh y in
      (Rabs (IZR (nth i p 0%Z) - limited 0 (IZR (smax t)) (mean2 t im i (Kx x) (Ky y) (left_tap f (iw im) nw x) nx (left_tap f (ih im) nh y) ny)) <= / 2 + IZR (smax t) * ((131 * (IZR nx + IZR ny) + 103) * uu))%R.
Proof.
  intros HI HW HH HNW HNH GX GY. unfold resample. destruct (vertical_signed t k f im nh Ky HI HW HH HNH GY) as (tmp & EV & F4 & EW & EH & CH). rewrite EV. cbn [bind]. unfold horizontal_sample. rewrite EW, EH. replace (negb (negb (iw im =? 0) || (nh =? 0))) with false by lia.
  pose proof (smax_range t) as SM. set (M2 := fun x y i => mean2 t im i (Kx x) (Ky y) (left_tap f (iw im) nw x) (ntaps f (iw im) nw x) (left_tap f (ih im) nh y) (ntaps f (ih im) nh y)).
  set (er := fun x y => (/ 2 + IZR (smax t) * ((131 * (IZR (ntaps f (iw im) nw x) + IZR (ntaps f (ih im) nh y)) + 103) * uu))%R).
  set (fx := fun x y => c <- horizontal_pixel t f tmp nw x y ;; Ok (from_channels k c)).
  set (Q := fun x y (p : list Z) => is_pixel t k p /\ forall i, (i < Z.to_nat (nch k))%nat -> (Rabs (IZR (nth i p 0%Z) - limited 0 (IZR (smax t)) (M2 x y i)) <= er x y)%R).
  destruct (fill_loop_cols (repeat 0 (Z.to_nat (nch k))) nw nh fx Q HNW HNH) as (r & E & W & E1 & E2 & GP).
  2:{ exists r. split; [|split; [exact W|split; [exact E1|split; [exact E2|]]]].
      - rewrite <- E. unfold for2. apply foldM_ext. intros s x _. apply foldM_ext. intros s' y _. unfold fx. destruct (horizontal_pixel t f tmp nw x y); reflexivity.
      - intros x y Hx Hy. destruct (GP x y Hx Hy) as (p & EP & _ & HQ). exists p. split; [exact EP|exact HQ]. }
  intros x y Hx Hy. pose proof (GX x Hx) as G1. pose proof (GY y Hy) as GY1. pose proof (taps_range f (iw im) nw x HW) as TX. pose proof (taps_range f (ih im) nh y HH) as TY.
  unfold fx. pose proof (horizontal_pixel_eq t f tmp nw x y F4 ltac:(lia) ltac:(lia)) as HE. rewrite EW in HE. rewrite HE.
  set (g := fun i => dot (frow tmp y (left_tap f (iw im) nw x) (ntaps f (iw im) nw x) i) (weights f (iw im) nw x)).
  pose proof (staps_pos _ _ _ _ _ G1) as SX. pose proof (staps_pos _ _ _ _ _ GY1) as SY. pose proof G1 as (_ & _ & AX & NX). pose proof GY1 as (_ & _ & AY & NY).
  set (n1 := ntaps f (ih im) nh y) in *. set (n2 := ntaps f (iw im) nw x) in *. set (lx := left_tap f (iw im) nw x) in *. set (ly := left_tap f (ih im) nh y) in *.
  assert (EX : lx + n2 = right_tap f (iw im) nw x) by (unfold n2, ntaps; fold lx; lia). assert (EY : ly + n1 = right_tap f (ih im) nh y) by (unfold n1, ntaps; fold ly; lia).
  assert (CS : forall i x' y', lx <= x' < lx + n2 -> ly <= y' < ly + n1 -> 0 <= chan_at t im i (x', y') <= smax t).
  { intros i x' y' H1 H2. apply (chan_sample t k im i (x', y') HI). unfold inside. cbn [fst snd]. lia. }
  destruct uu_val as [U0 U1]. assert (SMR : (1 <= IZR (smax t) <= 65535)%R) by (split; apply IZR_le; lia). assert (NB1 : (1 <= IZR n1 <= 262200)%R) by (split; apply IZR_le; lia). assert (NB2 : (1 <= IZR n2 <= 262200)%R) by (split; apply IZR_le; lia).
  set (sm := IZR (smax t)) in *. set (e1 := ((27 * IZR n1 + 11) * uu)%R). set (e2 := ((27 * IZR n2 + 11) * uu)%R). assert (EB1 : (0 <= e1 <= 0.43)%R) by (unfold e1; split; [apply Rmult_le_pos; lra|apply Rle_trans with ((27 * 262200 + 11) * / 16700000)%R; [apply Rmult_le_compat; lra|lra]]). assert (EB2 : (0 <= e2)%R) by (unfold e2; apply Rmult_le_pos; lra).
  assert (GM : forall i, (i < 4)%nat -> exists T, isf (g i) T /\ (Rabs (T - M2 x y i) <= sm * (4.83 * e2 + 4.4 * e1))%R).
  { intros i Hi. set (v := fun x' => mean (Ky y) (fun j => IZR (chan_at t im i (x', j))) ly n1).
    assert (VB : forall x', lx <= x' < lx + n2 -> (Rabs (v x') <= 4.4 * sm)%R). { intros x' Hx'. apply mean_abs; [exact SY|lra|exact AY|]. intros y' Hy'. specialize (CS i x' y' Hx' Hy'). rewrite Rabs_pos_eq by (apply IZR_le; lia). apply IZR_le. lia. }
    assert (VF : exists w : Z -> R, forall x', lx <= x' < lx + n2 -> isf (fchan tmp i x' y) (w x') /\ (Rabs (w x' - v x') <= sm * e1)%R).
    { exists (fun x' => B2R (fchan tmp i x' y)). intros x' Hx'. destruct (CH x' y i ltac:(lia) Hy Hi) as (T & HT & TB). fold n1 ly in TB. destruct HT as [ET FT]. rewrite ET. split; [split; assumption|exact TB]. }
    destruct VF as (w & VF). assert (SE : (sm * e1 <= sm * 0.43)%R) by (apply Rmult_le_compat_l; lra).
    destruct (pass_signed f (iw im) nw x (Kx x) (fun x' => fchan tmp i x' y) w (4.83 * sm)%R HW G1) as (T & HT & TB).
    { intros x' Hx'. fold lx n2 in Hx'. destruct (VF x' Hx') as (A1 & A2). specialize (VB x' Hx'). split; [exact A1|]. apply Rabs_le_inv in A2, VB. apply Rabs_le. lra. } { lra. }
    fold n2 lx e2 in HT, TB. exists T. split; [exact HT|].
    assert (MD : (Rabs (mean (Kx x) (fun x' => w x' - v x')%R lx n2) <= 4.4 * (sm * e1))%R) by (apply mean_abs; [exact SX|apply Rmult_le_pos; lra|exact AX|intros x' Hx'; apply (VF x' Hx')]). rewrite mean_minus in MD. change (M2 x y i) with (mean (Kx x) v lx n2). apply Rabs_le_inv in MD, TB. apply Rabs_le. lra. }
  assert (ERV : (/ 2 + sm * (4.83 * e2 + 4.4 * e1) <= er x y)%R). { unfold er. fold n1 n2. apply Rplus_le_compat_l. apply Rmult_le_compat_l; [lra|]. unfold e1, e2. apply Rle_trans with ((4.83 * (27 * IZR n2 + 11) + 4.4 * (27 * IZR n1 + 11)) * uu)%R; [right; ring|]. apply Rmult_le_compat_r; lra. }
  assert (QS : forall i, (i < 4)%nat -> exists z, quantize t (g i) = Ok z /\ is_sample t z /\ (Rabs (IZR z - limited 0 sm (M2 x y i)) <= er x y)%R).
  { intros i Hi. destruct (GM i Hi) as (T & HT & TB). destruct (quantize_ok t (g i) T HT) as [EQ SQ]. eexists. split; [exact EQ|]. split; [exact SQ|]. pose proof (limited_lip sm T (M2 x y i) _ ltac:(lra) TB) as LL. fold sm. change (Rmin sm (Rmax 0 T)) with (limited 0 sm T). set (c := limited 0 sm T) in *. assert (ZN : (Rabs (IZR (ZnearestA c) - c) <= / 2)%R) by (rewrite Rabs_minus_sym; apply Znearest_half). apply Rabs_le_inv in ZN, LL. apply Rabs_le. lra. }
  destruct (QS 0%nat ltac:(lia)) as (z0 & Q0 & S0 & R0). destruct (QS 1%nat ltac:(lia)) as (z1 & Q1 & S1 & R1). destruct (QS 2%nat ltac:(lia)) as (z2 & Q2 & S2 & R2). destruct (QS 3%nat ltac:(lia)) as (z3 & Q3 & S3 & R3).
  exists (from_channels k [z0; z1; z2; z3]). change (map g [0; 1; 2; 3]%nat) with [g 0%nat; g 1%nat; g 2%nat; g 3%nat]. rewrite (map_res4 (quantize t) _ _ _ _ z0 z1 z2 z3 Q0 Q1 Q2 Q3). split; [reflexivity|]. unfold Q. split.
  - destruct k; (split; [reflexivity|]); repeat (apply Forall_cons; [assumption|]); apply Forall_nil.
  - intros i Hi. assert (NI : nth i (from_channels k [z0; z1; z2; z3]) 0 = match i with 0 => z0 | 1 => z1 | 2 => z2 | _ => z3 end%nat).
    { destruct k; cbn [nch] in Hi; destruct i as [|[|[|[|]]]]; try lia; reflexivity. }
    rewrite NI. assert (I4 : (i < 4)%nat) by (destruct k; cbn [nch] in Hi; lia). destruct i as [|[|[|[|]]]]; [exact R0|exact R1|exact R2|exact R3|lia].
Qed.
