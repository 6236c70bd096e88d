From Coq Require Import ZArith Bool Reals Lia Lra.
From Flocq Require Import Core IEEE754.BinarySingleNaN.
From Verif Require Import Base BaseLemmas ListMore Color ColorProofs Float FloatProofs JpegQuant ColorF ColorFProofs GenImage Thumb ThumbSpec ThumbProofs ThumbProofs2 ThumbProofs3 Sample SampleProofs SampleProofs2.
Local Open Scope Z_scope.

(** the raw weights of an output column (row) are finite, not negative, and not all (nearly) zero *)
Definition good_taps (f : filter) (size ns out : Z) : Prop :=
  exists ks, Forall2 isf (raw_weights f size ns out) ks /\ Forall (fun k => 0 <= k <= B60)%R ks /\ Exists (fun k => / B60 <= k)%R ks.
Lemma zlen_raw f size ns out : 1 <= size -> zlen (raw_weights f size ns out) = ntaps f size ns out.
Proof. intros H. pose proof (taps_range f size ns out H). unfold raw_weights. rewrite !zlen_map, zlen_zrange. unfold ntaps. lia. Qed.
Lemma taps_dot f size ns out vs vr a b : 1 <= size -> good_taps f size ns out -> ntaps f size ns out <= 1048000 -> Forall2 isf vs vr -> zlen vs = ntaps f size ns out -> Forall (fun v => a <= v <= b)%R vr -> (0 <= a)%R -> (a <= b)%R -> (b <= 100000)%R ->
  let n := Z.to_nat (ntaps f size ns out) in exists T, isf (dot vs (weights f size ns out)) T /\ (0 <= T)%R /\ (a * pp ^ (2 * n + 4) - / B60 <= T <= b * qq ^ (2 * n + 4) + / B60)%R.
Proof.
  intros HS (ks & F2 & FB & EX) HN FV LV BV A AB BB n. pose proof (zlen_raw f size ns out HS) as LR. destruct (normal_weights (raw_weights f size ns out) ks F2 FB ltac:(lia) EX) as (wr & FW & BW & SW). fold (weights f size ns out) in FW.
  pose proof (zlen_weights f size ns out HS) as LW. assert (NW : length (weights f size ns out) = n) by (unfold zlen in LW; unfold n; lia). assert (NR : length (raw_weights f size ns out) = n) by (unfold zlen in LR; unfold n; lia). rewrite NR in SW.
  destruct (dot_ok vs vr (weights f size ns out) wr a b FV FW) as (T & H1 & H2 & H3); try assumption.
  - rewrite NW. unfold zlen in LV. unfold n. lia.
  - rewrite NW. unfold n. pose proof (taps_range f size ns out HS). unfold ntaps in *. lia.
  - rewrite NW. exact SW.
  - rewrite NW in H3. exists T. auto.
Qed.

(** the intermediate image *)
Lemma vertical_ok t k f im nh : img_ok t k im -> 1 <= iw im -> 1 <= ih im -> 0 <= nh -> (forall y, 0 <= y < nh -> good_taps f (ih im) nh y /\ ntaps f (ih im) nh y <= 1048000) ->
  exists tmp, vertical_sample t f im nh = Ok tmp /\ four tmp /\ iw tmp = iw im /\ ih tmp = nh /\ forall x y i, 0 <= x < iw im -> 0 <= y < nh -> (i < 4)%nat ->
    forall a b, 0 <= a -> a <= b -> b <= smax t -> (forall j, left_tap f (ih im) nh y <= j < right_tap f (ih im) nh y -> a <= chan_at t im i (x, j) <= b) ->
    let n := Z.to_nat (ntaps f (ih im) nh y) in exists T, isf (fchan tmp i x y) T /\ (0 <= T)%R /\ (IZR a * pp ^ (2 * n + 4) - / B60 <= T <= IZR b * qq ^ (2 * n + 4) + / B60)%R.
Proof.
  intros HI HW HH HN HG. unfold vertical_sample. replace (negb (negb (ih im =? 0) || (iw im =? 0))) with false by lia.
  destruct (fill_loop zero4 (iw im) nh (vertical_pixel t f im nh) (fun x y p => length p = 4%nat)) as (tmp & E & W & E1 & E2 & GP); [lia|lia| |].
  { intros x y Hx Hy. rewrite (vertical_pixel_eq t k f im nh x y HI HH Hx). eexists. split; reflexivity. }
  exists tmp. split; [exact E|]. split; [split; [exact W|]|split; [exact E1|split; [exact E2|]]].
  - intros x y Hx Hy. rewrite E1 in Hx. rewrite E2 in Hy. destruct (GP x y Hx Hy) as (p & EP & _ & L). exists p. auto.
  - intros x y i Hx Hy Hi a b Ha Hab Hb HC. destruct (GP x y Hx Hy) as (p & EP & EV & _). rewrite (vertical_pixel_eq t k f im nh x y HI HH Hx) in EV. apply Ok_inj in EV.
    set (g := fun i => dot (column t im x (left_tap f (ih im) nh y) (ntaps f (ih im) nh y) i) (weights f (ih im) nh y)) in EV.
    assert (EF : fchan tmp i x y = g i). { unfold fchan. rewrite EP, <- EV. destruct i as [|[|[|[|]]]]; try lia; reflexivity. }
    rewrite EF. unfold g. destruct (HG y Hy) as [G1 G2]. pose proof (taps_range f (ih im) nh y HH) as TR. pose proof (smax_range t) as SM.
    apply (taps_dot f (ih im) nh y (column t im x (left_tap f (ih im) nh y) (ntaps f (ih im) nh y) i) (map (fun j => IZR (chan_at t im i (x, left_tap f (ih im) nh y + j))) (zrange 0 (ntaps f (ih im) nh y))) (IZR a) (IZR b)); try assumption.
    + unfold column. apply Forall2_map_isf. intros j Hj. apply In_zrange in Hj. unfold ntaps in Hj. specialize (HC (left_tap f (ih im) nh y + j) ltac:(lia)). apply of_Z_ok. lia.
    + unfold column. rewrite zlen_map, zlen_zrange. unfold ntaps. lia.
    + apply Forall_forall. intros r I. apply in_map_iff in I. destruct I as (j & <- & Hj). apply In_zrange in Hj. unfold ntaps in Hj. specialize (HC (left_tap f (ih im) nh y + j) ltac:(lia)). split; apply IZR_le; lia.
    + apply IZR_le. lia.
    + apply IZR_le. lia.
    + apply Rle_trans with (IZR (smax t)); [apply IZR_le; lia|]. apply IZR_le. lia.
Qed.

(** the errors of the two passes stay below one half *)
Lemma e60 : (0 < / B60 <= / 1000000000)%R.
Proof. destruct B60_val. split; [apply Rinv_0_lt_compat; lra|]. apply Rinv_le_contravar; [lra|]. unfold B60. apply IZR_le. vm_compute. discriminate. Qed.
Lemma small_low M a N : 1 <= M <= 65535 -> 0 <= a <= M -> 0 <= N -> N * (2 * M + 2) <= 2 ^ 24 -> (IZR a - / 2 < IZR a * pp ^ Z.to_nat N - 3 * / B60)%R.
Proof.
  intros HM Ha HN HB. pose proof e60 as E. pose proof (pp_bern (Z.to_nat N)) as B. rewrite INR_IZR_INZ, Z2Nat.id in B by lia. destruct uu_val as [U0 U1].
  assert (Z1 : (IZR N * uu * (2 * IZR M + 2) <= 1)%R). { apply IZR_le in HB. rewrite mult_IZR, plus_IZR, mult_IZR in HB. unfold uu. replace (IZR N * / IZR (2 ^ 24) * (2 * IZR M + 2))%R with (IZR N * (2 * IZR M + 2) * / IZR (2 ^ 24))%R by ring. change (2 ^ 24) with 16777216 in *. lra. }
  assert (N0 : (0 <= IZR N * uu)%R) by (apply Rmult_le_pos; [apply IZR_le; lia|lra]). assert (A0 : (0 <= IZR a <= IZR M)%R) by (split; apply IZR_le; lia). assert (M1 : (1 <= IZR M <= 65535)%R) by (split; apply IZR_le; lia).
  set (z := (IZR N * uu)%R) in *. clearbody z. set (m := IZR M) in *. set (al := IZR a) in *. clearbody m al. assert (AP : (al * (1 - z) <= al * pp ^ Z.to_nat N)%R) by (apply Rmult_le_compat_l; lra). set (w := (al * pp ^ Z.to_nat N)%R) in *. clearbody w.
  assert (AZ : (al * z <= m * z)%R) by (apply Rmult_le_compat_r; lra).
  (* m z <= 1/2 - z *) assert (Z3 : (m * z + z <= / 2)%R) by lra. destruct (Rle_or_lt z (/ 100000000)) as [Hz|Hz]; [|lra]. assert (m * z <= 65535 * / 100000000)%R by (apply Rmult_le_compat; lra). lra.
Qed.
Lemma small_high M b N : 1 <= M <= 65535 -> 0 <= b <= M -> 0 <= N -> N * (2 * M + 2) <= 2 ^ 24 -> (IZR b * qq ^ Z.to_nat N + 3 * / B60 < IZR b + / 2)%R.
Proof.
  intros HM Ha HN HB. pose proof e60 as E. pose proof (pp_bern (Z.to_nat N)) as B. rewrite INR_IZR_INZ, Z2Nat.id in B by lia. destruct uu_val as [U0 U1]. pose proof (pq (Z.to_nat N)) as PQ. pose proof (qq1 (Z.to_nat N)) as Q1.
  assert (Z1 : (IZR N * uu * (2 * IZR M + 2) <= 1)%R). { apply IZR_le in HB. rewrite mult_IZR, plus_IZR, mult_IZR in HB. unfold uu. replace (IZR N * / IZR (2 ^ 24) * (2 * IZR M + 2))%R with (IZR N * (2 * IZR M + 2) * / IZR (2 ^ 24))%R by ring. change (2 ^ 24) with 16777216 in *. lra. }
  assert (N0 : (0 <= IZR N * uu)%R) by (apply Rmult_le_pos; [apply IZR_le; lia|lra]). assert (A0 : (0 <= IZR b <= IZR M)%R) by (split; apply IZR_le; lia). assert (M1 : (1 <= IZR M <= 65535)%R) by (split; apply IZR_le; lia).
  set (z := (IZR N * uu)%R) in *. clearbody z. set (m := IZR M) in *. set (bt := IZR b) in *. clearbody m bt. set (q := (qq ^ Z.to_nat N)%R) in *. set (p := (pp ^ Z.to_nat N)%R) in *. clearbody q p.
  assert (ZM : (z * m <= 1 / 2 - z)%R) by lra. assert (Z4 : (4 * z <= 1)%R) by (assert (z * 4 <= z * (2 * m + 2))%R by (apply Rmult_le_compat_l; lra); lra).
  assert (Q2 : ((1 - z) * q <= 1)%R) by (rewrite <- PQ; apply Rmult_le_compat_r; lra).
  (* q - 1 <= z q *) assert (BQ : (bt * (q - 1) <= m * (z * q))%R) by (apply Rmult_le_compat; lra).
  set (y := (z * q)%R) in *. assert (Y0 : (0 <= y)%R) by (unfold y; apply Rmult_le_pos; lra). assert (ZQ : (z * (2 * m + 1) * q <= (1 - z) * q)%R) by (apply Rmult_le_compat_r; lra). assert (YM : (2 * (m * y) + y <= 1)%R) by (replace (2 * (m * y) + y)%R with (z * (2 * m + 1) * q)%R by (unfold y; ring); lra). clearbody y.
  destruct (Rle_or_lt y (/ 50000000)) as [Hz|Hz]; [assert (m * y <= 65535 * / 50000000)%R by (apply Rmult_le_compat; lra); lra|lra].
Qed.

(** vertical_sample followed by horizontal_sample *)
Lemma resample_ok t k f im nw nh : img_ok t k im -> 1 <= iw im -> 1 <= ih im -> 0 <= nw -> 0 <= nh ->
  (forall x, 0 <= x < nw -> good_taps f (iw im) nw x /\ ntaps f (iw im) nw x <= 1048000) -> (forall y, 0 <= y < nh -> good_taps f (ih im) nh y /\ ntaps f (ih im) nh y <= 1048000) ->
  exists r, resample t k f im nw nh = Ok r /\ wf r /\ iw r = nw /\ ih r = nh /\ forall x y, 0 <= x < nw -> 0 <= y < nh -> exists p, pixel r x y = Some p /\ is_pixel t k p /\
    forall i a b, (i < Z.to_nat (nch k))%nat -> 0 <= a -> a <= b -> b <= smax t -> (ntaps f (iw im) nw x + ntaps f (ih im) nh y + 4) * (4 * smax t + 4) <= 2 ^ 24 ->
      (forall x' y', left_tap f (iw im) nw x <= x' < right_tap f (iw im) nw x -> left_tap f (ih im) nh y <= y' < right_tap f (ih im) nh y -> a <= chan_at t im i (x', y') <= b) -> a <= nth i p 0 <= b.
Proof.
  intros HI HW HH HNW HNH GX GY. unfold resample. destruct (vertical_ok t k f im nh HI HW HH HNH GY) as (tmp & EV & F4 & EW & EH & CH). rewrite EV. cbn [bind]. unfold horizontal_sample. rewrite EW, EH. replace (negb (negb (iw im =? 0) || (nh =? 0))) with false by lia.
  pose proof (smax_range t) as SM.
  set (fx := fun x y => c <- horizontal_pixel t f tmp nw x y ;; Ok (from_channels k c)).
  set (Q := fun x y (p : list Z) => is_pixel t k p /\
    forall i a b, (i < Z.to_nat (nch k))%nat -> 0 <= a -> a <= b -> b <= smax t -> (ntaps f (iw im) nw x + ntaps f (ih im) nh y + 4) * (4 * smax t + 4) <= 2 ^ 24 ->
      (forall x' y', left_tap f (iw im) nw x <= x' < right_tap f (iw im) nw x -> left_tap f (ih im) nh y <= y' < right_tap f (ih im) nh y -> a <= chan_at t im i (x', y') <= b) -> a <= nth i p 0 <= b).
  destruct (fill_loop_cols (repeat 0 (Z.to_nat (nch k))) nw nh fx Q HNW HNH) as (r & E & W & E1 & E2 & GP).
  2:{ exists r. split; [|split; [exact W|split; [exact E1|split; [exact E2|]]]].
      - rewrite <- E. unfold for2. apply foldM_ext. intros s x _. apply foldM_ext. intros s' y _. unfold fx. destruct (horizontal_pixel t f tmp nw x y); reflexivity.
      - intros x y Hx Hy. destruct (GP x y Hx Hy) as (p & EP & _ & HQ). exists p. split; [exact EP|exact HQ]. }
  intros x y Hx Hy. destruct (GX x Hx) as [G1 G2]. destruct (GY y Hy) as [GY1 GY2]. pose proof (taps_range f (iw im) nw x HW) as TX. pose proof (taps_range f (ih im) nh y HH) as TY.
  unfold fx. pose proof (horizontal_pixel_eq t f tmp nw x y F4 ltac:(lia) ltac:(lia)) as HE. rewrite EW in HE. rewrite HE.
  set (g := fun i => dot (frow tmp y (left_tap f (iw im) nw x) (ntaps f (iw im) nw x) i) (weights f (iw im) nw x)).
  set (n1 := ntaps f (ih im) nh y) in *. set (n2 := ntaps f (iw im) nw x) in *. assert (N1 : 1 <= n1) by (unfold n1, ntaps; lia). assert (N2 : 1 <= n2) by (unfold n2, ntaps; lia).
  assert (GB : forall i a b, (i < 4)%nat -> 0 <= a -> a <= b -> b <= smax t ->
    (forall x' y', left_tap f (iw im) nw x <= x' < right_tap f (iw im) nw x -> left_tap f (ih im) nh y <= y' < right_tap f (ih im) nh y -> a <= chan_at t im i (x', y') <= b) ->
    exists T, isf (g i) T /\ (0 <= T)%R /\ (IZR a * pp ^ Z.to_nat (2 * (n1 + n2) + 8) - 3 * / B60 <= T <= IZR b * qq ^ Z.to_nat (2 * (n1 + n2) + 8) + 3 * / B60)%R).
  { intros i a b Hi Ha Hab Hb HC. set (k1 := (2 * Z.to_nat n1 + 4)%nat). set (k2 := (2 * Z.to_nat n2 + 4)%nat). pose proof e60 as E60.
    assert (A1 : (0 <= IZR a <= IZR b)%R) by (split; apply IZR_le; lia). assert (B1 : (IZR b <= 65535)%R) by (apply IZR_le; lia).
    assert (P1 : (0 < pp ^ k1 <= 1)%R) by apply pp1. assert (P2 : (0 < pp ^ k2 <= 1)%R) by apply pp1. assert (Q1 : (1 <= qq ^ k1)%R) by apply qq1. assert (Q2 : (1 <= qq ^ k2)%R) by apply qq1.
    assert (QB : forall n, 1 <= n <= 1048000 -> (qq ^ (2 * Z.to_nat n + 4) <= 1.5)%R). { intros n Hn. replace (2 * Z.to_nat n + 4)%nat with ((Z.to_nat n + 2) + (Z.to_nat n + 2))%nat by lia. rewrite pow_add. pose proof (qq_two (Z.to_nat n + 2) ltac:(lia)) as QT. pose proof (qq1 (Z.to_nat n + 2)). apply Rle_trans with (1.2 * 1.2)%R; [apply Rmult_le_compat; lra|lra]. }
    pose proof (QB n1 ltac:(lia)) as QB1. pose proof (QB n2 ltac:(lia)) as QB2. fold k1 in QB1. fold k2 in QB2.
    set (al := Rmax 0 (IZR a * pp ^ k1 - / B60)). set (bt := (IZR b * qq ^ k1 + / B60)%R).
    assert (VF : forall j, 0 <= j < n2 -> exists T, isf (fchan tmp i (left_tap f (iw im) nw x + j) y) T /\ (al <= T <= bt)%R).
    { intros j Hj. unfold n2, ntaps in Hj. destruct (CH (left_tap f (iw im) nw x + j) y i ltac:(lia) Hy Hi a b Ha Hab Hb) as (T & HT & T0 & TB). { intros j' Hj'. apply HC; lia. }
      exists T. split; [exact HT|]. cbv zeta in TB. fold n1 in TB. fold k1 in TB. split; [apply Rmax_lub; lra|unfold bt; lra]. }
    assert (FR : exists vr, Forall2 isf (frow tmp y (left_tap f (iw im) nw x) n2 i) vr /\ Forall (fun v => al <= v <= bt)%R vr).
    { unfold frow. assert (GG : forall l, (forall j, In j l -> 0 <= j < n2) -> exists vr, Forall2 isf (map (fun j => fchan tmp i (left_tap f (iw im) nw x + j) y) l) vr /\ Forall (fun v => al <= v <= bt)%R vr).
      { induction l as [|j l IH]; intros HL; [exists []; split; constructor|]. destruct (VF j (HL j (or_introl eq_refl))) as (T & HT & TB). destruct IH as (vr & V1 & V2); [intros j' Hj'; apply HL; right; exact Hj'|]. exists (T :: vr). split; constructor; assumption. }
      apply GG. intros j Hj. apply In_zrange in Hj. lia. }
    destruct FR as (vr & FR1 & FR2). assert (AL0 : (0 <= al)%R) by apply Rmax_l.
    assert (BQ : (IZR b * 1 <= IZR b * qq ^ k1 <= 65535 * 1.5)%R) by (split; [apply Rmult_le_compat_l; lra|apply Rmult_le_compat; lra]).
    assert (ALB : (al <= bt)%R). { apply Rmax_lub; [unfold bt; lra|]. assert (IZR a * pp ^ k1 <= IZR a * 1)%R by (apply Rmult_le_compat_l; lra). unfold bt. lra. }
    assert (BTB : (bt <= 100000)%R) by (unfold bt; lra).
    destruct (taps_dot f (iw im) nw x (frow tmp y (left_tap f (iw im) nw x) n2 i) vr al bt ltac:(lia) G1 G2 FR1) as (T & HT & T0 & TB); try assumption. { unfold frow. rewrite zlen_map, zlen_zrange. unfold n2. lia. }
    cbv zeta in TB. fold n2 in TB. fold k2 in TB. exists T. split; [exact HT|]. split; [exact T0|].
    replace (Z.to_nat (2 * (n1 + n2) + 8)) with (k1 + k2)%nat by (unfold k1, k2; lia). rewrite !pow_add.
    assert (AA : (IZR a * pp ^ k1 - / B60 <= al)%R) by apply Rmax_r. apply (Rmult_le_compat_r (pp ^ k2)%R) in AA; [|lra]. assert (EP : (/ B60 * pp ^ k2 <= / B60 * 1)%R) by (apply Rmult_le_compat_l; lra). assert (EQ : (/ B60 * qq ^ k2 <= / B60 * 1.5)%R) by (apply Rmult_le_compat_l; lra).
    unfold bt in TB. split; [replace (IZR a * (pp ^ k1 * pp ^ k2))%R with (IZR a * pp ^ k1 * pp ^ k2)%R by ring|replace (IZR b * (qq ^ k1 * qq ^ k2))%R with (IZR b * qq ^ k1 * qq ^ k2)%R by ring]; lra. }
  assert (CS : forall i x' y', left_tap f (iw im) nw x <= x' < right_tap f (iw im) nw x -> left_tap f (ih im) nh y <= y' < right_tap f (ih im) nh y -> 0 <= chan_at t im i (x', y') <= smax t).
  { intros i x' y' H1 H2. apply (chan_sample t k im i (x', y') HI). unfold inside. cbn [fst snd]. lia. }
  assert (QS : forall i, (i < 4)%nat -> exists z, quantize t (g i) = Ok z /\ is_sample t z /\ forall a b, 0 <= a -> a <= b -> b <= smax t -> (n2 + n1 + 4) * (4 * smax t + 4) <= 2 ^ 24 ->
     (forall x' y', left_tap f (iw im) nw x <= x' < right_tap f (iw im) nw x -> left_tap f (ih im) nh y <= y' < right_tap f (ih im) nh y -> a <= chan_at t im i (x', y') <= b) -> a <= z <= b).
  { intros i Hi. destruct (GB i 0 (smax t) Hi ltac:(lia) ltac:(lia) ltac:(lia) (CS i)) as (T & HT & T0 & _). destruct (quantize_ok t (g i) T HT) as [EQ SQ]. eexists. split; [exact EQ|]. split; [exact SQ|].
    intros a b Ha Hab Hb HB HC. destruct (GB i a b Hi Ha Hab Hb HC) as (T' & HT' & T0' & TB'). 
    pose proof (small_low (smax t) a (2 * (n1 + n2) + 8) SM ltac:(lia) ltac:(lia) ltac:(lia)) as SL. pose proof (small_high (smax t) b (2 * (n1 + n2) + 8) SM ltac:(lia) ltac:(lia) ltac:(lia)) as SH.
    destruct (quantize_between t (g i) T' a b HT' Ha Hab Hb ltac:(lra) ltac:(lra)) as (z & EZ & ZB). rewrite EQ in EZ. apply Ok_inj in EZ. rewrite EZ. exact ZB. }
  destruct (QS 0%nat ltac:(lia)) as (z0 & Q0 & S0 & R0). destruct (QS 1%nat ltac:(lia)) as (z1 & Q1 & S1 & R1). destruct (QS 2%nat ltac:(lia)) as (z2 & Q2 & S2 & R2). destruct (QS 3%nat ltac:(lia)) as (z3 & Q3 & S3 & R3).
  exists (from_channels k [z0; z1; z2; z3]). change (map g [0; 1; 2; 3]%nat) with [g 0%nat; g 1%nat; g 2%nat; g 3%nat]. rewrite (map_res4 (quantize t) _ _ _ _ z0 z1 z2 z3 Q0 Q1 Q2 Q3). split; [reflexivity|]. unfold Q. split.
  - destruct k; (split; [reflexivity|]); repeat (apply Forall_cons; [assumption|]); apply Forall_nil.
  - fold n1 n2. intros i a b Hi Ha Hab Hb HB HC. assert (NI : nth i (from_channels k [z0; z1; z2; z3]) 0 = match i with 0 => z0 | 1 => z1 | 2 => z2 | _ => z3 end%nat).
    { destruct k; cbn [nch] in Hi; destruct i as [|[|[|[|]]]]; try lia; reflexivity. }
    rewrite NI. assert (I4 : (i < 4)%nat) by (destruct k; cbn [nch] in Hi; lia). destruct i as [|[|[|[|]]]]; [apply R0|apply R1|apply R2|apply R3|lia]; assumption.
Qed.
