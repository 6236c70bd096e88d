From Coq Require Import ZArith Bool Reals Lia Lra.
From Flocq Require Import Core IEEE754.BinarySingleNaN Relative.
From Verif Require Import Base BaseLemmas ListMore Color ColorProofs Float FloatProofs JpegQuant ColorF ColorFProofs GenImage Thumb ThumbSpec ThumbProofs ThumbProofs2 ThumbProofs3 ThumbProofs4.
Local Open Scope Z_scope.

(** ** the weights *)
Lemma frac_range r : (0 <= frac r <= 1)%R.
Proof. unfold frac. pose proof (Zfloor_lb r). pose proof (Zfloor_ub r). lra. Qed.
Lemma RN_near1 r : (0 <= r <= 2)%R -> (Rabs (RN32 r - r) <= 3 * uu)%R.
Proof. intros H. destruct uu_val as [U0 U1]. pose proof eta_uu. pose proof (RN_ae r ltac:(lra)) as E. assert (uu * r <= uu * 2)%R by (apply Rmult_le_compat_l; lra). lra. Qed.
Lemma mid_val x y r s f : isf x r -> isf y s -> (0 <= r <= B100)%R -> (0 <= s <= B100)%R -> isf (mid x y) f -> (Rabs (f - (frac r + frac s) / 2) <= 8 * uu)%R.
Proof.
  intros Hx Hy Hr Hs HF. pose proof big_B. destruct uu_val as [U0 U1]. destruct (fract_ok x r Hx Hr) as (I1 & B1). destruct (fract_ok y s Hy Hs) as (I2 & B2). rewrite (Ztrunc_floor r) in I1, B1 by lra. rewrite (Ztrunc_floor s) in I2, B2 by lra. fold (frac r) in I1, B1. fold (frac s) in I2, B2.
  pose proof (RN_01 _ B1) as C1. pose proof (RN_01 _ B2) as C2.
  pose proof (fb_add _ _ _ _ I1 I2 ltac:(lra)) as I3. assert (B3 : (0 <= RN32 (RN32 (frac r) + RN32 (frac s)) <= 2)%R) by (split; [apply RN_nonneg; lra|apply RN_le_r; [exact eq_refl|apply (repr_Z 24 128 f32_prec f32_emax 2); lia|lra]]).
  pose proof (of_Z_ok 2 ltac:(lia)) as I4. pose proof (fb_div _ _ _ _ I3 I4 ltac:(lra) ltac:(lra)) as I5. fold (mid x y) in I5. assert (EF : f = RN32 (RN32 (RN32 (frac r) + RN32 (frac s)) / 2)) by (rewrite <- (proj1 HF), <- (proj1 I5); reflexivity).
  pose proof (RN_near1 (frac r) ltac:(lra)) as E1. pose proof (RN_near1 (frac s) ltac:(lra)) as E2. pose proof (RN_near1 (RN32 (frac r) + RN32 (frac s)) ltac:(lra)) as E3. pose proof (RN_near1 (RN32 (RN32 (frac r) + RN32 (frac s)) / 2) ltac:(lra)) as E4.
  rewrite EF. apply Rabs_le_inv in E1, E2, E3, E4. apply Rabs_le. lra.
Qed.
(** the window of output column x, of all sizes below 2^24 *)
Lemma win_spec size ns x : 1 <= size < 16777216 -> 1 <= ns <= u32_max -> 0 <= x < ns ->
  exists lo hi, let l := (IZR (x * size) / IZR ns)%R in let h := (IZR ((x + 1) * size) / IZR ns)%R in
    (Rabs (lo - l) <= 8 * uu * l)%R /\ (Rabs (hi - h) <= 12 * uu * h)%R /\
    low (win size ns x) = Z.min (size - 1) (Zceil lo) /\ high (win size ns x) = Z.max (low (win size ns x)) (Z.min size (Zceil hi)) /\
    (Rabs (B2R (mid (lowf (win size ns x)) (highf (win size ns x))) - (frac lo + frac hi) / 2) <= 8 * uu)%R /\
    (Rabs (B2R (mid (highf (win size ns x)) (lowf (win size ns x))) - (frac lo + frac hi) / 2) <= 8 * uu)%R.
Proof.
  intros H1 H2 H3. assert (S1 : 1 <= size <= u32_max) by (unfold u32_max; lia). assert (X1 : 0 <= x <= u32_max) by lia. exists (lo_real size ns x), (hi_real size ns x). cbv zeta. destruct (win_rel size ns x H1 H2 H3) as (A & B & _). cbv zeta in *.
  assert (N : (IZR ns <> 0)%R) by (apply not_0_IZR; lia). rewrite !mult_IZR, plus_IZR. replace (IZR x * IZR size / IZR ns)%R with (IZR x * (IZR size / IZR ns))%R by (field; exact N). replace ((IZR x + 1) * IZR size / IZR ns)%R with ((IZR x + 1) * (IZR size / IZR ns))%R by (field; exact N).
  split; [exact A|]. split; [exact B|]. destruct (win_real size ns x S1 H2 X1) as (I1 & I2 & B1 & B2). pose proof (ratio_range size ns S1 H2) as RR. assert (P : (0 < / IZR (2 ^ 32))%R) by (apply Rinv_0_lt_compat; apply IZR_lt; lia).
  destruct (win_ints size ns x S1 H2 X1) as (EL & EH). cbv zeta in *. pose proof (win_ok size ns x S1 H2 X1) as WO. cbv zeta in WO. rewrite clamp_eq in EL by lia. rewrite clamp_eq in EH by lia.
  assert (C0 : 0 <= Zceil (lo_real size ns x)) by (apply le_IZR; pose proof (Zceil_ub (lo_real size ns x)); lra). assert (C1 : 0 <= Zceil (hi_real size ns x)) by (apply le_IZR; pose proof (Zceil_ub (hi_real size ns x)); lra).
  split; [rewrite EL; unfold clampz, u32_max; lia|]. split; [rewrite EH; unfold clampz, u32_max; lia|]. destruct (mid_ok _ _ _ _ I1 I2 B1 ltac:(lra)) as (f & F1 & F2). destruct (mid_ok _ _ _ _ I2 I1 ltac:(lra) B1) as (g & G1 & G2).
  split. - rewrite (proj1 F1). apply (mid_val _ _ _ _ _ I1 I2 B1 ltac:(lra) F1). - rewrite (proj1 G1). rewrite (Rplus_comm (frac _)). apply (mid_val _ _ _ _ _ I2 I1 ltac:(lra) B1 G1).
Qed.

(** ** the loop *)
Definition tpix (t : sty) (m : mode) (k : kind) (im : img (list Z)) (nw nh : Z) (c : Z * Z) : list Z :=
  match thumb_pixel t m im (win (iw im) nw (fst c)) (win (ih im) nh (snd c)) with Ok p => from_channels k p | _ => [] end.
Lemma thumb_loop t m k im nw nh (Q : Z -> Z -> list Z -> Prop) : 1 <= iw im -> 1 <= ih im -> 0 <= nw -> 0 <= nh ->
  (forall x y, 0 <= x < nw -> 0 <= y < nh -> exists c, thumb_pixel t m im (win (iw im) nw x) (win (ih im) nh y) = Ok c /\ Q x y (from_channels k c)) ->
  exists r, thumbnail t m k im nw nh = Ok r /\ wf r /\ iw r = nw /\ ih r = nh /\ forall x y, 0 <= x < nw -> 0 <= y < nh -> exists p, pixel r x y = Some p /\ Q x y p.
Proof.
  intros HW HH HNW HNH HQ. unfold thumbnail. cbv zeta. replace ((ih im =? 0) || (iw im =? 0)) with false by lia. rewrite for2_coords.
  assert (W0 : wf (new_img nw nh (repeat 0 (Z.to_nat (nch k))))) by (apply wf_new_img; assumption).
  destruct (put_loop fst snd (tpix t m k im nw nh) (coords nw nh) _ W0) as (r & E & W & E1 & E2 & _ & GP). { intros [x y] H. apply In_coords in H. cbn [fst snd new_img iw ih]. lia. }
  exists r. split.
  - rewrite <- E. apply foldM_ext. intros o [x y] Hin. apply In_coords in Hin. cbn [fst snd]. destruct (HQ x y ltac:(lia) ltac:(lia)) as (c & EC & _). rewrite EC. cbn [bind]. unfold tpix. cbn [fst snd]. rewrite EC. reflexivity.
  - split; [exact W|]. split; [exact E1|]. split; [exact E2|]. intros x y Hx Hy. destruct (HQ x y Hx Hy) as (c & EC & HC). exists (from_channels k c). split; [|exact HC]. assert (Hin : In (x, y) (coords nw nh)) by (apply In_coords; lia). specialize (GP (x, y) Hin). cbn [fst snd] in GP. rewrite GP.
    + unfold tpix. cbn [fst snd]. rewrite EC. reflexivity.
    + intros [x' y'] _ X Y. cbn [fst snd] in X, Y. subst. reflexivity.
Qed.
Lemma from_channels_ok t k (P : nat -> Z -> Prop) c : Forall2 (fun i z => is_sample t z /\ P i z) [0; 1; 2; 3]%nat c -> is_pixel t k (from_channels k c) /\ forall i, (i < Z.to_nat (nch k))%nat -> P i (nth i (from_channels k c) 0).
Proof.
  intros H. inversion_clear H as [|? a ? ? [Sa Pa] H1]. inversion_clear H1 as [|? b ? ? [Sb Pb] H2]. inversion_clear H2 as [|? d ? ? [Sd Pd] H3]. inversion_clear H3 as [|? e ? ? [Se Pe] H4]. inversion_clear H4.
  unfold from_channels, is_pixel. destruct k; cbn [nch]; (split; [split; [reflexivity|]|]).
  1: constructor; [exact Sa|constructor].
  2: constructor; [exact Sa|constructor; [exact Sb|constructor]].
  3: constructor; [exact Sa|constructor; [exact Sb|constructor; [exact Sd|constructor]]].
  4: constructor; [exact Sa|constructor; [exact Sb|constructor; [exact Sd|constructor; [exact Se|constructor]]]].
  all: intros i Hi; destruct i as [|[|[|[|]]]]; try (exfalso; cbn in Hi; lia); assumption.
Qed.
Lemma thumbnail_ok t m k im nw nh : img_ok t k im -> 1 <= iw im <= 524288 -> 1 <= ih im <= 524288 -> 0 <= nw <= u32_max -> 0 <= nh <= u32_max -> (iw im / nw + 2) * (ih im / nh + 2) * (smax t + 1) <= u32_max + 1 ->
  exists r, thumbnail t m k im nw nh = Ok r /\ wf r /\ iw r = nw /\ ih r = nh /\ forall x y, 0 <= x < nw -> 0 <= y < nh ->
    exists p, pixel r x y = Some p /\ is_pixel t k p /\ forall i, (i < Z.to_nat (nch k))%nat -> chan_res t im i (win (iw im) nw x) (win (ih im) nh y) (nth i p 0).
Proof.
  intros HI HW HH HNW HNH HB. apply (thumb_loop t m k im nw nh (fun x y p => is_pixel t k p /\ forall i, (i < Z.to_nat (nch k))%nat -> chan_res t im i (win (iw im) nw x) (win (ih im) nh y) (nth i p 0))); [lia|lia|lia|lia|].
  intros x y Hx Hy. pose proof (win_count (iw im) nw x HW ltac:(lia) Hx) as C1. pose proof (win_count (ih im) nh y HH ltac:(lia) Hy) as C2.
  destruct (thumb_pixel_ok t m k im (win (iw im) nw x) (win (ih im) nh y) HI) as (c & E & F).
  - unfold is_u32, u32_max. lia.
  - unfold is_u32, u32_max. lia.
  - apply win_fine_ok; unfold u32_max in *; lia.
  - apply win_fine_ok; unfold u32_max in *; lia.
  - pose proof (smax_range t) as SM. apply Z.le_trans with (2 := HB). apply Z.mul_le_mono_nonneg_r; [lia|]. unfold count in *. apply Z.mul_le_mono_nonneg; lia.
  - exists c. split; [exact E|]. exact (from_channels_ok t k _ c F).
Qed.
Lemma conv_range f a b lo hi : (0 <= f <= 1)%R -> (lo <= a <= hi)%R -> (lo <= b <= hi)%R -> (lo <= (1 - f) * a + f * b <= hi)%R.
Proof. intros F A B. assert ((1 - f) * lo <= (1 - f) * a)%R by (apply Rmult_le_compat_l; lra). assert (f * lo <= f * b)%R by (apply Rmult_le_compat_l; lra). assert ((1 - f) * a <= (1 - f) * hi)%R by (apply Rmult_le_compat_l; lra). assert (f * b <= f * hi)%R by (apply Rmult_le_compat_l; lra). lra. Qed.
Lemma floor_near_range z T a b : floor_near z T -> (IZR a <= T <= IZR b)%R -> a - 1 <= z <= b.
Proof.
  intros (F1 & F2) (A & B). split.
  - assert (a < z + 2) by (apply lt_IZR; rewrite plus_IZR; lra). lia.
  - apply Z.lt_succ_r. apply lt_IZR. unfold Z.succ. rewrite plus_IZR. lra.
Qed.
Lemma avg_range a b s n : 1 <= n -> n * a <= s <= n * b -> (IZR a <= IZR s / IZR n <= IZR b)%R.
Proof.
  intros Hn (A & B). assert (N : (0 < IZR n)%R) by (apply IZR_lt; lia). apply IZR_le in A, B. rewrite mult_IZR in A, B. split; [apply Rmult_le_reg_r with (IZR n)|apply Rmult_le_reg_r with (IZR n)]; try exact N; unfold Rdiv; rewrite Rmult_assoc, Rinv_l by lra; lra.
Qed.
Lemma chan_range t im i wx wy z a b : chan_res t im i wx wy z -> (forall x y, src_lo wx <= x < src_hi wx -> src_lo wy <= y < src_hi wy -> a <= chan_at t im i (x, y) <= b) -> a - 1 <= z <= b /\ (low wx < high wx -> low wy < high wy -> a <= z).
Proof.
  intros H HR. unfold src_lo, src_hi in HR. destruct H as [L1 L2 n E|L1 L2 f n F FN|L1 L2 f n F FN|L1 L2 h v F1 F2 c FN].
  - replace (low wx =? high wx) with false in HR by lia. replace (low wy =? high wy) with false in HR by lia. pose proof (total_bound t im i (low wx) (high wx) (low wy) (high wy) a b ltac:(lia) ltac:(lia) HR) as T. fold n in T. assert (N : 1 <= n) by (unfold n; nia). assert (N2 : 0 <= n / 2 < n) by (split; [apply Z.div_pos; lia|apply Z.div_lt; lia]).
    assert (a <= z) by (rewrite E; apply Z.div_le_lower_bound; lia). split; [|intros _ _; assumption]. split; [lia|]. rewrite E. apply Z.lt_succ_r. apply Z.div_lt_upper_bound; lia.
  - split; [|intros; lia]. replace (low wx =? high wx) with true in HR by lia. replace (low wy =? high wy) with false in HR by lia. assert (N : 1 <= n) by (unfold n; lia).
    pose proof (total_bound t im i (low wx - 1) (low wx) (low wy) (high wy) a b ltac:(lia) ltac:(lia) ltac:(intros; apply HR; lia)) as T1. pose proof (total_bound t im i (low wx) (low wx + 1) (low wy) (high wy) a b ltac:(lia) ltac:(lia) ltac:(intros; apply HR; lia)) as T2.
    apply (floor_near_range _ _ _ _ FN). apply conv_range; [exact F| |]; (apply avg_range; [exact N|unfold n; lia]).
  - split; [|intros; lia]. replace (low wx =? high wx) with false in HR by lia. replace (low wy =? high wy) with true in HR by lia. assert (N : 1 <= n) by (unfold n; lia).
    pose proof (total_bound t im i (low wx) (high wx) (low wy - 1) (low wy) a b ltac:(lia) ltac:(lia) ltac:(intros; apply HR; lia)) as T1. pose proof (total_bound t im i (low wx) (high wx) (low wy) (low wy + 1) a b ltac:(lia) ltac:(lia) ltac:(intros; apply HR; lia)) as T2.
    apply (floor_near_range _ _ _ _ FN). apply conv_range; [exact F| |]; (apply avg_range; [exact N|unfold n; lia]).
  - split; [|intros; lia]. replace (low wx =? high wx) with true in HR by lia. replace (low wy =? high wy) with true in HR by lia.
    assert (CC : forall x y, 0 <= x <= 1 -> 0 <= y <= 1 -> (IZR a <= c x y <= IZR b)%R) by (intros x y Hx Hy; unfold c; pose proof (HR (low wx - x) (low wy - y) ltac:(lia) ltac:(lia)); split; apply IZR_le; lia).
    pose proof (CC 0 1 ltac:(lia) ltac:(lia)) as K01. pose proof (CC 0 0 ltac:(lia) ltac:(lia)) as K00. pose proof (CC 1 1 ltac:(lia) ltac:(lia)) as K11. pose proof (CC 1 0 ltac:(lia) ltac:(lia)) as K10. set (c01 := c 0 1) in *. set (c00 := c 0 0) in *. set (c11 := c 1 1) in *. set (c10 := c 1 0) in *. clearbody h v c01 c00 c11 c10.
    apply (floor_near_range _ _ _ _ FN). replace ((1 - v) * h * c01 + v * h * c00 + (1 - v) * (1 - h) * c11 + v * (1 - h) * c10)%R with ((1 - h) * ((1 - v) * c11 + v * c10) + h * ((1 - v) * c01 + v * c00))%R by ring. apply conv_range; [exact F1| |]; (apply conv_range; [exact F2| |]); assumption.
Qed.
(** ** whole blocks *)
Lemma blocks_ok t m k im bw bh nw nh : img_ok t k im -> 1 <= bw -> 1 <= bh -> 1 <= nw -> 1 <= nh -> iw im = bw * nw -> ih im = bh * nh -> iw im < 16777216 -> ih im < 16777216 -> bw * bh * (smax t + 1) <= u32_max + 1 ->
  exists r, thumbnail t m k im nw nh = Ok r /\ wf r /\ iw r = nw /\ ih r = nh /\ forall x y, 0 <= x < nw -> 0 <= y < nh ->
    exists p, pixel r x y = Some p /\ is_pixel t k p /\ forall i, (i < Z.to_nat (nch k))%nat -> nth i p 0 = (total t im i (x * bw) ((x + 1) * bw) (y * bh) ((y + 1) * bh) + bw * bh / 2) / (bw * bh).
Proof.
  intros HI H1 H2 H3 H4 EW EH LW LH HB. assert (W1 : nw <= iw im /\ bw <= iw im) by nia. assert (W2 : nh <= ih im /\ bh <= ih im) by nia. apply (thumb_loop t m k im nw nh (fun x y p => is_pixel t k p /\ forall i, (i < Z.to_nat (nch k))%nat -> nth i p 0 = (total t im i (x * bw) ((x + 1) * bw) (y * bh) ((y + 1) * bh) + bw * bh / 2) / (bw * bh))); [lia|lia|lia|lia|].
  intros x y Hx Hy. destruct (win_exact bw nw x H1 H3 ltac:(lia) Hx) as (X1 & X2). destruct (win_exact bh nh y H2 H4 ltac:(lia) Hy) as (Y1 & Y2). rewrite <- EW in X1, X2. rewrite <- EH in Y1, Y2.
  destruct (thumb_pixel_ok t m k im (win (iw im) nw x) (win (ih im) nh y) HI) as (c & E & F).
  - unfold is_u32, u32_max. lia.
  - unfold is_u32, u32_max. lia.
  - apply win_fine_ok; unfold u32_max in *; lia.
  - apply win_fine_ok; unfold u32_max in *; lia.
  - unfold count. rewrite X1, X2, Y1, Y2. replace ((x + 1) * bw - x * bw) with bw by ring. replace ((y + 1) * bh - y * bh) with bh by ring. rewrite !Z.max_r by lia. exact HB.
  - exists c. split; [exact E|]. destruct (from_channels_ok t k _ c F) as (PX & CH). split; [exact PX|]. intros i Hi. specialize (CH i Hi). destruct CH as [L1 L2 n EN|L1 L2|L1 L2|L1 L2]; try (exfalso; rewrite ?X1, ?X2, ?Y1, ?Y2 in *; lia).
    unfold n in EN. clear n. rewrite X1, X2, Y1, Y2 in EN. replace ((x + 1) * bw - x * bw) with bw in EN by ring. replace ((y + 1) * bh - y * bh) with bh in EN by ring. exact EN.
Qed.
(** ** overflow *)
Lemma sum_white im cs : forall j, Forall (fun c => get_pixel im (fst c) (snd c) = Ok [65535]) cs -> 0 <= j -> j * 65535 <= u32_max ->
  foldM (fun s '(x, y) => p <- get_pixel im x y ;; add_pixel U16 Debug s p) cs [j * 65535; j * 65535; j * 65535; j * 65535] =
  if (j + zlen cs) * 65535 <=? u32_max then Ok [(j + zlen cs) * 65535; (j + zlen cs) * 65535; (j + zlen cs) * 65535; (j + zlen cs) * 65535] else Panic.
Proof.
  induction cs as [|[x y] cs IH]; intros j F Hj HB.
  - change (zlen (@nil (Z * Z))) with 0. rewrite Z.add_0_r. replace (j * 65535 <=? u32_max) with true by lia. reflexivity.
  - inversion_clear F as [|? ? F1 F2]. cbn [fst snd] in F1. cbn [foldM]. rewrite F1. cbn [bind]. unfold add_pixel. change (channels4 U16 [65535]) with [65535; 65535; 65535; 65535]. cbn [combine map_res]. unfold u32_add_m. replace (j * 65535 + 65535) with ((j + 1) * 65535) by ring. rewrite zlen_cons. rewrite (Z.add_assoc j 1). pose proof (zlen_nonneg cs) as N.
    destruct (Z.leb_spec ((j + 1) * 65535) u32_max) as [L|G]; cbn [bind].
    + apply IH; [exact F2|lia|exact L].
    + replace ((j + 1 + zlen cs) * 65535 <=? u32_max) with false by lia. reflexivity.
Qed.
Lemma overflow w h : 1 <= w < 16777216 -> 1 <= h < 16777216 -> 65537 <= w * h -> thumbnail U16 Debug Luma (new_img w h [65535]) 1 1 = Panic.
Proof.
  intros Hw Hh HB. unfold thumbnail. cbv zeta. cbn [new_img iw ih]. fold (@new_img (list Z) w h [65535]). replace ((h =? 0) || (w =? 0)) with false by lia. unfold for2. change (zrange 0 1) with [0]. cbn [foldM].
  assert (G : thumb_pixel U16 Debug (new_img w h [65535]) (win w 1 0) (win h 1 0) = Panic); [|rewrite G; reflexivity].
  destruct (win_exact w 1 0 ltac:(lia) ltac:(lia) ltac:(lia) ltac:(lia)) as (X1 & X2). destruct (win_exact h 1 0 ltac:(lia) ltac:(lia) ltac:(lia) ltac:(lia)) as (Y1 & Y2). rewrite !Z.mul_1_r in *. rewrite !Z.mul_0_l in *. rewrite !Z.add_0_l, !Z.mul_1_l in *.
  unfold thumb_pixel. cbv zeta. rewrite X1, X2, Y1, Y2. replace (0 =? h) with false by lia. replace (0 =? w) with false by lia. cbn [negb andb]. unfold sample_block, sum_pixels, zeroed. fold (rect 0 w 0 h). rewrite !Z.sub_0_r.
  pose proof (sum_white (new_img w h [65535]) (rect 0 w 0 h) 0) as SW. rewrite Z.mul_0_l, Z.add_0_l in SW. rewrite SW.
  - rewrite zlen_rect by lia. rewrite !Z.sub_0_r. destruct (Z.leb_spec (w * h * 65535) u32_max) as [L|L]; [|reflexivity]. cbn [bind]. assert (WH : w * h = 65537) by (unfold u32_max in L; lia). unfold u32_mul_m. rewrite WH. reflexivity.
  - apply Forall_forall. intros [x y] Hin. apply In_rect in Hin. cbn [fst snd]. apply get_pixel_ok. apply pixel_new_img; lia.
  - lia.
  - unfold u32_max. lia.
Qed.
