From Coq Require Import ZArith Bool Reals Lia Lra.
From Flocq Require Import Core IEEE754.BinarySingleNaN.
From Verif Require Import Base BaseLemmas ListLemmas ListMore Color ColorProofs Float FloatProofs JpegQuant ColorF ColorFProofs GenImage Thumb ThumbSpec ThumbProofs ThumbProofs2 ThumbProofs3 ThumbProofs4 Sample SampleSpec SampleProofs SampleProofs2 SampleProofs3 SampleProofs4 SampleProofs5 SampleProofs7 SampleProofs8.
Local Open Scope Z_scope.

(** ** sums *)
Lemma sumr_ext f g a n : (forall i, a <= i < a + n -> f i = g i) -> sumr f a n = sumr g a n.
Proof. intros H. unfold sumr. f_equal. apply map_ext_in. intros i Hi. apply In_zrange in Hi. apply H. lia. Qed.
Lemma sumr_app f a n m : 0 <= n -> 0 <= m -> sumr f a (n + m) = (sumr f a n + sumr f (a + n) m)%R.
Proof. intros H1 H2. unfold sumr. rewrite zrange_app by lia. rewrite map_app. induction (map f (zrange a n)) as [|r l IH]; cbn [app fold_right]; [ring|rewrite IH; ring]. Qed.
Lemma sumr_le f g a n : (forall i, a <= i < a + n -> (f i <= g i)%R) -> (sumr f a n <= sumr g a n)%R.
Proof.
  intros H. unfold sumr. assert (G : forall l, (forall i, In i l -> a <= i < a + n) -> (fold_right Rplus 0 (map f l) <= fold_right Rplus 0 (map g l))%R). { induction l as [|i l IH]; intros HL; cbn [map fold_right]; [lra|]. pose proof (H i (HL i (or_introl eq_refl))). specialize (IH (fun j Hj => HL j (or_intror Hj))). lra. } apply G. intros i Hi. apply In_zrange in Hi. lia.
Qed.
Lemma sumr_const c a n : 0 <= n -> sumr (fun _ => c) a n = (IZR n * c)%R.
Proof.
  intros H. unfold sumr. assert (G : forall l, fold_right Rplus 0%R (map (fun _ : Z => c) l) = (IZR (zlen l) * c)%R). { induction l as [|i l IH]; cbn [map fold_right]; [unfold zlen; cbn; ring|]. rewrite IH, zlen_cons, plus_IZR. ring. } rewrite G, zlen_zrange. f_equal. f_equal. lia.
Qed.
Lemma sumr_sub f a m lo n : lo <= a -> 0 <= m -> a + m <= lo + n -> (forall i, lo <= i < lo + n -> (0 <= f i)%R) -> (sumr f a m <= sumr f lo n)%R.
Proof.
  intros H1 H2 H3 H4. replace n with ((a - lo) + (m + (lo + n - a - m))) by lia. rewrite !sumr_app by lia. replace (lo + (a - lo)) with a by lia. assert (0 <= sumr f lo (a - lo))%R by (apply sumr_nonneg; intros i Hi; apply H4; lia). assert (0 <= sumr f (a + m) (lo + n - a - m))%R by (apply sumr_nonneg; intros i Hi; apply H4; lia). lra.
Qed.
Lemma sumr_restrict f a m lo n : lo <= a -> 0 <= m -> a + m <= lo + n -> (forall i, lo <= i < lo + n -> ~ a <= i < a + m -> f i = 0%R) -> sumr f lo n = sumr f a m.
Proof.
  intros H1 H2 H3 H4. replace n with ((a - lo) + (m + (lo + n - a - m))) by lia. rewrite !sumr_app by lia. replace (lo + (a - lo)) with a by lia.
  rewrite (sumr_ext f (fun _ => 0%R) lo (a - lo)) by (intros i Hi; apply H4; lia). rewrite (sumr_ext f (fun _ => 0%R) (a + m)) by (intros i Hi; apply H4; lia). rewrite !sumr_const by lia. ring.
Qed.
Lemma sumr_plus f g a n : sumr (fun i => f i + g i)%R a n = (sumr f a n + sumr g a n)%R.
Proof. unfold sumr. induction (zrange a n) as [|i l IH]; cbn [map fold_right]; [ring|rewrite IH; ring]. Qed.
Lemma sumr_scale c f a n : sumr (fun i => c * f i)%R a n = (c * sumr f a n)%R.
Proof. unfold sumr. induction (zrange a n) as [|i l IH]; cbn [map fold_right]; [ring|rewrite IH; ring]. Qed.
Lemma sumr_abs f a n : (Rabs (sumr f a n) <= sumr (fun i => Rabs (f i)) a n)%R.
Proof. unfold sumr. induction (zrange a n) as [|i l IH]; cbn [map fold_right]; [rewrite Rabs_R0; lra|]. eapply Rle_trans; [apply Rabs_triang|]. lra. Qed.
(** means with nearby weights *)
Lemma mean_weights K g v a n V dl : 0 <= n -> (0 <= V)%R -> (0 < sumr K a n)%R -> (0 < sumr g a n)%R -> (forall i, a <= i < a + n -> (0 <= g i)%R) -> (forall i, a <= i < a + n -> (0 <= v i <= V)%R) -> (forall i, a <= i < a + n -> (Rabs (K i - g i) <= dl)%R) ->
  (Rabs (mean K v a n - mean g v a n) <= V * (IZR n * dl) / sumr K a n)%R.
Proof.
  intros HN HV SK SG HG HVB HD. set (G := mean g v a n). assert (GB : (0 <= G <= V)%R) by (apply mean_range; assumption).
  assert (E1 : (sumr (fun i => v i * g i) a n = G * sumr g a n)%R) by (unfold G, mean; field; lra).
  assert (E2 : (sumr (fun i => v i * K i) a n - G * sumr K a n = sumr (fun i => (v i - G) * (K i - g i)) a n)%R).
  { rewrite (sumr_ext (fun i => (v i - G) * (K i - g i))%R (fun i => ((v i * K i + (- G) * K i) + ((- 1) * (v i * g i) + G * g i))%R)) by (intros i _; ring). rewrite !sumr_plus, !sumr_scale, E1. ring. }
  assert (E3 : (mean K v a n - G = sumr (fun i => (v i - G) * (K i - g i)) a n / sumr K a n)%R) by (rewrite <- E2; unfold mean; field; lra). rewrite E3. unfold Rdiv. rewrite Rabs_mult, (Rabs_pos_eq (/ sumr K a n)) by (apply Rlt_le; apply Rinv_0_lt_compat; exact SK). apply Rmult_le_compat_r; [apply Rlt_le; apply Rinv_0_lt_compat; exact SK|].
  eapply Rle_trans; [apply sumr_abs|]. replace (V * (IZR n * dl))%R with (sumr (fun _ => V * dl)%R a n) by (rewrite sumr_const by lia; ring). apply sumr_le. intros i Hi. rewrite Rabs_mult. specialize (HVB i Hi). specialize (HD i Hi). apply Rmult_le_compat; try apply Rabs_pos; [apply Rabs_le; lra|exact HD].
Qed.

(** ** the tent *)
Lemma tent_range c s i : (0 < s)%R -> (0 <= tent c s i <= 1)%R.
Proof. intros H. unfold tent. split; [apply Rmax_l|]. apply Rmax_lub; [lra|]. assert (0 <= Rabs (IZR i + / 2 - c) / s)%R by (apply Rle_mult_inv_pos; [apply Rabs_pos|exact H]). lra. Qed.
Lemma tent_near c s i d : (0 < s)%R -> (Rabs (IZR i + / 2 - c) <= d * s)%R -> (1 - d <= tent c s i)%R.
Proof. intros H1 H2. unfold tent. eapply Rle_trans; [|apply Rmax_r]. assert (Rabs (IZR i + / 2 - c) / s <= d)%R; [|lra]. apply Rmult_le_reg_r with s; [exact H1|]. unfold Rdiv. rewrite Rmult_assoc, Rinv_l by lra. lra. Qed.
Lemma tent_zero c s i : (0 < s)%R -> (s <= Rabs (IZR i + / 2 - c))%R -> tent c s i = 0%R.
Proof. intros H1 H2. unfold tent. apply Rmax_left. assert (1 <= Rabs (IZR i + / 2 - c) / s)%R; [|lra]. apply Rmult_le_reg_r with s; [exact H1|]. unfold Rdiv. rewrite Rmult_assoc, Rinv_l by lra. lra. Qed.
(** the weights add up to a good part of the number of taps *)
Lemma tent_sum size c s : 1 <= size -> (1 <= s)%R -> (s <= 1.01 * IZR size)%R -> (-0.06 <= c <= IZR size + 0.06)%R -> (2 * s + 4.7 <= 48 * sumr (tent c s) 0 size)%R.
Proof.
  intros HS S1 S2 HC. assert (T0 : forall i, 0 <= i < 0 + size -> (0 <= tent c s i)%R) by (intros i _; apply tent_range; lra). assert (SZ : (1 <= IZR size)%R) by (apply IZR_le; lia).
  (** the pixel under c *)
  set (i0 := Z.max 0 (Z.min (size - 1) (Zfloor c))). pose proof (Zfloor_lb c) as FL. pose proof (Zfloor_ub c) as FU. assert (I0 : (Rabs (IZR i0 + / 2 - c) <= 0.56)%R).
  { unfold i0. destruct (Z.le_gt_cases 0 (Zfloor c)) as [G|G].
    - destruct (Z.le_gt_cases (Zfloor c) (size - 1)) as [G2|G2].
      + rewrite Z.max_r, Z.min_r by lia. apply Rabs_le. lra.
      + rewrite Z.min_l, Z.max_r by lia. assert (G3 : size <= Zfloor c) by lia. apply IZR_le in G3. rewrite minus_IZR. apply Rabs_le. lra.
    - assert (G3 : Zfloor c <= -1) by lia. apply IZR_le in G3. rewrite Z.max_l by lia. apply Rabs_le. lra. }
  assert (I0R : 0 <= i0 < size) by (unfold i0; lia).
  destruct (Rle_or_lt s 8) as [SS|SS].
  - assert (A : (sumr (tent c s) i0 1 <= sumr (tent c s) 0 size)%R) by (apply sumr_sub; [lia|lia|lia|exact T0]). assert (B : sumr (tent c s) i0 1 = tent c s i0) by (unfold sumr; rewrite (zrange_cons i0 1) by lia; cbn; ring). rewrite B in A.
    assert (D : (1 - 0.56 <= tent c s i0)%R) by (apply tent_near; [lra|]; assert (0.56 * 1 <= 0.56 * s)%R by (apply Rmult_le_compat_l; lra); lra). lra.
  - set (m := Zfloor (s / 4)). pose proof (Zfloor_lb (s / 4)) as ML. pose proof (Zfloor_ub (s / 4)) as MU. fold m in ML, MU. assert (M2 : 2 <= m) by (apply Zfloor_lub; lra). assert (M2R : (2 <= IZR m)%R) by (apply IZR_le; exact M2).
    assert (SUM : forall a, 0 <= a -> a + m <= size -> (forall i, a <= i < a + m -> (Rabs (IZR i + / 2 - c) <= / 4 * s)%R) -> (2 * s + 4.7 <= 48 * sumr (tent c s) 0 size)%R).
    { intros a A1 A2 A3. assert (A : (sumr (tent c s) a m <= sumr (tent c s) 0 size)%R) by (apply sumr_sub; [lia|lia|lia|exact T0]). assert (B : (sumr (fun _ => 3 / 4) a m <= sumr (tent c s) a m)%R) by (apply sumr_le; intros i Hi; specialize (A3 i Hi); replace (3 / 4)%R with (1 - / 4)%R by lra; apply tent_near; lra). rewrite sumr_const in B by lia. lra. }
    apply Rabs_le_inv in I0. destruct (Rle_or_lt c (IZR size / 2)) as [G|G].
    + apply (SUM i0); [lia| |].
      * apply le_IZR. rewrite plus_IZR. lra.
      * intros i Hi. assert (J1 : (IZR i0 <= IZR i <= IZR i0 + IZR m - 1)%R) by (rewrite <- plus_IZR, <- minus_IZR; split; apply IZR_le; lia). apply Rabs_le. lra.
    + apply (SUM (i0 - m + 1)); [|lia|].
      * apply le_IZR. rewrite plus_IZR, minus_IZR. lra.
      * intros i Hi. assert (J1 : (IZR i0 - IZR m + 1 <= IZR i <= IZR i0)%R) by (rewrite <- minus_IZR, <- plus_IZR; split; apply IZR_le; lia). apply Rabs_le. lra.
Qed.
