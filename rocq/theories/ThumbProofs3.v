From Coq Require Import ZArith Bool Reals Lia Lra.
From Flocq Require Import Core IEEE754.BinarySingleNaN Relative.
From Verif Require Import Base BaseLemmas ListMore Color ColorProofs Float FloatProofs JpegQuant ColorF ColorFProofs GenImage Thumb ThumbSpec ThumbProofs ThumbProofs2.
Local Open Scope Z_scope.

(** ** sums *)
Lemma zsum_app a b : zsum (a ++ b) = zsum a + zsum b.
Proof. unfold zsum. induction a; cbn [app fold_right] in *; [reflexivity|rewrite IHa; lia]. Qed.
Lemma zsum_bound lo hi l : Forall (fun v => lo <= v <= hi) l -> zlen l * lo <= zsum l <= zlen l * hi.
Proof. induction 1 as [|a l H F IH]; [cbn; lia|]. rewrite zlen_cons. change (zsum (a :: l)) with (a + zsum l). lia. Qed.
Lemma channels4_ok t k p : is_pixel t k p -> channels4 t p = [nth 0 p (smax t); nth 1 p (smax t); nth 2 p (smax t); nth 3 p (smax t)] /\ forall i, is_sample t (nth i p (smax t)).
Proof.
  intros (L & F). split.
  - destruct k; cbn [nch] in L; destruct p as [|a [|b [|c [|d [|]]]]]; try (unfold zlen in L; cbn in L; lia); reflexivity.
  - intros i. destruct (nth_in_or_default i p (smax t)) as [H| ->]; [exact (proj1 (Forall_forall _ _) F _ H)|]. unfold is_sample. pose proof (smax_range t). lia.
Qed.
Lemma pixel_at t k im c : img_ok t k im -> inside im c -> exists p, get_pixel im (fst c) (snd c) = Ok p /\ pixel im (fst c) (snd c) = Some p /\ is_pixel t k p.
Proof.
  intros (W & F) (Hx & Hy). destruct (pixel_in im (fst c) (snd c) W Hx Hy) as (p & E). exists p. split; [apply get_pixel_ok; exact E|]. split; [exact E|]. unfold pixel in E. destruct (inb im (fst c) (snd c)); [|discriminate E]. apply zget_In in E. exact (proj1 (Forall_forall _ _) F _ E).
Qed.
Lemma chan_sample t k im i c : img_ok t k im -> inside im c -> is_sample t (chan_at t im i c).
Proof. intros H1 H2. destruct (pixel_at t k im c H1 H2) as (p & _ & E & P). unfold chan_at. rewrite E. apply (channels4_ok t k p P). Qed.
Definition sums (t : sty) (im : img (list Z)) (cs : list (Z * Z)) : list Z := map (fun i => zsum (map (chan_at t im i) cs)) [0; 1; 2; 3]%nat.
Lemma sum_pixels_ok t m k im cs : img_ok t k im -> Forall (inside im) cs -> zlen cs * smax t <= u32_max -> sum_pixels t m im cs = Ok (sums t im cs).
Proof.
  intros HI HF HB. unfold sum_pixels, zeroed.
  assert (G : forall cs a b c d, Forall (inside im) cs -> 0 <= a -> 0 <= b -> 0 <= c -> 0 <= d -> a + zlen cs * smax t <= u32_max -> b + zlen cs * smax t <= u32_max -> c + zlen cs * smax t <= u32_max -> d + zlen cs * smax t <= u32_max ->
    foldM (fun s '(x, y) => p <- get_pixel im x y ;; add_pixel t m s p) cs [a; b; c; d] = Ok [a + zsum (map (chan_at t im 0) cs); b + zsum (map (chan_at t im 1) cs); c + zsum (map (chan_at t im 2) cs); d + zsum (map (chan_at t im 3) cs)]).
  { clear cs HF HB. pose proof (smax_range t) as SM. induction cs as [|[x y] cs IH]; intros a b c d F Ha Hb Hc Hd Ba Bb Bc Bd; [cbn; rewrite !Z.add_0_r; reflexivity|]. inversion_clear F as [|? ? F1 F2]. rewrite zlen_cons in *. pose proof (zlen_nonneg cs) as N. assert (NS : 0 <= zlen cs * smax t) by nia.
    destruct (pixel_at t k im (x, y) HI F1) as (p & E1 & E2 & P). cbn [fst snd] in *. cbn [foldM]. rewrite E1. cbn [bind]. destruct (channels4_ok t k p P) as (C4 & S4).
    unfold add_pixel. rewrite C4. cbn [combine map_res]. unfold u32_add_m. pose proof (S4 0%nat) as S0. pose proof (S4 1%nat) as S1. pose proof (S4 2%nat) as S2. pose proof (S4 3%nat) as S3. unfold is_sample in S0, S1, S2, S3.
    replace (a + nth 0 p (smax t) <=? u32_max) with true by lia. replace (b + nth 1 p (smax t) <=? u32_max) with true by lia. replace (c + nth 2 p (smax t) <=? u32_max) with true by lia. replace (d + nth 3 p (smax t) <=? u32_max) with true by lia. cbn [bind].
    rewrite IH by (try assumption; lia). unfold chan_at at 5 6 7 8. cbn [map]. unfold chan_at. cbn [fst snd]. rewrite E2. change (zsum (?h :: ?t)) with (h + zsum t). rewrite !Z.add_assoc. reflexivity. }
  rewrite G by (try assumption; lia). reflexivity.
Qed.
Lemma map_res_ex {A B} (f : A -> res B) (Q : A -> B -> Prop) l : (forall a, In a l -> exists b, f a = Ok b /\ Q a b) -> exists r, map_res f l = Ok r /\ Forall2 Q l r.
Proof.
  induction l as [|a l IH]; intros H; [exists []; split; [reflexivity|constructor]|]. destruct (H a (or_introl eq_refl)) as (b & E & HQ). destruct IH as (r & Er & FR); [intros; apply H; right; assumption|].
  exists (b :: r). split; [cbn [map_res]; rewrite E; cbn [bind]; rewrite Er; reflexivity|constructor; assumption].
Qed.
Lemma map_res4 {A B} (f : A -> res B) a b c d w x y z : f a = Ok w -> f b = Ok x -> f c = Ok y -> f d = Ok z -> map_res f [a; b; c; d] = Ok [w; x; y; z].
Proof. intros H1 H2 H3 H4. cbn [map_res]. rewrite H1, H2, H3, H4. reflexivity. Qed.
Lemma In_rect l r b t x y : In (x, y) (rect l r b t) <-> l <= x < r /\ b <= y < t.
Proof.
  unfold rect. rewrite in_flat_map. split.
  - intros (y' & Hy & H). apply in_map_iff in H. destruct H as (x' & E & Hx). assert (x' = x /\ y' = y) as (-> & ->) by (split; congruence). apply In_zrange in Hx, Hy. lia.
  - intros H. exists y. split; [apply In_zrange; lia|]. apply in_map_iff. exists x. split; [reflexivity|apply In_zrange; lia].
Qed.
Lemma zlen_rect l r b t : l <= r -> b <= t -> zlen (rect l r b t) = (r - l) * (t - b).
Proof.
  intros H1 H2. unfold rect. assert (G : forall ys : list Z, zlen (flat_map (fun y => map (fun x => (x, y)) (zrange l (r - l))) ys) = (r - l) * zlen ys).
  { induction ys as [|y ys IH]; [cbn [flat_map]; change (zlen (@nil (Z * Z))) with 0; change (zlen (@nil Z)) with 0; lia|]. cbn [flat_map]. rewrite zlen_app, IH, zlen_map, zlen_zrange, zlen_cons. lia. }
  rewrite G, zlen_zrange. rewrite Z.max_r by lia. reflexivity.
Qed.
Lemma rect_inside im l r b t : 0 <= l -> r <= iw im -> 0 <= b -> t <= ih im -> Forall (inside im) (rect l r b t).
Proof. intros. apply Forall_forall. intros [x y] H3. apply In_rect in H3. unfold inside. cbn [fst snd]. lia. Qed.
Lemma rect_col x b t : map (fun y => (x, y)) (zrange b (t - b)) = rect x (x + 1) b t.
Proof. unfold rect. replace (x + 1 - x) with 1 by lia. rewrite (zrange_cons x 1) by lia. change (zrange (x + 1) (1 - 1)) with (@nil Z). induction (zrange b (t - b)) as [|y ys IH]; [reflexivity|]. cbn [map flat_map app]. rewrite IH. reflexivity. Qed.
Lemma rect_row y l r : map (fun x => (x, y)) (zrange l (r - l)) = rect l r y (y + 1).
Proof. unfold rect. replace (y + 1 - y) with 1 by lia. rewrite (zrange_cons y 1) by lia. change (zrange (y + 1) (1 - 1)) with (@nil Z). cbn [flat_map]. rewrite app_nil_r. reflexivity. Qed.

Lemma total_bound t im i l r b u lo hi : l <= r -> b <= u -> (forall x y, l <= x < r -> b <= y < u -> lo <= chan_at t im i (x, y) <= hi) -> (r - l) * (u - b) * lo <= total t im i l r b u <= (r - l) * (u - b) * hi.
Proof.
  intros H1 H2 H. unfold total. rewrite <- zlen_rect by assumption. rewrite <- (zlen_map (chan_at t im i)). apply zsum_bound. apply Forall_forall. intros v Hv. apply in_map_iff in Hv. destruct Hv as ([x y] & <- & Hi). apply In_rect in Hi. apply H; lia.
Qed.
(** a window with floats in range *)
Definition win_fine (size : Z) (w : window) : Prop := 0 <= low w <= size - 1 /\ low w <= high w <= size /\ (low w = high w -> 1 <= low w) /\ exists f g, isf (mid (lowf w) (highf w)) f /\ (0 <= f <= 1)%R /\ isf (mid (highf w) (lowf w)) g /\ (0 <= g <= 1)%R.
Lemma win_fine_ok size ns x : 1 <= size <= u32_max -> 1 <= ns <= u32_max -> 0 <= x <= u32_max -> win_fine size (win size ns x).
Proof.
  intros H1 H2 H3. destruct (win_ok size ns x H1 H2 H3) as (A & B & C). cbv zeta in *. split; [exact A|]. split; [exact B|]. split; [exact C|]. destruct (win_real size ns x H1 H2 H3) as (I1 & I2 & B1 & B2). pose proof (ratio_range size ns H1 H2) as RR. assert (P : (0 < / IZR (2 ^ 32))%R) by (apply Rinv_0_lt_compat; apply IZR_lt; lia).
  destruct (mid_ok _ _ _ _ I1 I2 B1 ltac:(lra)) as (f & F1 & F2). destruct (mid_ok _ _ _ _ I2 I1 ltac:(lra) B1) as (g & G1 & G2). exists f, g. auto.
Qed.
Definition count (w : window) : Z := Z.max 1 (high w - low w).
Lemma thumb_pixel_ok t m k im wx wy : img_ok t k im -> is_u32 (iw im) -> is_u32 (ih im) -> win_fine (iw im) wx -> win_fine (ih im) wy -> count wx * count wy * (smax t + 1) <= u32_max + 1 ->
  exists c, thumb_pixel t m im wx wy = Ok c /\ Forall2 (fun i z => is_sample t z /\ chan_res t im i wx wy z) [0; 1; 2; 3]%nat c.
Proof.
  intros HI U1 U2 (AX & BX & CX & fx & gx & FX1 & FX2 & GX1 & GX2) (AY & BY & CY & fy & gy & FY1 & FY2 & GY1 & GY2) HC. pose proof (smax_range t) as SM. unfold is_u32 in *. unfold count in HC.
  set (l := low wx) in *. set (r := high wx) in *. set (b := low wy) in *. set (u := high wy) in *.
  assert (SAMP : forall i x y, 0 <= x < iw im -> 0 <= y < ih im -> 0 <= chan_at t im i (x, y) <= smax t) by (intros i x y Hx Hy; apply (chan_sample t k im i (x, y) HI); split; assumption).
  unfold thumb_pixel. cbv zeta. fold l r b u. destruct (Z.eqb_spec b u) as [EB|NB]; destruct (Z.eqb_spec l r) as [EL|NL]; cbn [negb andb].
  - replace ((r =? 0) || (u =? 0)) with false by lia. rewrite <- EL, <- EB. unfold fraction_both.
    destruct (pixel_at t k im (l - 1, b - 1) HI ltac:(split; cbn [fst snd]; lia)) as (bl & G1 & P1 & V1). destruct (pixel_at t k im (l - 1, b - 1 + 1) HI ltac:(split; cbn [fst snd]; lia)) as (tl & G2 & P2 & V2). destruct (pixel_at t k im (l - 1 + 1, b - 1) HI ltac:(split; cbn [fst snd]; lia)) as (br & G3 & P3 & V3). destruct (pixel_at t k im (l - 1 + 1, b - 1 + 1) HI ltac:(split; cbn [fst snd]; lia)) as (tr & G4 & P4 & V4).
    cbn [fst snd] in *. rewrite G1, G2, G3, G4. cbn [bind]. cbv zeta. destruct (channels4_ok t k _ V1) as (C1 & S1). destruct (channels4_ok t k _ V2) as (C2 & S2). destruct (channels4_ok t k _ V3) as (C3 & S3). destruct (channels4_ok t k _ V4) as (C4 & S4). rewrite C1, C2, C3, C4. cbn [combine].
    replace (l - 1 + 1) with l in * by lia. replace (b - 1 + 1) with b in * by lia.
    assert (ONE : forall i, exists z, cast (smax t) (f32_add (f32_add (f32_add (f32_mul (f32_mul (f32_sub f32_one (mid (highf wy) (lowf wy))) (mid (lowf wx) (highf wx))) (f32_of_Z (nth i br (smax t)))) (f32_mul (f32_mul (mid (highf wy) (lowf wy)) (mid (lowf wx) (highf wx))) (f32_of_Z (nth i tr (smax t))))) (f32_mul (f32_mul (f32_sub f32_one (mid (highf wy) (lowf wy))) (f32_sub f32_one (mid (lowf wx) (highf wx)))) (f32_of_Z (nth i bl (smax t))))) (f32_mul (f32_mul (mid (highf wy) (lowf wy)) (f32_sub f32_one (mid (lowf wx) (highf wx)))) (f32_of_Z (nth i tl (smax t))))) = Ok z /\ (is_sample t z /\ chan_res t im i wx wy z)).
    { intros i. destruct (both_one t _ _ _ _ _ _ _ _ GY1 FX1 GY2 FX2 (S3 i) (S4 i) (S1 i) (S2 i)) as (z & E & RZ & FN). exists z. split; [exact E|]. split; [exact RZ|]. apply CBoth; [exact EL|exact EB|rewrite (proj1 FX1); exact FX2|rewrite (proj1 GY1); exact GY2|]. cbv zeta. rewrite (proj1 FX1), (proj1 GY1). fold l b. unfold chan_at. cbn [fst snd]. rewrite !Z.sub_0_r. rewrite P1, P2, P3, P4. exact FN. }
    destruct (ONE 0%nat) as (z0 & E0 & Q0). destruct (ONE 1%nat) as (z1 & E1 & Q1). destruct (ONE 2%nat) as (z2 & E2 & Q2). destruct (ONE 3%nat) as (z3 & E3 & Q3). clear ONE. exists [z0; z1; z2; z3]. split; [|constructor; [exact Q0|constructor; [exact Q1|constructor; [exact Q2|constructor; [exact Q3|constructor]]]]].
    apply map_res4; assumption.
  - replace (match m with Debug => (0 <? b) && (0 <? u) | Release => true end) with true by (destruct m; [symmetry; lia|reflexivity]). cbn [negb]. replace (u =? 0) with false by lia. rewrite <- EB. unfold fraction_vertical. rewrite !rect_row. replace (b - 1 + 1) with b by lia.
    assert (N1 : 1 <= r - l) by lia. rewrite Z.max_r in HC by lia. rewrite Z.max_l in HC by lia.
    rewrite (sum_pixels_ok t m k im _ HI) by (first [apply rect_inside; lia|rewrite zlen_rect by lia; unfold u32_max in *; nia]). cbn [bind]. rewrite (sum_pixels_ok t m k im _ HI) by (first [apply rect_inside; lia|rewrite zlen_rect by lia; unfold u32_max in *; nia]). cbn [bind].
    unfold mix2, sums. cbv zeta. cbn [map combine]. fold (total t im 0 l r (b - 1) b) (total t im 1 l r (b - 1) b) (total t im 2 l r (b - 1) b) (total t im 3 l r (b - 1) b) (total t im 0 l r b (b + 1)) (total t im 1 l r b (b + 1)) (total t im 2 l r b (b + 1)) (total t im 3 l r b (b + 1)).
    assert (TB : forall i y, 0 <= y < ih im -> 0 <= total t im i l r y (y + 1) <= (r - l) * smax t). { intros i y Hy. pose proof (total_bound t im i l r y (y + 1) 0 (smax t) ltac:(lia) ltac:(lia)) as T. specialize (T ltac:(intros; apply SAMP; lia)). lia. }
    assert (ONE : forall i, exists z, cast (smax t) (f32_add (f32_mul (f32_div (f32_sub f32_one (mid (highf wy) (lowf wy))) (f32_of_Z (r - l))) (f32_of_Z (total t im i l r (b - 1) b))) (f32_mul (f32_div (mid (highf wy) (lowf wy)) (f32_of_Z (r - l))) (f32_of_Z (total t im i l r b (b + 1))))) = Ok z /\ (is_sample t z /\ chan_res t im i wx wy z)).
    { intros i. pose proof (TB i (b - 1) ltac:(lia)) as T1. replace (b - 1 + 1) with b in T1 by lia. pose proof (TB i b ltac:(lia)) as T2. destruct (mix2_one t _ _ (r - l) _ _ GY1 GY2 ltac:(lia) T1 T2 ltac:(unfold u32_max in *; nia)) as (z & E & RZ & FN). exists z. split; [exact E|]. split; [exact RZ|]. apply CVer; [fold l r; lia|exact EB|rewrite (proj1 GY1); exact GY2|]. cbv zeta. rewrite (proj1 GY1). exact FN. }
    destruct (ONE 0%nat) as (z0 & E0 & Q0). destruct (ONE 1%nat) as (z1 & E1 & Q1). destruct (ONE 2%nat) as (z2 & E2 & Q2). destruct (ONE 3%nat) as (z3 & E3 & Q3). clear ONE. exists [z0; z1; z2; z3]. split; [|constructor; [exact Q0|constructor; [exact Q1|constructor; [exact Q2|constructor; [exact Q3|constructor]]]]].
    apply map_res4; assumption.
  - replace (match m with Debug => (0 <? l) && (0 <? r) | Release => true end) with true by (destruct m; [symmetry; lia|reflexivity]). cbn [negb]. replace (r =? 0) with false by lia. rewrite <- EL. unfold fraction_horizontal. rewrite !rect_col. replace (l - 1 + 1) with l by lia.
    assert (N1 : 1 <= u - b) by lia. rewrite Z.max_l in HC by lia. rewrite Z.max_r in HC by lia.
    rewrite (sum_pixels_ok t m k im _ HI) by (first [apply rect_inside; lia|rewrite zlen_rect by lia; unfold u32_max in *; nia]). cbn [bind]. rewrite (sum_pixels_ok t m k im _ HI) by (first [apply rect_inside; lia|rewrite zlen_rect by lia; unfold u32_max in *; nia]). cbn [bind].
    unfold mix2, sums. cbv zeta. cbn [map combine]. fold (total t im 0 (l - 1) l b u) (total t im 1 (l - 1) l b u) (total t im 2 (l - 1) l b u) (total t im 3 (l - 1) l b u) (total t im 0 l (l + 1) b u) (total t im 1 l (l + 1) b u) (total t im 2 l (l + 1) b u) (total t im 3 l (l + 1) b u).
    assert (TB : forall i x, 0 <= x < iw im -> 0 <= total t im i x (x + 1) b u <= (u - b) * smax t). { intros i x Hx. pose proof (total_bound t im i x (x + 1) b u 0 (smax t) ltac:(lia) ltac:(lia)) as T. specialize (T ltac:(intros; apply SAMP; lia)). lia. }
    assert (ONE : forall i, exists z, cast (smax t) (f32_add (f32_mul (f32_div (f32_sub f32_one (mid (lowf wx) (highf wx))) (f32_of_Z (u - b))) (f32_of_Z (total t im i (l - 1) l b u))) (f32_mul (f32_div (mid (lowf wx) (highf wx)) (f32_of_Z (u - b))) (f32_of_Z (total t im i l (l + 1) b u)))) = Ok z /\ (is_sample t z /\ chan_res t im i wx wy z)).
    { intros i. pose proof (TB i (l - 1) ltac:(lia)) as T1. replace (l - 1 + 1) with l in T1 by lia. pose proof (TB i l ltac:(lia)) as T2. destruct (mix2_one t _ _ (u - b) _ _ FX1 FX2 ltac:(lia) T1 T2 ltac:(unfold u32_max in *; nia)) as (z & E & RZ & FN). exists z. split; [exact E|]. split; [exact RZ|]. apply CHor; [exact EL|fold b u; lia|rewrite (proj1 FX1); exact FX2|]. cbv zeta. rewrite (proj1 FX1). exact FN. }
    destruct (ONE 0%nat) as (z0 & E0 & Q0). destruct (ONE 1%nat) as (z1 & E1 & Q1). destruct (ONE 2%nat) as (z2 & E2 & Q2). destruct (ONE 3%nat) as (z3 & E3 & Q3). clear ONE. exists [z0; z1; z2; z3]. split; [|constructor; [exact Q0|constructor; [exact Q1|constructor; [exact Q2|constructor; [exact Q3|constructor]]]]].
    apply map_res4; assumption.
  - unfold sample_block. fold (rect l r b u). rewrite !Z.max_r in HC by lia. set (n := (r - l) * (u - b)) in *. assert (N1 : 1 <= n) by (unfold n; nia). assert (NS : n * smax t + n <= u32_max + 1) by lia.
    rewrite (sum_pixels_ok t m k im _ HI) by (first [apply rect_inside; lia|rewrite zlen_rect by lia; fold n; lia]). cbn [bind]. unfold u32_mul_m. fold n. assert (NU : n <= u32_max) by nia. replace (n <=? u32_max) with true by lia. cbn [bind]. replace (n =? 0) with false by lia.
    assert (N2 : 0 <= n / 2 < n) by (split; [apply Z.div_pos; lia|apply Z.div_lt; lia]).
    assert (ONE : forall i, exists z, (a <- u32_add_m m (total t im i l r b u) (n / 2) ;; Ok (clampz 0 (smax t) (a / n))) = Ok z /\ (is_sample t z /\ chan_res t im i wx wy z)).
    { intros i. pose proof (total_bound t im i l r b u 0 (smax t) ltac:(lia) ltac:(lia) ltac:(intros; apply SAMP; lia)) as T. fold n in T. set (s := total t im i l r b u) in *. unfold u32_add_m. replace (s + n / 2 <=? u32_max) with true by lia. cbn [bind].
      assert (Q : 0 <= (s + n / 2) / n <= smax t) by (split; [apply Z.div_pos; lia|apply Z.lt_succ_r; apply Z.div_lt_upper_bound; nia]). unfold clampz. rewrite Z.min_r, Z.max_r by lia. exists ((s + n / 2) / n). split; [reflexivity|]. split; [exact Q|]. apply CBlock; [fold l r; lia|fold b u; lia|]. cbv zeta. reflexivity. }
    unfold sums. cbn [map]. fold (total t im 0 l r b u) (total t im 1 l r b u) (total t im 2 l r b u) (total t im 3 l r b u).
    destruct (ONE 0%nat) as (z0 & E0 & Q0). destruct (ONE 1%nat) as (z1 & E1 & Q1). destruct (ONE 2%nat) as (z2 & E2 & Q2). destruct (ONE 3%nat) as (z3 & E3 & Q3). clear ONE. exists [z0; z1; z2; z3]. split; [|constructor; [exact Q0|constructor; [exact Q1|constructor; [exact Q2|constructor; [exact Q3|constructor]]]]].
    apply map_res4; assumption.
Qed.
