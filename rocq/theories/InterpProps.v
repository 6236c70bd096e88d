(** C57: point sampling *)
From Coq Require Import ZArith Bool Reals Lia Lra.
From Flocq Require Import Core IEEE754.BinarySingleNaN.
From Verif Require Import Base BaseLemmas Color Float FloatProofs ColorF ColorFProofs GenImage Thumb ThumbSpec ThumbProofs ThumbProofs3 ThumbProofs4 Sample SampleProofs Interp InterpSpec InterpProofs.
Local Open Scope Z_scope.

(** the point (x, y) is on the image: pixel centres at the integers, NaN and infinities are not *)
Definition on_image (im : img (list Z)) (x y : f32) : Prop := 1 <= iw im /\ 1 <= ih im /\ within 0 (IZR (iw im - 1)) x /\ within 0 (IZR (ih im - 1)) y.
(** sizes at which f32 can still tell columns apart *)
Definition modest (im : img (list Z)) : Prop := 0 <= iw im <= 16777216 /\ 0 <= ih im <= 16777216.

(** Exactly the points that are not on the image give None. *)
Theorem C57_none m t k im x y : img_ok t k im -> modest im -> (interpolate_nearest im x y = Ok None <-> ~ on_image im x y) /\ (interpolate_bilinear m t im x y = Ok None <-> ~ on_image im x y).
Proof.
  intros HI (HW & HH). destruct (Z.eq_dec (iw im) 0) as [E0|E0]; [|destruct (Z.eq_dec (ih im) 0) as [E1|E1]].
  - assert (N : ~ on_image im x y) by (intros (A & _); lia). unfold interpolate_nearest, interpolate_bilinear. replace ((iw im =? 0) || (ih im =? 0)) with true by lia. split; (split; [intros _; exact N|reflexivity]).
  - assert (N : ~ on_image im x y) by (intros (_ & A & _); lia). unfold interpolate_nearest, interpolate_bilinear. replace ((iw im =? 0) || (ih im =? 0)) with true by lia. split; (split; [intros _; exact N|reflexivity]).
  - assert (SZ : sized im) by (split; lia). assert (Y : on_image im x y -> (exists p, interpolate_nearest im x y = Ok (Some p)) /\ exists p, interpolate_bilinear m t im x y = Ok (Some p)).
    { intros (_ & _ & WX & WY). apply within_isf in WX, WY. destruct WX as (X & IX & HX). destruct WY as (Y & IY & HY). destruct (nearest_at t k im x y X Y HI SZ IX IY HX HY) as (p & E & _). destruct (bilinear_at m t k im x y X Y HI SZ IX IY HX HY) as (q & E' & _). split; [exists p; exact E|exists q; exact E']. }
    assert (N : ~ on_image im x y -> interpolate_nearest im x y = Ok None /\ interpolate_bilinear m t im x y = Ok None) by (intros N; apply outside_none; [exact SZ|intros (A & B); apply N; split; [lia|split; [lia|split; assumption]]]).
    split; (split; [intros E H; destruct (Y H) as ((p & P) & (q & Q)); rewrite E in *; discriminate|intros H; apply (N H)]).
Qed.

(** On the image, interpolate_nearest is the pixel whose centre is nearest, the right (lower) one when two are. *)
Theorem C57_nearest t k im x y : img_ok t k im -> modest im -> on_image im x y ->
  exists p cx cy, interpolate_nearest im x y = Ok (Some p) /\ inside im (cx, cy) /\ pixel im cx cy = Some p /\ (IZR cx - / 2 <= B2R x < IZR cx + / 2)%R /\ (IZR cy - / 2 <= B2R y < IZR cy + / 2)%R.
Proof.
  intros HI (HW & HH) (W1 & H1 & (FX & HX) & (FY & HY)). assert (SZ : sized im) by (split; lia). destruct (nearest_at t k im x y (B2R x) (B2R y) HI SZ (conj eq_refl FX) (conj eq_refl FY) HX HY) as (p & E & P).
  assert (NA : forall r, (0 <= r)%R -> (IZR (ZnearestA r) - / 2 <= r < IZR (ZnearestA r) + / 2)%R).
  { intros r Hr. assert (EQ : ZnearestA r = Zfloor (r + / 2)). { pose proof (Zfloor_lb r) as A. pose proof (Zfloor_ub r) as B. unfold Znearest. assert (F0 : 0 <= Zfloor r) by (apply Zfloor_lub; exact Hr). destruct (Rcompare_spec (r - IZR (Zfloor r)) (/ 2)) as [K|K|K].
      - symmetry. apply Zfloor_imp. rewrite plus_IZR. lra.
      - replace (0 <=? Zfloor r) with true by lia. assert (ZC : Zceil r = Zfloor r + 1) by (apply Zceil_floor_neq; lra). rewrite ZC. symmetry. apply Zfloor_imp. rewrite !plus_IZR. lra.
      - assert (ZC : Zceil r = Zfloor r + 1) by (apply Zceil_floor_neq; lra). rewrite ZC. symmetry. apply Zfloor_imp. rewrite !plus_IZR. lra. }
    rewrite EQ. pose proof (Zfloor_lb (r + / 2)). pose proof (Zfloor_ub (r + / 2)). lra. }
  exists p, (ZnearestA (B2R x)), (ZnearestA (B2R y)). split; [exact E|]. split; [split; cbn [fst snd]; [pose proof (near_in (B2R x) (iw im) W1 HX)|pose proof (near_in (B2R y) (ih im) H1 HY)]; lia|]. split; [exact P|]. split; apply NA; lra.
Qed.

(** On the image, interpolate_bilinear is the bilinear interpolation of the four surrounding pixels, correctly rounded but for an error of
    20 units in the last place of f32; it stays between their extremes, and it is the pixel itself at a pixel centre.  The debug assertion does not fire. *)
Theorem C57_bilinear m t k im x y : img_ok t k im -> modest im -> on_image im x y ->
  exists p, interpolate_bilinear m t im x y = Ok (Some p) /\ is_pixel t k p /\ forall i, (i < Z.to_nat (nch k))%nat ->
    (Rabs (IZR (nth i p 0%Z) - bilinear t im i (B2R x) (B2R y)) <= / 2 + 20 * IZR (smax t) / 16777216)%R /\
    (forall lo hi, (forall x' y', inside im (x', y') -> (Rabs (IZR x' - B2R x) < 1)%R -> (Rabs (IZR y' - B2R y) < 1)%R -> lo <= chan_at t im i (x', y') <= hi) -> lo <= nth i p 0 <= hi) /\
    (forall cx cy, B2R x = IZR cx -> B2R y = IZR cy -> nth i p 0 = chan_at t im i (cx, cy)).
Proof.
  intros HI (HW & HH) (W1 & H1 & (FX & HX) & (FY & HY)). assert (SZ : sized im) by (split; lia). destruct (bilinear_at m t k im x y (B2R x) (B2R y) HI SZ (conj eq_refl FX) (conj eq_refl FY) HX HY) as (p & E & K & B). exists p. split; [exact E|]. split; [exact K|]. intros i Hi. specialize (B i Hi).
  assert (UE : uu = (/ 16777216)%R) by (unfold uu; change (2 ^ 24) with 16777216; reflexivity). split; [rewrite UE in B; unfold Rdiv; rewrite (Rmult_assoc 20 (IZR (smax t))), (Rmult_comm (IZR (smax t))), <- Rmult_assoc; exact B|]. split.
  - intros lo hi HB. apply (int_in_range t _ _ lo hi B).
    (** pixels with a zero weight need not be in range: interpolate within the pixels closer than 1 *)
    pose proof (floor_in (B2R x) (iw im) W1 HX) as FU. pose proof (floor_in (B2R y) (ih im) H1 HY) as FV. set (X := B2R x) in *. set (Y := B2R y) in *. set (u := Zfloor X) in *. set (v := Zfloor Y) in *.
    pose proof (Zfloor_lb X) as L1. pose proof (Zfloor_ub X) as L2. pose proof (Zfloor_lb Y) as L3. pose proof (Zfloor_ub Y) as L4. fold u in L1, L2. fold v in L3, L4.
    assert (ZU : (X - IZR u = 0)%R \/ (Rabs (IZR (Z.min (u + 1) (iw im - 1)) - X) < 1)%R). { destruct (Req_dec (X - IZR u) 0) as [Z|Z]; [left; exact Z|right]. destruct (Z.le_gt_cases (iw im - 1) u) as [G|G]; [exfalso; assert (u = iw im - 1) by lia; rewrite H in *; lra|]. rewrite Z.min_l by lia. rewrite plus_IZR. apply Rabs_def1; lra. }
    assert (ZV : (Y - IZR v = 0)%R \/ (Rabs (IZR (Z.min (v + 1) (ih im - 1)) - Y) < 1)%R). { destruct (Req_dec (Y - IZR v) 0) as [Z|Z]; [left; exact Z|right]. destruct (Z.le_gt_cases (ih im - 1) v) as [G|G]; [exfalso; assert (v = ih im - 1) by lia; rewrite H in *; lra|]. rewrite Z.min_l by lia. rewrite plus_IZR. apply Rabs_def1; lra. }
    assert (NU : (Rabs (IZR u - X) < 1)%R) by (apply Rabs_def1; lra). assert (NV : (Rabs (IZR v - Y) < 1)%R) by (apply Rabs_def1; lra).
    (** replace a far pixel, whose weight is 0, by the near one *)
    set (u1 := Z.min (u + 1) (iw im - 1)) in *. set (v1 := Z.min (v + 1) (ih im - 1)) in *. set (u2 := if Req_EM_T (X - IZR u) 0 then u else u1). set (v2 := if Req_EM_T (Y - IZR v) 0 then v else v1).
    assert (U2 : (Rabs (IZR u2 - X) < 1)%R /\ 0 <= u2 < iw im) by (unfold u2; destruct (Req_EM_T (X - IZR u) 0); [split; [exact NU|lia]|split; [tauto|lia]]). assert (V2 : (Rabs (IZR v2 - Y) < 1)%R /\ 0 <= v2 < ih im) by (unfold v2; destruct (Req_EM_T (Y - IZR v) 0); [split; [exact NV|lia]|split; [tauto|lia]]).
    assert (G : forall x' y', (x' = u \/ x' = u2) -> (y' = v \/ y' = v2) -> (IZR lo <= IZR (chan_at t im i (x', y')) <= IZR hi)%R). { intros x' y' Hx' Hy'. assert (lo <= chan_at t im i (x', y') <= hi); [|split; apply IZR_le; lia]. apply HB; [split; cbn [fst snd]; destruct Hx' as [->| ->], Hy' as [->| ->]; lia|destruct Hx' as [->| ->]; [exact NU|apply U2]|destruct Hy' as [->| ->]; [exact NV|apply V2]]. }
    assert (EB : bilinear t im i X Y = (let fx := (X - IZR u)%R in let fy := (Y - IZR v)%R in let c a b := IZR (chan_at t im i (a, b)) in (1 - fx) * (1 - fy) * c u v + (1 - fx) * fy * c u v2 + fx * (1 - fy) * c u2 v + fx * fy * c u2 v2)%R).
    { unfold bilinear. cbv zeta. fold u v. fold u1 v1. unfold u2, v2. destruct (Req_EM_T (X - IZR u) 0) as [Z1|Z1]; destruct (Req_EM_T (Y - IZR v) 0) as [Z2|Z2]; rewrite ?Z1, ?Z2; ring. }
    rewrite EB. cbv zeta. pose proof (G u v (or_introl eq_refl) (or_introl eq_refl)) as G1. pose proof (G u v2 (or_introl eq_refl) (or_intror eq_refl)) as G2. pose proof (G u2 v (or_intror eq_refl) (or_introl eq_refl)) as G3. pose proof (G u2 v2 (or_intror eq_refl) (or_intror eq_refl)) as G4.
    set (c1 := IZR (chan_at t im i (u, v))) in *. set (c2 := IZR (chan_at t im i (u, v2))) in *. set (c3 := IZR (chan_at t im i (u2, v))) in *. set (c4 := IZR (chan_at t im i (u2, v2))) in *. set (fx := (X - IZR u)%R) in *. set (fy := (Y - IZR v)%R) in *. assert (BX : (0 <= fx <= 1)%R) by (unfold fx; lra). assert (BY : (0 <= fy <= 1)%R) by (unfold fy; lra). clearbody c1 c2 c3 c4 fx fy. clear - G1 G2 G3 G4 BX BY.
    assert (N1 : (0 <= (1 - fx) * (1 - fy))%R) by (apply Rmult_le_pos; lra). assert (N2 : (0 <= (1 - fx) * fy)%R) by (apply Rmult_le_pos; lra). assert (N3 : (0 <= fx * (1 - fy))%R) by (apply Rmult_le_pos; lra). assert (N4 : (0 <= fx * fy)%R) by (apply Rmult_le_pos; lra). assert (NS : ((1 - fx) * (1 - fy) + (1 - fx) * fy + fx * (1 - fy) + fx * fy = 1)%R) by ring.
    set (A := ((1 - fx) * (1 - fy))%R) in *. set (B := ((1 - fx) * fy)%R) in *. set (C := (fx * (1 - fy))%R) in *. set (D := (fx * fy)%R) in *. clearbody A B C D.
    assert (L : forall w c, (0 <= w)%R -> (IZR lo <= c <= IZR hi)%R -> (w * IZR lo <= w * c <= w * IZR hi)%R) by (intros w c Hw Hc; split; apply Rmult_le_compat_l; lra).
    pose proof (L A c1 N1 G1). pose proof (L B c2 N2 G2). pose proof (L C c3 N3 G3). pose proof (L D c4 N4 G4). assert (EL : (A * IZR lo + B * IZR lo + C * IZR lo + D * IZR lo = IZR lo)%R) by (rewrite <- !Rmult_plus_distr_r, NS; ring). assert (EH : (A * IZR hi + B * IZR hi + C * IZR hi + D * IZR hi = IZR hi)%R) by (rewrite <- !Rmult_plus_distr_r, NS; ring). lra.
  - intros cx cy EX EY. rewrite EX, EY, bilinear_pixel in B. assert (chan_at t im i (cx, cy) <= nth i p 0 <= chan_at t im i (cx, cy)); [|lia]. apply (int_in_range t _ _ _ _ B). lra.
Qed.

(** Sampling with coordinates in [0, 1]: None exactly when a coordinate is not in [0, 1] or the image is empty; otherwise the point sampled
    is the one of the coordinates, to 22 bits, and 0 and 1 are exactly the first and the last column (row). *)
Definition sampled_at (w : Z) (u : f32) (X : R) : Prop := (0 <= X <= IZR (w - 1))%R /\ (Rabs (X - column_at w (B2R u)) <= IZR w / 4194304)%R /\ (B2R u = 0%R -> X = 0%R) /\ (B2R u = 1%R -> X = IZR (w - 1)).
Theorem C57_sample m t k im u v : img_ok t k im -> modest im ->
  (~ (within 0 1 u /\ within 0 1 v /\ 1 <= iw im /\ 1 <= ih im) -> sample_nearest im u v = Ok None /\ sample_bilinear m t im u v = Ok None) /\
  (within 0 1 u -> within 0 1 v -> 1 <= iw im -> 1 <= ih im -> exists X Y, sampled_at (iw im) u X /\ sampled_at (ih im) v Y /\
    (exists p cx cy, sample_nearest im u v = Ok (Some p) /\ pixel im cx cy = Some p /\ (Rabs (IZR cx - X) <= / 2)%R /\ (Rabs (IZR cy - Y) <= / 2)%R) /\
    (exists p, sample_bilinear m t im u v = Ok (Some p) /\ is_pixel t k p /\ forall i, (i < Z.to_nat (nch k))%nat -> (Rabs (IZR (nth i p 0%Z) - bilinear t im i X Y) <= / 2 + 20 * IZR (smax t) / 16777216)%R)).
Proof.
  intros HI (HW & HH). split.
  - intros N. unfold sample_nearest, sample_bilinear. destruct (contains f32_zero f32_one u) eqn:E1; [|split; reflexivity]. destruct (contains f32_zero f32_one v) eqn:E2; [|split; reflexivity]. cbn [andb negb].
    assert (Z : (iw im =? 0) || (ih im =? 0) = true). { destruct ((iw im =? 0) || (ih im =? 0)) eqn:Z; [reflexivity|exfalso]. apply N. split; [apply (contains_iff _ _ u 0 1 isf_zero isf_one); exact E1|]. split; [apply (contains_iff _ _ v 0 1 isf_zero isf_one); exact E2|]. lia. }
    unfold interpolate_nearest. rewrite Z. split; reflexivity.
  - intros WU WV W1 H1. assert (SZ : sized im) by (split; lia). pose proof WU as (FU & HU). pose proof WV as (FV & HV).
    destruct (coordinate_ok (iw im) u (B2R u) ltac:(lia) (conj eq_refl FU) HU) as (X & IX & HX & CX). destruct (coordinate_ok (ih im) v (B2R v) ltac:(lia) (conj eq_refl FV) HV) as (Y & IY & HY & CY). exists X, Y. split; [split; [exact HX|exact CX]|]. split; [split; [exact HY|exact CY]|].
    assert (E1 : contains f32_zero f32_one u = true) by (apply (contains_iff _ _ u 0 1 isf_zero isf_one); exact WU). assert (E2 : contains f32_zero f32_one v = true) by (apply (contains_iff _ _ v 0 1 isf_zero isf_one); exact WV). unfold sample_nearest, sample_bilinear. rewrite E1, E2. cbn [andb negb]. replace ((iw im =? 0) || (ih im =? 0)) with false by lia. rewrite !Z.max_r by lia. split.
    + destruct (nearest_at t k im _ _ X Y HI SZ IX IY HX HY) as (p & E & P). exists p, (ZnearestA X), (ZnearestA Y). split; [exact E|]. split; [exact P|]. split; rewrite Rabs_minus_sym; apply Znearest_half.
    + destruct (bilinear_at m t k im _ _ X Y HI SZ IX IY HX HY) as (p & E & K & B). exists p. split; [exact E|]. split; [exact K|]. intros i Hi. specialize (B i Hi). assert (UE : uu = (/ 16777216)%R) by (unfold uu; change (2 ^ 24) with 16777216; reflexivity). rewrite UE in B. unfold Rdiv. rewrite (Rmult_assoc 20 (IZR (smax t))), (Rmult_comm (IZR (smax t))), <- Rmult_assoc. exact B.
Qed.

(** Beyond that size the coordinate 1 can be past the last column, and the call panics: an image 16777220 columns wide. *)
Theorem C57_wide_refuted m t im : iw im = 16777220 -> 1 <= ih im <= 16777216 -> within 0 1 f32_one /\ within 0 1 f32_zero /\ sample_nearest im f32_one f32_zero = Panic /\ sample_bilinear m t im f32_one f32_zero = Panic.
Proof.
  intros E H. assert (W1 : within 0 1 f32_one) by (split; [reflexivity|rewrite (proj1 isf_one); lra]). assert (W0 : within 0 1 f32_zero) by (split; [reflexivity|rewrite (proj1 isf_zero); lra]). split; [exact W1|]. split; [exact W0|].
  set (c := coordinate 16777220 16777219 f32_one). assert (C1 : contains f32_zero (f32_of_Z 16777219) c = true) by (vm_compute; reflexivity). assert (C2 : f32_as 0 u32_max (f32_round c) = 16777220) by (vm_compute; reflexivity). assert (C3 : f32_as 0 u32_max (f32_floor c) = 16777220) by (vm_compute; reflexivity).
  assert (GX : forall x y, 16777220 <= x -> get_pixel im x y = Panic) by (intros x y Hx; unfold get_pixel, pixel; replace (inb im x y) with false; [reflexivity|]; unfold inb; rewrite E; lia).
  assert (C4 : contains f32_zero (f32_of_Z (ih im - 1)) (coordinate (ih im) (ih im - 1) f32_zero) = true). { apply (contains_iff _ _ _ 0 (IZR (ih im - 1)) isf_zero (int_ok (ih im - 1) ltac:(lia))). apply within_isf. destruct (coordinate_ok (ih im) f32_zero 0 ltac:(lia) isf_zero ltac:(lra)) as (Y & IY & HY & _). exists Y. split; assumption. }
  unfold sample_nearest, sample_bilinear, interpolate_nearest, interpolate_bilinear. rewrite E. change (contains f32_zero f32_one f32_one) with true. change (contains f32_zero f32_one f32_zero) with true. cbn [andb negb]. replace ((16777220 =? 0) || (ih im =? 0)) with false by lia. change (16777220 - 1) with 16777219. change (Z.max 0 16777219) with 16777219. rewrite (Z.max_r 0 (ih im - 1)) by lia. fold c. rewrite C1, C4. cbn [negb]. rewrite C2, C3. split; [rewrite GX by lia; reflexivity|]. cbv zeta. unfold u32_add_m at 1. change (16777220 + 1 <=? u32_max) with true. cbn [bind]. unfold u32_add_m.
  destruct (f32_as 0 u32_max (f32_floor (coordinate (ih im) (ih im - 1) f32_zero)) + 1 <=? u32_max); [|destruct m; [reflexivity|]]; cbn [bind]; rewrite GX by lia; reflexivity.
Qed.

(** Non-vacuity *)
Definition two_im : img (list Z) := mkImg 2 2 [[0; 10]; [100; 20]; [200; 30]; [44; 40]].
Lemma two_ok : img_ok U8 LumaA two_im.
Proof.
  split; [unfold wf; cbn; lia|]. apply Forall_forall. intros p HP. unfold two_im in HP. cbn [px In] in HP. decompose [or] HP; subst; try contradiction; (split; [reflexivity|constructor; [match goal with |- is_sample _ ?v => change (0 <= v <= 255) end; lia|constructor; [match goal with |- is_sample _ ?v => change (0 <= v <= 255) end; lia|constructor]]]).
Qed.
Example C57_nonvacuous m : img_ok U8 LumaA two_im /\ modest two_im /\ on_image two_im f32_half f32_one /\ interpolate_bilinear m U8 two_im f32_half f32_one = Ok (Some [122; 35]) /\ interpolate_nearest two_im f32_half f32_one = Ok (Some [44; 40]) /\ sample_bilinear m U8 two_im f32_half f32_one = Ok (Some [122; 35]).
Proof.
  split; [exact two_ok|]. split; [unfold modest; cbn; lia|]. split; [|split; [destruct m; vm_compute; reflexivity|split; [vm_compute; reflexivity|destruct m; vm_compute; reflexivity]]].
  split; [cbn; lia|]. split; [cbn; lia|]. split; apply within_isf; [exists (/ 2)%R; split; [exact half_ok|cbn; lra]|exists 1%R; split; [exact isf_one|cbn; lra]].
Qed.
Definition c57_theorems := (C57_none, C57_nearest, C57_bilinear, C57_sample, C57_wide_refuted).
Print Assumptions c57_theorems.
