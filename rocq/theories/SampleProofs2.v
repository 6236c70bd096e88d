From Coq Require Import ZArith Bool Reals Lia Lra.
From Flocq Require Import Core IEEE754.BinarySingleNaN.
From Verif Require Import Base BaseLemmas ListMore Color ColorProofs Float FloatProofs JpegQuant ColorF ColorFProofs GenImage Thumb ThumbSpec ThumbProofs ThumbProofs2 ThumbProofs3 Sample SampleProofs.
Local Open Scope Z_scope.

(** ** rounding to a sample *)
Lemma fclamp_ok x T hi H : isf x T -> isf hi H -> (0 <= H)%R -> isf (fclamp x f32_zero hi) (Rmin H (Rmax 0 T)).
Proof.
  intros HX HH H0. unfold fclamp. rewrite (lt_ok _ _ _ _ HX isf_zero), (lt_ok _ _ _ _ HH HX). destruct (Rlt_bool_spec T 0); [rewrite Rmax_left, Rmin_right by lra; exact isf_zero|]. rewrite Rmax_right by lra. destruct (Rlt_bool_spec H T); [rewrite Rmin_left by lra; exact HH|rewrite Rmin_right by lra; exact HX].
Qed.
Lemma quantize_ok t x T : isf x T -> quantize t x = Ok (ZnearestA (Rmin (IZR (smax t)) (Rmax 0 T))) /\ is_sample t (ZnearestA (Rmin (IZR (smax t)) (Rmax 0 T))).
Proof.
  intros HX. pose proof (smax_range t) as SM. pose proof (of_Z_ok (smax t) ltac:(lia)) as HM. assert (M1 : (0 <= IZR (smax t))%R) by (apply IZR_le; lia). pose proof (fclamp_ok x T _ _ HX HM M1) as (E & F). set (c := Rmin (IZR (smax t)) (Rmax 0 T)) in *.
  assert (C : (0 <= c <= IZR (smax t))%R) by (unfold c; split; [apply Rmin_glb; [lra|apply Rmax_l]|apply Rmin_l]). assert (Z0 : 0 <= ZnearestA c <= smax t) by (pose proof (ZnearestA_le _ _ (proj1 C)) as ZA; pose proof (ZnearestA_le _ _ (proj2 C)) as ZB; rewrite ZnearestA_Z in ZA, ZB; lia).
  split; [|exact Z0]. unfold quantize, cast, f32_round. pose proof (round_ok 24 128 f32_emax (fclamp x f32_zero (f32_of_Z (smax t)))) as (ER & FR). rewrite E in ER. rewrite F in FR.
  rewrite (cast_ok 24 128 f32_emax 0 (smax t) _ FR). cbv zeta. rewrite ER, Ztrunc_IZR. replace ((0 <=? ZnearestA c) && (ZnearestA c <=? smax t)) with true by lia. reflexivity.
Qed.
Lemma nearest_between a b T : (IZR a - / 2 < T)%R -> (T < IZR b + / 2)%R -> a <= ZnearestA T <= b.
Proof.
  intros H1 H2. split.
  - assert (a - 1 < ZnearestA T); [|lia]. apply lt_IZR. rewrite minus_IZR. pose proof (Znearest_half (Z.leb 0) T) as E. apply Rabs_le_inv in E. destruct (Rle_or_lt (IZR a) T); [lra|]. destruct (Rle_or_lt (IZR (ZnearestA T)) (IZR a - 1)); [|lra]. exfalso. lra.
  - assert (ZnearestA T < b + 1); [|lia]. apply lt_IZR. rewrite plus_IZR. pose proof (Znearest_half (Z.leb 0) T) as E. apply Rabs_le_inv in E. lra.
Qed.
Lemma quantize_between t x T a b : isf x T -> 0 <= a -> a <= b -> b <= smax t -> (IZR a - / 2 < T)%R -> (T < IZR b + / 2)%R -> exists z, quantize t x = Ok z /\ a <= z <= b.
Proof.
  intros HX Ha Hab Hb H1 H2. destruct (quantize_ok t x T HX) as [E _]. eexists. split; [exact E|]. assert (0 <= IZR a)%R by (apply IZR_le; lia). assert (IZR a <= IZR b)%R by (apply IZR_le; lia). assert (IZR b <= IZR (smax t))%R by (apply IZR_le; lia).
  apply nearest_between.
  - apply Rmin_glb_lt; [lra|]. apply Rlt_le_trans with T; [exact H1|apply Rmax_r].
  - apply Rle_lt_trans with (Rmax 0 T); [apply Rmin_r|]. apply Rmax_lub_lt; lra.
Qed.

(** ** the accumulation loop *)
Lemma acc4_eq a b c d e f g h w : acc4 [a; b; c; d] [e; f; g; h] w = [f32_add a (f32_mul e w); f32_add b (f32_mul f w); f32_add c (f32_mul g w); f32_add d (f32_mul h w)].
Proof. reflexivity. Qed.
Lemma acc_loop (g : Z -> res (list f32)) (c : nat -> Z -> f32) ws : forall s t0 t1 t2 t3, (forall j, s <= j < s + zlen ws -> g j = Ok [c 0%nat j; c 1%nat j; c 2%nat j; c 3%nat j]) ->
  let r i t := fold_left f32_add (map (fun '(v, w) => f32_mul v w) (combine (map (c i) (zrange s (zlen ws))) ws)) t in
  foldM (fun st '(i, w) => p <- g i ;; Ok (acc4 st p w)) (combine (zrange s (zlen ws)) ws) [t0; t1; t2; t3] = Ok [r 0%nat t0; r 1%nat t1; r 2%nat t2; r 3%nat t3].
Proof.
  induction ws as [|w ws IH]; intros s t0 t1 t2 t3 HG r.
  - unfold r. change (zlen (@nil f32)) with 0. change (zrange s 0) with (@nil Z). reflexivity.
  - unfold r. clear r. rewrite zlen_cons in *. pose proof (zlen_nonneg ws) as N. rewrite (zrange_cons s (1 + zlen ws)) by lia. replace (1 + zlen ws - 1) with (zlen ws) by lia. cbn [combine foldM map]. rewrite (HG s) by lia. cbn [bind].
    rewrite acc4_eq. rewrite IH by (intros j Hj; apply HG; lia). reflexivity.
Qed.
(** the loops that fill the output *)
Lemma fill_loop {P} (zero : P) w h (f : Z -> Z -> res P) (Q : Z -> Z -> P -> Prop) : 0 <= w -> 0 <= h -> (forall x y, 0 <= x < w -> 0 <= y < h -> exists c, f x y = Ok c /\ Q x y c) ->
  exists r, for2 w h (fun o x y => c <- f x y ;; put_pixel o x y c) (new_img w h zero) = Ok r /\ wf r /\ iw r = w /\ ih r = h /\ forall x y, 0 <= x < w -> 0 <= y < h -> exists p, pixel r x y = Some p /\ f x y = Ok p /\ Q x y p.
Proof.
  intros HW HH HQ. rewrite for2_coords. set (v := fun c : Z * Z => match f (fst c) (snd c) with Ok p => p | _ => zero end). assert (W0 : wf (new_img w h zero)) by (apply wf_new_img; assumption).
  destruct (put_loop fst snd v (coords w h) _ W0) as (r & E & W & E1 & E2 & _ & GP). { intros [x y] H. apply In_coords in H. cbn [fst snd new_img iw ih]. lia. }
  exists r. split; [|split; [exact W|split; [exact E1|split; [exact E2|]]]].
  - rewrite <- E. apply foldM_ext. intros o [x y] Hin. apply In_coords in Hin. cbn [fst snd]. destruct (HQ x y ltac:(lia) ltac:(lia)) as (c & EC & _). unfold v. cbn [fst snd]. rewrite EC. reflexivity.
  - intros x y Hx Hy. destruct (HQ x y Hx Hy) as (c & EC & HC). exists c. split; [|split; assumption]. assert (Hin : In (x, y) (coords w h)) by (apply In_coords; lia). specialize (GP (x, y) Hin). cbn [fst snd] in GP. rewrite GP; [unfold v; cbn [fst snd]; rewrite EC; reflexivity|]. intros [x' y'] _ X Y. cbn [fst snd] in X, Y. subst. reflexivity.
Qed.
Lemma fill_loop_cols {P} (zero : P) w h (f : Z -> Z -> res P) (Q : Z -> Z -> P -> Prop) : 0 <= w -> 0 <= h -> (forall x y, 0 <= x < w -> 0 <= y < h -> exists c, f x y = Ok c /\ Q x y c) ->
  exists r, for2 h w (fun o y x => c <- f x y ;; put_pixel o x y c) (new_img w h zero) = Ok r /\ wf r /\ iw r = w /\ ih r = h /\ forall x y, 0 <= x < w -> 0 <= y < h -> exists p, pixel r x y = Some p /\ f x y = Ok p /\ Q x y p.
Proof.
  intros HW HH HQ. rewrite for2_coords. set (v := fun c : Z * Z => match f (snd c) (fst c) with Ok p => p | _ => zero end). assert (W0 : wf (new_img w h zero)) by (apply wf_new_img; assumption).
  destruct (put_loop snd fst v (coords h w) _ W0) as (r & E & W & E1 & E2 & _ & GP). { intros [x y] H. apply In_coords in H. cbn [fst snd new_img iw ih]. lia. }
  exists r. split; [|split; [exact W|split; [exact E1|split; [exact E2|]]]].
  - rewrite <- E. apply foldM_ext. intros o [y x] Hin. apply In_coords in Hin. cbn [fst snd]. destruct (HQ x y ltac:(lia) ltac:(lia)) as (c & EC & _). unfold v. cbn [fst snd]. rewrite EC. reflexivity.
  - intros x y Hx Hy. destruct (HQ x y Hx Hy) as (c & EC & HC). exists c. split; [|split; assumption]. assert (Hin : In (y, x) (coords h w)) by (apply In_coords; lia). specialize (GP (y, x) Hin). cbn [fst snd] in GP. rewrite GP; [unfold v; cbn [fst snd]; rewrite EC; reflexivity|]. intros [y' x'] _ X Y. cbn [fst snd] in X, Y. subst. reflexivity.
Qed.

(** ** taps *)
Lemma taps_range f size ns out : 1 <= size -> 0 <= left_tap f size ns out /\ left_tap f size ns out < right_tap f size ns out /\ right_tap f size ns out <= size.
Proof.
  intros H. unfold right_tap. pose proof (clamp_range (f32_as i64_min i64_max (f32_floor (f32_sub (centre size ns out) (f32_mul (support f) (scale1 size ns))))) 0 (size - 1) ltac:(lia)) as A. fold (left_tap f size ns out) in A.
  pose proof (clamp_range (f32_as i64_min i64_max (f32_ceil (f32_add (centre size ns out) (f32_mul (support f) (scale1 size ns))))) (left_tap f size ns out + 1) size ltac:(lia)) as B. lia.
Qed.
Definition ntaps (f : filter) (size ns out : Z) : Z := right_tap f size ns out - left_tap f size ns out.
Lemma zlen_weights f size ns out : 1 <= size -> zlen (weights f size ns out) = ntaps f size ns out.
Proof. intros H. pose proof (taps_range f size ns out H). unfold weights, raw_weights. rewrite !zlen_map, zlen_zrange. unfold ntaps. lia. Qed.

(** a column (row) of source samples, as floats *)
Definition column (t : sty) (im : img (list Z)) (x lo n : Z) (i : nat) : list f32 := map (fun j => f32_of_Z (chan_at t im i (x, lo + j))) (zrange 0 n).
Lemma vertical_pixel_eq t k f im nh x y : img_ok t k im -> 1 <= ih im -> 0 <= x < iw im ->
  vertical_pixel t f im nh x y = Ok (map (fun i => dot (column t im x (left_tap f (ih im) nh y) (ntaps f (ih im) nh y) i) (weights f (ih im) nh y)) [0; 1; 2; 3]%nat).
Proof.
  intros HI HH HX. unfold vertical_pixel, zero4. set (ws := weights f (ih im) nh y). pose proof (zlen_weights f (ih im) nh y HH) as LW. fold ws in LW. pose proof (taps_range f (ih im) nh y HH) as TR.
  rewrite <- LW. set (g := fun i => p <- get_pixel im x (left_tap f (ih im) nh y + i) ;; Ok (floats4 t p)).
  rewrite (foldM_ext _ (fun st '(i, w) => p <- g i ;; Ok (acc4 st p w))).
  - rewrite (acc_loop g (fun i j => f32_of_Z (chan_at t im i (x, left_tap f (ih im) nh y + j))) ws 0); [reflexivity|]. intros j Hj. unfold ntaps in LW. unfold g. destruct (pixel_at t k im (x, left_tap f (ih im) nh y + j) HI) as (p & E1 & E2 & PP); [unfold inside; cbn [fst snd]; lia|]. cbn [fst snd] in E1, E2. rewrite E1. cbn [bind].
    destruct (channels4_ok t k p PP) as [C4 _]. unfold floats4. rewrite C4. unfold chan_at. cbn [fst snd map]. rewrite E2. reflexivity.
  - intros s [i w] _. unfold g. destruct (get_pixel im x (left_tap f (ih im) nh y + i)); reflexivity.
Qed.
(** a row of the intermediate image *)
Definition fchan (im : img (list f32)) (i : nat) (x y : Z) : f32 := match pixel im x y with Some p => nth i p f32_zero | None => f32_zero end.
Definition frow (im : img (list f32)) (y lo n : Z) (i : nat) : list f32 := map (fun j => fchan im i (lo + j) y) (zrange 0 n).
Definition four (im : img (list f32)) : Prop := wf im /\ forall x y, 0 <= x < iw im -> 0 <= y < ih im -> exists p, pixel im x y = Some p /\ length p = 4%nat.
Lemma horizontal_pixel_eq t f im nw x y : four im -> 1 <= iw im -> 0 <= y < ih im ->
  horizontal_pixel t f im nw x y = map_res (quantize t) (map (fun i => dot (frow im y (left_tap f (iw im) nw x) (ntaps f (iw im) nw x) i) (weights f (iw im) nw x)) [0; 1; 2; 3]%nat).
Proof.
  intros (W & H4) HW HY. unfold horizontal_pixel, zero4. set (ws := weights f (iw im) nw x). pose proof (zlen_weights f (iw im) nw x HW) as LW. fold ws in LW. pose proof (taps_range f (iw im) nw x HW) as TR.
  rewrite <- LW. set (g := fun i => get_pixel im (left_tap f (iw im) nw x + i) y).
  rewrite (acc_loop g (fun i j => fchan im i (left_tap f (iw im) nw x + j) y) ws 0); [reflexivity|]. intros j Hj. unfold ntaps in LW. unfold g, fchan. destruct (H4 (left_tap f (iw im) nw x + j) y ltac:(lia) HY) as (p & E & L). rewrite (proj2 (get_pixel_ok im _ _ p) E), E. f_equal. destruct p as [|a [|b [|c [|d [|]]]]]; try discriminate L. reflexivity.
Qed.
