(** C64: linear gradients. *)
From Coq Require Import ZArith Reals Psatz Bool Lia.
From Flocq Require Import Core IEEE754.BinarySingleNaN.
From Verif Require Import Base BaseLemmas ListLemmas Color ColorProofs Float FloatProofs ColorF ColorFProofs FastBlurProofs Gradient GradientProofs.
Local Open Scope Z_scope.

(** Specification.  At step i of n the sample v lies on the straight line from a to b, rounded down, up to a slack of smax / 2^21 (less than 1/30 of one 16-bit step);
    it never leaves the interval between the two ends, and the first and the last step are exactly the two end colours. *)
Definition line (a b i n : Z) : R := (IZR a + IZR (b - a) * (IZR i / IZR (n - 1)))%R.
Definition slack (t : sty) : R := (IZR (smax t) / 2097152)%R.
Definition on_line (t : sty) (a b i n v : Z) : Prop :=
  Z.min a b <= v <= Z.max a b /\ (i = 0 -> v = a) /\ (i = n - 1 -> v = b) /\ (line a b i n - 1 - slack t < IZR v <= line a b i n + slack t)%R.
(** the colours ramp of n steps from start to stop *)
Definition is_ramp (t : sty) (start stop : list Z) (n : Z) (ramp : Z -> list Z) : Prop :=
  (forall i, 0 <= i < n -> zlen (ramp i) = zlen start) /\
  (forall i c a b v, 0 <= i < n -> zget start c = Some a -> zget stop c = Some b -> zget (ramp i) c = Some v -> on_line t a b i n v) /\
  (forall i j c a b v w, 0 <= i <= j -> j < n -> zget start c = Some a -> zget stop c = Some b -> zget (ramp i) c = Some v -> zget (ramp j) c = Some w -> (a <= b -> v <= w) /\ (b <= a -> w <= v)).

Lemma zget_gpix start stop i n c a b v : zget start c = Some a -> zget stop c = Some b -> zget (gpix start stop i n) c = Some v -> v = Zfloor (pre a b (gratio i n)).
Proof.
  intros A B. unfold gpix. rewrite zget_map. destruct (zget (combine start stop) c) as [[a' b']|] eqn:C; [|discriminate]. apply zget_combine in C as (A' & B'). rewrite A in A'. rewrite B in B'. apply Some_inj in A'. apply Some_inj in B'. subst. cbn [option_map]. intros V. apply Some_inj in V. auto.
Qed.
Lemma gpix_ramp t start stop n : Forall (is_sample t) start -> Forall (is_sample t) stop -> zlen stop = zlen start -> 2 <= n <= u32_max -> is_ramp t start stop n (fun i => gpix start stop i n).
Proof.
  intros Ha Hb L Hn. rewrite Forall_forall in Ha, Hb. pose proof (smax_range t) as M. split; [|split].
  - intros i Hi. unfold gpix, zlen in *. rewrite map_length, combine_length. lia.
  - intros i c a b v Hi A B V. rewrite (zget_gpix _ _ _ _ _ _ _ _ A B V). clear V v. apply zget_In in A. apply zget_In in B. apply Ha in A. apply Hb in B.
    pose proof (ratio_01 i n ltac:(lia) Hi) as Q. destruct (lerp_ok t a b _ _ A B (ratio_isf i n Hn Hi) Q) as (_ & BD). unfold is_sample in A, B.
    split; [exact BD|]. split; [intros ->; rewrite ratio_0, pre_0 by lia; apply Zfloor_IZR|]. split; [intros ->; rewrite ratio_1, pre_1 by lia; apply Zfloor_IZR|].
    assert (X : (0 <= IZR i / IZR (n - 1) <= 1)%R) by (apply frac_01; lia).
    pose proof (pre_near a b _ _ (smax t) A B M Q X (ratio_near i n ltac:(lia) Hi)) as E. pose proof (Zfloor_lb (pre a b (gratio i n))). pose proof (Zfloor_ub (pre a b (gratio i n))).
    assert (SL : slack t = (8 * IZR (smax t) * uu)%R). { unfold slack, uu. change (2 ^ 24) with 16777216. lra. }
    rewrite SL. apply Rabs_le_inv in E. unfold line. lra.
  - intros i j c a b v w Hi Hj A B V W. rewrite (zget_gpix _ _ _ _ _ _ _ _ A B V), (zget_gpix _ _ _ _ _ _ _ _ A B W). pose proof (ratio_mono i j n ltac:(lia) Hi Hj).
    split; intros L'; apply Zfloor_le; [apply pre_up|apply pre_down]; assumption.
Qed.

(** vertical_gradient of an image at least two rows high: it cannot fail, keeps the size, and every row y is filled with one colour, the y-th of a ramp from start to stop *)
Theorem C64_vertical : forall t im start stop,
  wf im -> Forall (is_sample t) start -> Forall (is_sample t) stop -> zlen stop = zlen start -> 2 <= ih im <= u32_max ->
  exists im' ramp, vertical_gradient t im start stop = Ok im' /\ wf im' /\ iw im' = iw im /\ ih im' = ih im /\
    (forall x y, 0 <= x < iw im -> 0 <= y < ih im -> pixel im' x y = Some (ramp y)) /\ is_ramp t start stop (ih im) ramp.
Proof.
  intros t im start stop W A B L N. destruct (vertical_ok t im start stop W A B N) as (im' & E & W' & Ew & Eh & P). exists im', (fun i => gpix start stop i (ih im)).
  split; [exact E|]. split; [exact W'|]. split; [exact Ew|]. split; [exact Eh|]. split; [exact P|]. apply gpix_ramp; assumption.
Qed.
Theorem C64_horizontal : forall t im start stop,
  wf im -> Forall (is_sample t) start -> Forall (is_sample t) stop -> zlen stop = zlen start -> 2 <= iw im <= u32_max ->
  exists im' ramp, horizontal_gradient t im start stop = Ok im' /\ wf im' /\ iw im' = iw im /\ ih im' = ih im /\
    (forall x y, 0 <= x < iw im -> 0 <= y < ih im -> pixel im' x y = Some (ramp x)) /\ is_ramp t start stop (iw im) ramp.
Proof.
  intros t im start stop W A B L N. destruct (horizontal_ok t im start stop W A B N) as (im' & E & W' & Ew & Eh & P). exists im', (fun i => gpix start stop i (iw im)).
  split; [exact E|]. split; [exact W'|]. split; [exact Ew|]. split; [exact Eh|]. split; [exact P|]. apply gpix_ramp; assumption.
Qed.
(** an image with no rows (no columns) is left alone *)
Theorem C64_empty : forall t im start stop, (ih im = 0 -> vertical_gradient t im start stop = Ok im) /\ (iw im = 0 -> horizontal_gradient t im start stop = Ok im).
Proof. intros t im start stop. split; intros E; [unfold vertical_gradient|unfold horizontal_gradient]; rewrite E; reflexivity. Qed.

Lemma lerp_nan t a b : lerp t a b (f32_div (f32_of_Z 0) (f32_of_Z (1 - 1))) = Panic.
Proof.
  change (f32_div (f32_of_Z 0) (f32_of_Z (1 - 1))) with (@B754_nan 24 128). unfold lerp, cast. cbv zeta.
  assert (E : f32_add (f32_of_Z a) (f32_mul (f32_sub (f32_of_Z b) (f32_of_Z a)) B754_nan) = B754_nan) by (destruct (f32_sub (f32_of_Z b) (f32_of_Z a)), (f32_of_Z a); reflexivity).
  rewrite E. destruct (f32_of_Z (smax t)) as [[]|[]| |[]]; reflexivity.
Qed.
(** an image exactly one row high (one column wide) makes the call panic for every pair of colours with at least one channel: the interpolation ratio is 0/0 *)
Theorem C64_one_row_refuted : forall t im start stop, 1 <= zlen start -> 1 <= zlen stop ->
  (ih im = 1 -> vertical_gradient t im start stop = Panic) /\ (iw im = 1 -> horizontal_gradient t im start stop = Panic).
Proof.
  intros t im [|a start] [|b stop] L1 L2; try (rewrite zlen_nil in *; lia).
  assert (G : grad_pixel t (a :: start) (b :: stop) 0 1 = Panic) by (unfold grad_pixel; cbn [combine map_res]; rewrite lerp_nan; reflexivity).
  split; intros E; [unfold vertical_gradient|unfold horizontal_gradient]; rewrite E; change (zrange 0 1) with [0]; cbn [foldM]; rewrite G; reflexivity.
Qed.

(** a 2 x 3 image: black to (255, 10) *)
Definition im23 : img (list Z) := mkImg 2 3 (repeat [9; 9] 6).
Example C64_non_vacuous :
  (wf im23 /\ Forall (is_sample U8) [0; 10] /\ Forall (is_sample U8) [255; 5] /\ zlen [255; 5] = zlen [0; 10] /\ 2 <= ih im23 <= u32_max /\ 2 <= iw im23 <= u32_max) /\
  vertical_gradient U8 im23 [0; 10] [255; 5] = Ok (mkImg 2 3 [[0; 10]; [0; 10]; [127; 7]; [127; 7]; [255; 5]; [255; 5]]) /\
  horizontal_gradient U8 im23 [0; 10] [255; 5] = Ok (mkImg 2 3 [[0; 10]; [255; 5]; [0; 10]; [255; 5]; [0; 10]; [255; 5]]) /\
  vertical_gradient U8 (mkImg 1 1 [[9; 9]]) [0; 10] [255; 5] = Panic.
Proof.
  split; [|vm_compute; repeat split]. split; [vm_compute; intuition congruence|].
  split; [repeat constructor; vm_compute; congruence|]. split; [repeat constructor; vm_compute; congruence|]. vm_compute. intuition congruence.
Qed.
Definition c64_theorems := (C64_vertical, C64_horizontal, C64_empty, C64_one_row_refuted).
Print Assumptions c64_theorems.
