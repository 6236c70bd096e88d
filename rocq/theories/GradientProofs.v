(** Facts about the gradients. *)
From Coq Require Import ZArith Reals Psatz Bool Lia.
From Flocq Require Import Core IEEE754.BinarySingleNaN.
From Verif Require Import Base BaseLemmas ListLemmas Color ColorProofs Float FloatProofs ColorF ColorFProofs Thumb ThumbProofs ThumbProofs2 Sample SampleProofs SampleProofs5 InterpProofs Filter3Proofs Gradient.
Local Open Scope Z_scope.

(** the f32 gratio of step i of n *)
Definition gratio (i n : Z) : R := RN32 (RN32 (IZR i) / RN32 (IZR (n - 1))).
Lemma RN_Z_ge1 n : 1 <= n -> (1 <= RN32 (IZR n))%R.
Proof. intros H. apply RN_ge; [exact f32_prec|apply (repr_Z 24 128 f32_prec f32_emax 1); reflexivity|apply (IZR_le 1); lia]. Qed.
Lemma quot_01 i n : 2 <= n -> 0 <= i < n -> (0 <= RN32 (IZR i) / RN32 (IZR (n - 1)) <= 1)%R.
Proof.
  intros Hn Hi. pose proof (RN_Z_ge1 (n - 1) ltac:(lia)) as D. assert (0 <= RN32 (IZR i))%R by (apply RN_nonneg, IZR_le; lia).
  assert (RN32 (IZR i) <= RN32 (IZR (n - 1)))%R by (apply RN_le; [exact f32_prec|apply IZR_le; lia]).
  split; [apply Rmult_le_pos; [lra|]; apply Rlt_le, Rinv_0_lt_compat; lra|]. apply Rmult_le_reg_r with (RN32 (IZR (n - 1))); [lra|]. unfold Rdiv. rewrite Rmult_assoc, Rinv_l by lra. lra.
Qed.
Lemma ratio_01 i n : 2 <= n -> 0 <= i < n -> (0 <= gratio i n <= 1)%R.
Proof. intros. apply RN_01, quot_01; assumption. Qed.
Lemma ratio_isf i n : 2 <= n <= u32_max -> 0 <= i < n -> isf (f32_div (f32_of_Z i) (f32_of_Z (n - 1))) (gratio i n).
Proof.
  intros Hn Hi. pose proof (quot_01 i n ltac:(lia) Hi) as Q. pose proof (RN_Z_ge1 (n - 1) ltac:(lia)). apply fb_div; [apply fb_ofZ; lia|apply fb_ofZ; lia|lra|].
  assert (1 <= B100)%R by (unfold B100; apply IZR_le; lia). lra.
Qed.
Lemma ratio_mono i j n : 2 <= n -> 0 <= i <= j -> j < n -> (gratio i n <= gratio j n)%R.
Proof.
  intros Hn Hi Hj. pose proof (RN_Z_ge1 (n - 1) ltac:(lia)). apply RN_le; [exact f32_prec|]. apply Rmult_le_compat_r; [apply Rlt_le, Rinv_0_lt_compat; lra|]. apply RN_le; [exact f32_prec|apply IZR_le; lia].
Qed.
Lemma ratio_0 n : gratio 0 n = 0%R.
Proof. unfold gratio. rewrite RN_0. unfold Rdiv. rewrite Rmult_0_l. apply RN_0. Qed.
Lemma ratio_1 n : 2 <= n -> gratio (n - 1) n = 1%R.
Proof. intros. unfold gratio. pose proof (RN_Z_ge1 (n - 1) ltac:(lia)). unfold Rdiv. rewrite Rinv_r by lra. apply RN_repr. apply (repr_Z 24 128 f32_prec f32_emax 1). reflexivity. Qed.
Lemma ratio_near i n : 2 <= n -> 0 <= i < n -> (Rabs (gratio i n - IZR i / IZR (n - 1)) <= 4 * uu)%R.
Proof.
  intros Hn Hi. pose proof uu_val as (U0 & U1). pose proof (quot_01 i n Hn Hi) as Q.
  assert (Hbig : forall k, 0 <= k -> big 100 (IZR k)). { intros k Hk. unfold big. destruct (Z.eq_dec k 0) as [->|N]; [left; reflexivity|right]. apply Rle_trans with 1%R; [|apply (IZR_le 1); lia]. replace 1%R with (/ 1)%R by lra. apply Rinv_le_contravar; [lra|]. apply (IZR_le 1). lia. }
  pose proof (RN_rel (IZR i) (Hbig i ltac:(lia))) as Ei. pose proof (RN_rel (IZR (n - 1)) (Hbig (n - 1) ltac:(lia))) as En.
  assert (I0 : (0 <= IZR i)%R) by (apply IZR_le; lia). assert (N1 : (1 <= IZR (n - 1))%R) by (apply (IZR_le 1); lia). assert (IN : (IZR i <= IZR (n - 1))%R) by (apply IZR_le; lia).
  pose proof (RN_Z_ge1 (n - 1) ltac:(lia)) as D.
  set (x := RN32 (IZR i)) in *. set (y := RN32 (IZR (n - 1))) in *. set (a := IZR i) in *. set (b := IZR (n - 1)) in *.
  assert (Eq : (Rabs (x / y - a / b) <= 2 * uu)%R).
  { replace (x / y - a / b)%R with (((x - a) - (x / y) * (y - b)) / b)%R by (field; lra).
    unfold Rdiv at 1. rewrite Rabs_mult, (Rabs_pos_eq (/ b)) by (apply Rlt_le, Rinv_0_lt_compat; lra).
    apply Rmult_le_reg_r with b; [lra|]. rewrite Rmult_assoc, Rinv_l, Rmult_1_r by lra.
    apply Rabs_le_inv in Ei. apply Rabs_le_inv in En.
    assert (Hp : (Rabs (x / y * (y - b)) <= uu * b)%R). { rewrite Rabs_mult, (Rabs_pos_eq (x / y)) by lra. apply Rle_trans with (1 * Rabs (y - b))%R; [apply Rmult_le_compat_r; [apply Rabs_pos|lra]|]. rewrite Rmult_1_l. apply Rabs_le. lra. }
    apply Rabs_le_inv in Hp. apply Rabs_le. assert (uu * a <= uu * b)%R by (apply Rmult_le_compat_l; lra). lra. }
  pose proof (RN_aes (x / y)) as Er. rewrite (Rabs_pos_eq (x / y)) in Er by lra. pose proof eta_val as (T0 & T1).
  assert (E1 : (eta <= uu)%R). { apply Rle_trans with (eta * IZR (2 ^ 32))%R; [|lra]. rewrite <- (Rmult_1_r eta) at 1. apply Rmult_le_compat_l; [lra|]. apply (IZR_le 1). lia. }
  assert (uu * (x / y) <= uu)%R by (rewrite <- (Rmult_1_r uu) at 2; apply Rmult_le_compat_l; lra).
  unfold gratio. fold a b x y. apply Rabs_le_inv in Er. apply Rabs_le_inv in Eq. apply Rabs_le. lra.
Qed.

(** one sample: the f32 value before truncation *)
Definition pre (a b : Z) (q : R) : R := RN32 (IZR a + RN32 (IZR (b - a) * q)).
Lemma pre_bounds a b q : 0 <= a <= 65535 -> 0 <= b <= 65535 -> (0 <= q <= 1)%R -> (IZR (Z.min a b) <= pre a b q <= IZR (Z.max a b))%R.
Proof.
  intros Ha Hb Hq. unfold pre.
  assert (RD : RN32 (IZR (b - a)) = IZR (b - a)) by (apply RN_int_signed; lia).
  assert (RA : RN32 (IZR (Z.min a b)) = IZR (Z.min a b)) by (apply RN_int; lia). assert (RB : RN32 (IZR (Z.max a b)) = IZR (Z.max a b)) by (apply RN_int; lia).
  destruct (Z.le_ge_cases a b) as [L|L].
  - rewrite Z.min_l, Z.max_r in * by lia. assert (D0 : (0 <= IZR (b - a))%R) by (apply IZR_le; lia). assert (P : (0 <= RN32 (IZR (b - a) * q) <= IZR (b - a))%R).
    { split; [apply RN_nonneg; apply Rmult_le_pos; lra|]. rewrite <- RD at 2. apply RN_le; [exact f32_prec|]. rewrite <- (Rmult_1_r (IZR (b - a))) at 2. apply Rmult_le_compat_l; lra. }
    rewrite minus_IZR in *. split; [rewrite <- RA at 1|rewrite <- RB at 2]; apply RN_le; try exact f32_prec; lra.
  - rewrite Z.min_r, Z.max_l in * by lia. assert (D0 : (IZR (b - a) <= 0)%R) by (apply IZR_le; lia). assert (P : (IZR (b - a) <= RN32 (IZR (b - a) * q) <= 0)%R).
    { split; [rewrite <- RD at 1|rewrite <- (RN_0 24 128)]; apply RN_le; try exact f32_prec; nra. }
    rewrite minus_IZR in *. split; [rewrite <- RA at 1|rewrite <- RB at 3]; apply RN_le; try exact f32_prec; lra.
Qed.
Lemma pre_0 a b : 0 <= a <= 65535 -> pre a b 0 = IZR a.
Proof. intros Ha. unfold pre. rewrite Rmult_0_r, RN_0, Rplus_0_r. apply RN_int. lia. Qed.
Lemma pre_1 a b : 0 <= a <= 65535 -> 0 <= b <= 65535 -> pre a b 1 = IZR b.
Proof. intros Ha Hb. unfold pre. rewrite Rmult_1_r, RN_int_signed by lia. rewrite <- plus_IZR. replace (a + (b - a)) with b by lia. apply RN_int. lia. Qed.
Lemma pre_up a b q r : a <= b -> (q <= r)%R -> (pre a b q <= pre a b r)%R.
Proof.
  intros L Q. apply RN_le; [exact f32_prec|]. apply Rplus_le_compat_l. apply RN_le; [exact f32_prec|]. apply Rmult_le_compat_l; [apply IZR_le; lia|exact Q].
Qed.
Lemma pre_down a b q r : b <= a -> (q <= r)%R -> (pre a b r <= pre a b q)%R.
Proof.
  intros L Q. apply RN_le; [exact f32_prec|]. apply Rplus_le_compat_l. apply RN_le; [exact f32_prec|]. assert (IZR (b - a) <= 0)%R by (apply IZR_le; lia). nra.
Qed.
Lemma pre_near a b q x M : 0 <= a <= M -> 0 <= b <= M -> 1 <= M <= 65535 -> (0 <= q <= 1)%R -> (0 <= x <= 1)%R -> (Rabs (q - x) <= 4 * uu)%R -> (Rabs (pre a b q - (IZR a + IZR (b - a) * x)) <= 8 * IZR M * uu)%R.
Proof.
  intros Ha Hb HM Hq Hx Hd. unfold pre. pose proof uu_val as (U0 & U1). pose proof eta_val as (T0 & T1).
  assert (E1 : (eta <= uu / 1000)%R). { apply Rle_trans with (eta * IZR (2 ^ 32))%R; [|lra]. rewrite <- (Rmult_1_r eta) at 1. apply Rmult_le_compat_l; [lra|]. apply (IZR_le 1). lia. }
  assert (A : (0 <= IZR a <= IZR M)%R) by (split; apply IZR_le; lia). assert (B : (0 <= IZR b <= IZR M)%R) by (split; apply IZR_le; lia). assert (M1 : (1 <= IZR M)%R) by (apply (IZR_le 1); lia). assert (M2 : (IZR M <= 65535)%R) by (apply IZR_le; lia).
  rewrite minus_IZR. set (fa := IZR a) in *. set (fb := IZR b) in *. set (m := IZR M) in *. clearbody fa fb m.
  assert (D : (Rabs (fb - fa) <= m)%R) by (apply Rabs_le; lra).
  assert (Q : (Rabs ((fb - fa) * q) <= m)%R). { rewrite Rabs_mult. rewrite <- (Rmult_1_r m). apply Rmult_le_compat; [apply Rabs_pos|apply Rabs_pos|exact D|apply Rabs_le; lra]. }
  pose proof (RN_aes ((fb - fa) * q)) as E. set (p := RN32 ((fb - fa) * q)) in *.
  assert (UM : (uu * Rabs ((fb - fa) * q) <= uu * m)%R) by (apply Rmult_le_compat_l; lra).
  assert (UM1 : (uu <= uu * m)%R) by (rewrite <- (Rmult_1_r uu) at 1; apply Rmult_le_compat_l; lra).
  assert (UM2 : (uu * m <= / 200)%R). { apply Rle_trans with (/ 16700000 * 65535)%R; [apply Rmult_le_compat; lra|lra]. }
  assert (P : (Rabs (fa + p) <= m + 2 * (uu * m))%R).
  { replace (fa + p)%R with ((fa + (fb - fa) * q) + (p - (fb - fa) * q))%R by lra. eapply Rle_trans; [apply Rabs_triang|]. assert (Rabs (fa + (fb - fa) * q) <= m)%R by (apply Rabs_le; split; nra). lra. }
  pose proof (RN_aes (fa + p)) as F. assert (uu * Rabs (fa + p) <= uu * (m + 2 * (uu * m)))%R by (apply Rmult_le_compat_l; lra).
  assert (uu * (m + 2 * (uu * m)) <= uu * m + / 100 * uu)%R by nra.
  assert (X : (Rabs ((fb - fa) * (q - x)) <= 4 * (uu * m))%R). { rewrite Rabs_mult. replace (4 * (uu * m))%R with (m * (4 * uu))%R by ring. apply Rmult_le_compat; [apply Rabs_pos|apply Rabs_pos|exact D|exact Hd]. }
  replace (RN32 (fa + p) - (fa + (fb - fa) * x))%R with ((RN32 (fa + p) - (fa + p)) + (p - (fb - fa) * q) + (fb - fa) * (q - x))%R by ring.
  apply Rabs_le_inv in E. apply Rabs_le_inv in F. apply Rabs_le_inv in X. apply Rabs_le. nra.
Qed.
Lemma lerp_ok t a b r q : is_sample t a -> is_sample t b -> isf r q -> (0 <= q <= 1)%R -> lerp t a b r = Ok (Zfloor (pre a b q)) /\ Z.min a b <= Zfloor (pre a b q) <= Z.max a b.
Proof.
  intros Ha Hb Hr Hq. pose proof (smax_range t) as M. unfold is_sample in *. pose proof (pre_bounds a b q ltac:(lia) ltac:(lia) Hq) as P.
  assert (FL : Z.min a b <= Zfloor (pre a b q) <= Z.max a b). { split; [apply Zfloor_lub; lra|]. apply le_IZR. apply Rle_trans with (pre a b q); [apply Zfloor_lb|lra]. }
  split; [|exact FL].
  pose proof (int_ok a ltac:(lia)) as Ia. pose proof (int_ok b ltac:(lia)) as Ib. pose proof (int_ok (smax t) ltac:(lia)) as IM.
  assert (S1 : isf (f32_sub (f32_of_Z b) (f32_of_Z a)) (IZR (b - a))). { rewrite <- (RN_int_signed (b - a) ltac:(lia)). rewrite minus_IZR. apply fs_sub; [exact Ib|exact Ia|]. rewrite <- minus_IZR. apply abs_B100. lia. }
  assert (BB : (200000 <= B100)%R) by (unfold B100; apply IZR_le; lia).
  assert (AD : (-65535 <= IZR (b - a) <= 65535)%R) by (split; apply IZR_le; lia).
  assert (S2 : isf (f32_mul (f32_sub (f32_of_Z b) (f32_of_Z a)) r) (RN32 (IZR (b - a) * q))). { apply fs_mul; [exact S1|exact Hr|]. apply Rabs_le. nra. }
  assert (RB : (-65535 <= RN32 (IZR (b - a) * q) <= 65535)%R).
  { change (-65535)%R with (IZR (-65535)). split; [rewrite <- (RN_int_signed (-65535) ltac:(lia))|rewrite <- (RN_int 65535 ltac:(lia))]; apply RN_le; try exact f32_prec; nra. }
  assert (AA : (0 <= IZR a <= 65535)%R) by (split; apply IZR_le; lia).
  assert (S3 : isf (f32_add (f32_of_Z a) (f32_mul (f32_sub (f32_of_Z b) (f32_of_Z a)) r)) (pre a b q)). { apply fs_add; [exact Ia|exact S2|]. apply Rabs_le. lra. }
  assert (Pm : (0 <= pre a b q <= IZR (smax t))%R). { split; [apply Rle_trans with (IZR (Z.min a b)); [apply IZR_le; lia|lra]|apply Rle_trans with (IZR (Z.max a b)); [lra|apply IZR_le; lia]]. }
  unfold lerp. cbv zeta. rewrite (lt_ok _ _ _ _ IM S3), Rlt_bool_false by lra. rewrite (lt_ok _ _ _ _ S3 zero_ok), Rlt_bool_false by lra.
  unfold cast. destruct S3 as (E & F). rewrite (cast_ok 24 128 f32_emax) by exact F. cbv zeta. rewrite E, Ztrunc_floor by lra.
  replace (0 <=? Zfloor (pre a b q)) with true by (symmetry; apply Z.leb_le; lia). replace (Zfloor (pre a b q) <=? smax t) with true by (symmetry; apply Z.leb_le; lia). reflexivity.
Qed.

(** one pixel *)
Definition gpix (start stop : list Z) (i n : Z) : list Z := map (fun '(a, b) => Zfloor (pre a b (gratio i n))) (combine start stop).
Lemma grad_pixel_ok t start stop i n : Forall (is_sample t) start -> Forall (is_sample t) stop -> 2 <= n <= u32_max -> 0 <= i < n -> grad_pixel t start stop i n = Ok (gpix start stop i n).
Proof.
  intros Ha Hb Hn Hi. apply map_res_ok. intros (a, b) H. rewrite Forall_forall in Ha, Hb.
  apply (lerp_ok t a b _ (gratio i n) (Ha a (in_combine_l _ _ _ _ H)) (Hb b (in_combine_r _ _ _ _ H)) (ratio_isf i n Hn Hi) (ratio_01 i n ltac:(lia) Hi)).
Qed.
Lemma vertical_ok t im start stop : wf im -> Forall (is_sample t) start -> Forall (is_sample t) stop -> 2 <= ih im <= u32_max ->
  exists im', vertical_gradient t im start stop = Ok im' /\ wf im' /\ iw im' = iw im /\ ih im' = ih im /\ forall x y, 0 <= x < iw im -> 0 <= y < ih im -> pixel im' x y = Some (gpix start stop y (ih im)).
Proof.
  intros W Ha Hb Hn. set (h := ih im) in *.
  destruct (put_loop (fun c : Z * Z => fst c) (fun c => snd c) (fun c => gpix start stop (snd c) h) (coords (iw im) h) im W) as (im' & E & W' & Ew & Eh & _ & P).
  { intros (x, y) H. apply In_coords in H. exact H. }
  exists im'. split.
  - rewrite <- E. rewrite <- (for2_coords (iw im) h (fun s x y => put_pixel s x y (gpix start stop y h))). unfold vertical_gradient, for2. apply foldM_ext. intros s y Hy. apply In_zrange in Hy. rewrite grad_pixel_ok with (1 := Ha) (2 := Hb) by (fold h; lia). reflexivity.
  - split; [exact W'|]. split; [exact Ew|]. split; [exact Eh|]. intros x y Hx Hy. apply (P (x, y)); [apply In_coords; split; assumption|]. intros (x', y') _ _ EY. cbn [fst snd] in *. rewrite EY. reflexivity.
Qed.
Lemma horizontal_ok t im start stop : wf im -> Forall (is_sample t) start -> Forall (is_sample t) stop -> 2 <= iw im <= u32_max ->
  exists im', horizontal_gradient t im start stop = Ok im' /\ wf im' /\ iw im' = iw im /\ ih im' = ih im /\ forall x y, 0 <= x < iw im -> 0 <= y < ih im -> pixel im' x y = Some (gpix start stop x (iw im)).
Proof.
  intros W Ha Hb Hn. set (w := iw im) in *.
  destruct (put_loop (fun c : Z * Z => snd c) (fun c => fst c) (fun c => gpix start stop (snd c) w) (coords (ih im) w) im W) as (im' & E & W' & Ew & Eh & _ & P).
  { intros (y, x) H. apply In_coords in H. cbn [fst snd]. fold w. tauto. }
  exists im'. split.
  - rewrite <- E. rewrite <- (for2_coords (ih im) w (fun s y x => put_pixel s x y (gpix start stop x w))). unfold horizontal_gradient, for2. apply foldM_ext. intros s x Hx. apply In_zrange in Hx. rewrite grad_pixel_ok with (1 := Ha) (2 := Hb) by (fold w; lia). reflexivity.
  - split; [exact W'|]. split; [exact Ew|]. split; [exact Eh|]. intros x y Hx Hy. apply (P (y, x)); [apply In_coords; split; assumption|]. intros (y', x') _ EX _. cbn [fst snd] in *. rewrite EX. reflexivity.
Qed.
