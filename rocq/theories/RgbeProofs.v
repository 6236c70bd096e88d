From Coq Require Import Reals Lra ZArith Lia Bool List.
From Flocq Require Import Core Mult_error IEEE754.BinarySingleNaN.
From Verif Require Import Base BaseLemmas GenImage Float FloatProofs ColorF ColorFProofs Thumb ThumbProofs Sample SampleProofs SampleProofs4 SampleProofs5 Interp InterpProofs Hdr Rgbe RgbeSpec.
Import ListNotations.
Local Open Scope Z_scope.

(** ** exact products *)
Lemma mul_exact x y r s : isf x r -> isf y s -> repr 24 128 (r * s) -> (Rabs (r * s) < bpow radix2 128)%R -> isf (f32_mul x y) (r * s).
Proof.
  intros (E1 & F1) (E2 & F2) R B. pose proof (Bmult_correct 24 128 f32_prec f32_emax mode_NE x y) as C. cbn [round_mode] in C. rewrite E1, E2 in C.
  pose proof (RN_repr 24 128 _ R) as Q. unfold RN in Q. change (round_mode mode_NE) with ZnearestE in *. rewrite Q in C. rewrite Rlt_bool_true in C by exact B.
  destruct C as (C & F & _). split; [exact C|]. unfold f32_mul. rewrite F, F1, F2. reflexivity.
Qed.
Lemma repr_F2R c q : Z.abs c < 2 ^ 24 -> -149 <= q -> repr 24 128 (IZR c * bpow radix2 q).
Proof. intros HC HQ. apply generic_format_FLT. exists (Float radix2 c q); [reflexivity|exact HC|exact HQ]. Qed.
Lemma repr_shift V n : repr 24 128 V -> (bpow radix2 (-126) <= Rabs (V * bpow radix2 n))%R -> repr 24 128 (V * bpow radix2 n).
Proof.
  intros R B. apply (mult_bpow_exact_FLT radix2 (-149) 24 V n R). assert (N : V <> 0%R). { intros ->. rewrite Rmult_0_l, Rabs_R0 in B. pose proof (bpow_gt_0 radix2 (-126)). lra. }
  pose proof (mag_mult_bpow radix2 V n N) as M. pose proof (mag_ge_bpow radix2 (V * bpow radix2 n) (-125) B) as G. rewrite M in G. lia.
Qed.

(** ** decoding *)
Lemma decode_chan lm c e : hdr_accurate lm -> 0 <= c <= 255 -> 1 <= e <= 255 ->
  isf (f32_mul (exp2_32 lm (f32_sub (f32_of_Z e) (f32_add (f32_of_Z 128) (f32_of_Z 8)))) (f32_of_Z c)) (IZR c * bpow radix2 (e - 136)).
Proof.
  intros A HC HE. assert (I136 : isf (f32_add (f32_of_Z 128) (f32_of_Z 8)) 136). { split; [|reflexivity]. unfold B2R. vm_compute (f32_add _ _). unfold F2R. cbn. lra. }
  assert (IE : isf (f32_sub (f32_of_Z e) (f32_add (f32_of_Z 128) (f32_of_Z 8))) (IZR (e - 136))).
  { destruct (of_Z_ok e ltac:(lia)) as (Q1 & Q2). pose proof (fs_sub _ _ _ _ (conj Q1 Q2) I136) as H. rewrite <- minus_IZR in H. rewrite RN_repr in H by (apply (repr_Z 24 128 f32_prec f32_emax); lia). apply H. rewrite <- abs_IZR. unfold B100. apply IZR_le. lia. }
  destruct IE as (IE & FE). destruct (exp2_exact lm A _ _ FE IE ltac:(lia)) as (F2 & E2). destruct (of_Z_ok c ltac:(lia)) as (C1 & C2).
  rewrite Rmult_comm. apply mul_exact; [split; assumption|split; assumption| |].
  - rewrite Rmult_comm. apply repr_F2R; lia.
  - rewrite Rabs_pos_eq by (apply Rmult_le_pos; [apply bpow_ge_0|apply IZR_le; lia]). apply Rlt_le_trans with (bpow radix2 (e - 136) * bpow radix2 8)%R.
    + apply Rmult_lt_compat_l; [apply bpow_gt_0|]. change (bpow radix2 8) with 256%R. apply IZR_lt. lia.
    + rewrite <- bpow_plus. apply bpow_le. lia.
Qed.
Lemma to_hdr_ok lm p : hdr_accurate lm -> rgbe_ok p -> exists a b c, to_hdr lm p = [a; b; c] /\ isf a (light (p0 p) (pe p)) /\ isf b (light (p1 p) (pe p)) /\ isf c (light (p2 p) (pe p)).
Proof.
  intros A (H0 & H1 & H2 & HE). unfold is_u8, u8_max in *. unfold to_hdr, light. destruct (pe p =? 0) eqn:E.
  - exists f32_zero, f32_zero, f32_zero. repeat split.
  - do 3 eexists. split; [reflexivity|]. split; [|split]; apply decode_chan; auto; lia.
Qed.

(** ** order of floats, infinities included *)
Definition ext (x : f32) : R := match x with B754_infinity false => bpow radix2 128 | B754_infinity true => (- bpow radix2 128)%R | _ => B2R x end.
Lemma ext_fin x : is_finite x = true -> ext x = B2R x. Proof. destruct x; intros; try discriminate; reflexivity. Qed.
Lemma fin_bound (x : f32) : (- bpow radix2 128 < B2R x < bpow radix2 128)%R.
Proof. pose proof (abs_B2R_lt_emax 24 128 x) as H. apply Rabs_lt_inv in H. exact H. Qed.
Lemma leb_ext x y : is_nan x = false -> is_nan y = false -> Bleb x y = Rle_bool (ext x) (ext y).
Proof.
  intros NX NY. destruct (is_finite x) eqn:FX, (is_finite y) eqn:FY.
  - rewrite (Bleb_correct _ _ x y FX FY), (ext_fin x FX), (ext_fin y FY). reflexivity.
  - pose proof (fin_bound x). rewrite (ext_fin x FX). destruct y as [s|[|]| |s mm e p]; try discriminate; cbn [ext].
    + rewrite Rle_bool_false by lra. destruct x as [sx|sx| |[|] ? ? ?]; try discriminate; reflexivity.
    + rewrite Rle_bool_true by lra. destruct x as [sx|sx| |[|] ? ? ?]; try discriminate; reflexivity.
  - pose proof (fin_bound y). rewrite (ext_fin y FY). destruct x as [s|[|]| |s mm e p]; try discriminate; cbn [ext].
    + rewrite Rle_bool_true by lra. destruct y as [sx|sx| |[|] ? ? ?]; try discriminate; reflexivity.
    + rewrite Rle_bool_false by lra. destruct y as [sx|sx| |[|] ? ? ?]; try discriminate; reflexivity.
  - pose proof (bpow_gt_0 radix2 128). destruct x as [|[|]| |], y as [|[|]| |]; try discriminate; cbn [ext]; try (rewrite Rle_bool_true by lra; reflexivity); rewrite Rle_bool_false by lra; reflexivity.
Qed.
Lemma ltb_ext x y : is_nan x = false -> is_nan y = false -> Bltb x y = Rlt_bool (ext x) (ext y).
Proof.
  intros NX NY. destruct (is_finite x) eqn:FX, (is_finite y) eqn:FY.
  - rewrite (Bltb_correct _ _ x y FX FY), (ext_fin x FX), (ext_fin y FY). reflexivity.
  - pose proof (fin_bound x). rewrite (ext_fin x FX). destruct y as [s|[|]| |s mm e p]; try discriminate; cbn [ext].
    + rewrite Rlt_bool_false by lra. destruct x as [sx|sx| |[|] ? ? ?]; try discriminate; reflexivity.
    + rewrite Rlt_bool_true by lra. destruct x as [sx|sx| |[|] ? ? ?]; try discriminate; reflexivity.
  - pose proof (fin_bound y). rewrite (ext_fin y FY). destruct x as [s|[|]| |s mm e p]; try discriminate; cbn [ext].
    + rewrite Rlt_bool_true by lra. destruct y as [sx|sx| |[|] ? ? ?]; try discriminate; reflexivity.
    + rewrite Rlt_bool_false by lra. destruct y as [sx|sx| |[|] ? ? ?]; try discriminate; reflexivity.
  - pose proof (bpow_gt_0 radix2 128). destruct x as [|[|]| |], y as [|[|]| |]; try discriminate; cbn [ext]; try (rewrite Rlt_bool_true by lra; reflexivity); rewrite Rlt_bool_false by lra; reflexivity.
Qed.
Lemma ext_inv (x m : f32) : is_nan x = false -> is_finite m = true -> ext x = B2R m -> isf x (B2R m).
Proof. intros NX FM E. pose proof (fin_bound m). destruct x as [|[|]| |]; try discriminate; cbn [ext] in E; try lra; split; auto. Qed.
Lemma nan_false_of (x : f32) : x <> B754_nan -> is_nan x = false. Proof. destruct x; intros H; try reflexivity. congruence. Qed.
Lemma nan_true_of (x : f32) : is_nan x = true -> x = B754_nan. Proof. destruct x; intros H; try discriminate. reflexivity. Qed.
(** f32::max *)
Lemma max_spec a b : (is_nan a = true /\ f32_max a b = b) \/ (is_nan b = true /\ f32_max a b = a) \/ (is_nan a = false /\ is_nan b = false /\ is_nan (f32_max a b) = false /\ ext (f32_max a b) = Rmax (ext a) (ext b)).
Proof.
  unfold f32_max. destruct (is_nan a) eqn:NA; [left; auto|]. destruct (is_nan b) eqn:NB; [right; left; auto|]. right. right. split; [reflexivity|]. split; [reflexivity|].
  unfold f32_lt. rewrite (ltb_ext a b NA NB). destruct (Rlt_bool_spec (ext a) (ext b)); (split; [assumption|]); [rewrite Rmax_right by lra|rewrite Rmax_left by lra]; reflexivity.
Qed.
(** the largest number among the components has an [ext] no smaller than that of any other *)
Lemma fin_nan (x : f32) : is_finite x = true -> is_nan x = false. Proof. destruct x; intros; try discriminate; reflexivity. Qed.
Lemma largest_max mx r g b : largest mx [r; g; b] -> isf (f32_max r (f32_max g b)) (B2R mx).
Proof.
  intros (HI & FM & HL). pose proof (fin_nan mx FM) as NM. assert (HL' : forall v, In v [r; g; b] -> is_nan v = true \/ (is_nan v = false /\ (ext v <= B2R mx)%R)).
  { intros v IV. destruct (is_nan v) eqn:NV; [left; reflexivity|right; split; [reflexivity|]]. destruct (HL v IV) as [->|L]; [discriminate|]. rewrite (leb_ext v mx NV NM), (ext_fin mx FM) in L. destruct (Rle_bool_spec (ext v) (B2R mx)); [assumption|discriminate]. }
  pose proof (HL' r ltac:(left; reflexivity)) as Lr. pose proof (HL' g ltac:(right; left; reflexivity)) as Lg. pose proof (HL' b ltac:(right; right; left; reflexivity)) as Lb. clear HL HL'.
  cut (is_nan (f32_max r (f32_max g b)) = false /\ ext (f32_max r (f32_max g b)) = B2R mx). { intros (N & E). apply ext_inv; assumption. }
  assert (Q : ext mx = B2R mx) by (apply ext_fin; exact FM).
  destruct (max_spec g b) as [(N & ->)|[(N & ->)|(Ng & Nb & Nm & E)]].
  - destruct (max_spec r b) as [(N' & ->)|[(N' & ->)|(Nr' & Nb' & Nm' & E')]].
    + destruct HI as [<-|[<-|[<-|[]]]]; try congruence. auto.
    + destruct HI as [<-|[<-|[<-|[]]]]; try congruence. auto.
    + split; [exact Nm'|]. rewrite E'. destruct Lr as [?|(_ & Lr)]; [congruence|]. destruct Lb as [?|(_ & Lb)]; [congruence|]. destruct HI as [<-|[<-|[<-|[]]]]; try congruence; rewrite Q; [apply Rmax_left|apply Rmax_right]; assumption.
  - destruct (max_spec r g) as [(N' & ->)|[(N' & ->)|(Nr' & Nb' & Nm' & E')]].
    + destruct HI as [<-|[<-|[<-|[]]]]; try congruence. auto.
    + destruct HI as [<-|[<-|[<-|[]]]]; try congruence. auto.
    + split; [exact Nm'|]. rewrite E'. destruct Lr as [?|(_ & Lr)]; [congruence|]. destruct Lg as [?|(_ & Lg)]; [congruence|]. destruct HI as [<-|[<-|[<-|[]]]]; try congruence; rewrite Q; [apply Rmax_left|apply Rmax_right]; assumption.
  - destruct Lb as [?|(_ & Lb)]; [congruence|]. destruct Lg as [?|(_ & Lg)]; [congruence|]. set (M := f32_max g b) in *. clearbody M.
    assert (EM : (ext M <= B2R mx)%R) by (rewrite E; apply Rmax_lub; assumption).
    assert (GE : (ext g <= ext M)%R) by (rewrite E; apply Rmax_l). assert (BE : (ext b <= ext M)%R) by (rewrite E; apply Rmax_r).
    destruct (max_spec r M) as [(N' & ->)|[(N' & ->)|(Nr' & Nb' & Nm' & E')]].
    + split; [exact Nm|]. destruct HI as [<-|[<-|[<-|[]]]]; try congruence; lra.
    + congruence.
    + split; [exact Nm'|]. rewrite E'. destruct Lr as [?|(_ & Lr)]; [congruence|]. pose proof (Rmax_l (ext r) (ext M)). pose proof (Rmax_r (ext r) (ext M)). pose proof (Rmax_lub (ext r) (ext M) _ Lr EM). destruct HI as [<-|[<-|[<-|[]]]]; lra.
Qed.
