(** Quantisation in f32 is division rounded to the nearest integer, halves away from zero. *)
From Coq Require Import ZArith Reals Lra Lia.
From Flocq Require Import IEEE754.BinarySingleNaN Core.Core.
From Verif Require Import Base Float FloatProofs GenImage Color Jpeg JpegSpec.
Local Open Scope Z_scope.

Lemma ZnearestA_pos m x : (0 <= x)%R -> (IZR m - / 2 <= x < IZR m + / 2)%R -> ZnearestA x = m.
Proof.
  intros P H. destruct (Rle_lt_or_eq_dec _ _ (proj1 H)) as [L|E].
  - apply Znearest_imp. apply Rabs_lt. lra.
  - assert (M : 1 <= m) by (apply le_IZR; assert (0 < IZR m)%R by lra; apply lt_IZR in H0; apply IZR_le; lia). assert (F : Zfloor x = m - 1) by (apply Zfloor_imp; rewrite plus_IZR, minus_IZR; lra).
    unfold Znearest. rewrite F. replace (x - IZR (m - 1))%R with (/ 2)%R by (rewrite minus_IZR; lra). rewrite Rcompare_Eq by reflexivity. replace (Zle_bool 0 (m - 1)) with true by (symmetry; apply Z.leb_le; lia). apply Zceil_imp. rewrite minus_IZR. lra.
Qed.
Lemma ZnearestA_neg m x : (x <= 0)%R -> (IZR m - / 2 < x <= IZR m + / 2)%R -> ZnearestA x = m.
Proof.
  intros P H. destruct (Rle_lt_or_eq_dec _ _ (proj2 H)) as [L|E].
  - apply Znearest_imp. apply Rabs_lt. lra.
  - assert (M : m <= -1) by (assert (IZR m < 0)%R by lra; apply lt_IZR in H0; lia). assert (F : Zfloor x = m) by (apply Zfloor_imp; rewrite plus_IZR; lra).
    unfold Znearest. rewrite F. replace (x - IZR m)%R with (/ 2)%R by lra. rewrite Rcompare_Eq by reflexivity. replace (Zle_bool 0 m) with false by (symmetry; apply Z.leb_gt; lia). reflexivity.
Qed.
Notation RN32 := (RN 24 128).
Lemma RN_div_round n q : Z.abs n <= 1024 -> 1 <= q <= 255 -> ZnearestA (RN32 (IZR n / IZR q)) = div_round n q.
Proof.
  assert (POS : forall n, 0 <= n <= 1024 -> 1 <= q <= 255 -> let m := (2 * n + q) / (2 * q) in 0 <= m <= 1024 /\ (0 <= RN32 (IZR n / IZR q))%R /\ (IZR m - / 2 <= RN32 (IZR n / IZR q) < IZR m + / 2)%R).
  { clear n. intros n Hn Hq m. assert (DM : 2 * q * m <= 2 * n + q < 2 * q * m + 2 * q). { unfold m. pose proof (Z.div_mod (2 * n + q) (2 * q) ltac:(lia)). pose proof (Z.mod_pos_bound (2 * n + q) (2 * q) ltac:(lia)). lia. }
    assert (M : 0 <= m <= 1024) by (clearbody m; nia). clearbody m.
    assert (Q : (1 <= IZR q <= 255)%R) by (split; apply IZR_le; lia). assert (N : (0 <= IZR n)%R) by (apply IZR_le; lia).
    assert (D1 : (2 * IZR q * IZR m <= 2 * IZR n + IZR q)%R) by (rewrite <- !mult_IZR, <- plus_IZR; apply IZR_le; lia).
    assert (D2 : (2 * IZR n + 1 <= 2 * IZR q * IZR m + IZR q)%R) by (rewrite <- !mult_IZR, <- !plus_IZR; apply IZR_le; lia).
    assert (T : (IZR n = IZR n / IZR q * IZR q)%R) by (field; lra). set (t := (IZR n / IZR q)%R) in *. clearbody t. split; [exact M|].
    assert (T0 : (0 <= t)%R) by (rewrite T in N; nra).
    split; [rewrite <- (RN_0 24 128); apply RN_le; [exact eq_refl|exact T0]|]. rewrite T in D1, D2. split.
    - apply RN_ge; [exact eq_refl| |nra]. replace (IZR m - / 2)%R with (IZR (2 * m - 1) / IZR (2 ^ 1))%R by (rewrite minus_IZR, mult_IZR; change (2 ^ 1) with 2; field). apply repr_dyadic; lia.
    - apply Rle_lt_trans with (IZR m + / 2 - / 512)%R; [|lra]. apply RN_le_r; [exact eq_refl| |nra].
      replace (IZR m + / 2 - / 512)%R with (IZR (512 * m + 255) / IZR (2 ^ 9))%R by (rewrite plus_IZR, mult_IZR; change (2 ^ 9) with 512; field). apply repr_dyadic; lia. }
  intros Hn Hq. destruct (Z.le_gt_cases 0 n).
  - destruct (POS n ltac:(lia) Hq) as (M & P & B). rewrite (ZnearestA_pos _ _ P B). unfold div_round. rewrite (Z.abs_eq n) by lia. destruct (Z.eq_dec n 0) as [->|]; [|rewrite Z.sgn_pos by lia; lia]. cbn [Z.sgn]. rewrite Z.div_small; lia.
  - destruct (POS (- n) ltac:(lia) Hq) as (M & P & B). rewrite opp_IZR in P, B. replace (- IZR n / IZR q)%R with (- (IZR n / IZR q))%R in P, B by (unfold Rdiv; ring). rewrite RN_opp in P, B.
    unfold div_round. rewrite Z.sgn_neg by lia. rewrite (Z.abs_neq n) by lia. set (m := (2 * - n + q) / (2 * q)) in *. clearbody m. apply ZnearestA_neg; [lra|]. rewrite mult_IZR. lra.
Qed.
Lemma div_round_abs n q : 1 <= q -> Z.abs (div_round n q) <= Z.abs n.
Proof.
  intros Hq. unfold div_round. rewrite Z.abs_mul. assert (0 <= (2 * Z.abs n + q) / (2 * q) <= Z.abs n \/ n = 0). { destruct (Z.eq_dec n 0); [auto|left]. split; [apply Z.div_pos; lia|]. apply Z.lt_succ_r. apply Z.div_lt_upper_bound; nia. }
  destruct H as [H| ->]; [|cbn; lia]. rewrite (Z.abs_eq (_ / _)) by lia. assert (Z.abs (Z.sgn n) <= 1) by (destruct n; cbn; lia). nia.
Qed.
Lemma quantize1_ok d q : Z.abs (Z.quot d 8) <= 1024 -> 1 <= q <= 255 -> quantize1 d q = div_round (Z.quot d 8) q.
Proof.
  intros Hn Hq. set (n := Z.quot d 8) in *. unfold quantize1. fold n. unfold f32_as, f32_round, f32_div, f32_of_Z.
  destruct (ofZ_ok 24 128 f32_prec f32_emax n ltac:(lia)) as (En & Fn). destruct (ofZ_ok 24 128 f32_prec f32_emax q ltac:(lia)) as (Eq & Fq). cbv zeta in *.
  assert (Q : (1 <= IZR q <= 255)%R) by (split; apply IZR_le; lia). assert (N : (Rabs (IZR n) <= 1024)%R) by (rewrite <- abs_IZR; apply IZR_le; lia).
  destruct (div_ok 24 128 f32_prec f32_emax (binary_normalize 24 128 _ _ mode_NE n 0 false) (binary_normalize 24 128 _ _ mode_NE q 0 false) 1024 Fn) as (Ed & Fd); [rewrite Eq; lra|lia| |].
  - rewrite En, Eq. unfold Rdiv. rewrite Rabs_mult, (Rabs_pos_eq (/ _)) by (left; apply Rinv_0_lt_compat; lra). apply Rle_trans with (Rabs (IZR n) * 1)%R; [|lra]. apply Rmult_le_compat_l; [apply Rabs_pos|]. rewrite <- Rinv_1. apply Rinv_le_contravar; lra.
  - destruct (round_ok 24 128 f32_emax (Bdiv mode_NE (binary_normalize 24 128 _ _ mode_NE n 0 false) (binary_normalize 24 128 _ _ mode_NE q 0 false))) as (Er & Fr). rewrite Fd in Fr. rewrite Ed, En, Eq in Er.
    rewrite (as_ok 24 128 _ _ _ _ Fr), Er, Ztrunc_IZR. rewrite RN_div_round by assumption.
    assert (B : Z.abs (div_round n q) <= Z.abs n).
    { apply div_round_abs. lia. }
    unfold clampz, i32_min, i32_max. lia.
Qed.
