(** The rescaling of PNM samples (decoder.rs:657-674) in binary32 arithmetic. *)
From Coq Require Import ZArith Reals Lra Lia.
From Flocq Require Import IEEE754.BinarySingleNaN Core.Core.
From Verif Require Import Base BaseLemmas Float FloatProofs JpegQuant ColorF ColorFProofs Pnm.
Local Open Scope Z_scope.

Lemma scale_val T c v : 1 <= T <= 65535 -> 1 <= c <= T -> 0 <= v <= c ->
  exists p : R, scale T c v = clampz 0 T (ZnearestA p) /\ p = RN32 (IZR v * RN32 (IZR T / IZR c)) /\
    near 4 p (IZR v * IZR T / IZR c) (IZR v * IZR T / IZR c).
Proof.
  intros HT Hc Hv. destruct uu_val as [U0 U1].
  assert (C1 : (1 <= IZR c)%R) by (apply IZR_le; lia). assert (T1 : (1 <= IZR T <= 65535)%R) by (split; apply IZR_le; lia).
  assert (CT : (IZR c <= IZR T)%R) by (apply IZR_le; lia). assert (V1 : (0 <= IZR v <= IZR c)%R) by (split; apply IZR_le; lia).
  assert (Q : (1 <= IZR T / IZR c <= 65535)%R).
  { split; [apply Rmult_le_reg_r with (IZR c); [lra|]; unfold Rdiv; rewrite Rmult_assoc, Rinv_l by lra; lra|].
    apply Rmult_le_reg_r with (IZR c); [lra|]; unfold Rdiv; rewrite Rmult_assoc, Rinv_l by lra. nra. }
  assert (X : (IZR v * IZR T / IZR c = IZR v * (IZR T / IZR c))%R) by (unfold Rdiv; ring). rewrite X.
  assert (EQ : (IZR T / IZR c * IZR c = IZR T)%R) by (field; lra).
  pose proof (of_Z_ok T ltac:(lia)) as IT. pose proof (of_Z_ok c ltac:(lia)) as IC. pose proof (of_Z_ok v ltac:(lia)) as IV.
  assert (N0 : IZR c <> 0%R) by lra.
  pose proof (isf_div _ _ _ _ IT IC N0 ltac:(lra)) as IF. set (q := (IZR T / IZR c)%R) in *. clearbody q.
  assert (Bq : big 100 q) by (right; apply Rle_trans with 1%R; [|lra]; rewrite <- Rinv_1; apply Rinv_le_contravar; [lra|apply IZR_le; lia]).
  pose proof (near_RN q Bq) as NF. set (f := RN32 q) in *. assert (F1 : (1 <= f <= 65535)%R).
  { unfold f. split; [apply RN_ge; [exact eq_refl|apply (repr_Z 24 128 f32_prec f32_emax 1); lia|lra]|apply RN_le_r; [exact eq_refl|apply (repr_Z 24 128 f32_prec f32_emax 65535); lia|lra]]. }
  clearbody f. assert (NF' := NF). apply near_iff in NF'.
  assert (PB : (0 <= IZR v * f <= 131070)%R).
  { split; [nra|]. assert (f <= 2 * q)%R. { assert (1 * uu * q <= 1 * q)%R by (apply Rmult_le_compat_r; lra). lra. } apply Rle_trans with (IZR c * (2 * q))%R; [apply Rmult_le_compat; lra|]. lra. }
  pose proof (isf_mul _ _ _ _ IV IF PB) as IP.
  destruct IP as (EP & FP). destruct (round_ok 24 128 f32_emax (f32_mul (f32_of_Z v) (f32_div (f32_of_Z T) (f32_of_Z c)))) as (ER & FR).
  exists (RN32 (IZR v * f)). split.
  - unfold scale, f32_as. rewrite (as_ok 24 128 f32_emax). { unfold f32_round. rewrite ER, EP, Ztrunc_IZR. reflexivity. } unfold f32_round. rewrite FR. exact FP.
  - split; [reflexivity|]. assert (NV : near 0 (IZR v) (IZR v) (IZR v)) by (apply near_iff; lra).
    pose proof (near_mul 0 1 (IZR v) (IZR v) f q ltac:(lra) ltac:(lra) ltac:(lra) ltac:(lra) NV NF) as NP.
    replace (0 + 1 + 1)%R with 2%R in NP by ring. replace 4%R with (2 + 2)%R by ring. apply near_RN_rel; [lra|nra| |exact NP].
    destruct (Z.eq_dec v 0) as [->|NZ]; [left; ring|]. right. apply Rle_trans with 1%R; [rewrite <- Rinv_1; apply Rinv_le_contravar; [lra|apply IZR_le; lia]|]. assert (1 <= IZR v)%R by (apply IZR_le; lia). nra.
Qed.

Lemma scale_close T c v : 1 <= T <= 65535 -> 1 <= c <= T -> 0 <= v <= c ->
  let o := scale T c v in 0 <= o <= T /\ (Rabs (IZR o - IZR v * IZR T / IZR c) <= / 2 + 4 * uu * IZR T)%R.
Proof.
  intros HT Hc Hv. destruct (scale_val T c v HT Hc Hv) as (p & E & _ & N). cbv zeta. rewrite E. clear E. destruct uu_val as [U0 U1].
  assert (C1 : (1 <= IZR c)%R) by (apply IZR_le; lia). assert (T1 : (1 <= IZR T <= 65535)%R) by (split; apply IZR_le; lia).
  assert (V1 : (0 <= IZR v <= IZR c)%R) by (split; apply IZR_le; lia).
  assert (XB : (0 <= IZR v * IZR T / IZR c <= IZR T)%R).
  { split; [apply Rmult_le_pos; [nra|left; apply Rinv_0_lt_compat; lra]|]. apply Rmult_le_reg_r with (IZR c); [lra|]; unfold Rdiv; rewrite Rmult_assoc, Rinv_l by lra. nra. }
  set (x := (IZR v * IZR T / IZR c)%R) in *. clearbody x. apply near_iff in N.
  assert (D : (4 * uu * x <= 4 * uu * IZR T)%R) by (apply Rmult_le_compat_l; lra).
  assert (DT : (4 * uu * IZR T <= / 60)%R). { apply Rle_trans with (4 * / 16700000 * 65535)%R; [|lra]. apply Rmult_le_compat; lra. }
  pose proof (Znearest_half (Zle_bool 0) p) as H. apply Rabs_le_inv in H. set (z := Znearest (Zle_bool 0) p) in *.
  change (ZnearestA p) with z. clearbody z. assert (Z0 : 0 <= z).
  { apply Z.lt_succ_r. apply lt_IZR. unfold Z.succ. rewrite plus_IZR. lra. }
  assert (ZT : z <= T). { apply Z.lt_succ_r. apply lt_IZR. unfold Z.succ. rewrite plus_IZR. lra. }
  replace (clampz 0 T z) with z by (unfold clampz; lia). split; [lia|]. apply Rabs_le. lra.
Qed.

Lemma scale_near8 c v : 1 <= c <= 255 -> 0 <= v <= c -> let o := scale 255 c v in 0 <= o <= 255 /\ Z.abs (o * c - v * 255) * 2 <= c.
Proof.
  intros Hc Hv. destruct (scale_close 255 c v ltac:(lia) Hc Hv) as (B & E). cbv zeta in *. split; [exact B|]. set (o := scale 255 c v) in *. clearbody o.
  destruct uu_val as [U0 U1]. apply Rabs_le_inv in E. assert (C1 : (1 <= IZR c <= 255)%R) by (split; apply IZR_le; lia).
  assert (EQ : (IZR v * IZR 255 / IZR c * IZR c = IZR v * IZR 255)%R) by (field; lra). set (x := (IZR v * IZR 255 / IZR c)%R) in *. clearbody x.
  assert (E4 : (4 * uu * 255 <= / 2000)%R) by lra.
  assert (P1 : ((IZR o - x) * IZR c <= (/ 2 + / 2000) * IZR c)%R) by (apply Rmult_le_compat_r; lra).
  assert (P2 : ((x - IZR o) * IZR c <= (/ 2 + / 2000) * IZR c)%R) by (apply Rmult_le_compat_r; lra).
  assert (A1 : 2 * (o * c - v * 255) <= c). { apply Z.lt_succ_r. apply lt_IZR. unfold Z.succ. rewrite plus_IZR, mult_IZR, minus_IZR, !mult_IZR. lra. }
  assert (A2 : 2 * (v * 255 - o * c) <= c). { apply Z.lt_succ_r. apply lt_IZR. unfold Z.succ. rewrite plus_IZR, mult_IZR, minus_IZR, !mult_IZR. lra. }
  lia.
Qed.
Lemma scale_near16 c v : 1 <= c <= 65535 -> 0 <= v <= c -> let o := scale 65535 c v in 0 <= o <= 65535 /\ Z.abs (o * c - v * 65535) * 64 <= 33 * c.
Proof.
  intros Hc Hv. destruct (scale_close 65535 c v ltac:(lia) Hc Hv) as (B & E). cbv zeta in *. split; [exact B|]. set (o := scale 65535 c v) in *. clearbody o.
  apply Rabs_le_inv in E. assert (C1 : (1 <= IZR c <= 65535)%R) by (split; apply IZR_le; lia).
  assert (EQ : (IZR v * IZR 65535 / IZR c * IZR c = IZR v * IZR 65535)%R) by (field; lra). set (x := (IZR v * IZR 65535 / IZR c)%R) in *. clearbody x.
  assert (E4 : (4 * uu * 65535 <= / 64)%R) by (unfold uu; change (2 ^ 24) with 16777216; lra).
  assert (P1 : ((IZR o - x) * IZR c <= (/ 2 + / 64) * IZR c)%R) by (apply Rmult_le_compat_r; lra).
  assert (P2 : ((x - IZR o) * IZR c <= (/ 2 + / 64) * IZR c)%R) by (apply Rmult_le_compat_r; lra).
  assert (A1 : 64 * (o * c - v * 65535) <= 33 * c). { apply le_IZR. rewrite !mult_IZR, minus_IZR, !mult_IZR. lra. }
  assert (A2 : 64 * (v * 65535 - o * c) <= 33 * c). { apply le_IZR. rewrite !mult_IZR, minus_IZR, !mult_IZR. lra. }
  lia.
Qed.
Lemma scale_mono T c v v' : 1 <= T <= 65535 -> 1 <= c <= T -> 0 <= v <= v' -> v' <= c -> scale T c v <= scale T c v'.
Proof.
  intros HT Hc Hv Hv'. destruct (scale_val T c v HT Hc ltac:(lia)) as (p & -> & -> & _). destruct (scale_val T c v' HT Hc ltac:(lia)) as (p' & -> & -> & _).
  assert (C1 : (1 <= IZR c)%R) by (apply IZR_le; lia). assert (T1 : (1 <= IZR T)%R) by (apply IZR_le; lia).
  assert (0 <= RN32 (IZR T / IZR c))%R. { apply RN_nonneg. apply Rmult_le_pos; [lra|]. left. apply Rinv_0_lt_compat. lra. }
  assert (ZnearestA (RN32 (IZR v * RN32 (IZR T / IZR c))) <= ZnearestA (RN32 (IZR v' * RN32 (IZR T / IZR c)))).
  { apply ZnearestA_le. apply RN_le; [exact eq_refl|]. apply Rmult_le_compat_r; [lra|]. apply IZR_le. lia. }
  unfold clampz. lia.
Qed.
(** an unsigned 8-bit sample of a bitmap: the factor is 255 and the product saturates *)
Lemma scale_255_1 : scale 255 1 255 = 255 /\ scale 255 1 0 = 0.
Proof. split; vm_compute; reflexivity. Qed.
(** the result always fits *)
Lemma scale_range T c v : 0 <= T -> 0 <= scale T c v <= T.
Proof. intros HT. unfold scale, f32_as, float_as. destruct (f32_round _); try lia; unfold clampz; try lia. destruct s; lia. Qed.
