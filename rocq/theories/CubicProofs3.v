From Coq Require Import ZArith Bool Reals Lia Lra.
From Flocq Require Import Core IEEE754.BinarySingleNaN.
From Verif Require Import Base BaseLemmas ListMore Color ColorProofs Float FloatProofs JpegQuant ColorF ColorFProofs GenImage Thumb ThumbSpec ThumbProofs ThumbProofs2 ThumbProofs3 ThumbProofs4 Sample SampleSpec SampleProofs SampleProofs2 SampleProofs3 SampleProofs4 SampleProofs5 SampleProofs7 SampleProofs8 SampleProofs9 SampleProofs10 Filter3Proofs CubicSpec CubicProofs CubicProofs2.
Local Open Scope Z_scope.

(** ** the kernel in f32 *)
Lemma RNb e B : (Rabs e <= B)%R -> (- (uu * B + eta) <= RN32 e - e <= uu * B + eta)%R.
Proof. intros H. pose proof (RN_aes e) as E. destruct uu_val as [U0 _]. assert (uu * Rabs e <= uu * B)%R by (apply Rmult_le_compat_l; lra). apply Rabs_le_inv in E. lra. Qed.
Lemma isf2 : isf (f32_of_Z 2) 2%R. Proof. apply (of_Z_ok 2). lia. Qed.
Lemma isf6 : isf (f32_of_Z 6) 6%R. Proof. apply (of_Z_ok 6). lia. Qed.
Lemma catmull_eval x r : isf x r -> (Rabs r <= 2097152)%R -> exists K, isf (catmullrom_kernel x) K /\ (Rabs (K - cubic r) <= 92 * uu)%R.
Proof.
  intros IX BX. unfold catmullrom_kernel, powi2, powi3. pose proof (isf_abs _ _ IX) as IA. set (fa := f32_abs x) in *. clearbody fa. rewrite (lt_ok _ _ _ _ IA isf_one), (lt_ok _ _ _ _ IA isf2). pose proof (Rabs_pos r) as PA.
  assert (BB : (1000 <= B100)%R) by (unfold B100; apply IZR_le; vm_compute; discriminate). destruct uu_val as [U0 U1]. pose proof eta_uu as ET. destruct eta_val as [T0 _]. rewrite cubic_cub. set (a := Rabs r) in *. clearbody a. clear BX IX.
  assert (FIN : forall fk k c, isf fk k -> (Rabs k <= 85)%R -> (Rabs (k - 6 * c) <= 460 * uu)%R -> exists K, isf (f32_div fk (f32_of_Z 6)) K /\ (Rabs (K - c) <= 92 * uu)%R).
  { intros fk k c IK BK EK. exists (RN32 (k / 6)). apply Rabs_le_inv in BK, EK. assert (D6 : (Rabs (k / 6) <= 14.2)%R) by (apply Rabs_le; lra). split; [apply fs_div; [exact IK|exact isf6|lra|lra]|]. pose proof (RNb _ _ D6) as E. apply Rabs_le. lra. }
  destruct (Rlt_bool_spec a 1) as [G|G].
  - assert (Q : (0 <= a * a <= 1)%R) by (split; [apply Rmult_le_pos; lra|apply Rle_trans with (1 * 1)%R; [apply Rmult_le_compat; lra|lra]]).
    assert (I2 : isf (f32_mul fa fa) (RN32 (a * a))) by (apply fs_mul; [exact IA|exact IA|apply Rabs_le; lra]). pose proof (RNb (a * a) 1 ltac:(apply Rabs_le; lra)) as E2. set (a2 := RN32 (a * a)) in *. set (f2 := f32_mul fa fa) in *. clearbody a2 f2.
    assert (P3 : (- (1 * (uu * 1 + eta)) <= a * (a2 - a * a) <= 1 * (uu * 1 + eta))%R). { apply Rabs_le_inv. rewrite Rabs_mult. apply Rmult_le_compat; try apply Rabs_pos; [rewrite Rabs_pos_eq; lra|apply Rabs_le; lra]. }
    assert (C3 : (0 <= a * a * a <= 1)%R) by (split; [apply Rmult_le_pos; lra|apply Rle_trans with (1 * 1)%R; [apply Rmult_le_compat; lra|lra]]). rewrite Rmult_minus_distr_l, <- Rmult_assoc in P3.
    assert (I3 : isf (f32_mul fa f2) (RN32 (a * a2))) by (apply fs_mul; [exact IA|exact I2|apply Rabs_le; lra]). pose proof (RNb (a * a2) 1.01 ltac:(apply Rabs_le; lra)) as E3. set (a3 := RN32 (a * a2)) in *. set (f3 := f32_mul fa f2) in *. clearbody a3 f3.
    assert (H1 : (Rabs (9 * a3) <= 9.1)%R) by (apply Rabs_le; lra). assert (I4 : isf (f32_mul (f32_of_Z 9) f3) (RN32 (9 * a3))) by (apply fs_mul; [apply (of_Z_ok 9); lia|exact I3|lra]). pose proof (RNb _ _ H1) as E4. set (t1 := RN32 (9 * a3)) in *. clearbody t1.
    assert (H2 : (Rabs (-15 * a2) <= 15.1)%R) by (apply Rabs_le; lra). assert (I5 : isf (f32_mul (f32_of_Z (-15)) f2) (RN32 (-15 * a2))) by (apply fs_mul; [apply (of_Z_signed (-15)); lia|exact I2|lra]). pose proof (RNb _ _ H2) as E5. set (t2 := RN32 (-15 * a2)) in *. clearbody t2.
    assert (H3 : (Rabs (t1 + t2) <= 15.2)%R) by (apply Rabs_le; lra). pose proof (fs_add _ _ _ _ I4 I5 ltac:(lra)) as I6. pose proof (RNb _ _ H3) as E6. set (t3 := RN32 (t1 + t2)) in *. clearbody t3.
    assert (H4 : (Rabs (t3 + 6) <= 21.3)%R) by (apply Rabs_le; lra). pose proof (fs_add _ _ _ _ I6 isf6 ltac:(lra)) as I7. pose proof (RNb _ _ H4) as E7. set (t4 := RN32 (t3 + 6)) in *. clearbody t4.
    apply (FIN _ t4); [exact I7|apply Rabs_le; lra|]. rewrite cub_in by lra. unfold cin. set (q := (a * a)%R) in *. assert (QQ : (3 * a * a * a - 5 * a * a + 2 = 3 * (q * a) - 5 * q + 2)%R) by (unfold q; ring). rewrite QQ. apply Rabs_le. lra.
  - destruct (Rlt_bool_spec a 2) as [K|K].
    + assert (Q : (1 <= a * a <= 4)%R) by (split; [apply Rle_trans with (1 * 1)%R; [lra|apply Rmult_le_compat; lra]|apply Rle_trans with (2 * 2)%R; [apply Rmult_le_compat; lra|lra]]).
      assert (I2 : isf (f32_mul fa fa) (RN32 (a * a))) by (apply fs_mul; [exact IA|exact IA|apply Rabs_le; lra]). pose proof (RNb (a * a) 4 ltac:(apply Rabs_le; lra)) as E2. set (a2 := RN32 (a * a)) in *. set (f2 := f32_mul fa fa) in *. clearbody a2 f2.
      assert (P3 : (- (2 * (uu * 4 + eta)) <= a * (a2 - a * a) <= 2 * (uu * 4 + eta))%R). { apply Rabs_le_inv. rewrite Rabs_mult. apply Rmult_le_compat; try apply Rabs_pos; [rewrite Rabs_pos_eq; lra|apply Rabs_le; lra]. }
      assert (C3 : (1 <= a * a * a <= 8)%R) by (split; [apply Rle_trans with (1 * 1)%R; [lra|apply Rmult_le_compat; lra]|apply Rle_trans with (4 * 2)%R; [apply Rmult_le_compat; lra|lra]]). rewrite Rmult_minus_distr_l, <- Rmult_assoc in P3.
      assert (I3 : isf (f32_mul fa f2) (RN32 (a * a2))) by (apply fs_mul; [exact IA|exact I2|apply Rabs_le; lra]). pose proof (RNb (a * a2) 8.01 ltac:(apply Rabs_le; lra)) as E3. set (a3 := RN32 (a * a2)) in *. set (f3 := f32_mul fa f2) in *. clearbody a3 f3.
      assert (H1 : (Rabs (-3 * a3) <= 24.1)%R) by (apply Rabs_le; lra). assert (I4 : isf (f32_mul (f32_of_Z (-3)) f3) (RN32 (-3 * a3))) by (apply fs_mul; [apply (of_Z_signed (-3)); lia|exact I3|lra]). pose proof (RNb _ _ H1) as E4. set (t1 := RN32 (-3 * a3)) in *. clearbody t1.
      assert (H2 : (Rabs (15 * a2) <= 60.1)%R) by (apply Rabs_le; lra). assert (I5 : isf (f32_mul (f32_of_Z 15) f2) (RN32 (15 * a2))) by (apply fs_mul; [apply (of_Z_ok 15); lia|exact I2|lra]). pose proof (RNb _ _ H2) as E5. set (t2 := RN32 (15 * a2)) in *. clearbody t2.
      assert (H3 : (Rabs (t1 + t2) <= 60.2)%R) by (apply Rabs_le; lra). pose proof (fs_add _ _ _ _ I4 I5 ltac:(lra)) as I6. pose proof (RNb _ _ H3) as E6. set (t3 := RN32 (t1 + t2)) in *. clearbody t3.
      assert (H5 : (Rabs (-24 * a) <= 48)%R) by (apply Rabs_le; lra). assert (I8 : isf (f32_mul (f32_of_Z (-24)) fa) (RN32 (-24 * a))) by (apply fs_mul; [apply (of_Z_signed (-24)); lia|exact IA|lra]). pose proof (RNb _ _ H5) as E8. set (t5 := RN32 (-24 * a)) in *. clearbody t5.
      assert (H6 : (Rabs (t3 + t5) <= 72.1)%R) by (apply Rabs_le; lra). pose proof (fs_add _ _ _ _ I6 I8 ltac:(lra)) as I9. pose proof (RNb _ _ H6) as E9. set (t6 := RN32 (t3 + t5)) in *. clearbody t6.
      assert (H4 : (Rabs (t6 + 12) <= 84.2)%R) by (apply Rabs_le; lra). pose proof (fs_add _ _ _ _ I9 (of_Z_ok 12 ltac:(lia)) ltac:(lra)) as I7. pose proof (RNb _ _ H4) as E7. set (t4 := RN32 (t6 + 12)) in *. clearbody t4.
      apply (FIN _ t4); [exact I7|apply Rabs_le; lra|]. rewrite cub_out by lra. unfold cout. set (q := (a * a)%R) in *. assert (QQ : (- a * a * a + 5 * a * a - 8 * a + 4 = - (q * a) + 5 * q - 8 * a + 4)%R) by (unfold q; ring). rewrite QQ. apply Rabs_le. lra.
    + apply (FIN _ 0%R); [exact isf_zero|rewrite Rabs_R0; lra|]. rewrite cub_zero by lra. replace (0 - 6 * 0)%R with 0%R by ring. rewrite Rabs_R0. lra.
Qed.
