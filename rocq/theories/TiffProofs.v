(** Facts about the model of the TIFF glue. *)
From Coq Require Import Reals Psatz.
From Flocq Require Import Core BinarySingleNaN.
From Verif Require Import Base BaseLemmas ListLemmas ListMore Float FloatProofs Color ColorF ColorFProofs Thumb ThumbProofs Limits LimitsProofs ColorType ColorTypeProps Reader Tiff YuvProofs YuvProofs2.
Local Open Scope Z_scope.

Lemma ofZ_isf n : 0 <= n <= 65535 -> isf (f32_of_Z n) (IZR n).
Proof. intros H. exact (of_Z_ok n H). Qed.
Lemma one_B : (300 <= B100)%R.
Proof. unfold B100. apply IZR_le. lia. Qed.
Lemma err24 x : (0 <= x <= 1)%R -> (Rabs (RN32 x - x) <= / 16777216)%R.
Proof.
  intros H. pose proof (RN_err 24 128 f32_emax 1 x) as E. replace (/ 16777216)%R with (bpow radix2 (1 - 24 - 1)) by (cbn; lra). apply E; [lia|].
  rewrite Rabs_right by lra. change (bpow radix2 1) with 2%R. lra.
Qed.
Lemma err17 x : (0 <= x <= 255)%R -> (Rabs (RN32 x - x) <= / 131072)%R.
Proof.
  intros H. pose proof (RN_err 24 128 f32_emax 8 x) as E. replace (/ 131072)%R with (bpow radix2 (8 - 24 - 1)) by (cbn; lra). apply E; [lia|].
  rewrite Rabs_right by lra. change (bpow radix2 8) with 256%R. lra.
Qed.
Lemma kf_ok k : 0 <= k <= 255 -> exists v, isf (cmyk_kf k) v /\ (0 <= v <= 1)%R /\ (Rabs (v - (255 - IZR k) / 255) <= / 8388608)%R /\ (k = 0 -> v = 1%R).
Proof.
  intros Hk. assert (K : (0 <= IZR k <= 255)%R) by (split; apply IZR_le; lia). pose proof one_B as B.
  assert (Q : (0 <= IZR k / 255 <= 1)%R) by (split; [apply Rmult_le_pos; lra|]; apply Rmult_le_reg_r with 255%R; [lra|]; unfold Rdiv; rewrite Rmult_assoc, Rinv_l by lra; lra).
  assert (I1 : isf (f32_div (f32_of_Z k) (f32_of_Z 255)) (RN32 (IZR k / 255))) by (apply fb_div; [apply ofZ_isf; lia|apply (ofZ_isf 255); lia|lra|lra]).
  pose proof (RN_01 _ Q) as Q1. pose proof (err24 _ Q) as E1.
  assert (Q2 : (0 <= 1 - RN32 (IZR k / 255) <= 1)%R) by lra.
  exists (RN32 (1 - RN32 (IZR k / 255))). split; [unfold cmyk_kf; apply fb_sub; [exact one_ok|exact I1|lra]|].
  pose proof (RN_01 _ Q2) as Q3. pose proof (err24 _ Q2) as E2. split; [exact Q3|]. split.
  - apply Rabs_le. apply Rabs_le_inv in E1, E2. lra.
  - intros ->. replace (IZR 0 / 255)%R with 0%R by lra. rewrite RN_0, Rminus_0_r. apply RN_repr. apply (repr_Z 24 128 f32_prec f32_emax 1). reflexivity.
Qed.
Lemma chan_ok c k : 0 <= c <= 255 -> 0 <= k <= 255 -> let n := (255 - c) * (255 - k) in
  0 <= cmyk_chan c k /\ (n - 1) / 255 <= cmyk_chan c k <= n / 255 /\ (k = 0 -> cmyk_chan c k = 255 - c).
Proof.
  intros Hc Hk n. pose proof one_B as B. destruct (kf_ok k Hk) as (v & Iv & Hv & Ev & E0). assert (C : (0 <= IZR c <= 255)%R) by (split; apply IZR_le; lia).
  assert (I1 : isf (f32_sub (f32_of_Z 255) (f32_of_Z c)) (255 - IZR c)).
  { replace (255 - IZR c)%R with (RN32 (255 - IZR c)). - apply fb_sub; [apply (ofZ_isf 255); lia|apply ofZ_isf; lia|lra].
    - rewrite <- minus_IZR. apply RN_repr, repr_Z; [exact f32_prec|exact f32_emax|]. rewrite Z.abs_eq by lia. change (2 ^ 24) with 16777216. lia. }
  assert (P : (0 <= (255 - IZR c) * v <= 255)%R) by nra.
  assert (I2 : isf (f32_mul (f32_sub (f32_of_Z 255) (f32_of_Z c)) (cmyk_kf k)) (RN32 ((255 - IZR c) * v))) by (apply fb_mul; [exact I1|exact Iv|lra]).
  set (r := RN32 ((255 - IZR c) * v)) in *. pose proof (err17 _ P) as E2. fold r in E2.
  assert (R0 : (0 <= r)%R) by (apply RN_nonneg; lra).
  assert (D : (Rabs (r - IZR n / 255) <= / 512)%R).
  { unfold n. rewrite mult_IZR, !minus_IZR. apply Rabs_le_inv in E2, Ev. apply Rabs_le.
    assert (X : (- (255 * / 8388608) <= (255 - IZR c) * v - (255 - IZR c) * ((255 - IZR k) / 255) <= 255 * / 8388608)%R).
    { rewrite <- Rmult_minus_distr_l. assert (- (255 * / 8388608) <= - ((255 - IZR c) * / 8388608))%R by nra. assert ((255 - IZR c) * / 8388608 <= 255 * / 8388608)%R by nra.
      split; [eapply Rle_trans; [eassumption|]; rewrite <- Ropp_mult_distr_r_reverse; apply Rmult_le_compat_l; lra|eapply Rle_trans; [|eassumption]; apply Rmult_le_compat_l; lra]. }
    replace ((255 - IZR c) * (255 - IZR k) / 255)%R with ((255 - IZR c) * ((255 - IZR k) / 255))%R by (unfold Rdiv; ring). lra. }
  apply Rabs_le_inv in D. unfold cmyk_chan. rewrite (as32_ok _ _ _ r I2). rewrite Ztrunc_floor by exact R0.
  assert (N0 : 0 <= n) by (unfold n; apply Z.mul_nonneg_nonneg; lia). assert (N1 : n <= 255 * 255) by (unfold n; nia).
  pose proof (Z.div_mod n 255 ltac:(lia)) as DM. pose proof (Z.mod_pos_bound n 255 ltac:(lia)) as MB.
  assert (U : Zfloor r <= n / 255).
  { apply Z.lt_succ_r. apply lt_IZR. apply Rle_lt_trans with r; [apply Zfloor_lb|]. unfold Z.succ. rewrite plus_IZR.
    assert (IZR n <= 255 * IZR (n / 255) + 254)%R by (rewrite <- mult_IZR, <- plus_IZR; apply IZR_le; lia). lra. }
  assert (L : (n - 1) / 255 <= Zfloor r).
  { apply Zfloor_lub. pose proof (Z.mul_div_le (n - 1) 255 ltac:(lia)) as M. apply IZR_le in M. rewrite mult_IZR, minus_IZR in M. lra. }
  assert (F0 : 0 <= Zfloor r) by (apply Zfloor_lub; exact R0).
  assert (T : n / 255 <= 255) by (apply Z.div_le_upper_bound; lia). unfold clampz.
  rewrite Z.max_r, Z.min_r by lia || idtac.
  all: try (split; [exact F0|]; split; [split; assumption|]).
  all: try (intros Ek; assert (Er : r = (255 - IZR c)%R) by (unfold r; rewrite (E0 Ek), Rmult_1_r, <- minus_IZR; apply RN_repr, repr_Z; [exact f32_prec|exact f32_emax|]; rewrite Z.abs_eq by lia; change (2 ^ 24) with 16777216; lia); rewrite Er, <- minus_IZR; apply Zfloor_IZR).
Qed.

(** the loop of read_image over CMYK pixels *)
Lemma cmyk_loop ps : forall done rest, Forall (fun p => zlen p = 4) ps -> 3 * zlen ps <= zlen rest -> exists outs, Forall2 (fun p o => cmyk_to_rgb p = Ok o /\ zlen o = 3) ps outs /\
  foldM (fun st p => q <- cmyk_to_rgb p ;; cur_write st q) ps (done ++ rest, zlen done) = Ok (done ++ concat outs ++ skipn (Z.to_nat (3 * zlen ps)) rest, zlen done + 3 * zlen ps).
Proof.
  induction ps as [|p ps IH]; intros done rest H L.
  - exists []. split; [constructor|]. cbn [foldM concat app]. change (zlen (@nil (list Z))) with 0. rewrite Z.mul_0_r, Z.add_0_r. reflexivity.
  - inversion H as [|? ? Hp H']; subst. rewrite zlen_cons in *.
    destruct p as [|a [|b [|c [|k [|? ?]]]]]; try (rewrite ?zlen_cons in Hp; unfold zlen in Hp; cbn [length] in Hp; lia).
    set (o := [cmyk_chan a k; cmyk_chan b k; cmyk_chan c k]).
    assert (Lr : zlen o <= zlen rest) by (change (zlen o) with 3; pose proof (zlen_nonneg ps); lia).
    assert (Er : rest = firstn 3 rest ++ skipn 3 rest) by (symmetry; apply firstn_skipn).
    destruct (IH (done ++ o) (skipn 3 rest) H') as (outs & F & E). { rewrite zlen_skipn. change (Z.of_nat 3) with 3. lia. }
    exists (o :: outs). split; [constructor; [split; reflexivity|exact F]|].
    cbn [foldM]. change (cmyk_to_rgb [a; b; c; k]) with (Ok o). cbn [bind]. unfold cur_write at 1.
    rewrite zlen_app. replace (zlen done + zlen o <=? zlen done + zlen rest) with true by lia. cbn [bind].
    replace (zsplice (done ++ rest) (zlen done) o) with ((done ++ o) ++ skipn 3 rest).
    2:{ unfold zsplice. change (zlen o) with 3. replace (Z.to_nat (zlen done)) with (length done) by (unfold zlen; lia).
        replace (Z.to_nat (zlen done) + length o)%nat with (length done + 3)%nat by (unfold zlen; cbn; lia).
        change (length o) with 3%nat.
        rewrite firstn_app, Nat.sub_diag, firstn_O, app_nil_r, firstn_all, skipn_app. rewrite (skipn_all2 (n := length done + 3) done) by lia.
        replace (length done + 3 - length done)%nat with 3%nat by lia. rewrite <- app_assoc. reflexivity. }
    replace (zlen done + zlen o) with (zlen (done ++ o)) by apply zlen_app. rewrite E. cbn [concat]. rewrite zlen_app. change (zlen o) with 3.
    rewrite <- !app_assoc. f_equal. f_equal; [|lia]. f_equal. f_equal. f_equal. rewrite skipn_skipn. f_equal. pose proof (zlen_nonneg ps). lia.
Qed.
