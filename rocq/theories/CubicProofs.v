From Coq Require Import ZArith Bool Reals Lia Lra Psatz.
From Flocq Require Import Core IEEE754.BinarySingleNaN.
From Verif Require Import Base BaseLemmas ListMore Color ColorProofs Float FloatProofs JpegQuant ColorF ColorFProofs GenImage Thumb ThumbSpec ThumbProofs ThumbProofs2 ThumbProofs3 ThumbProofs4 Sample SampleSpec SampleProofs SampleProofs2 SampleProofs3 SampleProofs4 SampleProofs5 SampleProofs7 SampleProofs9 CubicSpec.
Local Open Scope Z_scope.

(** ** the kernel *)
Definition cin (a : R) : R := ((3 * a * a * a - 5 * a * a + 2) / 2)%R.
Definition cout (a : R) : R := ((- a * a * a + 5 * a * a - 8 * a + 4) / 2)%R.
Lemma cubic_in x : (Rabs x < 1)%R -> cubic x = cin (Rabs x).
Proof. intros H. unfold cubic. cbv zeta. destruct (Rlt_dec (Rabs x) 1); [reflexivity|lra]. Qed.
Lemma cubic_out x : (1 <= Rabs x < 2)%R -> cubic x = cout (Rabs x).
Proof. intros H. unfold cubic. cbv zeta. destruct (Rlt_dec (Rabs x) 1); [lra|]. destruct (Rlt_dec (Rabs x) 2); [reflexivity|lra]. Qed.
Lemma cubic_zero x : (2 <= Rabs x)%R -> cubic x = 0%R.
Proof. intros H. unfold cubic. cbv zeta. destruct (Rlt_dec (Rabs x) 1); [lra|]. destruct (Rlt_dec (Rabs x) 2); [lra|reflexivity]. Qed.
Lemma cin_pos a : (0 <= a <= 1)%R -> (0 <= cin a <= 1)%R.
Proof.
  intros H. assert (A1 : (0 <= a * (1 - a))%R) by (apply Rmult_le_pos; lra). assert (A2 : (0 <= a * a)%R) by (apply Rmult_le_pos; lra). assert (0 <= a * a * (1 - a))%R by (apply Rmult_le_pos; lra). assert (0 <= (1 - a) * (2 + 2 * a - 3 * (a * a)))%R by (apply Rmult_le_pos; lra).
  unfold cin. split; lra.
Qed.
Lemma cin_core a : (0 <= a <= 9 / 16)%R -> (0.475 <= cin a)%R.
Proof.
  intros H. unfold cin. assert (P : (0 <= (9 / 16 - a) * (a * (5 - 3 * (9 / 16) - 3 * a) + (5 - 3 * (9/16)) * (9 / 16)))%R).
  { apply Rmult_le_pos; [lra|]. assert (0 <= a * (5 - 3 * (9 / 16) - 3 * a))%R by (apply Rmult_le_pos; lra). lra. }
  nra.
Qed.
Lemma cout_range a : (1 <= a <= 2)%R -> (- (2 / 27) <= cout a <= 0)%R.
Proof.
  intros H. unfold cout. split.
  - assert (P : (0 <= (a - 4 / 3) * (a - 4 / 3) * (1 - (a - 4 / 3)))%R) by (apply Rmult_le_pos; [apply Rle_0_sqr|lra]). lra.
  - assert (P : (0 <= (a - 1) * ((a - 2) * (a - 2)))%R) by (apply Rmult_le_pos; [lra|apply Rle_0_sqr]). lra.
Qed.
Lemma cubic_range x : (- (2 / 27) <= cubic x <= 1)%R.
Proof.
  pose proof (Rabs_pos x) as P. destruct (Rlt_or_le (Rabs x) 1) as [G|G]; [rewrite cubic_in by exact G; pose proof (cin_pos (Rabs x) ltac:(lra)); lra|].
  destruct (Rlt_or_le (Rabs x) 2) as [K|K]; [rewrite cubic_out by lra; pose proof (cout_range (Rabs x) ltac:(lra)); lra|rewrite cubic_zero by exact K; lra].
Qed.
(** on distances, monotone use: a Lipschitz bound *)
Lemma cin_lip a b : (0 <= a <= 1)%R -> (0 <= b <= 1)%R -> (Rabs (cin a - cin b) <= 1.5 * Rabs (a - b))%R.
Proof.
  intros H1 H2. replace (cin a - cin b)%R with ((a - b) * ((3 * (a * a + a * b + b * b) - 5 * (a + b)) / 2))%R by (unfold cin; field). rewrite Rabs_mult, Rmult_comm. apply Rmult_le_compat_r; [apply Rabs_pos|]. apply Rabs_le. split.
  - assert (0 <= (a + b - 10 / 9) * (a + b - 10 / 9))%R by apply Rle_0_sqr. assert (0 <= (a - b) * (a - b))%R by apply Rle_0_sqr. nra.
  - assert (0 <= a * (1 - a))%R by (apply Rmult_le_pos; lra). assert (0 <= b * (1 - b))%R by (apply Rmult_le_pos; lra). assert (0 <= a * (1 - b))%R by (apply Rmult_le_pos; lra). assert (0 <= b * (1 - a))%R by (apply Rmult_le_pos; lra). lra.
Qed.
Lemma cout_lip a b : (1 <= a <= 2)%R -> (1 <= b <= 2)%R -> (Rabs (cout a - cout b) <= 1.5 * Rabs (a - b))%R.
Proof.
  intros H1 H2. replace (cout a - cout b)%R with ((a - b) * ((- (a * a + a * b + b * b) + 5 * (a + b) - 8) / 2))%R by (unfold cout; field). rewrite Rabs_mult, Rmult_comm. apply Rmult_le_compat_r; [apply Rabs_pos|].
  assert (0 <= (a - 1) * (2 - a))%R by (apply Rmult_le_pos; lra). assert (0 <= (b - 1) * (2 - b))%R by (apply Rmult_le_pos; lra). assert (0 <= (a - 1) * (2 - b))%R by (apply Rmult_le_pos; lra). assert (0 <= (b - 1) * (2 - a))%R by (apply Rmult_le_pos; lra). assert (0 <= (a - 1) * (b - 1))%R by (apply Rmult_le_pos; lra). assert (0 <= (2 - a) * (2 - b))%R by (apply Rmult_le_pos; lra). assert (0 <= (a - b) * (a - b))%R by apply Rle_0_sqr.
  apply Rabs_le. split; nra.
Qed.
Definition cub (a : R) : R := if Rlt_dec a 1 then cin a else if Rlt_dec a 2 then cout a else 0%R.
Lemma cub_in a : (a <= 1)%R -> cub a = cin a.
Proof. intros H. unfold cub. destruct (Rlt_dec a 1); [reflexivity|]. assert (a = 1%R) by lra. subst. destruct (Rlt_dec 1 2); [|lra]. unfold cin, cout. lra. Qed.
Lemma cub_out a : (1 <= a <= 2)%R -> cub a = cout a.
Proof. intros H. unfold cub. destruct (Rlt_dec a 1); [lra|]. destruct (Rlt_dec a 2); [reflexivity|]. assert (a = 2%R) by lra. subst. unfold cout. lra. Qed.
Lemma cub_zero a : (2 <= a)%R -> cub a = 0%R.
Proof. intros H. unfold cub. destruct (Rlt_dec a 1); [lra|]. destruct (Rlt_dec a 2); [lra|reflexivity]. Qed.
Lemma cub_lip_le a b : (0 <= a <= b)%R -> (Rabs (cub a - cub b) <= 1.5 * (b - a))%R.
Proof.
  intros H. assert (L1 : forall a b, (0 <= a <= b)%R -> (b <= 1)%R -> (Rabs (cub a - cub b) <= 1.5 * (b - a))%R). { intros u v H1 H2. rewrite !cub_in by lra. eapply Rle_trans; [apply cin_lip; lra|]. rewrite Rabs_left1 by lra. lra. }
  assert (L2 : forall a b, (1 <= a <= b)%R -> (b <= 2)%R -> (Rabs (cub a - cub b) <= 1.5 * (b - a))%R). { intros u v H1 H2. rewrite !cub_out by lra. eapply Rle_trans; [apply cout_lip; lra|]. rewrite Rabs_left1 by lra. lra. }
  assert (L3 : forall a b, (2 <= a <= b)%R -> (Rabs (cub a - cub b) <= 1.5 * (b - a))%R). { intros u v H1. rewrite !cub_zero by lra. rewrite Rminus_0_r, Rabs_R0. lra. }
  assert (TR : forall u v w, (Rabs (cub u - cub v) <= 1.5 * (v - u))%R -> (Rabs (cub v - cub w) <= 1.5 * (w - v))%R -> (Rabs (cub u - cub w) <= 1.5 * (w - u))%R). { intros u v w A B. replace (cub u - cub w)%R with ((cub u - cub v) + (cub v - cub w))%R by ring. eapply Rle_trans; [apply Rabs_triang|]. lra. }
  assert (L23 : forall a b, (1 <= a <= b)%R -> (Rabs (cub a - cub b) <= 1.5 * (b - a))%R). { intros u v H1. destruct (Rle_or_lt v 2) as [?|?]; [apply L2; lra|]. destruct (Rle_or_lt 2 u) as [?|?]; [apply L3; lra|]. apply (TR u 2%R v); [apply L2; lra|apply L3; lra]. }
  destruct (Rle_or_lt b 1) as [?|?]; [apply L1; lra|]. destruct (Rle_or_lt 1 a) as [?|?]; [apply L23; lra|]. apply (TR a 1%R b); [apply L1; lra|apply L23; lra].
Qed.
Lemma cub_lip a b : (0 <= a)%R -> (0 <= b)%R -> (Rabs (cub a - cub b) <= 1.5 * Rabs (a - b))%R.
Proof.
  intros HA HB. destruct (Rle_or_lt a b) as [G|G]; [rewrite (Rabs_left1 (a - b)) by lra; pose proof (cub_lip_le a b ltac:(lra)); lra|]. rewrite (Rabs_pos_eq (a - b)) by lra. rewrite Rabs_minus_sym. pose proof (cub_lip_le b a ltac:(lra)). lra.
Qed.
Lemma cubic_cub x : cubic x = cub (Rabs x). Proof. reflexivity. Qed.
Lemma cubic_lip x y : (Rabs (cubic x - cubic y) <= 1.5 * Rabs (Rabs x - Rabs y))%R.
Proof. rewrite !cubic_cub. apply cub_lip; apply Rabs_pos. Qed.

(** ** sums of indicators *)
Definition ind (a b i : Z) : R := if (a <=? i) && (i <? b) then 1%R else 0%R.
Lemma ind_in a b i : a <= i < b -> ind a b i = 1%R. Proof. intros H. unfold ind. replace ((a <=? i) && (i <? b)) with true by lia. reflexivity. Qed.
Lemma ind_01 a b i : (0 <= ind a b i <= 1)%R. Proof. unfold ind. destruct ((a <=? i) && (i <? b)); lra. Qed.
Lemma sumr_ind a b n : 0 <= n -> sumr (ind a b) 0 n = IZR (Z.max 0 (Z.min b n - Z.max a 0)).
Proof.
  intros H. destruct (Z.le_gt_cases (Z.min b n) (Z.max a 0)) as [G|G].
  - rewrite Z.max_l by lia. rewrite (sumr_ext _ (fun _ => 0%R)); [rewrite sumr_const by lia; ring|]. intros i Hi. unfold ind. replace ((a <=? i) && (i <? b)) with false by lia. reflexivity.
  - rewrite Z.max_r by lia. rewrite (sumr_restrict _ (Z.max a 0) (Z.min b n - Z.max a 0)); [|lia|lia|lia|intros i Hi NI; unfold ind; replace ((a <=? i) && (i <? b)) with false by lia; reflexivity].
    rewrite (sumr_ext _ (fun _ => 1%R)); [rewrite sumr_const by lia; ring|]. intros i Hi. apply ind_in. lia.
Qed.
