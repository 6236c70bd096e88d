From Coq Require Import ZArith Bool Reals Lia Lra Psatz.
From Flocq Require Import Core IEEE754.BinarySingleNaN.
From Verif Require Import Base BaseLemmas ListMore Color ColorProofs Float FloatProofs JpegQuant ColorF ColorFProofs GenImage Thumb ThumbSpec ThumbProofs ThumbProofs2 ThumbProofs3 ThumbProofs4 Sample SampleSpec SampleProofs SampleProofs2 SampleProofs3 SampleProofs4 SampleProofs5 SampleProofs7 SampleProofs9 CubicSpec CubicProofs.
Local Open Scope Z_scope.

Lemma lt_succ n m : (IZR n < IZR m + 1)%R -> n <= m. Proof. intros H. rewrite <- plus_IZR in H. apply lt_IZR in H. lia. Qed.
(** how many columns lie in the core (|x| <= 9/16) and in the two negative lobes *)
Lemma cubic_counts size c s : 1 <= size -> (1 <= s)%R -> (s <= 1.01 * IZR size)%R -> (-0.06 <= c <= IZR size + 0.06)%R ->
  let lo := Zceil (c - 9 / 16 * s - / 2) in let hi := Zfloor (c + 9 / 16 * s - / 2) + 1 in
  let rl := Zceil (c + s - / 2) in let rh := Zceil (c + 2 * s - / 2) in let ll := Zfloor (c - 2 * s - / 2) + 1 in let lh := Zfloor (c - s - / 2) + 1 in
  let count a b := IZR (Z.max 0 (Z.min b size - Z.max a 0)) in
  (1 <= count lo hi)%R /\ (count rl rh + count ll lh <= 4 * count lo hi)%R /\ (4 * s + 4.7 <= 24 * count lo hi)%R.
Proof.
  intros HS S1 S2 HC lo hi rl rh ll lh count.
  pose proof (Zceil_ub (c - 9 / 16 * s - / 2)) as A1. pose proof (Zceil_lb (c - 9 / 16 * s - / 2)) as A2. pose proof (Zfloor_ub (c + 9 / 16 * s - / 2)) as B1. pose proof (Zfloor_lb (c + 9 / 16 * s - / 2)) as B2.
  pose proof (Zceil_ub (c + s - / 2)) as C1. pose proof (Zceil_lb (c + s - / 2)) as C2. pose proof (Zceil_ub (c + 2 * s - / 2)) as D1. pose proof (Zceil_lb (c + 2 * s - / 2)) as D2.
  pose proof (Zfloor_ub (c - 2 * s - / 2)) as E1. pose proof (Zfloor_lb (c - 2 * s - / 2)) as E2. pose proof (Zfloor_ub (c - s - / 2)) as F1. pose proof (Zfloor_lb (c - s - / 2)) as F2.
  fold lo in A1, A2. fold rl in C1, C2. fold rh in D1, D2. assert (HI : (IZR hi = IZR (Zfloor (c + 9 / 16 * s - / 2)) + 1)%R) by (unfold hi; rewrite plus_IZR; reflexivity). assert (LL : (IZR ll = IZR (Zfloor (c - 2 * s - / 2)) + 1)%R) by (unfold ll; rewrite plus_IZR; reflexivity). assert (LH : (IZR lh = IZR (Zfloor (c - s - / 2)) + 1)%R) by (unfold lh; rewrite plus_IZR; reflexivity).
  assert (SZ : (1 <= IZR size)%R) by (apply IZR_le; lia).
  set (NR := Z.max 0 (Z.min rh size - Z.max rl 0)) in *. set (NL := Z.max 0 (Z.min lh size - Z.max ll 0)) in *. set (FC := Z.max 0 (Z.min hi size - Z.max lo 0)) in *.
  assert (NRB : NR <= rh - rl). { assert (rl <= rh) by (apply Zceil_le; lra). unfold NR. lia. }
  assert (NLB : NL <= lh - ll). { assert (Zfloor (c - 2 * s - / 2) <= Zfloor (c - s - / 2)) by (apply Zfloor_le; lra). unfold NL, lh, ll. lia. }
  unfold count. fold NR NL FC. apply IZR_le in NRB, NLB. rewrite minus_IZR in NRB, NLB. assert (NR1 : (IZR NR < s + 1)%R) by lra. assert (NL1 : (IZR NL < s + 1)%R) by lra.
  clearbody lo hi rl rh ll lh. clear count.
  destruct (Z.lt_ge_cases lo 0) as [L|L]; destruct (Z.lt_ge_cases size hi) as [H|H].
  - (* both ends clipped *) assert (FE : FC = size) by (unfold FC; lia). assert (rh - rl = rh - rl) by reflexivity.
    assert (R0 : NR = 0). { assert (size <= rl); [|unfold NR; lia]. apply lt_succ. apply IZR_lt in H. apply IZR_lt in L. assert (IZR size + 1 <= IZR hi)%R by (rewrite <- plus_IZR; apply IZR_le; apply lt_IZR in H; lia). lra. }
    assert (L0 : NL = 0). { assert (lh <= 0); [|unfold NL; lia]. apply IZR_lt in L. assert (IZR lo <= -1)%R by (apply (IZR_le lo (-1)); apply lt_IZR in L; lia). apply le_IZR. apply (IZR_le lh 0). apply lt_succ. lra. }
    rewrite FE, R0, L0. lra.
  - (* left end clipped *) assert (FE : FC = Z.max 0 hi) by (unfold FC; lia). assert (HP : 1 <= hi). { apply lt_succ. lra. } assert (FE' : FC = hi) by lia.
    assert (L0 : NL = 0). { assert (lh <= 0); [|unfold NL; lia]. apply IZR_lt in L. assert (IZR lo <= -1)%R by (apply (IZR_le lo (-1)); apply lt_IZR in L; lia). apply le_IZR. apply (IZR_le lh 0). apply lt_succ. lra. }
    rewrite FE', L0. assert (HP' : (1 <= IZR hi)%R) by (apply IZR_le; exact HP). split; [exact HP'|]. split; [|lra]. rewrite Rplus_0_r. destruct (Rle_or_lt s 4) as [K|K]; [|lra]. assert (NR <= 4) by (apply lt_succ; lra). assert (IZR NR <= 4)%R by (apply IZR_le; assumption). lra.
  - (* right end clipped *) assert (R0 : NR = 0). { assert (size <= rl); [|unfold NR; lia]. apply lt_succ. assert (IZR size + 1 <= IZR hi)%R by (rewrite <- plus_IZR; apply IZR_le; lia). lra. }
    assert (HP : 1 <= size - lo). { assert (lo <= size - 1); [|lia]. apply lt_succ. rewrite minus_IZR. lra. } assert (FE' : FC = size - lo) by (unfold FC; lia).
    rewrite FE', R0. assert (HP' : (1 <= IZR (size - lo))%R) by (apply IZR_le; exact HP). split; [exact HP'|]. assert (FB : (9 / 16 * s - 0.56 < IZR (size - lo))%R) by (rewrite minus_IZR; lra). split; [|lra]. rewrite Rplus_0_l. destruct (Rle_or_lt s 4) as [K|K]; [|lra]. assert (NL <= 4) by (apply lt_succ; lra). assert (IZR NL <= 4)%R by (apply IZR_le; assumption). lra.
  - (* no end clipped *) assert (FB : (9 / 8 * s - 1 < IZR (hi - lo))%R) by (rewrite minus_IZR; lra). assert (HP : 1 <= hi - lo). { assert (0 < hi - lo); [|lia]. apply lt_IZR. lra. } assert (FE : FC = hi - lo) by (unfold FC; lia). rewrite FE.
    assert (HP' : (1 <= IZR (hi - lo))%R) by (apply IZR_le; exact HP). split; [exact HP'|]. split; [|lra]. destruct (Rle_or_lt s 2) as [K|K].
    + assert (NR <= 2) by (apply lt_succ; lra). assert (NL <= 2) by (apply lt_succ; lra). assert (IZR NR <= 2)%R by (apply IZR_le; assumption). assert (IZR NL <= 2)%R by (apply IZR_le; assumption). lra.
    + destruct (Rle_or_lt s 3) as [K3|K3]; [|lra]. assert (NR <= 3) by (apply lt_succ; lra). assert (NL <= 3) by (apply lt_succ; lra). assert (IZR NR <= 3)%R by (apply IZR_le; assumption). assert (IZR NL <= 3)%R by (apply IZR_le; assumption). assert (HH2 : 2 <= hi - lo) by (assert (1 < hi - lo); [apply lt_IZR; lra|lia]). apply IZR_le in HH2. lra.
Qed.
Lemma cubic_lower c s i : (1 <= s)%R ->
  let lo := Zceil (c - 9 / 16 * s - / 2) in let hi := Zfloor (c + 9 / 16 * s - / 2) + 1 in
  let rl := Zceil (c + s - / 2) in let rh := Zceil (c + 2 * s - / 2) in let ll := Zfloor (c - 2 * s - / 2) + 1 in let lh := Zfloor (c - s - / 2) + 1 in
  (0.475 * ind lo hi i + - (2 / 27) * (ind rl rh i + ind ll lh i) <= cubic_at c s i)%R /\ (Rabs (cubic_at c s i) <= cubic_at c s i + 4 / 27 * (ind rl rh i + ind ll lh i))%R.
Proof.
  intros S1 lo hi rl rh ll lh. unfold cubic_at. set (x := ((IZR i + / 2 - c) / s)%R). assert (XS : (x * s = IZR i + / 2 - c)%R) by (unfold x; field; lra). clearbody x.
  assert (XI : forall a b, (a * s <= x * s)%R -> (x * s <= b * s)%R -> (a <= x <= b)%R) by (intros a b H1 H2; split; apply Rmult_le_reg_r with s; lra). assert (XL : forall a, (x * s < a * s)%R -> (x < a)%R) by (intros a H1; apply Rmult_lt_reg_r with s; lra). assert (XG : forall a, (a * s < x * s)%R -> (a < x)%R) by (intros a H1; apply Rmult_lt_reg_r with s; lra).
  assert (CORE : (ind lo hi i = 1 /\ Rabs x <= 9 / 16)%R \/ ind lo hi i = 0%R).
  { unfold ind. destruct ((lo <=? i) && (i <? hi)) eqn:E; [left; split; [reflexivity|]|right; reflexivity]. apply andb_prop in E. destruct E as [E1 E2]. apply Z.leb_le in E1. apply Z.ltb_lt in E2. apply IZR_le in E1. assert (E2' : i <= Zfloor (c + 9 / 16 * s - / 2)) by (unfold hi in E2; lia). apply IZR_le in E2'. pose proof (Zceil_ub (c - 9 / 16 * s - / 2)) as A1. fold lo in A1. pose proof (Zfloor_lb (c + 9 / 16 * s - / 2)) as B2. apply Rabs_le. apply XI; lra. }
  pose proof (ind_01 rl rh i) as IR. pose proof (ind_01 ll lh i) as IL. pose proof (Rabs_pos x) as PX. pose proof (ind_01 lo hi i) as IC.
  destruct (Rlt_or_le (Rabs x) 1) as [G|G].
  - rewrite cubic_in by exact G. pose proof (cin_pos (Rabs x) ltac:(lra)) as CP. rewrite (Rabs_pos_eq (cin (Rabs x))) by lra. split; [|lra]. destruct CORE as [(EI & K)|EI]; rewrite EI; [pose proof (cin_core (Rabs x) ltac:(lra)); lra|lra].
  - assert (I0 : ind lo hi i = 0%R) by (destruct CORE as [(_ & K)|K]; [lra|exact K]). rewrite I0. destruct (Rlt_or_le (Rabs x) 2) as [K|K]; [|rewrite cubic_zero by exact K; rewrite Rabs_R0; lra].
    rewrite cubic_out by lra. pose proof (cout_range (Rabs x) ltac:(lra)) as CR. rewrite (Rabs_left1 (cout (Rabs x))) by lra. assert (ONE : (1 <= ind rl rh i + ind ll lh i)%R); [|lra].
    destruct (Rle_or_lt 0 x) as [X0|X0].
    + rewrite Rabs_pos_eq in G, K by exact X0. rewrite (ind_in rl rh); [lra|]. assert (G1 : (1 * s <= x * s)%R) by (apply Rmult_le_compat_r; lra). assert (K1 : (x * s < 2 * s)%R) by (apply Rmult_lt_compat_r; lra). split; [apply Zceil_glb; lra|]. apply lt_IZR. pose proof (Zceil_ub (c + 2 * s - / 2)) as D1. fold rh in D1. lra.
    + rewrite Rabs_left in G, K by exact X0. rewrite (ind_in ll lh); [lra|]. assert (G1 : (x * s <= - 1 * s)%R) by (apply Rmult_le_compat_r; lra). assert (K1 : (- 2 * s < x * s)%R) by (apply Rmult_lt_compat_r; lra). unfold ll, lh. split.
      * assert (Zfloor (c - 2 * s - / 2) < i); [|lia]. apply lt_IZR. pose proof (Zfloor_lb (c - 2 * s - / 2)) as D1. lra.
      * assert (i <= Zfloor (c - s - / 2)); [|lia]. apply Zfloor_lub. lra.
Qed.
Lemma cubic_sum size c s : 1 <= size -> (1 <= s)%R -> (s <= 1.01 * IZR size)%R -> (-0.06 <= c <= IZR size + 0.06)%R ->
  exists f, (1 <= f)%R /\ (4 * s + 4.7 <= 24 * f)%R /\ (0.178 * f <= sumr (cubic_at c s) 0 size)%R /\ (sumr (fun i => Rabs (cubic_at c s i)) 0 size <= sumr (cubic_at c s) 0 size + 0.593 * f)%R.
Proof.
  intros HS S1 S2 HC. destruct (cubic_counts size c s HS S1 S2 HC) as (F1 & N4 & S24). pose proof (cubic_lower c s) as LW. cbv zeta in *.
  set (lo := Zceil (c - 9 / 16 * s - / 2)) in *. set (hi := Zfloor (c + 9 / 16 * s - / 2) + 1) in *. set (rl := Zceil (c + s - / 2)) in *. set (rh := Zceil (c + 2 * s - / 2)) in *. set (ll := Zfloor (c - 2 * s - / 2) + 1) in *. set (lh := Zfloor (c - s - / 2) + 1) in *.
  rewrite <- !sumr_ind in * by lia. set (f := sumr (ind lo hi) 0 size) in *. set (nr := sumr (ind rl rh) 0 size) in *. set (nl := sumr (ind ll lh) 0 size) in *. exists f. split; [exact F1|]. split; [exact S24|]. split.
  - apply Rle_trans with (0.475 * f + - (2 / 27) * (nr + nl))%R; [lra|]. unfold f, nr, nl. rewrite <- (sumr_plus (ind rl rh)), <- !sumr_scale, <- sumr_plus. apply sumr_le. intros i Hi. apply (LW i S1).
  - apply Rle_trans with (sumr (cubic_at c s) 0 size + 4 / 27 * (nr + nl))%R; [|lra]. unfold nr, nl. rewrite <- (sumr_plus (ind rl rh)), <- !sumr_scale, <- sumr_plus. apply sumr_le. intros i Hi. apply (LW i S1).
Qed.
