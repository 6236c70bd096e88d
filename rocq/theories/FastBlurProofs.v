(** fast_blur: one pass is a box blur of the transposed image, rounded down, as long as the sums are exact *)
From Coq Require Import ZArith Bool Reals Psatz.
From Flocq Require Import Core IEEE754.BinarySingleNaN.
From Verif Require Import Base BaseLemmas ListLemmas ListMore Color ColorProofs Float FloatProofs ColorF ColorFProofs GenImage Buffer Thumb ThumbSpec ThumbProofs ThumbProofs2 ThumbProofs4 Sample SampleProofs SampleProofs2 SampleProofs4 SampleProofs5 InterpProofs Filter3 Filter3Spec Filter3Proofs FastBlur FastBlurSpec.
Local Open Scope Z_scope.

Lemma foldM_idx {S A} (f : S -> A -> res S) (I : Z -> S -> Prop) l : forall k0 s0, I k0 s0 ->
  (forall k a s, zget l k = Some a -> I (k0 + k) s -> exists s', f s a = Ok s' /\ I (k0 + k + 1) s') -> exists s', foldM f l s0 = Ok s' /\ I (k0 + zlen l) s'.
Proof.
  induction l as [|a l IH]; intros k0 s0 H0 H.
  - exists s0. split; [reflexivity|]. rewrite zlen_nil, Z.add_0_r. exact H0.
  - destruct (H 0 a s0) as (s1 & E & H1); [reflexivity|rewrite Z.add_0_r; exact H0|]. cbn [foldM]. rewrite E. cbn [bind]. rewrite Z.add_0_r in H1.
    destruct (IH (k0 + 1) s1 H1) as (s' & E' & H'). { intros k b s G HI. destruct (H (k + 1) b s) as (s2 & E2 & H2). { rewrite zget_cons. pose proof (zget_range _ _ _ G). destruct (k + 1 =? 0) eqn:Z0; [lia|]. replace (k + 1 - 1) with k by lia. exact G. } { replace (k0 + (k + 1)) with (k0 + 1 + k) by lia. exact HI. } exists s2. split; [exact E2|]. replace (k0 + 1 + k + 1) with (k0 + (k + 1) + 1) by lia. exact H2. }
    exists s'. split; [exact E'|]. rewrite zlen_cons. replace (k0 + (1 + zlen l)) with (k0 + 1 + zlen l) by lia. exact H'.
Qed.
Lemma zget_combine {A B} (l : list A) : forall (l' : list B) i a b, zget (combine l l') i = Some (a, b) -> zget l i = Some a /\ zget l' i = Some b.
Proof.
  induction l as [|x l IH]; intros [|y l'] i a b; cbn [combine]; try (rewrite zget_nil; discriminate). rewrite !zget_cons. destruct (i =? 0); [intros E; injection E as -> ->; auto|]. apply IH.
Qed.
Lemma zlen_combine {A B} (l : list A) (l' : list B) : zlen l = zlen l' -> zlen (combine l l') = zlen l.
Proof. unfold zlen. rewrite combine_length. lia. Qed.
Lemma map_res_all {A B} (f : A -> res B) (P : A -> B -> Prop) l : (forall a, In a l -> exists v, f a = Ok v /\ P a v) -> exists vs, map_res f l = Ok vs /\ Forall2 P l vs.
Proof.
  induction l as [|a l IH]; intros H; [exists []; split; [reflexivity|constructor]|]. destruct (H a (or_introl eq_refl)) as (v & E & Pv). destruct IH as (vs & E' & F); [intros b Hb; apply H; right; exact Hb|]. exists (v :: vs). cbn [map_res]. rewrite E. cbn [bind]. rewrite E'. split; [reflexivity|constructor; assumption].
Qed.
Lemma Forall2_zget {A B} (P : A -> B -> Prop) l l' : Forall2 P l l' -> zlen l = zlen l' /\ forall i a, zget l i = Some a -> exists b, zget l' i = Some b /\ P a b.
Proof.
  induction 1 as [|a b l l' H F IH]; [split; [reflexivity|intros i a; rewrite zget_nil; discriminate]|]. destruct IH as (E & G). split; [rewrite !zlen_cons; lia|]. intros i c. rewrite !zget_cons. destruct (i =? 0); [intros X; apply Some_inj in X; subst c; exists b; auto|apply G].
Qed.

(** ** sums over consecutive columns *)
Definition wsum (g : Z -> Z) (a k : Z) : Z := zsum (map g (zrange a k)).
Lemma zsum_app l l' : zsum (l ++ l') = zsum l + zsum l'.
Proof. induction l as [|x l IH]; cbn [zsum app fold_right]; [reflexivity|]. fold (zsum (l ++ l')) (zsum l). lia. Qed.
Lemma wsum_0 g a : wsum g a 0 = 0. Proof. reflexivity. Qed.
Lemma wsum_snoc g a k : 0 <= k -> wsum g a (k + 1) = wsum g a k + g (a + k).
Proof. intros H. unfold wsum. rewrite zrange_snoc by lia. rewrite map_app, zsum_app. cbn. lia. Qed.
Lemma wsum_cons g a k : 0 <= k -> wsum g a (k + 1) = g a + wsum g (a + 1) k.
Proof. intros H. unfold wsum. rewrite (zrange_cons a) by lia. replace (k + 1 - 1) with k by lia. reflexivity. Qed.
Lemma wsum_shift g a k : 1 <= k -> wsum g (a + 1) k = wsum g a k - g a + g (a + k).
Proof. intros H. pose proof (wsum_cons g a k ltac:(lia)). pose proof (wsum_snoc g a k ltac:(lia)). lia. Qed.
Lemma zsum_bounds l lo hi : Forall (fun v => lo <= v <= hi) l -> lo * zlen l <= zsum l <= hi * zlen l.
Proof. induction 1 as [|v l Hv F IH]; [cbn; lia|]. rewrite zlen_cons. cbn [zsum fold_right]. fold (zsum l). nia. Qed.
Lemma zlen_zr a n : 0 <= n -> zlen (zrange a n) = n. Proof. intros H. unfold zlen, zrange. rewrite map_length, seq_length. lia. Qed.
Lemma wsum_bounds g a k lo hi : 0 <= k -> (forall x, lo <= g x <= hi) -> lo * k <= wsum g a k <= hi * k.
Proof. intros H B. assert (E : zlen (map g (zrange a k)) = k) by (rewrite zlen_map; apply zlen_zr; exact H). pose proof (zsum_bounds (map g (zrange a k)) lo hi) as Z0. rewrite E in Z0. apply Z0. apply Forall_map_iff, Forall_forall. intros x _. apply B. Qed.

Lemma clamp_clampz x lo hi : lo <= hi -> clamp x lo hi = clampz lo hi x.
Proof. intros H. unfold clamp, clampz. destruct (x <? lo) eqn:A; [lia|]. destruct (x >? hi) eqn:B; lia. Qed.
Lemma idx_in n w h c x y : 0 <= c < n -> 0 <= x < w -> 0 <= y < h -> 0 <= n * (y * w + x) + c < n * (w * h).
Proof. intros A B C. assert (0 <= y * w + x < w * h) by nia. nia. Qed.
Lemma at_idx_ok s i : 0 <= i < zlen s -> at_idx s i = Ok (nth (Z.to_nat i) s 0).
Proof. intros H. unfold at_idx. rewrite zget_nth by lia. rewrite (nth_error_nth' s 0) by (unfold zlen in H; lia). reflexivity. Qed.
Lemma extended_ok s w h x y c n : 1 <= w -> 0 <= y < h -> 0 <= c < n -> n * (w * h) <= zlen s -> extended_f s w h x y c n = Ok (sample n w s c (clampz 0 (w - 1) x) y).
Proof.
  intros W Y C L. unfold extended_f. rewrite !clamp_clampz by lia. replace (clampz 0 (h - 1) y) with y by (unfold clampz; lia). unfold channel_idx, sample. apply at_idx_ok. pose proof (idx_in n w h c (clampz 0 (w - 1) x) y C ltac:(unfold clampz; lia) Y). lia.
Qed.
Lemma sample_in (P : Z -> Prop) n w h s c x y : Forall P s -> 0 <= c < n -> 0 <= x < w -> 0 <= y < h -> n * (w * h) <= zlen s -> P (sample n w s c x y).
Proof. intros F C X Y L. rewrite Forall_forall in F. apply F. unfold sample. apply nth_In. pose proof (idx_in n w h c x y C X Y). unfold zlen in L. lia. Qed.

(** the position of the sample j of the transposed image, as column, row and channel of the source *)
Definition col_of (n h j : Z) : Z := j / n / h.
Definition row_of (n h j : Z) : Z := (j / n) mod h.
Lemma pos_iff n h c row col j : 0 <= c < n -> 0 <= row < h -> 0 <= col -> 0 <= j -> j = n * (row + col * h) + c <-> (row_of n h j = row /\ col_of n h j = col /\ j mod n = c).
Proof.
  intros C R K J. unfold row_of, col_of. split.
  - intros ->. assert (E : (n * (row + col * h) + c) / n = row + col * h) by (rewrite Z.mul_comm, Z.div_add_l, Z.div_small by lia; lia). rewrite E. rewrite Z.mod_add, Z.mod_small, Z.div_add, Z.div_small by lia. split; [reflexivity|]. split; [lia|]. rewrite Z.add_comm, Z.mul_comm, Z.mod_add, Z.mod_small by lia. reflexivity.
  - intros (A & B & D). pose proof (Z.div_mod j n ltac:(lia)) as E1. pose proof (Z.div_mod (j / n) h ltac:(lia)) as E2. rewrite A, B in E2. rewrite D in E1. rewrite E2 in E1. rewrite E1. ring.
Qed.

(** ** the loops, for any running sums [win] that give the values [mean] *)
Section Loops.
Variables (t : sty) (s : list Z) (w h r n : Z) (win mean : Z -> Z -> Z -> Z).
Hypothesis HW : 1 <= w <= u32_max.
Hypothesis HH : 1 <= h <= u32_max.
Hypothesis HN : 1 <= n.
Hypothesis H1 : forall row c, 0 <= row < h -> 0 <= c < n -> exists v, first_sum s w h r n row c = Ok v /\ isf v (IZR (win row c 0)).
Hypothesis H2 : forall row c col v, 0 <= row < h -> 0 <= c < n -> isf v (IZR (win row c col)) -> cut t (f32_div v (f32_add (f32_mul (f32_of_Z 2) (f32_of_Z r)) f32_one)) = Ok (mean row c col).
Hypothesis H3 : forall row c col v, 0 <= row < h -> 0 <= c < n -> 0 <= col < w -> isf v (IZR (win row c col)) -> exists a b, extended_f s w h (col - r) row c n = Ok a /\ extended_f s w h (as_isize (col + r + 1)) row c n = Ok b /\ isf (f32_add (f32_sub v (f32_of_Z a)) (f32_of_Z b)) (IZR (win row c (col + 1))).

(** what is written so far in the rows of the result *)
Definition done (row col c j : Z) : bool := (row_of n h j =? row) && ((col_of n h j <? col) || ((col_of n h j =? col) && (j mod n <? c))).
Definition N := n * (w * h).
Definition filled (row col c : Z) (out0 out : list Z) : Prop := zlen out = N /\ forall j, 0 <= j < N -> zget out j = if done row col c j then Some (mean row (j mod n) (col_of n h j)) else zget out0 j.
Definition sums (row col k : Z) (vals : list f32) : Prop := zlen vals = k /\ forall i, 0 <= i < k -> exists v, zget vals i = Some v /\ isf v (IZR (win row i col)).

Lemma step_ok row col c out0 out vals v : 0 <= row < h -> 0 <= col < w -> 0 <= c < n -> filled row col c out0 out -> sums row (col + 1) c vals -> isf v (IZR (win row c col)) ->
  exists out' vals', blur_step t s w h r n row col (out, vals) (c, v) = Ok (out', vals') /\ filled row col (c + 1) out0 out' /\ sums row (col + 1) (c + 1) vals'.
Proof.
  intros R K C (F1 & F2) (S1 & S2) V. unfold blur_step. rewrite (H2 row c col v R C V). cbn [bind]. destruct (H3 row c col v R C K V) as (a & b & EA & EB & NX).
  assert (J : 0 <= n * (row + col * h) + c < N). { unfold N. pose proof (idx_in n h w c row col C R ltac:(lia)). replace (w * h) with (h * w) by ring. replace (row + col * h) with (col * h + row) by ring. lia. }
  unfold set_idx, channel_idx. destruct (zget_some out (n * (row + col * h) + c)) as (z0 & Z0); [lia|]. rewrite Z0. cbn [bind]. rewrite EA. cbn [bind]. rewrite EB. cbn [bind].
  eexists. eexists. split; [reflexivity|]. split; split.
  - rewrite zlen_zset. exact F1.
  - intros j Hj. pose proof (pos_iff n h c row col j C R ltac:(lia) ltac:(lia)) as PI. destruct (Z.eq_dec j (n * (row + col * h) + c)) as [E|E].
    + rewrite E at 1. rewrite zget_zset_same by lia. destruct (proj1 PI E) as (A & B & D). unfold done. rewrite A, B, D. rewrite !Z.eqb_refl. destruct (col <? col) eqn:X; [lia|]. destruct (c <? c + 1) eqn:Y; [|lia]. reflexivity.
    + rewrite zget_zset_other by lia. rewrite F2 by exact Hj. replace (done row col (c + 1) j) with (done row col c j); [reflexivity|]. unfold done. destruct (row_of n h j =? row) eqn:A; [|reflexivity]. destruct (col_of n h j =? col) eqn:B; [|reflexivity]. cbn [andb]. f_equal. destruct (j mod n <? c) eqn:D, (j mod n <? c + 1) eqn:G; try reflexivity; [exfalso; lia|]. exfalso. apply E. apply PI. repeat split; lia.
  - rewrite zlen_app, S1. reflexivity.
  - intros i Hi. rewrite zget_app, S1. destruct (i <? c) eqn:A.
    + destruct (S2 i ltac:(lia)) as (u & U1 & U2). exists u. split; assumption.
    + assert (i = c) by lia. subst i. exists (f32_add (f32_sub v (f32_of_Z a)) (f32_of_Z b)). split; [rewrite Z.sub_diag; reflexivity|exact NX].
Qed.
Lemma column_ok row col out0 out vals : 0 <= row < h -> 0 <= col < w -> filled row col 0 out0 out -> sums row col n vals ->
  exists out' vals', foldM (blur_step t s w h r n row col) (combine (zrange 0 n) vals) (out, []) = Ok (out', vals') /\ filled row (col + 1) 0 out0 out' /\ sums row (col + 1) n vals'.
Proof.
  intros R K F (S1 & S2).
  destruct (foldM_idx (blur_step t s w h r n row col) (fun k st => filled row col k out0 (fst st) /\ sums row (col + 1) k (snd st)) (combine (zrange 0 n) vals) 0 (out, [])) as ((o & vs) & E & A & B).
  - split; [exact F|]. split; [reflexivity|]. intros i Hi. lia.
  - intros k (c & v) (o & vs) G (A & B). rewrite Z.add_0_l in *. destruct (zget_combine _ _ _ _ _ G) as (G1 & G2). pose proof (zget_range _ _ _ G1) as RG. rewrite zlen_zr in RG by lia. rewrite zget_zrange in G1 by lia. apply Some_inj in G1. rewrite Z.add_0_l in G1. subst c.
    destruct (S2 k RG) as (u & U1 & U2). rewrite G2 in U1. apply Some_inj in U1. subst u. cbn [fst snd] in A, B. destruct (step_ok row col k out0 o vs v R K RG A B U2) as (o' & vs' & E & A' & B'). exists (o', vs'). split; [exact E|]. split; assumption.
  - rewrite Z.add_0_l in *. rewrite zlen_combine in A, B by (rewrite zlen_zr; lia). rewrite zlen_zr in A, B by lia. cbn [fst snd] in A, B. exists o, vs. split; [exact E|]. split; [|exact B]. destruct A as (A1 & A2). split; [exact A1|]. intros j Hj. rewrite A2 by exact Hj. replace (done row (col + 1) 0 j) with (done row col n j); [reflexivity|]. unfold done. destruct (row_of n h j =? row); [|reflexivity]. cbn [andb]. pose proof (Z.mod_pos_bound j n ltac:(lia)). destruct (col_of n h j <? col) eqn:X, (col_of n h j =? col) eqn:Y, (col_of n h j <? col + 1) eqn:Z1, (j mod n <? n) eqn:Z2, (col_of n h j =? col + 1) eqn:Z3, (j mod n <? 0) eqn:Z4; try reflexivity; lia.
Qed.
Lemma row_ok row out0 : 0 <= row < h -> zlen out0 = N -> exists out', blur_row t s w h r n out0 row = Ok out' /\ zlen out' = N /\ forall j, 0 <= j < N -> zget out' j = if row_of n h j =? row then Some (mean row (j mod n) (col_of n h j)) else zget out0 j.
Proof.
  intros R L. unfold blur_row.
  assert (V : exists vals, map_res (first_sum s w h r n row) (zrange 0 n) = Ok vals /\ sums row 0 n vals).
  { destruct (map_res_all (first_sum s w h r n row) (fun c v => isf v (IZR (win row c 0))) (zrange 0 n)) as (vs & E & F). { intros c Hc. apply In_zrange in Hc. apply H1; lia. }
    destruct (Forall2_zget _ _ _ F) as (L2 & G). exists vs. split; [exact E|]. split; [rewrite <- L2; apply zlen_zr; lia|]. intros i Hi. apply G. rewrite zget_zrange by lia. f_equal; lia. }
  destruct V as (vals & E & SV). rewrite E. cbn [bind].
  destruct (foldM_zrange_inv (fun st column => foldM (blur_step t s w h r n row column) (combine (zrange 0 n) (snd st)) (fst st, [])) (fun col st => filled row col 0 out0 (fst st) /\ sums row col n (snd st)) 0 w (out0, vals)) as ((o & vs) & E2 & A & B).
  - lia.
  - split; [|exact SV]. split; [exact L|]. intros j Hj. replace (done row 0 0 j) with false; [reflexivity|]. symmetry. unfold done. apply andb_false_iff. right. assert (0 <= j / n) by (apply Z.div_pos; lia). assert (0 <= col_of n h j) by (unfold col_of; apply Z.div_pos; lia). pose proof (Z.mod_pos_bound j n ltac:(lia)). destruct (col_of n h j <? 0) eqn:X, (col_of n h j =? 0) eqn:Y, (j mod n <? 0) eqn:Z0; try reflexivity; lia.
  - intros k (o & vs) Hk (A & B). rewrite Z.add_0_l. destruct (column_ok row k out0 o vs R Hk A B) as (o' & vs' & E3 & A' & B'). exists (o', vs'). split; [exact E3|]. split; assumption.
  - rewrite E2. cbn [bind fst]. exists o. split; [reflexivity|]. destruct A as (A1 & A2). cbn [fst] in *. split; [exact A1|]. intros j Hj. rewrite A2 by exact Hj. replace (done row w 0 j) with (row_of n h j =? row); [reflexivity|]. unfold done. assert (X : col_of n h j < w). { unfold col_of. apply Z.div_lt_upper_bound; [lia|]. apply Z.div_lt_upper_bound; [lia|]. unfold N in Hj. replace (n * (h * w)) with (n * (w * h)) by ring. lia. } destruct (col_of n h j <? w) eqn:Y; [|lia]. cbn [orb]. rewrite andb_true_r. reflexivity.
Qed.
Lemma loops_ok : exists out, half t s w h r n = Ok out /\ zlen out = N /\ forall j, 0 <= j < N -> zget out j = Some (mean (row_of n h j) (j mod n) (col_of n h j)).
Proof.
  unfold half. destruct (foldM_zrange_inv (blur_row t s w h r n) (fun k out => zlen out = N /\ forall j, 0 <= j < N -> row_of n h j < k -> zget out j = Some (mean (row_of n h j) (j mod n) (col_of n h j))) 0 h (repeat 0 (Z.to_nat (w * h * n)))) as (out & E & L & G).
  - lia.
  - split; [rewrite zlen_repeat; unfold N; nia|]. intros j Hj X. pose proof (Z.mod_pos_bound (j / n) h ltac:(lia)). unfold row_of in X. lia.
  - intros k out Hk (L & G). rewrite Z.add_0_l. destruct (row_ok k out Hk L) as (o & E & L' & G'). exists o. split; [exact E|]. split; [exact L'|]. intros j Hj X. rewrite G' by exact Hj. destruct (row_of n h j =? k) eqn:Y; [apply Z.eqb_eq in Y; rewrite Y; reflexivity|]. apply G; [exact Hj|lia].
  - exists out. split; [exact E|]. split; [exact L|]. intros j Hj. apply G; [exact Hj|]. unfold row_of. apply Z.mod_pos_bound. lia.
Qed.
End Loops.

Section Half.
Variables (t : sty) (s : list Z) (w h r n : Z).
Hypothesis HW : 1 <= w <= u32_max.
Hypothesis HH : 1 <= h <= u32_max.
Hypothesis HN : 1 <= n.
Hypothesis HR : 0 <= r.
Hypothesis HB : smax t * (2 * r + 1) < 2 ^ 24.
Hypothesis HL : n * (w * h) <= zlen s.
Hypothesis HS : Forall (is_sample t) s.

(** the source row, with its border repeated *)
Definition line (row c x : Z) : Z := sample n w s c (clampz 0 (w - 1) x) row.
Lemma line_sample row c x : 0 <= row < h -> 0 <= c < n -> 0 <= line row c x <= smax t.
Proof. intros R C. apply (sample_in (is_sample t) n w h s c); try assumption. unfold clampz. lia. Qed.
Definition win (row c col : Z) : Z := wsum (line row c) (col - r) (2 * r + 1).
Lemma partial_range row c a k : 0 <= row < h -> 0 <= c < n -> 0 <= k <= 2 * r + 1 -> 0 <= wsum (line row c) a k /\ wsum (line row c) a k < 2 ^ 24.
Proof.
  intros R C K. pose proof (smax_range t). assert (B : forall x, 0 <= line row c x <= smax t) by (intros x; apply line_sample; assumption). pose proof (wsum_bounds (line row c) a k 0 (smax t) ltac:(lia) B) as W. split; [lia|]. apply Z.le_lt_trans with (smax t * k); [lia|]. apply Z.le_lt_trans with (smax t * (2 * r + 1)); [|exact HB]. apply Z.mul_le_mono_nonneg_l; lia.
Qed.
Lemma r_small : 2 * r + 1 < 2 ^ 24.
Proof. pose proof HB. pose proof HR. destruct t; unfold smax, u8_max, u16_max in *; lia. Qed.
Lemma isf_add_int (x y : f32) a b : isf x (IZR a) -> isf y (IZR b) -> Z.abs (a + b) < 2 ^ 24 -> isf (f32_add x y) (IZR (a + b)).
Proof. intros A B L. rewrite <- (RN_int_signed (a + b) L). rewrite plus_IZR. apply fs_add; [exact A|exact B|]. rewrite <- plus_IZR. apply abs_B100. exact L. Qed.
Lemma isf_sub_int (x y : f32) a b : isf x (IZR a) -> isf y (IZR b) -> Z.abs (a - b) < 2 ^ 24 -> isf (f32_sub x y) (IZR (a - b)).
Proof. intros A B L. rewrite <- (RN_int_signed (a - b) L). rewrite minus_IZR. apply fs_sub; [exact A|exact B|]. rewrite <- minus_IZR. apply abs_B100. exact L. Qed.
Lemma first_sum_ok row c : 0 <= row < h -> 0 <= c < n -> exists v, first_sum s w h r n row c = Ok v /\ isf v (IZR (win row c 0)).
Proof.
  intros R C. pose proof r_small as RS. unfold first_sum. replace (as_isize (r + 1) + r) with (2 * r + 1) by (unfold as_isize, i64_max; destruct (r + 1 <=? 9223372036854775807) eqn:E; lia).
  destruct (foldM_zrange_inv (fun a x => v <- extended_f s w h x row c n ;; Ok (f32_add a (f32_of_Z v))) (fun k a => isf a (IZR (wsum (line row c) (- r) k))) (- r) (2 * r + 1) f32_zero) as (v & E & I); [lia|exact isf_zero| |].
  - intros k a K I. rewrite extended_ok by lia. cbn [bind]. fold (line row c (- r + k)). exists (f32_add a (f32_of_Z (line row c (- r + k)))). split; [reflexivity|]. rewrite wsum_snoc by lia. pose proof (line_sample row c (- r + k) R C). pose proof (smax_range t). apply isf_add_int; [exact I|apply of_Z_ok; lia|]. rewrite <- wsum_snoc by lia. pose proof (partial_range row c (- r) (k + 1) R C ltac:(lia)). lia.
  - exists v. split; [exact E|]. unfold win. replace (0 - r) with (- r) by lia. exact I.
Qed.
(** the width of the box as an f32 *)
Lemma width_ok : isf (f32_add (f32_mul (f32_of_Z 2) (f32_of_Z r)) f32_one) (IZR (2 * r + 1)).
Proof.
  pose proof r_small as RS. apply (isf_add_int _ _ (2 * r) 1); [|exact isf_one|lia]. rewrite <- (RN_int_signed (2 * r)) by lia. rewrite mult_IZR. apply fs_mul; [apply of_Z_ok; lia|apply of_Z_signed; lia|]. rewrite <- mult_IZR. apply abs_B100. lia.
Qed.
Definition mean (row c col : Z) : Z := win row c col / (2 * r + 1).
Lemma mean_sample row c col : 0 <= row < h -> 0 <= c < n -> is_sample t (mean row c col).
Proof.
  intros R C. assert (B : forall x, 0 <= line row c x <= smax t) by (intros x; apply line_sample; assumption). pose proof (wsum_bounds (line row c) (col - r) (2 * r + 1) 0 (smax t) ltac:(lia) B) as W. unfold is_sample, mean, win. split; [apply Z.div_pos; lia|]. apply Z.div_le_upper_bound; lia.
Qed.
Lemma cut_ok row c col v : 0 <= row < h -> 0 <= c < n -> isf v (IZR (win row c col)) -> cut t (f32_div v (f32_add (f32_mul (f32_of_Z 2) (f32_of_Z r)) f32_one)) = Ok (mean row c col).
Proof.
  intros R C V. pose proof r_small as RS. pose proof (smax_range t) as SM. pose proof (partial_range row c (col - r) (2 * r + 1) R C ltac:(lia)) as P. fold (win row c col) in P.
  destruct (cut_div t v _ _ _ V width_ok) as (E & _); [apply not_0_IZR; lia|]. rewrite E. rewrite floor_div_exact by lia. pose proof (mean_sample row c col R C) as M. unfold is_sample in M. fold (mean row c col). f_equal. unfold clampz. lia.
Qed.
Lemma win_next row c col : win row c (col + 1) = win row c col - line row c (col - r) + line row c (col + r + 1).
Proof. unfold win. replace (col + 1 - r) with (col - r + 1) by lia. rewrite wsum_shift by lia. do 2 f_equal. lia. Qed.
Lemma next_ok row c col v : 0 <= row < h -> 0 <= c < n -> isf v (IZR (win row c col)) -> isf (f32_add (f32_sub v (f32_of_Z (line row c (col - r)))) (f32_of_Z (line row c (col + r + 1)))) (IZR (win row c (col + 1))).
Proof.
  intros R C V. pose proof (smax_range t) as SM. pose proof (line_sample row c (col - r) R C) as L1. pose proof (line_sample row c (col + r + 1) R C) as L2. pose proof (partial_range row c (col - r) (2 * r + 1) R C ltac:(lia)) as P1. fold (win row c col) in P1. pose proof (partial_range row c (col + 1 - r) (2 * r + 1) R C ltac:(lia)) as P2. fold (win row c (col + 1)) in P2.
  assert (M : 0 <= win row c col - line row c (col - r)). { unfold win. pose proof (wsum_cons (line row c) (col - r) (2 * r) ltac:(lia)) as W. pose proof (partial_range row c (col - r + 1) (2 * r) R C ltac:(lia)). lia. }
  rewrite win_next in *. apply isf_add_int; [apply isf_sub_int; [exact V|apply of_Z_ok; lia|lia]|apply of_Z_ok; lia|lia].
Qed.

Lemma half_ok : exists out, half t s w h r n = Ok out /\ zlen out = n * (w * h) /\ forall j, 0 <= j < n * (w * h) -> zget out j = Some (mean (row_of n h j) (j mod n) (col_of n h j)).
Proof.
  apply (loops_ok t s w h r n win mean HW HH HN first_sum_ok (fun row c col v R C V => cut_ok row c col v R C V)). intros row c col v R C K V. pose proof r_small as RS. pose proof HW as HW'. unfold u32_max in HW'. exists (line row c (col - r)), (line row c (col + r + 1)). rewrite !extended_ok by lia.
  replace (as_isize (col + r + 1)) with (col + r + 1) by (unfold as_isize, i64_max; destruct (col + r + 1 <=? 9223372036854775807) eqn:E; lia). split; [reflexivity|]. split; [reflexivity|]. apply next_ok; assumption.
Qed.
Lemma half_sample : exists out, half t s w h r n = Ok out /\ zlen out = n * (h * w) /\ Forall (is_sample t) out /\ forall c x y, 0 <= c < n -> 0 <= x < w -> 0 <= y < h -> sample n h out c y x = hbox w r (sample n w s c) x y.
Proof.
  destruct half_ok as (out & E & L & G). exists out. split; [exact E|]. split; [rewrite L; ring|]. split.
  - apply Forall_forall. intros v Hv. apply In_nth_error in Hv. destruct Hv as (i & Hi). rewrite <- zget_of_nat in Hi. pose proof (zget_range _ _ _ Hi) as RG. rewrite L in RG. rewrite G in Hi by exact RG. apply Some_inj in Hi. subst v. apply mean_sample; [unfold row_of; apply Z.mod_pos_bound; lia|apply Z.mod_pos_bound; lia].
  - intros c x y C X Y. pose proof (idx_in n h w c y x C Y X) as J. assert (J' : 0 <= n * (y + x * h) + c < n * (w * h)) by (replace (y + x * h) with (x * h + y) by ring; replace (w * h) with (h * w) by ring; lia). unfold sample at 1. replace (x * h + y) with (y + x * h) by ring.
    pose proof (G _ J') as GJ. rewrite zget_nth in GJ by lia. erewrite nth_error_nth by exact GJ. destruct (proj1 (pos_iff n h c y x (n * (y + x * h) + c) C Y ltac:(lia) ltac:(lia)) eq_refl) as (A & B & D). rewrite A, B, D. unfold mean, hbox. f_equal. unfold win, wsum, offsets, line. f_equal. rewrite (map_zrange_shift _ (x - r)), (map_zrange_shift _ (- r)). apply map_ext. intros d. do 2 f_equal. lia.
Qed.
End Half.
