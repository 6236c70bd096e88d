From Verif Require Import Base BaseLemmas ListLemmas Buffer BufferProofs Flat FlatSpec.
Local Open Scope Z_scope.

Lemma u64_pos : 0 < u64_max. Proof. reflexivity. Qed.

Lemma us_cmul_some a b v : us_cmul a b = Some v <-> v = a * b /\ a * b <= u64_max.
Proof. unfold us_cmul. destruct (Z.leb_spec (a * b) u64_max); split; intros; try (injection H0 as <-); try discriminate; intuition; try subst; auto; try lia. Qed.
Lemma us_cmul_none a b : us_cmul a b = None <-> u64_max < a * b.
Proof. unfold us_cmul. destruct (Z.leb_spec (a * b) u64_max); split; intros; try discriminate; auto; lia. Qed.

Lemma us_cmul_ok a b : a * b <= u64_max -> us_cmul a b = Some (a * b).
Proof. intros. apply us_cmul_some; auto. Qed.
Lemma us_cadd_ok a b : a + b <= u64_max -> us_cadd a b = Some (a + b).
Proof. intros. unfold us_cadd. replace (_ <=? _) with true by lia. reflexivity. Qed.
Lemma us_cadd_no a b : u64_max < a + b -> us_cadd a b = None.
Proof. intros. unfold us_cadd. replace (_ <=? _) with false by lia. reflexivity. Qed.

Lemma ignoring_ok l c x y : layout_ok l -> 0 <= c -> 0 <= x -> 0 <= y -> addr l c x y <= u64_max ->
  index_ignoring_bounds l c x y = Some (addr l c x y).
Proof.
  intros (_ & B & _ & D & _ & F) Hc Hx Hy H. unfold addr in *. unfold index_ignoring_bounds.
  assert (0 <= c * l_cs l) by (apply Z.mul_nonneg_nonneg; auto; apply B).
  assert (0 <= x * l_ws l) by (apply Z.mul_nonneg_nonneg; auto; apply D).
  assert (0 <= y * l_hs l) by (apply Z.mul_nonneg_nonneg; auto; apply F).
  rewrite !us_cmul_ok by lia. rewrite us_cadd_ok by lia. rewrite us_cadd_ok by lia. rewrite us_cadd_ok by lia.
  f_equal.
Qed.
Lemma ignoring_no l c x y : layout_ok l -> 0 <= c -> 0 <= x -> 0 <= y -> u64_max < addr l c x y ->
  index_ignoring_bounds l c x y = None.
Proof.
  intros (_ & B & _ & D & _ & F) Hc Hx Hy H. unfold addr in *. unfold index_ignoring_bounds.
  destruct (us_cmul c (l_cs l)) eqn:E1; [|reflexivity]. apply us_cmul_some in E1 as [-> E1].
  destruct (us_cmul x (l_ws l)) eqn:E2; [|reflexivity]. apply us_cmul_some in E2 as [-> E2].
  destruct (us_cmul y (l_hs l)) eqn:E3; [|reflexivity]. apply us_cmul_some in E3 as [-> E3].
  rewrite us_cadd_ok by lia. destruct (Z.leb_spec (0 + c * l_cs l + x * l_ws l) u64_max).
  - rewrite us_cadd_ok by lia. apply us_cadd_no. lia.
  - rewrite us_cadd_no by lia. reflexivity.
Qed.

Lemma in_bounds_iff l c x y : 0 <= c -> 0 <= x -> 0 <= y -> in_bounds l c x y = true <-> inside l c x y.
Proof. intros. unfold in_bounds, inside. lia. Qed.

Lemma index_iff l c x y i : layout_ok l -> 0 <= c -> 0 <= x -> 0 <= y ->
  index l c x y = Some i <-> inside l c x y /\ addr l c x y <= u64_max /\ i = addr l c x y.
Proof.
  intros L Hc Hx Hy. unfold index. destruct (in_bounds l c x y) eqn:E.
  - apply in_bounds_iff in E; auto. destruct (Z.leb_spec (addr l c x y) u64_max) as [H|H].
    + rewrite ignoring_ok by auto. split; [intros [= <-]; auto|intros (_ & _ & ->); auto].
    + rewrite ignoring_no by auto. split; [discriminate|lia].
  - split; [discriminate|]. intros (H & _). apply in_bounds_iff in H; auto. congruence.
Qed.

Lemma addr_mono l c x y c' x' y' : layout_ok l -> c <= c' -> x <= x' -> y <= y' ->
  addr l c x y <= addr l c' x' y'.
Proof.
  intros (_ & B & _ & D & _ & F) H1 H2 H3. unfold addr.
  pose proof (Z.mul_le_mono_nonneg_r c c' (l_cs l) (proj1 B) H1).
  pose proof (Z.mul_le_mono_nonneg_r x x' (l_ws l) (proj1 D) H2).
  pose proof (Z.mul_le_mono_nonneg_r y y' (l_hs l) (proj1 F) H3). lia.
Qed.
Lemma addr_nonneg l c x y : layout_ok l -> 0 <= c -> 0 <= x -> 0 <= y -> 0 <= addr l c x y.
Proof. intros L A B C. apply (addr_mono l 0 0 0 c x y L A B C). Qed.

Definition empty (l : layout) : Prop := l_w l = 0 \/ l_h l = 0 \/ l_c l = 0.
Definition last (l : layout) : Z := addr l (l_c l - 1) (l_w l - 1) (l_h l - 1).
Lemma empty_dec l : layout_ok l -> empty l \/ (0 < l_w l /\ 0 < l_h l /\ 0 < l_c l).
Proof. intros (A & _ & B & _ & C & _). unfold empty, is_u8, is_u32 in *. lia. Qed.

Lemma min_length_empty l : empty l -> min_length l = Some 0.
Proof. intros H. unfold min_length. unfold empty in H. replace (_ || _) with true by lia. reflexivity. Qed.
Lemma min_length_ok l : layout_ok l -> 0 < l_w l -> 0 < l_h l -> 0 < l_c l -> last l < u64_max ->
  min_length l = Some (last l + 1).
Proof.
  intros L A B C H. unfold min_length. replace (_ || _) with false by lia.
  assert (E : index l (l_c l - 1) (l_w l - 1) (l_h l - 1) = Some (last l)).
  { apply index_iff; auto; try lia. unfold inside, last in *. repeat split; lia. }
  rewrite E. apply us_cadd_ok. lia.
Qed.
Lemma min_length_no l : layout_ok l -> 0 < l_w l -> 0 < l_h l -> 0 < l_c l -> u64_max <= last l ->
  min_length l = None.
Proof.
  intros L A B C H. unfold min_length. replace (_ || _) with false by lia.
  destruct (index l (l_c l - 1) (l_w l - 1) (l_h l - 1)) eqn:E; [|reflexivity].
  apply index_iff in E as (_ & _ & ->); auto; try lia. apply us_cadd_no. unfold last in H. lia.
Qed.

Lemma fits_iff l len : layout_ok l -> 0 <= len <= u64_max ->
  fits l len = true <-> (forall c x y, inside l c x y -> addr l c x y < len).
Proof.
  intros L H. unfold fits. destruct (empty_dec l L) as [E|(A & B & C)].
  - rewrite min_length_empty by auto. split; [|lia]. intros _ c x y (I1 & I2 & I3). unfold empty in E. lia.
  - assert (HL : forall c x y, inside l c x y -> addr l c x y <= last l)
      by (intros c x y (I1 & I2 & I3); apply addr_mono; auto; lia).
    assert (IL : inside l (l_c l - 1) (l_w l - 1) (l_h l - 1)) by (unfold inside; lia).
    destruct (Z.ltb_spec (last l) u64_max) as [D|D].
    + rewrite min_length_ok by auto. split.
      * intros I c x y J. specialize (HL _ _ _ J). lia.
      * intros I. specialize (I _ _ _ IL). fold (last l) in I. lia.
    + rewrite min_length_no by auto. split; [discriminate|].
      intros I. specialize (I _ _ _ IL). fold (last l) in I. lia.
Qed.

Lemma fits_shrink l c w h len : layout_ok l -> 0 <= len <= u64_max -> is_u8 c -> is_u32 w -> is_u32 h ->
  fits l len = true -> layout_ok (shrink_to l c w h) /\ fits (shrink_to l c w h) len = true.
Proof.
  intros L H Hc Hw Hh F. assert (L' : layout_ok (shrink_to l c w h)).
  { unfold layout_ok, shrink_to, is_u8, is_u32, is_u64 in *. cbn. lia. }
  split; auto. apply fits_iff; auto. intros c0 x y I.
  change (addr (shrink_to l c w h) c0 x y) with (addr l c0 x y). apply (proj1 (fits_iff l len L H) F).
  unfold inside, shrink_to in *. cbn in I. lia.
Qed.

Lemma in_bounds_index_ok l len c x y : layout_ok l -> 0 <= len <= u64_max -> fits l len = true ->
  inside l c x y -> in_bounds_index l c x y = Ok (addr l c x y) /\ 0 <= addr l c x y < len.
Proof.
  intros L H F I. pose proof (proj1 (fits_iff l len L H) F _ _ _ I) as G.
  destruct I as (I1 & I2 & I3).
  pose proof (addr_nonneg l c x y L ltac:(lia) ltac:(lia) ltac:(lia)). split; [|lia].
  pose proof (addr_nonneg l c 0 0 L ltac:(lia) ltac:(lia) ltac:(lia)).
  pose proof (addr_nonneg l 0 x 0 L ltac:(lia) ltac:(lia) ltac:(lia)).
  pose proof (addr_nonneg l 0 0 y L ltac:(lia) ltac:(lia) ltac:(lia)). unfold addr in *.
  unfold in_bounds_index, us_mul, us_add. cbn [bind].
  replace (y * l_hs l <=? u64_max) with true by lia. cbn [bind].
  replace (x * l_ws l <=? u64_max) with true by lia. cbn [bind].
  replace (y * l_hs l + x * l_ws l <=? u64_max) with true by lia. cbn [bind].
  replace (c * l_cs l <=? u64_max) with true by lia. cbn [bind].
  replace (y * l_hs l + x * l_ws l + c * l_cs l <=? u64_max) with true by lia. f_equal. lia.
Qed.

Lemma foldM_collect {A B} (f : A -> res B) (g : A -> B) l acc :
  (forall a, In a l -> f a = Ok (g a)) ->
  foldM (fun acc a => s <- f a ;; Ok (acc ++ [s])) l acc = Ok (acc ++ map g l).
Proof.
  revert acc. induction l as [|a l IH]; intros acc H; cbn [foldM map]; [rewrite app_nil_r; reflexivity|].
  rewrite (H a) by (left; auto). cbn [bind]. rewrite IH by (intros; apply H; right; auto).
  rewrite <- app_assoc. reflexivity.
Qed.

Section V.
Context {S : Type}.
Variable c : Z.
Hypothesis Hc : 1 <= c <= 255.

Lemma get_pixel_view (v : flat S) x y : layout_ok (lay v) -> zlen (samples v) <= u64_max ->
  l_c (lay v) = c -> fits (lay v) (zlen (samples v)) = true -> 0 <= x < l_w (lay v) -> 0 <= y < l_h (lay v) ->
  exists p, view_get_pixel c v x y = Ok p /\ zlen p = c /\
    (forall ch, 0 <= ch < c -> zget p ch = zget (samples v) (addr (lay v) ch x y)).
Proof.
  intros L Hlen E F Hx Hy. set (l := lay v) in *. set (s := samples v) in *.
  pose proof (zlen_nonneg s) as Hs.
  assert (IN : forall ch, 0 <= ch < c -> inside l ch x y) by (intros; unfold inside; lia).
  assert (AD : forall ch, 0 <= ch < c -> 0 <= addr l ch x y < zlen s).
  { intros ch H. apply (in_bounds_index_ok l (zlen s) ch x y L); auto. }
  destruct (in_bounds_index_ok l (zlen s) 0 x y L ltac:(lia) F (IN 0 ltac:(lia))) as [Eb _].
  destruct (zget_some s (addr l 0 x y) (AD 0 ltac:(lia))) as [d0 _].
  set (g := fun ch => match zget s (addr l ch x y) with Some a => a | None => d0 end).
  exists (map g (zrange 0 c)). split; [|split].
  - unfold view_get_pixel. fold l. fold s.
    replace (in_bounds l 0 x y) with true by (symmetry; apply in_bounds_iff; try lia; apply IN; lia).
    cbn [negb]. rewrite Eb. cbn [bind].
    rewrite (foldM_ext _ (fun acc ch => t <- (o <- us_mul ch (l_cs l) ;; i <- us_add (addr l 0 x y) o ;; at_ s i) ;; Ok (acc ++ [t]))).
    2:{ intros acc a _. destruct (us_mul a (l_cs l)); cbn [bind]; auto.
        destruct (us_add (addr l 0 x y) a0); cbn [bind]; auto. }
    rewrite (foldM_collect _ g); [reflexivity|].
    intros ch Hch. apply In_zrange in Hch. pose proof (AD ch ltac:(lia)) as A1.
    pose proof (addr_nonneg l 0 x y L ltac:(lia) ltac:(lia) ltac:(lia)) as A2.
    assert (EA : addr l ch x y = addr l 0 x y + ch * l_cs l) by (unfold addr; lia).
    unfold us_mul. replace (ch * l_cs l <=? u64_max) with true by lia. cbn [bind].
    unfold us_add. replace (addr l 0 x y + ch * l_cs l <=? u64_max) with true by lia. cbn [bind].
    rewrite <- EA. unfold at_, g. destruct (zget_some s _ A1) as [a ->]. reflexivity.
  - rewrite zlen_map, zlen_zrange. lia.
  - intros ch Hch. rewrite zget_map, zget_zrange by lia. cbn [option_map].
    replace (0 + ch) with ch by lia. unfold g. destruct (zget_some s _ (AD ch Hch)) as [a ->]. reflexivity.
Qed.
End V.

(** ** aliasing *)
Definition sorted3 (a b c : dim) : Prop := fst a <= fst b <= fst c.
Lemma dims_cases l : let '(a, b, c) := increasing_stride_dims l in
  let C := (l_cs l, l_c l) in let W := (l_ws l, l_w l) in let H := (l_hs l, l_h l) in
  sorted3 a b c /\
  ((a, b, c) = (C, W, H) \/ (a, b, c) = (C, H, W) \/ (a, b, c) = (W, C, H) \/
   (a, b, c) = (W, H, C) \/ (a, b, c) = (H, C, W) \/ (a, b, c) = (H, W, C)).
Proof.
  unfold increasing_stride_dims, dsort, fold_right, ins, sorted3.
  destruct l as [c cs w ws h hs]. cbn [l_c l_cs l_w l_ws l_h l_hs].
  destruct (dim_le (ws, w) (hs, h)) eqn:E1; destruct (dim_le (cs, c) (ws, w)) eqn:E2;
  destruct (dim_le (cs, c) (hs, h)) eqn:E3; unfold dim_le in *; cbn [fst snd] in *;
  (split; [lia|tauto]) || (exfalso; lia).
Qed.

(** three strides, smallest first, each covering the one below *)
Lemma alias3 s1 n1 s2 n2 s3 n3 a b c a' b' c' :
  0 <= s1 -> s1 <= s2 -> s2 <= s3 -> s1 * n1 <= s2 -> s2 * n2 <= s3 ->
  0 <= a < n1 -> 0 <= b < n2 -> 0 <= c < n3 -> 0 <= a' < n1 -> 0 <= b' < n2 -> 0 <= c' < n3 ->
  (1 < n1 -> 0 < s1) -> (1 < n2 -> 0 < s2) -> (1 < n3 -> 0 < s3) ->
  a * s1 + b * s2 + c * s3 = a' * s1 + b' * s2 + c' * s3 -> a = a' /\ b = b' /\ c = c'.
Proof.
  intros S1 S12 S23 C1 C2 A B C A' B' C' Z1 Z2 Z3 E.
  assert (Q : forall a, 0 <= a < n1 -> 0 <= a * s1 <= s2 - s1).
  { intros t T. pose proof (Z.mul_le_mono_nonneg_r t (n1 - 1) s1 S1 ltac:(lia)).
    pose proof (Z.mul_nonneg_nonneg t s1 ltac:(lia) S1). lia. }
  assert (R : forall b, 0 <= b < n2 -> 0 <= b * s2 <= s3 - s2).
  { intros t T. pose proof (Z.mul_le_mono_nonneg_r t (n2 - 1) s2 ltac:(lia) ltac:(lia)).
    pose proof (Z.mul_nonneg_nonneg t s2 ltac:(lia) ltac:(lia)). lia. }
  pose proof (Q a A). pose proof (Q a' A'). pose proof (R b B). pose proof (R b' B').
  assert (Hc : c = c').
  { destruct (Z.eq_dec n3 1) as [->|N]; [lia|]. specialize (Z3 ltac:(lia)).
    assert (P : forall u v, 0 <= u < n3 -> 0 <= v < n3 -> u < v -> u * s3 + s3 <= v * s3).
    { intros u v _ _ UV. pose proof (Z.mul_le_mono_nonneg_r (u + 1) v s3 ltac:(lia) ltac:(lia)). lia. }
    destruct (Z.lt_trichotomy c c') as [L|[L|L]]; auto; exfalso.
    - specialize (P c c' C C' L). assert (s1 = 0) by lia. subst s1. assert (s2 = 0) by lia. subst s2. lia.
    - specialize (P c' c C' C L). assert (s1 = 0) by lia. subst s1. assert (s2 = 0) by lia. subst s2. lia. }
  subst c'. assert (Hb : b = b').
  { destruct (Z.eq_dec n2 1) as [->|N]; [lia|]. specialize (Z2 ltac:(lia)).
    assert (P : forall u v, u < v -> u * s2 + s2 <= v * s2).
    { intros u v UV. pose proof (Z.mul_le_mono_nonneg_r (u + 1) v s2 ltac:(lia) ltac:(lia)). lia. }
    destruct (Z.lt_trichotomy b b') as [L|[L|L]]; auto; exfalso.
    - specialize (P b b' L). assert (s1 = 0) by lia. subst s1. lia.
    - specialize (P b' b L). assert (s1 = 0) by lia. subst s1. lia. }
  subst b'. assert (a * s1 = a' * s1) by lia.
  destruct (Z.eq_dec n1 1) as [->|N]; [lia|]. specialize (Z1 ltac:(lia)).
  apply Z.mul_reg_r in H3; lia.
Qed.

Lemma unaliased_ok l : layout_ok l -> has_aliased_samples l = false -> no_zero_stride l -> unaliased l.
Proof.
  intros (_ & B & _ & D & _ & F) H (N1 & N2 & N3) c x y c' x' y' (I1 & I2 & I3) (J1 & J2 & J3) E.
  unfold addr in E. pose proof (dims_cases l) as DC. unfold has_aliased_samples in H.
  destruct (increasing_stride_dims l) as [[a b] d]. destruct DC as [S DC].
  unfold checked_len in H.
  destruct (us_cmul (fst a) (snd a)) eqn:E1; [|discriminate]. apply us_cmul_some in E1 as [-> _].
  destruct (us_cmul (fst b) (snd b)) eqn:E2; [|discriminate]. apply us_cmul_some in E2 as [-> _].
  destruct (us_cmul (fst d) (snd d)) eqn:E3; [|discriminate]. unfold is_u64, sorted3 in *.
  assert (A1 : fst a * snd a <= fst b) by lia. assert (A2 : fst b * snd b <= fst d) by lia. clear H E3.
  destruct DC as [X|[X|[X|[X|[X|X]]]]]; injection X as -> -> ->; cbn [fst snd] in *.
  - pose proof (fun Q => alias3 _ _ _ _ _ (l_h l) c x y c' x' y' (proj1 B) (proj1 S) (proj2 S) A1 A2 I1 I2 I3 J1 J2 J3 Q N2 N3 ltac:(lia)). tauto.
  - pose proof (fun Q => alias3 _ _ _ _ _ (l_w l) c y x c' y' x' (proj1 B) (proj1 S) (proj2 S) A1 A2 I1 I3 I2 J1 J3 J2 Q N3 N2 ltac:(lia)). tauto.
  - pose proof (fun Q => alias3 _ _ _ _ _ (l_h l) x c y x' c' y' (proj1 D) (proj1 S) (proj2 S) A1 A2 I2 I1 I3 J2 J1 J3 Q N1 N3 ltac:(lia)). tauto.
  - pose proof (fun Q => alias3 _ _ _ _ _ (l_c l) x y c x' y' c' (proj1 D) (proj1 S) (proj2 S) A1 A2 I2 I3 I1 J2 J3 J1 Q N3 N1 ltac:(lia)). tauto.
  - pose proof (fun Q => alias3 _ _ _ _ _ (l_w l) y c x y' c' x' (proj1 F) (proj1 S) (proj2 S) A1 A2 I3 I1 I2 J3 J1 J2 Q N1 N2 ltac:(lia)). tauto.
  - pose proof (fun Q => alias3 _ _ _ _ _ (l_c l) y x c y' x' c' (proj1 F) (proj1 S) (proj2 S) A1 A2 I3 I2 I1 J3 J2 J1 Q N2 N1 ltac:(lia)). tauto.
Qed.

Lemma us_cmul_false s n : us_cmul s n <> None -> us_mul n s = Ok (n * s).
Proof. unfold us_cmul, us_mul. rewrite (Z.mul_comm s n). destruct (_ <=? _); [auto|congruence]. Qed.

Lemma checked_all l : has_aliased_samples l = false ->
  us_mul (l_w l) (l_ws l) = Ok (l_w l * l_ws l) /\ us_mul (l_h l) (l_hs l) = Ok (l_h l * l_hs l).
Proof.
  intros H. pose proof (dims_cases l) as DC. unfold has_aliased_samples in H.
  destruct (increasing_stride_dims l) as [[a b] d]. destruct DC as [_ DC]. unfold checked_len in H.
  destruct (us_cmul (fst a) (snd a)) eqn:E1; [|discriminate].
  destruct (us_cmul (fst b) (snd b)) eqn:E2; [|discriminate].
  destruct (us_cmul (fst d) (snd d)) eqn:E3; [|discriminate].
  destruct DC as [X|[X|[X|[X|[X|X]]]]]; injection X as -> -> ->; cbn [fst snd] in *;
  split; apply us_cmul_false; auto; congruence.
Qed.

Lemma is_normal_total l f : exists b, is_normal l f = Ok b.
Proof.
  unfold is_normal. destruct (has_aliased_samples l) eqn:E; [eauto|].
  destruct (checked_all l E) as [E1 E2]. destruct (_ && _); [eauto|].
  destruct (increasing_stride_dims l) as [[a b] d]. destruct (_ && _); [eauto|].
  rewrite E1, E2. cbn [bind]. destruct (nf_ge f RowMajorPacked), (nf_ge f ColumnMajorPacked),
    (negb (l_ws l =? l_c l)), (negb (l_hs l =? l_c l)); cbn [bind negb]; eauto;
  destruct (l_w l * l_ws l =? l_hs l); cbn [negb]; eauto.
Qed.

Lemma pixel_packed_iff l : is_normal l PixelPacked = Ok true <-> has_aliased_samples l = false /\ l_cs l = 1.
Proof.
  unfold is_normal. destruct (has_aliased_samples l) eqn:E; [split; [discriminate|intros []; discriminate]|].
  cbn [nf_ge andb]. destruct (l_cs l =? 1) eqn:E1; cbn [negb].
  - destruct (increasing_stride_dims l) as [[a b] d]. cbn. split; auto. intros _; split; auto; lia.
  - split; [discriminate|lia].
Qed.

Lemma row_major_iff l : is_normal l RowMajorPacked = Ok true ->
  l_cs l = 1 /\ l_ws l = l_c l /\ l_hs l = l_w l * l_c l.
Proof.
  unfold is_normal. destruct (has_aliased_samples l) eqn:E; [discriminate|].
  cbn [nf_ge andb]. destruct (l_cs l =? 1) eqn:E1; cbn [negb]; [|discriminate].
  destruct (increasing_stride_dims l) as [[a b] d]. destruct (_ || _); [discriminate|].
  destruct (l_ws l =? l_c l) eqn:E2; cbn [negb bind]; [|discriminate].
  destruct (checked_all l E) as [E3 _]. rewrite E3. cbn [bind].
  destruct (l_w l * l_ws l =? l_hs l) eqn:E4; cbn; [|discriminate]. intros _.
  assert (l_ws l = l_c l) by lia. rewrite <- H. lia.
Qed.

Lemma row_major_packed_ok c w h : is_u8 c -> is_u32 w -> is_u32 h ->
  row_major_packed c w h = Ok (mkLayout c 1 w c h (c * w)) /\ layout_ok (mkLayout c 1 w c h (c * w)).
Proof.
  intros Hc Hw Hh. unfold row_major_packed. unfold is_u8, is_u32, layout_ok, is_u64 in *. cbn.
  assert (0 <= c * w <= 255 * u32_max).
  { split; [apply Z.mul_nonneg_nonneg; lia|].
    pose proof (Z.mul_le_mono_nonneg_r c 255 w ltac:(lia) ltac:(unfold u8_max in *; lia)). lia. }
  assert (255 * u32_max < u64_max) by reflexivity.
  rewrite us_cmul_ok by lia. split; [reflexivity|]. unfold is_u8, is_u32, u8_max in *.
  assert (255 < u64_max) by reflexivity. repeat split; lia.
Qed.
Lemma column_major_packed_ok c w h : is_u8 c -> is_u32 w -> is_u32 h ->
  column_major_packed c w h = Ok (mkLayout c 1 w (c * h) h c) /\ layout_ok (mkLayout c 1 w (c * h) h c).
Proof.
  intros Hc Hw Hh. unfold column_major_packed. unfold is_u8, is_u32, layout_ok, is_u64 in *. cbn.
  assert (0 <= c * h <= 255 * u32_max).
  { split; [apply Z.mul_nonneg_nonneg; lia|].
    pose proof (Z.mul_le_mono_nonneg_r c 255 h ltac:(lia) ltac:(unfold u8_max in *; lia)). lia. }
  assert (255 * u32_max < u64_max) by reflexivity.
  rewrite us_cmul_ok by lia. split; [reflexivity|]. unfold is_u8, is_u32, u8_max in *.
  assert (255 < u64_max) by reflexivity. repeat split; lia.
Qed.
