(** C08, C09: strided sample layouts and views (src/flat.rs).  [addr], [inside], [unaliased] and
    [no_zero_stride] are defined in FlatSpec.v. *)
From Verif Require Import Base BaseLemmas ListLemmas Buffer BufferProofs Flat FlatSpec FlatProofs.
Local Open Scope Z_scope.

(** ** C08 *)
(** index(c,x,y) is defined exactly for coordinates inside the layout whose address fits usize *)
Theorem C08_index_iff : forall l c x y i, layout_ok l -> 0 <= c -> 0 <= x -> 0 <= y ->
  index l c x y = Some i <-> inside l c x y /\ addr l c x y <= u64_max /\ i = addr l c x y.
Proof. exact index_iff. Qed.
Print Assumptions C08_index_iff.

(** min_length() is the least buffer length that has room for every coordinate; it is None only
    when no buffer of a length representable in usize has *)
Theorem C08_min_length_least : forall l, layout_ok l ->
  let room n := forall c x y, inside l c x y -> addr l c x y < n in
  match min_length l with
  | Some m => 0 <= m <= u64_max /\ forall n, 0 <= n -> (room n <-> m <= n)
  | None => forall n, 0 <= n <= u64_max -> ~ room n
  end.
Proof.
  intros l L room. destruct (empty_dec l L) as [E|(A & B & C)].
  - rewrite min_length_empty by auto. split; [split; [lia|discriminate]|].
    intros n Hn. split; [intros _; exact Hn|]. intros _ c x y (I1 & I2 & I3). unfold empty in E. lia.
  - assert (IL : inside l (l_c l - 1) (l_w l - 1) (l_h l - 1)) by (unfold inside; lia).
    assert (HL : forall c x y, inside l c x y -> addr l c x y <= last l)
      by (intros c x y (I1 & I2 & I3); apply addr_mono; auto; lia).
    destruct (Z.ltb_spec (last l) u64_max) as [D|D].
    + rewrite min_length_ok by auto. split.
      * split; [|lia]. pose proof (addr_nonneg l (l_c l - 1) (l_w l - 1) (l_h l - 1) L ltac:(lia) ltac:(lia) ltac:(lia)) as Q.
        fold (last l) in Q. lia.
      * intros n Hn. split; intros H.
        -- specialize (H _ _ _ IL). fold (last l) in H. lia.
        -- intros c x y I. specialize (HL c x y I). lia.
    + rewrite min_length_no by auto. intros n Hn H. specialize (H _ _ _ IL). fold (last l) in H. lia.
Qed.
Print Assumptions C08_min_length_least.

Theorem C08_fits_iff : forall l len, layout_ok l -> 0 <= len <= u64_max ->
  fits l len = true <-> (forall c x y, inside l c x y -> addr l c x y < len).
Proof. exact fits_iff. Qed.
Print Assumptions C08_fits_iff.

(** a view exists exactly if the channel count matches and the buffer is long enough ... *)
Theorem C08_as_view_iff : forall S c (f : flat S) v, as_view c f = inr v <->
  v = f /\ l_c (lay f) = c /\ fits (lay f) (zlen (samples f)) = true.
Proof.
  intros S c f v. unfold as_view. destruct (Z.eqb_spec (l_c (lay f)) c); cbn [negb];
  [destruct (fits _ _); cbn [negb]|]; split; intros H; try discriminate; try (injection H as <-); intuition congruence.
Qed.
Print Assumptions C08_as_view_iff.

(** ... and then every access to it reads the addressed samples (no overflow, no out-of-bounds
    access), panicking exactly outside the image *)
Theorem C08_view_get_pixel : forall S c, 1 <= c <= 255 -> forall (f v : flat S) x y,
  layout_ok (lay f) -> zlen (samples f) <= u64_max -> as_view c f = inr v -> 0 <= x -> 0 <= y ->
  (x < l_w (lay f) /\ y < l_h (lay f) ->
     exists p, view_get_pixel c v x y = Ok p /\ zlen p = c /\
       (forall ch, 0 <= ch < c -> zget p ch = zget (samples f) (addr (lay f) ch x y))) /\
  (l_w (lay f) <= x \/ l_h (lay f) <= y -> view_get_pixel c v x y = Panic).
Proof.
  intros S c Hc f v x y L HL E Hx Hy. apply C08_as_view_iff in E as (-> & E1 & E2). split.
  - intros [A B]. apply get_pixel_view; auto; lia.
  - intros H. unfold view_get_pixel, in_bounds.
    match goal with |- (if negb ?e then _ else _) = _ => replace e with false by lia end. reflexivity.
Qed.
Print Assumptions C08_view_get_pixel.

Theorem C08_view_get_sample : forall S c (f v : flat S) ch x y,
  layout_ok (lay f) -> zlen (samples f) <= u64_max -> as_view c f = inr v -> 0 <= ch -> 0 <= x -> 0 <= y ->
  (inside (lay f) ch x y -> exists s, view_get_sample v ch x y = Ok (Some s) /\
                                      zget (samples f) (addr (lay f) ch x y) = Some s) /\
  (~ inside (lay f) ch x y -> view_get_sample v ch x y = Ok None).
Proof.
  intros S c f v ch x y L HL E Hch Hx Hy. apply C08_as_view_iff in E as (-> & E1 & E2).
  unfold view_get_sample. split; intros I.
  - rewrite (proj2 (in_bounds_iff _ _ _ _ Hch Hx Hy) I). cbn [negb].
    pose proof (zlen_nonneg (samples f)).
    destruct (in_bounds_index_ok (lay f) (zlen (samples f)) ch x y L ltac:(lia) E2 I) as [-> A].
    cbn [bind]. destruct (zget_some _ _ A) as [s ->]. eauto.
  - destruct (in_bounds (lay f) ch x y) eqn:B; [|reflexivity].
    apply in_bounds_iff in B; auto. contradiction.
Qed.
Print Assumptions C08_view_get_sample.

(** shrinking a layout keeps every remaining access valid *)
Theorem C08_shrink : forall l c w h len, layout_ok l -> 0 <= len <= u64_max -> is_u8 c -> is_u32 w -> is_u32 h ->
  fits l len = true -> layout_ok (shrink_to l c w h) /\ fits (shrink_to l c w h) len = true.
Proof. exact fits_shrink. Qed.
Print Assumptions C08_shrink.

(** packed layouts: exactly c*w*h samples, each position 0..c*w*h-1 holding exactly one sample *)
Definition dense (l : layout) : Prop :=
  min_length l = Some (l_c l * l_w l * l_h l) /\ unaliased l /\
  (forall i, 0 <= i < l_c l * l_w l * l_h l -> exists c x y, inside l c x y /\ addr l c x y = i).

Lemma pack_inj c a r a' r' : 0 <= r < c -> 0 <= r' < c -> a * c + r = a' * c + r' -> a = a' /\ r = r'.
Proof. intros. apply (Z.div_mod_unique c); try lia. Qed.

Lemma dense_gen c n m i : 0 < c -> 0 < n -> 0 <= m -> 0 <= i < c * n * m ->
  let ch := i mod c in let a := (i / c) mod n in let b := i / c / n in
  (0 <= ch < c /\ 0 <= a < n /\ 0 <= b < m) /\ ch + a * c + b * (c * n) = i.
Proof.
  intros Hc Hn Hm Hi ch a b. pose proof (Z.mod_pos_bound i c Hc). pose proof (Z.mod_pos_bound (i / c) n Hn).
  pose proof (Z.div_mod i c ltac:(lia)). pose proof (Z.div_mod (i / c) n ltac:(lia)).
  assert (0 <= b). { apply Z.div_pos; [apply Z.div_pos|]; lia. }
  assert (b < m). { unfold b. rewrite Z.div_div by lia. apply Z.div_lt_upper_bound; [apply Z.mul_pos_pos|]; lia. }
  split; [lia|]. fold a b in H2. fold ch in H1. rewrite H1, H2. ring.
Qed.

Theorem C08_row_major_packed : forall c w h, 1 <= c <= 255 -> is_u32 w -> is_u32 h -> c * w * h <= u64_max ->
  exists l, row_major_packed c w h = Ok l /\ layout_ok l /\
    (l_c l, l_w l, l_h l) = (c, w, h) /\ dense l /\
    (forall ch x y, addr l ch x y = (y * w + x) * c + ch) /\
    (0 < w -> 0 < h -> is_normal l RowMajorPacked = Ok true).
Proof.
  intros c w h Hc Hw Hh HB. destruct (row_major_packed_ok c w h ltac:(unfold is_u8, u8_max; lia) Hw Hh) as [E L].
  exists (mkLayout c 1 w c h (c * w)). do 2 (split; [assumption|]). split; [reflexivity|].
  unfold is_u32 in *.
  assert (AD : forall ch x y, addr (mkLayout c 1 w c h (c * w)) ch x y = (y * w + x) * c + ch)
    by (intros; unfold addr; cbn; ring).
  split; [split; [|split]|split; [exact AD|]].
  - cbn [l_c l_w l_h]. destruct (Z.eq_dec w 0) as [->|]; [|destruct (Z.eq_dec h 0) as [->|]].
    + rewrite min_length_empty by (unfold empty; cbn; lia). f_equal. ring.
    + rewrite min_length_empty by (unfold empty; cbn; lia). f_equal. ring.
    + assert (EL : last (mkLayout c 1 w c h (c * w)) = c * w * h - 1).
      { unfold last. rewrite AD. cbn. ring. }
      rewrite min_length_ok; cbn [l_c l_w l_h]; auto; try lia; rewrite EL; f_equal; lia.
  - intros ch x y ch' x' y' (I1 & I2 & I3) (J1 & J2 & J3) Q. cbn in I1, I2, I3, J1, J2, J3. rewrite !AD in Q.
    apply pack_inj in Q as [Q ->]; auto. apply pack_inj in Q as [-> ->]; auto.
  - cbn [l_c l_w l_h]. intros i Hi.
    assert (0 < w). { destruct (Z.eq_dec w 0) as [->|]; [|lia]. rewrite Z.mul_0_r in Hi. cbn in Hi. lia. }
    destruct (dense_gen c w h i ltac:(lia) ltac:(lia) ltac:(lia) Hi) as [A B].
    exists (i mod c), ((i / c) mod w), (i / c / w). split; [exact A|]. unfold addr. cbn. lia.
  - intros W H0. unfold is_normal.
    assert (C1 : c * w <= u64_max).
    { pose proof (Z.mul_le_mono_nonneg_l 1 h (c * w) ltac:(apply Z.mul_nonneg_nonneg; lia) ltac:(lia)). lia. }
    assert (C2 : c <= c * w).
    { pose proof (Z.mul_le_mono_nonneg_l 1 w c ltac:(lia) ltac:(lia)). lia. }
    assert (C3 : 1 * c <= c * w /\ c * 1 <= c * w) by lia.
    assert (D : exists a b d, increasing_stride_dims (mkLayout c 1 w c h (c * w)) = (a, b, d) /\
      fst a = 1 /\ fst a * snd a = fst b /\ fst b * snd b = fst d /\ fst d * snd d = c * w * h /\ fst b <= c * w /\ fst d = c * w).
    { assert (C4 : c * w = 1 -> c = 1 /\ w = 1).
      { intros. assert (c = 1) by lia. subst c. lia. }
      assert (C5 : c * w = c -> w = 1).
      { intros. apply (Z.mul_reg_l _ _ c); lia. }
      unfold increasing_stride_dims, dsort, fold_right, ins, dim_le. cbn [l_c l_w l_h l_cs l_ws l_hs fst snd].
      repeat match goal with |- context[if ?e then _ else _] =>
        lazymatch e with context[if _ then _ else _] => fail | _ => destruct e eqn:? end;
        unfold dim_le in *; cbn [fst snd] in * end;
      (do 3 eexists; split; [reflexivity|]; cbn [fst snd];
       first [ lia
             | (assert (w = 1) by (apply C5; lia); subst w; first [lia | (assert (c = 1) by lia; subst c; lia)])
             | (assert (c = 1) by lia; subst c; first [lia | (assert (w = 1) by lia; subst w; lia)])
             | exfalso; lia ]). }
    destruct D as (a & b & d & ED & D1 & D2 & D3 & D4 & D5 & D6).
    assert (HA : has_aliased_samples (mkLayout c 1 w c h (c * w)) = false).
    { unfold has_aliased_samples. rewrite ED. unfold checked_len.
      rewrite !us_cmul_ok by lia. lia. }
    rewrite HA. cbn [nf_ge andb l_cs]. change (1 =? 1) with true. cbn [negb]. rewrite ED. unfold dim_len.
    rewrite D2, D1, Z.eqb_refl. rewrite Z.eqb_refl.
    replace (fst b * snd b =? fst d) with true by lia. cbn [negb orb l_ws l_c l_w l_hs].
    rewrite Z.eqb_refl. cbn [negb]. unfold us_mul. replace (w * c <=? u64_max) with true by lia. cbn [bind].
    replace (w * c =? c * w) with true by lia. reflexivity.
Qed.
Print Assumptions C08_row_major_packed.

Theorem C08_column_major_packed : forall c w h, 1 <= c <= 255 -> is_u32 w -> is_u32 h -> c * w * h <= u64_max ->
  exists l, column_major_packed c w h = Ok l /\ layout_ok l /\
    (l_c l, l_w l, l_h l) = (c, w, h) /\ dense l /\
    (forall ch x y, addr l ch x y = (x * h + y) * c + ch).
Proof.
  intros c w h Hc Hw Hh HB. destruct (column_major_packed_ok c w h ltac:(unfold is_u8, u8_max; lia) Hw Hh) as [E L].
  exists (mkLayout c 1 w (c * h) h c). do 2 (split; [assumption|]). split; [reflexivity|].
  unfold is_u32 in *.
  assert (AD : forall ch x y, addr (mkLayout c 1 w (c * h) h c) ch x y = (x * h + y) * c + ch)
    by (intros; unfold addr; cbn; ring).
  split; [split; [|split]|exact AD].
  - cbn [l_c l_w l_h]. destruct (Z.eq_dec w 0) as [->|]; [|destruct (Z.eq_dec h 0) as [->|]].
    + rewrite min_length_empty by (unfold empty; cbn; lia). f_equal. ring.
    + rewrite min_length_empty by (unfold empty; cbn; lia). f_equal. ring.
    + assert (EL : last (mkLayout c 1 w (c * h) h c) = c * w * h - 1).
      { unfold last. rewrite AD. cbn. ring. }
      rewrite min_length_ok; cbn [l_c l_w l_h]; auto; try lia; rewrite EL; f_equal; lia.
  - intros ch x y ch' x' y' (I1 & I2 & I3) (J1 & J2 & J3) Q. cbn in I1, I2, I3, J1, J2, J3. rewrite !AD in Q.
    apply pack_inj in Q as [Q ->]; auto. apply pack_inj in Q as [-> ->]; auto.
  - cbn [l_c l_w l_h]. intros i Hi.
    assert (0 < h). { destruct (Z.eq_dec h 0) as [->|]; [|lia]. rewrite Z.mul_0_r in Hi. lia. }
    destruct (dense_gen c h w i ltac:(lia) ltac:(lia) ltac:(lia) ltac:(lia)) as [A B].
    exists (i mod c), (i / c / h), ((i / c) mod h). split; [unfold inside; cbn; lia|]. unfold addr. cbn. lia.
Qed.
Print Assumptions C08_column_major_packed.

(** try_into_buffer: the resulting ImageBuffer has the same pixels as the flat view *)
Theorem C08_try_into_buffer : forall S c, 1 <= c <= 255 -> forall (f : flat S),
  layout_ok (lay f) -> zlen (samples f) <= u64_max ->
  exists r, try_into_buffer c f = Ok r /\
    (forall b, r = inr b -> valid c b /\ data b = samples f /\ bw b = l_w (lay f) /\ bh b = l_h (lay f) /\
       as_view c f = inr f /\
       forall x y, 0 <= x < bw b -> 0 <= y < bh b -> bget c b x y = view_get_pixel c f x y).
Proof.
  intros S c Hc f L HL. unfold try_into_buffer. destruct (is_normal_total (lay f) RowMajorPacked) as [n En].
  rewrite En. cbn [bind]. destruct n; cbn [negb]; [|eexists; split; [reflexivity|discriminate]].
  apply row_major_iff in En as (R1 & R2 & R3).
  destruct (Z.eqb_spec (l_c (lay f)) c) as [EC|EC]; cbn [negb]; [|eexists; split; [reflexivity|discriminate]].
  destruct (fits (lay f) (zlen (samples f))) eqn:F; cbn [negb]; [|eexists; split; [reflexivity|discriminate]].
  pose proof (zlen_nonneg (samples f)) as Hz. destruct L as (L1 & L2 & L3 & L4 & L5 & L6).
  assert (L : layout_ok (lay f)) by (unfold layout_ok; auto 10).
  pose proof (proj1 (fits_iff (lay f) (zlen (samples f)) L ltac:(lia)) F) as FF. unfold is_u32 in *.
  assert (AD : forall ch x y, addr (lay f) ch x y = (y * l_w (lay f) + x) * c + ch).
  { intros. unfold addr. rewrite R1, R2, R3, EC. ring. }
  assert (SZ : l_w (lay f) * l_h (lay f) * c <= zlen (samples f)).
  { destruct (Z.eq_dec (l_w (lay f)) 0) as [->|]; [lia|]. destruct (Z.eq_dec (l_h (lay f)) 0) as [->|]; [lia|].
    specialize (FF (c - 1) (l_w (lay f) - 1) (l_h (lay f) - 1)). rewrite AD in FF.
    assert (inside (lay f) (c - 1) (l_w (lay f) - 1) (l_h (lay f) - 1)) by (unfold inside; lia).
    specialize (FF H). assert (Q : ((l_h (lay f) - 1) * l_w (lay f) + (l_w (lay f) - 1)) * c + (c - 1) = l_w (lay f) * l_h (lay f) * c - 1) by ring. lia. }
  destruct (from_raw_iff c Hc (l_w (lay f)) (l_h (lay f)) (samples f) L3 L5 HL) as [P _].
  destruct (P SZ) as [-> V]. eexists; split; [reflexivity|]. intros b [= <-]. cbn [data bw bh].
  split; [exact V|]. do 3 (split; [reflexivity|]).
  split. { apply C08_as_view_iff. auto. }
  intros x y Hx Hy. rewrite (bget_in c Hc) by (auto; cbn; lia). cbn [data bw].
  destruct (get_pixel_view c Hc f x y L HL EC F Hx Hy) as (p & -> & P1 & P2). f_equal. symmetry.
  apply zget_ext'. intros i Hi. destruct (Z.ltb_spec i c).
  - rewrite P2, AD by lia. rewrite zget_zslice_gen.
    2:{ apply Z.mul_nonneg_nonneg; [|lia]. pose proof (Z.mul_nonneg_nonneg y (l_w (lay f)) ltac:(lia) ltac:(lia)). lia. }
    replace (_ && _) with true by lia. reflexivity.
  - rewrite zget_none by lia. symmetry. apply zget_none. rewrite zlen_zslice_gen. lia.
Qed.
Print Assumptions C08_try_into_buffer.

(** non-vacuity: a 2x2 grey image with padded rows: 5 samples needed, and it can be viewed *)
Example C08_ex : let l := mkLayout 1 1 2 1 2 3 in
  layout_ok l /\ min_length l = Some 5 /\ fits l 4 = false /\
  view_get_pixel 1 (mkFlat [10; 11; 12; 13; 14] l) 1 1 = Ok [14].
Proof. vm_compute. intuition congruence. Qed.

(** ** C09 *)
(** as_view_mut (and View::try_upgrade) only succeed if distinct coordinates address distinct
    samples, provided no dimension with more than one element has stride 0 *)
Theorem C09_as_view_mut_unaliased : forall S c (f v : flat S), layout_ok (lay f) ->
  no_zero_stride (lay f) -> as_view_mut c f = Ok (inr v) -> v = f /\ unaliased (lay f) /\ l_cs (lay f) = 1.
Proof.
  intros S c f v L N E. unfold as_view_mut in E. destruct (is_normal (lay f) PixelPacked) as [n| |] eqn:En; try discriminate.
  cbn [bind] in E. destruct n; cbn [negb] in E; [|discriminate].
  apply pixel_packed_iff in En as [A B]. split; [|split; [apply unaliased_ok|]; auto].
  apply Ok_inj in E. apply C08_as_view_iff in E. tauto.
Qed.
Print Assumptions C09_as_view_mut_unaliased.

Theorem C09_try_upgrade_unaliased : forall S (v v' : flat S), layout_ok (lay v) ->
  no_zero_stride (lay v) -> try_upgrade v = Ok (inr v') -> v' = v /\ unaliased (lay v) /\ l_cs (lay v) = 1.
Proof.
  intros S v v' L N E. unfold try_upgrade in E. destruct (is_normal (lay v) PixelPacked) as [n| |] eqn:En; try discriminate.
  cbn [bind] in E. destruct n; cbn [negb] in E; [|discriminate].
  apply pixel_packed_iff in En as [A B]. split; [congruence|]. split; [apply unaliased_ok|]; auto.
Qed.
Print Assumptions C09_try_upgrade_unaliased.

(** the same for has_aliased_samples() itself *)
Theorem C09_has_aliased_samples : forall l, layout_ok l -> no_zero_stride l ->
  has_aliased_samples l = false -> unaliased l.
Proof. intros. apply unaliased_ok; auto. Qed.
Print Assumptions C09_has_aliased_samples.

(** neither check ever panics *)
Theorem C09_checks_total : forall l f, exists b, is_normal l f = Ok b.
Proof. exact is_normal_total. Qed.
Print Assumptions C09_checks_total.

(** writing a pixel through such a view changes that pixel and no other sample of the image *)
Theorem C09_put_pixel : forall S c, 1 <= c <= 255 -> forall (f v : flat S) x y p,
  layout_ok (lay f) -> zlen (samples f) <= u64_max -> no_zero_stride (lay f) ->
  as_view_mut c f = Ok (inr v) -> 0 <= x < l_w (lay f) -> 0 <= y < l_h (lay f) -> zlen p = c ->
  exists v', view_put_pixel c v x y p = Ok v' /\ lay v' = lay f /\ zlen (samples v') = zlen (samples f) /\
    view_get_pixel c v' x y = Ok p /\
    (forall x' y', 0 <= x' < l_w (lay f) -> 0 <= y' < l_h (lay f) -> (x', y') <> (x, y) ->
       view_get_pixel c v' x' y' = view_get_pixel c f x' y').
Proof.
  intros S c Hc f v x y p L HL N E Hx Hy Hp.
  destruct (C09_as_view_mut_unaliased S c f v L N E) as (-> & U & CS).
  assert (A : as_view c f = inr f).
  { unfold as_view_mut in E. destruct (is_normal (lay f) PixelPacked) as [n| |]; try discriminate.
    cbn [bind] in E. destruct n; cbn [negb] in E; [|discriminate]. apply Ok_inj in E. exact E. }
  apply C08_as_view_iff in A as (_ & EC & F). pose proof (zlen_nonneg (samples f)) as Hz.
  assert (IN : forall ch x y, 0 <= ch < c -> 0 <= x < l_w (lay f) -> 0 <= y < l_h (lay f) -> inside (lay f) ch x y)
    by (intros; unfold inside; lia).
  destruct (in_bounds_index_ok (lay f) (zlen (samples f)) 0 x y L ltac:(lia) F (IN 0 x y ltac:(lia) Hx Hy)) as [EI A0].
  destruct (in_bounds_index_ok (lay f) (zlen (samples f)) (c - 1) x y L ltac:(lia) F (IN (c - 1) x y ltac:(lia) Hx Hy)) as [_ A1].
  assert (AD : forall ch x y, addr (lay f) ch x y = addr (lay f) 0 x y + ch) by (intros; unfold addr; rewrite CS; lia).
  rewrite (AD (c - 1)) in A1. set (b := addr (lay f) 0 x y) in *.
  exists (mkFlat (zsplice (samples f) b p) (lay f)). split; [|split; [reflexivity|split]].
  - unfold view_put_pixel. rewrite (proj2 (in_bounds_iff (lay f) 0 x y ltac:(lia) ltac:(lia) ltac:(lia)) (IN 0 x y ltac:(lia) Hx Hy)).
    cbn [negb]. rewrite EI. cbn [bind]. unfold us_add. replace (b + c <=? u64_max) with true by lia. cbn [bind].
    unfold slice_range. replace (_ && _) with true by lia. reflexivity.
  - cbn [samples]. apply zlen_zsplice; lia.
  - assert (Q : forall x' y', 0 <= x' < l_w (lay f) -> 0 <= y' < l_h (lay f) ->
      exists q, view_get_pixel c (mkFlat (zsplice (samples f) b p) (lay f)) x' y' = Ok q /\ zlen q = c /\
        forall ch, 0 <= ch < c -> zget q ch = zget (zsplice (samples f) b p) (addr (lay f) ch x' y')).
    { intros x' y' H1 H2. apply (get_pixel_view c Hc (mkFlat (zsplice (samples f) b p) (lay f))); cbn [lay samples]; auto;
      rewrite zlen_zsplice by lia; auto; lia. }
    split.
    + destruct (Q x y Hx Hy) as (q & -> & Q1 & Q2). f_equal. apply zget_ext'. intros i Hi.
      destruct (Z.ltb_spec i c); [|rewrite !zget_none by lia; reflexivity].
      rewrite Q2 by lia. rewrite AD. fold b. rewrite zget_zsplice by lia.
      replace (_ && _) with true by lia. f_equal. lia.
    + intros x' y' H1 H2 NE. destruct (Q x' y' H1 H2) as (q & -> & Q1 & Q2).
      destruct (get_pixel_view c Hc f x' y' L HL EC F H1 H2) as (q' & -> & Q1' & Q2').
      f_equal. apply zget_ext'. intros i Hi. destruct (Z.ltb_spec i c); [|rewrite !zget_none by lia; reflexivity].
      rewrite Q2, Q2' by lia. rewrite zget_zsplice by lia.
      destruct ((b <=? addr (lay f) i x' y') && (addr (lay f) i x' y' <? b + zlen p)) eqn:EB; [|reflexivity].
      exfalso. set (k := addr (lay f) i x' y' - b).
      assert (K : addr (lay f) k x y = addr (lay f) i x' y') by (rewrite AD; fold b; unfold k; lia).
      apply NE. destruct (U k x y i x' y') as (_ & -> & ->); auto; apply IN; unfold k; lia.
Qed.
Print Assumptions C09_put_pixel.

(** without the proviso the claim fails: the layout of with_monocolor (strides 0) is accepted by
    as_view_mut for every multi-pixel image, and writing pixel (0,0) changes every other pixel *)
Theorem C09_zero_stride_refuted : forall S c, 1 <= c <= 255 -> forall (p q : list S) w h,
  zlen p = c -> zlen q = c -> 1 <= w <= u32_max -> 1 <= h <= u32_max ->
  as_view_mut c (with_monocolor p w h) = Ok (inr (with_monocolor p w h)) /\
  layout_ok (lay (with_monocolor p w h)) /\
  exists v', view_put_pixel c (with_monocolor p w h) 0 0 q = Ok v' /\
    forall x y, 0 <= x < w -> 0 <= y < h -> view_get_pixel c v' x y = Ok q.
Proof.
  intros S c Hc p q w h Hp Hq Hw Hh. unfold with_monocolor. rewrite Hp. set (l := mkLayout c 1 w 0 h 0).
  assert (L : layout_ok l).
  { unfold layout_ok, l, is_u8, is_u32, is_u64, u8_max. cbn. assert (1 < u64_max) by reflexivity. lia. }
  assert (AD : forall ch x y, addr l ch x y = ch) by (intros; unfold addr, l; cbn; lia).
  assert (U1 : 255 < u64_max) by reflexivity.
  assert (F : fits l c = true). { apply fits_iff; auto; [lia|]. intros ch x y (I & _). rewrite AD. apply I. }
  assert (HA : has_aliased_samples l = false).
  { assert (D : increasing_stride_dims l = if w <=? h then ((0, w), (0, h), (1, c)) else ((0, h), (0, w), (1, c))).
    { unfold increasing_stride_dims, l, dsort. cbn [fold_right l_c l_w l_h l_cs l_ws l_hs].
      unfold ins at 2. unfold ins at 2. unfold dim_le at 1. cbn [fst snd Z.ltb Z.eqb Z.compare orb andb].
      destruct (w <=? h); reflexivity. }
    unfold has_aliased_samples. rewrite D. unfold checked_len.
    destruct (w <=? h) eqn:E; cbn [fst snd]; rewrite !us_cmul_ok by lia; reflexivity. }
  split; [|split; [exact L|]].
  - unfold as_view_mut. cbn [lay]. rewrite (proj2 (pixel_packed_iff l)) by (split; auto). cbn [bind negb].
    f_equal. apply C08_as_view_iff. cbn [lay samples]. rewrite Hp. auto.
  - exists (mkFlat q l). split.
    + unfold view_put_pixel. cbn [lay samples]. replace (in_bounds l 0 0 0) with true by (unfold in_bounds, l; cbn; lia).
      cbn [negb]. destruct (in_bounds_index_ok l c 0 0 0 L ltac:(lia) F ltac:(unfold inside, l; cbn; lia)) as [-> _].
      rewrite AD. cbn [bind]. unfold us_add. replace (0 + c <=? u64_max) with true by lia. cbn [bind].
      unfold slice_range. rewrite Hp. replace ((0 <=? 0 + c) && (0 + c <=? c)) with true by lia. cbn [bind].
      f_equal. f_equal. apply zget_ext'. intros i Hi. rewrite zget_zsplice by lia. rewrite Hq.
      destruct (Z.ltb_spec i c).
      * replace ((0 <=? i) && (i <? 0 + c)) with true by lia. f_equal. lia.
      * replace ((0 <=? i) && (i <? 0 + c)) with false by lia. rewrite !zget_none by lia. reflexivity.
    + intros x y Hx Hy. destruct (get_pixel_view c Hc (mkFlat q l) x y) as (r & -> & R1 & R2); cbn [lay samples]; auto; try lia.
      { rewrite Hq. exact F. }
      f_equal. apply zget_ext'. intros i Hi. destruct (Z.ltb_spec i c); [|rewrite !zget_none by lia; reflexivity].
      rewrite R2 by lia. rewrite AD. reflexivity.
Qed.
Print Assumptions C09_zero_stride_refuted.

(** non-vacuity of C09_put_pixel: a row-padded RGB layout *)
Example C09_ex : let f := mkFlat (repeat 0 14) (mkLayout 3 1 2 3 2 8) in
  layout_ok (lay f) /\ no_zero_stride (lay f) /\ as_view_mut 3 f = Ok (inr f).
Proof. vm_compute. intuition congruence. Qed.
