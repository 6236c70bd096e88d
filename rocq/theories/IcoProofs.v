From Verif Require Import Base BaseLemmas ListLemmas ListMore Post OverlayProofs GenImage ColorType DxtProofs2 Ico IcoSpec.
Local Open Scope Z_scope.

(** ** Reads at fixed offsets *)
Lemma at_u8 file o : 0 <= o -> read_u8 (at_ file o) = if zlen file <? o + 1 then Err EEof else Ok (byte_at file o, at_ file (o + 1)).
Proof.
  intros Ho. destruct (Z.ltb_spec (zlen file) (o + 1)) as [L|L].
  - assert (Q : zlen (at_ file o) < 1) by (unfold at_; rewrite zlen_skipn; lia). destruct (at_ file o) as [|a l]; [reflexivity|]. rewrite zlen_cons in Q. pose proof (zlen_nonneg l). lia.
  - unfold byte_at. destruct (zget_some file o) as (v & Ev); [lia|]. rewrite Ev. unfold at_ in *.
    assert (G : zget (skipn (Z.to_nat o) file) 0 = Some v) by (rewrite zget_skipn by lia; rewrite <- Ev; f_equal; lia).
    assert (N : skipn (Z.to_nat (o + 1)) file = skipn 1 (skipn (Z.to_nat o) file)) by (rewrite skipn_skipn; f_equal; lia). rewrite N.
    destruct (skipn (Z.to_nat o) file) as [|a l]; [discriminate G|]. apply Some_inj in G. subst a. reflexivity.
Qed.
Lemma read_u16le_bytes r : read_u16le r = ('(a, r) <- read_u8 r ;; '(b, r) <- read_u8 r ;; Ok (a + 256 * b, r)).
Proof. destruct r as [|a [|b r]]; reflexivity. Qed.
Lemma read_u32le_halves r : read_u32le r = ('(a, r) <- read_u16le r ;; '(b, r) <- read_u16le r ;; Ok (a + 65536 * b, r)).
Proof. destruct r as [|a [|b [|c [|d r]]]]; try reflexivity. cbn [read_u32le read_u16le bind]. do 2 f_equal. ring. Qed.
Lemma at_u16 file o : 0 <= o -> read_u16le (at_ file o) = if zlen file <? o + 2 then Err EEof else Ok (num16 file o, at_ file (o + 2)).
Proof.
  intros Ho. rewrite read_u16le_bytes, at_u8 by lia. destruct (Z.ltb_spec (zlen file) (o + 1)); cbn [bind]; [replace (zlen file <? o + 2) with true by lia; reflexivity|].
  rewrite at_u8 by lia. replace (o + 1 + 1) with (o + 2) by lia. destruct (Z.ltb_spec (zlen file) (o + 2)); reflexivity.
Qed.
Lemma at_u32n file o : 0 <= o -> read_u32le (at_ file o) = if zlen file <? o + 4 then Err EEof else Ok (num32 file o, at_ file (o + 4)).
Proof.
  intros Ho. rewrite read_u32le_halves, at_u16 by lia. destruct (Z.ltb_spec (zlen file) (o + 2)); cbn [bind]; [replace (zlen file <? o + 4) with true by lia; reflexivity|].
  rewrite at_u16 by lia. replace (o + 2 + 2) with (o + 4) by lia. destruct (Z.ltb_spec (zlen file) (o + 4)); reflexivity.
Qed.
Definition entry_at (file : list Z) (i : Z) : dentry :=
  let o := 6 + 16 * i in mkEntry (byte_at file o) (byte_at file (o + 1)) (num16 file (o + 4)) (num16 file (o + 6)) (num32 file (o + 8)) (num32 file (o + 12)).
Definition entry_ok (file : list Z) (i : Z) : Prop := num16 file (6 + 16 * i + 4) <= 256 /\ num16 file (6 + 16 * i + 6) <= 256.
Lemma read_entry_iff file i e r : 0 <= i -> (read_entry (at_ file (6 + 16 * i)) = Ok (e, r) <->
  6 + 16 * (i + 1) <= zlen file /\ entry_ok file i /\ e = entry_at file i /\ r = at_ file (6 + 16 * (i + 1))).
Proof.
  intros Hi. unfold read_entry, entry_ok, entry_at. cbv zeta. remember (6 + 16 * i) as o eqn:Eo. replace (6 + 16 * (i + 1)) with (o + 16) by lia. assert (Ho : 0 <= o) by lia. clear Eo Hi.
  Ltac st := first [rewrite at_u8 by lia | rewrite at_u16 by lia | rewrite at_u32n by lia];
    match goal with |- context [zlen ?f <? ?n] => let Q := fresh "Q" in destruct (Z.ltb_spec (zlen f) n) as [Q|Q] end; [cbn [bind]; split; [discriminate|intros (? & _); lia]|]; cbn [bind].
  do 5 st. replace (o + 1 + 1 + 1 + 1) with (o + 4) by lia. replace (o + 1 + 1 + 1) with (o + 3) by lia. replace (o + 1 + 1) with (o + 2) by lia. replace (o + 4 + 2) with (o + 6) by lia.
  destruct (Z.ltb_spec 256 (num16 file (o + 4))); [split; [discriminate|lia]|]. st.
  destruct (Z.ltb_spec 256 (num16 file (o + 6))); [split; [discriminate|lia]|]. replace (o + 6 + 2) with (o + 8) by lia. st. replace (o + 8 + 4) with (o + 12) by lia. st.
  split.
  - intros E. injection E as <- <-. split; [lia|]. split; [lia|]. split; [reflexivity|]. f_equal; lia.
  - intros (_ & _ & -> & ->). do 2 f_equal. f_equal. lia.
Qed.
Lemma entries_fold file n : 0 <= n -> forall es r,
  foldM (fun '(es, r) (_ : Z) => '(e, r) <- read_entry r ;; Ok (es ++ [e], r)) (zrange 0 n) ([], at_ file 6) = Ok (es, r) <->
  (n = 0 \/ 6 + 16 * n <= zlen file) /\ (forall i, 0 <= i < n -> entry_ok file i) /\ es = map (entry_at file) (zrange 0 n) /\ r = at_ file (6 + 16 * n).
Proof.
  intros Hn. pattern n. apply natlike_ind; [| |exact Hn].
  - intros es r. cbn [foldM zrange Z.to_nat seq map]. change (6 + 16 * 0) with 6. split.
    + intros E. injection E as <- <-. repeat split; auto; lia.
    + intros (_ & _ & -> & ->). reflexivity.
  - intros k Hk IH es r. unfold Z.succ. rewrite zrange_snoc by lia. rewrite foldM_app, map_app. cbn [map]. rewrite Z.add_0_l.
    destruct (foldM _ (zrange 0 k) ([], at_ file 6)) as [[es0 r0]|e|] eqn:EF; cbn [bind].
    + pose proof (proj1 (IH es0 r0) eq_refl) as (L & OKs & -> & ->). cbn [foldM].
      destruct (read_entry (at_ file (6 + 16 * k))) as [[e r1]|err|] eqn:ER; cbn [bind].
      * apply read_entry_iff in ER; [|lia]. destruct ER as (L1 & O1 & -> & ->). split.
        -- intros E. injection E as <- <-. split; [right; lia|]. split; [|split; reflexivity]. intros i Hi. destruct (Z.eq_dec i k) as [->|]; [exact O1|apply OKs; lia].
        -- intros (_ & _ & -> & ->). reflexivity.
      * split; [discriminate|]. intros (L1 & OK1 & _ & _). exfalso. assert (E : read_entry (at_ file (6 + 16 * k)) = Ok (entry_at file k, at_ file (6 + 16 * (k + 1)))) by (apply read_entry_iff; [lia|]; split; [lia|]; split; [apply OK1; lia|auto]). congruence.
      * split; [discriminate|]. intros (L1 & OK1 & _ & _). exfalso. assert (E : read_entry (at_ file (6 + 16 * k)) = Ok (entry_at file k, at_ file (6 + 16 * (k + 1)))) by (apply read_entry_iff; [lia|]; split; [lia|]; split; [apply OK1; lia|auto]). congruence.
    + split; [discriminate|]. intros (L1 & OK1 & _ & _). exfalso.
      assert (E : Err e = Ok (map (entry_at file) (zrange 0 k), at_ file (6 + 16 * k))) by (apply IH; split; [lia|]; split; [intros; apply OK1; lia|auto]). discriminate E.
    + split; [discriminate|]. intros (L1 & OK1 & _ & _). exfalso.
      assert (E : Panic = Ok (map (entry_at file) (zrange 0 k), at_ file (6 + 16 * k))) by (apply IH; split; [lia|]; split; [intros; apply OK1; lia|auto]). discriminate E.
Qed.
Lemma num16_range file o : bytes file -> is_u16 (num16 file o).
Proof.
  intros B. assert (K : forall o, 0 <= byte_at file o <= 255).
  { intros q. unfold byte_at. destruct (zget file q) eqn:E; [|lia]. apply zget_In in E. unfold bytes in B. rewrite Forall_forall in B. specialize (B _ E). unfold is_u8, u8_max in B. lia. }
  unfold num16, is_u16, u16_max. pose proof (K o). pose proof (K (o + 1)). lia.
Qed.
Lemma read_entries_iff file es r : bytes file -> (read_entries file = Ok (es, r) <->
  6 + 16 * num16 file 4 <= zlen file /\ (forall i, 0 <= i < num16 file 4 -> entry_ok file i) /\ es = map (entry_at file) (zrange 0 (num16 file 4)) /\ r = at_ file (6 + 16 * num16 file 4)).
Proof.
  intros B. unfold read_entries. change file with (at_ file 0) at 1. pose proof (num16_range file 4 B) as N. unfold is_u16, u16_max in N.
  st. st. st. change (0 + 2 + 2 + 2) with 6. change (0 + 2 + 2) with 4 in *. rewrite entries_fold by lia. split; [intros ([->|?] & ? & ? & ?); [split; [lia|auto]|auto]|intros (? & ? & ? & ?); auto].
Qed.

(** ** Selection *)
Definition to_icon (e : dentry) : icon := mkIcon (size_of (de_w e)) (size_of (de_h e)) (de_bpp e) (de_len e) (de_off e).
Lemma to_icon_at file i : to_icon (entry_at file i) = icon_at file i.
Proof. reflexivity. Qed.
Lemma score_gt_spec a b : score_gt (score a) (score b) = true <-> ~ as_good (to_icon b) (to_icon a).
Proof. unfold score_gt, score, as_good, to_icon, real, size_of. cbn [fst snd ic_w ic_h ic_bpp]. set (p := (if de_w a =? 0 then 256 else de_w a) * _). set (q := (if de_w b =? 0 then 256 else de_w b) * _). lia. Qed.
Lemma as_good_refl a : as_good a a. Proof. unfold as_good. lia. Qed.
Lemma as_good_trans a b c : as_good a b -> as_good b c -> as_good a c. Proof. unfold as_good. lia. Qed.
Lemma as_good_total a b : as_good a b \/ as_good b a. Proof. unfold as_good. lia. Qed.
Lemma best_fold l : forall b, exists e, foldM (fun best e => Ok (if score_gt (score e) (score best) then e else best)) l b = Ok e /\
  (e = b \/ In e l) /\ as_good (to_icon e) (to_icon b) /\ (forall x, In x l -> as_good (to_icon e) (to_icon x)).
Proof.
  induction l as [|a l IH]; intros b; cbn [foldM bind]; [exists b; repeat split; auto; [apply as_good_refl|intros ? []]|].
  destruct (score_gt (score a) (score b)) eqn:G.
  - destruct (IH a) as (e & E & I & A & F). exists e. split; [exact E|]. split; [destruct I as [->|I]; right; [left; reflexivity|right; exact I]|].
    apply score_gt_spec in G. destruct (as_good_total (to_icon a) (to_icon b)) as [T|T]; [|contradiction]. split; [eapply as_good_trans; eauto|]. intros x [<-|Hx]; auto.
  - destruct (IH b) as (e & E & I & A & F). exists e. split; [exact E|]. split; [destruct I as [->|I]; [left; reflexivity|right; right; exact I]|]. split; [exact A|].
    intros x [<-|Hx]; auto. eapply as_good_trans; [exact A|]. destruct (as_good_total (to_icon b) (to_icon a)) as [T|T]; [exact T|].
    assert (N : score_gt (score a) (score b) <> true) by congruence. rewrite score_gt_spec in N. unfold as_good in *. lia.
Qed.
Lemma best_ok es : es <> [] -> exists e, best_entry es = Ok e /\ In e es /\ forall x, In x es -> as_good (to_icon e) (to_icon x).
Proof.
  intros N. destruct (exists_last N) as (l & a & ->). unfold best_entry. rewrite rev_app_distr. cbn [rev app]. rewrite removelast_last.
  destruct (best_fold l a) as (e & E & I & A & F). exists e. split; [exact E|]. split; [apply in_or_app; destruct I as [->|I]; [right; left; reflexivity|left; exact I]|].
  intros x Hx. apply in_app_or in Hx. destruct Hx as [Hx|[<-|[]]]; auto.
Qed.

(** ** Encoder *)
Definition total (images : list icoframe) : Z := zlen (concat (map fr_data images)).
Lemma total_cons a l : total (a :: l) = zlen (fr_data a) + total l.
Proof. unfold total. cbn [map concat]. rewrite zlen_app. lia. Qed.
Lemma total_nonneg l : 0 <= total l. Proof. apply zlen_nonneg. Qed.
Fixpoint dir (images : list icoframe) (off : Z) : list Z :=
  match images with [] => [] | im :: l => direntry (fr_w im) (fr_h im) (fr_c im) off (zlen (fr_data im)) ++ dir l (off + zlen (fr_data im)) end.
Lemma encode_fold m : forall images out off, 0 <= off -> off + total images <= u32_max ->
  foldM (fun '(out, offset) im => let len := wrap_u32 (zlen (fr_data im)) in offset' <- u32_add_m m offset len ;; Ok (out ++ direntry (fr_w im) (fr_h im) (fr_c im) offset len, offset'))
    images (out, off) = Ok (out ++ dir images off, off + total images).
Proof.
  induction images as [|im l IH]; intros out off H0 H; cbn [foldM dir].
  - rewrite app_nil_r. unfold total. cbn. do 2 f_equal. lia.
  - rewrite total_cons in H. pose proof (total_nonneg l). pose proof (zlen_nonneg (fr_data im)). cbv zeta.
    assert (W : wrap_u32 (zlen (fr_data im)) = zlen (fr_data im)) by (apply wrap_u32_id; unfold is_u32; lia).
    rewrite W. unfold u32_add_m. replace (off + zlen (fr_data im) <=? u32_max) with true by lia. cbn [bind]. rewrite IH by lia. rewrite <- app_assoc, total_cons. do 2 f_equal. lia.
Qed.
Lemma direntry_len w h c a b : zlen (direntry w h c a b) = 16. Proof. reflexivity. Qed.
Lemma dir_len images : forall off, zlen (dir images off) = 16 * zlen images.
Proof. induction images as [|im l IH]; intros; cbn [dir]; [reflexivity|]. rewrite zlen_app, direntry_len, IH, zlen_cons. lia. Qed.
(** entry i of the directory *)
Lemma dir_entry images : forall off i im rest, zget images i = Some im ->
  zslice (dir images off ++ rest) (16 * i) 16 = direntry (fr_w im) (fr_h im) (fr_c im) (off + total (firstn (Z.to_nat i) images)) (zlen (fr_data im)).
Proof.
  induction images as [|a l IH]; intros off i im rest G; [apply zget_range in G; change (zlen (@nil icoframe)) with 0 in G; lia|]. pose proof (zget_range _ _ _ G) as R. rewrite zlen_cons in R.
  destruct (Z.eq_dec i 0) as [->|N].
  - apply Some_inj in G. subst a. cbn [dir Z.to_nat firstn]. rewrite <- app_assoc. change (16 * 0) with 0. unfold total. cbn [map concat]. change (zlen (@nil Z)) with 0. rewrite Z.add_0_r. reflexivity.
  - cbn [dir]. rewrite <- app_assoc. rewrite zslice_app2 by (rewrite direntry_len; lia). rewrite direntry_len. replace (16 * i - 16) with (16 * (i - 1)) by lia.
    rewrite (IH _ (i - 1) im). 2:{ rewrite <- G. change (a :: l) with ([a] ++ l). rewrite zget_app. change (zlen [a]) with 1. replace (i <? 1) with false by lia. reflexivity. }
    replace (Z.to_nat i) with (S (Z.to_nat (i - 1))) by lia. cbn [firstn]. rewrite total_cons. f_equal. lia.
Qed.
Lemma data_slice images : forall pre i im, zget images i = Some im ->
  zslice (pre ++ concat (map fr_data images)) (zlen pre + total (firstn (Z.to_nat i) images)) (zlen (fr_data im)) = fr_data im.
Proof.
  intros pre i im G. pose proof (zget_range _ _ _ G) as R.
  assert (S : images = firstn (Z.to_nat i) images ++ im :: skipn (Z.to_nat (i + 1)) images).
  { rewrite <- (firstn_skipn (Z.to_nat i) images) at 1. f_equal. assert (K : zget (skipn (Z.to_nat i) images) 0 = Some im) by (rewrite zget_skipn by lia; rewrite <- G; f_equal; lia).
    replace (Z.to_nat (i + 1)) with (1 + Z.to_nat i)%nat by lia. rewrite Nat.add_comm, <- skipn_skipn. destruct (skipn (Z.to_nat i) images) as [|a l]; [discriminate K|]. apply Some_inj in K. subst a. reflexivity. }
  set (l1 := firstn (Z.to_nat i) images) in *. rewrite S, map_app, concat_app. cbn [map concat]. unfold total.
  pose proof (zlen_nonneg pre). pose proof (zlen_nonneg (concat (map fr_data l1))).
  rewrite zslice_app2 by lia. rewrite zslice_app2 by lia. replace (zlen pre + zlen (concat (map fr_data l1)) - zlen pre - zlen (concat (map fr_data l1))) with 0 by lia.
  unfold zslice. change (Z.to_nat 0) with 0%nat. cbn [skipn]. rewrite firstn_app_exact; [reflexivity|unfold zlen; rewrite Nat2Z.id; reflexivity].
Qed.
Lemma byte_at_slice file o n j : 0 <= o -> 0 <= j < n -> o + n <= zlen file -> byte_at file (o + j) = byte_at (zslice file o n) j.
Proof. intros Ho Hj L. unfold byte_at. rewrite zget_zslice_gen by lia. replace (j <? n) with true by lia. replace (0 <=? j) with true by lia. reflexivity. Qed.

(** ** The AND mask *)
Section MASK.
Variables (w h : Z) (buf0 mask : list Z).
Hypothesis Hw : 0 < w <= 65535.
Hypothesis Hh : 0 < h <= 65535.
Hypothesis Lb : zlen buf0 = w * h * 4.
Let row := mask_row_bytes w.
(** mask rows before [y], and [x] bits of row [y], have been applied *)
Definition minv (y x : Z) (buf : list Z) : Prop :=
  zlen buf = zlen buf0 /\
  forall X Y c, 0 <= X < w -> 0 <= Y < h -> 0 <= c < 4 ->
    zget buf ((Y * w + X) * 4 + c) =
    if (c =? 3) && ((h - 1 - Y <? y) || ((h - 1 - Y =? y) && (X <? x))) && Z.testbit (byte_at mask ((h - 1 - Y) * row + X / 8)) (7 - X mod 8)
    then Some 0 else zget buf0 ((Y * w + X) * 4 + c).
Lemma idx4_inj X Y c X' Y' c' : 0 <= X < w -> 0 <= X' < w -> 0 <= c < 4 -> 0 <= c' < 4 -> (Y * w + X) * 4 + c = (Y' * w + X') * 4 + c' -> X = X' /\ Y = Y' /\ c = c'.
Proof.
  clear Lb Hh buf0 mask row h. intros HX HX' Hc Hc' E. assert (E1 : Y * w + X = Y' * w + X') by lia. assert (c = c') by lia.
  assert (Y = Y') by (apply (Z.mul_cancel_r _ _ w); [lia|]; assert (Y < Y' \/ Y' < Y \/ Y = Y') as [L|[L|L]] by lia; nia). subst. lia.
Qed.
Lemma idx4_range X Y : 0 <= X < w -> 0 <= Y < h -> 0 <= Y * w + X /\ (Y * w + X) * 4 + 3 < w * h * 4 /\ Y * w + X <= u32_max.
Proof.
  clear Lb buf0 mask row. intros HX HY. assert ((Y + 1) * w <= h * w) by (apply Z.mul_le_mono_nonneg_r; lia). assert (0 <= Y * w) by (apply Z.mul_nonneg_nonneg; lia).
  assert (h * w <= 65535 * 65535) by (apply Z.mul_le_mono_nonneg; lia). unfold u32_max. split; [lia|]. split; lia.
Qed.
Lemma bit_step y x buf : 0 <= y < h -> 0 <= x < w -> minv y x buf ->
  exists buf', (if Z.testbit (byte_at mask (y * row + x / 8)) (7 - x mod 8) then
                let i := (h - y - 1) * w + x in
                if u32_max <? i then Panic else if zlen buf <=? i * 4 + 3 then Panic else Ok (zset buf (i * 4 + 3) 0)
              else Ok buf) = Ok buf' /\ minv y (x + 1) buf'.
Proof.
  intros Hy Hx [L P]. destruct (idx4_range x (h - y - 1)) as (R0 & R1 & R2); [lia|lia|]. cbv zeta.
  destruct (Z.testbit (byte_at mask (y * row + x / 8)) (7 - x mod 8)) eqn:T.
  - replace (u32_max <? (h - y - 1) * w + x) with false by lia. replace (zlen buf <=? ((h - y - 1) * w + x) * 4 + 3) with false by lia.
    eexists. split; [reflexivity|]. split; [rewrite zlen_zset; lia|]. intros X Y c HX HY Hc.
    rewrite zget_zset by lia. destruct (Z.eqb_spec ((Y * w + X) * 4 + c) (((h - y - 1) * w + x) * 4 + 3)) as [E|E].
    + apply idx4_inj in E; [|lia|lia|lia|lia]. destruct E as (-> & -> & ->). replace (h - 1 - (h - y - 1)) with y by lia. rewrite T. replace (y <? y) with false by lia. rewrite (Z.eqb_refl y). replace (x <? x + 1) with true by lia. reflexivity.
    + rewrite P by auto. destruct (Z.eqb_spec c 3) as [->|]; [|reflexivity]. cbn [andb].
      replace ((h - 1 - Y <? y) || (h - 1 - Y =? y) && (X <? x + 1)) with ((h - 1 - Y <? y) || (h - 1 - Y =? y) && (X <? x)); [reflexivity|].
      destruct (Z.eqb_spec (h - 1 - Y) y) as [EY|]; [|reflexivity]. cbn [andb]. assert (X <> x); [|lia]. intros ->. apply E. replace (h - y - 1) with Y by lia. reflexivity.
  - eexists. split; [reflexivity|]. split; [exact L|]. intros X Y c HX HY Hc. rewrite P by auto. destruct (Z.eqb_spec c 3) as [->|]; [|reflexivity]. cbn [andb].
    destruct (Z.eqb_spec (h - 1 - Y) y) as [EY|]; [|reflexivity]. destruct (Z.eq_dec X x) as [->|NX].
    + rewrite EY, T, !Bool.andb_false_r. reflexivity.
    + replace (X <? x + 1) with (X <? x) by lia. reflexivity.
Qed.
Lemma rev8 : rev (zrange 0 8) = map (fun i => 7 - i) (zrange 0 8). Proof. reflexivity. Qed.
Lemma byte_step y j buf : 0 <= y < h -> 0 <= j -> minv y (Z.min w (8 * j)) buf ->
  exists buf', mask_byte w h y (byte_at mask (y * row + j)) (buf, Z.min w (8 * j)) = Ok (buf', Z.min w (8 * (j + 1))) /\ minv y (Z.min w (8 * (j + 1))) buf'.
Proof.
  intros Hy Hj HI. unfold mask_byte. rewrite rev8, foldM_map.
  match goal with |- context [foldM ?f _ _] => destruct (foldM_zrange_inv f (fun k '(b, x) => x = Z.min w (8 * j + k) /\ minv y x b) 0 8 (buf, Z.min w (8 * j))) as ([b x] & E & Ex & Hb) end.
  - lia.
  - split; [f_equal; lia|exact HI].
  - intros k [b x] Hk [Ex Hb]. rewrite Z.add_0_l. destruct (Z.leb_spec w x) as [Q|Q].
    + exists (b, x). split; [reflexivity|]. split; [lia|exact Hb].
    + assert (x = 8 * j + k) by lia. assert (XD : x / 8 = j /\ x mod 8 = k) by (clear - H Hk; subst x; zdm; lia). destruct XD as [XD XM].
      destruct (bit_step y x b Hy ltac:(lia) Hb) as (b' & E & Hb'). rewrite XD, XM in E. cbv zeta in E |- *. rewrite E. cbn [bind]. exists (b', x + 1). split; [reflexivity|]. split; [lia|exact Hb'].
  - exists b. rewrite E. subst x. replace (8 * j + 8) with (8 * (j + 1)) in * by lia. split; [reflexivity|exact Hb].
Qed.
Lemma row_bytes : 0 <= row /\ w <= 8 * row.
Proof. unfold row, mask_row_bytes. clear - Hw. zdm. Qed.
Lemma mask_row y buf rest : 0 <= y < h -> zlen rest = row -> (forall j, 0 <= j < row -> byte_at rest j = byte_at mask (y * row + j)) -> forall more, minv y 0 buf ->
  exists buf', foldM (fun '(buf, x, r) (_ : Z) => '(b, r) <- read_u8 r ;; '(buf, x) <- mask_byte w h y b (buf, x) ;; Ok (buf, x, r)) (zrange 0 row) (buf, 0, rest ++ more) = Ok (buf', w, more) /\ minv (y + 1) 0 buf'.
Proof.
  intros Hy Lr Br more HI. destruct row_bytes as [R0 RW].
  match goal with |- context [foldM ?f _ _] => destruct (foldM_zrange_inv f (fun k '(b, x, r) => x = Z.min w (8 * k) /\ minv y x b /\ r = at_ rest k ++ more) 0 row (buf, 0, rest ++ more)) as ([[b x] r] & E & Ex & Hb & Er) end.
  - lia.
  - split; [lia|]. split; [exact HI|]. reflexivity.
  - intros k [[b x] r] Hk (Ex & Hb & Er). subst r. assert (S : at_ rest k = byte_at rest k :: at_ rest (k + 1)).
    { pose proof (at_u8 rest k ltac:(lia)) as A. replace (zlen rest <? k + 1) with false in A by lia. destruct (at_ rest k) as [|a l]; [discriminate A|]. cbn [read_u8] in A. injection A as -> ->. reflexivity. }
    rewrite S. cbn [app read_u8 bind]. rewrite Br by lia. rewrite Ex in *. destruct (byte_step y k b Hy ltac:(lia) Hb) as (b' & E & Hb'). rewrite E. cbn [bind]. eexists. split; [reflexivity|]. split; [reflexivity|]. split; [exact Hb'|reflexivity].
  - exists b. rewrite E. subst x r. replace (Z.min w (8 * row)) with w in * by lia. split.
    + do 3 f_equal. unfold at_. rewrite skipn_all2 by (unfold zlen in Lr; lia). reflexivity.
    + destruct Hb as [L P]. split; [exact L|]. intros X Y c HX HY Hc. rewrite P by auto.
      replace ((h - 1 - Y <? y) || (h - 1 - Y =? y) && (X <? w)) with ((h - 1 - Y <? y + 1) || (h - 1 - Y =? y + 1) && (X <? 0)); [reflexivity|]. lia.
Qed.
End MASK.
Lemma apply_mask_ok w h buf mask rest : 0 < w <= 65535 -> 0 < h <= 65535 -> zlen buf = w * h * 4 -> zlen mask = mask_row_bytes w * h ->
  exists out, apply_mask w h buf (mask ++ rest) = Ok out /\ zlen out = zlen buf /\
    forall x y c, 0 <= x < w -> 0 <= y < h -> 0 <= c < 4 ->
      zget out ((y * w + x) * 4 + c) = if (c =? 3) && mask_bit mask w h x y then Some 0 else zget buf ((y * w + x) * 4 + c).
Proof.
  intros Hw Hh Lb Lm. unfold apply_mask. destruct (row_bytes w Hw) as [R0 RW].
  set (row := mask_row_bytes w) in *.
  match goal with |- context [foldM ?f (zrange 0 h) _] => destruct (foldM_zrange_inv f (fun k '(b, r) => minv w h buf mask k 0 b /\ r = at_ mask (k * row) ++ rest) 0 h (buf, mask ++ rest)) as ([b r] & E & Hb & _) end.
  - lia.
  - split; [|reflexivity]. split; [reflexivity|]. intros X Y c HX HY Hc. replace ((h - 1 - Y <? 0) || (h - 1 - Y =? 0) && (X <? 0)) with false by lia. rewrite Bool.andb_false_r. reflexivity.
  - intros k [b r] Hk [Hb Er]. subst r. rewrite Z.add_0_l. assert (K0 : 0 <= k * row) by (apply Z.mul_nonneg_nonneg; lia). assert (K1 : (k + 1) * row <= h * row) by (apply Z.mul_le_mono_nonneg_r; lia). rewrite Z.mul_add_distr_r, Z.mul_1_l in *.
    rewrite (at_slice mask (k * row) row) by lia. rewrite <- app_assoc.
    destruct (mask_row w h buf mask Hw Hh Lb k b (zslice mask (k * row) row)) with (more := at_ mask (k * row + row) ++ rest) as (b' & E & Hb'); auto.
    + rewrite zlen_zslice_gen. fold row. lia.
    + intros j Hj. symmetry. apply byte_at_slice; lia.
    + fold row in E. unfold reader in *. rewrite E. cbn [bind]. eexists. split; [reflexivity|]. split; [exact Hb'|]. reflexivity.
  - rewrite E. cbn [bind]. exists b. split; [reflexivity|]. destruct Hb as [L P]. split; [exact L|]. intros x y c Hx Hy Hc. rewrite P by auto.
    replace ((h - 1 - y <? h) || (h - 1 - y =? h) && (x <? 0)) with true by lia. rewrite Bool.andb_true_r. reflexivity.
Qed.
(** no stream makes the mask loop panic *)
Lemma apply_mask_post w h buf r : 0 < w <= 65535 -> 0 < h <= 65535 -> zlen buf = w * h * 4 -> post (apply_mask w h buf r) (fun b => zlen b = zlen buf).
Proof.
  intros Hw Hh Lb. unfold apply_mask. eapply post_bind with (Q := fun '(b, _) => zlen b = zlen buf); [|intros [b r']; auto].
  apply post_foldM; [|reflexivity]. intros [b r1] y Hy Hb. apply In_zrange in Hy.
  eapply post_bind with (Q := fun '(b, x, _) => zlen b = zlen buf /\ 0 <= x); [|intros [[b' x] r2] [? _]; assumption].
  apply post_foldM; [|split; [exact Hb|lia]]. intros [[b1 x] r2] j _ [Hb1 Hx]. destruct r2 as [|v r2]; [cbn; discriminate|]. cbn [read_u8 bind].
  eapply post_bind with (Q := fun '(b, x) => zlen b = zlen buf /\ 0 <= x); [|intros [b2 x2] H; exact H].
  unfold mask_byte. apply post_foldM; [|auto]. intros [b2 x2] bit _ [Hb2 Hx2]. apply post_if; intros Q; [cbn; auto|].
  eapply post_bind with (Q := fun b => zlen b = zlen buf); [|intros b3 H3; cbn; split; [exact H3|lia]].
  apply post_if; intros _; [|cbn; exact Hb2]. cbv zeta. destruct (idx4_range w h Hw Hh x2 (h - y - 1)) as (A1 & A2 & A3); [lia|lia|].
  replace (u32_max <? (h - y - 1) * w + x2) with false by lia. replace (zlen b2 <=? ((h - y - 1) * w + x2) * 4 + 3) with false by lia. cbn. rewrite zlen_zset. exact Hb2.
Qed.
