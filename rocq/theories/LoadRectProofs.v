(** Proofs about load_rect and ImageReadBuffer. *)
From Verif Require Import Base BaseLemmas ListLemmas ListMore LoadRectSpec LoadRect BitsProofs.
Local Open Scope Z_scope.

(** writing one row of wb bytes into the chunk of rp bytes at kr *)
Lemma row_splice (o data : list Z) kr wb rp st : 0 <= kr -> 0 < wb <= rp -> kr + wb <= zlen o -> 0 <= st -> st + wb <= zlen data ->
  let o' := zsplice o kr (zslice data st wb ++ skipn (Z.to_nat wb) (zslice o kr rp)) in
  zlen o' = zlen o /\ zslice o' kr wb = zslice data st wb /\
  (forall i, 0 <= i < zlen o -> ~ (kr <= i < kr + wb) -> zget o' i = zget o i).
Proof.
  intros H1 H2 H3 H4 H5 o'.
  set (new := zslice data st wb ++ skipn (Z.to_nat wb) (zslice o kr rp)) in *.
  assert (LN1 : zlen (zslice data st wb) = wb) by (rewrite zlen_zslice_gen; lia).
  assert (LN : zlen new = Z.min rp (zlen o - kr)).
  { unfold new. rewrite zlen_app, LN1, zlen_skipn, zlen_zslice_gen. lia. }
  split; [apply zlen_zsplice; lia|]. split.
  - apply zget_ext'. intros i Hi. rewrite !zget_zslice_gen by lia. destruct (Z.ltb_spec i wb); rewrite ?andb_false_r; auto.
    replace (0 <=? i) with true by lia. cbn [andb]. unfold o'. rewrite zget_zsplice by lia.
    replace ((kr <=? kr + i) && (kr + i <? kr + zlen new)) with true by lia.
    unfold new. rewrite zget_app, LN1. replace (kr + i - kr <? wb) with true by lia.
    rewrite zget_zslice_gen by lia. replace ((0 <=? kr + i - kr) && (kr + i - kr <? wb)) with true by lia. f_equal. lia.
  - intros i Hi Hn. unfold o'. rewrite zget_zsplice by lia. destruct ((kr <=? i) && (i <? kr + zlen new)) eqn:EI; [|reflexivity].
    unfold new. rewrite zget_app, LN1. replace (i - kr <? wb) with false by lia.
    rewrite zget_skipn by lia. rewrite zget_zslice_gen by lia.
    replace ((0 <=? _) && (_ <? rp)) with true by lia. f_equal. lia.
Qed.

Section LR.
Context {D : Type}.
Variable seek : D -> Z -> res D.
Variable read : D -> list Z -> res (list Z * D).
Variable at_ : D -> Z -> Prop.
Variable data : list Z.
Variable sb : Z.
Notation T := (zlen data).
Notation seek_ok := (LoadRectSpec.seek_ok seek at_ data sb).
Notation read_ok := (LoadRectSpec.read_ok read at_ data sb).

Definition tmp_ok (s : @lstate D) : Prop := forall t, l_tmps s = Some t -> zlen (l_tmp s) = sb /\
  forall i, 0 <= i < sb -> t * sb + i < T -> zget (l_tmp s) i = zget data (t * sb + i).
Definition linv (s : @lstate D) : Prop := at_ (l_d s) (l_cur s) /\ 0 <= l_cur s /\ tmp_ok s.

Lemma slice_from (b : list Z) n off len : zlen b = sb -> 0 <= n * sb -> 0 <= off -> 0 <= len -> off + len <= sb -> n * sb + off + len <= T ->
  (forall i, 0 <= i < sb -> n * sb + i < T -> zget b i = zget data (n * sb + i)) ->
  zslice b off len = zslice data (n * sb + off) len.
Proof.
  intros L Hn H1 H2 H3 H4 H. apply zget_ext'. intros i Hi. rewrite !zget_zslice_gen by lia.
  destruct (Z.ltb_spec i len); rewrite ?andb_false_r; auto. replace (0 <=? i) with true by lia. cbn [andb].
  rewrite H by lia. f_equal. lia.
Qed.
Lemma sub_slice_ok l off len : 0 <= off -> off + len <= zlen l -> 0 <= len -> sub_slice l off len = Ok (zslice l off len).
Proof. intros. unfold sub_slice. replace ((zlen l <? off) || (zlen l - off <? len)) with false by lia. reflexivity. Qed.
Lemma write_all_ok acc out src : zlen src <= zlen out -> write_all acc out src = Ok (acc ++ src, skipn (length src) out).
Proof. intros. unfold write_all. replace (_ <? _) with false by lia. reflexivity. Qed.

Hypothesis Hsb : 0 < sb.
Hypothesis Hsk : seek_ok.
Hypothesis Hrd : read_ok.
Hypothesis HT : T + sb <= u64_max.

Lemma range_loop_ok end_ start : end_ <= T -> forall fuel s acc out, linv s ->
  start < l_cur s * sb + sb -> start < end_ -> 0 <= start ->
  (Z.to_nat (end_ - l_cur s * sb) <= fuel)%nat ->
  let st := Z.max start (l_cur s * sb) in
  end_ - st <= zlen out ->
  exists s', range_loop read fuel sb start end_ (l_cur s * sb) s acc out =
     Ok (s', acc ++ zslice data st (end_ - st) ++ skipn (Z.to_nat (Z.max 0 (end_ - st))) out) /\ linv s'.
Proof using Hsb Hsk Hrd HT.
  intros He. induction fuel as [|f IH]; intros s acc out I Hst Hse H0 Hf st Ho.
  - assert (C : end_ <= l_cur s * sb) by lia. cbn [range_loop]. replace (l_cur s * sb <? end_) with false by lia.
    exists s. split; [|exact I]. rewrite zslice_nil_n by lia. replace (Z.max 0 (end_ - st)) with 0 by lia. reflexivity.
  - cbn [range_loop]. destruct (Z.ltb_spec (l_cur s * sb) end_) as [C|C].
    2:{ exists s. split; [|exact I]. rewrite zslice_nil_n by lia. replace (Z.max 0 (end_ - st)) with 0 by lia. reflexivity. }
    destruct I as (A & N & TM). set (pos := l_cur s * sb) in *.
    assert (P0 : 0 <= pos) by (apply Z.mul_nonneg_nonneg; lia).
    assert (NX : (l_cur s + 1) * sb = pos + sb) by (unfold pos; ring).
    destruct ((start <=? pos) && (sb <=? end_ - pos)) eqn:EC.
    + assert (ES : st = pos) by lia. replace (zlen out <? sb) with false by lia.
      destruct (Hrd (l_d s) (l_cur s) (firstn (Z.to_nat sb) out) A) as (b & d' & E & A' & Lb & Pb); [rewrite zlen_firstn; lia|lia|fold pos; lia|].
      rewrite E. cbn [bind]. replace (u64_max <? pos + sb) with false by lia.
      cbn [l_d l_cur l_tmp l_tmps]. rewrite <- NX.
      destruct (IH (mkL d' (l_cur s + 1) (l_tmp s) (l_tmps s)) (acc ++ b) (skipn (Z.to_nat sb) out)) as (s' & E' & I'); auto; cbn [l_d l_cur l_tmp l_tmps] in *; rewrite ?NX in *.
      * repeat split; auto; cbn [l_d l_cur]; try lia; destruct (TM _ H); auto.
      * lia.
      * lia.
      * rewrite zlen_skipn. lia.
      * exists s'. rewrite E'. split; [|exact I']. f_equal. f_equal. rewrite <- app_assoc. f_equal.
        assert (B : b = zslice data pos sb).
        { rewrite <- (zslice_full b sb) by lia. rewrite (slice_from b (l_cur s) 0 sb) by (auto; try lia; fold pos; lia).
          fold pos. f_equal. lia. }
        rewrite ES. replace (end_ - pos) with (sb + (end_ - (pos + sb))) at 1 by lia.
        rewrite zslice_split by lia. rewrite <- app_assoc. replace (Z.max start (pos + sb)) with (pos + sb) by lia. rewrite B. f_equal. f_equal.
        rewrite skipn_skipn. f_equal. lia.
    + destruct (Hrd (l_d s) (l_cur s) (firstn (Z.to_nat sb) (l_tmp s ++ repeat 0 (Z.to_nat sb))) A) as (b & d' & E & A' & Lb & Pb).
      { rewrite zlen_firstn, zlen_app, zlen_repeat. pose proof (zlen_nonneg (l_tmp s)). lia. }
      { lia. } { fold pos. lia. }
      rewrite E. cbn [bind].
      set (offset := Z.max 0 (start - pos)). set (len := Z.min (Z.min (end_ - start) (sb - offset)) (end_ - pos)).
      assert (OL : 0 <= offset /\ 0 <= len /\ offset + len <= sb /\ pos + offset = st /\ len = Z.min (pos + sb) end_ - st) by lia.
      destruct OL as (O1 & O2 & O3 & O4 & O5).
      rewrite sub_slice_ok by lia. cbn [bind]. rewrite write_all_ok by (rewrite zlen_zslice_gen; lia). cbn [bind].
      replace (u64_max <? pos + sb) with false by lia. cbn [l_d l_cur l_tmp l_tmps]. rewrite <- NX.
      assert (SL : zlen (zslice b offset len) = len) by (rewrite zlen_zslice_gen; lia).
      destruct (IH (mkL d' (l_cur s + 1) b (Some (l_cur s))) (acc ++ zslice b offset len) (skipn (length (zslice b offset len)) out)) as (s' & E' & I'); auto; cbn [l_d l_cur l_tmp l_tmps] in *; rewrite ?NX in *.
      * split; [exact A'|]. split; [cbn; lia|]. intros t Q. cbn [l_tmps] in Q. apply Some_inj in Q. subst t. split; [exact Lb|exact Pb].
      * lia.
      * lia.
      * rewrite zlen_skipn. unfold zlen in SL. lia.
      * exists s'. rewrite E'. split; [|exact I']. f_equal. f_equal. rewrite <- app_assoc. f_equal.
        assert (SB : zslice b offset len = zslice data st len)
          by (rewrite (slice_from b (l_cur s) offset len) by (auto; try lia; fold pos; lia); fold pos; rewrite O4; reflexivity).
        rewrite SB in SL |- *.
        replace (Z.max start (pos + sb)) with (pos + sb) by lia.
        destruct (Z.le_gt_cases (pos + sb) end_) as [Q|Q].
        -- replace (end_ - st) with (len + (end_ - (pos + sb))) at 1 by lia. rewrite zslice_split by lia. rewrite <- app_assoc.
           replace (st + len) with (pos + sb) by lia. f_equal. f_equal. rewrite skipn_skipn. f_equal. unfold zlen in SL. lia.
        -- rewrite (zslice_nil_n data (pos + sb)) by lia. cbn [app]. replace (end_ - st) with len by lia. f_equal.
           rewrite skipn_skipn. f_equal. unfold zlen in SL. lia.
Qed.

Lemma read_range_ok s start end_ out : linv s -> 0 <= start < end_ -> end_ <= T -> end_ - start <= zlen out ->
  exists s', read_image_range seek read sb start end_ s out =
     Ok (s', zslice data start (end_ - start) ++ skipn (Z.to_nat (end_ - start)) out) /\ linv s'.
Proof using Hsb Hsk Hrd HT.
  intros I Hs He Ho. unfold read_image_range. replace (sb =? 0) with false by lia.
  pose proof (Z.div_mod start sb ltac:(lia)) as DM. pose proof (Z.mod_pos_bound start sb ltac:(lia)) as MB.
  assert (T0 : 0 <= start / sb) by (apply Z.div_pos; lia).
  (* continuing from s0 *)
  assert (K : forall start' acc out', 0 <= start' < end_ -> end_ - start' <= zlen out' ->
    exists s', (s1 <- (if negb (start' / sb =? l_cur s) then
            d <- seek (l_d s) (start' / sb) ;; Ok (mkL d (start' / sb) (l_tmp s) (l_tmps s))
          else Ok s) ;;
    range_loop read (S (Z.to_nat (end_ - l_cur s1 * sb))) sb start' end_ (l_cur s1 * sb) s1 acc out')
    = Ok (s', acc ++ zslice data start' (end_ - start') ++ skipn (Z.to_nat (end_ - start')) out') /\ linv s').
  { intros start' acc out' Hs' Ho'.
    pose proof (Z.div_mod start' sb ltac:(lia)) as DM'. pose proof (Z.mod_pos_bound start' sb ltac:(lia)) as MB'.
    assert (T0' : 0 <= start' / sb) by (apply Z.div_pos; lia).
    assert (X : exists s1, (if negb (start' / sb =? l_cur s) then
            d <- seek (l_d s) (start' / sb) ;; Ok (mkL d (start' / sb) (l_tmp s) (l_tmps s))
          else Ok s) = Ok s1 /\ linv s1 /\ l_cur s1 = start' / sb).
    { destruct (Z.eqb_spec (start' / sb) (l_cur s)); cbn [negb]; [eauto|]. destruct I as (A & N & TM).
      destruct (Hsk (l_d s) (l_cur s) (start' / sb) A ltac:(lia)) as (d' & E & A'); [left; lia|]. rewrite E. cbn [bind].
      eexists. split; [reflexivity|]. split; [|reflexivity]. split; [exact A'|]. split; [cbn; lia|]. exact TM. }
    destruct X as (s1 & E1 & I1 & C1). rewrite E1. cbn [bind].
    destruct (range_loop_ok end_ start' ltac:(lia) (S (Z.to_nat (end_ - l_cur s1 * sb))) s1 acc out' I1) as (s' & E' & I'); try (rewrite C1; lia); try lia.
    rewrite E'. exists s'. split; [|exact I']. rewrite C1. replace (Z.max start' (start' / sb * sb)) with start' by lia.
    replace (Z.max 0 (end_ - start')) with (end_ - start') by lia. reflexivity. }
  destruct (match l_tmps s with Some t => t =? start / sb | None => false end) eqn:EH.
  - destruct (l_tmps s) as [t|] eqn:ET; [|discriminate]. apply Z.eqb_eq in EH.
    destruct I as (A & N & TM) eqn:EI. destruct (TM t ET) as (Lt & Pt). subst t.
    set (q := start / sb) in *. set (offset := Z.max 0 (start - q * sb)).
    set (len := Z.min (Z.min (end_ - start) (sb - offset)) (end_ - q * sb)).
    assert (OL : 0 <= offset /\ 0 < len /\ offset + len <= sb /\ q * sb + offset = start /\ len <= end_ - start) by lia.
    destruct OL as (O1 & O2 & O3 & O4 & O5).
    assert (SL : zlen (zslice (l_tmp s) offset len) = len) by (rewrite zlen_zslice_gen; lia).
    rewrite sub_slice_ok by lia. cbn [bind]. rewrite write_all_ok by lia. cbn [bind app].
    assert (SE : zslice (l_tmp s) offset len = zslice data start len).
    { rewrite (slice_from (l_tmp s) q offset len) by (auto; lia). rewrite O4. reflexivity. }
    destruct (Z.eqb_spec (start + len) end_) as [Q|Q].
    + exists s. split; [|split; [exact A|split; auto]]. rewrite SE in SL |- *. replace (end_ - start) with len by lia. f_equal. f_equal. f_equal.
      f_equal. unfold zlen in SL. lia.
    + destruct (K (start + len) (zslice (l_tmp s) offset len) (skipn (length (zslice (l_tmp s) offset len)) out)) as (s' & E' & I'); [lia| |].
      { rewrite zlen_skipn. unfold zlen in SL at 1. unfold zlen. unfold zlen in Ho. lia. }
      rewrite E'. exists s'. split; [|exact I']. f_equal. f_equal. rewrite SE.
      replace (zslice data start (end_ - start)) with (zslice data start (len + (end_ - (start + len)))) by (f_equal; lia).
      rewrite zslice_split by lia. rewrite <- app_assoc. f_equal. f_equal. rewrite skipn_skipn. f_equal.
      rewrite <- SE. unfold zlen in SL. lia.
  - cbn [bind]. destruct (K start [] out) as (s' & E' & I'); auto. exists s'. split; [exact E'|exact I'].
Qed.

(** the whole function *)
Lemma load_rect_ok dw dh bpp x y w h buf rp d : at_ d 0 -> 0 < bpp -> 0 <= x -> 0 <= y -> 0 < w -> 0 < h ->
  x + w <= dw -> y + h <= dh -> T = dw * dh * bpp -> w * bpp <= rp -> (h - 1) * rp + w * bpp <= zlen buf ->
  exists out d', load_rect seek read dw dh bpp x y w h buf rp sb d = Ok (out, d') /\ at_ d' 0 /\ zlen out = zlen buf /\
    (forall j, 0 <= j < h -> zslice out (j * rp) (w * bpp) = zslice data (((y + j) * dw + x) * bpp) (w * bpp)) /\
    (forall i, 0 <= i < zlen buf -> (forall j, 0 <= j < h -> ~ (j * rp <= i < j * rp + w * bpp)) -> zget out i = zget buf i).
Proof using Hsb Hsk Hrd HT.
  intros A Hb Hx Hy Hw Hh Hxw Hyh ET Hrp Hbuf. unfold load_rect.
  assert (WB : 0 < w * bpp) by (apply Z.mul_pos_pos; lia).
  assert (TB : w * h * bpp <= (h - 1) * rp + w * bpp).
  { assert ((h - 1) * (w * bpp) <= (h - 1) * rp) by (apply Z.mul_le_mono_nonneg_l; lia). lia. }
  assert (WT : w * h * bpp <= T).
  { rewrite ET. apply Z.mul_le_mono_nonneg_r; [lia|]. apply Z.mul_le_mono_nonneg; lia. }
  replace (u64_max <? w * h * bpp) with false by lia. replace (zlen buf <? w * h * bpp) with false by lia.
  replace ((dw <? x + w) || (dh <? y + h) || (w =? 0) || (h =? 0)) with false by lia.
  assert (I0 : linv (mkL d 0 [] None)) by (split; [exact A|split; [cbn; lia|intros t Q; discriminate]]).
  assert (DW : 0 < dw * bpp) by (apply Z.mul_pos_pos; lia).
  assert (FIN : forall (s : @lstate D), linv s -> exists d', seek (l_d s) 0 = Ok d' /\ at_ d' 0).
  { intros s (As & _). apply (Hsk _ _ 0 As); lia. }
  assert (ROW : forall j, 0 <= j < h -> 0 <= ((y + j) * dw + x) * bpp /\ ((y + j) * dw + x) * bpp + w * bpp <= T).
  { intros j Hj. split; [apply Z.mul_nonneg_nonneg; [|lia]; assert (0 <= (y + j) * dw) by (apply Z.mul_nonneg_nonneg; lia); lia|].
    rewrite ET. replace (((y + j) * dw + x) * bpp + w * bpp) with (((y + j) * dw + x + w) * bpp) by ring.
    apply Z.mul_le_mono_nonneg_r; [lia|]. assert ((y + j + 1) * dw <= dh * dw) by (apply Z.mul_le_mono_nonneg_r; lia). lia. }
  destruct ((x =? 0) && (w =? dw) && (rp =? bpp * dw)) eqn:EF.
  - assert (x = 0 /\ w = dw /\ rp = bpp * dw) as (-> & -> & ->) by lia.
    assert (LEN : (0 + dw) * bpp + (y + h - 1) * (bpp * dw) - (0 * bpp + y * (bpp * dw)) = h * (dw * bpp)) by ring.
    assert (ST : 0 * bpp + y * (bpp * dw) = y * dw * bpp) by ring.
    assert (HB : 0 < h * (dw * bpp)) by (apply Z.mul_pos_pos; lia).
    assert (Y0 : 0 <= y * dw * bpp) by (apply Z.mul_nonneg_nonneg; [apply Z.mul_nonneg_nonneg; lia|lia]).
    assert (YH : (y + h) * (dw * bpp) <= dh * (dw * bpp)) by (apply Z.mul_le_mono_nonneg_r; lia).
    destruct (read_range_ok (mkL d 0 [] None) (0 * bpp + y * (bpp * dw)) ((0 + dw) * bpp + (y + h - 1) * (bpp * dw)) buf I0) as (s' & E & I'); try lia.
    rewrite E. cbn [bind]. destruct (FIN s' I') as (d' & Ed & Ad). rewrite Ed. cbn [bind]. eexists _, d'. split; [reflexivity|].
    split; [exact Ad|]. rewrite LEN, ST.
    assert (LS : zlen (zslice data (y * dw * bpp) (h * (dw * bpp))) = h * (dw * bpp)) by (rewrite zlen_zslice_gen; lia).
    split; [rewrite zlen_app, LS, zlen_skipn; lia|]. split.
    + intros j Hj. assert (0 <= j * (bpp * dw)) by (apply Z.mul_nonneg_nonneg; lia).
      assert ((j + 1) * (dw * bpp) <= h * (dw * bpp)) by (apply Z.mul_le_mono_nonneg_r; lia).
      rewrite zslice_app1 by lia. rewrite zslice_zslice by lia. f_equal. ring.
    + intros i Hi Hn. rewrite zget_app. rewrite LS. destruct (Z.ltb_spec i (h * (dw * bpp))) as [Q|Q].
      * exfalso. pose proof (Z.div_mod i (bpp * dw) ltac:(lia)) as DMi. pose proof (Z.mod_pos_bound i (bpp * dw) ltac:(lia)).
        apply (Hn (i / (bpp * dw))); [|lia]. split; [apply Z.div_pos; lia|]. apply Z.div_lt_upper_bound; lia.
      * rewrite zget_skipn by lia. f_equal. lia.
  - replace (rp =? 0) with false by lia.
    assert (NC : Z.min h ((zlen buf + rp - 1) / rp) = h).
    { apply Z.min_l. apply Z.div_le_lower_bound; lia. }
    rewrite NC.
    match goal with |- context [foldM ?g (zrange 0 h) ?s0] =>
      destruct (foldM_zrange_inv g (fun k st => let '(s, o) := st in linv s /\ zlen o = zlen buf /\
         (forall j, 0 <= j < k -> zslice o (j * rp) (w * bpp) = zslice data (((y + j) * dw + x) * bpp) (w * bpp)) /\
         (forall i, 0 <= i < zlen buf -> (forall j, 0 <= j < k -> ~ (j * rp <= i < j * rp + w * bpp)) -> zget o i = zget buf i)) 0 h s0)
        as ([s' o] & E & I' & L' & P' & Q') end.
    + lia.
    + split; [exact I0|]. split; [reflexivity|]. split; [intros; lia|auto].
    + intros k [s o] Hk (Is & Ls & Ps & Qs). rewrite Z.add_0_l.
      assert (KR : 0 <= k * rp) by (apply Z.mul_nonneg_nonneg; lia).
      assert (KB : k * rp + w * bpp <= zlen buf).
      { assert (k * rp <= (h - 1) * rp) by (apply Z.mul_le_mono_nonneg_r; lia). lia. }
      destruct (ROW k Hk) as (R1 & R2).
      assert (ES : x * bpp + (y + k) * (bpp * dw) = ((y + k) * dw + x) * bpp) by ring.
      assert (EE : (x + w) * bpp + (y + k) * (bpp * dw) = ((y + k) * dw + x) * bpp + w * bpp) by ring.
      rewrite ES, EE.
      destruct (read_range_ok s (((y + k) * dw + x) * bpp) (((y + k) * dw + x) * bpp + w * bpp) (zslice o (k * rp) rp) Is) as (s' & E & I').
      { split; [exact R1|apply Z.lt_add_pos_r; exact WB]. }
      { exact R2. }
      { rewrite zlen_zslice_gen by lia. rewrite Z.add_simpl_l, Ls. clear - KB KR Hrp WB. generalize dependent (k * rp). generalize dependent (w * bpp). lia. }
      rewrite E. cbn [bind]. eexists. split; [reflexivity|].
      replace (((y + k) * dw + x) * bpp + w * bpp - ((y + k) * dw + x) * bpp) with (w * bpp) by ring.
      clear ES EE TB WT DW ET EF NC FIN ROW E Is Hxw Hyh I0 Hbuf.
      remember (((y + k) * dw + x) * bpp) as st eqn:Est.
      rewrite <- Ls in KB.
      destruct (row_splice o data (k * rp) (w * bpp) rp st KR (conj WB Hrp) KB R1 R2) as (S1 & S2 & S3).
      split; [exact I'|]. split; [rewrite S1; exact Ls|]. split.
      * intros j Hj. destruct (Z.eq_dec j k) as [->|NE]; [rewrite <- Est; exact S2|].
        assert (J1 : (j + 1) * rp <= k * rp) by (apply Z.mul_le_mono_nonneg_r; lia).
        assert (J0 : 0 <= j * rp) by (apply Z.mul_nonneg_nonneg; lia).
        rewrite <- Ps by lia. rewrite Z.mul_add_distr_r in J1. clear - J1 J0 S3 Hrp WB KB. set (jr := j * rp) in *. set (kr := k * rp) in *. set (wb := w * bpp) in *.
        clearbody jr kr wb. apply zget_ext'. intros i Hi. rewrite !zget_zslice_gen by lia. destruct (Z.ltb_spec i wb); rewrite ?andb_false_r; auto.
        replace (0 <=? i) with true by lia. cbn [andb]. apply S3; lia.
      * intros i Hi Hn. rewrite S3 by (rewrite ?Ls; auto; apply Hn; lia). apply Qs; auto. intros j Hj. apply Hn. lia.
    + rewrite E. cbn [bind]. destruct (FIN s' I') as (d' & Ed & Ad). rewrite Ed. cbn [bind]. eexists _, d'. repeat split; auto.
Qed.
End LR.

(** ** ImageReadBuffer *)
Section RB.
Context {Src : Type}.
Variable rd : Src -> Z -> res (list Z * Src).
Variable rep : Src -> list Z -> Prop.
Notation source_ok := (LoadRectSpec.source_ok rd rep).

(** [todo]: the bytes not delivered yet *)
Definition rb_inv (sb total : Z) (s : rbuf) (src : Src) (todo : list Z) : Prop :=
  rb_sb s = sb /\ rb_total s = total /\ 0 <= rb_consumed s <= zlen (rb_buffer s) /\
  exists rest, rep src rest /\ todo = skipn (Z.to_nat (rb_consumed s)) (rb_buffer s) ++ rest /\
    rb_offset s + zlen rest = total /\ (rest = [] \/ zlen (rb_buffer s) = 0 \/ zlen (rb_buffer s) = sb).

Lemma rb_read_ok sb total s src todo n : source_ok -> 0 < sb -> rb_inv sb total s src todo -> 0 <= n ->
  exists b s' src' todo', rb_read rd s src n = Ok (b, s', src') /\ rb_inv sb total s' src' todo' /\ todo = b ++ todo' /\
    zlen b <= n /\ (b = [] -> n = 0 \/ todo = []).
Proof.
  intros SO Hsb (E1 & E2 & C & rest & R & ET & OT & BL) Hn. unfold rb_read. rewrite E1, E2.
  assert (DL : forall (s0 : rbuf) (src0 : Src) todo0, rb_inv sb total s0 src0 todo0 -> (rb_consumed s0 < zlen (rb_buffer s0) \/ todo0 = []) ->
    exists b s' src' todo', rb_deliver n s0 src0 = Ok (b, s', src') /\ rb_inv sb total s' src' todo' /\ todo0 = b ++ todo' /\
    zlen b <= n /\ (b = [] -> n = 0 \/ todo0 = [])).
  { intros s0 src0 todo0 (F1 & F2 & G & rest0 & R0 & T0 & O0 & B0) NE. unfold rb_deliver.
    pose proof (zlen_nonneg rest0) as RN.
    set (avail := zlen (rb_buffer s0) - rb_consumed s0).
    assert (ZS : forall m, 0 <= m <= avail -> zlen (zslice (rb_buffer s0) (rb_consumed s0) m) = m) by (intros; rewrite zlen_zslice_gen; lia).
    assert (SP : forall m, 0 <= m <= avail -> todo0 = zslice (rb_buffer s0) (rb_consumed s0) m ++ skipn (Z.to_nat (rb_consumed s0 + m)) (rb_buffer s0) ++ rest0).
    { intros m Hm. rewrite T0. rewrite app_assoc. f_equal. unfold zslice.
      replace (Z.to_nat (rb_consumed s0 + m)) with (Z.to_nat (rb_consumed s0) + Z.to_nat m)%nat by lia.
      rewrite <- skipn_skipn. symmetry. apply firstn_skipn. }
    destruct (Z.ltb_spec n avail) as [Q|Q].
    - eexists _, _, _, _. split; [reflexivity|]. split; [|split; [apply (SP n); lia|split]].
      + split; [exact F1|]. split; [exact F2|]. cbn [rb_consumed rb_buffer rb_offset]. split; [lia|]. exists rest0. repeat (apply conj; [assumption || reflexivity|]). exact B0.
      + rewrite ZS; lia.
      + intros HB. left. assert (Z0 : zlen (zslice (rb_buffer s0) (rb_consumed s0) n) = n) by (apply ZS; lia). rewrite HB in Z0. change (zlen (@nil Z)) with 0 in Z0. lia.
    - eexists _, _, _, _. split; [reflexivity|]. split; [|split; [apply (SP avail); lia|split]].
      + split; [exact F1|]. split; [exact F2|]. cbn [rb_consumed rb_buffer rb_offset]. split; [lia|]. exists rest0.
        replace (rb_consumed s0 + avail) with (zlen (rb_buffer s0)) by (unfold avail; lia). repeat (apply conj; [assumption || reflexivity|]). exact B0.
      + rewrite ZS; lia.
      + intros HB. assert (Z0 : zlen (zslice (rb_buffer s0) (rb_consumed s0) avail) = avail) by (apply ZS; lia). rewrite HB in Z0. change (zlen (@nil Z)) with 0 in Z0.
        destruct NE as [NE|NE]; [exfalso; lia|right; exact NE]. }
  pose proof (zlen_nonneg rest) as RN.
  destruct (Z.eqb_spec (zlen (rb_buffer s)) (rb_consumed s)) as [Q|Q].
  2:{ apply DL; [|left; lia]. split; [exact E1|]. split; [exact E2|]. split; [exact C|]. exists rest. repeat (apply conj; [assumption|]). assumption. }
  assert (TR : todo = rest).
  { rewrite ET. rewrite <- Q. unfold zlen. rewrite Nat2Z.id, skipn_all. reflexivity. }
  destruct (Z.eqb_spec (rb_offset s) total) as [O|O].
  - assert (RE : rest = []) by (apply zlen_0_nil; lia). rewrite RE in *. clear rest RE. exists [], s, src, todo.
    split; [reflexivity|]. split.
    + split; [exact E1|]. split; [exact E2|]. split; [exact C|]. exists []. repeat (apply conj; [assumption|]). left. reflexivity.
    + split; [reflexivity|]. split; [change (zlen (@nil Z)) with 0; lia|]. intros _. right. exact TR.
  - assert (RP : 0 < zlen rest) by lia.
    destruct (Z.leb_spec sb n) as [P|P].
    + destruct (SO src rest sb R Hsb) as (src' & Er & R'). rewrite Er. cbn [bind].
      eexists _, _, _, _. split; [reflexivity|]. split; [|split; [rewrite TR; symmetry; apply firstn_skipn|split]].
      * split; [reflexivity|]. split; [reflexivity|]. cbn [rb_consumed rb_buffer rb_offset]. split; [lia|].
        exists (skipn (Z.to_nat sb) rest). split; [exact R'|]. split.
        -- rewrite <- Q. unfold zlen at 1. rewrite Nat2Z.id, skipn_all. reflexivity.
        -- split; [rewrite zlen_firstn, zlen_skipn; lia|]. destruct BL as [->|BL]; [left; destruct (Z.to_nat sb); reflexivity|auto].
      * rewrite zlen_firstn. lia.
      * intros HB. exfalso. assert (Z0 : zlen (firstn (Z.to_nat sb) rest) = 0) by (rewrite HB; reflexivity). rewrite zlen_firstn in Z0. lia.
    + set (cap := if zlen (rb_buffer s) =? 0 then sb else zlen (rb_buffer s)).
      assert (CAP : cap = sb). { unfold cap. destruct (Z.eqb_spec (zlen (rb_buffer s)) 0); [reflexivity|]. destruct BL as [->|[BL|BL]]; [change (zlen (@nil Z)) with 0 in RP; lia|lia|lia]. }
      rewrite CAP. destruct (SO src rest sb R Hsb) as (src' & Er & R'). rewrite Er. cbn [bind].
      assert (LF : zlen (firstn (Z.to_nat sb) rest) = Z.min sb (zlen rest)) by (rewrite zlen_firstn; lia).
      assert (LS : zlen (skipn (Z.to_nat sb) rest) = Z.max 0 (zlen rest - sb)) by (rewrite zlen_skipn; lia).
      rewrite LF. replace ((Z.min sb (zlen rest) =? sb) || (rb_offset s + Z.min sb (zlen rest) =? total)) with true by lia.
      rewrite TR. apply DL.
      * split; [reflexivity|]. split; [reflexivity|]. cbn [rb_consumed rb_buffer rb_offset]. split; [lia|].
        exists (skipn (Z.to_nat sb) rest). split; [exact R'|]. split; [symmetry; apply firstn_skipn|]. split; [lia|].
        destruct (Z.le_gt_cases sb (zlen rest)); [right; right; lia|left; apply zlen_0_nil; lia].
      * left. cbn [rb_consumed rb_buffer]. lia.
Qed.

Lemma rb_run_ok sb total : source_ok -> 0 < sb -> forall sizes s src todo, rb_inv sb total s src todo -> Forall (fun n => 0 <= n) sizes ->
  exists bs rest, rb_run rd s src sizes = Ok bs /\ todo = concat bs ++ rest /\ Forall2 (fun b n => zlen b <= n) bs sizes /\
    (forall k, 0 <= k < zlen sizes -> zget bs k = Some [] -> zget sizes k = Some 0 \/ todo = concat (firstn (Z.to_nat k) bs)).
Proof.
  intros SO Hsb. induction sizes as [|n sizes IH]; intros s src todo I F.
  - exists [], todo. repeat split; auto. intros k Hk. change (zlen (@nil Z)) with 0 in Hk. lia.
  - inversion F as [|? ? Fn Fr]; subst. destruct (rb_read_ok sb total s src todo n SO Hsb I Fn) as (b & s' & src' & todo' & E & I' & T & L & Z0).
    destruct (IH s' src' todo' I' Fr) as (bs & rest & E' & T' & F2 & K). cbn [rb_run]. rewrite E. cbn [bind]. rewrite E'. cbn [bind].
    exists (b :: bs), rest. split; [reflexivity|]. split; [rewrite T, T'; cbn [concat]; apply app_assoc|]. split; [constructor; assumption|].
    intros k Hk G. rewrite zlen_cons in Hk. destruct (Z.eq_dec k 0) as [->|NZ].
    + cbn in G. apply Some_inj in G. destruct (Z0 G) as [->|Q0]; [left; reflexivity|right; exact Q0].
    + rewrite zget_cons in G by lia. rewrite zget_cons by lia. replace (k =? 0) with false in * by lia.
      destruct (K (k - 1) ltac:(lia) G) as [|Q]; [left; assumption|right]. replace (Z.to_nat k) with (S (Z.to_nat (k - 1))) by lia.
      cbn [firstn concat]. rewrite T, Q. reflexivity.
Qed.
End RB.
