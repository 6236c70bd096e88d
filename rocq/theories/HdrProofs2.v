From Verif Require Import Base BaseLemmas ListLemmas ListMore GenImage Text Hdr HdrProofs.
Local Open Scope Z_scope.

(** ** totality of scanline decoding *)
Definition suffix (r' r : reader) : Prop := exists p, r = p ++ r'.
Lemma suffix_refl r : suffix r r. Proof. exists []. reflexivity. Qed.
Lemma suffix_trans a b c : suffix a b -> suffix b c -> suffix a c.
Proof. intros [p ->] [q ->]. exists (q ++ p). rewrite app_assoc. reflexivity. Qed.
Lemma suffix_bytes a b : suffix a b -> bytes b -> bytes a.
Proof. intros [p ->] H. apply bytes_app in H. tauto. Qed.
Lemma suffix_len a b : suffix a b -> (length a <= length b)%nat.
Proof. intros [p ->]. rewrite app_length. lia. Qed.
Lemma suffix_cons b r : suffix r (b :: r). Proof. exists [b]. reflexivity. Qed.
Lemma suffix_skipn n r : suffix (skipn n r) r. Proof. exists (firstn n r). symmetry. apply firstn_skipn. Qed.

Definition real_err (e : err) : Prop := e = EEof \/ e = EDecoding.

Lemma D_total w : forall n r pos, (length r < n)%nat -> bytes r -> 0 <= pos <= w ->
  (exists e, real_err e /\ forall k buf, zlen buf = w -> D k w pos buf r = Err e) \/
  (exists vs r', zlen vs = w - pos /\ suffix r' r /\
     forall k buf, zlen buf = w -> D k w pos buf r = (b <- set_run k buf pos vs ;; Ok (b, r'))).
Proof.
  induction n as [|n IH]; intros r pos Hn HB Hp; [lia|].
  destruct (Z.eq_dec pos w) as [->|].
  { right. exists [], r. split; [rewrite Z.sub_diag; reflexivity|]. split; [apply suffix_refl|].
    intros. rewrite D_end. reflexivity. }
  destruct r as [|rl r1].
  { left. exists EEof. split; [left; reflexivity|]. intros. rewrite D_step by lia. reflexivity. }
  apply bytes_cons in HB as [Hrl HB]. cbn [length] in Hn.
  destruct (Z.leb_spec rl 128) as [L|L].
  - destruct (Z.ltb_spec w (pos + rl)) as [W|W].
    { left. exists EDecoding. split; [right; reflexivity|]. intros. rewrite D_step by lia. cbn [read_u8 bind].
      replace (rl <=? 128) with true by lia. replace (w <? pos + rl) with true by lia. reflexivity. }
    destruct (Z.ltb_spec (zlen r1) rl) as [Q|Q].
    { left. exists EEof. split; [left; reflexivity|]. intros. rewrite D_step by lia. cbn [read_u8 bind].
      replace (rl <=? 128) with true by lia. replace (w <? pos + rl) with false by lia.
      unfold read_exact. replace (zlen r1 <? rl) with true by lia. reflexivity. }
    set (vs := firstn (Z.to_nat rl) r1). set (r2 := skipn (Z.to_nat rl) r1).
    assert (HV : zlen vs = rl). { unfold vs. rewrite zlen_firstn. destruct Hrl. lia. }
    assert (S2 : suffix r2 (rl :: r1)). { eapply suffix_trans; [apply suffix_skipn|apply suffix_cons]. }
    assert (ST : forall k buf, zlen buf = w -> exists b, zlen b = w /\ set_run k buf pos vs = Ok b /\
              D k w pos buf (rl :: r1) = D k w (pos + rl) b r2).
    { intros k buf E. destruct (set_run_len k vs buf pos ltac:(lia) ltac:(lia)) as (b & E1 & E2). exists b.
      split; [lia|]. split; [exact E1|]. rewrite D_step by lia. cbn [read_u8 bind].
      replace (rl <=? 128) with true by lia. replace (w <? pos + rl) with false by lia.
      unfold read_exact. replace (zlen r1 <? rl) with false by lia. cbn [bind]. fold vs r2. rewrite E1. reflexivity. }
    destruct (IH r2 (pos + rl)) as [(e & He & H)|(vs' & r' & H1 & H2 & H3)].
    + unfold r2. rewrite skipn_length. lia.
    + eapply suffix_bytes; [exact S2|]. apply bytes_cons. auto.
    + destruct Hrl. lia.
    + left. exists e. split; [exact He|]. intros k buf E. destruct (ST k buf E) as (b & E1 & _ & ->). apply H. exact E1.
    + right. exists (vs ++ vs'), r'. split; [rewrite zlen_app; lia|]. split; [eapply suffix_trans; eauto|].
      intros k buf E. destruct (ST k buf E) as (b & E1 & E2 & ->). rewrite H3 by exact E1.
      rewrite set_run_app, E2. cbn [bind]. rewrite HV. reflexivity.
  - destruct (Z.ltb_spec w (pos + (rl - 128))) as [W|W].
    { left. exists EDecoding. split; [right; reflexivity|]. intros. rewrite D_step by lia. cbn [read_u8 bind].
      replace (rl <=? 128) with false by lia. replace (w <? pos + (rl - 128)) with true by lia. reflexivity. }
    destruct r1 as [|v r2].
    { left. exists EEof. split; [left; reflexivity|]. intros. rewrite D_step by lia. cbn [read_u8 bind].
      replace (rl <=? 128) with false by lia. replace (w <? pos + (rl - 128)) with false by lia. reflexivity. }
    set (vs := repeat v (Z.to_nat (rl - 128))).
    assert (HV : zlen vs = rl - 128). { unfold vs. rewrite zlen_repeat. lia. }
    assert (S2 : suffix r2 (rl :: v :: r2)). { exists [rl; v]. reflexivity. }
    assert (ST : forall k buf, zlen buf = w -> exists b, zlen b = w /\ set_run k buf pos vs = Ok b /\
              D k w pos buf (rl :: v :: r2) = D k w (pos + (rl - 128)) b r2).
    { intros k buf E. destruct (set_run_len k vs buf pos ltac:(lia) ltac:(lia)) as (b & E1 & E2). exists b.
      split; [lia|]. split; [exact E1|]. rewrite D_step by lia. cbn [read_u8 bind].
      replace (rl <=? 128) with false by lia. replace (w <? pos + (rl - 128)) with false by lia.
      fold vs. rewrite E1. reflexivity. }
    destruct (IH r2 (pos + (rl - 128))) as [(e & He & H)|(vs' & r' & H1 & H2 & H3)].
    + cbn [length] in Hn. lia.
    + apply bytes_cons in HB. tauto.
    + lia.
    + left. exists e. split; [exact He|]. intros k buf E. destruct (ST k buf E) as (b & E1 & _ & ->). apply H. exact E1.
    + right. exists (vs ++ vs'), r'. split; [rewrite zlen_app; lia|]. split; [eapply suffix_trans; eauto|].
      intros k buf E. destruct (ST k buf E) as (b & E1 & E2 & ->). rewrite H3 by exact E1.
      rewrite set_run_app, E2. cbn [bind]. rewrite HV. reflexivity.
Qed.

Lemma zlen_zipset k buf vs : zlen vs = zlen buf -> zlen (zipset k buf vs) = zlen buf.
Proof. intros H. unfold zipset. rewrite zlen_map. unfold zlen in *. rewrite combine_length. lia. Qed.

Lemma decode_component_total w r : bytes r -> 0 <= w ->
  (exists e, real_err e /\ forall k buf, zlen buf = w -> decode_component k w buf r = Err e) \/
  (exists vs r', zlen vs = w /\ suffix r' r /\
     forall k buf, zlen buf = w -> decode_component k w buf r = Ok (zipset k buf vs, r')).
Proof.
  intros HB Hw. destruct (D_total w (S (length r)) r 0 ltac:(lia) HB ltac:(lia)) as [H|(vs & r' & H1 & H2 & H3)].
  - left. exact H.
  - right. exists vs, r'. split; [lia|]. split; [exact H2|]. intros k buf E. unfold decode_component.
    change (D k w 0 buf r = Ok (zipset k buf vs, r')). rewrite H3 by exact E. rewrite set_run_all by lia. reflexivity.
Qed.

(** four planes, in order: nothing of the original buffer is left *)
Fixpoint planes (r g b e : list Z) : list rgbe :=
  match r, g, b, e with
  | x :: r, y :: g, z :: b, t :: e => mkRgbe x y z t :: planes r g b e
  | _, _, _, _ => []
  end.
Lemma zip4 : forall buf r g b e, zlen r = zlen buf -> zlen g = zlen buf -> zlen b = zlen buf -> zlen e = zlen buf ->
  zipset CE (zipset C2 (zipset C1 (zipset C0 buf r) g) b) e = planes r g b e.
Proof.
  induction buf as [|p buf IH]; intros r g b e Hr Hg Hb He; destruct r, g, b, e;
    rewrite ?zlen_cons in *; change (@zlen Z []) with 0 in *; change (@zlen rgbe []) with 0 in *;
    try (pose proof (zlen_nonneg buf)); try (pose proof (zlen_nonneg r)); try (pose proof (zlen_nonneg g));
    try (pose proof (zlen_nonneg b)); try (pose proof (zlen_nonneg e)); try lia.
  - reflexivity.
  - unfold zipset in *. cbn [combine map fst snd planes setc p0 p1 p2 pe]. f_equal. apply IH; lia.
Qed.
Lemma planes_map px : planes (map p0 px) (map p1 px) (map p2 px) (map pe px) = px.
Proof. induction px as [|[] l IH]; cbn; [|rewrite IH]; reflexivity. Qed.

(** old run lengths: the multiplier is a power of 256 (or, wrapped in a release build, 0) *)
Definition mults : list Z := [0; 1; 256; 65536; 16777216; 4294967296; 1099511627776; 281474976710656; 72057594037927936].

Lemma mult_next m mu mu' : In mu mults -> us_mul_m m mu 256 = Ok mu' -> In mu' mults.
Proof.
  intros H E. unfold mults in H. cbn in H.
  destruct m; cbn [us_mul_m] in E;
  repeat (destruct H as [<-|H]; [cbn in E; try discriminate; apply Ok_inj in E; subst mu'; vm_compute; tauto|]); contradiction.
Qed.
Lemma mult_bound mu : In mu mults -> 0 <= mu <= 72057594037927936.
Proof. intros H. unfold mults in H. cbn in H. repeat (destruct H as [<-|H]; [lia|]). contradiction. Qed.
Lemma rl_ok m rl mu : 0 <= rl <= 255 -> In mu mults -> us_mul_m m rl mu = Ok (rl * mu) /\ 0 <= rl * mu <= 255 * 72057594037927936.
Proof.
  intros H1 H2. apply mult_bound in H2.
  assert (0 <= rl * mu <= 255 * 72057594037927936).
  { split; [apply Z.mul_nonneg_nonneg; lia|]. apply Z.mul_le_mono_nonneg; lia. }
  split; auto. unfold us_mul_m. destruct m.
  - replace (_ <=? u64_max) with true by (unfold u64_max; lia). reflexivity.
  - f_equal. unfold wrap_u64. apply Z.mod_small. lia.
Qed.
Lemma add_ok m a b : 0 <= a <= u32_max -> 0 <= b <= 255 * 72057594037927936 -> us_add_m m a b = Ok (a + b).
Proof.
  intros H1 H2. unfold u32_max in *. unfold us_add_m. destruct m.
  - replace (_ <=? u64_max) with true by (unfold u64_max; lia). reflexivity.
  - f_equal. unfold wrap_u64. apply Z.mod_small. lia.
Qed.

Lemma read_rgbe_cases r : bytes r ->
  read_rgbe r = Err EEof \/ exists p r', read_rgbe r = Ok (p, r') /\ rgbe_ok p /\ bytes r' /\ suffix r' r /\ (length r' < length r)%nat.
Proof.
  intros H. destruct r as [|a [|b [|c [|d r]]]]; auto. right.
  exists (mkRgbe a b c d), r. split; [reflexivity|].
  apply bytes_cons in H as [? H]. apply bytes_cons in H as [? H]. apply bytes_cons in H as [? H]. apply bytes_cons in H as [? H].
  split; [unfold rgbe_ok; auto|]. split; [auto|]. split; [exists [a; b; c; d]; reflexivity|cbn; lia].
Qed.

Lemma firstn_zsplice {A} (b : list A) off new : 0 <= off -> off + zlen new <= zlen b ->
  firstn (Z.to_nat (off + zlen new)) (zsplice b off new) = firstn (Z.to_nat off) b ++ new.
Proof.
  intros H1 H2. unfold zsplice. pose proof (zlen_nonneg new). rewrite app_assoc. apply firstn_app_exact.
  rewrite app_length, firstn_length. unfold zlen in *. lia.
Qed.
Lemma zslice_one {A} (b : list A) off p : zget b off = Some p -> zslice b off 1 = [p].
Proof.
  intros E. unfold zslice, zget in *. destruct (off <? 0); [discriminate|].
  change (Z.to_nat 1) with 1%nat. revert E. generalize (Z.to_nat off) as n. clear.
  induction b as [|x b IH]; intros [|n]; cbn; try discriminate; [intros [= ->]; reflexivity|apply IH].
Qed.
Lemma firstn_zset_snoc {A} (b : list A) off v : 0 <= off < zlen b ->
  firstn (Z.to_nat (off + 1)) (zset b off v) = firstn (Z.to_nat off) b ++ [v].
Proof.
  intros H. destruct (zget_some b off H) as [p Ep].
  pose proof (skipn_split_at b off (off + 1) ltac:(lia) ltac:(lia)) as S.
  assert (E : b = firstn (Z.to_nat off) b ++ p :: skipn (Z.to_nat (off + 1)) b).
  { rewrite <- (firstn_skipn (Z.to_nat off) b) at 1. f_equal. rewrite S.
    replace (off + 1 - off) with 1 by lia. 
    rewrite (zslice_one b off p) by auto. reflexivity. }
  assert (L : zlen (firstn (Z.to_nat off) b) = off) by (rewrite zlen_firstn; lia).
  assert (Z1 : zset b off v = firstn (Z.to_nat off) b ++ v :: skipn (Z.to_nat (off + 1)) b).
  { pose proof (zset_app (firstn (Z.to_nat off) b) p (skipn (Z.to_nat (off + 1)) b) v) as Q.
    rewrite L, <- E in Q. exact Q. }
  rewrite Z1. rewrite (app_assoc (firstn _ b) [v] _ : _ ++ v :: _ = _).
  apply firstn_app_exact. rewrite app_length. unfold zlen in L. cbn. lia.
Qed.

Inductive outcome := OErr (e : err) | OPanic | OOk (out : list rgbe) (r : reader).
Definition res_of (o : outcome) : res (list rgbe * reader) :=
  match o with OErr e => Err e | OPanic => Panic | OOk out r => Ok (out, r) end.

Lemma old_rle_total m : forall n fuel x mu prev r w pre, (length r < n)%nat -> (length r < fuel)%nat -> bytes r ->
  In mu mults -> 1 <= x <= w -> w <= u32_max -> zlen pre = x ->
  exists o, (forall buf, zlen buf = w -> firstn (Z.to_nat x) buf = pre -> old_rle_loop fuel m x mu prev buf r = res_of o) /\
    match o with
    | OErr e => real_err e
    | OPanic => m = Debug
    | OOk out r' => zlen out = w /\ suffix r' r /\ exists tl, out = pre ++ tl
    end.
Proof.
  induction n as [|n IH]; intros fuel x mu prev r w pre Hn Hf HB Hmu Hx Hw Hpre; [lia|].
  destruct fuel as [|fuel]; [lia|].
  destruct (Z.eq_dec x w) as [->|].
  { exists (OOk pre r). split; [|split; [auto|split; [apply suffix_refl|exists []; symmetry; apply app_nil_r]]].
    intros buf E F. cbn [old_rle_loop]. replace (w <? zlen buf) with false by lia.
    replace (w =? zlen buf) with true by lia. cbn. f_equal. f_equal.
    rewrite <- F. symmetry. apply firstn_all2. unfold zlen in E. lia. }
  destruct (read_rgbe_cases r HB) as [E|(pix & r1 & E & Hp & HB1 & S1 & L1)].
  { exists (OErr EEof). split; [|left; reflexivity]. intros buf F1 F2. cbn [old_rle_loop].
    replace (x <? zlen buf) with true by lia. rewrite E. reflexivity. }
  destruct (rl_marker pix) as [rl|] eqn:EM.
  - assert (Hrl : 0 <= rl <= 255).
    { unfold rl_marker in EM. destruct (_ && _); [|discriminate]. injection EM as <-. apply Hp. }
    destruct (rl_ok m rl mu Hrl Hmu) as [E1 B1].
    destruct (us_mul_m m mu 256) as [mu'|e|] eqn:E2.
    + destruct (Z.leb_spec (x + rl * mu) w) as [L|L].
      * destruct (IH fuel (x + rl * mu) mu' prev r1 w (pre ++ repeat prev (Z.to_nat (rl * mu)))) as (o & Ho1 & Ho2);
          try lia; auto.
        { eapply mult_next; eauto. }
        { rewrite zlen_app, zlen_repeat. lia. }
        exists o. split.
        -- intros buf F1 F2. cbn [old_rle_loop]. replace (x <? zlen buf) with true by lia. rewrite E. cbn [bind].
           rewrite EM, E1. cbn [bind]. rewrite E2. cbn [bind]. rewrite add_ok by lia. cbn [bind].
           replace (x + rl * mu <=? zlen buf) with true by lia. unfold fill.
           replace (x + rl * mu <=? zlen buf) with true by lia. cbn [bind].
           apply Ho1; [rewrite zlen_zsplice; rewrite ?zlen_repeat; lia|].
           pose proof (firstn_zsplice buf x (repeat prev (Z.to_nat (rl * mu))) ltac:(lia)) as Q.
           rewrite zlen_repeat in Q. replace (Z.of_nat (Z.to_nat (rl * mu))) with (rl * mu) in Q by lia.
           rewrite Q by lia. rewrite F2. reflexivity.
        -- destruct o; auto. destruct Ho2 as (K1 & K2 & tl & K3). split; auto. split; [eapply suffix_trans; eauto|]. rewrite <- app_assoc in K3. eauto.
      * exists (OErr EDecoding). split; [|right; reflexivity]. intros buf F1 F2. cbn [old_rle_loop].
        replace (x <? zlen buf) with true by lia. rewrite E. cbn [bind].
        rewrite EM, E1. cbn [bind]. rewrite E2. cbn [bind]. rewrite add_ok by lia. cbn [bind].
        replace (x + rl * mu <=? zlen buf) with false by lia. reflexivity.
    + unfold us_mul_m in E2. destruct m; [destruct (mu * 256 <=? u64_max)|]; discriminate.
    + exists OPanic. split.
      * intros buf F1 F2. cbn [old_rle_loop]. replace (x <? zlen buf) with true by lia. rewrite E. cbn [bind].
        rewrite EM, E1. cbn [bind]. rewrite E2. reflexivity.
      * destruct m; [reflexivity|discriminate].
  - destruct (IH fuel (x + 1) 1 pix r1 w (pre ++ [pix])) as (o & Ho1 & Ho2); try lia; auto.
    { vm_compute. tauto. }
    { rewrite zlen_app. change (zlen [pix]) with 1. lia. }
    exists o. split.
    + intros buf F1 F2. cbn [old_rle_loop]. replace (x <? zlen buf) with true by lia. rewrite E. cbn [bind].
      rewrite EM. destruct (zget_some buf x ltac:(lia)) as [q ->].
      apply Ho1; [rewrite zlen_zset; exact F1|]. rewrite firstn_zset_snoc by lia. rewrite F2. reflexivity.
    + destruct o; auto. destruct Ho2 as (K1 & K2 & tl & K3). split; auto. split; [eapply suffix_trans; eauto|]. rewrite <- app_assoc in K3. eauto.
Qed.

Lemma read_scanline_total m w r : 0 < w <= u32_max -> bytes r ->
  exists o, (forall buf, zlen buf = w -> read_scanline m buf r = res_of o) /\
    match o with
    | OErr e => real_err e
    | OPanic => m = Debug
    | OOk out r' => zlen out = w /\ suffix r' r
    end.
Proof.
  intros Hw HB.
  destruct (read_rgbe_cases r HB) as [E|(fb & r1 & E & Hp & HB1 & S1 & L1)].
  { exists (OErr EEof). split; [|left; reflexivity]. intros buf F1. unfold read_scanline.
    replace (zlen buf =? 0) with false by lia. rewrite E. reflexivity. }
  destruct ((p0 fb =? 2) && (p1 fb =? 2) && (p2 fb <? 128)) eqn:EN.
  - assert (Q : forall r, bytes r -> suffix r r1 -> (exists e, real_err e /\ forall k buf, zlen buf = w -> decode_component k w buf r = Err e) \/
      (exists vs r', zlen vs = w /\ suffix r' r1 /\ bytes r' /\ forall k buf, zlen buf = w -> decode_component k w buf r = Ok (zipset k buf vs, r'))).
    { intros r0 B0 S0. destruct (decode_component_total w r0 B0 ltac:(lia)) as [H|(vs & r' & H1 & H2 & H3)]; [left; auto|].
      right. exists vs, r'. split; auto. split; [eapply suffix_trans; eauto|]. split; auto. eapply suffix_bytes; eauto. }
    assert (U : forall buf, zlen buf = w -> read_scanline m buf r =
       ('(b, r2) <- decode_component C0 w buf r1 ;; '(b, r3) <- decode_component C1 w b r2 ;;
        '(b, r4) <- decode_component C2 w b r3 ;; decode_component CE w b r4)).
    { intros buf F. unfold read_scanline. replace (zlen buf =? 0) with false by lia. rewrite E. cbn [bind].
      rewrite EN. rewrite F. reflexivity. }
    destruct (Q r1 HB1 (suffix_refl _)) as [(e & He & H)|(vr & r2 & R1 & R2 & R3 & R4)].
    { exists (OErr e). split; auto. intros buf F. rewrite U by auto. rewrite H by auto. reflexivity. }
    destruct (Q r2 R3 R2) as [(e & He & H)|(vg & r3 & G1 & G2 & G3 & G4)].
    { exists (OErr e). split; auto. intros buf F. rewrite U by auto. rewrite R4 by auto. cbn [bind].
      rewrite H by (rewrite zlen_zipset; lia). reflexivity. }
    destruct (Q r3 G3 G2) as [(e & He & H)|(vb & r4 & B1 & B2 & B3 & B4)].
    { exists (OErr e). split; auto. intros buf F. rewrite U by auto. rewrite R4 by auto. cbn [bind].
      rewrite G4 by (rewrite zlen_zipset; lia). cbn [bind].
      rewrite H by (rewrite !zlen_zipset; rewrite ?zlen_zipset; lia). reflexivity. }
    destruct (Q r4 B3 B2) as [(e & He & H)|(ve & r5 & E1 & E2 & E3 & E4)].
    { exists (OErr e). split; auto. intros buf F. rewrite U by auto. rewrite R4 by auto. cbn [bind].
      rewrite G4 by (rewrite zlen_zipset; lia). cbn [bind].
      rewrite B4 by (rewrite !zlen_zipset; rewrite ?zlen_zipset; lia). cbn [bind].
      rewrite H by (rewrite !zlen_zipset; rewrite ?zlen_zipset; rewrite ?zlen_zipset; lia). reflexivity. }
    exists (OOk (planes vr vg vb ve) r5). split.
    + intros buf F. rewrite U by auto. rewrite R4 by auto. cbn [bind].
      rewrite G4 by (rewrite zlen_zipset; lia). cbn [bind].
      rewrite B4 by (rewrite !zlen_zipset; rewrite ?zlen_zipset; lia). cbn [bind].
      rewrite E4 by (rewrite !zlen_zipset; rewrite ?zlen_zipset; rewrite ?zlen_zipset; lia).
      rewrite zip4 by lia. reflexivity.
    + split; [|eapply suffix_trans; eauto].
      rewrite <- (zip4 (repeat (mkRgbe 0 0 0 0) (Z.to_nat w))) by (rewrite zlen_repeat; lia).
      rewrite !zlen_zipset; rewrite ?zlen_zipset; rewrite ?zlen_zipset; rewrite ?zlen_zipset; rewrite ?zlen_repeat; lia.
  - assert (U : forall buf, zlen buf = w -> read_scanline m buf r = decode_old_rle m fb buf r1).
    { intros buf F. unfold read_scanline. replace (zlen buf =? 0) with false by lia. rewrite E. cbn [bind].
      rewrite EN. reflexivity. }
    destruct (rl_marker fb) as [rl|] eqn:EM.
    { exists (OErr EDecoding). split; [|right; reflexivity]. intros buf F. rewrite U by auto. unfold decode_old_rle.
      replace (zlen buf =? 0) with false by lia. rewrite EM. reflexivity. }
    destruct (old_rle_total m (S (length r1)) (S (length r1)) 1 1 fb r1 w [fb]) as (o & Ho1 & Ho2); try lia; auto.
    { vm_compute. tauto. }
    exists o. split.
    + intros buf F. rewrite U by auto. unfold decode_old_rle. replace (zlen buf =? 0) with false by lia. rewrite EM.
      apply Ho1; [rewrite zlen_zset; auto|]. change 1 with (0 + 1) at 1. rewrite firstn_zset_snoc by lia. reflexivity.
    + destruct o; auto. destruct Ho2 as (K1 & K2 & K3). split; auto. eapply suffix_trans; eauto.
Qed.

(** ** round trip of scanlines *)
Lemma zlen_pos_nonempty {A} (l : list A) : 0 < zlen l -> l <> [].
Proof. intros H ->. discriminate. Qed.

Lemma scanline_roundtrip m w row : 8 <= w < 32768 -> zlen row = w ->
  exists enc, (forall (n : nat) rest, scanlines (S n) w (row ++ rest) = (x <- scanlines n w rest ;; Ok (enc ++ x))) /\
    (Forall rgbe_ok row -> bytes enc) /\
    forall buf r, zlen buf = w -> read_scanline m buf (enc ++ r) = Ok (row, r).
Proof.
  intros Hw Hrow.
  destruct (rle_compress_ok (map p0 row)) as (e0 & A0 & B0 & C0'). { apply zlen_pos_nonempty. rewrite zlen_map. lia. }
  destruct (rle_compress_ok (map p1 row)) as (e1 & A1 & B1 & C1'). { apply zlen_pos_nonempty. rewrite zlen_map. lia. }
  destruct (rle_compress_ok (map p2 row)) as (e2 & A2 & B2 & C2'). { apply zlen_pos_nonempty. rewrite zlen_map. lia. }
  destruct (rle_compress_ok (map pe row)) as (e3 & A3 & B3 & C3'). { apply zlen_pos_nonempty. rewrite zlen_map. lia. }
  rewrite zlen_map, Hrow in *.
  assert (M1 : wrap_u8 (w / 256) = w / 256).
  { unfold wrap_u8. apply Z.mod_small. split; [apply Z.div_pos; lia|]. apply Z.div_lt_upper_bound; lia. }
  assert (M2 : wrap_u8 (w mod 256) = w mod 256).
  { unfold wrap_u8. apply Z.mod_small. apply Z.mod_pos_bound. lia. }
  exists (write_rgbe8 (mkRgbe 2 2 (wrap_u8 (w / 256)) (wrap_u8 (w mod 256))) ++ e0 ++ e1 ++ e2 ++ e3).
  split; [|split].
  - intros n rest. cbn [scanlines]. rewrite zlen_app. pose proof (zlen_nonneg rest).
    replace (zlen row + zlen rest <? w) with false by lia.
    rewrite firstn_app_exact by (unfold zlen in Hrow; lia). rewrite skipn_app_exact by (unfold zlen in Hrow; lia).
    rewrite A0, A1, A2, A3. cbn [bind]. destruct (scanlines n w rest); cbn [bind]; try reflexivity.
    rewrite <- !app_assoc. reflexivity.
  - intros HF.
    assert (F0 : bytes (map p0 row)). { apply Forall_map_iff. eapply Forall_impl; [|exact HF]. intros a Ha. apply Ha. }
    assert (F1 : bytes (map p1 row)). { apply Forall_map_iff. eapply Forall_impl; [|exact HF]. intros a Ha. apply Ha. }
    assert (F2 : bytes (map p2 row)). { apply Forall_map_iff. eapply Forall_impl; [|exact HF]. intros a Ha. apply Ha. }
    assert (F3 : bytes (map pe row)). { apply Forall_map_iff. eapply Forall_impl; [|exact HF]. intros a Ha. apply Ha. }
    rewrite !bytes_app. split; [|auto]. unfold write_rgbe8. cbn [p0 p1 p2 pe].
    rewrite M1, M2.
    assert (0 <= w / 256) by (apply Z.div_pos; lia).
    assert (w / 256 < 256) by (apply Z.div_lt_upper_bound; lia).
    pose proof (Z.mod_pos_bound w 256 ltac:(lia)).
    repeat (apply bytes_cons; split); try constructor; unfold is_u8, u8_max; lia.
  - intros buf r Hb. unfold read_scanline. replace (zlen buf =? 0) with false by lia.
    unfold write_rgbe8. cbn [p0 p1 p2 pe app read_rgbe bind]. rewrite M1, M2.
    change (2 =? 2) with true. cbn [andb].
    assert (L : w / 256 < 128) by (apply Z.div_lt_upper_bound; lia).
    replace (w / 256 <? 128) with true by lia. rewrite Hb.
    rewrite <- !app_assoc, C0', set_run_all by (rewrite zlen_map; lia). cbn [bind].
    rewrite C1', set_run_all by (rewrite zlen_map, zlen_zipset; rewrite ?zlen_map; lia). cbn [bind].
    rewrite C2', set_run_all by (rewrite zlen_map, !zlen_zipset; rewrite ?zlen_map, ?zlen_zipset; rewrite ?zlen_map; lia). cbn [bind].
    rewrite C3', set_run_all by (rewrite zlen_map, !zlen_zipset; rewrite ?zlen_map, ?zlen_zipset; rewrite ?zlen_map, ?zlen_zipset; rewrite ?zlen_map; lia). cbn [bind].
    f_equal. f_equal. rewrite zip4 by (rewrite zlen_map; lia). apply planes_map.
Qed.

Lemma flat_loop m : forall px fuel x mu prev buf pre r, (length px < fuel)%nat ->
  Forall (fun p => rl_marker p = None) px -> zlen pre = x -> firstn (Z.to_nat x) buf = pre -> zlen buf = x + zlen px ->
  old_rle_loop fuel m x mu prev buf (flat_map write_rgbe8 px ++ r) = Ok (pre ++ px, r).
Proof.
  induction px as [|p px IH]; intros fuel x mu prev buf pre r Hf HM Hpre Hb Hl; destruct fuel as [|fuel]; try (cbn in Hf; lia).
  - change (zlen (@nil rgbe)) with 0 in Hl. cbn [old_rle_loop flat_map app].
    replace (x <? zlen buf) with false by lia. replace (x =? zlen buf) with true by lia. cbn. f_equal. f_equal.
    rewrite app_nil_r, <- Hb. symmetry. apply firstn_all2. unfold zlen in *. lia.
  - rewrite zlen_cons in Hl. pose proof (zlen_nonneg px). pose proof (zlen_nonneg pre).
    cbn [old_rle_loop]. replace (x <? zlen buf) with true by lia.
    cbn [flat_map]. rewrite <- app_assoc. unfold write_rgbe8 at 1. cbn [app read_rgbe bind].
    replace (mkRgbe (p0 p) (p1 p) (p2 p) (pe p)) with p by (destruct p; reflexivity).
    inversion HM as [|? ? M1 M2]; subst. rewrite M1.
    destruct (zget_some buf (zlen (firstn (Z.to_nat (zlen pre)) buf)) ltac:(rewrite Hb; lia)) as [q Eq].
    rewrite <- Hb at 1. rewrite Hb in Eq. rewrite Hb. rewrite Eq.
    cbn [length] in Hf.
    rewrite (IH fuel (zlen pre + 1) 1 p _ (pre ++ [p])).
    + rewrite <- app_assoc. reflexivity.
    + lia.
    + exact M2.
    + rewrite zlen_app. reflexivity.
    + rewrite firstn_zset_snoc by lia. rewrite Hb. reflexivity.
    + rewrite zlen_zset. lia.
Qed.

Lemma flat_len px : length (flat_map write_rgbe8 px) = (4 * length px)%nat.
Proof. induction px; cbn; lia. Qed.

Definition flat_row_ok (row : list rgbe) : Prop :=
  Forall (fun p => rl_marker p = None) row /\
  match row with [] => True | p :: _ => ~ (p0 p = 2 /\ p1 p = 2 /\ p2 p < 128) end.

Lemma flat_roundtrip m w row buf r : 0 < w -> zlen row = w -> flat_row_ok row -> zlen buf = w ->
  read_scanline m buf (flat_map write_rgbe8 row ++ r) = Ok (row, r).
Proof.
  intros Hw Hrow [HM HF] Hb. destruct row as [|p row]; [change (zlen (@nil rgbe)) with 0 in Hrow; lia|].
  unfold read_scanline. replace (zlen buf =? 0) with false by lia. cbn [flat_map].
  rewrite <- app_assoc. unfold write_rgbe8 at 1. cbn [app read_rgbe bind].
  replace (mkRgbe (p0 p) (p1 p) (p2 p) (pe p)) with p by (destruct p; reflexivity).
  replace ((p0 p =? 2) && (p1 p =? 2) && (p2 p <? 128)) with false by lia.
  unfold decode_old_rle. replace (zlen buf =? 0) with false by lia.
  inversion HM as [|? ? M1 M2]; subst. rewrite M1. rewrite zlen_cons in *.
  rewrite (flat_loop m row _ 1 1 p (zset buf 0 p) [p] r); auto.
  - rewrite app_length, flat_len. lia.
  - change 1 with (0 + 1). rewrite firstn_zset_snoc by lia. reflexivity.
  - rewrite zlen_zset. lia.
Qed.

(** ** whole image *)
Lemma rows_rle {T} (f : rgbe -> T) m w : 8 <= w < 32768 -> forall n px, zlen px = w * Z.of_nat n ->
  exists body, (forall extra, scanlines n w (px ++ extra) = Ok body) /\ (Forall rgbe_ok px -> bytes body) /\
    forall buf out r, zlen buf = w -> read_rows f n m buf (body ++ r) out = Ok (out ++ map f px, r).
Proof.
  intros Hw. induction n as [|n IH]; intros px Hpx.
  - exists []. replace px with (@nil rgbe) by (symmetry; apply zlen_0_nil; lia). split; [reflexivity|]. split; [constructor|].
    intros. cbn. rewrite app_nil_r. reflexivity.
  - set (row := firstn (Z.to_nat w) px). set (rest := skipn (Z.to_nat w) px).
    assert (Hrow : zlen row = w). { unfold row. rewrite zlen_firstn. lia. }
    assert (Epx : px = row ++ rest) by (symmetry; apply firstn_skipn).
    destruct (IH rest) as (body & B1 & B3 & B2). { unfold rest. rewrite zlen_skipn. lia. }
    destruct (scanline_roundtrip m w row Hw Hrow) as (enc & E1 & E3 & E2).
    exists (enc ++ body). split; [|split].
    + intros extra. rewrite Epx, <- app_assoc. specialize (E1 n (rest ++ extra)).
      rewrite E1. rewrite B1. reflexivity.
    + intros HF. rewrite Epx in HF. apply Forall_app in HF as [F1 F2]. apply bytes_app. auto.
    + intros buf out r Hb. cbn [read_rows]. rewrite <- app_assoc, E2 by auto. cbn [bind].
      rewrite B2 by auto. rewrite Epx at 1. rewrite map_app, <- app_assoc. reflexivity.
Qed.

Lemma rows_flat {T} (f : rgbe -> T) m w : 0 < w -> forall n px, zlen px = w * Z.of_nat n ->
  Forall (fun p => rl_marker p = None) px ->
  (forall y p, 0 <= y < Z.of_nat n -> zget px (y * w) = Some p -> ~ (p0 p = 2 /\ p1 p = 2 /\ p2 p < 128)) ->
  forall buf out r, zlen buf = w -> read_rows f n m buf (flat_map write_rgbe8 px ++ r) out = Ok (out ++ map f px, r).
Proof.
  intros Hw. induction n as [|n IH]; intros px Hpx HM HF buf out r Hb.
  - replace px with (@nil rgbe) by (symmetry; apply zlen_0_nil; lia). cbn. rewrite app_nil_r. reflexivity.
  - set (row := firstn (Z.to_nat w) px). set (rest := skipn (Z.to_nat w) px).
    assert (Hrow : zlen row = w). { unfold row. rewrite zlen_firstn. lia. }
    assert (Hrest : zlen rest = w * Z.of_nat n). { unfold rest. rewrite zlen_skipn. lia. }
    assert (Epx : px = row ++ rest) by (symmetry; apply firstn_skipn).
    cbn [read_rows]. rewrite Epx at 1. rewrite flat_map_app, <- app_assoc.
    rewrite Epx in HM. apply Forall_app in HM as [M1 M2].
    rewrite (flat_roundtrip m w); auto.
    + cbn [bind]. rewrite IH; auto.
      * rewrite Epx at 1. rewrite map_app, <- app_assoc. reflexivity.
      * intros y p Hy E. apply (HF (y + 1)); [lia|]. rewrite Epx, zget_app.
        replace ((y + 1) * w) with (y * w + w) by ring. pose proof (Z.mul_nonneg_nonneg y w ltac:(lia) ltac:(lia)).
        replace (y * w + w <? zlen row) with false by lia.
        replace (y * w + w - zlen row) with (y * w) by lia. exact E.
    + split; auto. destruct row as [|p row'] eqn:Er; [exact I|].
      apply (HF 0); [lia|]. rewrite Epx. reflexivity.
Qed.

(** ** the header *)
Lemma read_line_ok l r acc : Forall (fun b => b <> 10) l -> read_line_aux (l ++ 10 :: r) acc = (Some (acc ++ l), r).
Proof.
  revert acc. induction l as [|b l IH]; intros acc H; cbn [app read_line_aux].
  - rewrite app_nil_r. reflexivity.
  - inversion H as [|? ? Hb Hl]; subst. replace (b =? 10) with false by lia. rewrite IH by auto.
    rewrite <- app_assoc. reflexivity.
Qed.
Lemma dim_line_parse w h : is_u32 w -> is_u32 h ->
  Forall (fun b => b <> 10) (dim_line w h) /\ parse_dimensions_line (dim_line w h) = Ok (w, h).
Proof.
  intros Hw Hh. unfold is_u32, u32_max in *.
  assert (Pw : 0 <= w < 10 ^ 21) by (split; [lia|]; apply Z.le_lt_trans with 4294967295; [lia|reflexivity]).
  assert (Ph : 0 <= h < 10 ^ 21) by (split; [lia|]; apply Z.le_lt_trans with 4294967295; [lia|reflexivity]).
  destruct (dec_no_ws w Pw) as [W1 W2]. destruct (dec_no_ws h Ph) as [H1 H2].
  pose proof (dec_bytes w Pw) as W3. pose proof (dec_bytes h Ph) as H3. split.
  - unfold dim_line. rewrite !Forall_app. repeat split; try (repeat constructor; lia).
    + eapply Forall_impl; [|exact H3]. cbn. lia.
    + eapply Forall_impl; [|exact W3]. cbn. lia.
  - unfold parse_dimensions_line, dim_line.
    change ([45; 89; 32] ++ dec h ++ [32; 43; 88; 32] ++ dec w) with ([45; 89] ++ 32 :: (dec h ++ 32 :: ([43; 88] ++ 32 :: dec w))).
    rewrite split_ws_word; [|repeat constructor|discriminate|reflexivity].
    rewrite split_ws_word; [|exact H1|exact H2|reflexivity].
    rewrite split_ws_word; [|repeat constructor|discriminate|reflexivity].
    rewrite split_ws_last by auto.
    change (leqb [45; 89] [45; 89] && leqb [43; 88] [43; 88]) with true. cbv iota.
    unfold parse_u32. rewrite parse_dec by (unfold u32_max; lia). rewrite parse_dec by (unfold u32_max; lia). reflexivity.
Qed.

Definition header (w h : Z) : list Z :=
  SIGNATURE ++ nl ++ COMMENT ++ nl ++ FORMAT_KEY ++ [61] ++ FORMAT_VAL ++ nl ++ nl ++ dim_line w h ++ nl.
Lemma hdr_new_ok fl w h r : is_u32 w -> is_u32 h -> w * h * 3 <= u64_max ->
  hdr_new fl (header w h ++ r) = Ok (w, h, r).
Proof.
  intros Hw Hh Hs. destruct (dim_line_parse w h Hw Hh) as [D1 D2]. unfold hdr_new, header.
  rewrite <- app_assoc. rewrite read_exact_app by reflexivity. cbn [bind].
  change (negb (leqb SIGNATURE SIGNATURE)) with false. cbv iota.
  change ((nl ++ COMMENT ++ nl ++ FORMAT_KEY ++ [61] ++ FORMAT_VAL ++ nl ++ nl ++ dim_line w h ++ nl) ++ r)
    with (10 :: (COMMENT ++ nl ++ FORMAT_KEY ++ [61] ++ FORMAT_VAL ++ nl ++ nl ++ dim_line w h ++ nl) ++ r).
  unfold read_line_u8 at 1. cbn [read_line_aux]. change (10 =? 10) with true. cbv iota.
  assert (L : forall fuel, (3 <= fuel)%nat ->
    header_loop fl fuel ((COMMENT ++ nl ++ FORMAT_KEY ++ [61] ++ FORMAT_VAL ++ nl ++ nl ++ dim_line w h ++ nl) ++ r)
    = Ok (dim_line w h ++ nl ++ r)).
  { intros fuel Hf. destruct fuel as [|[|[|fuel]]]; try lia. cbn [header_loop].
    unfold read_line_u8 at 1.
    replace ((COMMENT ++ nl ++ FORMAT_KEY ++ [61] ++ FORMAT_VAL ++ nl ++ nl ++ dim_line w h ++ nl) ++ r)
      with (COMMENT ++ 10 :: ((FORMAT_KEY ++ [61] ++ FORMAT_VAL) ++ 10 :: (10 :: dim_line w h ++ nl ++ r)))
      by (unfold nl; rewrite <- !app_assoc; reflexivity).
    rewrite read_line_ok by (unfold COMMENT; repeat constructor; lia). cbn [app COMMENT].
    change (35 =? 35) with true. cbv iota.
    unfold read_line_u8 at 1.
    change (70 :: 79 :: 82 :: 77 :: 65 :: 84 :: 61 :: 51 :: 50 :: 45 :: 98 :: 105 :: 116 :: 95 :: 114 :: 108 :: 101 :: 95 :: 114 :: 103 :: 98 :: 101 :: 10 :: 10 :: dim_line w h ++ nl ++ r)
      with ((FORMAT_KEY ++ [61] ++ FORMAT_VAL) ++ 10 :: (10 :: dim_line w h ++ nl ++ r)).
    rewrite read_line_ok by (unfold FORMAT_KEY, FORMAT_VAL; cbn [app]; repeat constructor; lia).
    change ([] ++ FORMAT_KEY ++ [61] ++ FORMAT_VAL) with (70 :: (79 :: 82 :: 77 :: 65 :: 84 :: [61] ++ FORMAT_VAL)).
    change (70 =? 35) with false. cbv iota.
    change (update_header_info fl (70 :: (79 :: 82 :: 77 :: 65 :: 84 :: [61] ++ FORMAT_VAL))) with (@Ok unit tt).
    cbn [bind]. unfold read_line_u8. cbn [read_line_aux]. change (10 =? 10) with true. cbv iota. reflexivity. }
  rewrite L.
  2:{ rewrite app_length, app_length. change (length COMMENT) with 18%nat. lia. }
  cbn [bind]. unfold read_line_u8.
  change (dim_line w h ++ nl ++ r) with (dim_line w h ++ 10 :: r).
  rewrite read_line_ok by exact D1. cbn [app]. rewrite D2. cbn [bind].
  assert (E3 : u64_max / 3 = 6148914691236517205) by reflexivity. rewrite E3. unfold u64_max in Hs.
  replace (_ <? w * h) with false by lia. reflexivity.
Qed.
