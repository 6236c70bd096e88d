(** The run length decoder implements the drawing machine of BmpSpec.v. *)
From Verif Require Import Base BaseLemmas ListLemmas ListMore BitLemmas BmpBits Bmp BmpSpec Post BmpProofs TgaProofs2.
Local Open Scope Z_scope.

Lemma split4_eq b : is_u8 b -> split4 b = [b / 16; b mod 16].
Proof.
  intros Hb. unfold split4. f_equal; [apply (Z.shiftr_div_pow2 b 4); lia|]. f_equal. change 15 with (Z.ones 4). rewrite Z.land_ones by lia. reflexivity.
Qed.
Lemma flat_split4 l : bytes l -> flat_map split4 l = unpack true l.
Proof. intros B. unfold unpack. induction B; cbn [flat_map]; [auto|]. rewrite split4_eq by assumption. rewrite IHB. reflexivity. Qed.
Lemma alt_pairs (f : Z -> Z) a b m : 0 <= m -> (forall k, 0 <= k -> f k = if Z.even k then a else b) -> flat_map (fun _ => [a; b]) (zrange 0 m) = map f (zrange 0 (2 * m)).
Proof.
  intros Hm Hf. pattern m. apply natlike_ind; [reflexivity| |exact Hm].
  intros j Hj IH. unfold Z.succ. rewrite zrange_snoc by lia. rewrite flat_map_app, IH by lia. cbn [flat_map app].
  replace (2 * (j + 1)) with (2 * j + 1 + 1) by lia. rewrite (zrange_snoc 0 (2 * j + 1)) by lia. rewrite (zrange_snoc 0 (2 * j)) by lia. rewrite !map_app, <- app_assoc. f_equal. cbn [map app]. rewrite !Hf by lia.
  replace (Z.even (0 + 2 * j)) with true by (rewrite Z.add_0_l, Z.even_mul; reflexivity). replace (Z.even (0 + (2 * j + 1))) with false; [reflexivity|].
  rewrite Z.add_0_l, Z.even_add, Z.even_mul. reflexivity.
Qed.
Lemma firstn_zrange n m a : 0 <= n <= m -> firstn (Z.to_nat n) (zrange a m) = zrange a n.
Proof.
  intros H. replace m with (n + (m - n)) by lia. rewrite zrange_app by lia. rewrite firstn_app_exact; [reflexivity|]. pose proof (zlen_zrange a n). unfold zlen in *. lia.
Qed.
Lemma run_indices (rle4 : bool) b n : is_u8 b -> 0 <= n ->
  firstn (Z.to_nat n) (if rle4 then flat_map split4 (repeat b (Z.to_nat n)) else repeat b (Z.to_nat n)) =
  map (fun k => if rle4 then (if Z.even k then b / 16 else b mod 16) else b) (zrange 0 n).
Proof.
  intros Hb Hn. assert (RZ : repeat b (Z.to_nat n) = map (fun _ => b) (zrange 0 n)).
  { unfold zrange. rewrite map_map. rewrite <- (map_const (seq 0 (Z.to_nat n))) || idtac. clear Hn. generalize (Z.to_nat n). intros k. generalize 0%nat. induction k as [|k IH]; intros s; cbn; [auto|]. f_equal. apply IH. }
  destruct rle4.
  - rewrite RZ. rewrite flat_map_concat_map, map_map, <- flat_map_concat_map.
    rewrite (flat_map_ext _ (fun _ : Z => [b / 16; b mod 16])) by (intros; apply split4_eq; exact Hb).
    rewrite (alt_pairs (fun k => if Z.even k then b / 16 else b mod 16)) by (auto; lia). rewrite firstn_map, firstn_zrange by lia. reflexivity.
  - rewrite RZ, firstn_map, firstn_zrange by lia. reflexivity.
Qed.
(** what the decoder's instructions mean *)
Definition decoded (rle4 : bool) (i : rle_insn) : op :=
  match i with
  | EndOfFile => Eof | EndOfRow => Eol | Delta dx dy => Skip dx dy
  | Absolute n l => Pixels (firstn (Z.to_nat n) (if rle4 then flat_map split4 l else l))
  | PixelRun n b => Pixels (firstn (Z.to_nat n) (if rle4 then flat_map split4 (repeat b (Z.to_nat n)) else repeat b (Z.to_nat n)))
  end.
Lemma land1 z : 0 <= z -> Z.land z 1 = z mod 2.
Proof. intros. change 1 with (Z.ones 1). rewrite Z.land_ones by lia. reflexivity. Qed.
Lemma padded (rle4 : bool) n : 3 <= n <= 255 ->
  (if rle4 then (n + 1) / 2 else n) + Z.land (if rle4 then (n + 1) / 2 else n) 1 = (if rle4 then 2 * ((n + 3) / 4) else 2 * ((n + 1) / 2)).
Proof. intros Hn. destruct rle4; rewrite land1 by zdm; zdm. Qed.
Lemma insn_instr rle4 r i r' : bytes r -> read_insn rle4 r = Ok (i, r') -> instr rle4 r (decoded rle4 i) r'.
Proof.
  intros B E. unfold read_insn in E. destruct r as [|c r]; cbn [read_u8 bind] in E; [discriminate|]. inversion B as [|? ? Hc B1]; subst.
  destruct (Z.eqb_spec c 0) as [->|N].
  - destruct r as [|o r]; cbn [read_u8 bind] in E; [discriminate|]. inversion B1 as [|? ? Ho B2]; subst.
    destruct (Z.eqb_spec o 0) as [->|N0]; [apply Ok_inj in E; inversion E; subst; constructor|].
    destruct (Z.eqb_spec o 1) as [->|N1]; [apply Ok_inj in E; inversion E; subst; constructor|].
    destruct (Z.eqb_spec o 2) as [->|N2].
    + destruct r as [|dx r]; cbn [read_u8 bind] in E; [discriminate|]. destruct r as [|dy r]; cbn [read_u8 bind] in E; [discriminate|]. apply Ok_inj in E; inversion E; subst. constructor.
    + unfold is_u8, u8_max in Ho. cbv zeta in E. rewrite padded in E by lia. set (n := if rle4 then 2 * ((o + 3) / 4) else 2 * ((o + 1) / 2)) in *.
      unfold read_exact in E. destruct (Z.ltb_spec (zlen r) n); cbn [bind] in E; [discriminate|]. apply Ok_inj in E. inversion E; subst. cbn [decoded].
      assert (0 <= n) by (subst n; destruct rle4; zdm).
      rewrite <- (firstn_skipn (Z.to_nat n) r) at 1.
      assert (BF : bytes (firstn (Z.to_nat n) r)) by (apply Forall_firstn'; assumption).
      replace (if rle4 then flat_map split4 (firstn (Z.to_nat n) r) else firstn (Z.to_nat n) r) with (unpack rle4 (firstn (Z.to_nat n) r)) by (destruct rle4; [symmetry; apply flat_split4; exact BF|reflexivity]).
      constructor; [lia|]. rewrite zlen_firstn. fold n. lia.
  - destruct r as [|b r]; cbn [read_u8 bind] in E; [discriminate|]. inversion B1 as [|? ? Hb B2]; subst. apply Ok_inj in E. inversion E; subst. cbn [decoded]. unfold is_u8, u8_max in Hc. rewrite run_indices by (auto; lia). constructor. lia.
Qed.
Lemma instr_insn rle4 r o r' : bytes r -> instr rle4 r o r' -> exists i, read_insn rle4 r = Ok (i, r') /\ decoded rle4 i = o.
Proof.
  intros B H. destruct H as [n b r Hn|r|r|dx dy r|n data r Hn L]; unfold read_insn; cbn [read_u8 bind].
  - replace (n =? 0) with false by lia. exists (PixelRun n b). split; [reflexivity|]. cbn [decoded]. inversion B as [|? ? _ B1]; subst. inversion B1 as [|? ? Hb _]; subst. rewrite run_indices by (auto; lia). reflexivity.
  - exists EndOfRow. auto.
  - exists EndOfFile. auto.
  - exists (Delta dx dy). auto.
  - replace (0 =? 0) with true by reflexivity. replace (n =? 0) with false by lia. replace (n =? 1) with false by lia. replace (n =? 2) with false by lia. cbv zeta. rewrite padded by lia.
    rewrite read_exact_app by (symmetry; exact L). cbn [bind]. eexists. split; [reflexivity|]. cbn [decoded]. inversion B as [|? ? _ B1]; subst. inversion B1 as [|? ? _ B2]; subst. apply bytes_app in B2 as [B2 _].
    destruct rle4; [rewrite flat_split4 by exact B2|]; reflexivity.
Qed.
(** three-channel pixels *)
Lemma set3_three p rgb : zlen p = 3 -> zlen rgb = 3 -> set3 p rgb = Ok rgb.
Proof. intros L1 L2. destruct (list3 p L1) as (a & b & c & ->). destruct (list3 rgb L2) as (x & y & z & ->). reflexivity. Qed.
Lemma set_run_three pal idxs : pal_ok pal -> Forall (fun i => 0 <= i < 256) idxs -> forall pixels, Forall (fun p => zlen p = 3) pixels ->
  (zlen idxs <= zlen pixels -> set_run pal idxs pixels = Ok (map (colour_of pal) idxs, skipn (length idxs) pixels, true)) /\
  (zlen pixels < zlen idxs -> exists dn, set_run pal idxs pixels = Ok (dn, [], false)).
Proof.
  intros [P1 P2] Hi. induction Hi as [|i idxs Hi Hl IH]; intros pixels L; cbn [set_run map length skipn].
  - split; [reflexivity|]. change (zlen (@nil Z)) with 0. pose proof (zlen_nonneg pixels). lia.
  - destruct pixels as [|p pixels].
    + split; [rewrite zlen_cons; change (zlen (@nil (list Z))) with 0; pose proof (zlen_nonneg idxs); lia|]. eauto.
    + apply Forall_cons_iff in L as [La Ll]. destruct (zget_some pal i ltac:(lia)) as (rgb & E). assert (R : zlen rgb = 3) by (rewrite Forall_forall in P2; apply (P2 rgb); eapply zget_In; eassumption).
      rewrite !zlen_cons. rewrite E, set3_three by assumption. cbn [bind]. unfold colour_of at 1. rewrite E. destruct (IH pixels Ll) as (I1 & I2). split.
      * intros H. rewrite I1 by lia. reflexivity.
      * intros H. destruct I2 as (dn & I2); [lia|]. rewrite I2. cbn [bind]. eauto.
Qed.
(** *** the invariant *)
Definition row_is (w : Z) (c : canvas) (y : Z) (row : prow) : Prop := zlen row = w /\ forall x, 0 <= x < w -> zget row x = Some (c x y).
Definition rows_are (w : Z) (c : canvas) (rows : list prow) : Prop := forall y row, zget rows y = Some row -> row_is w c y row.
Definition three (w : Z) (row : prow) : Prop := zlen row = w /\ Forall (fun p => zlen p = 3) row.
Record inv (w h : Z) (c : canvas) (done : list prow) (cd cr : prow) (x : Z) (rest : list prow) : Prop := mkInv {
  v_done : rows_are w c done;
  v_x : x = zlen cd;
  v_w : zlen cd + zlen cr = w;
  v_cr : Forall (fun p => zlen p = 3) cr;
  v_rest : Forall (three w) rest;
  v_h : zlen done + 1 + zlen rest = h;
  v_cd : forall x', 0 <= x' < x -> zget cd x' = Some (c x' (zlen done));
  v_blank : forall x' y', zlen done < y' \/ (y' = zlen done /\ x <= x') -> c x' y' = [0; 0; 0] }.
Lemma zero3 p : zlen p = 3 -> zero p = [0; 0; 0].
Proof. intros L. destruct (list3 p L) as (a & b & c & ->). reflexivity. Qed.
Lemma zget_zero (l : prow) x : Forall (fun p => zlen p = 3) l -> 0 <= x < zlen l -> zget (map zero l) x = Some [0; 0; 0].
Proof.
  intros F Hx. rewrite zget_map. destruct (zget_some l x Hx) as (p & E). rewrite E. cbn. f_equal. apply zero3. rewrite Forall_forall in F. apply F. eapply zget_In; eassumption.
Qed.
Lemma row_finish w h c done cd cr x rest : inv w h c done cd cr x rest -> row_is w c (zlen done) (cd ++ zero_row cr).
Proof.
  intros [V1 V2 V3 V4 V5 V6 V7 V8]. unfold zero_row. split; [rewrite zlen_app, zlen_map; lia|]. intros x' Hx. rewrite zget_app by lia. destruct (Z.ltb_spec x' (zlen cd)).
  - apply V7. lia.
  - rewrite zget_zero by (auto; lia). rewrite V8 by lia. reflexivity.
Qed.
Lemma rows_snoc w c rows row : rows_are w c rows -> row_is w c (zlen rows) row -> rows_are w c (rows ++ [row]).
Proof.
  intros R1 R2 y r E. assert (0 <= y) by (apply zget_range in E; lia). rewrite zget_app in E by lia. destruct (Z.ltb_spec y (zlen rows)); [apply (R1 y r E)|].
  assert (y - zlen rows = 0) by (apply zget_range in E; cbn in E; lia). rewrite H1 in E. cbn in E. apply Some_inj in E. subst r. replace y with (zlen rows) by lia. exact R2.
Qed.
Lemma rows_blank w c rows l : rows_are w c rows -> Forall (three w) l -> (forall x y, zlen rows <= y < zlen rows + zlen l -> 0 <= x < w -> c x y = [0; 0; 0]) -> rows_are w c (rows ++ map zero_row l).
Proof.
  intros R F. revert rows R. induction F as [|row l [F1 F2] Fl IH]; intros rows R H; [rewrite app_nil_r; exact R|]. cbn [map].
  replace (rows ++ zero_row row :: map zero_row l) with ((rows ++ [zero_row row]) ++ map zero_row l) by (rewrite <- app_assoc; reflexivity).
  rewrite zlen_cons in H. pose proof (zlen_nonneg l).
  apply IH.
  - apply rows_snoc; [exact R|]. split; [unfold zero_row; rewrite zlen_map; exact F1|]. intros x Hx. unfold zero_row. rewrite zget_zero by (auto; lia). rewrite H by lia. reflexivity.
  - intros x y Hy. rewrite zlen_app in Hy. change (zlen [zero_row row]) with 1 in Hy. apply H. lia.
Qed.
Lemma inv_eof w h c done cd cr x rest : inv w h c done cd cr x rest -> rows_are w c (done ++ [cd ++ zero_row cr] ++ map zero_row rest) /\ zlen (done ++ [cd ++ zero_row cr] ++ map zero_row rest) = h.
Proof.
  intros V. pose proof (row_finish _ _ _ _ _ _ _ _ V) as RF. destruct V as [V1 V2 V3 V4 V5 V6 V7 V8]. split.
  - rewrite app_assoc. apply rows_blank; [apply rows_snoc; assumption|assumption|]. intros x' y' Hy Hx. rewrite zlen_app in Hy. change (zlen [cd ++ zero_row cr]) with 1 in Hy. apply V8. lia.
  - rewrite !zlen_app, zlen_map. change (zlen [cd ++ zero_row cr]) with 1. lia.
Qed.
Lemma inv_eol w h c done cd cr x row rest : inv w h c done cd cr x (row :: rest) -> inv w h c (done ++ [cd ++ zero_row cr]) [] row 0 rest.
Proof.
  intros V. pose proof (row_finish _ _ _ _ _ _ _ _ V) as RF. destruct V as [V1 V2 V3 V4 V5 V6 V7 V8]. apply Forall_cons_iff in V5 as [[V5 V5'] V9]. rewrite zlen_cons in V6.
  constructor; auto; rewrite ?zlen_app; change (zlen [cd ++ zero_row cr]) with 1; change (zlen (@nil (list Z))) with 0; try lia.
  - apply rows_snoc; assumption.
  - intros x' y' H. apply V8. lia.
Qed.
Lemma skipn_head {A} n (l : list A) : 0 <= n -> zlen l <= n -> skipn (Z.to_nat n) l = [].
Proof. intros Hn H. apply skipn_all2. unfold zlen in H. lia. Qed.
(** moving the cursor *)
Lemma inv_skip_x w h c done cd cr x rest dx : inv w h c done cd cr x rest -> 0 <= dx ->
  (x + dx <= w -> exists z cr', zero_n zero dx cr = Ok (z, cr') /\ inv w h c done (cd ++ z) cr' (x + dx) rest) /\ (w < x + dx -> zero_n zero dx cr = Err EDecoding).
Proof.
  intros [V1 V2 V3 V4 V5 V6 V7 V8] Hd. unfold zero_n. split; intros H.
  - replace (zlen cr <? dx) with false by lia. eexists _, _. split; [reflexivity|]. assert (L : zlen (map zero (firstn (Z.to_nat dx) cr)) = dx) by (rewrite zlen_map, zlen_firstn; lia).
    constructor; auto.
    + rewrite zlen_app, L. lia.
    + rewrite zlen_app, L, zlen_skipn. lia.
    + apply Forall_skipn'. exact V4.
    + intros x' Hx. rewrite zget_app by lia. destruct (Z.ltb_spec x' (zlen cd)); [apply V7; lia|]. rewrite zget_zero; [|apply Forall_firstn'; exact V4|rewrite zlen_map in L; lia]. rewrite V8 by lia. reflexivity.
    + intros x' y' K. apply V8. lia.
  - replace (zlen cr <? dx) with true by lia. reflexivity.
Qed.
Lemma inv_skip_y w h c done cd cr x rest dy : inv w h c done cd cr x rest -> 1 <= dy ->
  let step := ('(skipped, rest) <- zero_n zero_row (dy - 1) rest ;;
               match rest with
               | [] => Err EDecoding
               | row :: rest => '(cd', cr') <- zero_n zero x row ;; Ok ((done ++ [cd ++ zero_row cr]) ++ skipped, cd', cr', rest)
               end) in
  (zlen done + dy < h -> exists done' cd' cr' rest', step = Ok (done', cd', cr', rest') /\ inv w h c done' cd' cr' x rest' /\ zlen done' = zlen done + dy) /\
  (h <= zlen done + dy -> step = Err EDecoding).
Proof.
  intros V Hd. cbv zeta. pose proof (row_finish _ _ _ _ _ _ _ _ V) as RF. destruct V as [V1 V2 V3 V4 V5 V6 V7 V8]. unfold zero_n at 1 2. pose proof (zlen_nonneg cd). pose proof (zlen_nonneg cr). split; intros H1.
  - replace (zlen rest <? dy - 1) with false by lia. cbn [bind]. destruct (skipn (Z.to_nat (dy - 1)) rest) as [|row rest'] eqn:E.
    { exfalso. assert (L : zlen (skipn (Z.to_nat (dy - 1)) rest) = 0) by (rewrite E; reflexivity). rewrite zlen_skipn in L. lia. }
    assert (LS : zlen (skipn (Z.to_nat (dy - 1)) rest) = 1 + zlen rest') by (rewrite E, zlen_cons; lia). rewrite zlen_skipn in LS.
    assert (FR : Forall (three w) (row :: rest')) by (rewrite <- E; apply Forall_skipn'; exact V5). apply Forall_cons_iff in FR as [[R1 R2] FR].
    unfold zero_n. replace (zlen row <? x) with false by lia. cbn [bind]. eexists _, _, _, _. split; [reflexivity|].
    assert (L1 : zlen (map zero (firstn (Z.to_nat x) row)) = x) by (rewrite zlen_map, zlen_firstn; lia).
    assert (L2 : zlen (map zero_row (firstn (Z.to_nat (dy - 1)) rest)) = dy - 1) by (rewrite zlen_map, zlen_firstn; lia).
    assert (L3 : zlen ((done ++ [cd ++ zero_row cr]) ++ map zero_row (firstn (Z.to_nat (dy - 1)) rest)) = zlen done + dy).
    { rewrite !zlen_app, L2. change (zlen [cd ++ zero_row cr]) with 1. lia. }
    split; [|exact L3]. constructor; auto.
    + apply rows_blank; [apply rows_snoc; assumption|apply Forall_firstn'; exact V5|]. rewrite zlen_app. change (zlen [cd ++ zero_row cr]) with 1. intros x' y' K _. apply V8. lia.
    + rewrite L1, zlen_skipn. lia.
    + apply Forall_skipn'. exact R2.
    + rewrite L3. lia.
    + intros x' Hx. rewrite L3, zget_zero; [|apply Forall_firstn'; exact R2|rewrite zlen_map in L1; lia]. rewrite V8 by lia. reflexivity.
    + rewrite L3. intros x' y' K. apply V8. lia.
  - unfold zero_n at 1. destruct (Z.ltb_spec (zlen rest) (dy - 1)); [reflexivity|]. cbn [bind]. rewrite skipn_head by lia. reflexivity.
Qed.
Lemma inv_pixels w h c done cd cr x rest l : inv w h c done cd cr x rest -> Forall (fun p => zlen p = 3) l -> x + zlen l <= w ->
  inv w h (paint c x (zlen done) l) done (cd ++ l) (skipn (length l) cr) (x + zlen l) rest.
Proof.
  intros [V1 V2 V3 V4 V5 V6 V7 V8] F H. unfold paint. constructor; auto.
  - intros y row E. destruct (V1 y row E) as (R1 & R2). assert (0 <= y < zlen done) by (apply zget_range in E; lia). split; [exact R1|]. intros x' Hx. rewrite R2 by exact Hx. replace (y =? zlen done) with false by lia. reflexivity.
  - rewrite zlen_app. lia.
  - rewrite zlen_app, zlen_skipn. unfold zlen in *. lia.
  - apply Forall_skipn'. exact V4.
  - intros x' Hx. rewrite Z.eqb_refl. cbn [andb]. rewrite zget_app by lia. destruct (Z.ltb_spec x' (zlen cd)).
    + replace (x <=? x') with false by lia. cbn [andb]. apply V7. lia.
    + replace (x <=? x') with true by lia. replace (x' <? x + zlen l) with true by lia. cbn [andb]. destruct (zget_some l (x' - zlen cd) ltac:(lia)) as (p & E). rewrite E. f_equal.
      unfold zget in E. replace (x' - zlen cd <? 0) with false in E by lia. subst x. symmetry. apply nth_error_nth. exact E.
  - intros x' y' K. replace ((y' =? zlen done) && (x <=? x') && (x' <? x + zlen l)) with false by lia. apply V8. pose proof (zlen_nonneg l). lia.
Qed.
Lemma colours_three pal idxs : pal_ok pal -> Forall (fun i => 0 <= i < 256) idxs -> Forall (fun p => zlen p = 3) (map (colour_of pal) idxs).
Proof.
  intros [P1 P2] F. apply Forall_map_iff. eapply Forall_impl; [|exact F]. intros i Hi. cbv beta in Hi |- *. unfold colour_of. destruct (zget_some pal i ltac:(lia)) as (c & E). rewrite E. rewrite Forall_forall in P2. apply (P2 c). eapply zget_In; eassumption.
Qed.
(** one run, both ways *)
Lemma run_step rle4 pal (w h : Z) c done cd cr x rest idxs n indices : pal_ok pal -> inv w h c done cd cr x rest -> Forall (fun i => 0 <= i < 256) idxs ->
  idxs = firstn (Z.to_nat n) (if rle4 : bool then flat_map split4 indices else indices) ->
  let step := (if rle4 then set_4bit_run pal indices n cr else set_8bit_run pal indices n cr) in
  (x + zlen idxs <= w -> exists cr', step = Ok (map (colour_of pal) idxs, cr', true) /\ inv w h (paint c x (zlen done) (map (colour_of pal) idxs)) done (cd ++ map (colour_of pal) idxs) cr' (x + zlen idxs) rest) /\
  (w < x + zlen idxs -> exists dn, step = Ok (dn, [], false)).
Proof.
  intros P V F E. cbv zeta. replace (if rle4 then set_4bit_run pal indices n cr else set_8bit_run pal indices n cr) with (set_run pal idxs cr) by (subst idxs; destruct rle4; reflexivity).
  destruct (set_run_three pal idxs P F cr (v_cr _ _ _ _ _ _ _ _ V)) as (S1 & S2). pose proof (v_x _ _ _ _ _ _ _ _ V). pose proof (v_w _ _ _ _ _ _ _ _ V). split; intros H1.
  - rewrite S1 by lia. eexists. split; [reflexivity|].
    pose proof (inv_pixels w h c done cd cr x rest (map (colour_of pal) idxs) V (colours_three pal idxs P F) ltac:(rewrite zlen_map; lia)) as K. rewrite zlen_map, map_length in K. exact K.
  - apply S2. lia.
Qed.
Lemma indices_range rle4 i : insn_ok i -> match decoded rle4 i with Pixels l => Forall (fun i => 0 <= i < 256) l | _ => True end.
Proof.
  destruct i; cbn [decoded insn_ok]; auto; intros [N B]; apply Forall_firstn'; destruct rle4; try (apply flat_range; [|intros; apply split_range; auto]); try apply bytes_range; auto; apply Forall_forall; intros z Hz; apply repeat_spec in Hz; subst z; auto.
Qed.
Lemma decoded_pixels_len rle4 i l : insn_ok i -> decoded rle4 i = Pixels l -> (exists n ix, i = Absolute n ix /\ zlen l <= n) \/ (exists n b, i = PixelRun n b /\ zlen l = n).
Proof.
  intros H E. destruct i; cbn [decoded] in E; try discriminate; injection E as <-.
  - left. eexists _, _. split; [reflexivity|]. cbn in H. rewrite zlen_firstn. lia.
  - right. eexists _, _. split; [reflexivity|]. cbn in H. rewrite run_indices by (unfold is_u8, u8_max in *; lia). rewrite zlen_map, zlen_zrange. lia.
Qed.
(** absolute runs carry all their indices *)
Lemma absolute_len rle4 r n ix r' : bytes r -> read_insn rle4 r = Ok (Absolute n ix, r') -> zlen (firstn (Z.to_nat n) (if rle4 then flat_map split4 ix else ix)) = n.
Proof.
  intros B E. unfold read_insn in E. destruct r as [|c r]; cbn [read_u8 bind] in E; [discriminate|]. inversion B as [|? ? Hc B1]; subst.
  destruct (c =? 0); [|destruct r as [|b r]; cbn [read_u8 bind] in E; discriminate].
  destruct r as [|o r]; cbn [read_u8 bind] in E; [discriminate|]. inversion B1 as [|? ? Ho B2]; subst.
  destruct (Z.eqb_spec o 0); [discriminate|]. destruct (Z.eqb_spec o 1); [discriminate|]. destruct (Z.eqb_spec o 2).
  { destruct r as [|dx r]; cbn [read_u8 bind] in E; [discriminate|]. destruct r as [|dy r]; cbn [read_u8 bind] in E; discriminate. }
  unfold is_u8, u8_max in Ho. cbv zeta in E. rewrite padded in E by lia. set (m := if rle4 then 2 * ((o + 3) / 4) else 2 * ((o + 1) / 2)) in *.
  unfold read_exact in E. destruct (Z.ltb_spec (zlen r) m); cbn [bind] in E; [discriminate|]. apply Ok_inj in E. inversion E; subst.
  assert (0 <= m) by (subst m; destruct rle4; zdm).
  assert (FM : forall l : list Z, zlen (flat_map split4 l) = 2 * zlen l) by (intros l; induction l as [|a l IH]; [reflexivity|]; cbn [flat_map]; rewrite zlen_app, IH, zlen_cons; change (zlen (split4 a)) with 2; lia).
  rewrite zlen_firstn. assert (zlen (if rle4 then flat_map split4 (firstn (Z.to_nat m) r) else firstn (Z.to_nat m) r) >= n); [|lia].
  destruct rle4; [rewrite FM|]; rewrite zlen_firstn; subst m; zdm.
Qed.
Lemma rle_forward rle4 pal w h : pal_ok pal -> forall fuel c done cd cr x rest r rows r', bytes r -> inv w h c done cd cr x rest ->
  rle_loop fuel rle4 pal done cd cr x rest r = Ok (rows, r') ->
  exists c', runs rle4 w h (colour_of pal) x (zlen done) c r c' r' /\ rows_are w c' rows /\ zlen rows = h.
Proof.
  intros P. induction fuel as [|fuel IH]; intros c done cd cr x rest r rows r' B V E; cbn [rle_loop] in E; [discriminate|].
  pose proof (post_insn rle4 r B) as PI. destruct (read_insn rle4 r) as [[i r1]| |] eqn:EI; cbn [bind] in E; try discriminate. cbn [post fst snd] in PI. destruct PI as (OK & B1 & _).
  pose proof (insn_instr _ _ _ _ B EI) as IN. pose proof (indices_range rle4 i OK) as IR.
  destruct i as [| |dx dy|n ix|n b]; cbn [decoded] in *.
  - apply Ok_inj in E. inversion E; subst. destruct (inv_eof _ _ _ _ _ _ _ _ V). exists c. split; [constructor; exact IN|auto].
  - cbv zeta in E. destruct rest as [|row rest].
    + apply Ok_inj in E. inversion E; subst. destruct (inv_eof _ _ _ _ _ _ _ _ V) as (R1 & R2). cbn [map app] in R1, R2. exists c. split; [|auto]. eapply r_end; [exact IN|]. destruct V. change (zlen (@nil (list (list Z)))) with 0 in v_h0. lia.
    + destruct (IH c _ _ _ _ _ _ _ _ B1 (inv_eol _ _ _ _ _ _ _ _ _ V) E) as (c' & R & Q). exists c'. split; [|exact Q]. eapply r_eol; [exact IN| |].
      * destruct V. rewrite zlen_cons in v_h0. pose proof (zlen_nonneg rest). lia.
      * rewrite zlen_app in R. exact R.
  - cbn in OK. destruct OK as [X Y]. unfold is_u8, u8_max in *. destruct (Z.ltb_spec 0 dy) as [PY|PY].
    + destruct (inv_skip_y _ _ _ _ _ _ _ _ dy V ltac:(lia)) as (S1 & S2). cbv zeta in E, S1, S2.
      destruct (Z_lt_dec (zlen done + dy) h) as [LT|GE]; [|rewrite S2 in E by lia; discriminate].
      destruct (S1 LT) as (done' & cd' & cr' & rest' & S3 & V' & LD). rewrite S3 in E. cbn [bind] in E. destruct (inv_skip_x _ _ _ _ _ _ _ _ dx V' ltac:(lia)) as (T1 & T2).
      destruct (Z_le_dec (x + dx) w) as [LE|GT]; [|rewrite T2 in E by lia; discriminate]. destruct (T1 LE) as (z & cr2 & T3 & V2). rewrite T3 in E. cbn [bind] in E.
      destruct (IH c _ _ _ _ _ _ _ _ B1 V2 E) as (c' & R & Q). exists c'. split; [|exact Q]. eapply r_skip; [exact IN|exact LE|exact LT|]. rewrite <- LD. exact R.
    + cbn [bind] in E. destruct (inv_skip_x _ _ _ _ _ _ _ _ dx V ltac:(lia)) as (T1 & T2).
      destruct (Z_le_dec (x + dx) w) as [LE|GT]; [|rewrite T2 in E by lia; discriminate]. destruct (T1 LE) as (z & cr2 & T3 & V2). rewrite T3 in E. cbn [bind] in E.
      destruct (IH c _ _ _ _ _ _ _ _ B1 V2 E) as (c' & R & Q). exists c'. split; [|exact Q]. eapply r_skip; [exact IN|exact LE| |]; replace dy with 0 by lia; rewrite ?Z.add_0_r; [|exact R]. destruct V. pose proof (zlen_nonneg rest). lia.
  - pose proof (absolute_len _ _ _ _ _ B EI) as AL.
    destruct (run_step rle4 pal w h c done cd cr x rest _ n ix P V IR eq_refl) as (S1 & S2). cbv zeta in S1, S2. rewrite AL in S1, S2.
    destruct (Z_le_dec (x + n) w) as [LE|GT]; [|destruct (S2 ltac:(lia)) as (dn & S3); rewrite S3 in E; discriminate].
    destruct (S1 LE) as (cr' & S3 & V'). rewrite S3 in E. cbn [bind] in E. destruct (IH _ _ _ _ _ _ _ _ _ B1 V' E) as (c' & R & Q). exists c'. split; [|exact Q]. eapply r_pixels; [exact IN|rewrite AL; exact LE|rewrite AL; exact R].
  - cbv zeta in E. assert (AL : zlen (firstn (Z.to_nat n) (if rle4 then flat_map split4 (repeat b (Z.to_nat n)) else repeat b (Z.to_nat n))) = n) by (cbn in OK; rewrite run_indices by (unfold is_u8, u8_max in *; lia); rewrite zlen_map, zlen_zrange; lia).
    destruct (run_step rle4 pal w h c done cd cr x rest _ n (repeat b (Z.to_nat n)) P V IR eq_refl) as (S1 & S2). cbv zeta in S1, S2. rewrite AL in S1, S2.
    destruct (Z_le_dec (x + n) w) as [LE|GT]; [|destruct (S2 ltac:(lia)) as (dn & S3); rewrite S3 in E; discriminate].
    destruct (S1 LE) as (cr' & S3 & V'). rewrite S3 in E. cbn [bind] in E. destruct (IH _ _ _ _ _ _ _ _ _ B1 V' E) as (c' & R & Q). exists c'. split; [|exact Q]. eapply r_pixels; [exact IN|rewrite AL; exact LE|rewrite AL; exact R].
Qed.
Lemma instr_bytes rle4 r o r' : bytes r -> instr rle4 r o r' -> bytes r' /\ (length r' < length r)%nat.
Proof.
  intros B H. destruct (instr_insn _ _ _ _ B H) as (i & E & _). pose proof (post_insn rle4 r B) as PI. rewrite E in PI. cbn in PI. tauto.
Qed.
Lemma rle_backward rle4 pal w h : pal_ok pal -> forall x y c r c' r', runs rle4 w h (colour_of pal) x y c r c' r' -> bytes r ->
  forall fuel done cd cr rest, (length r < fuel)%nat -> inv w h c done cd cr x rest -> y = zlen done ->
  exists rows, rle_loop fuel rle4 pal done cd cr x rest r = Ok (rows, r') /\ rows_are w c' rows /\ zlen rows = h.
Proof.
  intros P x y c r c' r' H. induction H as [x y c r r' IN|x y c r r' IN Hy|x y c r r' c' r'' IN Hy H IH|x y c dx dy r r' c' r'' IN Hx Hy H IH|x y c l r r' c' r'' IN Hx H IH];
    intros B fuel done cd cr rest Hf V Ey; (destruct fuel as [|fuel]; [lia|]); cbn [rle_loop]; destruct (instr_insn _ _ _ _ B IN) as (i & EI & ED); pose proof (post_insn rle4 r B) as PI; rewrite EI in PI; cbn [post fst snd] in PI; destruct PI as (OK & B1 & LT); rewrite EI; cbn [bind].
  - destruct i; cbn [decoded] in ED; try discriminate. destruct (inv_eof _ _ _ _ _ _ _ _ V). eexists. split; [reflexivity|auto].
  - destruct i; cbn [decoded] in ED; try discriminate. cbv zeta. destruct rest as [|row rest]; [|exfalso; destruct V; rewrite zlen_cons in v_h0; pose proof (zlen_nonneg rest); lia].
    destruct (inv_eof _ _ _ _ _ _ _ _ V) as (R1 & R2). cbn [map app] in R1, R2. eexists. split; [reflexivity|auto].
  - destruct i; cbn [decoded] in ED; try discriminate. cbv zeta. destruct rest as [|row rest]; [exfalso; destruct V; change (zlen (@nil (list (list Z)))) with 0 in v_h0; lia|].
    apply IH; [assumption|lia|apply (inv_eol _ _ _ _ _ _ _ _ _ V)|rewrite zlen_app; cbn; lia].
  - destruct i as [| |dx' dy'|n ix|n b]; cbn [decoded] in ED; try discriminate. injection ED as -> ->. cbn in OK. destruct OK as [X Y]. unfold is_u8, u8_max in *.
    destruct (Z.ltb_spec 0 dy) as [PY|PY].
    + destruct (inv_skip_y _ _ _ _ _ _ _ _ dy V ltac:(lia)) as (S1 & S2). cbv zeta in *. destruct (S1 ltac:(lia)) as (done' & cd' & cr' & rest' & S3 & V' & LD). rewrite S3. cbn [bind].
      destruct (inv_skip_x _ _ _ _ _ _ _ _ dx V' ltac:(lia)) as (T1 & T2). destruct (T1 Hx) as (z & cr2 & T3 & V2). rewrite T3. cbn [bind]. apply IH; [assumption|lia|exact V2|lia].
    + cbn [bind]. destruct (inv_skip_x _ _ _ _ _ _ _ _ dx V ltac:(lia)) as (T1 & T2). destruct (T1 Hx) as (z & cr2 & T3 & V2). rewrite T3. cbn [bind]. apply IH; [assumption|lia|exact V2|lia].
  - pose proof (indices_range rle4 i OK) as IR. rewrite ED in IR. destruct i as [| |dx' dy'|n ix|n b]; cbn [decoded] in ED; try discriminate; injection ED as ED.
    + pose proof (absolute_len _ _ _ _ _ B EI) as AL. rewrite ED in AL.
      destruct (run_step rle4 pal w h c done cd cr x rest l n ix P V IR (eq_sym ED)) as (S1 & S2). cbv zeta in S1, S2. destruct (S1 Hx) as (cr' & S3 & V'). rewrite S3. cbn [bind]. rewrite <- AL. apply IH; [assumption|lia|rewrite Ey; exact V'|exact Ey].
    + cbv zeta. assert (AL : zlen (firstn (Z.to_nat n) (if rle4 then flat_map split4 (repeat b (Z.to_nat n)) else repeat b (Z.to_nat n))) = n) by (cbn in OK; rewrite run_indices by (unfold is_u8, u8_max in *; lia); rewrite zlen_map, zlen_zrange; lia). rewrite ED in AL.
      destruct (run_step rle4 pal w h c done cd cr x rest l n (repeat b (Z.to_nat n)) P V IR (eq_sym ED)) as (S1 & S2). cbv zeta in S1, S2. destruct (S1 Hx) as (cr' & S3 & V'). rewrite S3. cbn [bind].
      rewrite <- AL. apply IH; [assumption|lia|rewrite Ey; exact V'|exact Ey].
Qed.
