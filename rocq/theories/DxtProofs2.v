(** The DDS container parser reads fixed offsets. *)
From Verif Require Import Base BaseLemmas ListLemmas ListMore Post ColorType Dxt DxtSpec DxtProofs.
Local Open Scope Z_scope.

Definition at_ (file : list Z) (o : Z) : list Z := skipn (Z.to_nat o) file.
Lemma at_slice file o n : 0 <= o -> 0 <= n -> o + n <= zlen file -> at_ file o = zslice file o n ++ at_ file (o + n).
Proof.
  intros Ho Hn L. unfold at_, zslice. rewrite <- (firstn_skipn (Z.to_nat n) (skipn (Z.to_nat o) file)) at 1. f_equal. rewrite skipn_skipn. f_equal. lia.
Qed.
Lemma at_exact file o n : 0 <= o -> 0 <= n -> read_exact n (at_ file o) = if zlen file <? o + n then (if (zlen file <? o) && (n =? 0) then Ok ([], []) else Err EEof) else Ok (zslice file o n, at_ file (o + n)).
Proof.
  intros Ho Hn. pose proof (zlen_nonneg file). unfold read_exact, at_. rewrite zlen_skipn. rewrite Z2Nat.id by lia.
  destruct (Z.ltb_spec (zlen file) (o + n)).
  - destruct (Z.ltb_spec (zlen file) o); cbn [andb].
    + destruct (Z.eqb_spec n 0) as [->|].
      * replace (Z.max 0 (zlen file - o) <? 0) with false by lia. change (Z.to_nat 0) with 0%nat. cbn [firstn skipn]. rewrite skipn_all2; [reflexivity|unfold zlen in *; lia].
      * replace (Z.max 0 (zlen file - o) <? n) with true by lia. reflexivity.
    + replace (Z.max 0 (zlen file - o) <? n) with true by lia. reflexivity.
  - replace (Z.max 0 (zlen file - o) <? n) with false by lia. rewrite skipn_skipn. unfold zslice. do 3 f_equal. lia.
Qed.
Lemma at_u32 file o : 0 <= o -> read_u32le (at_ file o) = if zlen file <? o + 4 then Err EEof else Ok (field file o, at_ file (o + 4)).
Proof.
  intros Ho. destruct (Z.ltb_spec (zlen file) (o + 4)) as [L|L].
  - assert (Q : zlen (at_ file o) < 4) by (unfold at_; rewrite zlen_skipn; lia).
    destruct (at_ file o) as [|a [|b [|c [|d l]]]]; try reflexivity. rewrite !zlen_cons in Q. pose proof (zlen_nonneg l). lia.
  - rewrite (at_slice file o 4) by lia. unfold field. assert (Q : zlen (zslice file o 4) = 4) by (rewrite zlen_zslice_gen; lia).
    destruct (zslice file o 4) as [|a [|b [|c [|d [|e l]]]]]; rewrite ?zlen_cons in Q; try (pose proof (zlen_nonneg l)); change (zlen (@nil Z)) with 0 in Q; try lia.
    cbn [app read_u32le le_num]. do 2 f_equal. ring.
Qed.
Lemma field_range file o : bytes file -> is_u32 (field file o).
Proof.
  intros B. unfold field, is_u32, u32_max. destruct (le_num_range (zslice file o 4)) as [A C]; [apply Forall_zslice; exact B|].
  rewrite zlen_zslice_gen in C. assert (256 ^ Z.max 0 (Z.min 4 (zlen file - Z.max 0 o)) <= 256 ^ 4) by (apply Z.pow_le_mono_r; lia). lia.
Qed.
Lemma header_iff file w h pf fc r : dds_header (at_ file 4) = Ok (w, h, pf, fc, r) <->
  128 <= zlen file /\ field file 4 = 124 /\ Z.land (field file 8) (Z.lor 4103 (4294967295 - 9048079)) = 4103 /\ field file 76 = 32 /\
  w = field file 16 /\ h = field file 12 /\ pf = field file 80 /\ fc = zslice file 84 4 /\ r = at_ file 128.
Proof.
  unfold dds_header, dds_pixel_format. set (M := Z.lor 4103 (4294967295 - 9048079)).
  assert (K : forall (P : Prop), zlen file < 128 -> (False <-> (128 <= zlen file /\ P))) by (intros; split; [contradiction|lia]).
  Ltac step K := first [rewrite at_u32 by lia | rewrite at_exact by lia]; cbn [Z.eqb andb];
    match goal with |- context [zlen ?f <? ?n] => let Q := fresh "Q" in destruct (Z.ltb_spec (zlen f) n) as [Q|Q] end; [rewrite ?Bool.andb_false_r; cbn [bind]; split; [discriminate|intros (? & _); lia]|]; cbn [bind].
  step K. destruct (Z.eqb_spec (field file 4) 124) as [E4|E4]; cbn [negb bind]; [|split; [discriminate|intros (? & ? & _); congruence]].
  step K. destruct (Z.eqb_spec (Z.land (field file (4 + 4)) M) 4103) as [E8|E8]; cbn [negb bind]; [|split; [discriminate|intros (? & ? & ? & _); contradiction]].
  do 6 step K. step K. destruct (Z.eqb_spec (field file (4 + 4 + 4 + 4 + 4 + 4 + 4 + 4 + 44)) 32) as [E76|E76]; cbn [negb bind].
  - do 10 step K. split.
    + intros H. injection H as <- <- <- <- <-. repeat split; auto; lia.
    + intros (_ & _ & _ & _ & -> & -> & -> & -> & ->). reflexivity.
  - split; [discriminate|]. intros (? & ? & ? & ? & _). contradiction.
Qed.
Lemma flags_iff f : is_u32 f -> (Z.land f (Z.lor 4103 (4294967295 - 9048079)) = 4103 <-> dds_flags f).
Proof.
  intros Hf. change (Z.lor 4103 (4294967295 - 9048079)) with 4285923319. unfold is_u32, u32_max in Hf.
  assert (HI : forall i, 32 <= i -> Z.testbit f i = false).
  { intros i Hi. destruct (Z.eq_dec f 0) as [->|]; [apply Z.bits_0|]. apply Z.bits_above_log2; [lia|]. apply Z.log2_lt_pow2; [lia|]. apply Z.lt_le_trans with (2 ^ 32); [lia|apply Z.pow_le_mono_r; lia]. }
  split.
  - intros E. assert (B : forall i, 0 <= i -> (Z.testbit f i && Z.testbit 4285923319 i)%bool = Z.testbit 4103 i) by (intros; rewrite <- Z.land_spec, E; reflexivity).
    split.
    + intros i [<-|[<-|[<-|[<-|[]]]]]; match goal with |- Z.testbit f ?i = _ => specialize (B i ltac:(lia)); destruct (Z.testbit f i); [reflexivity|discriminate B] end.
    + intros i Hi T. destruct (Z.lt_ge_cases i 32) as [L|L]; [|rewrite HI in T by lia; discriminate]. specialize (B i Hi). rewrite T in B. cbn [andb] in B.
      assert (D : forallb (fun i => negb (Bool.eqb (Z.testbit 4285923319 i) (Z.testbit 4103 i)) || existsb (Z.eqb i) [0; 1; 2; 3; 12; 17; 19; 23])%bool (zrange 0 32) = true) by reflexivity.
      rewrite forallb_forall in D. specialize (D i ltac:(apply In_zrange; lia)). rewrite B in D. rewrite Bool.eqb_reflx in D. cbn [negb orb] in D.
      apply existsb_exists in D. destruct D as (j & Ij & Ej). apply Z.eqb_eq in Ej. subst j. exact Ij.
  - intros [A C]. apply Z.bits_inj'. intros i Hi. rewrite Z.land_spec.
    destruct (Z.lt_ge_cases i 32) as [L|L]; [|rewrite HI by lia; symmetry; apply Z.bits_above_log2; [lia|change (Z.log2 4103) with 12; lia]].
    assert (D : forallb (fun i => if existsb (Z.eqb i) [0; 1; 2; 12] then Z.testbit 4285923319 i && Z.testbit 4103 i else negb (Z.testbit 4103 i) && (existsb (Z.eqb i) [0; 1; 2; 3; 12; 17; 19; 23] && negb (Z.testbit 4285923319 i) || negb (existsb (Z.eqb i) [0; 1; 2; 3; 12; 17; 19; 23])))%bool (zrange 0 32) = true) by reflexivity.
    rewrite forallb_forall in D. specialize (D i ltac:(apply In_zrange; lia)).
    destruct (existsb (Z.eqb i) [0; 1; 2; 12]) eqn:EX.
    + apply existsb_exists in EX. destruct EX as (j & Ij & Ej). apply Z.eqb_eq in Ej. subst j. rewrite (A i Ij). apply andb_prop in D. destruct D as [-> ->]. reflexivity.
    + apply andb_prop in D. destruct D as [D1 D2]. apply Bool.negb_true_iff in D1. rewrite D1.
      apply orb_prop in D2. destruct D2 as [D2|D2].
      * apply andb_prop in D2. destruct D2 as [_ D2]. apply Bool.negb_true_iff in D2. rewrite D2. apply Bool.andb_false_r.
      * destruct (Z.testbit f i) eqn:T; [|reflexivity]. exfalso. specialize (C i Hi T). apply Bool.negb_true_iff in D2.
        assert (existsb (Z.eqb i) [0; 1; 2; 3; 12; 17; 19; 23] = true) by (apply existsb_exists; exists i; split; [exact C|apply Z.eqb_refl]). congruence.
Qed.
Lemma pf_iff f : Z.land f 4 = 0 <-> Z.testbit f 2 = false.
Proof.
  split; intros H.
  - assert (E : Z.testbit (Z.land f 4) 2 = Z.testbit 0 2) by (rewrite H; reflexivity). rewrite Z.land_spec in E. change (Z.testbit 4 2) with true in E. rewrite Bool.andb_true_r in E. exact E.
  - apply Z.bits_inj'. intros i Hi. rewrite Z.land_spec, Z.bits_0. destruct (Z.eq_dec i 2) as [->|N]; [rewrite H; reflexivity|].
    replace (Z.testbit 4 i) with false; [apply Bool.andb_false_r|]. symmetry. destruct (Z.lt_ge_cases i 3) as [L|L]; [|apply Z.bits_above_log2; [lia|change (Z.log2 4) with 2; lia]].
    assert (i = 0 \/ i = 1) as [->| ->] by lia; reflexivity.
Qed.
Lemma dx10_iff file f r : dds_dx10 (at_ file 128) = Ok (f, r) <->
  148 <= zlen file /\ f = field file 128 /\ f <= 132 /\ 2 <= field file 132 <= 4 /\ (field file 136 = 0 \/ field file 136 = 4) /\ (field file 132 = 4 -> field file 140 = 1) /\ field file 144 <= 4 /\ r = at_ file 148.
Proof.
  unfold dds_dx10. do 5 step I. change (128 + 4 + 4 + 4 + 4 + 4) with 148. change (128 + 4 + 4 + 4 + 4) with 144. change (128 + 4 + 4 + 4) with 140. change (128 + 4 + 4) with 136. change (128 + 4) with 132.
  destruct (Z.ltb_spec 132 (field file 128)); [split; [discriminate|intros (? & -> & ? & _); lia]|].
  destruct (Z.ltb_spec (field file 132) 2); [split; [discriminate|lia]|]. destruct (Z.ltb_spec 4 (field file 132)); [split; [discriminate|lia]|]. cbn [orb].
  destruct (Z.eqb_spec (field file 136) 0); destruct (Z.eqb_spec (field file 136) 4); cbn [negb andb]; try (split; [discriminate|lia]);
  (destruct (Z.eqb_spec (field file 132) 4); destruct (Z.eqb_spec (field file 140) 1); cbn [negb andb]; try (split; [discriminate|lia]);
   destruct (Z.ltb_spec 4 (field file 144)); try (split; [discriminate|lia]); (split; [intros HE; injection HE as <- <-; repeat split; auto; try lia|intros (_ & -> & _ & _ & _ & _ & _ & ->); reflexivity])).
Qed.
Definition knd (v : dxt) : Z := match v with DXT1 => 1 | DXT3 => 3 | DXT5 => 5 end.
Lemma leqb_spec a b : reflect (a = b) (leqb a b).
Proof. apply iff_reflect. symmetry. apply leqb_eq. Qed.
(** exact characterisation of the container parser *)
Lemma dds_new_iff file d : bytes file ->
  (dds_new file = Ok d <-> exists w h v off, dds_file file w h (knd v) off /\ w * h <= u64_max / ct_bytes (dxt_color_type v) /\ d = mkDxt (at_ file off) (w / 4) (h / 4) v).
Proof.
  intros B. unfold dds_new. change file with (at_ file 0) at 1. rewrite at_exact by lia. change (4 =? 0) with false. rewrite Bool.andb_false_r.
  destruct (Z.ltb_spec (zlen file) (0 + 4)) as [Q|Q]; cbn [bind].
  { split; [discriminate|]. intros (w & h & v & off & D & _). destruct D as (L & _ & _ & _ & _ & _ & _ & _ & C & _). destruct C as [(_ & _ & ->)|(_ & -> & _)]; lia. }
  destruct (leqb_spec (zslice file 0 4) [68; 68; 83; 32]) as [EM|EM]; cbn [negb].
  2:{ split; [discriminate|]. intros (w & h & v & off & D & _). destruct D as (_ & D & _). contradiction. }
  change (0 + 4) with 4.
  assert (F8 := field_range file 8 B). assert (F12 := field_range file 12 B). assert (F16 := field_range file 16 B). unfold is_u32, u32_max in F12, F16.
  (* checks after the variant is known *)
  assert (FIN : forall v off w h, is_u32 w -> is_u32 h -> 
    (o <- check_dimension_overflow w h (ct_bytes (dxt_color_type v)) ;; if (o : bool) then Err EUnsupported else dxt_new (at_ file off) w h v) = Ok d <->
    (w * h <= u64_max / ct_bytes (dxt_color_type v) /\ w mod 4 = 0 /\ h mod 4 = 0 /\ d = mkDxt (at_ file off) (w / 4) (h / 4) v)).
  { clear. intros v off w h Hw Hh. unfold is_u32, u32_max in *. assert (WH : 0 <= w * h <= 4294967295 * 4294967295) by (split; [apply Z.mul_nonneg_nonneg; lia|apply Z.mul_le_mono_nonneg; lia]).
    unfold check_dimension_overflow. replace (u64_max <? w * h) with false by (unfold u64_max; lia). replace (ct_bytes (dxt_color_type v) =? 0) with false by (destruct v; reflexivity). cbn [bind].
    destruct (Z.ltb_spec (u64_max / ct_bytes (dxt_color_type v)) (w * h)) as [O|O]; [split; [discriminate|lia]|].
    unfold dxt_new. destruct (Z.eqb_spec (w mod 4) 0); destruct (Z.eqb_spec (h mod 4) 0); cbn [negb orb]; (split; [intros E; try discriminate E; injection E as <-; auto|intros (_ & ? & ? & ->); congruence]). }
  split.
  - destruct (dds_header (at_ file 4)) as [[[[[w h] pf] fc] r]|e|] eqn:EH; cbn [bind]; try discriminate.
    apply header_iff in EH. destruct EH as (L & E4 & E8 & E76 & -> & -> & -> & -> & ->). apply (flags_iff _ F8) in E8.
    destruct (Z.eqb_spec (Z.land (field file 80) 4) 0) as [E80|E80]; cbn [negb]; [discriminate|]. rewrite pf_iff in E80. apply Bool.not_false_is_true in E80.
    destruct (leqb_spec (zslice file 84 4) [68; 88; 84; 49]) as [X|X];
      [cbn [bind]; intros E; apply FIN in E; auto; destruct E as (O & W4 & H4 & ->); exists (field file 16), (field file 12), DXT1, 128; split; [|auto];
       unfold dds_file; repeat (split; [auto; try lia|]); [left; split; [exact X|split; [cbn; auto|reflexivity]]|auto]|].
    destruct (leqb_spec (zslice file 84 4) [68; 88; 84; 51]) as [X3|X3];
      [cbn [bind]; intros E; apply FIN in E; auto; destruct E as (O & W4 & H4 & ->); exists (field file 16), (field file 12), DXT3, 128; split; [|auto];
       unfold dds_file; repeat (split; [auto; try lia|]); [left; split; [exact X3|split; [cbn; auto|reflexivity]]|auto]|].
    destruct (leqb_spec (zslice file 84 4) [68; 88; 84; 53]) as [X5|X5];
      [cbn [bind]; intros E; apply FIN in E; auto; destruct E as (O & W4 & H4 & ->); exists (field file 16), (field file 12), DXT5, 128; split; [|auto];
       unfold dds_file; repeat (split; [auto; try lia|]); [left; split; [exact X5|split; [cbn; auto|reflexivity]]|auto]|].
    destruct (leqb_spec (zslice file 84 4) [68; 88; 49; 48]) as [X10|X10]; [|discriminate].
    destruct (dds_dx10 (at_ file 128)) as [[f r]|e|] eqn:ED; cbn [bind]; try discriminate. apply dx10_iff in ED. destruct ED as (L2 & -> & F1 & F2 & F3 & F4 & F5 & ->).
    assert (G : forall v, ((70 <= field file 128 <= 72 /\ knd v = 1) \/ (73 <= field file 128 <= 75 /\ knd v = 3) \/ (76 <= field file 128 <= 78 /\ knd v = 5)) ->
      (o <- check_dimension_overflow (field file 16) (field file 12) (ct_bytes (dxt_color_type v)) ;; if (o : bool) then Err EUnsupported else dxt_new (at_ file 148) (field file 16) (field file 12) v) = Ok d ->
      exists w h v off, dds_file file w h (knd v) off /\ w * h <= u64_max / ct_bytes (dxt_color_type v) /\ d = mkDxt (at_ file off) (w / 4) (h / 4) v).
    { intros v KV E. apply FIN in E; auto. destruct E as (O & W4 & H4 & ->). exists (field file 16), (field file 12), v, 148. split; [|auto].
      unfold dds_file. repeat (split; [auto; try lia|]); [right; split; [exact X10|]; split; [reflexivity|]; split; [exact KV|]; auto|auto]. }
    destruct (Z.leb_spec 70 (field file 128)), (Z.leb_spec (field file 128) 72); cbn [andb bind]; try (apply G; cbn [knd]; lia);
    destruct (Z.leb_spec 73 (field file 128)), (Z.leb_spec (field file 128) 75); cbn [andb bind]; try (apply G; cbn [knd]; lia); try lia;
    destruct (Z.leb_spec 76 (field file 128)), (Z.leb_spec (field file 128) 78); cbn [andb bind]; try (apply G; cbn [knd]; lia); try lia; discriminate.
  - intros (w & h & v & off & (L & _ & E4 & E8 & Eh & Ew & E76 & E80 & C & W4 & H4) & O & Ed). apply (flags_iff _ F8) in E8.
    assert (L128 : 128 <= zlen file) by (destruct C as [(_ & _ & ->)|(_ & -> & _)]; lia).
    assert (EH : dds_header (at_ file 4) = Ok (w, h, field file 80, zslice file 84 4, at_ file 128)) by (apply header_iff; repeat (split; [auto|]); reflexivity).
    rewrite EH. cbn [bind]. destruct (Z.eqb_spec (Z.land (field file 80) 4) 0) as [E|_]; [apply pf_iff in E; congruence|]. cbn [negb].
    assert (Uw : is_u32 w) by (subst w; exact F16). assert (Uh : is_u32 h) by (subst h; exact F12).
    destruct C as [(E84 & Ik & ->)|(E84 & -> & Fk & F2 & F3 & F4 & F5)].
    + assert (FF : (o <- check_dimension_overflow w h (ct_bytes (dxt_color_type v)) ;; if (o : bool) then Err EUnsupported else dxt_new (at_ file 128) w h v) = Ok d) by (apply FIN; auto).
      rewrite E84. destruct v; cbn [knd] in *; exact FF.
    + assert (FF : (o <- check_dimension_overflow w h (ct_bytes (dxt_color_type v)) ;; if (o : bool) then Err EUnsupported else dxt_new (at_ file 148) w h v) = Ok d) by (apply FIN; auto).
      rewrite E84. cbn [leqb Z.eqb andb Pos.eqb].
      assert (ED : dds_dx10 (at_ file 128) = Ok (field file 128, at_ file 148)) by (apply dx10_iff; repeat (split; [auto; try lia|]); reflexivity).
      rewrite ED. cbn [bind].
      destruct v; cbn [knd] in Fk; destruct (Z.leb_spec 70 (field file 128)), (Z.leb_spec (field file 128) 72); cbn [andb bind]; try exact FF; try lia;
        destruct (Z.leb_spec 73 (field file 128)), (Z.leb_spec (field file 128) 75); cbn [andb bind]; try exact FF; try lia;
        destruct (Z.leb_spec 76 (field file 128)), (Z.leb_spec (field file 128) 78); cbn [andb bind]; try exact FF; lia.
Qed.
