From Verif Require Import Base BaseLemmas ListLemmas ListMore BitLemmas GenImage Color Jpeg JpegSpec JpegProofs.
Local Open Scope Z_scope.

(** ** Huffman codes *)
Lemma decode_symbol_app ls : forall vs f c bits v r0 r, decode_symbol ls vs f c bits = Some (v, r0) -> decode_symbol ls vs f c (bits ++ r) = Some (v, r0 ++ r).
Proof.
  induction ls as [|n ls IH]; intros vs f c bits v r0 r E; [destruct bits; discriminate|]. destruct bits as [|b bits]; [discriminate|]. cbn [decode_symbol app] in *.
  destruct (_ <? n); [|apply IH; exact E]. destruct (zget vs _); [|discriminate]. injection E as -> ->. reflexivity.
Qed.
(** symbol [v] can be written with [lut] and is read back with [t] *)
Definition sym_ok (lut : list (Z * Z)) (t : htable) (v : Z) : Prop :=
  exists size code, zget lut v = Some (size, code) /\ 1 <= size <= 16 /\ 0 <= code < 2 ^ size /\
    forall r, symbol t (tobits (Z.to_nat size) code ++ r) = Some (v, r).
Definition sym_check (lut : list (Z * Z)) (t : htable) (v : Z) : bool :=
  match zget lut v with
  | Some (size, code) =>
      (1 <=? size) && (size <=? 16) && (0 <=? code) && (code <? 2 ^ size) &&
      match symbol t (tobits (Z.to_nat size) code) with Some (v', []) => v' =? v | _ => false end
  | None => false
  end.
Lemma sym_check_ok lut t v : sym_check lut t v = true -> sym_ok lut t v.
Proof.
  unfold sym_check, sym_ok. destruct (zget lut v) as [[size code]|]; [|discriminate]. intros H. rewrite !andb_true_iff, !Z.leb_le, Z.ltb_lt in H. destruct H as ((((H1 & H2) & H3) & H4) & H5).
  exists size, code. repeat split; auto. intros r. destruct (symbol t _) as [[v' [|? ?]]|] eqn:E; try discriminate. apply Z.eqb_eq in H5. subst v'. unfold symbol in *. rewrite (decode_symbol_app _ _ _ _ _ _ _ r E). reflexivity.
Qed.
Lemma sym_all lut t l v : forallb (sym_check lut t) l = true -> In v l -> sym_ok lut t v.
Proof. intros H I. apply sym_check_ok. rewrite forallb_forall in H. apply H. exact I. Qed.
Definition luma_dc_t : htable := (luma_dc_lengths, luma_dc_values).
Definition luma_ac_t : htable := (luma_ac_lengths, luma_ac_values).
Definition chroma_dc_t : htable := (chroma_dc_lengths, chroma_dc_values).
Definition chroma_ac_t : htable := (chroma_ac_lengths, chroma_ac_values).
(** DC tables: sizes 0..11; AC tables: runs 0..15 with sizes 1..10, end of block, sixteen zeros *)
Definition dc_ok (lut : list (Z * Z)) (t : htable) : Prop := forall v, 0 <= v <= 11 -> sym_ok lut t v.
Definition ac_ok (lut : list (Z * Z)) (t : htable) : Prop := sym_ok lut t 0 /\ sym_ok lut t 240 /\ forall run size, 0 <= run <= 15 -> 1 <= size <= 10 -> sym_ok lut t (16 * run + size).
Lemma luma_dc_ok : dc_ok luma_dc_lut luma_dc_t.
Proof. intros v Hv. apply (sym_all _ _ (zrange 0 12)); [vm_compute; reflexivity|apply In_zrange; lia]. Qed.
Lemma chroma_dc_ok : dc_ok chroma_dc_lut chroma_dc_t.
Proof. intros v Hv. apply (sym_all _ _ (zrange 0 12)); [vm_compute; reflexivity|apply In_zrange; lia]. Qed.
Lemma ac_ok_of lut t : forallb (sym_check lut t) (0 :: 240 :: flat_map (fun r => map (fun s => 16 * r + s) (zrange 1 10)) (zrange 0 16)) = true -> ac_ok lut t.
Proof.
  intros H. split; [|split].
  - eapply sym_all; [exact H|]. left. reflexivity.
  - eapply sym_all; [exact H|]. right. left. reflexivity.
  - intros run size Hr Hs. eapply sym_all; [exact H|]. right. right. apply in_flat_map. exists run. split; [apply In_zrange; lia|]. apply in_map_iff. exists size. split; [reflexivity|apply In_zrange; lia].
Qed.
Lemma luma_ac_ok : ac_ok luma_ac_lut luma_ac_t.
Proof. apply ac_ok_of. vm_compute. reflexivity. Qed.
Lemma chroma_ac_ok : ac_ok chroma_ac_lut chroma_ac_t.
Proof. apply ac_ok_of. vm_compute. reflexivity. Qed.

(** ** writing a symbol *)
Definition sbits (lut : list (Z * Z)) (v : Z) : list bool := match zget lut v with Some (size, code) => tobits (Z.to_nat size) code | None => [] end.
Lemma sbits_decode lut t v r : sym_ok lut t v -> symbol t (sbits lut v ++ r) = Some (v, r).
Proof. intros (size & code & G & _ & _ & H). unfold sbits. rewrite G. apply H. Qed.
Lemma huffman_ok base s B lut t v : rep base s B -> sym_ok lut t v -> exists s', huffman_encode s v lut = Ok s' /\ rep base s' (B ++ sbits lut v).
Proof.
  intros R (size & code & G & Hs & Hc & _). unfold huffman_encode, sbits. rewrite G. replace (16 <? size) with false by (symmetry; apply Z.ltb_ge; lia). apply write_bits_ok; [exact R|lia|exact Hc].
Qed.

(** ** coefficients *)
Lemma count_bits_spec fuel : forall m, 0 <= m < 2 ^ Z.of_nat fuel -> let n := count_bits fuel m in 0 <= n <= Z.of_nat fuel /\ m < 2 ^ n /\ (0 < m -> 2 ^ (n - 1) <= m /\ 1 <= n).
Proof.
  induction fuel as [|fuel IH]; intros m Hm; cbv zeta; cbn [count_bits].
  - change (2 ^ Z.of_nat 0) with 1 in Hm. change (2 ^ 0) with 1. repeat split; try lia.
  - destruct (Z.ltb_spec 0 m) as [P|P].
    + rewrite Z.shiftr_div_pow2 by lia. change (2 ^ 1) with 2. destruct (IH (m / 2)) as (I1 & I2 & I3).
      { replace (Z.of_nat (S fuel)) with (1 + Z.of_nat fuel) in Hm by lia. rewrite Z.pow_add_r in Hm by lia. change (2 ^ 1) with 2 in Hm. split; [apply Z.div_pos; lia|]. apply Z.div_lt_upper_bound; lia. }
      set (n := count_bits fuel (m / 2)) in *. pose proof (Z.div_mod m 2 ltac:(lia)) as DM. pose proof (Z.mod_pos_bound m 2 ltac:(lia)).
      split; [lia|]. split; [rewrite Z.pow_add_r by lia; change (2 ^ 1) with 2; lia|]. intros _. split; [|lia]. replace (1 + n - 1) with n by lia.
      destruct (Z.eq_dec (m / 2) 0) as [Z0|NZ].
      * assert (n = 0). { rewrite Z0 in I2, I3. unfold n. rewrite Z0. destruct fuel; reflexivity. } rewrite H0. change (2 ^ 0) with 1. lia.
      * destruct (I3 ltac:(lia)) as (J1 & J2). replace n with (1 + (n - 1)) by lia. rewrite Z.pow_add_r by lia. change (2 ^ 1) with 2. lia.
    + assert (m = 0) by lia. subst m. change (2 ^ 0) with 1. repeat split; try lia.
Qed.
Lemma land_mask a n : 0 <= n -> Z.land a (Z.shiftl 1 n - 1) = a mod 2 ^ n.
Proof. intros. rewrite Z.shiftl_1_l. rewrite Z.sub_1_r, <- Z.ones_equiv. apply Z.land_ones. lia. Qed.
Lemma encode_coefficient_ok c k : 0 <= k <= 15 -> Z.abs c < 2 ^ k -> exists n v, encode_coefficient c = Ok (n, v) /\ 0 <= n <= k /\ 0 <= v < 2 ^ n /\ (c = 0 -> n = 0) /\ (c <> 0 -> 1 <= n /\ extend v n = c).
Proof.
  intros Hk Hc. destruct (Z.eq_dec c 0) as [->|NZ].
  { exists 0, 0. split; [reflexivity|]. change (2 ^ 0) with 1. repeat split; try lia; congruence. }
  assert (PK : 2 ^ k <= 2 ^ 15) by (apply Z.pow_le_mono_r; lia). change (2 ^ 15) with 32768 in PK. unfold encode_coefficient. replace (wrap_u16 (Z.abs c)) with (Z.abs c) by (unfold wrap_u16; rewrite Z.mod_small by lia; reflexivity).
  pose proof (count_bits_spec 17 (Z.abs c)) as CB. cbv zeta in CB. destruct CB as (N1 & N2 & N3); [change (2 ^ Z.of_nat 17) with 131072; lia|]. set (n := count_bits 17 (Z.abs c)) in *. clearbody n.
  destruct (N3 ltac:(lia)) as (J & J1). clear N3. assert (Hn0 : 0 <= n) by lia. assert (NK : n <= k). { destruct (Z.le_gt_cases n k) as [|G]; [assumption|]. exfalso. assert (2 ^ k <= 2 ^ (n - 1)) by (apply Z.pow_le_mono_r; lia). lia. }
  cbv zeta. replace (15 <? n) with false by (symmetry; apply Z.ltb_ge; lia). assert (P2 : 2 ^ n = 2 * 2 ^ (n - 1)) by (replace n with (1 + (n - 1)) at 1 by lia; rewrite Z.pow_add_r by lia; reflexivity).
  assert (P16 : 65536 = 2 ^ (16 - n) * 2 ^ n) by (rewrite <- Z.pow_add_r by lia; replace (16 - n + n) with 16 by lia; reflexivity). assert (0 < 2 ^ n) by (apply Z.pow_pos_nonneg; lia).
  destruct (Z.ltb_spec c 0) as [NEG|POS].
  - unfold i32_chk. replace ((i32_min <=? c - 1) && (c - 1 <=? i32_max)) with true by (unfold i32_min, i32_max; symmetry; rewrite andb_true_iff, !Z.leb_le; clear - Hc PK NEG; lia). cbn [bind]. rewrite (land_mask _ n Hn0). unfold wrap_u16.
    assert (M : ((c - 1) mod 65536) mod 2 ^ n = c - 1 + 2 ^ n).
    { replace ((c - 1) mod 65536) with (c - 1 + 65536) by (symmetry; rewrite <- (Z.mod_small (c - 1 + 65536) 65536) by lia; replace (c - 1 + 65536) with (c - 1 + 1 * 65536) by ring; rewrite Z.mod_add by lia; reflexivity).
      rewrite P16. rewrite Z.mod_add by lia. rewrite <- (Z.mod_small (c - 1 + 2 ^ n) (2 ^ n)) by lia. replace (c - 1 + 2 ^ n) with (c - 1 + 1 * 2 ^ n) by ring. rewrite Z.mod_add by lia. reflexivity. }
    rewrite M. exists n, (c - 1 + 2 ^ n). split; [reflexivity|]. split; [lia|]. split; [lia|]. split; [congruence|]. intros _. split; [lia|]. unfold extend.
    replace (c - 1 + 2 ^ n <? 2 ^ (n - 1)) with true by (symmetry; apply Z.ltb_lt; lia). lia.
  - cbn [bind]. rewrite (land_mask _ n Hn0). unfold wrap_u16. rewrite (Z.mod_small c) by lia. rewrite Z.mod_small by lia. exists n, c. split; [reflexivity|]. split; [lia|]. split; [lia|]. split; [congruence|]. intros _. split; [lia|].
    unfold extend. replace (c <? 2 ^ (n - 1)) with false by (symmetry; apply Z.ltb_ge; lia). reflexivity.
Qed.
(** the bits of a coefficient *)
Definition cbits (c : Z) : list bool := match encode_coefficient c with Ok (n, v) => tobits (Z.to_nat n) v | _ => [] end.
Definition csize (c : Z) : Z := match encode_coefficient c with Ok (n, _) => n | _ => 0 end.
Lemma coefficient_ok c k : 0 <= k <= 15 -> Z.abs c < 2 ^ k -> exists v, encode_coefficient c = Ok (csize c, v) /\ 0 <= csize c <= k /\ 0 <= v < 2 ^ csize c /\ cbits c = tobits (Z.to_nat (csize c)) v /\ (c = 0 -> csize c = 0) /\
  (c <> 0 -> 1 <= csize c /\ forall r, decode_coefficient (csize c) (cbits c ++ r) = Some (c, r)).
Proof.
  intros Hk Hc. destruct (encode_coefficient_ok c k Hk Hc) as (n & v & E & N & V & Z0 & NZ). exists v. unfold csize, cbits. rewrite E. repeat split; try tauto; try lia.
  intros r. unfold decode_coefficient. rewrite receive_tobits by (rewrite Z2Nat.id by lia; lia). rewrite Z2Nat.id by lia. rewrite Z.mul_0_l, Z.add_0_l. destruct (NZ H) as (_ & ->). reflexivity.
Qed.

(** ** DC coefficient *)
Lemma decode_dc_ok lut t pred c r : dc_ok lut t -> Z.abs (c - pred) < 2 ^ 11 -> decode_dc t pred (sbits lut (csize (c - pred)) ++ cbits (c - pred) ++ r) = Some (c, r).
Proof.
  intros T Hc. destruct (coefficient_ok (c - pred) 11 ltac:(lia) Hc) as (v & E & N & V & CB & Z0 & NZ). unfold decode_dc. rewrite (sbits_decode lut t) by (apply T; lia).
  destruct (Z.eqb_spec (csize (c - pred)) 0) as [SS|SS].
  - destruct (Z.eq_dec (c - pred) 0) as [D|D]; [|destruct (NZ D); lia]. rewrite CB, SS. cbn [Z.to_nat tobits app]. f_equal. f_equal. lia.
  - destruct (Z.eq_dec (c - pred) 0) as [D|D]; [rewrite (Z0 D) in SS; congruence|]. destruct (NZ D) as (_ & ->). do 2 f_equal. lia.
Qed.

(** ** AC coefficients *)
Fixpoint zrl_bits (lut : list (Z * Z)) (q : nat) : list bool := match q with O => [] | S q => sbits lut 240 ++ zrl_bits lut q end.
Lemma write_zrl_ok base lut t fuel : ac_ok lut t -> forall s B run, 0 <= run -> run <= 16 * Z.of_nat fuel + 15 -> rep base s B ->
  exists s', write_zrl fuel s run lut = Ok (s', run mod 16) /\ rep base s' (B ++ zrl_bits lut (Z.to_nat (run / 16))).
Proof.
  intros T. induction fuel as [|fuel IH]; intros s B run R0 R1 R; cbn [write_zrl].
  - replace (run <=? 15) with true by (symmetry; apply Z.leb_le; lia). exists s. rewrite Z.mod_small, Z.div_small by lia. cbn [Z.to_nat zrl_bits]. rewrite app_nil_r. auto.
  - destruct (Z.leb_spec run 15) as [SS|SS].
    + exists s. rewrite Z.mod_small, Z.div_small by lia. cbn [Z.to_nat zrl_bits]. rewrite app_nil_r. auto.
    + destruct (huffman_ok base s B lut t 240 R) as (s1 & E1 & Q1); [apply T|]. rewrite E1. cbn [bind]. destruct (IH s1 _ (run - 16) ltac:(lia) ltac:(lia) Q1) as (s2 & E2 & Q2). exists s2.
      replace (run mod 16) with ((run - 16) mod 16) by (replace run with (run - 16 + 1 * 16) at 2 by ring; rewrite Z.mod_add by lia; reflexivity). split; [exact E2|].
      assert (D : run / 16 = (run - 16) / 16 + 1) by (replace run with (run - 16 + 1 * 16) at 1 by ring; rewrite Z.div_add by lia; reflexivity). assert (0 <= (run - 16) / 16) by (apply Z.div_pos; lia). replace (Z.to_nat (run / 16)) with (S (Z.to_nat ((run - 16) / 16))) by lia. cbn [zrl_bits]. rewrite app_assoc. exact Q2.
Qed.
Lemma decode_zrl lut t q : ac_ok lut t -> forall fuel n l r r', (q <= fuel)%nat -> 16 * Z.of_nat q < n -> decode_ac (fuel - q) t (n - 16 * Z.of_nat q) r = Some (l, r') ->
  decode_ac fuel t n (zrl_bits lut q ++ r) = Some (repeat 0 (16 * q) ++ l, r').
Proof.
  intros T. induction q as [|q IH]; intros fuel n l r r' F N E.
  - rewrite Nat.sub_0_r in E. replace (n - 16 * Z.of_nat 0) with n in E by lia. exact E.
  - destruct fuel as [|fuel]; [lia|]. cbn [zrl_bits]. rewrite <- app_assoc. cbn [decode_ac]. replace (n =? 0) with false by (symmetry; apply Z.eqb_neq; lia). rewrite (sbits_decode lut t) by apply T. change (240 / 16) with 15. change (240 mod 16) with 0. cbn [Z.eqb Pos.eqb].
    replace (n <? 16) with false by (symmetry; apply Z.ltb_ge; lia). rewrite (IH fuel (n - 16) l r r'); [| lia | lia |].
    + replace (16 * S q)%nat with (16 + 16 * q)%nat by lia. rewrite repeat_app, <- app_assoc. reflexivity.
    + replace (n - 16 - 16 * Z.of_nat q) with (n - 16 * Z.of_nat (S q)) by lia. exact E.
Qed.
Lemma symbol_lor run size : 0 <= run -> 0 <= size < 16 -> Z.lor (Z.shiftl run 4) size = 16 * run + size.
Proof. intros. rewrite lor_shift_small by (change (2 ^ 4) with 16; lia). change (2 ^ 4) with 16. lia. Qed.
Lemma ac_loop base block lut t ks : ac_ok lut t -> Forall (fun k => exists c, zget block k = Some c /\ Z.abs c < 2 ^ 10) ks -> forall s B z, rep base s B -> 0 <= z -> z + zlen ks <= 64 ->
  exists s' z' E, foldM (write_ac block lut) ks (s, z) = Ok (s', z') /\ rep base s' (B ++ E) /\ 0 <= z' /\ (ks = [] -> z' = z) /\
    (forall ks0 k c, ks = ks0 ++ [k] -> zget block k = Some c -> (z' = 0 <-> c <> 0)) /\
    forall fuel r, z + zlen ks <= Z.of_nat fuel ->
      decode_ac fuel t (z + zlen ks) (E ++ (if z' =? 0 then [] else sbits lut 0) ++ r) = Some (repeat 0 (Z.to_nat z) ++ map (fun k => nth (Z.to_nat k) block 0) ks, r).
Proof.
  intros T FK. induction ks as [|k ks IH]; intros s B z R Z0 ZL.
  - exists s, z, []. rewrite app_nil_r. split; [reflexivity|]. split; [exact R|]. split; [exact Z0|]. split; [reflexivity|]. split; [intros ks0 k c E; destruct ks0; discriminate|].
    intros fuel r F. change (zlen (@nil Z)) with 0 in *. rewrite Z.add_0_r in *. cbn [app map]. rewrite app_nil_r. destruct (Z.eqb_spec z 0) as [->|NZ].
    + destruct fuel; reflexivity.
    + destruct fuel as [|fuel]; [lia|]. cbn [decode_ac]. replace (z =? 0) with false by (symmetry; apply Z.eqb_neq; lia). rewrite (sbits_decode lut t) by apply T. reflexivity.
  - inversion FK as [|? ? (c & G & HC) FK']; subst. specialize (IH FK'). rewrite zlen_cons in *. pose proof (zlen_nonneg ks) as KN. cbn [foldM]. unfold write_ac at 1. rewrite G.
    assert (NTH : nth (Z.to_nat k) block 0 = c). { unfold zget in G. destruct (k <? 0); [discriminate|]. apply nth_error_nth. exact G. }
    assert (LAST : forall z' s0, (forall ks0 k0 c0, ks = ks0 ++ [k0] -> zget block k0 = Some c0 -> (z' = 0 <-> c0 <> 0)) -> (ks = [] -> z' = s0) -> (ks = [] -> (s0 = 0 <-> c <> 0)) -> forall ks0 k0 c0, k :: ks = ks0 ++ [k0] -> zget block k0 = Some c0 -> (z' = 0 <-> c0 <> 0)).
    { intros z' s0 H1 H2 H3 ks0 k0 c0 E G0. destruct ks0 as [|k1 ks0]; cbn [app] in E; injection E as E1 E2.
      - subst k0 ks. assert (c0 = c) by congruence. subst c0. rewrite (H2 eq_refl). apply H3. reflexivity.
      - apply (H1 ks0 k0 c0 E2 G0). }
    destruct (Z.eqb_spec c 0) as [C0|CN].
    + cbn [bind]. destruct (IH s B (z + 1) R ltac:(lia) ltac:(lia)) as (s' & z' & E & E1 & E2 & E3 & E4 & E5 & E6). exists s', z', E. split; [exact E1|]. split; [exact E2|]. split; [exact E3|]. split; [discriminate|].
      split; [apply (LAST z' (z + 1) E5 E4); intros _; split; intros; [lia|congruence]|]. intros fuel r F. specialize (E6 fuel r ltac:(lia)). replace (z + (1 + zlen ks)) with (z + 1 + zlen ks) by lia. rewrite E6. do 2 f_equal.
      rewrite Z2Nat.inj_add by lia. rewrite repeat_app, <- app_assoc. cbn [Z.to_nat Pos.to_nat Pos.iter_op repeat app map]. rewrite NTH, C0. reflexivity.
    + destruct (write_zrl_ok base lut t 16 T s B z Z0 ltac:(lia) R) as (s1 & W1 & R1). rewrite W1. cbn [bind].
      destruct (coefficient_ok c 10 ltac:(lia) HC) as (v & EC & N & V & CB & _ & NZ). destruct (NZ CN) as (N1 & DC). rewrite EC. cbn [bind].
      assert (RM : 0 <= z mod 16 <= 15) by (pose proof (Z.mod_pos_bound z 16 ltac:(lia)); lia). rewrite symbol_lor by lia. pose proof (proj2 (proj2 T) (z mod 16) (csize c) RM ltac:(lia)) as SO.
      destruct (huffman_ok base s1 _ lut t (16 * (z mod 16) + csize c) R1 SO) as (s2 & W2 & R2). rewrite W2. cbn [bind].
      destruct (write_bits_ok base s2 _ v (csize c) R2 ltac:(lia) V) as (s3 & W3 & R3). rewrite W3. cbn [bind].
      destruct (IH s3 _ 0 R3 ltac:(lia) ltac:(lia)) as (s' & z' & E & E1 & E2 & E3 & E4 & E5 & E6). exists s', z', (zrl_bits lut (Z.to_nat (z / 16)) ++ sbits lut (16 * (z mod 16) + csize c) ++ cbits c ++ E).
      split; [exact E1|]. split. { rewrite CB. rewrite !app_assoc in *. exact E2. } split; [exact E3|]. split; [discriminate|]. split; [apply (LAST z' 0 E5 E4); intros _; split; intros; [congruence|reflexivity]|].
      intros fuel r F. rewrite <- !app_assoc. pose proof (Z.div_mod z 16 ltac:(lia)) as DM. assert (Q0 : 0 <= z / 16) by (apply Z.div_pos; lia). assert (Q1 : Z.of_nat (Z.to_nat (z / 16)) = z / 16) by lia.
      set (q := Z.to_nat (z / 16)) in *. set (rm := z mod 16) in *.
      rewrite (decode_zrl lut t q T fuel (z + (1 + zlen ks)) (repeat 0 (Z.to_nat rm) ++ c :: map (fun k => nth (Z.to_nat k) block 0) ks) _ r); [| lia | lia |].
      * do 2 f_equal. cbn [map]. rewrite NTH. rewrite app_assoc, <- repeat_app. do 2 f_equal. lia.
      * replace (z + (1 + zlen ks) - 16 * Z.of_nat q) with (rm + 1 + zlen ks) by lia. destruct (fuel - q)%nat as [|f'] eqn:EF; [lia|]. cbn [decode_ac]. replace (rm + 1 + zlen ks =? 0) with false by (symmetry; apply Z.eqb_neq; lia).
        rewrite (sbits_decode lut t) by exact SO. replace ((16 * rm + csize c) / 16) with rm by (rewrite Z.mul_comm, Z.add_comm, Z.div_add by lia; rewrite Z.div_small by lia; lia).
        replace ((16 * rm + csize c) mod 16) with (csize c) by (rewrite Z.mul_comm, Z.add_comm, Z.mod_add by lia; symmetry; apply Z.mod_small; lia). replace (csize c =? 0) with false by (symmetry; apply Z.eqb_neq; lia).
        replace (rm + 1 + zlen ks <? rm + 1) with false by (symmetry; apply Z.ltb_ge; lia). rewrite DC. replace (rm + 1 + zlen ks - rm - 1) with (0 + zlen ks) by lia. rewrite E6 by lia. cbn [Z.to_nat repeat app]. reflexivity.
Qed.
(** ** a whole block *)
Notation zz := in_zigzag.
Definition block_ok (block : list Z) (prev : Z) : Prop :=
  zlen block = 64 /\ Z.abs (nth 0 block 0 - prev) < 2 ^ 11 /\ Forall (fun c => Z.abs c < 2 ^ 10) (skipn 1 block).
Lemma write_block_ok base s B block prev dcl acl dct act : dc_ok dcl dct -> ac_ok acl act -> block_ok block prev -> rep base s B ->
  exists s' E, write_block s block prev dcl acl = Ok (s', nth 0 block 0) /\ rep base s' (B ++ E) /\ forall r, decode_block dct act prev (E ++ r) = Some (zz block, r).
Proof.
  intros TD TA (L & HD & HA) R. unfold write_block. destruct (zget_some block 0 ltac:(lia)) as (dc & G0). destruct (zget_some block 63 ltac:(lia)) as (last & G63). rewrite G0, G63.
  assert (N0 : nth 0 block 0 = dc). { apply nth_error_nth. exact G0. } rewrite N0 in *.
  unfold i32_chk. replace ((i32_min <=? dc - prev) && (dc - prev <=? i32_max)) with true by (unfold i32_min, i32_max; change (2 ^ 11) with 2048 in HD; symmetry; rewrite andb_true_iff, !Z.leb_le; lia). cbn [bind].
  destruct (coefficient_ok (dc - prev) 11 ltac:(lia) HD) as (v & EC & N & V & CB & _). rewrite EC. cbn [bind].
  destruct (huffman_ok base s B dcl dct (csize (dc - prev)) R) as (s1 & W1 & R1); [apply TD; lia|]. rewrite W1. cbn [bind]. destruct (write_bits_ok base s1 _ v (csize (dc - prev)) R1 ltac:(lia) V) as (s2 & W2 & R2). rewrite W2. cbn [bind].
  assert (FK : Forall (fun k => exists c, zget block k = Some c /\ Z.abs c < 2 ^ 10) (skipn 1 unzigzag)).
  { apply Forall_forall. intros k Hk. assert (1 <= k <= 63). { assert (F : Forall (fun k => 1 <= k <= 63) (skipn 1 unzigzag)) by (cbn [skipn unzigzag]; repeat constructor; lia). rewrite Forall_forall in F. exact (F k Hk). }
    destruct (zget_some block k ltac:(lia)) as (c & G). exists c. split; [exact G|]. rewrite Forall_forall in HA. apply HA. apply (zget_In _ (k - 1)). rewrite zget_skipn by lia. rewrite <- G. f_equal. lia. }
  destruct (ac_loop base block acl act (skipn 1 unzigzag) TA FK s2 _ 0 R2 ltac:(lia) ltac:(vm_compute; discriminate)) as (s3 & z' & E & W3 & R3 & Z' & _ & LA & DA). rewrite W3. cbn [bind].
  assert (LAST : z' = 0 <-> last <> 0). { apply (LA (firstn 62 (skipn 1 unzigzag)) 63 last); [reflexivity|exact G63]. }
  change (zlen (skipn 1 unzigzag)) with 63 in DA. rewrite Z.add_0_l in DA.
  assert (FIN : forall r, decode_block dct act prev ((sbits dcl (csize (dc - prev)) ++ tobits (Z.to_nat (csize (dc - prev))) v ++ E ++ (if z' =? 0 then [] else sbits acl 0)) ++ r) = Some (zz block, r)).
  { intros r. unfold decode_block. rewrite <- !app_assoc. rewrite <- CB. rewrite (decode_dc_ok dcl dct prev dc _ TD HD). rewrite (DA 63%nat r) by lia. cbn [Z.to_nat repeat app]. unfold in_zigzag. rewrite zigzag_is. change unzigzag with (0 :: skipn 1 unzigzag). cbn [map Z.to_nat]. rewrite N0. reflexivity. }
  destruct (Z.eqb_spec last 0) as [L0|LN].
  - destruct (huffman_ok base s3 _ acl act 0 R3) as (s4 & W4 & R4); [apply TA|]. rewrite W4. cbn [bind]. exists s4. eexists. split; [reflexivity|]. assert (z' <> 0) by tauto. replace (z' =? 0) with false in FIN by (symmetry; apply Z.eqb_neq; lia).
    split; [|exact FIN]. rewrite !app_assoc in *. exact R4.
  - cbn [bind]. exists s3. eexists. split; [reflexivity|]. assert (z' = 0) by tauto. replace (z' =? 0) with true in FIN by (symmetry; apply Z.eqb_eq; lia). split; [|exact FIN]. rewrite app_nil_r. rewrite !app_assoc in *. exact R3.
Qed.
