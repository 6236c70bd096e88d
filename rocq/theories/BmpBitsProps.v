(** C37: BMP bit fields. *)
From Verif Require Import Base BaseLemmas ListLemmas ListMore BitLemmas BmpBits.
Local Open Scope Z_scope.

(** a mask of l >= 1 consecutive ones starting at bit s *)
Definition mask_of (s l : Z) : Z := (2 ^ l - 1) * 2 ^ s.

Lemma testbit_mask s l i : 0 <= s -> 0 <= l -> 0 <= i -> Z.testbit (mask_of s l) i = (s <=? i) && (i <? s + l).
Proof.
  intros Hs Hl Hi. unfold mask_of. rewrite <- Z.shiftl_mul_pow2 by lia. rewrite Z.shiftl_spec by lia.
  destruct (Z.leb_spec s i).
  - replace (2 ^ l - 1) with (Z.ones l) by (rewrite Z.ones_equiv; lia). rewrite Z.testbit_ones by lia. lia.
  - rewrite Z.testbit_neg_r by lia. reflexivity.
Qed.
Lemma tz_from_spec n : forall k m, exists r, tz_from n k m = r /\ k <= r <= k + Z.of_nat n /\ (forall i, k <= i < r -> Z.testbit m i = false) /\ (r < k + Z.of_nat n -> Z.testbit m r = true).
Proof.
  induction n as [|n IH]; intros k m; cbn [tz_from]; [exists k; repeat split; lia|].
  destruct (Z.testbit m k) eqn:T; [exists k; repeat split; try lia; auto|].
  destruct (IH (k + 1) m) as (r & E & R1 & R2 & R3). exists r. split; [auto|]. split; [lia|]. split; [|intros; apply R3; lia].
  intros i Hi. destruct (Z.eq_dec i k) as [->|]; [auto|]. apply R2. lia.
Qed.
Lemma tz_spec m : exists r, trailing_zeros m = r /\ 0 <= r <= 32 /\ (forall i, 0 <= i < r -> Z.testbit m i = false) /\ (r < 32 -> Z.testbit m r = true).
Proof. exact (tz_from_spec 32 0 m). Qed.
Lemma tz_unique m r : 0 <= r <= 32 -> (forall i, 0 <= i < r -> Z.testbit m i = false) -> (r < 32 -> Z.testbit m r = true) -> trailing_zeros m = r.
Proof.
  intros R1 R2 R3. destruct (tz_spec m) as (q & E & Q1 & Q2 & Q3). rewrite E.
  destruct (Z.lt_trichotomy q r) as [L|[L|L]]; auto; exfalso.
  - rewrite R2 in Q3 by lia. discriminate Q3. lia.
  - rewrite Q2 in R3 by lia. discriminate R3. lia.
Qed.
Lemma testbit_u32 m i : 0 <= m <= u32_max -> 32 <= i -> Z.testbit m i = false.
Proof. intros Hm Hi. apply (testbit_small m i 32); unfold u32_max in *; lia. Qed.
Lemma testbit_not m i : 0 <= m <= u32_max -> 0 <= i < 32 -> Z.testbit (not_u32 m) i = negb (Z.testbit m i).
Proof.
  intros Hm Hi. unfold not_u32. replace (u32_max - m) with (Z.lnot m mod 2 ^ 32).
  - rewrite Z.mod_pow2_bits_low by lia. apply Z.lnot_spec. lia.
  - unfold Z.lnot. replace (Z.pred (- m)) with ((4294967295 - m) + (-1) * 2 ^ 32) by lia. rewrite Z.mod_add by lia. apply Z.mod_small. unfold u32_max in *. lia.
Qed.
Lemma bits_ext a b : 0 <= a <= u32_max -> 0 <= b <= u32_max -> (forall i, 0 <= i < 32 -> Z.testbit a i = Z.testbit b i) -> a = b.
Proof.
  intros Ha Hb H. apply Z.bits_inj'. intros i Hi. destruct (Z_lt_dec i 32); [apply H; lia|]. rewrite !testbit_u32 by lia. reflexivity.
Qed.
Lemma filter_all {A} (f : A -> bool) l : (forall x, In x l -> f x = true) -> filter f l = l.
Proof. induction l as [|a l IH]; intros H; cbn; [auto|]. rewrite H by (left; auto). rewrite IH; auto. intros; apply H; right; auto. Qed.
Lemma filter_none {A} (f : A -> bool) l : (forall x, In x l -> f x = false) -> filter f l = [].
Proof. induction l as [|a l IH]; intros H; cbn; [auto|]. rewrite H by (left; auto). apply IH. intros; apply H; right; auto. Qed.
Lemma mask_u32 s l : 0 <= s -> 0 <= l -> s + l <= 32 -> 0 <= mask_of s l <= u32_max.
Proof.
  intros Hs Hl H. unfold mask_of, u32_max. assert (0 < 2 ^ l) by (apply Z.pow_pos_nonneg; lia). assert (0 < 2 ^ s) by (apply Z.pow_pos_nonneg; lia).
  assert (2 ^ l * 2 ^ s <= 2 ^ 32) by (rewrite <- Z.pow_add_r by lia; apply Z.pow_le_mono_r; lia). nia.
Qed.
(** the shift and length computed for a contiguous mask *)
Lemma contiguous_numbers s l : 0 <= s -> 1 <= l -> s + l <= 32 ->
  trailing_zeros (mask_of s l) = s /\ trailing_zeros (not_u32 (Z.shiftr (mask_of s l) s)) = l /\ count_ones (mask_of s l) = l.
Proof.
  intros Hs Hl H. pose proof (mask_u32 s l ltac:(lia) ltac:(lia) ltac:(lia)) as B. split; [|split].
  - apply tz_unique; [lia| |]; intros; rewrite testbit_mask by lia; lia.
  - assert (B' : 0 <= Z.shiftr (mask_of s l) s <= u32_max).
    { rewrite Z.shiftr_div_pow2 by lia. split; [apply Z.div_pos; [lia|apply Z.pow_pos_nonneg; lia]|]. etransitivity; [apply Z.div_le_upper_bound with (q := mask_of s l)|]; [apply Z.pow_pos_nonneg; lia| |lia].
      assert (1 <= 2 ^ s) by (change 1 with (2 ^ 0); apply Z.pow_le_mono_r; lia). nia. }
    apply tz_unique; [lia| |]; intros; rewrite testbit_not by lia; rewrite Z.shiftr_spec, testbit_mask by lia; lia.
  - unfold count_ones. replace 32 with (s + (l + (32 - s - l))) by lia. rewrite !zrange_app by lia. rewrite !filter_app, !zlen_app.
    rewrite filter_none by (intros x Hx; apply In_zrange in Hx; rewrite testbit_mask by lia; lia).
    rewrite filter_all by (intros x Hx; apply In_zrange in Hx; rewrite testbit_mask by lia; lia).
    rewrite filter_none by (intros x Hx; apply In_zrange in Hx; rewrite testbit_mask by lia; lia).
    change (zlen (@nil Z)) with 0. rewrite zlen_zrange. lia.
Qed.
(** conversely, when the numbers agree the mask is contiguous *)
Lemma numbers_contiguous m : 0 < m <= u32_max ->
  let s := trailing_zeros m in let l := trailing_zeros (not_u32 (Z.shiftr m s)) in
  l = count_ones m -> 0 <= s /\ 1 <= l /\ s + l <= 32 /\ m = mask_of s l.
Proof.
  intros Hm s l E. destruct (tz_spec m) as (s' & Es & S1 & S2 & S3). fold s in Es. subst s'.
  assert (S32 : s < 32). { destruct (Z_lt_dec s 32); auto. exfalso. assert (m = 0); [|lia]. apply bits_ext; [lia|unfold u32_max; lia|]. intros i Hi. rewrite S2 by lia. rewrite Z.testbit_0_l. reflexivity. }
  assert (Bm : 0 <= Z.shiftr m s <= u32_max).
  { rewrite Z.shiftr_div_pow2 by lia. split; [apply Z.div_pos; [lia|apply Z.pow_pos_nonneg; lia]|]. etransitivity; [apply Z.div_le_upper_bound with (q := m)|]; [apply Z.pow_pos_nonneg; lia| |lia].
    assert (1 <= 2 ^ s) by (change 1 with (2 ^ 0); apply Z.pow_le_mono_r; lia). nia. }
  destruct (tz_spec (not_u32 (Z.shiftr m s))) as (l' & El & L1 & L2 & L3). fold l in El. subst l'.
  assert (ON : forall i, 0 <= i < l -> Z.testbit m (s + i) = true).
  { intros i Hi. specialize (L2 i Hi). rewrite testbit_not, Z.shiftr_spec in L2 by lia. rewrite (Z.add_comm s i). destruct (Z.testbit m (i + s)); [auto|discriminate]. }
  assert (Lp : 1 <= l). { destruct (Z_lt_dec l 1); [|lia]. exfalso. assert (l = 0) by lia. specialize (L3 ltac:(lia)). rewrite testbit_not, Z.shiftr_spec in L3 by lia. replace (l + s) with s in L3 by lia. rewrite S3 in L3 by lia. discriminate. }
  assert (SL : s + l <= 32). { destruct (Z_le_dec (s + l) 32); auto. exfalso. specialize (ON (32 - s) ltac:(lia)). replace (s + (32 - s)) with 32 in ON by lia. rewrite testbit_u32 in ON by lia. discriminate. }
  split; [lia|]. split; [lia|]. split; [lia|]. apply bits_ext; [lia|apply mask_u32; lia|]. intros i Hi. rewrite testbit_mask by lia.
  assert (C : count_ones m = l + zlen (filter (Z.testbit m) (zrange (s + l) (32 - s - l)))).
  { unfold count_ones. replace 32 with (s + (l + (32 - s - l))) at 1 by lia. rewrite !zrange_app by lia. rewrite !filter_app, !zlen_app.
    rewrite filter_none by (intros x Hx; apply In_zrange in Hx; apply S2; lia).
    rewrite filter_all by (intros x Hx; apply In_zrange in Hx; specialize (ON (x - s) ltac:(lia)); replace (s + (x - s)) with x in ON by lia; exact ON).
    change (zlen (@nil Z)) with 0. rewrite zlen_zrange. replace (0 + s + l) with (s + l) by lia. lia. }
  assert (Z0 : filter (Z.testbit m) (zrange (s + l) (32 - s - l)) = []) by (apply zlen_0_nil; lia).
  destruct ((s <=? i) && (i <? s + l)) eqn:IO.
  - specialize (ON (i - s) ltac:(lia)). replace (s + (i - s)) with i in ON by lia. exact ON.
  - destruct (Z.testbit m i) eqn:T; auto. exfalso. destruct (Z_lt_dec i s); [rewrite S2 in T by lia; discriminate|].
    assert (IN : In i (filter (Z.testbit m) (zrange (s + l) (32 - s - l)))) by (apply filter_In; split; [apply In_zrange; lia|auto]). rewrite Z0 in IN. destruct IN.
Qed.

(** A non-zero mask is accepted exactly when it is contiguous and lies within the pixel; then the field is the mask's top
    (at most 8) bits. *)
Theorem C37_mask_accepted : forall s l max_len, 0 <= s -> 1 <= l -> s + l <= 32 -> max_len <= 32 ->
  bf_from_mask (mask_of s l) max_len =
    (if s + l <=? max_len then Ok (mkBf (s + l - Z.min l 8) (Z.min l 8)) else Err EDecoding).
Proof.
  intros s l max_len Hs Hl H M. destruct (contiguous_numbers s l Hs Hl H) as (E1 & E2 & E3). unfold bf_from_mask.
  replace (mask_of s l =? 0) with false.
  2:{ unfold mask_of. assert (2 <= 2 ^ l) by (change 2 with (2 ^ 1) at 1; apply Z.pow_le_mono_r; lia). assert (0 < 2 ^ s) by (apply Z.pow_pos_nonneg; lia). nia. }
  rewrite E1, E2, E3, Z.eqb_refl. cbn [negb]. destruct (Z.ltb_spec max_len (l + s)), (Z.leb_spec (s + l) max_len); try lia; auto.
  destruct (Z.ltb_spec 8 l).
  - rewrite Z.min_r by lia. replace (s + l - 8) with (s + (l - 8)) by lia. reflexivity.
  - rewrite Z.min_l by lia. replace (s + l - l) with s by lia. reflexivity.
Qed.
Print Assumptions C37_mask_accepted.
Theorem C37_mask_rejected : forall m max_len, 0 < m <= u32_max -> (forall s l, 0 <= s -> 1 <= l -> s + l <= 32 -> m <> mask_of s l) ->
  bf_from_mask m max_len = Err EDecoding.
Proof.
  intros m max_len Hm N. unfold bf_from_mask. replace (m =? 0) with false by lia.
  destruct (Z.eqb_spec (trailing_zeros (not_u32 (Z.shiftr m (trailing_zeros m)))) (count_ones m)) as [E|E]; [|reflexivity].
  exfalso. destruct (numbers_contiguous m Hm E) as (A & B & C & D). exact (N _ _ A B C D).
Qed.
Print Assumptions C37_mask_rejected.

(** the value stored in bits [shift, shift + len) *)
Definition field_of (data shift len : Z) : Z := data / 2 ^ shift mod 2 ^ len.
(** q is v * 255 / m rounded to the nearest integer *)
Definition nearest (q v m : Z) : Prop := 2 * Z.abs (q * m - v * 255) <= m.

Lemma read_by_cases n (f : Z -> res Z) : 1 <= n <= 8 ->
  forallb (fun v => match f v with Ok q => (0 <=? q) && (q <=? 255) && (2 * Z.abs (q * (2 ^ n - 1) - v * 255) <=? 2 ^ n - 1) | _ => false end) (zrange 0 (2 ^ n)) = true ->
  forall v, 0 <= v < 2 ^ n -> exists q, f v = Ok q /\ 0 <= q <= 255 /\ nearest q v (2 ^ n - 1).
Proof.
  intros Hn F v Hv. rewrite forallb_forall in F. specialize (F v ltac:(apply In_zrange; lia)). destruct (f v) as [q| |]; try discriminate.
  exists q. split; [auto|]. unfold nearest. lia.
Qed.
(** Reading a field never panics and yields the stored value scaled from 0..2^len-1 to 0..255, correctly rounded. *)
Theorem C37_scaling : forall f data, 0 <= bf_shift f <= 31 -> 1 <= bf_len f <= 8 -> 0 <= data <= u32_max ->
  exists q, bf_read f data = Ok q /\ 0 <= q <= 255 /\ nearest q (field_of data (bf_shift f) (bf_len f)) (2 ^ bf_len f - 1).
Proof.
  intros [s n] data Hs Hn Hd. cbn [bf_shift bf_len] in *. unfold bf_read. cbn [bf_shift bf_len]. replace (31 <? s) with false by lia.
  assert (D : forall k mk, mk = 2 ^ k - 1 -> 0 <= k -> Z.land (Z.shiftr data s) mk = field_of data s k).
  { intros k mk -> Hk. replace (2 ^ k - 1) with (Z.ones k) by (rewrite Z.ones_equiv; lia). rewrite Z.land_ones by lia. unfold field_of. rewrite Z.shiftr_div_pow2 by lia. reflexivity. }
  assert (R : forall k, 0 <= k -> 0 <= field_of data s k < 2 ^ k) by (intros; unfold field_of; apply Z.mod_pos_bound; apply Z.pow_pos_nonneg; lia).
  assert (C : n = 1 \/ n = 2 \/ n = 3 \/ n = 4 \/ n = 5 \/ n = 6 \/ n = 7 \/ n = 8) by lia.
  destruct C as [->|[->|[->|[->|[->|[->|[->| ->]]]]]]]; cbn [Z.eqb Pos.eqb].
  - rewrite (D 1) by (reflexivity || lia). apply (read_by_cases 1 (fun v => Ok (wrap_u8 (v * 255)))); [lia|vm_compute; reflexivity|apply R; lia].
  - rewrite (D 2) by (reflexivity || lia). apply (read_by_cases 2 (fun v => Ok (wrap_u8 (v * 85)))); [lia|vm_compute; reflexivity|apply R; lia].
  - rewrite (D 3) by (reflexivity || lia). apply (read_by_cases 3 (lookup lookup3)); [lia|vm_compute; reflexivity|apply R; lia].
  - rewrite (D 4) by (reflexivity || lia). apply (read_by_cases 4 (lookup lookup4)); [lia|vm_compute; reflexivity|apply R; lia].
  - rewrite (D 5) by (reflexivity || lia). apply (read_by_cases 5 (lookup lookup5)); [lia|vm_compute; reflexivity|apply R; lia].
  - rewrite (D 6) by (reflexivity || lia). apply (read_by_cases 6 (lookup lookup6)); [lia|vm_compute; reflexivity|apply R; lia].
  - rewrite (D 7) by (reflexivity || lia). apply (read_by_cases 7 (fun v => Ok (wrap_u8 (Z.lor (Z.shiftl v 1) (Z.shiftr v 6))))); [lia|vm_compute; reflexivity|apply R; lia].
  - rewrite (D 8) by (reflexivity || lia). apply (read_by_cases 8 (fun v => Ok (wrap_u8 v))); [lia|vm_compute; reflexivity|apply R; lia].
Qed.
Print Assumptions C37_scaling.
(** the fields the decoder accepts are always readable, whatever the masks *)
Theorem C37_accepted_fields_readable : forall r g b a max_len fs, 0 <= r <= u32_max -> 0 <= g <= u32_max -> 0 <= b <= u32_max -> 0 <= a <= u32_max ->
  max_len <= 32 -> bfs_from_mask r g b a max_len = Ok fs ->
  let readable f := 0 <= bf_shift f <= 31 /\ 1 <= bf_len f <= 8 in
  readable (bf_r fs) /\ readable (bf_g fs) /\ readable (bf_b fs) /\ (bf_len (bf_a fs) = 0 \/ readable (bf_a fs)) /\
  (bf_len (bf_a fs) = 0 <-> a = 0).
Proof.
  intros r g b a max_len fs Hr Hg Hb Ha M E. cbv zeta.
  assert (G : forall m f, 0 <= m <= u32_max -> bf_from_mask m max_len = Ok f -> (m = 0 /\ f = mkBf 0 0) \/ (m <> 0 /\ 0 <= bf_shift f <= 31 /\ 1 <= bf_len f <= 8)).
  { intros m f Hm Em. destruct (Z.eq_dec m 0) as [->|N]; [left; split; auto; unfold bf_from_mask in Em; cbn in Em; congruence|right].
    split; [auto|]. assert (Em' := Em). unfold bf_from_mask in Em. replace (m =? 0) with false in Em by lia.
    destruct (Z.eqb_spec (trailing_zeros (not_u32 (Z.shiftr m (trailing_zeros m)))) (count_ones m)) as [E1|E1]; [|discriminate]. clear Em.
    destruct (numbers_contiguous m ltac:(lia) E1) as (A & B & C & D). rewrite D in Em'. rewrite C37_mask_accepted in Em' by lia.
    destruct (_ <=? max_len); [|discriminate]. apply Ok_inj in Em'. subst f. cbn [bf_shift bf_len]. lia. }
  unfold bfs_from_mask in E. destruct (bf_from_mask r max_len) as [fr| |] eqn:Er; try discriminate. destruct (bf_from_mask g max_len) as [fg| |] eqn:Eg; try discriminate.
  destruct (bf_from_mask b max_len) as [fb| |] eqn:Eb; try discriminate. destruct (bf_from_mask a max_len) as [fa| |] eqn:Ea; try discriminate. cbn [bind] in E.
  destruct ((bf_len fr =? 0) || (bf_len fg =? 0) || (bf_len fb =? 0)) eqn:Z0; [discriminate|]. apply Ok_inj in E. subst fs. cbn [bf_r bf_g bf_b bf_a].
  destruct (G _ _ Hr Er) as [[-> ->]|[Nr Rr]]; [cbn in Z0; lia|]. destruct (G _ _ Hg Eg) as [[-> ->]|[Ng Rg]]; [cbn in Z0; lia|].
  destruct (G _ _ Hb Eb) as [[-> ->]|[Nb Rb]]; [cbn in Z0; lia|].
  split; [auto|]. split; [auto|]. split; [auto|]. destruct (G _ _ Ha Ea) as [[-> ->]|[Na Ra]]; cbn [bf_len]; [split; [auto|tauto]|split; [auto|]]. split; [lia|congruence].
Qed.
Print Assumptions C37_accepted_fields_readable.
(** masks and pixels together: the value read is the masked value, most significant 8 bits, scaled *)
Theorem C37_mask_to_value : forall s l max_len data, 0 <= s -> 1 <= l -> s + l <= max_len -> max_len <= 32 -> 0 <= data <= u32_max ->
  exists f q, bf_from_mask (mask_of s l) max_len = Ok f /\ bf_read f data = Ok q /\ 0 <= q <= 255 /\
    nearest q (Z.land data (mask_of s l) / 2 ^ (s + l - Z.min l 8)) (2 ^ Z.min l 8 - 1).
Proof.
  intros s l max_len data Hs Hl H M Hd. rewrite C37_mask_accepted by lia. replace (s + l <=? max_len) with true by lia.
  destruct (C37_scaling (mkBf (s + l - Z.min l 8) (Z.min l 8)) data ltac:(cbn; lia) ltac:(cbn; lia) Hd) as (q & E & R & N). cbn [bf_shift bf_len] in *.
  eexists _, q. split; [reflexivity|]. split; [exact E|]. split; [exact R|].
  replace (Z.land data (mask_of s l) / 2 ^ (s + l - Z.min l 8)) with (field_of data (s + l - Z.min l 8) (Z.min l 8)); [exact N|].
  unfold field_of. apply Z.bits_inj'. intros i Hi. rewrite <- !Z.shiftr_div_pow2 by lia. rewrite Z.shiftr_spec, Z.land_spec, testbit_mask by lia.
  destruct (Z_lt_dec i (Z.min l 8)).
  - rewrite Z.mod_pow2_bits_low by lia. rewrite Z.shiftr_spec by lia. replace ((s <=? i + (s + l - Z.min l 8)) && (i + (s + l - Z.min l 8) <? s + l)) with true by lia. rewrite Bool.andb_true_r. reflexivity.
  - rewrite Z.mod_pow2_bits_high by lia. replace ((s <=? i + (s + l - Z.min l 8)) && (i + (s + l - Z.min l 8) <? s + l)) with false by lia. rewrite Bool.andb_false_r. reflexivity.
Qed.
Print Assumptions C37_mask_to_value.
(** RGB565 and a 10-bit mask; a mask with a hole *)
Example C37_example : bf_from_mask 63488 16 = Ok (mkBf 11 5) /\ mask_of 11 5 = 63488 /\ bf_read (mkBf 11 5) 34816 = Ok 140 /\
  bf_from_mask 1072693248 32 = Ok (mkBf 22 8) /\ bf_from_mask 5 32 = Err EDecoding /\ bf_from_mask 63488 15 = Err EDecoding /\ bf_from_mask u32_max 32 = Ok (mkBf 24 8).
Proof. repeat split; vm_compute; reflexivity. Qed.
