(** Proofs about DXT decoding. *)
From Verif Require Import Base BaseLemmas ListLemmas ListMore BitLemmas BitsProofs Post ColorType Dxt DxtSpec.
Local Open Scope Z_scope.

(** writing n pieces of m bytes, p apart, starting at o *)
Lemma put_slices d n p o m (g : Z -> list Z) : 0 <= n -> 0 <= o -> 0 <= m -> o + m <= p -> n * p <= zlen d ->
  (forall i, 0 <= i < n -> zlen (g i) = m) ->
  exists d', foldM (fun d i => put_slice d (i * p + o) (g i)) (zrange 0 n) d = Ok d' /\ zlen d' = zlen d /\
    (forall i, 0 <= i < n -> zslice d' (i * p + o) m = g i) /\
    (forall k, 0 <= k < zlen d -> (forall i, 0 <= i < n -> ~ (i * p + o <= k < i * p + o + m)) -> zget d' k = zget d k).
Proof.
  intros Hn Ho Hm Hp Hd Hg.
  destruct (foldM_zrange_inv (fun d i => put_slice d (i * p + o) (g i)) (fun k s => zlen s = zlen d /\
    (forall i, 0 <= i < k -> zslice s (i * p + o) m = g i) /\
    (forall j, 0 <= j < zlen d -> (forall i, 0 <= i < k -> ~ (i * p + o <= j < i * p + o + m)) -> zget s j = zget d j)) 0 n d Hn)
    as (d' & E & I).
  - split; [reflexivity|]. split; [intros; lia|auto].
  - intros k s Hk (L & P & Q). rewrite Z.add_0_l.
    assert (K0 : 0 <= k * p) by (apply Z.mul_nonneg_nonneg; lia).
    assert (K1 : (k + 1) * p <= n * p) by (apply Z.mul_le_mono_nonneg_r; lia). rewrite Z.mul_add_distr_r, Z.mul_1_l in K1.
    assert (KB : 0 <= k * p + o /\ k * p + o + zlen (g k) <= zlen s) by (rewrite (Hg k Hk), L; clear - K0 K1 Ho Hp Hd; set (np := n * p) in *; set (kp := k * p) in *; clearbody np kp; lia).
    unfold put_slice. replace (zlen s <? k * p + o + zlen (g k)) with false by lia.
    eexists. split; [reflexivity|]. split; [rewrite zlen_zsplice; lia|]. split.
    + intros i Hi. destruct (Z.eq_dec i k) as [->|NE].
      * rewrite <- (Hg k Hk) at 1. apply zslice_zsplice_same; lia.
      * assert (I0 : 0 <= i * p) by (apply Z.mul_nonneg_nonneg; lia).
        assert (I1 : (i + 1) * p <= k * p) by (apply Z.mul_le_mono_nonneg_r; lia). rewrite Z.mul_add_distr_r, Z.mul_1_l in I1.
        rewrite zslice_zsplice_other by lia. apply P. lia.
    + intros j Hj Hnj. rewrite zget_zsplice_out; [|lia|lia|].
      * apply Q; auto. intros i Hi. apply Hnj. lia.
      * specialize (Hnj k ltac:(lia)). rewrite (Hg k Hk) in *. lia.
  - exists d'. split; [exact E|exact I].
Qed.

Lemma le_fold_num l : bytes l -> le_fold l = le_num l.
Proof.
  unfold le_fold. intros B. induction B as [|b l Hb B IH]; [reflexivity|]. cbn [rev le_num]. rewrite fold_left_app. cbn [fold_left]. rewrite IH.
  unfold is_u8, u8_max in Hb. rewrite lor_shift_small by lia. change (2 ^ 8) with 256. lia.
Qed.
Lemma le_num_range l : bytes l -> 0 <= le_num l < 256 ^ zlen l.
Proof.
  induction 1 as [|b l Hb B IH]; [change (zlen (@nil Z)) with 0; cbn; lia|]. cbn [le_num]. rewrite zlen_cons, Z.pow_add_r by (try lia; apply zlen_nonneg).
  unfold is_u8, u8_max in Hb. lia.
Qed.
Lemma code_digit t i k : 0 <= i -> 0 < k -> Z.land (Z.shiftr t (i * k)) (2 ^ k - 1) = digit t (2 ^ k) i.
Proof.
  intros Hi Hk. rewrite land_ones_mod by lia. rewrite Z.shiftr_div_pow2 by (apply Z.mul_nonneg_nonneg; lia). unfold digit.
  rewrite Z.mul_comm, Z.pow_mul_r by lia. reflexivity.
Qed.
Lemma digit_range n b i : 0 < b -> 0 <= digit n b i < b.
Proof. intros. apply Z.mod_pos_bound. lia. Qed.

Lemma wrap_u8_id z : 0 <= z <= 255 -> wrap_u8 z = z.
Proof. intros. unfold wrap_u8. apply Z.mod_small. lia. Qed.
Lemma enc565_spec c : 0 <= c < 65536 -> enc565_decode c = rgb565 c /\ exists r g b, rgb565 c = [r; g; b] /\ is_u8 r /\ is_u8 g /\ is_u8 b.
Proof.
  intros Hc. unfold enc565_decode, rgb565. change 31 with (2 ^ 5 - 1) at 1 3. change 63 with (2 ^ 6 - 1) at 1.
  rewrite !land_ones_mod by lia. rewrite !Z.shiftr_div_pow2 by lia. change (2 ^ 11) with 2048. change (2 ^ 5) with 32. change (2 ^ 6) with 64.
  assert (R : 0 <= c / 2048 < 32) by (split; [apply Z.div_pos; lia|apply Z.div_lt_upper_bound; lia]).
  assert (G : 0 <= c / 32 mod 64 < 64) by (apply Z.mod_pos_bound; lia).
  assert (B : 0 <= c mod 32 < 32) by (apply Z.mod_pos_bound; lia).
  rewrite (Z.mod_small (c / 2048) 32) by lia. set (r := c / 2048) in *. set (g := c / 32 mod 64) in *. set (b := c mod 32) in *. clearbody r g b.
  assert (0 <= r * 255 / 31 <= 255) by (split; [apply Z.div_pos; lia|apply Z.div_le_upper_bound; lia]).
  assert (0 <= g * 255 / 63 <= 255) by (split; [apply Z.div_pos; lia|apply Z.div_le_upper_bound; lia]).
  assert (0 <= b * 255 / 31 <= 255) by (split; [apply Z.div_pos; lia|apply Z.div_le_upper_bound; lia]).
  change (32 - 1) with 31. change (64 - 1) with 63. 
  rewrite !wrap_u8_id by lia. split; [reflexivity|]. eexists _, _, _. split; [reflexivity|]. unfold is_u8, u8_max. auto.
Qed.

Lemma near3 n : (2 * n + 3) / (2 * 3) = (n + 1) / 3.
Proof. zdm. Qed.
Lemma near2 n : (2 * n + 2) / (2 * 2) = (n + 1) / 2.
Proof. zdm. Qed.

(** the colour loop *)
Lemma colors_ok src dest dxt1 p : bytes src -> zlen src = 8 -> zlen dest = 16 * p -> p = 3 \/ p = 4 ->
  exists out, decode_dxt_colors src dest dxt1 = Ok out /\ zlen out = zlen dest /\
    (forall i, 0 <= i < 16 -> zslice out (i * p) 3 = texel_rgb dxt1 src i) /\
    (forall k, 0 <= k < zlen dest -> (forall i, 0 <= i < 16 -> ~ (i * p <= k < i * p + 3)) -> zget out k = zget dest k).
Proof.
  intros B Ls Ld Hp. unfold decode_dxt_colors. rewrite Ls, Ld.
  replace (negb ((8 =? 8) && ((16 * p =? 48) || (16 * p =? 64)))) with false by lia.
  replace (16 * p / 16) with p by (rewrite Z.mul_comm, Z.div_mul; lia).
  assert (BS : forall a n, bytes (zslice src a n)) by (intros; apply Forall_zslice; exact B).
  rewrite !le_fold_num by auto. unfold texel_rgb.
  set (c0 := le_num (zslice src 0 2)). set (c1 := le_num (zslice src 2 2)). set (t := le_num (zslice src 4 4)).
  assert (R0 : 0 <= c0 < 65536). { pose proof (le_num_range _ (BS 0 2)) as H. rewrite zlen_zslice_gen in H by lia. rewrite Ls in H. exact H. }
  assert (R1 : 0 <= c1 < 65536). { pose proof (le_num_range _ (BS 2 2)) as H. rewrite zlen_zslice_gen in H by lia. rewrite Ls in H. exact H. }
  clearbody c0 c1 t.
  destruct (enc565_spec c0 R0) as (-> & r0 & g0 & b0 & -> & U1 & U2 & U3). destruct (enc565_spec c1 R1) as (-> & r1 & g1 & b1 & -> & V1 & V2 & V3).
  unfold is_u8, u8_max in *. unfold mix. cbn [combine map].
  assert (W3 : forall a b, 0 <= a <= 255 -> 0 <= b <= 255 -> wrap_u8 ((a * 2 + b + 1) / 3) = nearest (2 * a + 1 * b) 3).
  { intros a b Ha Hb. unfold nearest. rewrite near3. rewrite wrap_u8_id; [f_equal; lia|]. split; [apply Z.div_pos; lia|apply Z.lt_succ_r, Z.div_lt_upper_bound; lia]. }
  assert (W3' : forall a b, 0 <= a <= 255 -> 0 <= b <= 255 -> wrap_u8 ((a + b * 2 + 1) / 3) = nearest (1 * a + 2 * b) 3).
  { intros a b Ha Hb. unfold nearest. rewrite near3. rewrite wrap_u8_id; [f_equal; lia|]. split; [apply Z.div_pos; lia|apply Z.lt_succ_r, Z.div_lt_upper_bound; lia]. }
  assert (W2 : forall a b, 0 <= a <= 255 -> 0 <= b <= 255 -> wrap_u8 ((a + b + 1) / 2) = nearest (1 * a + 1 * b) 2).
  { intros a b Ha Hb. unfold nearest. rewrite near2. rewrite wrap_u8_id; [f_equal; lia|]. split; [apply Z.div_pos; lia|apply Z.lt_succ_r, Z.div_lt_upper_bound; lia]. }
  rewrite !W3, !W3', !W2 by lia. clear W3 W3' W2.
  set (four := (c1 <? c0) || negb dxt1).
  set (g := fun i => if digit t 4 i =? 0 then [r0; g0; b0] else if digit t 4 i =? 1 then [r1; g1; b1]
     else if four then (if digit t 4 i =? 2 then [nearest (2 * r0 + 1 * r1) 3; nearest (2 * g0 + 1 * g1) 3; nearest (2 * b0 + 1 * b1) 3]
                        else [nearest (1 * r0 + 2 * r1) 3; nearest (1 * g0 + 2 * g1) 3; nearest (1 * b0 + 2 * b1) 3])
     else (if digit t 4 i =? 2 then [nearest (1 * r0 + 1 * r1) 2; nearest (1 * g0 + 1 * g1) 2; nearest (1 * b0 + 1 * b1) 2] else [0; 0; 0])).
  destruct (put_slices dest 16 p 0 3 g) as (out & E & L & P & Q); try lia.
  { intros i Hi. unfold g. destruct (digit t 4 i =? 0), (digit t 4 i =? 1), four, (digit t 4 i =? 2); reflexivity. }
  exists out. split; [|split; [lia|split]].
  - rewrite <- E. destruct four eqn:EF; (apply foldM_ext; intros d i Hi; apply In_zrange in Hi; rewrite Z.add_0_r;
      change 3 with (2 ^ 2 - 1) at 1; rewrite code_digit by lia; change (2 ^ 2) with 4;
      pose proof (digit_range t 4 i ltac:(lia)) as DR; unfold g; rewrite EF || idtac;
      assert (C : digit t 4 i = 0 \/ digit t 4 i = 1 \/ digit t 4 i = 2 \/ digit t 4 i = 3) by lia;
      destruct C as [-> |[-> |[-> | ->]]]; reflexivity).
  - intros i Hi. specialize (P i Hi). rewrite Z.add_0_r in P. rewrite P. reflexivity.
  - intros k Hk Hn. rewrite Ld in Q. apply Q; [lia|]. intros i Hi. rewrite Z.add_0_r. auto.
Qed.

Definition texel (v : dxt) : list Z -> Z -> list Z := match v with DXT1 => texel1 | DXT3 => texel3 | DXT5 => texel5 end.
Definition chans (v : dxt) : Z := match v with DXT1 => 3 | _ => 4 end.

(** alpha then colours *)
Lemma alpha_colors src dest g : bytes src -> zlen src = 16 -> zlen dest = 64 ->
  exists out, (dest <- foldM (fun d i => put_slice d (i * 4 + 3) [g i]) (zrange 0 16) dest ;; decode_dxt_colors (zslice src 8 8) dest false) = Ok out /\
    zlen out = 64 /\ forall i, 0 <= i < 16 -> zslice out (i * 4) 4 = texel_rgb false (zslice src 8 8) i ++ [g i].
Proof.
  intros B Ls Ld. destruct (put_slices dest 16 4 3 1 (fun i => [g i])) as (d1 & E & L & P & _); try lia; [reflexivity|].
  rewrite E. cbn [bind].
  destruct (colors_ok (zslice src 8 8) d1 false 4) as (out & E2 & L2 & P2 & Q2); auto; try lia.
  { apply Forall_zslice. exact B. } { rewrite zlen_zslice_gen; lia. }
  exists out. split; [exact E2|]. split; [lia|]. intros i Hi. change 4 with (3 + 1) at 2. rewrite zslice_split by lia. rewrite P2 by lia. f_equal.
  rewrite <- (P i Hi). apply zget_ext'. intros k Hk. rewrite !zget_zslice_gen by lia. destruct ((0 <=? k) && (k <? 1)) eqn:EK; [|reflexivity].
  apply Q2; [lia|]. intros j Hj. lia.
Qed.

Lemma alpha_table_spec a0 a1 c : is_u8 a0 -> is_u8 a1 -> 0 <= c < 8 -> zget (alpha_table_dxt5 a0 a1) c = Some (alpha5 a0 a1 c) /\ is_u8 (alpha5 a0 a1 c).
Proof.
  unfold is_u8, u8_max. intros H0 H1 Hc. unfold alpha_table_dxt5, alpha5.
  assert (C : c = 0 \/ c = 1 \/ c = 2 \/ c = 3 \/ c = 4 \/ c = 5 \/ c = 6 \/ c = 7) by lia.
  destruct (Z.ltb_spec a1 a0) as [Q|Q].
  - assert (W : forall i, 2 <= i <= 7 -> 0 <= ((8 - i) * a0 + (i - 1) * a1) / 7 <= 255).
    { intros i Hi. assert (A : 0 <= (8 - i) * a0 <= (8 - i) * 255) by (split; [apply Z.mul_nonneg_nonneg; lia|apply Z.mul_le_mono_nonneg_l; lia]).
      assert (A' : 0 <= (i - 1) * a1 <= (i - 1) * 255) by (split; [apply Z.mul_nonneg_nonneg; lia|apply Z.mul_le_mono_nonneg_l; lia]).
      split; [apply Z.div_pos; lia|apply Z.div_le_upper_bound; lia]. }
    change (zrange 2 6) with [2; 3; 4; 5; 6; 7]. cbn [map app].
    rewrite !wrap_u8_id by (apply W; lia).
    destruct C as [-> |[-> |[-> |[-> |[-> |[-> |[-> | ->]]]]]]]; (split; [reflexivity|]); cbn [Z.eqb Pos.eqb]; try lia; apply W; lia.
  - assert (W : forall i, 2 <= i <= 5 -> 0 <= ((6 - i) * a0 + (i - 1) * a1) / 5 <= 255).
    { intros i Hi. assert (A : 0 <= (6 - i) * a0 <= (6 - i) * 255) by (split; [apply Z.mul_nonneg_nonneg; lia|apply Z.mul_le_mono_nonneg_l; lia]).
      assert (A' : 0 <= (i - 1) * a1 <= (i - 1) * 255) by (split; [apply Z.mul_nonneg_nonneg; lia|apply Z.mul_le_mono_nonneg_l; lia]).
      split; [apply Z.div_pos; lia|apply Z.div_le_upper_bound; lia]. }
    change (zrange 2 4) with [2; 3; 4; 5]. cbn [map app].
    rewrite !wrap_u8_id by (apply W; lia).
    destruct C as [-> |[-> |[-> |[-> |[-> |[-> |[-> | ->]]]]]]]; (split; [reflexivity|]); cbn [Z.eqb Pos.eqb]; try lia; apply W; lia.
Qed.

Lemma block_ok v src blk : bytes src -> zlen src = encoded_bytes_per_block v -> zlen blk = decoded_bytes_per_block v ->
  exists out, decode_block v src blk = Ok out /\ zlen out = decoded_bytes_per_block v /\
    forall i, 0 <= i < 16 -> zslice out (i * chans v) (chans v) = texel v src i.
Proof.
  intros B Ls Ld. destruct v; cbn [encoded_bytes_per_block decoded_bytes_per_block chans texel decode_block] in *.
  - unfold decode_dxt1_block. rewrite Ls, Ld. cbn [Z.eqb Pos.eqb andb negb].
    destruct (colors_ok src blk true 3) as (out & E & L & P & _); auto. exists out. split; [exact E|]. split; [lia|exact P].
  - unfold decode_dxt3_block. rewrite Ls, Ld. cbn [Z.eqb Pos.eqb andb negb].
    destruct (alpha_colors src blk (texel_alpha3 src) B Ls Ld) as (out & E & L & P). exists out. split; [|split; [exact L|exact P]].
    rewrite <- E. f_equal. apply foldM_ext. intros d i Hi. apply In_zrange in Hi. f_equal. f_equal.
    rewrite le_fold_num by (apply Forall_zslice; exact B). unfold texel_alpha3. rewrite Z.mul_comm. f_equal.
    rewrite <- (code_digit _ i 4) by lia. change (2 ^ 4 - 1) with 15. unfold wrap_u8. change 256 with (2 ^ 8).
    rewrite <- Z.land_ones by lia. rewrite <- Z.land_assoc. f_equal.
  - unfold decode_dxt5_block. rewrite Ls, Ld. cbn [Z.eqb Pos.eqb andb negb].
    destruct (zget_some src 0 ltac:(lia)) as [a0 G0]. destruct (zget_some src 1 ltac:(lia)) as [a1 G1]. rewrite G0, G1.
    destruct (alpha_colors src blk (texel_alpha5 src) B Ls Ld) as (out & E & L & P). exists out. split; [|split; [exact L|exact P]].
    rewrite <- E. f_equal. apply foldM_ext. intros d i Hi. apply In_zrange in Hi.
    rewrite le_fold_num by (apply Forall_zslice; exact B). change 7 with (2 ^ 3 - 1) at 1. rewrite code_digit by lia. change (2 ^ 3) with 8.
    assert (S : forall k a, zget src k = Some a -> 0 <= k -> le_num (zslice src k 1) = a).
    { intros k a G Hk. assert (ZS : zslice src k 1 = [a]).
      { pose proof (zget_range _ _ _ G). apply zget_ext'. intros j Hj. rewrite zget_zslice_gen by lia. destruct (Z.eq_dec j 0) as [->|NE].
        - cbn [andb Z.leb Z.ltb Z.compare]. rewrite Z.add_0_r. exact G.
        - replace ((0 <=? j) && (j <? 1)) with false by lia. symmetry. apply zget_none. change (zlen [a]) with 1. lia. }
      rewrite ZS. cbn [le_num]. lia. }
    assert (BA : forall k a, zget src k = Some a -> is_u8 a) by (intros k a G; apply zget_In in G; unfold bytes in B; rewrite Forall_forall in B; auto).
    destruct (alpha_table_spec a0 a1 (digit (le_num (zslice src 2 6)) 8 i)) as [-> _]; [eapply BA; eauto|eapply BA; eauto|apply digit_range; lia|].
    unfold texel_alpha5. rewrite (S 0 a0 G0), (S 1 a1 G1) by lia. reflexivity.
Qed.

Lemma zslice_same_get {A} (l l' : list A) a n : 0 <= a -> (forall k, a <= k < a + n -> zget l k = zget l' k) -> zslice l a n = zslice l' a n.
Proof.
  intros Ha H. apply zget_ext'. intros i Hi. rewrite !zget_zslice_gen by lia. destruct ((0 <=? i) && (i <? n)) eqn:E; [|reflexivity]. apply H. lia.
Qed.
Lemma chans_eq v : decoded_bytes_per_block v = 16 * chans v /\ 0 < chans v <= 4 /\ 0 < encoded_bytes_per_block v <= 16.
Proof. destruct v; cbn; lia. Qed.

Lemma row_ok v src dest bc : bytes src -> 0 <= bc -> zlen src = bc * encoded_bytes_per_block v -> zlen dest = bc * decoded_bytes_per_block v ->
  exists out, decode_row v src dest = Ok out /\ zlen out = zlen dest /\
    forall x line col, 0 <= x < bc -> 0 <= line < 4 -> 0 <= col < 4 ->
      zslice out ((line * (bc * 4) + x * 4 + col) * chans v) (chans v) =
      texel v (zslice src (x * encoded_bytes_per_block v) (encoded_bytes_per_block v)) (line * 4 + col).
Proof.
  intros B Hbc Ls Ld. unfold decode_row. destruct (chans_eq v) as (DC & HC & HE). rewrite Ls. rewrite Z.mod_mul, Z.div_mul by lia. cbn [Z.eqb negb].
  replace (zlen dest <? bc * decoded_bytes_per_block v) with false by lia.
  set (enc := encoded_bytes_per_block v) in *. set (c := chans v) in *.
  assert (LL : decoded_bytes_per_block v / 4 = 4 * c) by (rewrite DC; replace (16 * c) with (4 * c * 4) by lia; apply Z.div_mul; lia). rewrite LL.
  set (p := bc * (4 * c)).
  match goal with |- context [foldM ?f (zrange 0 bc) ?s0] =>
    destruct (foldM_zrange_inv f (fun k st => let '(blk, d) := st in zlen blk = decoded_bytes_per_block v /\ zlen d = zlen dest /\
      forall x line col, 0 <= x < k -> 0 <= line < 4 -> 0 <= col < 4 ->
        zslice d (line * p + (x * 4 + col) * c) c = texel v (zslice src (x * enc) enc) (line * 4 + col)) 0 bc s0) as ([blk out] & E & _ & L & P) end; [lia| | |].
  - split; [rewrite zlen_repeat; lia|]. split; [reflexivity|intros; lia].
  - intros k [blk d] Hk (Lb & L & P). rewrite Z.add_0_l.
    assert (K0 : 0 <= k * enc) by (apply Z.mul_nonneg_nonneg; lia).
    assert (K1 : (k + 1) * enc <= bc * enc) by (apply Z.mul_le_mono_nonneg_r; lia).
    destruct (block_ok v (zslice src (k * enc) enc) blk) as (blk' & Eb & Lb' & Pb); [apply Forall_zslice; exact B|rewrite zlen_zslice_gen; lia|exact Lb|].
    rewrite Eb. cbn [bind].
    assert (KP : (k + 1) * (4 * c) <= p) by (unfold p; apply Z.mul_le_mono_nonneg_r; lia).
    assert (K2 : 0 <= k * (4 * c)) by (apply Z.mul_nonneg_nonneg; lia).
    assert (P4 : 4 * p = zlen d) by (unfold p; lia).
    destruct (put_slices d 4 p (k * (4 * c)) (4 * c) (fun line => zslice blk' (line * (4 * c)) (4 * c))) as (d' & Ed & Ld' & Pd & Qd); try lia.
    { intros i Hi. assert (0 <= i * (4 * c)) by (apply Z.mul_nonneg_nonneg; lia). assert ((i + 1) * (4 * c) <= 4 * (4 * c)) by (apply Z.mul_le_mono_nonneg_r; lia). rewrite zlen_zslice_gen, Lb', DC; lia. }
    assert (EE : foldM (fun dest line => put_slice dest ((bc * line + k) * (4 * c)) (zslice blk' (line * (4 * c)) (4 * c))) (zrange 0 4) d = Ok d').
    { rewrite <- Ed. apply foldM_ext. intros s i _. f_equal. unfold p. ring. }
    rewrite EE. cbn [bind]. eexists. split; [reflexivity|]. cbn beta iota. split; [exact Lb'|]. split; [lia|].
    intros x line col Hx Hl Hcol. destruct (Z.eq_dec x k) as [->|NE].
    + replace (line * p + (k * 4 + col) * c) with (line * p + k * (4 * c) + col * c) by ring.
      assert (0 <= line * p) by (apply Z.mul_nonneg_nonneg; lia).
      assert (0 <= col * c) by (apply Z.mul_nonneg_nonneg; lia).
      assert ((col + 1) * c <= 4 * c) by (apply Z.mul_le_mono_nonneg_r; lia).
      rewrite <- (zslice_zslice d' (line * p + k * (4 * c)) (4 * c) (col * c) c) by lia.
      rewrite Pd by lia. rewrite zslice_zslice by lia. replace (line * (4 * c) + col * c) with ((line * 4 + col) * c) by ring. apply Pb. lia.
    + rewrite <- P by lia.
      assert (0 <= line * p) by (apply Z.mul_nonneg_nonneg; lia).
      assert (X0 : 0 <= (x * 4 + col) * c) by (apply Z.mul_nonneg_nonneg; lia).
      assert (X1 : (x * 4 + col + 1) * c <= k * 4 * c) by (apply Z.mul_le_mono_nonneg_r; lia).
      assert (X2 : (line + 1) * p <= 4 * p) by (apply Z.mul_le_mono_nonneg_r; lia).
      apply zslice_same_get; [lia|]. intros j Hj. apply Qd; [lia|].
      intros i Hi. rewrite Z.mul_add_distr_r in X1. 
      assert (HI : i = line \/ i + 1 <= line \/ line + 1 <= i) by lia. destruct HI as [-> |[HI|HI]].
      * lia.
      * assert ((i + 1) * p <= line * p) by (apply Z.mul_le_mono_nonneg_r; lia). lia.
      * assert ((line + 1) * p <= i * p) by (apply Z.mul_le_mono_nonneg_r; lia). lia.
  - rewrite E. cbn [bind]. exists out. split; [reflexivity|]. split; [exact L|]. intros x line col Hx Hl Hc.
    rewrite <- P by lia. f_equal. unfold p. ring.
Qed.

Lemma total_dxt d : 0 <= dx_wb d -> 0 <= dx_hb d -> dx_wb d * 4 <= u32_max -> dx_hb d * 4 <= u32_max ->
  dx_wb d * dx_hb d * decoded_bytes_per_block (dx_v d) <= u64_max ->
  total_bytes (fst (dxt_dims d)) (snd (dxt_dims d)) (dxt_color_type (dx_v d)) = Ok (dx_wb d * dx_hb d * decoded_bytes_per_block (dx_v d)).
Proof.
  intros Hw Hh Bw Bh O. unfold total_bytes, dxt_dims. cbn [fst snd].
  assert (WH : 0 <= dx_wb d * dx_hb d) by (apply Z.mul_nonneg_nonneg; lia).
  assert (EQ : dx_wb d * 4 * (dx_hb d * 4) * ct_bytes (dxt_color_type (dx_v d)) = dx_wb d * dx_hb d * decoded_bytes_per_block (dx_v d)) by (destruct (dx_v d); cbn [dxt_color_type ct_bytes decoded_bytes_per_block]; ring).
  replace (u64_max <? dx_wb d * 4 * (dx_hb d * 4)) with false.
  - unfold Limits.sat_mul_u64. rewrite EQ. f_equal. lia.
  - assert (dx_wb d * 4 * (dx_hb d * 4) <= dx_wb d * dx_hb d * decoded_bytes_per_block (dx_v d)); [|lia].
    replace (dx_wb d * 4 * (dx_hb d * 4)) with (dx_wb d * dx_hb d * 16) by ring. apply Z.mul_le_mono_nonneg_l; [lia|]. destruct (dx_v d); cbn; lia.
Qed.

(** the whole image *)
Lemma image_ok d buf src rest : bytes src -> 0 <= dx_wb d -> 0 <= dx_hb d -> dx_wb d * 4 <= u32_max -> dx_hb d * 4 <= u32_max ->
  dx_wb d * dx_hb d * decoded_bytes_per_block (dx_v d) <= u64_max ->
  dx_r d = src ++ rest -> zlen src = dx_wb d * dx_hb d * encoded_bytes_per_block (dx_v d) ->
  zlen buf = dx_wb d * dx_hb d * decoded_bytes_per_block (dx_v d) ->
  exists out, dxt_read_image d buf = Ok out /\ zlen out = zlen buf /\
    forall x y, 0 <= x < dx_wb d * 4 -> 0 <= y < dx_hb d * 4 ->
      zslice out ((y * (dx_wb d * 4) + x) * chans (dx_v d)) (chans (dx_v d)) =
      texel (dx_v d) (zslice src ((y / 4 * dx_wb d + x / 4) * encoded_bytes_per_block (dx_v d)) (encoded_bytes_per_block (dx_v d))) (y mod 4 * 4 + x mod 4).
Proof.
  intros B Hw Hh Bw Bh O Er Ls Lb. unfold dxt_read_image. rewrite total_dxt by auto. cbn [bind]. rewrite Lb, Z.eqb_refl. cbn [negb].
  destruct (chans_eq (dx_v d)) as (DC & HC & HE).
  set (wb := dx_wb d) in *. set (hb := dx_hb d) in *. set (v := dx_v d) in *. set (enc := encoded_bytes_per_block v) in *. set (dec := decoded_bytes_per_block v) in *. set (c := chans v) in *.
  destruct (Z.eq_dec wb 0) as [W0|W0].
  { rewrite W0 in *. unfold scanline_bytes. fold v dec wb. rewrite W0. rewrite Z.mul_0_r. change (Z.max 1 0) with 1. rewrite !Z.mul_0_l. change ((0 + 1 - 1) / 1) with 0.
    cbn [zrange Z.to_nat seq map foldM bind]. exists buf. split; [reflexivity|]. split; [lia|]. intros. lia. }
  assert (SC : scanline_bytes d = wb * dec) by (unfold scanline_bytes; fold v dec wb; ring). rewrite SC.
  assert (WD : 0 < wb * dec) by (apply Z.mul_pos_pos; lia).
  replace (Z.max 1 (wb * dec)) with (wb * dec) by lia.
  assert (NCH : (wb * hb * dec + wb * dec - 1) / (wb * dec) = hb).
  { replace (wb * hb * dec + wb * dec - 1) with (hb * (wb * dec) + (wb * dec - 1)) by ring. rewrite Z.div_add_l by lia. rewrite Z.div_small by lia. lia. }
  rewrite NCH. clear NCH.
  set (n := wb * dec) in *. set (e := wb * enc) in *. assert (E0 : 0 <= e) by (apply Z.mul_nonneg_nonneg; lia).
  assert (LS2 : zlen src = hb * e) by (unfold e; rewrite Ls; ring). assert (LB2 : zlen buf = hb * n) by (unfold n; rewrite Lb; ring).
  match goal with |- context [foldM ?f (zrange 0 hb) ?s0] =>
    destruct (foldM_zrange_inv f (fun k st => let '(o, r) := st in zlen o = zlen buf /\ r = skipn (Z.to_nat (k * e)) src ++ rest /\
      forall j x line col, 0 <= j < k -> 0 <= x < wb -> 0 <= line < 4 -> 0 <= col < 4 ->
       zslice o (j * n + (line * (wb * 4) + x * 4 + col) * c) c = texel v (zslice src (j * e + x * enc) enc) (line * 4 + col)) 0 hb s0) as ([out r'] & E & L & _ & P) end; [lia| | |].
  - split; [reflexivity|]. split; [rewrite Er; reflexivity|intros; lia].
  - intros k [o r] Hk (L & R & P). rewrite Z.add_0_l.
    assert (K0 : 0 <= k * e) by (apply Z.mul_nonneg_nonneg; lia). assert (K1 : (k + 1) * e <= hb * e) by (apply Z.mul_le_mono_nonneg_r; lia).
    assert (N0 : 0 <= k * n) by (apply Z.mul_nonneg_nonneg; lia). assert (N1 : (k + 1) * n <= hb * n) by (apply Z.mul_le_mono_nonneg_r; lia).
    rewrite Z.mul_add_distr_r, Z.mul_1_l in K1, N1.
    unfold read_scanline. rewrite SC. fold n. assert (LZ : zlen (zslice o (k * n) n) = n) by (rewrite zlen_zslice_gen; lia). rewrite LZ, Z.eqb_refl. cbn [negb].
    fold v enc wb. replace (enc * wb) with e by (unfold e; ring).
    assert (SP : r = zslice src (k * e) e ++ (skipn (Z.to_nat ((k + 1) * e)) src ++ rest)).
    { rewrite R, app_assoc. f_equal. unfold zslice. replace (Z.to_nat ((k + 1) * e)) with (Z.to_nat (k * e) + Z.to_nat e)%nat by lia. rewrite <- skipn_skipn. symmetry. apply firstn_skipn. }
    rewrite SP. rewrite read_exact_app by (rewrite zlen_zslice_gen; lia). cbn [bind].
    destruct (row_ok v (zslice src (k * e) e) (zslice o (k * n) n) wb) as (b & Eb & Lb2 & Pb); [apply Forall_zslice; exact B|lia|rewrite zlen_zslice_gen; fold enc; fold e; lia|exact LZ|].
    rewrite Eb. cbn [bind]. rewrite LZ in Lb2. eexists. split; [reflexivity|]. cbn beta iota. split; [rewrite zlen_zsplice; lia|]. split; [reflexivity|].
    intros j x line col Hj Hx Hl Hc.
    (* the pixel lies inside chunk j *)
    assert (PX : 0 <= (line * (wb * 4) + x * 4 + col) * c /\ (line * (wb * 4) + x * 4 + col) * c + c <= n).
    { assert (A : 0 <= line * (wb * 4)) by (apply Z.mul_nonneg_nonneg; lia). assert (A1 : (line + 1) * (wb * 4) <= 4 * (wb * 4)) by (apply Z.mul_le_mono_nonneg_r; lia).
      split; [apply Z.mul_nonneg_nonneg; lia|]. replace ((line * (wb * 4) + x * 4 + col) * c + c) with ((line * (wb * 4) + x * 4 + col + 1) * c) by ring.
      unfold n. rewrite DC. replace (wb * (16 * c)) with (wb * 16 * c) by ring. apply Z.mul_le_mono_nonneg_r; lia. }
    set (px := (line * (wb * 4) + x * 4 + col) * c) in *.
    destruct (Z.eq_dec j k) as [->|NE].
    + assert (SS : zslice (zsplice o (k * n) b) (k * n) n = b) by (pose proof (zslice_zsplice_same o (k * n) b N0 ltac:(lia)) as Q; rewrite Lb2 in Q; exact Q).
      rewrite <- (zslice_zslice _ (k * n) n px c) by lia. rewrite SS. unfold px. rewrite Pb by lia. f_equal. fold enc.
      assert (0 <= x * enc) by (apply Z.mul_nonneg_nonneg; lia). assert ((x + 1) * enc <= wb * enc) by (apply Z.mul_le_mono_nonneg_r; lia).
      apply zslice_zslice; unfold e; lia.
    + assert (J1 : (j + 1) * n <= k * n) by (apply Z.mul_le_mono_nonneg_r; lia). rewrite Z.mul_add_distr_r in J1. assert (0 <= j * n) by (apply Z.mul_nonneg_nonneg; lia).
      rewrite zslice_zsplice_other by lia. unfold px. apply P; lia.
  - rewrite E. cbn [bind]. exists out. split; [reflexivity|]. split; [lia|]. intros x y Hx Hy.
    pose proof (Z.div_mod y 4 ltac:(lia)) as DY. pose proof (Z.mod_pos_bound y 4 ltac:(lia)). pose proof (Z.div_mod x 4 ltac:(lia)) as DX. pose proof (Z.mod_pos_bound x 4 ltac:(lia)).
    specialize (P (y / 4) (x / 4) (y mod 4) (x mod 4)).
    replace ((y / 4 * wb + x / 4) * enc) with (y / 4 * e + x / 4 * enc) by (unfold e; ring).
    rewrite <- P by lia. f_equal. unfold n. rewrite DC. rewrite DY at 1. rewrite DX at 1. ring.
Qed.

(** too little data *)
Lemma image_eof d buf : bytes (dx_r d) -> 0 <= dx_wb d -> 0 <= dx_hb d -> dx_wb d * 4 <= u32_max -> dx_hb d * 4 <= u32_max ->
  dx_wb d * dx_hb d * decoded_bytes_per_block (dx_v d) <= u64_max ->
  zlen (dx_r d) < dx_wb d * dx_hb d * encoded_bytes_per_block (dx_v d) ->
  zlen buf = dx_wb d * dx_hb d * decoded_bytes_per_block (dx_v d) -> dxt_read_image d buf = Err EEof.
Proof.
  intros B Hw Hh Bw Bh O Ls Lb. unfold dxt_read_image. rewrite total_dxt by auto. cbn [bind]. rewrite Lb, Z.eqb_refl. cbn [negb].
  destruct (chans_eq (dx_v d)) as (DC & HC & HE). pose proof (zlen_nonneg (dx_r d)) as RN.
  set (wb := dx_wb d) in *. set (hb := dx_hb d) in *. set (v := dx_v d) in *. set (enc := encoded_bytes_per_block v) in *. set (dec := decoded_bytes_per_block v) in *. set (c := chans v) in *.
  destruct (Z.eq_dec wb 0) as [W0|W0]; [rewrite W0 in Ls; lia|].
  assert (SC : scanline_bytes d = wb * dec) by (unfold scanline_bytes; fold v dec wb; ring). rewrite SC.
  assert (WD : 0 < wb * dec) by (apply Z.mul_pos_pos; lia).
  replace (Z.max 1 (wb * dec)) with (wb * dec) by lia.
  assert (NCH : (wb * hb * dec + wb * dec - 1) / (wb * dec) = hb).
  { replace (wb * hb * dec + wb * dec - 1) with (hb * (wb * dec) + (wb * dec - 1)) by ring. rewrite Z.div_add_l by lia. rewrite Z.div_small by lia. lia. }
  rewrite NCH. clear NCH. set (n := wb * dec) in *. set (e := wb * enc) in *. assert (E0 : 0 <= e) by (apply Z.mul_nonneg_nonneg; lia).
  assert (LB2 : zlen buf = hb * n) by (unfold n; rewrite Lb; ring).
  match goal with |- context [foldM ?f _ _] => set (F := f) end.
  assert (K : forall l o r, Forall (fun j => 0 <= j < hb) l -> bytes r -> zlen o = zlen buf -> zlen r < zlen l * e -> foldM F l (o, r) = Err EEof).
  { induction l as [|j l IH]; intros o r Fl Br Lo Lr; [change (zlen (@nil Z)) with 0 in Lr; pose proof (zlen_nonneg r); lia|].
    inversion Fl as [|? ? Hj Fl']; subst. cbn [foldM]. unfold F at 1.
    assert (N0 : 0 <= j * n) by (apply Z.mul_nonneg_nonneg; lia). assert (N1 : (j + 1) * n <= hb * n) by (apply Z.mul_le_mono_nonneg_r; lia). rewrite Z.mul_add_distr_r, Z.mul_1_l in N1.
    unfold read_scanline. rewrite SC. assert (LZ : zlen (zslice o (j * n) n) = n) by (rewrite zlen_zslice_gen; lia). rewrite LZ, Z.eqb_refl. cbn [negb].
    fold v enc wb. replace (enc * wb) with e by (unfold e; ring). unfold read_exact. destruct (Z.ltb_spec (zlen r) e) as [Q|Q]; [reflexivity|]. cbn [bind].
    destruct (row_ok v (firstn (Z.to_nat e) r) (zslice o (j * n) n) wb) as (b & Eb & Lb2 & _); [apply Forall_firstn'; exact Br|lia|rewrite zlen_firstn; fold enc; fold e; lia|exact LZ|].
    rewrite Eb. cbn [bind]. rewrite LZ in Lb2. apply IH; auto; [apply Forall_skipn'; exact Br|rewrite zlen_zsplice; lia|].
    rewrite zlen_skipn. rewrite zlen_cons, Z.mul_add_distr_r in Lr. lia. }
  rewrite (K (zrange 0 hb) buf (dx_r d)); auto.
  - apply Forall_forall. intros j Hj. apply In_zrange in Hj. lia.
  - rewrite zlen_zrange, Z.max_r by lia. unfold e. replace (hb * (wb * enc)) with (wb * hb * enc) by ring. exact Ls.
Qed.

(** ** DDS *)
Definition dds_ok (d : dxtd) : Prop := bytes (dx_r d) /\ 0 <= dx_wb d /\ 0 <= dx_hb d /\ dx_wb d * 4 <= u32_max /\ dx_hb d * 4 <= u32_max /\
  dx_wb d * dx_hb d * decoded_bytes_per_block (dx_v d) <= u64_max.
Lemma dds_header_post r : bytes r -> post (dds_header r) (fun '(w, h, _, f, r') => is_u32 w /\ is_u32 h /\ bytes f /\ bytes r').
Proof.
  intros B. unfold dds_header, dds_pixel_format. prd. apply post_if; intros _; [apply post_err; discriminate|].
  prd. apply post_if; intros _; [apply post_err; discriminate|]. do 5 prd. pex.
  eapply post_bind with (Q := fun '(_, f, r) => bytes f /\ bytes r).
  - prd. apply post_if; intros _; [apply post_err; discriminate|]. prd. pex. do 5 prd. apply post_ok. auto.
  - intros [[pf fc] rq] [Bf Bq]. do 2 prd. pex. apply post_ok. auto.
Qed.
Lemma dds_dx10_post r : bytes r -> post (dds_dx10 r) (fun '(f, r') => bytes r').
Proof.
  intros B. unfold dds_dx10. do 5 prd. repeat (apply post_if; intros _; [apply post_err; discriminate|]). apply post_ok. assumption.
Qed.
Lemma dds_new_post file : bytes file -> post (dds_new file) dds_ok.
Proof.
  intros B. unfold dds_new. pex. apply post_if; intros _; [apply post_err; discriminate|].
  eapply post_bind; [apply dds_header_post; assumption|]. intros [[[[w h] pf] fc] rq] (Hw & Hh & _ & Bq).
  apply post_if; intros _; [|apply post_err; discriminate].
  eapply post_bind with (Q := fun '(v, r) => bytes r).
  { repeat (apply post_if; intros _; [apply post_ok; assumption|]). apply post_if; intros _; [|apply post_err; discriminate].
    eapply post_bind; [apply dds_dx10_post; assumption|]. intros [f rz] Bz. repeat (apply post_if; intros _; [apply post_ok; assumption|]). apply post_err. discriminate. }
  intros [vv rz] Bz. unfold is_u32, u32_max in *.
  assert (WH : 0 <= w * h <= 4294967295 * 4294967295) by (split; [apply Z.mul_nonneg_nonneg; lia|apply Z.mul_le_mono_nonneg; lia]).
  unfold check_dimension_overflow. replace (u64_max <? w * h) with false by (unfold u64_max; lia).
  replace (ct_bytes (dxt_color_type vv) =? 0) with false by (destruct vv; reflexivity). cbn [bind].
  destruct (Z.ltb_spec (u64_max / ct_bytes (dxt_color_type vv)) (w * h)) as [O|O]; [apply post_err; discriminate|].
  unfold dxt_new. destruct (negb (w mod 4 =? 0) || negb (h mod 4 =? 0)) eqn:EM; [apply post_err; discriminate|]. apply post_ok.
  unfold dds_ok. cbn [dx_r dx_wb dx_hb dx_v].
  pose proof (Z.div_mod w 4 ltac:(lia)) as DW. pose proof (Z.div_mod h 4 ltac:(lia)) as DH.
  assert (W4 : w / 4 * 4 = w) by lia. assert (H4 : h / 4 * 4 = h) by lia.
  split; [assumption|]. split; [apply Z.div_pos; lia|]. split; [apply Z.div_pos; lia|]. split; [unfold u32_max; lia|]. split; [unfold u32_max; lia|].
  assert (BB : w * h * ct_bytes (dxt_color_type vv) <= u64_max).
  { pose proof (Z.mul_div_le u64_max (ct_bytes (dxt_color_type vv)) ltac:(destruct vv; cbn; lia)) as MD.
    assert (w * h * ct_bytes (dxt_color_type vv) <= u64_max / ct_bytes (dxt_color_type vv) * ct_bytes (dxt_color_type vv)) by (apply Z.mul_le_mono_nonneg_r; [destruct vv; cbn; lia|exact O]). lia. }
  replace (w / 4 * (h / 4) * decoded_bytes_per_block vv) with (w / 4 * 4 * (h / 4 * 4) * ct_bytes (dxt_color_type vv)) by (destruct vv; cbn [decoded_bytes_per_block dxt_color_type ct_bytes]; ring).
  rewrite W4, H4. exact BB.
Qed.
