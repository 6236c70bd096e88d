(** Proofs about bit expansion. *)
From Verif Require Import Base BaseLemmas ListLemmas ListMore BitLemmas Bits.
Local Open Scope Z_scope.

(** the d-bit field [k] (most significant first) of a byte sequence: spec *)
Definition field (d : Z) (buf : list Z) (k : Z) : Z :=
  match zget buf (k * d / 8) with
  | Some v => v / 2 ^ (8 - d - (k * d) mod 8) mod 2 ^ d
  | None => 0
  end.

Lemma extract v d s : 0 <= v <= 255 -> 0 < d -> 0 <= s -> s + d <= 8 ->
  Z.shiftr (Z.land v (wrap_u8 (Z.shiftl (Z.shiftl 1 d - 1) s))) s = v / 2 ^ s mod 2 ^ d.
Proof.
  intros Hv Hd Hs Hsd.
  assert (P : 2 ^ s * 2 ^ d <= 256) by (rewrite <- Z.pow_add_r by lia; change 256 with (2 ^ 8); apply Z.pow_le_mono_r; lia).
  assert (0 < 2 ^ s) by (apply Z.pow_pos_nonneg; lia). assert (0 < 2 ^ d) by (apply Z.pow_pos_nonneg; lia).
  rewrite !Z.shiftl_mul_pow2 by lia. rewrite Z.mul_1_l.
  unfold wrap_u8. rewrite Z.mod_small by nia.
  rewrite <- Z.shiftl_mul_pow2 by lia. rewrite Z.shiftr_land.
  rewrite Z.shiftr_shiftl_l by lia. rewrite Z.sub_diag, Z.shiftl_0_r.
  replace (2 ^ d - 1) with (Z.ones d) by (rewrite Z.ones_equiv; lia). rewrite Z.land_ones by lia.
  rewrite Z.shiftr_div_pow2 by lia. reflexivity.
Qed.

(** ** expand_bits *)
Definition dok (d : Z) : Prop := d = 1 \/ d = 2 \/ d = 4.
Definition row_len d w := w + (if (w * d) mod 8 =? 0 then 0 else (8 - (w * d) mod 8) / d).
Ltac dcase H := destruct H as [-> |[-> | ->]]; change (8 / 1) with 8 in *; change (8 / 2) with 4 in *; change (8 / 4) with 2 in *.
Lemma row_len_eq d w : dok d -> 0 < w -> row_len d w = (w * d + 7) / 8 * (8 / d).
Proof. intros Hd Hw. unfold row_len. dcase Hd; match goal with |- context [if ?b then _ else _] => destruct b eqn:? end; zdm. Qed.
Definition val d (v s : Z) : Z := v / 2 ^ (8 - d * s) mod 2 ^ d * (255 / (2 ^ d - 1)).

Lemma val_eq d v s : dok d -> 0 <= v <= 255 -> 1 <= s <= 8 / d ->
  wrap_u8 (Z.shiftr (Z.land v (wrap_u8 (Z.shiftl (Z.shiftl 1 d - 1) (8 - d * s)))) (8 - d * s) * (255 / (Z.shiftl 1 d - 1))) = val d v s.
Proof.
  intros Hd Hv Hs. rewrite extract; [|lia|dcase Hd; lia|dcase Hd; lia|dcase Hd; lia].
  rewrite Z.shiftl_1_l. unfold val, wrap_u8. apply Z.mod_small.
  pose proof (Z.mod_pos_bound (v / 2 ^ (8 - d * s)) (2 ^ d) ltac:(apply Z.pow_pos_nonneg; dcase Hd; lia)) as B.
  dcase Hd.
  - change (2 ^ 1) with 2 in *. change (255 / (2 - 1)) with 255. lia.
  - change (2 ^ 2) with 4 in *. change (255 / (4 - 1)) with 85. lia.
  - change (2 ^ 4) with 16 in *. change (255 / (16 - 1)) with 17. lia.
Qed.

(** all fields in order, those beyond the row width dropped *)
Definition kept d w (buf : list Z) (k : Z) : list Z :=
  if k mod row_len d w <? w then [field d buf k * (255 / (2 ^ d - 1))] else [].

Lemma field_byte d buf n v s : dok d -> 0 <= n -> zget buf n = Some v -> 1 <= s <= 8 / d ->
  field d buf (n * (8 / d) + (s - 1)) * (255 / (2 ^ d - 1)) = val d v s.
Proof.
  intros Hd Hn G Hs. unfold field, val.
  assert (E1 : (n * (8 / d) + (s - 1)) * d / 8 = n) by (dcase Hd; zdm).
  assert (E2 : 8 - d - ((n * (8 / d) + (s - 1)) * d) mod 8 = 8 - d * s) by (dcase Hd; zdm).
  rewrite E1, G, E2. reflexivity.
Qed.

Lemma expand_bits_flat d w buf : dok d -> 0 < w -> w * d + 7 <= u32_max -> bytes buf ->
  expand_bits d w buf = Ok (flat_map (kept d w buf) (zrange 0 (zlen buf * (8 / d)))).
Proof.
  intros Hd Hw Hwd B. unfold expand_bits.
  replace ((d <=? 0) || (8 <=? d)) with false by (dcase Hd; lia).
  replace (u32_max <? w * d) with false by lia. fold (row_len d w).
  assert (RL : 0 < row_len d w <= u32_max).
  { rewrite row_len_eq by auto. unfold u32_max in *. dcase Hd; zdm. }
  replace (u32_max <? row_len d w) with false by lia.
  set (step := fun '(i, p) v => foldM _ _ (i, p)).
  assert (M0 : 0 < 8 / d) by (dcase Hd; lia). set (m := 8 / d) in *.
  assert (X : forall post pre, buf = pre ++ post ->
    foldM step post (zlen pre * m, flat_map (kept d w buf) (zrange 0 (zlen pre * m))) =
    Ok (zlen buf * m, flat_map (kept d w buf) (zrange 0 (zlen buf * m)))).
  { induction post as [|v post IH]; intros pre E.
    - rewrite app_nil_r in E. subst. reflexivity.
    - cbn [foldM]. assert (HV : 0 <= v <= 255).
      { unfold bytes in B. rewrite Forall_forall in B. apply (B v). rewrite E. apply in_or_app. right. left. auto. }
      assert (GV : zget buf (zlen pre) = Some v) by (rewrite E; apply zget_app_mid).
      pose proof (zlen_nonneg pre).
      assert (P0 : 0 <= zlen pre * m) by (apply Z.mul_nonneg_nonneg; lia).
      assert (ST : step (zlen pre * m, flat_map (kept d w buf) (zrange 0 (zlen pre * m))) v =
        Ok (zlen pre * m + m, flat_map (kept d w buf) (zrange 0 (zlen pre * m + m)))).
      { unfold step.
        match goal with |- foldM ?f _ _ = _ => destruct (foldM_zrange_inv f (fun s st => st = (zlen pre * m + s, flat_map (kept d w buf) (zrange 0 (zlen pre * m + s)))) 1 m
          (zlen pre * m, flat_map (kept d w buf) (zrange 0 (zlen pre * m)))) as (st & -> & ->); auto end.
        - lia.
        - rewrite Z.add_0_r. reflexivity.
        - intros k st Hk ->. replace (row_len d w =? 0) with false by lia. eexists. split; [reflexivity|].
          rewrite Z.add_assoc. rewrite zrange_snoc by lia. rewrite flat_map_app. cbn [flat_map]. rewrite app_nil_r, Z.add_0_l.
          unfold kept at 4. f_equal.
          destruct (_ <? w); [|rewrite app_nil_r; reflexivity]. f_equal. f_equal.
          rewrite val_eq by (auto; unfold m in *; lia).
          rewrite <- (field_byte d buf (zlen pre) v (1 + k)) by (auto; unfold m in *; lia). fold m. f_equal. f_equal. lia. }
      rewrite ST. cbn [bind]. rewrite <- (IH (pre ++ [v])); [|rewrite <- app_assoc; exact E].
      rewrite zlen_app. change (zlen [v]) with 1. rewrite Z.mul_add_distr_r, Z.mul_1_l. reflexivity. }
  specialize (X buf [] eq_refl). change (zlen (@nil Z) * m) with 0 in X. change (flat_map (kept d w buf) (zrange 0 0)) with (@nil Z) in X.
  rewrite X. reflexivity.
Qed.

Lemma flat_map_single {A B} (f : A -> B) l : flat_map (fun a => [f a]) l = map f l.
Proof. induction l; cbn; congruence. Qed.
Lemma expand_bits_rows d w h buf : dok d -> 0 < w -> w * d + 7 <= u32_max -> bytes buf -> 0 <= h ->
  zlen buf = h * ((w * d + 7) / 8) ->
  expand_bits d w buf = Ok (map (fun c => field d buf (snd c * row_len d w + fst c) * (255 / (2 ^ d - 1))) (coords w h)).
Proof.
  intros Hd Hw Hwd B Hh L. rewrite expand_bits_flat by auto. f_equal.
  replace (zlen buf * (8 / d)) with (h * row_len d w) by (rewrite row_len_eq, L by auto; ring).
  assert (R0 : w <= row_len d w) by (unfold row_len; destruct (_ =? 0); [lia|dcase Hd; zdm]).
  clear L. set (q := row_len d w) in *.
  assert (X : forall n, flat_map (kept d w buf) (zrange 0 (Z.of_nat n * q)) =
    map (fun c => field d buf (snd c * q + fst c) * (255 / (2 ^ d - 1))) (coords w (Z.of_nat n))).
  { induction n as [|n IH]; [reflexivity|].
    replace (Z.of_nat (S n)) with (Z.of_nat n + 1) by lia. rewrite coords_snoc by lia. rewrite map_app, <- IH.
    rewrite Z.mul_add_distr_r, Z.mul_1_l. assert (0 <= Z.of_nat n * q) by (apply Z.mul_nonneg_nonneg; lia).
    rewrite zrange_app by lia. rewrite flat_map_app. f_equal. rewrite Z.add_0_l.
    replace q with (w + (q - w)) at 2 by lia. rewrite zrange_app by lia. rewrite flat_map_app.
    transitivity (map (fun k => field d buf k * (255 / (2 ^ d - 1))) (zrange (Z.of_nat n * q) w) ++ []).
    - f_equal.
      + rewrite <- flat_map_single. rewrite !flat_map_concat_map. f_equal. apply map_ext_in. intros k Hk. apply In_zrange in Hk.
        unfold kept. fold q. replace k with ((k - Z.of_nat n * q) + Z.of_nat n * q) at 1 by lia. rewrite Z.mod_add by lia.
        rewrite Z.mod_small by lia. replace (_ <? w) with true by lia. reflexivity.
      + rewrite flat_map_concat_map. assert (F : forall l, Forall (fun k => kept d w buf k = []) l -> concat (map (kept d w buf) l) = []).
        { intros l. induction 1 as [|k l E F IHl]; cbn; [reflexivity|]. rewrite E, IHl. reflexivity. }
        apply F. apply Forall_forall. intros k Hk. apply In_zrange in Hk.
        unfold kept. fold q. replace k with ((k - Z.of_nat n * q) + Z.of_nat n * q) at 1 by lia. rewrite Z.mod_add by lia.
        rewrite Z.mod_small by lia. replace (_ <? w) with false by lia. reflexivity.
    - rewrite app_nil_r, map_map. cbn [fst snd]. rewrite map_zrange_shift. reflexivity. }
  specialize (X (Z.to_nat h)). rewrite Z2Nat.id in X by lia. exact X.
Qed.

(** ** expand_packed *)
Definition dok8 (d : Z) : Prop := d = 1 \/ d = 2 \/ d = 4 \/ d = 8.
Lemma rev_zrange_snoc a n : 0 <= n -> rev (zrange a (n + 1)) = (a + n) :: rev (zrange a n).
Proof. intros H. rewrite zrange_snoc, rev_app_distr by lia. reflexivity. Qed.
Lemma positions_i d m E : 0 < m -> 0 <= E ->
  flat_map (fun idx => map (fun k => (k * d, idx)) (zrange 0 m)) (rev (zrange 0 E)) =
  map (fun t => ((t mod m) * d, E - 1 - t / m)) (zrange 0 (E * m)).
Proof.
  intros Hm HE. rewrite <- (Z2Nat.id E) by lia. generalize (Z.to_nat E) as n. clear E HE.
  induction n as [|n IH]; [reflexivity|]. replace (Z.of_nat (S n)) with (Z.of_nat n + 1) by lia.
  rewrite rev_zrange_snoc by lia. cbn [flat_map]. rewrite IH.
  rewrite Z.mul_add_distr_r, Z.mul_1_l, (Z.add_comm _ m). rewrite zrange_app by (try apply Z.mul_nonneg_nonneg; lia).
  rewrite map_app. f_equal.
  - apply map_ext_in. intros k Hk. apply In_zrange in Hk. rewrite Z.mod_small, Z.div_small by lia. f_equal. lia.
  - rewrite (map_zrange_shift _ (0 + m)). apply map_ext_in. intros t Ht. apply In_zrange in Ht.
    replace (0 + m + t) with (t + 1 * m) by lia. rewrite Z.mod_add, Z.div_add by lia. f_equal. lia.
Qed.
Lemma combine_zrange {A B} (f : Z -> A) (g : Z -> B) n k : 0 <= k <= n ->
  combine (map f (zrange 0 n)) (map g (zrange 0 k)) = map (fun t => (f t, g t)) (zrange 0 k).
Proof.
  intros H. replace n with (k + (n - k)) by lia. rewrite zrange_app by lia. rewrite map_app. generalize (map f (zrange (0 + k) (n - k))) as r.
  intros r. generalize (zrange 0 k) as l. induction l as [|a l IH]; cbn; [destruct r; reflexivity|]. f_equal. exact IH.
Qed.
Lemma zget_zsplice_out {A} (l : list A) off new i : 0 <= off -> off + zlen new <= zlen l -> i < off \/ off + zlen new <= i ->
  zget (zsplice l off new) i = zget l i.
Proof.
  intros H1 H2 H3. rewrite zget_zsplice by lia. replace ((off <=? i) && (i <? off + zlen new)) with false by lia. reflexivity.
Qed.
Lemma zslice_zsplice_same {A} (l : list A) off new : 0 <= off -> off + zlen new <= zlen l ->
  zslice (zsplice l off new) off (zlen new) = new.
Proof.
  intros H1 H2. apply zget_ext'. intros i Hi. rewrite zget_zslice_gen by lia.
  destruct (Z.ltb_spec i (zlen new)).
  - replace (0 <=? i) with true by lia. cbn [andb]. rewrite zget_zsplice by lia.
    replace ((off <=? off + i) && (off + i <? off + zlen new)) with true by lia. f_equal. lia.
  - rewrite andb_false_r. symmetry. apply zget_none. lia.
Qed.
Lemma zslice_zsplice_other {A} (l : list A) off new a n : 0 <= off -> off + zlen new <= zlen l -> 0 <= a ->
  a + n <= off \/ off + zlen new <= a -> zslice (zsplice l off new) a n = zslice l a n.
Proof.
  intros H1 H2 Ha H3. apply zget_ext'. intros i Hi. rewrite !zget_zslice_gen by lia.
  destruct (Z.ltb_spec i n); rewrite ?andb_false_r; auto. destruct (0 <=? i); auto. cbn [andb].
  apply zget_zsplice_out; lia.
Qed.

Lemma dok8_m d : dok8 d -> 0 < d <= 8 /\ 0 < 8 / d /\ d * (8 / d) = 8.
Proof. intros [-> |[-> |[-> | ->]]]; cbn; lia. Qed.
Lemma packed_n d n : dok8 d -> 1 <= n -> (n * d) mod 8 = 0 -> n = n * d / 8 * (8 / d) /\ 0 < n * d / 8.
Proof.
  intros Hd Hn Hm. destruct (dok8_m d Hd) as (D0 & M0 & DM). set (m := 8 / d) in *.
  pose proof (Z.div_mod (n * d) 8 ltac:(lia)) as D. rewrite Hm in D. set (E := n * d / 8) in *.
  assert (Q : n * d = E * m * d) by (transitivity (d * m * E); [rewrite DM; lia|ring]).
  apply Z.mul_reg_r in Q; [|lia]. split; [exact Q|].
  destruct (Z.ltb_spec 0 E); auto. assert (E * m <= 0 * m) by (apply Z.mul_le_mono_nonneg_r; lia). lia.
Qed.
Lemma packed_idx d E t : dok8 d -> 0 <= t < E * (8 / d) -> let k := E * (8 / d) - 1 - t in
  E - 1 - t / (8 / d) = k * d / 8 /\ (t mod (8 / d)) * d = 8 - d - (k * d) mod 8.
Proof.
  intros Hd Ht k. destruct (dok8_m d Hd) as (D0 & M0 & DM). set (m := 8 / d) in *.
  pose proof (Z.div_mod t m ltac:(lia)) as T. pose proof (Z.mod_pos_bound t m ltac:(lia)) as TB.
  assert (K : k = (E - 1 - t / m) * m + (m - 1 - t mod m)) by (unfold k; lia).
  assert (K1 : k / m = E - 1 - t / m) by (symmetry; apply (Z.div_unique_pos k m _ (m - 1 - t mod m)); lia).
  assert (K2 : k mod m = m - 1 - t mod m) by (symmetry; apply (Z.mod_unique_pos k m (E - 1 - t / m)); lia).
  replace 8 with (m * d) at 1 by lia. rewrite Z.div_mul_cancel_r by lia. split; [lia|].
  replace ((k * d) mod 8) with (k mod m * d); [rewrite K2; lia|].
  replace 8 with (m * d) by lia. rewrite Z.mul_mod_distr_r by lia. reflexivity.
Qed.

Lemma expand_packed_ok c d n buf func f : dok8 d -> 1 <= c -> 1 <= n -> (n * d) mod 8 = 0 -> zlen buf = c * n -> bytes buf ->
  (forall k, 1 <= k < n -> func (field d buf k) = Ok (f (field d buf k)) /\ zlen (f (field d buf k)) = c) ->
  exists out, expand_packed buf c d func = Ok out /\ zlen out = zlen buf /\ zslice out 0 c = zslice buf 0 c /\
    forall k, 1 <= k < n -> zslice out (c * k) c = f (field d buf k).
Proof.
  intros Hd Hc Hn Hm L B Hf. set (m := 8 / d). set (E := n * d / 8).
  assert (M : 0 < m /\ n = E * m /\ 0 < E).
  { destruct (packed_n d n Hd Hn Hm). destruct (dok8_m d Hd) as (_ & ? & _). auto. }
  destruct M as (M0 & ME & E0).
  assert (PP : packed_positions c d (c * n) = map (fun t => ((t mod m) * d, E - 1 - t / m, (t + 1) * c)) (zrange 0 (n - 1))).
  { unfold packed_positions. replace (c * n / c) with n by (rewrite Z.mul_comm, Z.div_mul; lia).
    rewrite Hm. cbn [Z.eqb]. change (Z.to_nat 0) with O. cbn [skipn]. rewrite Z.add_0_r. fold E. fold m.
    rewrite positions_i by lia. rewrite <- ME.
    replace ((c * n - 1) / c) with (n - 1).
    2:{ symmetry. rewrite Z.mul_comm. replace (n * c - 1) with ((c - 1) + (n - 1) * c) by ring. rewrite Z.div_add by lia. rewrite Z.div_small; lia. }
    rewrite (map_zrange_shift _ 1). rewrite combine_zrange by lia. apply map_ext. intros t. f_equal. ring. }
  unfold expand_packed. replace ((c =? 0) || (d =? 0)) with false by (destruct Hd as [-> |[-> |[-> | ->]]]; lia).
  rewrite L, PP. rewrite foldM_map.
  match goal with |- exists out, foldM ?g _ _ = _ /\ _ => 
  destruct (foldM_zrange_inv g (fun t s => zlen s = c * n /\ (forall p, p < c * (n - t) -> zget s p = zget buf p) /\
    forall k, n - t <= k < n -> zslice s (c * k) c = f (field d buf k)) 0 (n - 1) buf) as (out & E1 & L1 & P1 & Q1) end.
  - lia.
  - split; [exact L|]. split; [auto|]. intros; lia.
  - intros t s Ht (Ls & Ps & Qs). rewrite Z.add_0_l. set (k := n - 1 - t).
    destruct (dok8_m d Hd) as (D0 & _ & DM). fold m in DM.
    assert (IX : E - 1 - t / m = k * d / 8 /\ (t mod m) * d = 8 - d - (k * d) mod 8 /\ 0 <= k * d / 8 <= k).
    { destruct (packed_idx d E t Hd) as (I1 & I2); [fold m; lia|]. fold m in I1, I2. rewrite <- ME in I1, I2. fold k in I1, I2.
      split; [exact I1|]. split; [exact I2|]. split; [apply Z.div_pos; [apply Z.mul_nonneg_nonneg; lia|lia]|].
      apply Z.div_le_upper_bound; [lia|]. rewrite (Z.mul_comm k). apply Z.mul_le_mono_nonneg_r; lia. }
    destruct IX as (IX & SH & KB). rewrite IX, SH.
    assert (CK : k + 1 <= c * (k + 1)) by (assert (1 * (k + 1) <= c * (k + 1)) by (apply Z.mul_le_mono_nonneg_r; lia); lia).
    assert (CN : c * (k + 1) <= c * n) by (apply Z.mul_le_mono_nonneg_l; lia).
    assert (CK0 : 0 <= c * k) by (apply Z.mul_nonneg_nonneg; lia).
    rewrite Ps by (replace (n - t) with (k + 1) by lia; lia).
    destruct (zget_some buf (k * d / 8)) as (v & GV); [lia|]. rewrite GV.
    assert (HV : 0 <= v <= 255) by (apply zget_In in GV; unfold bytes in B; rewrite Forall_forall in B; apply (B v GV)).
    assert (S1 : 0 <= t mod m <= m - 1) by (pose proof (Z.mod_pos_bound t m M0); lia).
    assert (S2 : 0 <= t mod m * d <= (m - 1) * d) by (split; [apply Z.mul_nonneg_nonneg; lia|apply Z.mul_le_mono_nonneg_r; lia]).
    rewrite extract by lia.
    destruct (Hf k ltac:(lia)) as (F1 & F2). unfold field in F1, F2 |- *. rewrite GV in F1, F2. rewrite F1. cbn [bind].
    eexists. split; [reflexivity|]. replace (c * n - (t + 1) * c) with (c * k) by (unfold k; ring).
    clear IX SH KB S1 S2 DM ME PP E0 M0 HV Hm. clearbody E m.
    assert (SB : c * k + c <= zlen s) by lia.
    split; [|split].
    + rewrite zlen_zsplice by lia. exact Ls.
    + intros p Hp. replace (n - (t + 1)) with k in Hp by lia. rewrite zget_zsplice_out by lia. apply Ps.
      replace (n - t) with (k + 1) by lia. lia.
    + intros k' Hk'. destruct (Z.eq_dec k' k) as [->|NE].
      * rewrite GV. pose proof (zslice_zsplice_same s (c * k) (f ((v / 2 ^ (8 - d - (k * d) mod 8)) mod 2 ^ d))) as X.
        rewrite F2 in X. apply X; lia.
      * assert (c * (k + 1) <= c * k') by (apply Z.mul_le_mono_nonneg_l; lia).
        rewrite zslice_zsplice_other by lia. apply Qs. lia.
  - exists out. split; [exact E1|]. split; [lia|]. split.
    + apply zget_ext'. intros i Hi. rewrite !zget_zslice_gen by lia. destruct (Z.ltb_spec i c); rewrite ?andb_false_r; auto.
      destruct (0 <=? i); auto. cbn [andb]. apply P1. replace (n - (n - 1)) with 1 by lia. lia.
    + intros k Hk. apply Q1. lia.
Qed.
