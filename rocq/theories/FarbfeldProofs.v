(** Proofs about the farbfeld codec. *)
From Verif Require Import Base BaseLemmas ListLemmas ListMore ColorType Limits LoadRect LoadRectProofs Farbfeld FarbfeldSpec.
Local Open Scope Z_scope.

Lemma zlen_flat2 (f : Z -> list Z) l : (forall v, zlen (f v) = 2) -> zlen (flat_map f l) = 2 * zlen l.
Proof. intros H. induction l; [reflexivity|]. cbn [flat_map]. rewrite zlen_app, H, IHl, zlen_cons. lia. Qed.
Lemma native_len big l : zlen (native big l) = 2 * zlen l.
Proof. apply zlen_flat2. intros. unfold native16. destruct big; reflexivity. Qed.
Lemma u16s_len l : zlen (flat_map u16_be l) = 2 * zlen l.
Proof. apply zlen_flat2. reflexivity. Qed.
Lemma skipn_flat2 (f : Z -> list Z) l j : (forall v, zlen (f v) = 2) -> 0 <= j ->
  skipn (Z.to_nat (2 * j)) (flat_map f l) = flat_map f (skipn (Z.to_nat j) l).
Proof.
  intros H Hj. replace (Z.to_nat (2 * j)) with (2 * Z.to_nat j)%nat by lia. clear Hj. generalize (Z.to_nat j) as n. clear j.
  revert l. intros l n. revert l. induction n as [|n IH]; intros l.
  - reflexivity.
  - destruct l as [|a l]; [cbn; destruct (n + S (n + 0))%nat; reflexivity|]. cbn [flat_map skipn].
    rewrite skipn_app. specialize (H a). unfold zlen in H. assert (length (f a) = 2)%nat as -> by lia.
    rewrite skipn_all2 by lia. cbn [app]. replace (2 * S n - 2)%nat with (2 * n)%nat by lia. apply IH.
Qed.
Lemma skipn_cons_zget (l : list Z) j v : 0 <= j -> zget l j = Some v -> skipn (Z.to_nat j) l = v :: skipn (Z.to_nat (j + 1)) l.
Proof.
  intros Hj G. pose proof (zget_range _ _ _ G). replace (Z.to_nat (j + 1)) with (Z.to_nat j + 1)%nat by lia. rewrite <- skipn_skipn.
  assert (G2 : zget (skipn (Z.to_nat j) l) 0 = Some v) by (rewrite zget_skipn by lia; rewrite <- G; f_equal; lia).
  destruct (skipn (Z.to_nat j) l) as [|a r]; [discriminate|]. cbn in G2. apply Some_inj in G2. subst a. reflexivity.
Qed.

Section FF.
Variable big : bool.
Variables (w h base : Z) (pre samples rest : list Z).
Notation file := (pre ++ flat_map u16_be samples ++ rest).
Notation N := (native big samples).
Definition ff_at (s : ff) (k : Z) : Prop :=
  ff_w s = w /\ ff_h s = h /\ ff_file s = file /\ ff_off s = k /\ 0 <= k <= 2 * zlen samples /\
  ((k mod 2 = 0 /\ ff_pos s = base + k /\ ff_cache s = None) \/
   (k mod 2 = 1 /\ ff_pos s = base + k + 1 /\ ff_cache s = zget N k)).
Hypothesis Hbase : zlen pre = base.

Lemma skip_file j : 0 <= j -> 
  skipn (Z.to_nat (base + 2 * j)) file = flat_map u16_be (skipn (Z.to_nat j) samples) ++ skipn (Z.to_nat (2 * j) - length (flat_map u16_be samples)) rest.
Proof using Hbase.
  intros Hj. rewrite skipn_app. rewrite skipn_all2 by (unfold zlen in Hbase; lia). cbn [app].
  replace (Z.to_nat (base + 2 * j) - length pre)%nat with (Z.to_nat (2 * j)) by (unfold zlen in Hbase; lia).
  rewrite skipn_app. rewrite skipn_flat2 by (auto; lia). reflexivity.
Qed.

Lemma consume_at s j v : ff_file s = file -> ff_pos s = base + 2 * j -> 0 <= j -> zget samples j = Some v ->
  consume_channel big s = Ok (native16 big v, mkFf (ff_w s) (ff_h s) file (base + 2 * (j + 1)) (ff_off s) (ff_cache s)).
Proof using Hbase.
  intros F P Hj G. unfold consume_channel. rewrite F, P, skip_file by lia. rewrite (skipn_cons_zget samples j v) by auto.
  cbn [flat_map]. rewrite <- app_assoc. rewrite read_exact_app by reflexivity. cbn [bind u16_be].
  replace (base + 2 * j + 2) with (base + 2 * (j + 1)) by lia. reflexivity.
Qed.
Lemma native_slice j v : 0 <= j -> zget samples j = Some v -> zslice N (2 * j) 2 = native16 big v.
Proof.
  intros Hj G. unfold zslice. unfold native. rewrite skipn_flat2 by (auto; intros; unfold native16; destruct big; reflexivity).
  rewrite (skipn_cons_zget samples j v) by auto. cbn [flat_map]. unfold native16. destruct big; reflexivity.
Qed.
Lemma native_get j v : 0 <= j -> zget samples j = Some v ->
  zget N (2 * j) = zget (native16 big v) 0 /\ zget N (2 * j + 1) = zget (native16 big v) 1.
Proof.
  intros Hj G. pose proof (zget_range _ _ _ G). rewrite <- (native_slice j v) by auto.
  rewrite !zget_zslice_gen by lia. split; cbn [andb Z.leb Z.ltb Z.compare Pos.compare Pos.compare_cont]; f_equal; lia.
Qed.

Lemma channels_at m : forall s j, ff_w s = w -> ff_h s = h -> ff_file s = file -> ff_off s = 2 * j -> ff_pos s = base + 2 * j -> ff_cache s = None ->
  0 <= j -> j + Z.of_nat m <= zlen samples ->
  exists s', channels big m s = Ok (zslice N (2 * j) (2 * Z.of_nat m), s') /\ ff_at s' (2 * (j + Z.of_nat m)).
Proof using Hbase.
  induction m as [|m IH]; intros s j W H F O P C Hj Hm.
  - cbn [channels]. exists s. rewrite zslice_nil_n by lia. split; [reflexivity|]. unfold ff_at. replace (2 * (j + Z.of_nat 0)) with (2 * j) by lia.
    repeat split; auto; try lia; try (destruct s; cbn in *; lia). left. repeat split; auto. replace (2 * j) with (0 + j * 2) by lia. rewrite Z.mod_add by lia. reflexivity.
  - destruct (zget_some samples j ltac:(lia)) as [v G]. cbn [channels]. rewrite (consume_at s j v) by auto. cbn [bind].
    destruct (IH (add_off 2 (mkFf (ff_w s) (ff_h s) file (base + 2 * (j + 1)) (ff_off s) (ff_cache s))) (j + 1)) as (s' & E & A); try assumption; try lia; cbn [add_off ff_w ff_h ff_file ff_off ff_pos ff_cache]; try lia; try assumption; try reflexivity.
    rewrite E. cbn [bind]. exists s'. rewrite <- (native_slice j v) by auto. split; [|replace (j + Z.of_nat (S m)) with (j + 1 + Z.of_nat m) by lia; exact A].
    f_equal. f_equal. replace (2 * Z.of_nat (S m)) with (2 + 2 * Z.of_nat m) by lia. rewrite zslice_split by lia. f_equal. f_equal; lia.
Qed.

Lemma cache_at s j : ff_w s = w -> ff_h s = h -> ff_file s = file -> ff_off s = 2 * j -> ff_pos s = base + 2 * j -> 0 <= j < zlen samples ->
  exists b s', cache_byte big s = Ok (b, s') /\ zslice N (2 * j) 1 = [b] /\ ff_at (add_off 1 s') (2 * j + 1).
Proof using Hbase.
  intros W H F O P Hj. destruct (zget_some samples j ltac:(lia)) as [v G]. unfold cache_byte. rewrite (consume_at s j v) by (auto; lia).
  cbn [bind]. destruct (native_get j v ltac:(lia) G) as [G0 G1]. unfold native16 in G0, G1 |- *.
  assert (SL : forall b, zget N (2 * j) = Some b -> zslice N (2 * j) 1 = [b]).
  { intros b Gb. apply zget_ext'. intros i Hi. rewrite zget_zslice_gen by lia. destruct (Z.eq_dec i 0) as [->|NE].
    - cbn [andb Z.leb Z.ltb Z.compare]. rewrite Z.add_0_r. exact Gb.
    - replace ((0 <=? i) && (i <? 1)) with false by lia. symmetry. apply zget_none. change (zlen [b]) with 1. lia. }
  assert (M1 : (2 * j + 1) mod 2 = 1) by (replace (2 * j + 1) with (1 + j * 2) by lia; rewrite Z.mod_add by lia; reflexivity).
  unfold ff_at. destruct big; (eexists _, _; split; [reflexivity|]; split; [apply SL; exact G0|]; unfold add_off; cbn [ff_w ff_h ff_file ff_off ff_pos ff_cache];
    repeat (apply conj; [assumption || reflexivity || lia|]); right; split; [exact M1|]; split; [lia|symmetry; exact G1]).
Qed.

Lemma even_at s k : ff_at s k -> k mod 2 = 0 -> ff_pos s = base + 2 * (k / 2) /\ ff_off s = 2 * (k / 2) /\ ff_cache s = None /\ k = 2 * (k / 2).
Proof. intros (A1 & A2 & A3 & A4 & A5 & [(B1 & B2 & B3)|(B1 & B2 & B3)]) M; [|lia]. pose proof (Z.div_mod k 2 ltac:(lia)). repeat split; auto; lia. Qed.

(** the part of read after the cached byte *)
Lemma read_even s k n : ff_at s k -> k mod 2 = 0 -> 0 <= n -> k + n <= 2 * zlen samples ->
  exists m s', (if n =? 1 then '(b, s) <- cache_byte big s ;; Ok ([b], add_off 1 s)
     else '(bs, s) <- channels big (Z.to_nat (n / 2)) s ;; Ok (bs, s)) = Ok (zslice N k m, s') /\ ff_at s' (k + m) /\ 0 <= m <= n /\ (1 <= n -> 1 <= m).
Proof using Hbase.
  intros A M Hn Hk. destruct (even_at s k A M) as (P & O & C & EK). destruct A as (A1 & A2 & A3 & A4 & A5 & _).
  set (j := k / 2) in *. clearbody j. clear A4. subst k. destruct (Z.eqb_spec n 1) as [->|NE].
  - destruct (cache_at s j) as (b & s' & E & S & A'); auto; try lia. rewrite E. cbn [bind]. exists 1, (add_off 1 s'). rewrite S. repeat split; auto; try lia; try apply A'.
  - destruct (channels_at (Z.to_nat (n / 2)) s j) as (s' & E & A'); auto; try lia.
    rewrite E. cbn [bind]. exists (2 * Z.of_nat (Z.to_nat (n / 2))), s'. split; [reflexivity|].
    replace (2 * j + 2 * Z.of_nat (Z.to_nat (n / 2))) with (2 * (j + Z.of_nat (Z.to_nat (n / 2)))) by lia. split; [exact A'|]. lia.
Qed.

Lemma ff_read_at s k n : ff_at s k -> 1 <= n -> k + n <= 2 * zlen samples ->
  exists m s', ff_read big s n = Ok (zslice N k m, s') /\ ff_at s' (k + m) /\ 1 <= m <= n.
Proof using Hbase.
  intros A Hn Hk. unfold ff_read. pose proof (native_len big samples) as NL. pose proof A as (A1 & A2 & A3 & A4 & A5 & [(B1 & B2 & B3)|(B1 & B2 & B3)]).
  - rewrite B3. cbn [bind app]. destruct (read_even s k n A B1 ltac:(lia) Hk) as (m & s' & E & A' & M1 & M2). exists m, s'. split; [exact E|]. split; [exact A'|lia].
  - destruct (zget_some N k ltac:(lia)) as [c G]. rewrite B3, G. replace (n =? 0) with false by lia. cbn [bind].
    set (s1 := mkFf _ _ _ _ _ _).
    assert (M2 : (k + 1) mod 2 = 0) by (rewrite Z.add_mod, B1 by lia; reflexivity).
    assert (A1' : ff_at s1 (k + 1)).
    { unfold ff_at, s1. cbn [ff_w ff_h ff_file ff_off ff_pos ff_cache]. repeat (apply conj; [assumption || lia|]). left. repeat split; auto; lia. }
    destruct (read_even s1 (k + 1) (n - 1) A1' M2 ltac:(lia) ltac:(lia)) as (m & s' & E & A' & M1 & M3).
    exists (1 + m), s'. split; [|split; [replace (k + (1 + m)) with (k + 1 + m) by lia; exact A'|lia]].
    assert (SP : zslice N k (1 + m) = [c] ++ zslice N (k + 1) m).
    { rewrite zslice_split by lia. f_equal. apply zget_ext'. intros i Hi. rewrite zget_zslice_gen by lia. destruct (Z.eq_dec i 0) as [->|NE].
      - cbn [andb Z.leb Z.ltb Z.compare]. rewrite Z.add_0_r. exact G.
      - replace ((0 <=? i) && (i <? 1)) with false by lia. symmetry. apply zget_none. change (zlen [c]) with 1. lia. }
    rewrite SP. destruct (n - 1 =? 1).
    + destruct (cache_byte big s1) as [[b s2]| |]; cbn [bind] in E |- *; try discriminate. apply Ok_inj in E. injection E as E1 E2. subst s'. rewrite <- E1. reflexivity.
    + destruct (channels big _ s1) as [[bs s2]| |]; cbn [bind] in E |- *; try discriminate. apply Ok_inj in E. injection E as E1 E2. subst s'. rewrite <- E1. reflexivity.
Qed.

Lemma ff_read_exact_at fuel : forall s k n, ff_at s k -> 0 <= n <= Z.of_nat fuel -> k + n <= 2 * zlen samples ->
  exists s', ff_read_exact big fuel s n = Ok (zslice N k n, s') /\ ff_at s' (k + n).
Proof using Hbase.
  induction fuel as [|f IH]; intros s k n A Hn Hk.
  - assert (n = 0) as -> by lia. cbn [ff_read_exact Z.eqb]. exists s. rewrite Z.add_0_r, zslice_nil_n by lia. auto.
  - cbn [ff_read_exact]. destruct (Z.eqb_spec n 0) as [->|NZ].
    + exists s. rewrite Z.add_0_r, zslice_nil_n by lia. auto.
    + destruct (ff_read_at s k n A ltac:(lia) Hk) as (m & s' & E & A' & Hm). rewrite E. cbn [bind].
      assert (A5 : 0 <= k) by apply A.
      assert (L : zlen (zslice N k m) = m) by (rewrite zlen_zslice_gen, native_len by lia; lia). rewrite L.
      replace (m =? 0) with false by lia. destruct (IH s' (k + m) (n - m) A' ltac:(lia) ltac:(lia)) as (s2 & E2 & A2).
      rewrite E2. cbn [bind]. exists s2. split; [|replace (k + n) with (k + m + (n - m)) by lia; exact A2].
      f_equal. f_equal. replace n with (m + (n - m)) at 2 by lia. rewrite zslice_split by lia. reflexivity.
Qed.

Hypothesis Hfile : base + 2 * zlen samples <= i64_max.
Hypothesis Hwh : w * h * 2 <= u64_max.
Hypothesis Hb0 : 0 <= base.

Lemma ff_seek_at s k n : ff_at s (2 * k) -> 0 <= n <= zlen samples -> exists s', ff_seek big s (Start (n * 2)) = Ok (2 * k, s') /\ ff_at s' (2 * n).
Proof using Hfile Hwh Hbase Hb0.
  intros A Hn. assert (M : (2 * k) mod 2 = 0) by (rewrite Z.mul_comm; apply Z.mod_mul; lia).
  destruct (even_at s (2 * k) A M) as (P & O & C & _). destruct A as (A1 & A2 & A3 & A4 & A5 & _). replace (2 * k / 2) with k in * by (rewrite Z.mul_comm, Z.div_mul; lia).
  unfold ff_seek. rewrite A1, A2, O. replace (u64_max <? w * h * 2) with false by lia. cbn [parse_offset]. unfold to_i64.
  unfold i64_max in *. replace (n * 2 <=? _) with true by lia. replace (2 * k <=? 9223372036854775807) with true by lia.
  replace ((i64_min <=? n * 2 - 2 * k) && (n * 2 - 2 * k <=? 9223372036854775807)) with true by (unfold i64_min; lia). cbn [bind].
  unfold cursor_seek. rewrite P. replace ((base + 2 * k + (n * 2 - 2 * k) <? 0) || (u64_max <? base + 2 * k + (n * 2 - 2 * k))) with false by (unfold u64_max; lia).
  cbn [bind ff_w ff_h ff_file ff_off ff_pos ff_cache]. replace (2 * k + (n * 2 - 2 * k)) with (2 * n) by lia.
  assert (M2 : (2 * n) mod 2 = 0) by (rewrite Z.mul_comm; apply Z.mod_mul; lia).
  replace ((2 * n <? 0) || (u64_max <? 2 * n)) with false by (unfold u64_max; lia). rewrite M2. cbn [Z.eqb]. rewrite andb_false_r.
  eexists. split; [reflexivity|]. unfold ff_at. cbn [ff_w ff_h ff_file ff_off ff_pos ff_cache]. repeat (apply conj; [assumption || lia|]). left. repeat split; auto; lia.
Qed.
Lemma ff_tell_at s : ff_at s 0 -> exists s', ff_seek big s (Current 0) = Ok (0, s') /\ ff_at s' 0.
Proof using Hfile Hwh Hbase Hb0.
  intros A. destruct (even_at s 0 A eq_refl) as (P & O & C & _). destruct A as (A1 & A2 & A3 & A4 & A5 & _). cbn in P, O.
  unfold ff_seek. rewrite A1, A2, O. replace (u64_max <? w * h * 2) with false by lia. cbn [parse_offset to_i64 Z.leb Z.compare i64_max Z.ltb bind].
  unfold cursor_seek. rewrite P. unfold i64_max, u64_max in *. replace ((base + 0 + 0 <? 0) || (18446744073709551615 <? base + 0 + 0)) with false by lia.
  cbn [bind ff_w ff_h ff_file ff_off ff_pos ff_cache]. change (0 + 0) with 0. cbn [Z.ltb Z.compare orb].
  rewrite Zmod_0_l. cbn [Z.eqb]. rewrite andb_false_r.
  eexists. split; [reflexivity|]. unfold ff_at. cbn [ff_w ff_h ff_file ff_off ff_pos ff_cache]. repeat (apply conj; [assumption || lia|]). left. repeat split; auto; lia.
Qed.

Lemma ff_read_rect_at s x y rw rh buf rp : ff_at s 0 -> 4 * (w * h) = zlen samples -> 0 <= x -> 0 <= y -> 0 < rw -> 0 < rh -> x + rw <= w -> y + rh <= h ->
  rw * 8 <= rp -> (rh - 1) * rp + rw * 8 <= zlen buf ->
  exists out s', ff_read_rect big s x y rw rh buf rp = Ok (out, s') /\ ff_at s' 0 /\ zlen out = zlen buf /\
    (forall j, 0 <= j < rh -> zslice out (j * rp) (rw * 8) = zslice N (((y + j) * w + x) * 8) (rw * 8)) /\
    (forall i, 0 <= i < zlen buf -> (forall j, 0 <= j < rh -> ~ (j * rp <= i < j * rp + rw * 8)) -> zget out i = zget buf i).
Proof using Hfile Hwh Hbase Hb0.
  intros A LS Hx Hy Hw Hh Hxw Hyh Hrp Hbuf. unfold ff_read_rect.
  destruct (ff_tell_at s A) as (s1 & E1 & A1). rewrite E1. cbn [bind].
  assert (W1 : ff_w s1 = w /\ ff_h s1 = h) by (destruct A1 as (? & ? & _); auto). destruct W1 as [-> ->]. cbn [ct_bytes].
  pose proof (native_len big samples) as NL. pose proof (zlen_nonneg samples) as SN.
  set (sk := fun (s : ff) (n : Z) => _). set (rd := fun (s : ff) (b : list Z) => _).
  destruct (load_rect_ok sk rd (fun d n => ff_at d (2 * n)) N 2 ltac:(lia)) with (dw := w) (dh := h) (bpp := 8) (x := x) (y := y) (w := rw) (h := rh) (buf := buf) (rp := rp) (d := s1)
    as (out & d' & E & Ad & L & P & Q); try lia; try assumption.
  - intros d m n Am H0 Hn. destruct (ff_seek_at d m n Am) as (d' & E & Ad); [lia|]. exists d'. unfold sk. rewrite E. split; [reflexivity|exact Ad].
  - intros d n b An Lb H0 Hn. unfold rd. destruct (ff_read_exact_at (length b) d (2 * n) (zlen b) An) as (d' & E & Ad); [unfold zlen in *; lia|lia|].
    exists (zslice N (2 * n) 2), d'. rewrite E, Lb. split; [reflexivity|]. split; [replace (2 * (n + 1)) with (2 * n + zlen b) by lia; exact Ad|].
    split; [rewrite zlen_zslice_gen; lia|]. intros i Hi Hi2. rewrite zget_zslice_gen by lia. replace ((0 <=? i) && (i <? 2)) with true by lia. f_equal. lia.
  - unfold i64_max, u64_max in *. lia.
  - rewrite E. cbn [bind]. destruct (ff_seek_at d' 0 0 Ad) as (s2 & E2 & A2); [pose proof (zlen_nonneg samples); lia|].
    cbn [Z.mul] in E2. rewrite E2. cbn [bind]. exists out, s2. repeat split; auto; apply A2.
Qed.
End FF.

(** ** encoder *)
Lemma native16_pair big v : exists a b, native16 big v = [a; b] /\ ne_pair big a b = u16_be v.
Proof. destruct big; eexists _, _; split; reflexivity. Qed.
Lemma u32_be_eq v : is_u32 v -> u32_be v = be32 v.
Proof. intros. unfold is_u32, u32_max in *. unfold u32_be, be32. f_equal. rewrite Z.mod_small; [reflexivity|]. split; [apply Z.div_pos; lia|apply Z.div_lt_upper_bound; lia]. Qed.
Lemma encode_native big w h samples : is_u32 w -> is_u32 h -> zlen samples = 4 * (w * h) -> zlen samples * 2 <= u64_max ->
  ff_encode big (native big samples) w h = Ok (farbfeld_file w h samples).
Proof.
  intros Hw Hh L B. unfold ff_encode. rewrite native_len, L. unfold sat_mul_u64. replace (Z.min u64_max (w * h * 8) =? 2 * (4 * (w * h))) with true by lia. cbn [negb].
  unfold farbfeld_file. rewrite !u32_be_eq by auto. f_equal. unfold magic. do 3 f_equal. clear L B. induction samples as [|v l IH]; [reflexivity|].
  unfold native. cbn [flat_map]. fold (native big l). rewrite chunks_exact_cons by (unfold native16; destruct big; reflexivity || lia).
  cbn [flat_map]. rewrite IH. f_equal. destruct (native16_pair big v) as (a & b & E & E2). rewrite E. exact E2.
Qed.

(** ** every byte stream *)
Definition lead (s : ff) : Z := ff_pos s - match ff_cache s with Some _ => 1 | None => 0 end.
Definition ff_in (s : ff) : Prop := 0 <= ff_pos s <= zlen (ff_file s).
Lemma consume_cases big s : ff_in s -> consume_channel big s = Err EEof \/
  exists a b s', consume_channel big s = Ok ([a; b], s') /\ ff_in s' /\ ff_pos s' = ff_pos s + 2 /\ ff_file s' = ff_file s /\ ff_cache s' = ff_cache s.
Proof.
  intros I. unfold ff_in in *. unfold consume_channel, read_exact. rewrite zlen_skipn. destruct (Z.ltb_spec (Z.max 0 (zlen (ff_file s) - Z.of_nat (Z.to_nat (ff_pos s)))) 2) as [Q|Q]; [left; reflexivity|right].
  cbn [bind]. assert (L : zlen (firstn (Z.to_nat 2) (skipn (Z.to_nat (ff_pos s)) (ff_file s))) = 2) by (rewrite zlen_firstn, zlen_skipn; lia).
  destruct (firstn (Z.to_nat 2) (skipn (Z.to_nat (ff_pos s)) (ff_file s))) as [|a [|b [|c l]]]; rewrite ?zlen_cons in L; try (change (zlen (@nil Z)) with 0 in L; lia).
  2:{ pose proof (zlen_nonneg l). lia. }
  unfold ne_pair. destruct big; (eexists _, _, _; split; [reflexivity|]; cbn; repeat split; lia).
Qed.
Lemma cache_cases big s : ff_in s -> cache_byte big s = Err EEof \/
  exists b s' c, cache_byte big s = Ok (b, s') /\ ff_in s' /\ ff_pos s' = ff_pos s + 2 /\ ff_file s' = ff_file s /\ ff_cache s' = Some c.
Proof.
  intros I. unfold cache_byte. destruct (consume_cases big s I) as [-> | (a & b & s' & -> & I' & P & F & C)]; [left; reflexivity|right].
  cbn [bind]. eexists _, _, _. split; [reflexivity|]. cbn. auto.
Qed.
Lemma channels_cases big m : forall s, ff_in s -> channels big m s = Err EEof \/
  exists bs s', channels big m s = Ok (bs, s') /\ zlen bs = 2 * Z.of_nat m /\ ff_in s' /\ ff_pos s' = ff_pos s + 2 * Z.of_nat m /\ ff_file s' = ff_file s /\ ff_cache s' = ff_cache s.
Proof.
  induction m as [|m IH]; intros s I; cbn [channels].
  - right. exists [], s. repeat split; auto; try lia; apply I.
  - destruct (consume_cases big s I) as [-> | (a & b & s' & -> & I' & P & F & C)]; [left; reflexivity|]. cbn [bind].
    destruct (IH (add_off 2 s') I') as [-> | (bs & s2 & -> & L & I2 & P2 & F2 & C2)]; [left; reflexivity|right]. cbn [bind].
    cbn [add_off ff_pos ff_file ff_cache] in *. exists ([a; b] ++ bs), s2. split; [reflexivity|]. rewrite zlen_app, L. change (zlen [a; b]) with 2.
    repeat split; try lia; try apply I2; congruence.
Qed.
Lemma ff_read_cases big s n : ff_in s -> 1 <= n -> ff_read big s n = Err EEof \/
  exists b s', ff_read big s n = Ok (b, s') /\ 1 <= zlen b <= n /\ ff_in s' /\ lead s' = lead s + zlen b /\ ff_file s' = ff_file s.
Proof.
  intros I Hn. unfold ff_read.
  assert (X : exists pre m s1, (match ff_cache s with
     | Some b => if n =? 0 then Panic else Ok ([b], n - 1, mkFf (ff_w s) (ff_h s) (ff_file s) (ff_pos s) (ff_off s + 1) None)
     | None => Ok ([], n, s) end) = Ok (pre, m, s1) /\ zlen pre + m = n /\ 0 <= m /\ ff_in s1 /\ lead s1 = lead s + zlen pre /\ ff_file s1 = ff_file s /\ ff_cache s1 = None).
  { destruct (ff_cache s) as [b|] eqn:EC.
    - replace (n =? 0) with false by lia. eexists _, _, _. split; [reflexivity|]. unfold lead. cbn [ff_cache ff_pos ff_file]. rewrite EC. change (zlen [b]) with 1. repeat split; try lia; apply I.
    - eexists _, _, _. split; [reflexivity|]. change (zlen (@nil Z)) with 0. repeat split; try lia; try apply I; assumption. }
  destruct X as (pre & m & s1 & -> & L1 & L2 & I1 & LD & F1 & C1). cbn [bind]. pose proof (zlen_nonneg pre) as PN.
  destruct (Z.eqb_spec m 1) as [->|NE].
  - destruct (cache_cases big s1 I1) as [-> | (b & s' & c & -> & I' & P & F & C)]; [left; reflexivity|right]. cbn [bind].
    eexists _, _. split; [reflexivity|]. rewrite zlen_app. change (zlen [b]) with 1. split; [lia|]. split; [exact I'|]. split; [|cbn; congruence].
    unfold lead in *. cbn [add_off ff_pos ff_cache]. rewrite C, P. rewrite C1 in LD. lia.
  - destruct (channels_cases big (Z.to_nat (m / 2)) s1 I1) as [-> | (bs & s' & -> & L & I' & P & F & C)]; [left; reflexivity|right]. cbn [bind].
    eexists _, _. split; [reflexivity|]. rewrite zlen_app, L. pose proof (Z.div_mod m 2 ltac:(lia)). pose proof (Z.mod_pos_bound m 2 ltac:(lia)).
    split; [lia|]. split; [exact I'|]. split; [|congruence]. unfold lead in *. rewrite C, C1, P. rewrite C1 in LD. lia.
Qed.
Lemma ff_read_exact_cases big fuel : forall s n, ff_in s -> 0 <= n <= Z.of_nat fuel -> ff_read_exact big fuel s n = Err EEof \/
  exists b s', ff_read_exact big fuel s n = Ok (b, s') /\ zlen b = n /\ ff_in s' /\ lead s' = lead s + n /\ ff_file s' = ff_file s.
Proof.
  induction fuel as [|f IH]; intros s n I Hn; cbn [ff_read_exact].
  - assert (n = 0) as -> by lia. right. exists [], s. cbn [Z.eqb]. repeat split; auto; try lia; apply I.
  - destruct (Z.eqb_spec n 0) as [->|NZ]; [right; exists [], s; repeat split; auto; try lia; apply I|].
    destruct (ff_read_cases big s n I ltac:(lia)) as [-> | (b & s' & -> & L & I' & LD & F)]; [left; reflexivity|]. cbn [bind].
    replace (zlen b =? 0) with false by lia. destruct (IH s' (n - zlen b) I' ltac:(lia)) as [-> | (bs & s2 & -> & L2 & I2 & LD2 & F2)]; [left; reflexivity|right].
    cbn [bind]. eexists _, _. split; [reflexivity|]. rewrite zlen_app. repeat split; try lia; try apply I2. congruence.
Qed.

Lemma u16s_of_bytes l : forall k, bytes l -> zlen l = 2 * k -> exists samples, Forall is_u16 samples /\ zlen samples = k /\ l = flat_map u16_be samples.
Proof.
  intros k. remember (Z.to_nat k) as n eqn:En. revert l k En. induction n as [|n IH]; intros l k En B L.
  - pose proof (zlen_nonneg l). assert (k = 0) by lia. exists []. split; [constructor|]. split; [auto|]. apply zlen_0_nil. lia.
  - destruct l as [|a [|b l]]; rewrite ?zlen_cons in L; try (change (zlen (@nil Z)) with 0 in L; lia).
    inversion B as [|? ? Ba B1]; subst. inversion B1 as [|? ? Bb B2]; subst.
    destruct (IH l (k - 1)) as (ss & F & LS & E); [lia|assumption|lia|]. exists (256 * a + b :: ss).
    unfold is_u8, u8_max in *. split; [constructor; [unfold is_u16, u16_max; lia|assumption]|]. split; [rewrite zlen_cons; lia|].
    cbn [flat_map]. rewrite <- E. unfold u16_be. cbn [app].
    replace ((256 * a + b) / 256) with a by (apply (Z.div_unique _ _ a b); lia).
    replace ((256 * a + b) mod 256) with b by (apply (Z.mod_unique _ _ a b); lia). reflexivity.
Qed.
Lemma u32_of_bytes a b c d : is_u8 a -> is_u8 b -> is_u8 c -> is_u8 d ->
  is_u32 (16777216 * a + 65536 * b + 256 * c + d) /\ [a; b; c; d] = u32_be (16777216 * a + 65536 * b + 256 * c + d).
Proof.
  unfold is_u8, u8_max, is_u32, u32_max, u32_be. intros. split; [lia|].
  assert (V1 : (16777216 * a + 65536 * b + 256 * c + d) / 16777216 = a) by (symmetry; apply (Z.div_unique _ _ a (65536 * b + 256 * c + d)); lia).
  assert (V2 : (16777216 * a + 65536 * b + 256 * c + d) / 65536 = 256 * a + b) by (symmetry; apply (Z.div_unique _ _ (256 * a + b) (256 * c + d)); lia).
  assert (V3 : (16777216 * a + 65536 * b + 256 * c + d) / 256 = 65536 * a + 256 * b + c) by (symmetry; apply (Z.div_unique _ _ _ d); lia).
  rewrite V1, V2, V3.
  replace ((256 * a + b) mod 256) with b by (apply (Z.mod_unique _ _ a b); lia).
  replace ((65536 * a + 256 * b + c) mod 256) with c by (apply (Z.mod_unique _ _ (256 * a + b) c); lia).
  replace ((16777216 * a + 65536 * b + 256 * c + d) mod 256) with d by (apply (Z.mod_unique _ _ (65536 * a + 256 * b + c) d); lia). reflexivity.
Qed.

Lemma ff_new_cases file pos : bytes file -> 0 <= pos -> ff_new file pos = Err EDecoding \/ ff_new file pos = Err EUnsupported \/
  exists w h r, skipn (Z.to_nat pos) file = magic ++ u32_be w ++ u32_be h ++ r /\ is_u32 w /\ is_u32 h /\ w * h * 8 <= u64_max /\
    ff_new file pos = Ok (mkFf w h file (pos + 16) 0 None).
Proof.
  intros B Hp. unfold ff_new. set (r0 := skipn (Z.to_nat pos) file). assert (B0 : bytes r0) by (apply Forall_skipn'; exact B). clearbody r0.
  unfold read_exact. destruct (Z.ltb_spec (zlen r0) 8) as [Q|Q]; [left; reflexivity|]. cbn [as_decoding bind].
  destruct (leqb (firstn (Z.to_nat 8) r0) magic) eqn:EM; [|left; reflexivity]. apply leqb_eq in EM. cbn [negb].
  assert (B1 : bytes (skipn (Z.to_nat 8) r0)) by (apply Forall_skipn'; exact B0).
  assert (E0 : r0 = magic ++ skipn (Z.to_nat 8) r0) by (rewrite <- EM; symmetry; apply firstn_skipn).
  destruct (skipn (Z.to_nat 8) r0) as [|a [|b [|c [|d r1]]]]; try (left; reflexivity). cbn [read_u32be as_decoding bind].
  inversion B1 as [|? ? Ba B2]; subst. inversion B2 as [|? ? Bb B3]; subst. inversion B3 as [|? ? Bc B4]; subst. inversion B4 as [|? ? Bd B5]; subst.
  destruct r1 as [|a' [|b' [|c' [|d' r2]]]]; try (left; reflexivity). cbn [read_u32be as_decoding bind].
  inversion B5 as [|? ? Ba' B6]; subst. inversion B6 as [|? ? Bb' B7]; subst. inversion B7 as [|? ? Bc' B8]; subst. inversion B8 as [|? ? Bd' B9]; subst.
  destruct (u32_of_bytes a b c d Ba Bb Bc Bd) as [Uw Ew]. destruct (u32_of_bytes a' b' c' d' Ba' Bb' Bc' Bd') as [Uh Eh].
  set (w := 16777216 * a + 65536 * b + 256 * c + d) in *. set (h := 16777216 * a' + 65536 * b' + 256 * c' + d') in *. clearbody w h.
  unfold check_dimension_overflow.
  assert (WH : 0 <= w * h <= u32_max * u32_max) by (unfold is_u32 in *; split; [apply Z.mul_nonneg_nonneg; lia|apply Z.mul_le_mono_nonneg; lia]).
  unfold u32_max, u64_max in *. replace (18446744073709551615 <? w * h) with false by lia. cbn [Z.eqb bind].
  destruct (Z.ltb_spec (18446744073709551615 / 8) (w * h)) as [O|O]; [right; left; reflexivity|]. right. right. change (18446744073709551615 / 8) with 2305843009213693951 in O.
  exists w, h, r2. rewrite <- Ew, <- Eh. repeat (apply conj; [assumption || lia || reflexivity|]). reflexivity.
Qed.
