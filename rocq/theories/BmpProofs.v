(** Lemmas about Bmp.v: opening and decoding never panic. *)
From Verif Require Import Base BaseLemmas ListLemmas ListMore BitLemmas ColorType BmpBits BmpBitsProps Bmp Post TgaProofs2 Limits.
Local Open Scope Z_scope.

Definition readable (f : bitfield) : Prop := 0 <= bf_shift f <= 31 /\ 1 <= bf_len f <= 8.
Definition fields_ok (f : bitfields) : Prop :=
  readable (bf_r f) /\ readable (bf_g f) /\ readable (bf_b f) /\ (bf_len (bf_a f) = 0 \/ readable (bf_a f)).
Definition pal_ok (p : list (list Z)) : Prop := zlen p = 256 /\ Forall (fun c => zlen c = 3 /\ bytes c) p.
(** what every opened decoder satisfies *)
Definition good (d : bmp) : Prop :=
  1 <= b_w d <= 65535 /\ 0 <= b_h d <= 2147483647 /\ 0 <= b_off d /\ b_indexed d = false /\
  (b_type d = TPalette \/ b_type d = TRLE8 \/ b_type d = TRLE4 -> exists p, b_pal d = Some p /\ pal_ok p) /\
  (b_type d = TPalette -> b_bits d = 1 \/ b_bits d = 2 \/ b_bits d = 4 \/ b_bits d = 8) /\
  (b_type d = TRGBA32 -> b_alpha d = true) /\
  (forall f, b_fields d = Some f -> fields_ok f /\ (bf_len (bf_a f) <> 0 -> b_alpha d = true)).

Lemma post_check w h ch : post (check_for_overflow w h ch) (fun _ => 0 < w /\ 0 < h).
Proof. unfold check_for_overflow. destruct ((w <=? 0) || (h <=? 0)) eqn:E; [discriminate|]. destruct ((u64_max <? ch * w) || _); [discriminate|]. cbn. lia. Qed.
Lemma post_i32 r : bytes r -> post (read_i32le r) (fun p => is_i32 (fst p) /\ bytes (snd p)).
Proof.
  intros B. unfold read_i32le. prd. cbn. split; [|assumption]. unfold wrap_i32, is_i32, i32_min, i32_max. zdm.
Qed.
Definition dib_ok (alpha : bool) (d : dib) : Prop :=
  1 <= di_w d <= 65535 /\ 1 <= di_h d <= 2147483647 /\ (di_type d = TRGBA32 -> alpha = true) /\
  (di_type d = TPalette -> di_bits d = 1 \/ di_bits d = 2 \/ di_bits d = 4 \/ di_bits d = 8) /\
  (di_type d = TRLE8 -> di_bits d = 8) /\ (di_type d = TRLE4 -> di_bits d = 4) /\ 0 <= di_used d.
Lemma post_core alpha r : bytes r -> post (read_core_header alpha r) (fun p => dib_ok alpha (fst p) /\ bytes (snd p)).
Proof.
  intros B. unfold read_core_header. prd. prd. eapply post_bind; [apply post_check|]. intros _ [P1 P2]. prd.
  destruct (negb _); [discriminate|]. prd. unfold is_u16, u16_max in *.
  destruct ((v2 =? 1) || (v2 =? 4) || (v2 =? 8)) eqn:E; [|destruct (v2 =? 24); [|discriminate]]; cbn; unfold dib_ok; cbn; (split; [|assumption]);
    (split; [lia|]); (split; [lia|]); (split; [discriminate|]); (split; [|split; [discriminate|split; [discriminate|lia]]]); intros; try discriminate; lia.
Qed.
Lemma post_type alpha ty bits : post (image_type_of alpha ty bits) (fun t =>
  (t = TRGBA32 -> alpha = true) /\ (t = TPalette -> bits = 1 \/ bits = 2 \/ bits = 4 \/ bits = 8) /\ (t = TRLE8 -> bits = 8) /\ (t = TRLE4 -> bits = 4)).
Proof.
  unfold image_type_of.
  destruct (ty =? 0).
  { destruct ((bits =? 1) || (bits =? 2) || (bits =? 4) || (bits =? 8)) eqn:E; [cbn; repeat split; intros; try discriminate; lia|].
    destruct (bits =? 16); [cbn; repeat split; intros; discriminate|]. destruct (bits =? 24); [cbn; repeat split; intros; discriminate|].
    destruct (bits =? 32); [|discriminate]. cbn. destruct alpha; repeat split; intros; auto; discriminate. }
  destruct (ty =? 1). { destruct (bits =? 8) eqn:E; [|discriminate]. cbn; repeat split; intros; try discriminate; lia. }
  destruct (ty =? 2). { destruct (bits =? 4) eqn:E; [|discriminate]. cbn; repeat split; intros; try discriminate; lia. }
  destruct (ty =? 3). { destruct (bits =? 16); [cbn; repeat split; intros; discriminate|]. destruct (bits =? 32); [cbn; repeat split; intros; discriminate|discriminate]. }
  destruct (_ || _); discriminate.
Qed.
Lemma post_info alpha r : bytes r -> post (read_info_header alpha r) (fun p => dib_ok alpha (fst p) /\ bytes (snd p)).
Proof.
  intros B. unfold read_info_header. eapply post_bind; [apply post_i32; assumption|]. intros [w r1] [H1 B1]. cbn [fst snd] in *.
  eapply post_bind; [apply post_i32; assumption|]. intros [h r2] [H2 B2]. cbn [fst snd] in *.
  destruct (Z.ltb_spec w 0); [discriminate|]. destruct ((65535 <? w) || (65535 <? h)) eqn:E; [discriminate|]. destruct (Z.eqb_spec h i32_min); [discriminate|].
  cbv zeta. eapply post_bind; [apply post_check|]. intros _ [P1 P2]. prd. destruct (negb _); [discriminate|]. prd. prd.
  destruct (_ && _); [discriminate|]. eapply post_bind; [apply post_type|]. intros it (T1 & T2 & T3 & T4). prd. prd. prd. prd. prd. cbn. split; [|assumption].
  unfold dib_ok; cbn. unfold is_i32, i32_min, i32_max, is_u32 in *. split; [lia|]. split; [destruct (h <? 0) eqn:?; lia|]. repeat split; auto; lia.
Qed.
Lemma post_from_mask m max : 0 <= m <= u32_max -> max <= 32 -> post (bf_from_mask m max) (fun _ => True).
Proof.
  intros Hm M. unfold bf_from_mask. destruct (m =? 0); [exact I|]. destruct (negb _); [discriminate|]. destruct (max <? _); [discriminate|].
  destruct (8 <? _); exact I.
Qed.
Lemma post_fields r g b a max : is_u32 r -> is_u32 g -> is_u32 b -> is_u32 a -> max <= 32 ->
  post (bfs_from_mask r g b a max) (fun f => fields_ok f /\ (bf_len (bf_a f) = 0 <-> a = 0)).
Proof.
  intros Hr Hg Hb Ha M. unfold is_u32 in *. destruct (bfs_from_mask r g b a max) as [f|e|] eqn:E.
  - destruct (C37_accepted_fields_readable _ _ _ _ _ _ Hr Hg Hb Ha M E) as (A & B & C & D & F). cbn. unfold fields_ok, readable. auto.
  - cbn. intros ->. revert E. unfold bfs_from_mask. pose proof (post_from_mask r max Hr M) as P1. pose proof (post_from_mask g max Hg M) as P2. pose proof (post_from_mask b max Hb M) as P3. pose proof (post_from_mask a max Ha M) as P4.
    destruct (bf_from_mask r max); cbn in *; try congruence. destruct (bf_from_mask g max); cbn in *; try congruence. destruct (bf_from_mask b max); cbn in *; try congruence. destruct (bf_from_mask a max); cbn in *; try congruence.
    destruct (_ || _); congruence.
  - revert E. unfold bfs_from_mask. pose proof (post_from_mask r max Hr M) as P1. pose proof (post_from_mask g max Hg M) as P2. pose proof (post_from_mask b max Hb M) as P3. pose proof (post_from_mask a max Ha M) as P4.
    destruct (bf_from_mask r max); cbn in *; try congruence; auto. destruct (bf_from_mask g max); cbn in *; try congruence; auto. destruct (bf_from_mask b max); cbn in *; try congruence; auto. destruct (bf_from_mask a max); cbn in *; try congruence; auto.
    destruct (_ || _); congruence.
Qed.
Lemma post_masks ht it r : bytes r -> post (read_bitmasks ht it r) (fun p => forall f, fst p = Some f -> fields_ok f /\ (bf_len (bf_a f) <> 0 -> snd p = true)).
Proof.
  intros B. unfold read_bitmasks. prd. prd. prd. eapply post_bind with (Q := fun p => is_u32 (fst p) /\ bytes (snd p)).
  { destruct ht; try (apply post_u32le; assumption); cbn; (split; [unfold is_u32, u32_max; lia|assumption]). }
  intros [am r3] [H3 B3]. cbn [fst snd] in *.
  destruct it; cbn; try discriminate; (eapply post_bind; [apply post_fields; auto; lia|]); intros f (F1 & F2); cbn; intros f' Ef; apply Some_inj in Ef; subst f'; (split; [exact F1|]); intros NA; destruct (am =? 0) eqn:E0; auto; exfalso; apply NA; apply F2; lia.
Qed.
Lemma post_palette core bits used r : bytes r -> bits = 1 \/ bits = 2 \/ bits = 4 \/ bits = 8 -> 0 <= used -> post (read_palette core bits used r) (fun p => pal_ok (fst p) /\ 0 <= snd p).
Proof.
  intros B Hb Hu. unfold read_palette. set (bpc := if core then 3 else 4). assert (Hc : 3 <= bpc <= 4) by (subst bpc; destruct core; lia).
  assert (P : 0 < 2 ^ bits <= 256) by (destruct Hb as [->|[->|[->| ->]]]; cbn; lia).
  eapply post_bind with (Q := fun n => 0 <= n <= 256).
  { unfold get_palette_size. destruct (Z.eqb_spec used 0); [replace (63 <? bits) with false by lia; cbn; lia|]. replace (31 <? bits) with false by lia. destruct (Z.ltb_spec (2 ^ bits) used); [discriminate|]. cbn; lia. }
  intros n Hn. pose proof (Z.mul_nonneg_nonneg n bpc ltac:(lia) ltac:(lia)). assert (n * bpc <= 256 * bpc) by (apply Z.mul_le_mono_nonneg_r; lia). pex.
  set (buf := v ++ repeat 0 (Z.to_nat (256 * bpc - zlen v))). assert (Lb : zlen buf = 256 * bpc). { unfold buf. rewrite zlen_app, zlen_repeat. lia. }
  assert (Bb : bytes buf) by (apply bytes_app; split; [assumption|apply Forall_forall; intros z Hz; apply repeat_spec in Hz; subst z; unfold is_u8, u8_max; lia]).
  eapply post_bind with (Q := pal_ok).
  - eapply post_imp; [eapply (post_foldM_range _ (fun k p => zlen p = k /\ Forall (fun c => zlen c = 3 /\ bytes c) p)); [lia| |split; [reflexivity|constructor]]|].
    + intros k p Hk (L1 & F). assert (bpc * k <= bpc * 255) by (apply Z.mul_le_mono_nonneg_l; lia). assert (0 <= bpc * k) by (apply Z.mul_nonneg_nonneg; lia).
      destruct (zget_some buf (bpc * k) ltac:(lia)) as (b0 & E0). destruct (zget_some buf (bpc * k + 1) ltac:(lia)) as (b1 & E1). destruct (zget_some buf (bpc * k + 2) ltac:(lia)) as (b2 & E2). rewrite E0, E1, E2. cbn.
      split; [rewrite zlen_app; cbn; lia|]. apply Forall_app; split; [exact F|]. constructor; [|constructor]. split; [reflexivity|].
      unfold bytes in *. rewrite Forall_forall in Bb. repeat constructor; apply Bb; eapply zget_In; eassumption.
    + intros p Hp. exact Hp.
  - intros p Hp. cbn. split; [exact Hp|lia].
Qed.
Lemma post_metadata file start nfh alpha : bytes file -> 0 <= start -> post (read_metadata file start nfh alpha) (fun d => good d /\ 1 <= b_h d).
Proof.
  intros B Hs. unfold read_metadata. assert (Br : forall k, bytes (skipn k file)) by (intros; apply Forall_skipn'; exact B).
  eapply post_bind with (Q := rdv is_u32).
  { destruct nfh; [cbn; split; cbn; [unfold is_u32, u32_max; lia|apply Br]|]. unfold read_file_header. pose proof (Br (Z.to_nat start)) as B0. pex. destruct (negb _); [discriminate|]. prd. prd. apply post_u32le. assumption. }
  intros [off r] [H0 B0]. cbn [fst snd] in *. cbv zeta. prd. set (ho := if nfh then start else start + 14). assert (0 <= ho) by (subst ho; destruct nfh; lia).
  eapply post_bind with (Q := fun _ => True).
  { unfold header_type. repeat match goal with |- post (if ?b then _ else _) _ => destruct b; [first [exact I|discriminate]|] end. discriminate. }
  intros ht _. eapply post_bind with (Q := fun p => dib_ok alpha (fst p) /\ bytes (snd p)); [destruct ht; first [apply post_core; assumption|apply post_info; assumption]|].
  intros [d r1] [D B2]. cbn [fst snd] in *.
  eapply post_bind with (Q := fun p => forall f, fst p = Some f -> fields_ok f /\ (bf_len (bf_a f) <> 0 -> snd p = true)).
  { destruct (di_type d); first [apply post_masks; assumption|cbn; intros; discriminate]. }
  intros [fields extra] FE. cbn [fst snd] in *.
  destruct D as (D1 & D2 & D3 & D4 & D5 & D6 & D7). unfold is_u32 in *.
  eapply post_bind with (Q := fun p => 0 <= snd p /\ (di_type d = TPalette \/ di_type d = TRLE8 \/ di_type d = TRLE4 -> exists q, fst p = Some q /\ pal_ok q)).
  { assert (PP : di_bits d = 1 \/ di_bits d = 2 \/ di_bits d = 4 \/ di_bits d = 8 ->
      post ('(p, n) <- read_palette match ht with HCore => true | _ => false end (di_bits d) (di_used d) (skipn (Z.to_nat (ho + v)) file) ;; Ok (Some p, ho + v + n))
        (fun p : option (list (list Z)) * Z => 0 <= snd p /\ (di_type d = TPalette \/ di_type d = TRLE8 \/ di_type d = TRLE4 -> exists q, fst p = Some q /\ pal_ok q))).
    { intros Hb. eapply post_bind; [apply post_palette; auto|]. intros [p n] [P1 P2]. cbn [fst snd post] in *. split; [lia|]. intros _. eauto. }
    destruct (di_type d) eqn:T; first [apply PP; first [apply D4; reflexivity|rewrite D5 by reflexivity; auto|rewrite D6 by reflexivity; auto]|cbn; split; [lia|intros [?|[?|?]]; discriminate]]. }
  intros [pal pos] [P1 P2]. cbn [fst snd] in *. cbn [post]. unfold good. cbn [b_w b_h b_off b_indexed b_type b_pal b_bits b_alpha b_fields].
  split; [|lia]. split; [lia|]. split; [lia|]. split; [destruct nfh; lia|]. split; [reflexivity|]. split; [exact P2|]. split; [exact D4|].
  split; [intros T; rewrite D3 by exact T; reflexivity|]. intros f Ef. destruct (FE f Ef) as (F1 & F2). split; [exact F1|]. intros N. rewrite F2 by exact N. apply Bool.orb_true_r.
Qed.

(** *** pixel data *)
Lemma chunks_len {A} n (l : list A) : 0 < n -> Forall (fun p => zlen p = n) (chunks_exact n l).
Proof.
  intros Hn. unfold chunks_exact. generalize (length l) at 1. intros m. revert l. induction m as [|m IH]; intros l; cbn [chunks_aux]; [constructor|].
  destruct (Nat.ltb_spec (length l) (Z.to_nat n)); constructor; [|apply IH]. rewrite zlen_firstn. unfold zlen. lia.
Qed.
Lemma chunks_bytes n (l : list Z) : bytes l -> Forall bytes (chunks_exact n l).
Proof. intros B. apply Forall_forall. intros c Hc. unfold bytes in *. rewrite Forall_forall in *. intros z Hz. apply B. eapply chunks_exact_In; eassumption. Qed.
Lemma bytes_concat (ls : list (list Z)) : Forall bytes ls -> bytes (concat ls).
Proof. induction 1; cbn; [constructor|]. apply bytes_app. split; assumption. Qed.
Definition rowok (n : Z) (p : list Z * list Z) : Prop := zlen (fst p) = n /\ bytes (fst p) /\ bytes (snd p).
Lemma post_map_st n (f : list Z -> reader -> res (list Z * reader)) ls : 0 < n ->
  (forall row r, zlen row = n -> bytes row -> bytes r -> post (f row r) (rowok n)) ->
  Forall (fun c => zlen c = n) ls -> Forall bytes ls -> forall r, bytes r ->
  post (foldM (fun '(dn, r) row => '(row, r) <- f row r ;; Ok (dn ++ [row], r)) ls ([], r))
    (fun p => zlen (fst p) = zlen ls /\ Forall (fun c => zlen c = n) (fst p) /\ Forall bytes (fst p) /\ bytes (snd p)).
Proof.
  intros Hn H L B r Br.
  assert (G : forall dn r, bytes r -> Forall (fun c => zlen c = n) dn -> Forall bytes dn ->
    post (foldM (fun '(dn, r) row => '(row, r) <- f row r ;; Ok (dn ++ [row], r)) ls (dn, r))
      (fun p => zlen (fst p) = zlen dn + zlen ls /\ Forall (fun c => zlen c = n) (fst p) /\ Forall bytes (fst p) /\ bytes (snd p))).
  { clear r Br. induction ls as [|row ls IH]; intros dn r Br L1 B1; cbn [foldM].
    - cbn. change (zlen (@nil (list Z))) with 0. repeat split; auto; lia.
    - apply Forall_cons_iff in L as [La Ll]. apply Forall_cons_iff in B as [Ba Bl].
      eapply post_bind with (Q := fun p => exists row', fst p = dn ++ [row'] /\ zlen row' = n /\ bytes row' /\ bytes (snd p)).
      + eapply post_bind; [apply H; assumption|]. intros [row' r'] (R1 & R2 & R3). cbn in *. eauto.
      + intros [dn' r'] (row' & R0 & R1 & R2 & R3). cbn [fst snd] in *. subst dn'. eapply post_imp; [apply IH; auto|].
        * apply Forall_app; split; auto.
        * apply Forall_app; split; auto.
        * intros p (A1 & A2 & A3 & A4). rewrite A1, zlen_app, !zlen_cons. change (zlen (@nil (list Z))) with 0. repeat split; auto; lia. }
  eapply post_imp; [apply (G [] r); auto|]. intros p (A1 & A2). split; [|exact A2]. rewrite A1. reflexivity.
Qed.
Lemma post_with_rows w h ch td f buf r : 1 <= w <= 65535 -> 0 <= h <= 2147483647 -> 1 <= ch <= 4 -> zlen buf = ch * w * h -> bytes buf -> bytes r ->
  (forall row r, zlen row = ch * w -> bytes row -> bytes r -> post (f row r) (rowok (ch * w))) ->
  post (with_rows buf w h ch td f r) (rowok (ch * w * h)).
Proof.
  intros Hw Hh Hc L B Br H. unfold with_rows.
  assert (ch * w <= 4 * 65535) by (apply Z.mul_le_mono_nonneg; lia). assert (1 * 1 <= ch * w) by (apply Z.mul_le_mono_nonneg; lia).
  assert (ch * w * h <= (4 * 65535) * 2147483647) by (apply Z.mul_le_mono_nonneg; lia).
  replace (u64_max <? ch * w) with false by (unfold u64_max; lia). replace (u64_max <? ch * w * h) with false by (unfold u64_max; lia). cbn [orb].
  replace (zlen buf =? ch * w * h) with true by lia. cbn [negb]. replace (ch * w =? 0) with false by lia. cbv zeta.
  destruct (chunks_exact_id (ch * w) buf h ltac:(lia) ltac:(lia)) as (C1 & C2).
  assert (F1 := chunks_len (ch * w) buf ltac:(lia)). assert (F2 := chunks_bytes (ch * w) buf B). set (rows := chunks_exact (ch * w) buf) in *.
  eapply post_bind; [apply (post_map_st (ch * w)); [lia|exact H|destruct td; [exact F1|apply Forall_rev; exact F1]|destruct td; [exact F2|apply Forall_rev; exact F2]|exact Br]|].
  intros [dn r'] (D1 & D2 & D3 & D4). cbn [fst snd] in *. cbn [post]. unfold rowok. cbn [fst snd].
  assert (zlen dn = h) by (rewrite D1; destruct td; [exact C2|unfold zlen in *; rewrite rev_length; exact C2]).
  split; [|split; [|exact D4]].
  - rewrite (zlen_concat (ch * w)) by (destruct td; [exact D2|apply Forall_rev; exact D2]). destruct td; [nia|]. unfold zlen at 1. rewrite rev_length. fold (zlen dn). nia.
  - apply bytes_concat. destruct td; [exact D3|apply Forall_rev; exact D3].
Qed.
Lemma post_each_pixel f ch w row r : 1 <= ch <= 4 -> 1 <= w -> zlen row = ch * w -> bytes row -> bytes r ->
  (forall p r, zlen p = ch -> bytes p -> bytes r -> post (f p r) (rowok ch)) -> post (each_pixel f ch row r) (rowok (ch * w)).
Proof.
  intros Hc Hw L B Br H. unfold each_pixel. destruct (chunks_exact_id ch row w ltac:(lia) ltac:(lia)) as (C1 & C2).
  eapply post_bind; [apply (post_map_st ch); [lia|exact H|apply chunks_len; lia|apply chunks_bytes; exact B|exact Br]|].
  intros [dn r'] (D1 & D2 & D3 & D4). cbn [fst snd post] in *. unfold rowok. cbn [fst snd]. split; [rewrite (zlen_concat ch) by exact D2; nia|]. split; [apply bytes_concat; exact D3|exact D4].
Qed.
Lemma list3 {A} (l : list A) : zlen l = 3 -> exists a b c, l = [a; b; c].
Proof. unfold zlen. intros H. destruct l as [|a [|b [|c [|]]]]; cbn in H; try lia. eauto. Qed.
Lemma post_set3 p rgb n : 3 <= n -> zlen p = n -> bytes p -> zlen rgb = 3 -> bytes rgb -> post (set3 p rgb) (fun q => zlen q = n /\ bytes q).
Proof.
  intros Hn L B L3 B3. destruct (list3 rgb L3) as (a & b & c & ->). unfold set3.
  destruct p as [|p0 [|p1 [|p2 t]]]; try (exfalso; cbn in L; unfold zlen in L; cbn in L; lia). cbn [post].
  split; [rewrite <- L; rewrite !zlen_cons; reflexivity|]. inversion B as [|? ? _ B1]; subst. inversion B1 as [|? ? _ B2]; subst. inversion B2 as [|? ? _ B4]; subst.
  change (bytes ([a; b; c] ++ t)). apply bytes_app. split; assumption.
Qed.
Lemma bytes_zset l i v : bytes l -> is_u8 v -> bytes (zset l i v).
Proof.
  intros B Hv. unfold zset. destruct (i <? 0); [exact B|]. generalize (Z.to_nat i). clear i. induction B as [|a l Ha Hl IH]; intros [|n]; cbn; [constructor|constructor|constructor; assumption|constructor; [assumption|apply IH]].
Qed.
Lemma post_read f data : readable f -> is_u32 data -> post (bf_read f data) is_u8.
Proof. intros [R1 R2] Hd. destruct (C37_scaling f data R1 R2 Hd) as (q & -> & Hq & _). exact Hq. Qed.
Lemma post_field_pixel f ch data p : fields_ok f -> ch = 3 \/ ch = 4 -> is_u32 data -> zlen p = ch -> bytes p -> post (field_pixel f ch data p) (fun q => zlen q = ch /\ bytes q).
Proof.
  intros (F1 & F2 & F3 & F4) Hc Hd L B. unfold field_pixel. eapply post_bind; [apply post_read; assumption|]. intros vr Hr. eapply post_bind; [apply post_read; assumption|]. intros vg Hg. eapply post_bind; [apply post_read; assumption|]. intros vb Hb.
  eapply post_bind; [apply (post_set3 p [vr; vg; vb] ch); [lia|assumption|assumption|reflexivity|repeat constructor; apply Hr || apply Hg || apply Hb]|]. intros q [Q1 Q2].
  destruct (Z.eqb_spec ch 4); [|cbn; auto]. eapply post_bind with (Q := is_u8).
  { destruct (Z.eqb_spec (bf_len (bf_a f)) 0); cbn [negb]; [cbn; unfold is_u8, u8_max; lia|]. apply post_read; [tauto|assumption]. }
  intros a Ha. replace (zlen q <? 4) with false by lia. cbn [post]. split; [rewrite zlen_zset; auto|apply bytes_zset; auto].
Qed.
Lemma num_channels_cases d : b_indexed d = false -> (num_channels d = 3 /\ b_alpha d = false) \/ (num_channels d = 4 /\ b_alpha d = true).
Proof. intros E. unfold num_channels. rewrite E. destruct (b_alpha d); auto. Qed.
Lemma u16_u32 z : is_u16 z -> is_u32 z.
Proof. unfold is_u16, is_u32, u16_max, u32_max. lia. Qed.
Lemma post_16 d f buf r : good d -> fields_ok f -> zlen buf = num_channels d * b_w d * b_h d -> bytes buf -> bytes r -> post (read_16_bit d f buf r) (rowok (num_channels d * b_w d * b_h d)).
Proof.
  intros G F L B Br. destruct G as (G1 & G2 & G3 & G4 & _). destruct (num_channels_cases d G4) as [[C _]|[C _]]; unfold read_16_bit; cbv zeta; rewrite C in *;
  (apply post_with_rows; auto; [lia|]); intros row r0 L0 B0 B1; (eapply post_bind;
    [apply (post_each_pixel _ _ (b_w d)); auto; [lia|lia|]; intros p r1 Lp Bp Br1; prd; (eapply post_bind; [apply post_field_pixel; auto; apply u16_u32; assumption|]); intros q [Q1 Q2]; cbn; unfold rowok; cbn; auto|]);
  intros [row' r'] (R1 & R2 & R3); cbn [fst snd] in *; (eapply post_bind; [apply post_exact; [assumption|pose proof (Z.mod_pos_bound (b_w d) 2); lia]|]);
  intros [v r2] (V1 & V2 & V3); cbn; unfold rowok; cbn in *; auto.
Qed.
Lemma post_32 d f buf r : good d -> fields_ok f -> zlen buf = num_channels d * b_w d * b_h d -> bytes buf -> bytes r -> post (read_32_bit d f buf r) (rowok (num_channels d * b_w d * b_h d)).
Proof.
  intros G F L B Br. destruct G as (G1 & G2 & G3 & G4 & _). destruct (num_channels_cases d G4) as [[C _]|[C _]]; unfold read_32_bit; cbv zeta; rewrite C in *;
  (apply post_with_rows; auto; [lia|]); intros row r0 L0 B0 B1; (apply (post_each_pixel _ _ (b_w d)); auto; [lia|lia|]); intros p r1 Lp Bp Br1; prd; (eapply post_bind; [apply post_field_pixel; auto|]); intros q [Q1 Q2]; cbn; unfold rowok; cbn; auto.
Qed.
Lemma post_full_pixel fmt ch p r : ch = 3 \/ ch = 4 -> (fmt = FRGBA32 -> ch = 4) -> zlen p = ch -> bytes p -> bytes r -> post (full_byte_pixel fmt ch p r) (rowok ch).
Proof.
  intros Hc Hf L B Br. unfold full_byte_pixel. eapply post_bind with (Q := fun q => bytes (snd q)).
  { destruct fmt; try (cbn; assumption). eapply post_imp; [apply post_u8; assumption|]. intros q [_ Q]. exact Q. }
  intros [x r1] B1. cbn [fst snd] in *. replace (zlen p <? 3) with false by lia. pex.
  eapply post_bind; [apply (post_set3 p (rev v) ch); [lia|assumption|assumption|unfold zlen in *; rewrite rev_length; assumption|apply Forall_rev; assumption]|]. intros q [Q1 Q2].
  eapply post_bind with (Q := fun q => bytes (snd q)).
  { destruct fmt; try (cbn; assumption). eapply post_imp; [apply post_u8; assumption|]. intros q' [_ Q]. exact Q. }
  intros [y r3] B5. cbn [fst snd] in *.
  assert (FF : is_u8 255) by (unfold is_u8, u8_max; lia).
  assert (K : post (if ch =? 4 then (if zlen q <? 4 then Panic else Ok (zset q 3 255, r3)) else Ok (q, r3)) (rowok ch)).
  { destruct (Z.eqb_spec ch 4); [|cbn; unfold rowok; cbn; auto]. replace (zlen q <? 4) with false by lia. cbn [post]. unfold rowok; cbn [fst snd]. rewrite zlen_zset. split; [auto|]. split; [apply bytes_zset; auto|auto]. }
  destruct fmt; try exact K. rewrite Hf in * by reflexivity. replace (zlen q <? 4) with false by lia. prd. cbn [post]. unfold rowok; cbn [fst snd]. rewrite zlen_zset. split; [auto|]. split; [apply bytes_zset; auto|auto].
Qed.
Lemma post_full d fmt buf r : good d -> (fmt = FRGBA32 -> b_alpha d = true) -> zlen buf = num_channels d * b_w d * b_h d -> bytes buf -> bytes r -> post (read_full_byte d fmt buf r) (rowok (num_channels d * b_w d * b_h d)).
Proof.
  intros G F L B Br. destruct G as (G1 & G2 & G3 & G4 & _). destruct (num_channels_cases d G4) as [[C A]|[C A]]; unfold read_full_byte; cbv zeta; rewrite C in *;
  (apply post_with_rows; auto; [lia|]); intros row r0 L0 B0 B1; (eapply post_bind;
    [apply (post_each_pixel _ _ (b_w d)); auto; [lia|lia|]; intros p r1 Lp Bp Br1; apply post_full_pixel; auto; intros Q; specialize (F Q); congruence|]);
  intros [row' r'] (R1 & R2 & R3); cbn [fst snd] in *; (eapply post_bind; [apply post_exact; [assumption|unfold row_padding; destruct fmt; try lia; pose proof (Z.mod_pos_bound (4 - b_w d * 3 mod 4) 4); lia]|]);
  intros [v r2] (V1 & V2 & V3); cbn; unfold rowok; cbn in *; auto.
Qed.
(** a run of palette indices *)
Lemma post_set_run ch pal idxs : pal_ok pal -> 3 <= ch -> Forall (fun i => 0 <= i < 256) idxs -> forall pixels, Forall (fun p => zlen p = ch) pixels -> Forall bytes pixels ->
  post (set_run pal idxs pixels) (fun '(dn, rest, ok) => zlen dn + zlen rest = zlen pixels /\ Forall (fun p => zlen p = ch) dn /\ Forall bytes dn /\
    Forall (fun p => zlen p = ch) rest /\ Forall bytes rest /\ (ok = true -> zlen dn = zlen idxs)).
Proof.
  intros [P1 P2] Hc Hi. induction Hi as [|i idxs Hi Hl IH]; intros pixels L B; cbn [set_run]; [cbn; repeat split; auto|].
  destruct pixels as [|p pixels]; [cbn; repeat split; auto; discriminate|]. apply Forall_cons_iff in L as [La Ll]. apply Forall_cons_iff in B as [Ba Bl].
  destruct (zget_some pal i ltac:(lia)) as (rgb & E). rewrite E. assert (R : zlen rgb = 3 /\ bytes rgb) by (rewrite Forall_forall in P2; apply P2; eapply zget_In; eassumption).
  eapply post_bind; [apply (post_set3 p rgb ch); tauto|]. intros q [Q1 Q2]. eapply post_bind; [apply IH; assumption|]. intros [[dn rest] ok] (D1 & D2 & D3 & D4 & D5 & D6). cbn [post].
  rewrite !zlen_cons. (split; [lia|]); (split; [auto|]); (split; [auto|]); (split; [auto|]); (split; [auto|]). intros K. rewrite D6 by exact K. reflexivity.
Qed.
Lemma split_range : forall b, is_u8 b -> Forall (fun i => 0 <= i < 256) (split4 b) /\ Forall (fun i => 0 <= i < 256) (split2 b) /\ Forall (fun i => 0 <= i < 256) (split1 b).
Proof.
  assert (K : forallb (fun b => forallb (fun i => (0 <=? i) && (i <? 256)) (split4 b ++ split2 b ++ split1 b)) (zrange 0 256) = true) by (vm_compute; reflexivity).
  intros b Hb. rewrite forallb_forall in K. specialize (K b ltac:(apply In_zrange; unfold is_u8, u8_max in Hb; lia)). rewrite forallb_forall in K.
  split; [|split]; apply Forall_forall; intros x Hx; assert (In x (split4 b ++ split2 b ++ split1 b)) as I by (rewrite !in_app_iff; auto); specialize (K x I); lia.
Qed.
Lemma flat_range f idxs : bytes idxs -> (forall b, is_u8 b -> Forall (fun i => 0 <= i < 256) (f b)) -> Forall (fun i => 0 <= i < 256) (flat_map f idxs).
Proof. intros B H. induction B; cbn; [constructor|]. apply Forall_app. split; auto. Qed.
Lemma bytes_range idxs : bytes idxs -> Forall (fun i => 0 <= i < 256) idxs.
Proof. intros B. eapply Forall_impl; [|exact B]. unfold is_u8, u8_max. intros; lia. Qed.
Lemma set_alpha_len buf n : zlen buf = 4 * n -> 0 <= n -> bytes buf -> zlen (set_alpha_ff buf) = 4 * n /\ bytes (set_alpha_ff buf).
Proof.
  intros L Hn B. unfold set_alpha_ff. destruct (chunks_exact_id 4 buf n ltac:(lia) ltac:(lia)) as (C1 & C2).
  assert (F : Forall (fun c => zlen c = 4) (map (fun c => zset c 3 255) (chunks_exact 4 buf))).
  { apply Forall_map_iff. eapply Forall_impl; [|apply chunks_len; lia]. cbv beta. intros. rewrite zlen_zset. assumption. }
  split.
  - rewrite zlen_app, (zlen_concat 4) by exact F. rewrite zlen_skipn. unfold zlen in *. rewrite map_length. lia.
  - apply bytes_app. split; [|apply Forall_skipn'; exact B]. apply bytes_concat. apply Forall_map_iff. eapply Forall_impl; [|apply (chunks_bytes 4 buf B)]. intros. apply bytes_zset; auto. unfold is_u8, u8_max; lia.
Qed.
Lemma post_palettized d buf r : good d -> b_type d = TPalette -> zlen buf = num_channels d * b_w d * b_h d -> bytes buf -> bytes r -> post (read_palettized d buf r) (rowok (num_channels d * b_w d * b_h d)).
Proof.
  intros G T L B Br. destruct G as (G1 & G2 & G3 & G4 & G5 & G6 & _). destruct (G5 (or_introl T)) as (pal & EP & OK). specialize (G6 T).
  unfold read_palettized. rewrite EP, G4. cbv zeta. replace (i32_max <? b_bits d * b_w d + 31) with false by (unfold i32_max; destruct G6 as [->|[->|[->| ->]]]; lia).
  assert (Hch : num_channels d = 3 \/ num_channels d = 4) by (destruct (num_channels_cases d G4) as [[C _]|[C _]]; auto).
  assert (RB : 0 <= row_byte_length (b_bits d) (b_w d)) by (unfold row_byte_length; destruct G6 as [->|[->|[->| ->]]]; zdm; lia).
  set (ch := num_channels d) in *. assert (0 <= b_w d * b_h d) by (apply Z.mul_nonneg_nonneg; lia).
  assert (BB : zlen (if ch =? 4 then set_alpha_ff buf else buf) = ch * b_w d * b_h d /\ bytes (if ch =? 4 then set_alpha_ff buf else buf)).
  { destruct (Z.eqb_spec ch 4) as [E4|]; [|auto]. rewrite E4 in *. destruct (set_alpha_len buf (b_w d * b_h d) ltac:(lia) ltac:(lia) B). split; [lia|assumption]. }
  destruct BB as (BB1 & BB2). apply post_with_rows; auto; [lia|]. intros row r0 L0 B0 B1. pex.
  destruct (chunks_exact_id ch row (b_w d) ltac:(lia) ltac:(lia)) as (C1 & C2).
  assert (F1 := chunks_len ch row ltac:(lia)). assert (F2 := chunks_bytes ch row B0).
  eapply post_bind with (Q := fun '(dn, rest, ok) => zlen dn + zlen rest = b_w d /\ Forall (fun p => zlen p = ch) (dn ++ rest) /\ Forall bytes (dn ++ rest)).
  - assert (K : forall idxs, Forall (fun i => 0 <= i < 256) idxs -> post (set_run pal idxs (chunks_exact ch row)) (fun '(dn, rest, ok) => zlen dn + zlen rest = b_w d /\ Forall (fun p => zlen p = ch) (dn ++ rest) /\ Forall bytes (dn ++ rest))).
    { intros idxs Hi. eapply post_imp; [apply (post_set_run ch); auto; lia|]. intros [[dn rest] ok] (D1 & D2 & D3 & D4 & D5 & D6). rewrite !Forall_app. repeat split; auto. lia. }
    unfold set_1bit_run, set_2bit_run, set_4bit_run, set_8bit_run.
    destruct (b_bits d =? 1) eqn:E1; [apply K; apply flat_range; auto; intros; apply split_range; auto|].
    destruct (b_bits d =? 2) eqn:E2; [apply K; apply Forall_firstn'; apply flat_range; auto; intros; apply split_range; auto|].
    destruct (b_bits d =? 4) eqn:E4; [apply K; apply Forall_firstn'; apply flat_range; auto; intros; apply split_range; auto|].
    destruct (b_bits d =? 8) eqn:E8; [apply K; apply Forall_firstn'; apply bytes_range; auto|]. exfalso. lia.
  - intros [[dn rest] ok] (D1 & D2 & D3). cbn. unfold rowok; cbn. split; [|split; [apply bytes_concat; assumption|assumption]]. rewrite (zlen_concat ch) by exact D2. rewrite zlen_app. nia.
Qed.
(** *** run length encoding *)
Definition insn_ok (i : rle_insn) : Prop :=
  match i with Delta dx dy => is_u8 dx /\ is_u8 dy | Absolute n l => 3 <= n <= 255 /\ bytes l | PixelRun n i => 1 <= n <= 255 /\ is_u8 i | _ => True end.
Lemma post_insn rle4 r : bytes r -> post (read_insn rle4 r) (fun p => insn_ok (fst p) /\ bytes (snd p) /\ (length (snd p) < length r)%nat).
Proof.
  intros B. unfold read_insn. destruct r as [|c r]; cbn [read_u8 bind]; [discriminate|]. inversion B as [|? ? Hc B1]; subst.
  destruct (Z.eqb_spec c 0).
  - destruct r as [|op r]; cbn [read_u8 bind]; [discriminate|]. inversion B1 as [|? ? Ho B2]; subst.
    destruct (Z.eqb_spec op 0); [cbn; repeat split; auto; lia|]. destruct (Z.eqb_spec op 1); [cbn; repeat split; auto; lia|].
    destruct (Z.eqb_spec op 2).
    + destruct r as [|dx r]; cbn [read_u8 bind]; [discriminate|]. inversion B2 as [|? ? Hx B3]; subst. destruct r as [|dy r]; cbn [read_u8 bind]; [discriminate|]. inversion B3 as [|? ? Hy B4]; subst. cbn. repeat split; auto; try apply Hx; try apply Hy; lia.
    + cbv zeta. set (nn := (if rle4 then (op + 1) / 2 else op)). assert (0 <= nn) by (subst nn; unfold is_u8 in Ho; destruct rle4; [apply Z.div_pos; lia|lia]).
      assert (0 <= Z.land nn 1) by (apply Z.land_nonneg; lia).
      unfold read_exact. destruct (Z.ltb_spec (zlen r) (nn + Z.land nn 1)); [discriminate|]. cbn [bind post fst snd]. unfold insn_ok. unfold is_u8, u8_max in Ho. split; [split; [lia|apply Forall_firstn'; assumption]|]. split; [apply Forall_skipn'; assumption|].
      rewrite skipn_length. cbn [length]. lia.
  - destruct r as [|i r]; cbn [read_u8 bind]; [discriminate|]. inversion B1 as [|? ? Hi B2]; subst. cbn. unfold is_u8, u8_max in *. repeat split; auto; lia.
Qed.
Definition pixok (ch : Z) (p : list Z) : Prop := zlen p = ch /\ bytes p.
Definition prowok (ch w : Z) (row : prow) : Prop := zlen row = w /\ Forall (pixok ch) row.
Lemma pixok_zero ch p : pixok ch p -> pixok ch (zero p).
Proof.
  intros [L B]. unfold zero. split; [rewrite zlen_map; auto|]. apply Forall_forall. intros z Hz. apply in_map_iff in Hz as (? & <- & _). unfold is_u8, u8_max; lia.
Qed.
Lemma pixok_zero_row ch w row : prowok ch w row -> prowok ch w (zero_row row).
Proof. intros [L F]. unfold zero_row. split; [rewrite zlen_map; auto|]. apply Forall_map_iff. eapply Forall_impl; [|exact F]. intros. apply pixok_zero. assumption. Qed.
Lemma Forall_split {A} (P Q : A -> Prop) l : Forall (fun a => P a /\ Q a) l <-> Forall P l /\ Forall Q l.
Proof. split; [intros H; split; (eapply Forall_impl; [|exact H]; cbn; tauto)|]. intros [H1 H2]. rewrite Forall_forall in *. auto. Qed.
Lemma post_rle_run rle4 ch pal n indices pixels : pal_ok pal -> 3 <= ch -> bytes indices -> Forall (pixok ch) pixels ->
  post (if rle4 : bool then set_4bit_run pal indices n pixels else set_8bit_run pal indices n pixels)
    (fun '(dn, rest, ok) => zlen dn + zlen rest = zlen pixels /\ Forall (pixok ch) dn /\ Forall (pixok ch) rest).
Proof.
  intros P Hc B F. unfold pixok in F. apply Forall_split in F as [F1 F2].
  assert (K : forall idxs, Forall (fun i => 0 <= i < 256) idxs -> post (set_run pal idxs pixels) (fun '(dn, rest, ok) => zlen dn + zlen rest = zlen pixels /\ Forall (pixok ch) dn /\ Forall (pixok ch) rest)).
  { intros idxs Hi. eapply post_imp; [apply (post_set_run ch); auto|]. intros [[dn rest] ok] (D1 & D2 & D3 & D4 & D5 & D6). unfold pixok. rewrite !Forall_split. auto. }
  destruct rle4; unfold set_4bit_run, set_8bit_run; apply K; apply Forall_firstn'; [apply flat_range; auto; intros; apply split_range; auto|apply bytes_range; auto].
Qed.
Lemma post_zero_n {A} (z : A -> A) (P : A -> Prop) n l : (forall a, P a -> P (z a)) -> 0 <= n -> Forall P l ->
  post (zero_n z n l) (fun p => Forall P (fst p) /\ Forall P (snd p) /\ zlen (fst p) = n /\ zlen (fst p) + zlen (snd p) = zlen l).
Proof.
  intros H Hn F. unfold zero_n. destruct (Z.ltb_spec (zlen l) n); [discriminate|]. cbn. split; [apply Forall_map_iff; eapply Forall_impl; [|apply Forall_firstn'; exact F]; auto|].
  split; [apply Forall_skipn'; exact F|]. rewrite zlen_map, zlen_firstn, zlen_skipn. lia.
Qed.
Lemma post_rle rle4 ch w h pal : pal_ok pal -> 3 <= ch -> 0 <= w -> forall fuel done cd cr x rest r, (length r < fuel)%nat -> bytes r -> 0 <= x ->
  Forall (prowok ch w) done -> prowok ch w (cd ++ cr) -> Forall (prowok ch w) rest -> zlen done + 1 + zlen rest = h ->
  post (rle_loop fuel rle4 pal done cd cr x rest r) (fun p => zlen (fst p) = h /\ Forall (prowok ch w) (fst p) /\ bytes (snd p)).
Proof.
  intros P Hc Hw. induction fuel as [|fuel IH]; intros done cd cr x rest r Hf B Hx D C R Hh; [lia|]. cbn [rle_loop].
  eapply post_bind; [apply post_insn; exact B|]. intros [insn r'] (I1 & I2 & I3). cbn [fst snd] in *.
  assert (C0 : prowok ch w (cd ++ zero_row cr)).
  { destruct C as [C1 C2]. apply Forall_app in C2 as [C2 C3]. split; [unfold zero_row; rewrite zlen_app, zlen_map; rewrite zlen_app in C1; lia|]. apply Forall_app. split; auto. apply Forall_map_iff. eapply Forall_impl; [|exact C3]. intros. apply pixok_zero; auto. }
  destruct insn as [| |dx dy|n indices|n i].
  - cbn [post fst snd]. rewrite !zlen_app, zlen_map. change (zlen [cd ++ zero_row cr]) with 1. split; [lia|]. split; [|exact I2]. rewrite !Forall_app. split; [auto|]. split; [auto|]. apply Forall_map_iff. eapply Forall_impl; [|exact R]. intros. apply pixok_zero_row; auto.
  - cbv zeta. assert (D' : Forall (prowok ch w) (done ++ [cd ++ zero_row cr])) by (apply Forall_app; auto).
    destruct rest as [|row rest].
    + cbn. rewrite zlen_app. change (zlen [cd ++ zero_row cr]) with 1. change (zlen (@nil prow)) with 0 in Hh. repeat split; auto. lia.
    + apply Forall_cons_iff in R as [R1 R2]. apply IH; auto; try lia. rewrite zlen_app. change (zlen [cd ++ zero_row cr]) with 1. rewrite zlen_cons in Hh. lia.
  - destruct I1 as [X1 Y1]. unfold is_u8, u8_max in *.
    eapply post_bind with (Q := fun '(done, cd, cr, rest) => Forall (prowok ch w) done /\ prowok ch w (cd ++ cr) /\ Forall (prowok ch w) rest /\ zlen done + 1 + zlen rest = h).
    { destruct (Z.ltb_spec 0 dy); [|cbn; auto]. cbv zeta.
      eapply post_bind; [apply (post_zero_n zero_row (prowok ch w)); [intros; apply pixok_zero_row; auto|lia|exact R]|]. intros [sk rest'] (S1 & S2 & S3 & S4). cbn [fst snd] in *.
      destruct rest' as [|row rest']; [discriminate|]. apply Forall_cons_iff in S2 as [R1 R2]. destruct R1 as [R0 R1].
      eapply post_bind; [apply (post_zero_n zero (pixok ch)); [intros; apply pixok_zero; auto|lia|exact R1]|]. intros [cd' cr'] (T1 & T2 & T3 & T4). cbn [fst snd post] in *.
      split; [rewrite !Forall_app; auto|]. split; [split; [rewrite zlen_app; lia|apply Forall_app; auto]|]. split; [exact R2|]. rewrite !zlen_app. change (zlen [cd ++ zero_row cr]) with 1. rewrite zlen_cons in *. lia. }
    intros [[[done' cd'] cr'] rest'] (D' & C' & R' & H'). destruct C' as [C1 C2]. apply Forall_app in C2 as [C2 C3].
    eapply post_bind; [apply (post_zero_n zero (pixok ch)); [intros; apply pixok_zero; auto|lia|exact C3]|]. intros [z cr2] (T1 & T2 & T3 & T4). cbn [fst snd] in *.
    apply IH; auto; try lia. split; [rewrite !zlen_app in *; lia|]. rewrite !Forall_app. auto.
  - destruct I1 as [N1 N2]. destruct C as [C1 C2]. apply Forall_app in C2 as [C2 C3]. eapply post_bind; [apply (post_rle_run rle4 ch); auto|]. intros [[dn rest'] ok] (D1 & D2 & D3). destruct ok; [|discriminate].
    apply IH; auto; try lia. split; [rewrite !zlen_app in *; lia|]. rewrite !Forall_app. auto.
  - destruct I1 as [N1 N2]. destruct C as [C1 C2]. apply Forall_app in C2 as [C2 C3]. cbv zeta. eapply post_bind; [apply (post_rle_run rle4 ch); auto; apply Forall_forall; intros z Hz; apply repeat_spec in Hz; subst z; exact N2|]. intros [[dn rest'] ok] (D1 & D2 & D3). destruct ok; [|discriminate].
    apply IH; auto; try lia. split; [rewrite !zlen_app in *; lia|]. rewrite !Forall_app. auto.
Qed.
Lemma rows_ok ch w h buf : 1 <= ch -> 1 <= w -> 0 <= h -> zlen buf = ch * w * h -> bytes buf ->
  Forall (prowok ch w) (map (chunks_exact ch) (chunks_exact (w * ch) buf)) /\ zlen (map (chunks_exact ch) (chunks_exact (w * ch) buf)) = h.
Proof.
  intros Hc Hw Hh L B. assert (0 < w * ch) by nia. destruct (chunks_exact_id (w * ch) buf h ltac:(lia) ltac:(nia)) as (C1 & C2). split; [|rewrite zlen_map; exact C2].
  apply Forall_map_iff. assert (F := chunks_len (w * ch) buf ltac:(lia)). assert (F' := chunks_bytes (w * ch) buf B). rewrite Forall_forall in *. intros row Hr. specialize (F row Hr). specialize (F' row Hr).
  destruct (chunks_exact_id ch row w ltac:(lia) ltac:(lia)) as (E1 & E2). split; [exact E2|]. apply Forall_split. split; [apply chunks_len; lia|apply chunks_bytes; exact F'].
Qed.
Lemma rows_flat ch w rows : Forall (prowok ch w) rows -> zlen (concat (map (@concat Z) rows)) = ch * w * zlen rows /\ bytes (concat (map (@concat Z) rows)).
Proof.
  intros F. split.
  - rewrite (zlen_concat (ch * w)); [rewrite zlen_map; lia|]. apply Forall_map_iff. eapply Forall_impl; [|exact F]. intros row [R1 R2]. rewrite (zlen_concat ch); [nia|]. eapply Forall_impl; [|exact R2]. intros p [Hp _]; exact Hp.
  - apply bytes_concat. apply Forall_map_iff. eapply Forall_impl; [|exact F]. intros row [R1 R2]. apply bytes_concat. eapply Forall_impl; [|exact R2]. intros p [_ Hp]; exact Hp.
Qed.
Lemma post_read_rle d rle4 buf r : good d -> b_type d = TRLE8 \/ b_type d = TRLE4 -> zlen buf = num_channels d * b_w d * b_h d -> bytes buf -> bytes r -> post (read_rle d rle4 buf r) (rowok (num_channels d * b_w d * b_h d)).
Proof.
  intros G T L B Br. destruct G as (G1 & G2 & G3 & G4 & G5 & _). destruct (G5 (or_intror T)) as (pal & EP & OK).
  assert (Hch : num_channels d = 3 \/ num_channels d = 4) by (destruct (num_channels_cases d G4) as [[C _]|[C _]]; auto).
  unfold read_rle. rewrite EP. cbv zeta. set (ch := num_channels d) in *. replace (b_w d * ch =? 0) with false by (destruct Hch as [-> | ->]; lia).
  destruct (rows_ok ch (b_w d) (b_h d) buf ltac:(lia) ltac:(lia) ltac:(lia) L B) as (F & N). set (rows := map (chunks_exact ch) (chunks_exact (b_w d * ch) buf)) in *.
  set (rows' := if b_top_down d then rows else rev rows).
  assert (F' : Forall (prowok ch (b_w d)) rows') by (subst rows'; destruct (b_top_down d); [exact F|apply Forall_rev; exact F]).
  assert (N' : zlen rows' = b_h d) by (subst rows'; destruct (b_top_down d); [exact N|unfold zlen in *; rewrite rev_length; exact N]). clearbody rows'.
  destruct rows' as [|row rest].
  - cbn. unfold rowok. cbn. auto.
  - apply Forall_cons_iff in F' as [F1 F2]. rewrite zlen_cons in N'.
    eapply post_bind; [apply (post_rle rle4 ch (b_w d) (b_h d)); auto; try lia; change (zlen (@nil prow)) with 0; lia|].
    intros [rows2 r'] (R1 & R2 & R3). cbn [fst snd post] in *. unfold rowok. cbn [fst snd].
    assert (R2' : Forall (prowok ch (b_w d)) (if b_top_down d then rows2 else rev rows2)) by (destruct (b_top_down d); [exact R2|apply Forall_rev; exact R2]).
    destruct (rows_flat ch (b_w d) _ R2') as (A1 & A2). split; [|split; assumption]. rewrite A1. destruct (b_top_down d); [rewrite R1; reflexivity|]. unfold zlen in *. rewrite rev_length, R1. reflexivity.
Qed.
Lemma bf_eqb_true a b : bf_eqb a b = true -> bf_shift a = bf_shift b /\ bf_len a = bf_len b.
Proof. unfold bf_eqb. lia. Qed.
Lemma post_image_data file d buf : good d -> bytes file -> zlen buf = num_channels d * b_w d * b_h d -> bytes buf ->
  post (read_image_data file d buf) (rowok (num_channels d * b_w d * b_h d)).
Proof.
  intros G B L Bb. assert (Br : bytes (skipn (Z.to_nat (b_off d)) file)) by (apply Forall_skipn'; exact B). unfold read_image_data. cbv zeta.
  pose proof G as (G1 & G2 & G3 & G4 & G5 & G6 & G7 & G8).
  destruct (b_type d) eqn:T.
  - apply post_palettized; auto.
  - apply post_16; auto. unfold fields_ok, readable; cbn. lia.
  - apply post_full; auto. discriminate.
  - apply post_full; auto. discriminate.
  - apply post_full; auto.
  - apply post_read_rle; auto.
  - apply post_read_rle; auto.
  - destruct (b_fields d) as [f|] eqn:E; [|discriminate]. apply post_16; auto. apply (G8 f eq_refl).
  - destruct (b_fields d) as [f|] eqn:E; [|discriminate]. destruct (G8 f eq_refl) as (F1 & F2).
    destruct (bfs_eqb f R8_G8_B8); [apply post_full; auto; discriminate|]. destruct (bfs_eqb f R8_G8_B8_A8) eqn:E8; [|apply post_32; auto].
    apply post_full; auto. intros _. apply F2. unfold bfs_eqb in E8. rewrite !Bool.andb_true_iff in E8. destruct E8 as (_ & E8). apply bf_eqb_true in E8. cbn in E8. lia.
Qed.
