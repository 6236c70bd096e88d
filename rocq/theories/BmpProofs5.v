(** The BMP headers, by file offsets. *)
From Verif Require Import Base BaseLemmas ListLemmas ListMore BitLemmas BmpBits BmpBitsProps Bmp DxtProofs2 IcoSpec IcoProofs BmpSpec Post BmpProofs BmpProofs2 TgaProofs2 BmpProofs3 BmpProofs4.
Local Open Scope Z_scope.

Lemma u16_inv file o v r : 0 <= o -> read_u16le (at_ file o) = Ok (v, r) -> v = num16 file o /\ r = at_ file (o + 2).
Proof. intros Ho E. rewrite at_u16 in E by lia. destruct (_ <? _); [discriminate|]. apply Ok_inj in E. inversion E; auto. Qed.
Lemma u32_inv file o v r : 0 <= o -> read_u32le (at_ file o) = Ok (v, r) -> v = num32 file o /\ r = at_ file (o + 4).
Proof. intros Ho E. rewrite at_u32n in E by lia. destruct (_ <? _); [discriminate|]. apply Ok_inj in E. inversion E; auto. Qed.
Lemma i32_inv file o v r : bytes file -> 0 <= o -> read_i32le (at_ file o) = Ok (v, r) -> v = signed32 (num32 file o) /\ r = at_ file (o + 4).
Proof.
  intros B Ho E. unfold read_i32le in E. apply bind_ok in E as ([w r1] & E1 & E). apply u32_inv in E1 as [-> ->]; [|lia]. apply Ok_inj in E. inversion E; subst. split; [|reflexivity].
  pose proof (num32_u file o B) as R. unfold wrap_i32, signed32, u32_max in *. destruct (Z.ltb_spec (num32 file o) 2147483648); clear E; zdm.
Qed.
Ltac st H := first [
  (let v := fresh "v" in let r := fresh "r" in let E := fresh "E" in apply bind_ok in H as ([v r] & E & H);
   first [apply u16_inv in E as [-> ->]; [|lia]|apply u32_inv in E as [-> ->]; [|lia]|apply i32_inv in E as [-> ->]; [|assumption|lia]])
 | match type of H with (if ?b then Err _ else _) = _ => let E := fresh "C" in destruct b eqn:E; [discriminate|] end ].
Lemma core_inv alpha file p d r : bytes file -> 0 <= p -> dib_core file p = true -> read_core_header alpha (at_ file (p + 4)) = Ok (d, r) ->
  di_w d = dib_width file p /\ di_h d = Z.abs (dib_height file p) /\ di_td d = (dib_height file p <? 0) /\ di_bits d = dib_depth file p /\ di_used d = dib_colors file p /\
  In (dib_method file p, dib_depth file p, di_type d) (kinds alpha) /\ has_fields (di_type d) = false.
Proof.
  intros B Hp C E. unfold dib_width, dib_height, dib_depth, dib_colors, dib_method. rewrite C. unfold read_core_header in E.
  st E. st E. apply bind_ok in E as (u & _ & E). st E. st E. st E.
  replace (p + 4 + 2) with (p + 6) in * by lia. replace (p + 6 + 2) with (p + 8) in * by lia. replace (p + 8 + 2) with (p + 10) in * by lia.
  pose proof (num16_u file (p + 6) B).
  destruct ((num16 file (p + 10) =? 1) || (num16 file (p + 10) =? 4) || (num16 file (p + 10) =? 8)) eqn:D.
  - apply Ok_inj in E. inversion E; subst. cbn [di_w di_h di_td di_bits di_used di_type has_fields]. split; [reflexivity|]. split; [lia|]. split; [lia|]. split; [reflexivity|]. split; [reflexivity|]. split; [|reflexivity].
    assert (D' : num16 file (p + 10) = 1 \/ num16 file (p + 10) = 4 \/ num16 file (p + 10) = 8) by lia. unfold kinds. destruct D' as [->|[->| ->]]; cbn; auto 10.
  - destruct (Z.eqb_spec (num16 file (p + 10)) 24) as [D2|]; [|discriminate]. apply Ok_inj in E. inversion E; subst. cbn [di_w di_h di_td di_bits di_used di_type has_fields]. rewrite D2. split; [reflexivity|]. split; [lia|]. split; [lia|]. split; [reflexivity|]. split; [reflexivity|]. split; [|reflexivity].
    unfold kinds. cbn. auto 10.
Qed.
Lemma type_inv alpha ty bits t : image_type_of alpha ty bits = Ok t -> In (ty, bits, t) (kinds alpha).
Proof.
  unfold image_type_of, kinds. intros E.
  destruct (Z.eqb_spec ty 0) as [->|]; [|destruct (Z.eqb_spec ty 1) as [->|]; [|destruct (Z.eqb_spec ty 2) as [->|]; [|destruct (Z.eqb_spec ty 3) as [->|]; [|destruct (_ || _); discriminate]]]].
  - destruct ((bits =? 1) || (bits =? 2) || (bits =? 4) || (bits =? 8)) eqn:D.
    + apply Ok_inj in E. subst t. assert (D' : bits = 1 \/ bits = 2 \/ bits = 4 \/ bits = 8) by lia. destruct D' as [->|[->|[->| ->]]]; cbn; auto 20.
    + destruct (Z.eqb_spec bits 16) as [->|]; [apply Ok_inj in E; subst; cbn; auto 20|]. destruct (Z.eqb_spec bits 24) as [->|]; [apply Ok_inj in E; subst; cbn; auto 20|].
      destruct (Z.eqb_spec bits 32) as [->|]; [apply Ok_inj in E; subst; cbn; auto 20|discriminate].
  - destruct (Z.eqb_spec bits 8) as [->|]; [apply Ok_inj in E; subst; cbn; auto 20|discriminate].
  - destruct (Z.eqb_spec bits 4) as [->|]; [apply Ok_inj in E; subst; cbn; auto 20|discriminate].
  - destruct (Z.eqb_spec bits 16) as [->|]; [apply Ok_inj in E; subst; cbn; auto 20|]. destruct (Z.eqb_spec bits 32) as [->|]; [apply Ok_inj in E; subst; cbn; auto 20|discriminate].
Qed.
Lemma info_inv alpha file p d r : bytes file -> 0 <= p -> dib_core file p = false -> read_info_header alpha (at_ file (p + 4)) = Ok (d, r) ->
  di_w d = dib_width file p /\ di_h d = Z.abs (dib_height file p) /\ di_td d = (dib_height file p <? 0) /\ di_bits d = dib_depth file p /\ di_used d = dib_colors file p /\
  In (dib_method file p, dib_depth file p, di_type d) (kinds alpha) /\ r = at_ file (p + 40).
Proof.
  intros B Hp C E. unfold dib_width, dib_height, dib_depth, dib_colors, dib_method. rewrite C. unfold read_info_header in E.
  st E. st E. replace (p + 4 + 4) with (p + 8) in * by lia. st E. st E. st E. cbv zeta in E. apply bind_ok in E as (u & _ & E). st E. st E. st E. st E. st E. apply bind_ok in E as (t & ET & E).
  st E. st E. st E. st E. st E. apply Ok_inj in E. inversion E; subst. cbn [di_w di_h di_td di_bits di_used di_type].
  replace (p + 8 + 4 + 2) with (p + 14) in * by lia. replace (p + 14 + 2) with (p + 16) in * by lia. replace (p + 16 + 4 + 4 + 4 + 4) with (p + 32) in * by lia.
  apply type_inv in ET. split.
  { pose proof (num32_u file (p + 4) B) as R. unfold u32_max in R. unfold signed32 in C0 |- *. destruct (Z.ltb_spec (num32 file (p + 4)) 2147483648); lia. }
  split; [destruct (Z.ltb_spec (signed32 (num32 file (p + 8))) 0); lia|]. split; [reflexivity|]. split; [reflexivity|]. split; [reflexivity|]. split; [exact ET|]. f_equal. lia.
Qed.
Lemma masks_inv file p ht it fs extra : 0 <= p -> read_bitmasks ht it (at_ file (p + 40)) = Ok (fs, extra) -> has_fields it = true ->
  (match ht with HV3 | HV4 | HV5 => true | _ => false end) = (56 <=? dib_size file p) -> ht <> HCore ->
  extra = negb (dib_alpha_mask file p =? 0) /\ exists f, fs = Some f /\
  bfs_from_mask (dib_mask file p 0) (dib_mask file p 1) (dib_mask file p 2) (dib_alpha_mask file p) (match it with TBitfields16 => 16 | _ => 32 end) = Ok f.
Proof.
  intros Hp E HF HT NC. unfold read_bitmasks in E. st E. st E. st E.
  apply bind_ok in E as ([am ra] & EA & E).
  assert (A : am = dib_alpha_mask file p).
  { unfold dib_alpha_mask. rewrite <- HT. destruct ht; try (apply Ok_inj in EA; inversion EA; reflexivity); apply u32_inv in EA as [-> _]; try lia; unfold dib_mask; f_equal; lia. }
  subst am. unfold dib_mask. replace (p + 40 + 4 * 0) with (p + 40) by lia. replace (p + 40 + 4 * 1) with (p + 40 + 4) by lia. replace (p + 40 + 4 * 2) with (p + 40 + 4 + 4) by lia.
  destruct it; try discriminate HF; apply bind_ok in E as (f & EF & E); apply Ok_inj in E; inversion E; subst; (split; [reflexivity|]); exists f; (split; [reflexivity|exact EF]).
Qed.
Lemma palette_inv core file q bits used pal n : bytes file -> 0 <= q -> bits = 1 \/ bits = 2 \/ bits = 4 \/ bits = 8 -> 0 <= used -> read_palette core bits used (at_ file q) = Ok (pal, n) ->
  zlen pal = 256 /\ n = (if used =? 0 then 2 ^ bits else used) * (if core then 3 else 4) /\
  forall i, 0 <= i < 256 -> zget pal i = Some (let o := q + (if core then 3 else 4) * i in
    if i <? (if used =? 0 then 2 ^ bits else used) then [byte_at file (o + 2); byte_at file (o + 1); byte_at file o] else [0; 0; 0]).
Proof.
  intros B Hq Hb Hu E. unfold read_palette in E. set (bpc := if core then 3 else 4) in *. assert (Hc : 3 <= bpc <= 4) by (subst bpc; destruct core; lia).
  apply bind_ok in E as (sz & ES & E). set (cnt := if used =? 0 then 2 ^ bits else used) in *.
  assert (P2 : 2 <= 2 ^ bits <= 256) by (destruct Hb as [->|[->|[->| ->]]]; cbn; lia).
  assert (SZ : sz = cnt /\ 1 <= cnt <= 256).
  { unfold get_palette_size in ES. subst cnt. destruct (Z.eqb_spec used 0).
    - replace (63 <? bits) with false in ES by lia. apply Ok_inj in ES. lia.
    - replace (31 <? bits) with false in ES by lia. destruct (Z.ltb_spec (2 ^ bits) used); [discriminate|]. apply Ok_inj in ES. lia. }
  destruct SZ as [-> HC]. clear ES. clearbody cnt. cbv zeta in E. assert (Hm : 0 <= cnt * bpc <= 256 * bpc) by nia. replace (Z.min (cnt * bpc) (256 * bpc)) with (cnt * bpc) in E by lia.
  apply bind_ok in E as ([buf r'] & ER & E). rewrite read_exact_if in ER by lia. destruct (Z.leb_spec (cnt * bpc) (zlen (at_ file q))) as [LR|]; [|discriminate]. apply Ok_inj in ER. inversion ER; subst buf r'. clear ER.
  set (buf := firstn (Z.to_nat (cnt * bpc)) (at_ file q)) in *. assert (Lb : zlen buf = cnt * bpc) by (unfold buf; rewrite zlen_firstn; lia). rewrite Lb in E.
  set (buf2 := buf ++ repeat 0 (Z.to_nat (256 * bpc - cnt * bpc))) in *.
  assert (GB : forall j, 0 <= j < 256 * bpc -> zget buf2 j = Some (if j <? cnt * bpc then byte_at file (q + j) else 0)).
  { intros j Hj. unfold buf2. rewrite zget_app by lia. rewrite Lb. destruct (Z.ltb_spec j (cnt * bpc)).
    - unfold at_ in LR. rewrite zlen_skipn, Z2Nat.id in LR by lia. unfold byte_at. destruct (zget_some file (q + j) ltac:(lia)) as (v & EV). rewrite EV. rewrite <- EV.
      unfold buf. change (firstn (Z.to_nat (cnt * bpc)) (at_ file q)) with (zslice file q (cnt * bpc)). rewrite zget_zslice_gen by lia. replace ((0 <=? j) && (j <? cnt * bpc)) with true by lia. reflexivity.
    - unfold zget. replace (j - cnt * bpc <? 0) with false by lia. apply nth_error_repeat. lia. }
  clearbody buf2. clear buf Lb LR.
  apply bind_ok in E as (p & EP & E). apply Ok_inj in E. inversion E; subst p n. clear E.
  set (entry := fun i => if i <? cnt then [byte_at file (q + bpc * i + 2); byte_at file (q + bpc * i + 1); byte_at file (q + bpc * i)] else [0; 0; 0]).
  assert (EE : foldM (fun p i => match zget buf2 (bpc * i), zget buf2 (bpc * i + 1), zget buf2 (bpc * i + 2) with Some b, Some g, Some r => Ok (p ++ [[r; g; b]]) | _, _, _ => Panic end) (zrange 0 256) [] = Ok (map entry (zrange 0 256))).
  { match goal with |- foldM ?f _ _ = _ => destruct (foldM_zrange_inv f (fun i st => st = map entry (zrange 0 i)) 0 256 []) as (s & E1 & E2) end; [lia|reflexivity| |].
    - intros i st Hi ->. rewrite Z.add_0_l. rewrite !GB by nia. eexists. split; [reflexivity|]. rewrite zrange_snoc by lia. rewrite map_app. f_equal. cbn [map]. f_equal. rewrite Z.add_0_l. unfold entry. destruct (Z.ltb_spec i cnt).
      + replace (bpc * i <? cnt * bpc) with true by nia. replace (bpc * i + 1 <? cnt * bpc) with true by nia. replace (bpc * i + 2 <? cnt * bpc) with true by nia. rewrite !Z.add_assoc. reflexivity.
      + replace (bpc * i <? cnt * bpc) with false by nia. replace (bpc * i + 1 <? cnt * bpc) with false by nia. replace (bpc * i + 2 <? cnt * bpc) with false by nia. reflexivity.
    - rewrite E1. f_equal. exact E2. }
  rewrite EE in EP. apply Ok_inj in EP. subst pal. rewrite zlen_map, zlen_zrange. split; [reflexivity|]. split; [reflexivity|]. intros i Hi. rewrite zget_map, zget_zrange by lia. reflexivity.
Qed.
Lemma header_type_inv size ht : header_type size = Ok ht -> In size [12; 40; 52; 56; 108; 124] /\ (ht = HCore <-> size = 12) /\
  (match ht with HV3 | HV4 | HV5 => true | _ => false end) = (56 <=? size).
Proof.
  unfold header_type. intros E.
  repeat match type of E with (if ?a =? ?b then _ else _) = _ => destruct (Z.eqb_spec a b) as [->|]; [apply Ok_inj in E; subst; split; [cbn; tauto|split; [split; [intros; try discriminate; reflexivity|intros; try discriminate; reflexivity]|reflexivity]]|] end.
  destruct (size <? 12); discriminate.
Qed.
Lemma kinds_bits a m b t : In (m, b, t) (kinds a) -> has_palette t = true -> bits_ok b.
Proof.
  unfold kinds, bits_ok. cbn [In]. intros H HP. repeat (destruct H as [H|H]; [inversion H; subst; first [lia|discriminate HP|destruct a; discriminate HP]|]). destruct H.
Qed.
Lemma kinds_depth a m b t : In (m, b, t) (kinds a) -> has_fields t = true -> b = match t with TBitfields16 => 16 | _ => 32 end.
Proof.
  unfold kinds. cbn [In]. intros H HP. repeat (destruct H as [H|H]; [inversion H; subst; first [reflexivity|discriminate HP|destruct a; discriminate HP]|]). destruct H.
Qed.
Lemma metadata_inv file start nfh alpha d : bytes file -> 0 <= start -> read_metadata file start nfh alpha = Ok d ->
  let p := if nfh then start else start + 14 in
  describes file p alpha d /\
  (nfh = false -> zslice file start 2 = [66; 77] /\ b_off d = num32 file (start + 10)) /\
  (nfh = true -> b_off d = p + dib_size file p + (if has_palette (b_type d) then (if dib_core file p then 3 else 4) * palette_count file p else 0)).
Proof.
  intros B Hs E. pose proof (post_metadata file start nfh alpha B Hs) as PM. rewrite E in PM. cbn [post] in PM. destruct PM as ((G1 & G2 & G3 & G4 & G5 & G6 & G7) & GH). unfold read_metadata in E. set (p := if nfh then start else start + 14). assert (Hp : 0 <= p) by (subst p; destruct nfh; lia). cbv zeta.
  fold (at_ file start) in E. apply bind_ok in E as ([off r] & EO & E).
  assert (O : r = at_ file p /\ (nfh = false -> zslice file start 2 = [66; 77] /\ off = num32 file (start + 10))).
  { unfold p. destruct nfh; [apply Ok_inj in EO; inversion EO; subst; split; [reflexivity|discriminate]|]. unfold read_file_header in EO. apply bind_ok in EO as ([sig r1] & E1 & EO). rewrite at_exact in E1 by lia.
    destruct (zlen file <? start + 2); [destruct (_ && _) eqn:X; [lia|discriminate]|]. apply Ok_inj in E1. inversion E1; subst. st EO. st EO. st EO. apply u32_inv in EO as [-> ->]; [|lia]. split; [f_equal; lia|]. intros _. split; [|f_equal; lia].
    apply Bool.negb_false_iff in C. apply leqb_eq in C. exact C. }
  destruct O as [-> O]. cbv zeta in E. fold p in E. apply bind_ok in E as ([size r] & ES & E). apply u32_inv in ES as [-> ->]; [|lia]. fold (dib_size file p) in E.
  apply bind_ok in E as (ht & EH & E). apply header_type_inv in EH as (H1 & H2 & H3). apply bind_ok in E as ([di r] & ED & E).
  assert (C : dib_core file p = match ht with HCore => true | _ => false end) by (unfold dib_core; destruct (Z.eqb_spec (dib_size file p) 12) as [Q|Q]; rewrite <- H2 in Q; destruct ht; tauto || congruence).
  assert (DI : di_w di = dib_width file p /\ di_h di = Z.abs (dib_height file p) /\ di_td di = (dib_height file p <? 0) /\ di_bits di = dib_depth file p /\ di_used di = dib_colors file p /\
     In (dib_method file p, dib_depth file p, di_type di) (kinds alpha) /\ (has_fields (di_type di) = true -> r = at_ file (p + 40) /\ ht <> HCore)).
  { destruct ht; [apply core_inv in ED; auto; destruct ED as (A1 & A2 & A3 & A4 & A5 & A6 & A7); rewrite A7; repeat (split; [assumption|]); discriminate|..];
    (apply info_inv in ED; auto; destruct ED as (A1 & A2 & A3 & A4 & A5 & A6 & ->); repeat (split; [assumption|]); intros _; split; [reflexivity|discriminate]). }
  destruct DI as (D1 & D2 & D3 & D4 & D5 & D6 & D7). apply bind_ok in E as ([fs extra] & EF & E).
  apply bind_ok in E as ([pal pos] & EPal & E). apply Ok_inj in E. subst d. cbn [b_w b_h b_off b_top_down b_alpha b_type b_bits b_pal b_fields b_indexed] in *.
  assert (S0 : 0 <= dib_size file p) by (destruct H1 as [H1|[H1|[H1|[H1|[H1|[H1|[]]]]]]]; rewrite <- H1; lia).
  assert (U0 : 0 <= dib_colors file p) by (unfold dib_colors; destruct (dib_core file p); [lia|]; pose proof (num32_u file (p + 32) B); lia).
  assert (PB : has_palette (di_type di) = true -> bits_ok (di_bits di)).
  { rewrite D4. eapply kinds_bits. exact D6. }
  assert (PAL : (has_palette (di_type di) = true -> exists q, pal = Some q /\ zlen q = 256 /\ (forall i, 0 <= i < 256 -> zget q i = Some (palette_colour file p i)) /\ pos = p + dib_size file p + (if dib_core file p then 3 else 4) * palette_count file p) /\
                (has_palette (di_type di) = false -> pal = None /\ pos = p + dib_size file p)).
  { destruct (di_type di) eqn:T; cbn [has_palette]; (split; [intros HP; try discriminate HP|intros HP; try discriminate HP; apply Ok_inj in EPal; inversion EPal; auto]);
    (apply bind_ok in EPal as ([q n] & EQ & EPal); apply Ok_inj in EPal; inversion EPal; subst; fold (at_ file (p + dib_size file p)) in EQ; rewrite D4, D5 in EQ;
     rewrite D4 in PB; apply palette_inv in EQ; [|exact B|lia|exact (PB eq_refl)|exact U0]; destruct EQ as (Q1 & -> & Q2); exists q; split; [reflexivity|]; split; [exact Q1|]; split;
     [intros i Hi; rewrite Q2 by exact Hi; f_equal; unfold palette_colour, palette_count; rewrite C; reflexivity|unfold palette_count; rewrite C; ring]). }
  destruct PAL as [PAL1 PAL2].
  assert (FLD : (has_fields (di_type di) = true -> extra = negb (dib_alpha_mask file p =? 0) /\ exists f, fs = Some f /\ bfs_from_mask (dib_mask file p 0) (dib_mask file p 1) (dib_mask file p 2) (dib_alpha_mask file p) (dib_depth file p) = Ok f) /\
                (has_fields (di_type di) = false -> fs = None /\ extra = false)).
  { split.
    - intros HF. destruct (D7 HF) as [-> NC].
      assert (EB : read_bitmasks ht (di_type di) (at_ file (p + 40)) = Ok (fs, extra)) by (destruct (di_type di); try discriminate HF; exact EF).
      destruct (masks_inv file p ht (di_type di) fs extra Hp EB HF H3 NC) as (-> & f & -> & EQ). split; [reflexivity|]. exists f. split; [reflexivity|]. rewrite <- EQ. f_equal.
      rewrite (kinds_depth _ _ _ _ D6 HF). reflexivity.
    - intros HF. destruct (di_type di); try discriminate HF; apply Ok_inj in EF; inversion EF; auto. }
  destruct FLD as [FLD1 FLD2]. split; [|split].
  - constructor; cbn [b_w b_h b_off b_top_down b_alpha b_type b_bits b_pal b_fields b_indexed]; auto.
    + destruct (has_palette (di_type di)) eqn:HP; [|apply PAL2; reflexivity]. destruct (PAL1 eq_refl) as (q & -> & Q1 & Q2 & _). exists q. auto.
    + destruct (has_fields (di_type di)) eqn:HF; [|apply FLD2; reflexivity]. apply FLD1. reflexivity.
    + destruct (has_fields (di_type di)) eqn:HF; [destruct (FLD1 eq_refl) as [-> _]; reflexivity|]. destruct (FLD2 eq_refl) as [_ ->]. reflexivity.
  - intros ->. exact (O eq_refl).
  - intros ->. destruct (has_palette (di_type di)) eqn:HP; [destruct (PAL1 eq_refl) as (_ & _ & _ & _ & ->); reflexivity|]. destruct (PAL2 eq_refl) as [_ ->]. lia.
Qed.
