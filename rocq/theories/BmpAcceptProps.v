(** C52, the other direction: which BMP headers are accepted. *)
From Verif Require Import Base BaseLemmas ListLemmas ListMore BmpBits Bmp DxtProofs2 IcoSpec IcoProofs BmpSpec TgaProofs2 BmpProofs3 BmpProofs4 BmpProofs5.
Local Open Scope Z_scope.

Lemma u16_fwd file o : 0 <= o -> o + 2 <= zlen file -> read_u16le (at_ file o) = Ok (num16 file o, at_ file (o + 2)).
Proof. intros Ho L. rewrite at_u16 by lia. replace (zlen file <? o + 2) with false by lia. reflexivity. Qed.
Lemma u32_fwd file o : 0 <= o -> o + 4 <= zlen file -> read_u32le (at_ file o) = Ok (num32 file o, at_ file (o + 4)).
Proof. intros Ho L. rewrite at_u32n by lia. replace (zlen file <? o + 4) with false by lia. reflexivity. Qed.
Lemma i32_fwd file o : bytes file -> 0 <= o -> o + 4 <= zlen file -> read_i32le (at_ file o) = Ok (signed32 (num32 file o), at_ file (o + 4)).
Proof.
  intros B Ho L. unfold read_i32le. rewrite u32_fwd by lia. cbn [bind]. do 2 f_equal.
  pose proof (num32_u file o B) as R. unfold wrap_i32, signed32, u32_max in *. destruct (Z.ltb_spec (num32 file o) 2147483648); zdm.
Qed.

(** A DIB header at p of one of the documented sizes (other than the 12-byte one), one plane, a width and height that are not 0 and at most 65535 (but a
    negative height is bounded by the field alone), a documented pair of compression method and depth; top-down storage (negative height) only for methods 0 and 3; a palette no larger than the depth can address, and
    the masks and the palette present. *)
Record acceptable (file : list Z) (p : Z) (t : imtype) : Prop := mkAcceptable {
  ac_room : p + 40 <= zlen file;
  ac_size : In (dib_size file p) [40; 52; 56; 108; 124];
  ac_w : 0 < signed32 (num32 file (p + 4)) <= 65535;
  ac_h : -2147483648 < signed32 (num32 file (p + 8)) <= 65535 /\ signed32 (num32 file (p + 8)) <> 0;
  ac_planes : num16 file (p + 12) = 1;
  ac_kind : In (dib_method file p, dib_depth file p, t) (kinds false);
  ac_top_down : signed32 (num32 file (p + 8)) < 0 -> dib_method file p = 0 \/ dib_method file p = 3;
  ac_palette : has_palette t = true -> dib_colors file p <= 2 ^ dib_depth file p /\ p + dib_size file p + 4 * palette_count file p <= zlen file;
  ac_masks : has_fields t = true -> p + (if 56 <=? dib_size file p then 56 else 52) <= zlen file /\
    exists f, bfs_from_mask (dib_mask file p 0) (dib_mask file p 1) (dib_mask file p 2) (dib_alpha_mask file p) (dib_depth file p) = Ok f }.

Lemma palette_fwd (core : bool) file q bits used : 0 <= q -> bits = 1 \/ bits = 2 \/ bits = 4 \/ bits = 8 -> 0 <= used <= 2 ^ bits ->
  q + (if core then 3 else 4) * (if used =? 0 then 2 ^ bits else used) <= zlen file -> exists x, read_palette core bits used (at_ file q) = Ok x.
Proof.
  intros Hq Hb Hu L. assert (P2 : 2 <= 2 ^ bits <= 256) by (destruct Hb as [->|[->|[->| ->]]]; cbn; lia). unfold read_palette. set (cnt := if used =? 0 then 2 ^ bits else used) in *.
  assert (G : get_palette_size bits used = Ok cnt).
  { unfold get_palette_size, cnt. destruct (Z.eqb_spec used 0); [replace (63 <? bits) with false by lia; reflexivity|].
    replace (31 <? bits) with false by lia. replace (2 ^ bits <? used) with false by lia. reflexivity. }
  assert (HC : 1 <= cnt <= 256) by (unfold cnt; destruct (Z.eqb_spec used 0); lia). rewrite G. cbn [bind]. clearbody cnt. set (bpc := if core then 3 else 4) in *. assert (Hc : 3 <= bpc <= 4) by (subst bpc; destruct core; lia). clearbody bpc. cbv zeta. replace (Z.min (cnt * bpc) (256 * bpc)) with (cnt * bpc) by nia.
  rewrite read_exact_if by nia. replace (cnt * bpc <=? zlen (at_ file q)) with true by (unfold at_; rewrite zlen_skipn; lia). cbn [bind].
  set (buf := firstn (Z.to_nat (cnt * bpc)) (at_ file q)) in *. assert (Lb : zlen buf = cnt * bpc) by (unfold buf, at_; rewrite zlen_firstn, zlen_skipn; lia).
  set (b2 := buf ++ repeat 0 (Z.to_nat (256 * bpc - zlen buf))). assert (L2 : zlen b2 = 256 * bpc) by (unfold b2; rewrite Lb; unfold zlen in *; rewrite app_length, repeat_length; nia). clearbody b2.
  match goal with |- context [foldM ?f (zrange 0 256) []] => destruct (foldM_zrange_inv f (fun _ _ => True) 0 256 []) as (s & -> & _) end; [lia|exact I| |].
  - intros i st Hi _. destruct (zget_some b2 (bpc * (0 + i)) ltac:(nia)) as (x & ->). destruct (zget_some b2 (bpc * (0 + i) + 1) ltac:(nia)) as (y & ->). destruct (zget_some b2 (bpc * (0 + i) + 2) ltac:(nia)) as (z & ->). eauto.
  - cbn [bind]. eauto.
Qed.
Lemma info_fwd file p t : bytes file -> 0 <= p -> acceptable file p t ->
  exists d, read_info_header false (at_ file (p + 4)) = Ok (d, at_ file (p + 40)) /\ di_type d = t /\ di_bits d = dib_depth file p /\ di_used d = dib_colors file p.
Proof.
  intros B Hp A. destruct A as [R S W H P K D _ _].
  assert (C : dib_core file p = false) by (unfold dib_core; destruct S as [S|[S|[S|[S|[S|[]]]]]]; rewrite <- S; reflexivity).
  unfold dib_method, dib_depth, dib_colors in *. rewrite C in *. unfold read_info_header.
  rewrite i32_fwd by (assumption || lia). cbn [bind]. replace (p + 4 + 4) with (p + 8) by lia.
  rewrite i32_fwd by (assumption || lia). cbn [bind]. replace (p + 8 + 4) with (p + 12) by lia.
  set (w := signed32 (num32 file (p + 4))) in *. set (h := signed32 (num32 file (p + 8))) in *.
  replace (w <? 0) with false by lia. replace ((65535 <? w) || (65535 <? h)) with false by lia. replace (h =? i32_min) with false by (unfold i32_min; lia). cbv zeta.
  assert (O : check_for_overflow w (if h <? 0 then - h else h) (num_channels0 false) = Ok tt).
  { set (a := if h <? 0 then - h else h). assert (HA : 0 < a <= 2147483647) by (unfold a; destruct (Z.ltb_spec h 0); lia). unfold check_for_overflow, num_channels0, u64_max.
    replace ((w <=? 0) || (a <=? 0)) with false by lia. replace ((18446744073709551615 <? 3 * w) || (18446744073709551615 <? 3 * w * a)) with false by nia. reflexivity. }
  rewrite O. cbn [bind]. rewrite u16_fwd by lia. cbn [bind]. rewrite P. cbn [Z.eqb Pos.eqb negb]. replace (p + 12 + 2) with (p + 14) by lia.
  rewrite u16_fwd by lia. cbn [bind]. replace (p + 14 + 2) with (p + 16) by lia. rewrite u32_fwd by lia. cbn [bind]. replace (p + 16 + 4) with (p + 20) by lia.
  assert (MT : image_type_of false (num32 file (p + 16)) (num16 file (p + 14)) = Ok t).
  { unfold kinds in K. cbn [In] in K. repeat (destruct K as [K|K]; [injection K as <- <- <-; reflexivity|]). destruct K. }
  replace ((h <? 0) && negb (num32 file (p + 16) =? 0) && negb (num32 file (p + 16) =? 3)) with false.
  2: { destruct (Z.ltb_spec h 0) as [N|N]; [|reflexivity]. destruct (D N) as [-> | ->]; reflexivity. }
  rewrite MT. cbn [bind]. rewrite u32_fwd by lia. cbn [bind]. replace (p + 20 + 4) with (p + 24) by lia. rewrite u32_fwd by lia. cbn [bind]. replace (p + 24 + 4) with (p + 28) by lia.
  rewrite u32_fwd by lia. cbn [bind]. replace (p + 28 + 4) with (p + 32) by lia. rewrite u32_fwd by lia. cbn [bind]. replace (p + 32 + 4) with (p + 36) by lia.
  rewrite u32_fwd by lia. cbn [bind]. replace (p + 36 + 4) with (p + 40) by lia. eexists. repeat (split; [reflexivity|]). reflexivity.
Qed.
Lemma masks_fwd file p t ht : 0 <= p -> p + (if 56 <=? dib_size file p then 56 else 52) <= zlen file -> has_fields t = true -> dib_core file p = false ->
  (match ht with HV3 | HV4 | HV5 => true | _ => false end) = (56 <=? dib_size file p) ->
  In (dib_method file p, dib_depth file p, t) (kinds false) ->
  (exists f, bfs_from_mask (dib_mask file p 0) (dib_mask file p 1) (dib_mask file p 2) (dib_alpha_mask file p) (dib_depth file p) = Ok f) ->
  exists x, read_bitmasks ht t (at_ file (p + 40)) = Ok x.
Proof.
  intros Hp R HF C HT K (f & Hf). rewrite <- HT in R. assert (R0 : p + 52 <= zlen file) by (destruct ht; lia). unfold read_bitmasks. rewrite u32_fwd by lia. cbn [bind]. rewrite u32_fwd by lia. cbn [bind]. rewrite u32_fwd by lia. cbn [bind].
  unfold dib_alpha_mask, dib_mask in Hf. rewrite <- HT in Hf. unfold kinds in K. cbn [In] in K.
  assert (DT : (t = TBitfields16 /\ dib_depth file p = 16) \/ (t = TBitfields32 /\ dib_depth file p = 32)).
  { repeat (destruct K as [K|K]; [injection K as _ <- <-; try discriminate HF; auto|]). destruct K. }
  replace (p + 40 + 4 * 0) with (p + 40) in Hf by lia. replace (p + 40 + 4 * 1) with (p + 40 + 4) in Hf by lia. replace (p + 40 + 4 * 2) with (p + 40 + 4 + 4) in Hf by lia.
  replace (p + 40 + 4 * 3) with (p + 40 + 4 + 4 + 4) in Hf by lia.
  destruct ht; first [rewrite (u32_fwd file (p + 40 + 4 + 4 + 4)) by lia|idtac]; cbn [bind];
    (destruct DT as [(-> & DD) | (-> & DD)]; rewrite DD in Hf; rewrite Hf; cbn [bind]; eexists; reflexivity).
Qed.

(** read_metadata behind the file header *)
Definition rest (file : list Z) (p off : Z) (nfh : bool) : res bmp :=
  '(size, r) <- read_u32le (at_ file p) ;;
      let header_end := p + size in
      ht <- header_type size ;;
      '(d, r) <- (match ht with HCore => read_core_header false r | _ => read_info_header false r end) ;;
      '(fields, extra) <- (match di_type d with TBitfields16 | TBitfields32 => read_bitmasks ht (di_type d) r | _ => Ok (None, false) end) ;;
      let r := skipn (Z.to_nat header_end) file in
      '(pal, pos) <-
        (match di_type d with
         | TPalette | TRLE4 | TRLE8 => '(p, n) <- read_palette (match ht with HCore => true | _ => false end) (di_bits d) (di_used d) r ;; Ok (Some p, header_end + n)
         | _ => Ok (None, header_end)
         end) ;;
      Ok (mkBmp (di_w d) (di_h d) (if nfh then pos else off) (di_td d) (false || extra) (di_type d) (di_bits d) pal fields false).
Lemma rest_ok file p off nfh t : bytes file -> 0 <= p -> acceptable file p t -> exists d, rest file p off nfh = Ok d /\ b_type d = t.
Proof.
  intros B Hp A. unfold rest. pose proof A as [R S _ _ _ K _ PK MK]. rewrite u32_fwd by lia. cbn [bind]. cbv zeta. fold (dib_size file p) in *.
    assert (C : dib_core file p = false) by (unfold dib_core; destruct S as [S|[S|[S|[S|[S|[]]]]]]; rewrite <- S; reflexivity).
    assert (HT : exists ht, header_type (dib_size file p) = Ok ht /\ ht <> HCore /\ (match ht with HV3 | HV4 | HV5 => true | _ => false end) = (56 <=? dib_size file p)).
    { destruct S as [S|[S|[S|[S|[S|[]]]]]]; rewrite <- S; eexists; (split; [reflexivity|split; [discriminate|reflexivity]]). }
    destruct HT as (ht & -> & NC & HV). cbn [bind]. destruct (info_fwd file p t B Hp A) as (di & EI & ET & EB & EU).
    replace (match ht with HCore => read_core_header false (at_ file (p + 4)) | _ => read_info_header false (at_ file (p + 4)) end) with (read_info_header false (at_ file (p + 4))) by (destruct ht; congruence).
    rewrite EI. cbn [bind]. rewrite ET.
    assert (X : exists x, match t with TBitfields16 | TBitfields32 => read_bitmasks ht t (at_ file (p + 40)) | _ => Ok (None, false) end = Ok x).
    { destruct t; try (eexists; reflexivity); (destruct (MK eq_refl) as (M1 & M2); apply masks_fwd; [lia|exact M1|reflexivity|exact C|exact HV|exact K|exact M2]). }
    destruct X as ([fs extra] & ->). cbn [bind]. rewrite EB, EU. fold (at_ file (p + dib_size file p)).
    assert (Y : has_palette t = true -> exists x, read_palette match ht with HCore => true | _ => false end (dib_depth file p) (dib_colors file p) (at_ file (p + dib_size file p)) = Ok x).
    { intros HP. destruct (PK HP) as (P1 & P2). replace (match ht with HCore => true | _ => false end) with false by (destruct ht; congruence).
      assert (S0 : 0 <= dib_size file p) by (destruct S as [S|[S|[S|[S|[S|[]]]]]]; rewrite <- S; lia).
      assert (U0 : 0 <= dib_colors file p) by (unfold dib_colors; rewrite C; pose proof (num32_u file (p + 32) B); lia).
      apply (palette_fwd false); [lia| |lia|exact P2]. clear - K HP. unfold kinds in K. cbn [In] in K. repeat (destruct K as [K|K]; [injection K as _ <- <-; try discriminate HP; auto|]). destruct K. }
    destruct t; cbn [bind]; try (destruct (Y eq_refl) as ([pl n] & ->); cbn [bind]); eexists; (split; [reflexivity|reflexivity]).
Qed.
(** The old 12-byte header: unsigned sizes of 16 bits, three bytes per palette entry, depths 1, 4, 8 and 24 *)
Record acceptable_core (file : list Z) (p : Z) : Prop := mkAcceptableCore {
  co_room : p + 12 <= zlen file;
  co_size : dib_size file p = 12;
  co_w : 0 < num16 file (p + 4);
  co_h : 0 < num16 file (p + 6);
  co_planes : num16 file (p + 8) = 1;
  co_depth : num16 file (p + 10) = 24 \/ (In (num16 file (p + 10)) [1; 4; 8] /\ p + 12 + 3 * 2 ^ num16 file (p + 10) <= zlen file) }.
Lemma rest_core file p off nfh : bytes file -> 0 <= p -> acceptable_core file p -> exists d, rest file p off nfh = Ok d.
Proof.
  intros B Hp [R S W H P D]. unfold rest. rewrite u32_fwd by lia. cbn [bind]. cbv zeta. fold (dib_size file p). rewrite S. cbn [header_type Z.eqb Pos.eqb bind]. unfold read_core_header.
  rewrite u16_fwd by lia. cbn [bind]. replace (p + 4 + 2) with (p + 6) by lia. rewrite u16_fwd by lia. cbn [bind]. replace (p + 6 + 2) with (p + 8) by lia.
  pose proof (num16_u file (p + 4) B) as U1. pose proof (num16_u file (p + 6) B) as U2. unfold u16_max in *.
  assert (O : check_for_overflow (num16 file (p + 4)) (num16 file (p + 6)) (num_channels0 false) = Ok tt).
  { set (w := num16 file (p + 4)) in *. set (a := num16 file (p + 6)) in *. unfold check_for_overflow, num_channels0, u64_max.
    replace ((w <=? 0) || (a <=? 0)) with false by lia. replace ((18446744073709551615 <? 3 * w) || (18446744073709551615 <? 3 * w * a)) with false by nia. reflexivity. }
  rewrite O. cbn [bind]. rewrite u16_fwd by lia. cbn [bind]. rewrite P. cbn [Z.eqb Pos.eqb negb]. replace (p + 8 + 2) with (p + 10) by lia. rewrite u16_fwd by lia. cbn [bind].
  destruct D as [D | (D & L)].
  - rewrite D. cbn [Z.eqb Pos.eqb orb bind di_type]. eauto.
  - assert (E : (num16 file (p + 10) =? 1) || (num16 file (p + 10) =? 4) || (num16 file (p + 10) =? 8) = true) by (destruct D as [<-|[<-|[<-|[]]]]; reflexivity).
    rewrite E. cbn [bind di_type di_bits di_used]. fold (at_ file (p + 12)).
    destruct (palette_fwd true file (p + 12) (num16 file (p + 10)) 0) as ([pl n] & ->); [lia|destruct D as [<-|[<-|[<-|[]]]]; auto|split; [lia|apply Z.pow_nonneg; lia]|exact L|]. cbn [bind]. eauto.
Qed.

(** the other direction *)
Lemma u16_len file o x : read_u16le (at_ file o) = Ok x -> 0 <= o -> o + 2 <= zlen file.
Proof. intros E Ho. rewrite at_u16 in E by lia. destruct (Z.ltb_spec (zlen file) (o + 2)); [discriminate|lia]. Qed.
Lemma u32_len file o x : read_u32le (at_ file o) = Ok x -> 0 <= o -> o + 4 <= zlen file.
Proof. intros E Ho. rewrite at_u32n in E by lia. destruct (Z.ltb_spec (zlen file) (o + 4)); [discriminate|lia]. Qed.
Ltac sl H := first [
  (let v := fresh "v" in let r := fresh "r" in let E := fresh "E" in let L := fresh "L" in apply bind_ok in H as ([v r] & E & H);
   first [pose proof (u16_len _ _ _ E) as L; specialize (L ltac:(lia)); apply u16_inv in E as [-> ->]; [|lia]
         |pose proof (u32_len _ _ _ E) as L; specialize (L ltac:(lia)); apply u32_inv in E as [-> ->]; [|lia]
         |apply i32_inv in E as [-> ->]; [|assumption|lia]])
 | match type of H with (if ?b then Err _ else _) = _ => let E := fresh "C" in destruct b eqn:E; [discriminate|] end ].
Lemma overflow_back w h c u : check_for_overflow w h c = Ok u -> 0 < w /\ 0 < h.
Proof. unfold check_for_overflow. destruct ((w <=? 0) || (h <=? 0)) eqn:E; [discriminate|]. lia. Qed.
Lemma info_back file p d r : bytes file -> 0 <= p -> dib_core file p = false -> read_info_header false (at_ file (p + 4)) = Ok (d, r) ->
  p + 40 <= zlen file /\ 0 < signed32 (num32 file (p + 4)) <= 65535 /\ (-2147483648 < signed32 (num32 file (p + 8)) <= 65535 /\ signed32 (num32 file (p + 8)) <> 0) /\
  num16 file (p + 12) = 1 /\ (signed32 (num32 file (p + 8)) < 0 -> dib_method file p = 0 \/ dib_method file p = 3).
Proof.
  intros B Hp C E. unfold dib_method. rewrite C. unfold read_info_header in E.
  sl E. sl E. replace (p + 4 + 4) with (p + 8) in * by lia. sl E. sl E. sl E. cbv zeta in E. apply bind_ok in E as (u & EO & E). apply overflow_back in EO. replace (p + 8 + 4) with (p + 12) in * by lia.
  sl E. sl E. sl E. sl E. sl E. apply bind_ok in E as (t & ET & E). sl E. sl E. sl E. sl E. sl E. clear E ET.
  replace (p + 12 + 2 + 2) with (p + 16) in * by lia. pose proof (num32_u file (p + 8) B) as U. unfold i32_min in *.
  set (w := signed32 (num32 file (p + 4))) in *. assert (Hh : -2147483648 <= signed32 (num32 file (p + 8))) by (unfold signed32, u32_max in *; destruct (Z.ltb_spec (num32 file (p + 8)) 2147483648); lia).
  set (h := signed32 (num32 file (p + 8))) in *.
  split; [lia|]. split; [lia|]. split; [destruct (Z.ltb_spec h 0); lia|]. split; [lia|]. intros N. destruct (Z.ltb_spec h 0); [|lia]. cbn [andb] in *. lia.
Qed.
Lemma core_back file p d r : bytes file -> 0 <= p -> read_core_header false (at_ file (p + 4)) = Ok (d, r) ->
  p + 12 <= zlen file /\ 0 < num16 file (p + 4) /\ 0 < num16 file (p + 6) /\ num16 file (p + 8) = 1 /\
  ((num16 file (p + 10) = 24 /\ di_type d = TRGB24) \/ (In (num16 file (p + 10)) [1; 4; 8] /\ di_type d = TPalette /\ di_bits d = num16 file (p + 10) /\ di_used d = 0)).
Proof.
  intros B Hp E. unfold read_core_header in E. sl E. sl E. apply bind_ok in E as (u & EO & E). apply overflow_back in EO. replace (p + 4 + 2) with (p + 6) in * by lia. replace (p + 6 + 2) with (p + 8) in * by lia.
  sl E. sl E. replace (p + 8 + 2) with (p + 10) in * by lia. sl E. split; [lia|]. split; [lia|]. split; [lia|]. split; [lia|].
  destruct ((num16 file (p + 10) =? 1) || (num16 file (p + 10) =? 4) || (num16 file (p + 10) =? 8)) eqn:D.
  - right. apply Ok_inj in E. inversion E; subst. cbn [di_type di_bits di_used In]. split; [lia|auto].
  - destruct (Z.eqb_spec (num16 file (p + 10)) 24); [|discriminate]. left. apply Ok_inj in E. inversion E; subst. auto.
Qed.
Lemma palette_back core file q bits used x : 0 <= q -> bits = 1 \/ bits = 2 \/ bits = 4 \/ bits = 8 -> 0 <= used -> read_palette core bits used (at_ file q) = Ok x ->
  used <= 2 ^ bits /\ q + (if core then 3 else 4) * (if used =? 0 then 2 ^ bits else used) <= zlen file.
Proof.
  intros Hq Hb Hu E. unfold read_palette in E. set (bpc := if core : bool then 3 else 4) in *. assert (Hc : 3 <= bpc <= 4) by (subst bpc; destruct core; lia). clearbody bpc.
  apply bind_ok in E as (sz & ES & E). assert (P2 : 2 <= 2 ^ bits <= 256) by (destruct Hb as [->|[->|[->| ->]]]; cbn; lia).
  assert (SZ : sz = (if used =? 0 then 2 ^ bits else used) /\ used <= 2 ^ bits).
  { unfold get_palette_size in ES. destruct (Z.eqb_spec used 0).
    - replace (63 <? bits) with false in ES by lia. apply Ok_inj in ES. lia.
    - replace (31 <? bits) with false in ES by lia. destruct (Z.ltb_spec (2 ^ bits) used); [discriminate|]. apply Ok_inj in ES. lia. }
  destruct SZ as (-> & U). split; [exact U|]. set (cnt := if used =? 0 then 2 ^ bits else used) in *. assert (HC : 1 <= cnt <= 256) by (unfold cnt; destruct (Z.eqb_spec used 0); lia). clearbody cnt. cbv zeta in E.
  replace (Z.min (cnt * bpc) (256 * bpc)) with (cnt * bpc) in E by nia. apply bind_ok in E as ([buf r'] & ER & _). rewrite read_exact_if in ER by nia.
  destruct (Z.leb_spec (cnt * bpc) (zlen (at_ file q))) as [LR|]; [|discriminate]. unfold at_ in LR. rewrite zlen_skipn in LR by lia. lia.
Qed.
Lemma rest_back file p off nfh d : bytes file -> 0 <= p -> rest file p off nfh = Ok d -> (exists t, acceptable file p t) \/ acceptable_core file p.
Proof.
  intros B Hp E. unfold rest in E. apply bind_ok in E as ([size r] & E1 & E). apply u32_inv in E1 as [-> ->]; [|lia]. fold (dib_size file p) in E.
  cbv zeta in E. apply bind_ok in E as (ht & HT & E). apply bind_ok in E as ([di r] & EI & E). apply bind_ok in E as ([fs extra] & EM & E). apply bind_ok in E as ([pal pos] & EP & E). clear E.
  fold (at_ file (p + dib_size file p)) in EP.
  destruct (header_type_inv _ _ HT) as (S & HC & HV). destruct (Z.eq_dec (dib_size file p) 12) as [S12 | N12].
  - right. rewrite (proj2 HC S12) in *. rewrite S12 in EP. destruct (core_back file p di r B Hp EI) as (R & W & H & P & [(D & _) | (D & T & DB & DU)]).
    + constructor; auto.
    + constructor; auto. right. split; [exact D|]. rewrite T, DB, DU in EP. apply bind_ok in EP as (x & EP & _). apply palette_back in EP; [|lia|cbn in D; lia|lia]. exact (proj2 EP).
  - left. assert (C : dib_core file p = false) by (unfold dib_core; lia). assert (NC : ht <> HCore) by (intros ->; apply N12; apply HC; reflexivity).
    replace (match ht with HCore => read_core_header false (at_ file (p + 4)) | _ => read_info_header false (at_ file (p + 4)) end) with (read_info_header false (at_ file (p + 4))) in EI by (destruct ht; congruence).
    destruct (info_back file p di r B Hp C EI) as (R & W & H & P & TD). destruct (info_inv false file p di r B Hp C EI) as (_ & _ & _ & DB & DU & K & ->).
    exists (di_type di). constructor; auto.
    + destruct S as [S|S]; [lia|exact S].
    + intros HP. assert (U0 : 0 <= dib_colors file p) by (unfold dib_colors; rewrite C; pose proof (num32_u file (p + 32) B); lia).
      assert (PB : bits_ok (di_bits di)) by (rewrite DB; eapply kinds_bits; [exact K|exact HP]).
      assert (S0 : 0 <= dib_size file p) by (destruct S as [S|[S|[S|[S|[S|[S|[]]]]]]]; lia).
      assert (RP : exists x, read_palette false (di_bits di) (di_used di) (at_ file (p + dib_size file p)) = Ok x).
      { replace (match ht with HCore => true | _ => false end) with false in EP by (destruct ht; congruence).
        destruct (di_type di); try discriminate HP; apply bind_ok in EP as (x & EP & _); eauto. }
      destruct RP as (x & RP). rewrite DB, DU in *. apply palette_back in RP; [|lia|exact PB|exact U0]. exact RP.
    + intros HF. assert (EM' : read_bitmasks ht (di_type di) (at_ file (p + 40)) = Ok (fs, extra)) by (destruct (di_type di); try discriminate HF; exact EM). clear EM EP.
      assert (HV' : (match ht with HV3 | HV4 | HV5 => true | _ => false end) = (56 <=? dib_size file p)) by (clear - HT; unfold header_type in HT; repeat (match type of HT with (if ?a =? ?b then _ else _) = _ => destruct (Z.eqb_spec a b) as [-> | _]; [apply Ok_inj in HT; subst ht; reflexivity|] end); destruct (_ <? _); discriminate).
      pose proof EM' as EQ. apply (masks_inv file p ht (di_type di) fs extra) in EQ; [|lia|exact HF|exact HV'|exact NC]. destruct EQ as (_ & f & _ & EF).
      split.
      * unfold read_bitmasks in EM'. sl EM'. sl EM'. sl EM'. rewrite <- HV'. destruct ht; try (cbn [bind] in EM'; lia); sl EM'; lia.
      * exists f. rewrite <- EF. f_equal. clear - K HF. revert K HF. generalize (di_type di) (dib_depth file p) (dib_method file p). intros t z m K HF. unfold kinds in K. cbn [In] in K. repeat (destruct K as [K|K]; [injection K as _ <- <-; first [discriminate HF|reflexivity]|]). destruct K.
Qed.

(** Exactly these files are opened: without a file header, those with such a header at the start; with one, those that begin with "BM" and have such a header
    14 bytes further on.  The pixels need not be present. *)
Theorem C52_accepts file start : bytes file -> 0 <= start ->
  ((exists d, bmp_new_without_file_header file start = Ok d) <-> (exists t, acceptable file start t) \/ acceptable_core file start) /\
  ((exists d, bmp_new file start = Ok d) <->
     byte_at file start = 66 /\ byte_at file (start + 1) = 77 /\ ((exists t, acceptable file (start + 14) t) \/ acceptable_core file (start + 14))).
Proof.
  intros B Hs. assert (F : forall p off nfh, 0 <= p -> (exists t, acceptable file p t) \/ acceptable_core file p -> exists d, rest file p off nfh = Ok d).
  { intros p off nfh Hp [(t & A) | A]; [destruct (rest_ok file p off nfh t B Hp A) as (d & E & _); eauto|exact (rest_core file p off nfh B Hp A)]. }
  split.
  - assert (E : bmp_new_without_file_header file start = rest file start 0 true) by reflexivity. rewrite E. split; [intros (d & H); exact (rest_back _ _ _ _ _ B Hs H)|apply F; exact Hs].
  - split.
    + intros (d & E). unfold bmp_new, read_metadata, read_file_header in E. fold (at_ file start) in E. apply bind_ok in E as ([off r] & EF & E).
      apply bind_ok in EF as ([sig r1] & EX & EF). rewrite read_exact_if in EX by lia. destruct (Z.leb_spec 2 (zlen (at_ file start))) as [LL|]; [|discriminate]. apply Ok_inj in EX. apply pair_equal_spec in EX as (<- & <-).
      match type of EF with (if negb ?b then _ else _) = _ => destruct b eqn:SG; cbn [negb] in EF; [|discriminate EF] end.
      assert (SK : skipn (Z.to_nat 2) (at_ file start) = at_ file (start + 2)) by (unfold at_; rewrite skipn_skipn; f_equal; lia). rewrite SK in EF.
      apply bind_ok in EF as ([x1 r1] & E1 & EF). apply u32_inv in E1 as [-> ->]; [|lia]. apply bind_ok in EF as ([x2 r2] & E2 & EF). apply u32_inv in E2 as [-> ->]; [|lia].
      apply u32_inv in EF as [-> ->]; [|lia]. replace (start + 2 + 4 + 4 + 4) with (start + 14) in E by lia.
      assert (SB : byte_at file start = 66 /\ byte_at file (start + 1) = 77).
      { apply leqb_eq in SG. unfold at_ in LL. rewrite zlen_skipn in LL by lia.
        assert (G : forall i, 0 <= i < 2 -> zget file (start + i) = zget [66; 77] i).
        { intros i Hi. rewrite <- SG. change (firstn (Z.to_nat 2) (at_ file start)) with (zslice file start 2). rewrite zget_zslice_gen by lia. replace ((0 <=? i) && (i <? 2)) with true by lia. reflexivity. }
        unfold byte_at. rewrite <- (Z.add_0_r start) at 1. rewrite !G by lia. split; reflexivity. }
      destruct SB. split; [assumption|]. split; [assumption|]. exact (rest_back file (start + 14) _ false d B ltac:(lia) E).
    + intros (B0 & B1 & A). assert (R : start + 14 + 12 <= zlen file) by (destruct A as [(t & A) | A]; [pose proof (ac_room _ _ _ A)|pose proof (co_room _ _ A)]; lia).
      unfold bmp_new, read_metadata, read_file_header. fold (at_ file start).
    assert (L : leqb (firstn (Z.to_nat 2) (at_ file start)) [66; 77] = true).
    { replace (firstn (Z.to_nat 2) (at_ file start)) with [66; 77]; [reflexivity|]. unfold byte_at in B0, B1. rewrite <- (Z2Nat.id start Hs) in B0, B1. unfold at_. revert B0 B1.
      replace (Z.of_nat (Z.to_nat start) + 1) with (Z.of_nat (S (Z.to_nat start))) by lia. unfold zget. rewrite !Nat2Z.id. replace (Z.of_nat (Z.to_nat start) <? 0) with false by lia. replace (Z.of_nat (S (Z.to_nat start)) <? 0) with false by lia.
      assert (LL : (Z.to_nat start + 2 <= length file)%nat) by (unfold zlen in R; lia). clear - LL. generalize dependent (Z.to_nat start). intros n. revert n.
      induction file as [|a l IH]; intros n L0; [cbn in L0; lia|]. destruct n as [|n].
      - destruct l as [|b l]; [cbn in L0; lia|]. cbn. intros -> ->. reflexivity.
      - cbn in L0. intros. cbn [Z.to_nat skipn]. apply IH; [lia| |]; assumption. }
    rewrite read_exact_if by lia. replace (2 <=? zlen (at_ file start)) with true by (unfold at_; rewrite zlen_skipn; lia).
    cbn [bind]. rewrite L. cbn [negb]. assert (SK : skipn (Z.to_nat 2) (at_ file start) = at_ file (start + 2)).
    { unfold at_. rewrite skipn_skipn. f_equal. lia. }
    rewrite SK.
    rewrite u32_fwd by lia. cbn [bind]. rewrite u32_fwd by lia. cbn [bind]. replace (start + 2 + 4 + 4) with (start + 10) by lia. rewrite u32_fwd by lia. cbn [bind].
    replace (start + 10 + 4) with (start + 14) by lia. exact (F (start + 14) _ false ltac:(lia) A).
Qed.

(** a non-trivial case: a 2 x 2 top-down image with 5-6-5 fields behind a file header *)
Definition top_down_file : list Z :=
  [66; 77; 0; 0; 0; 0; 0; 0; 0; 0; 66; 0; 0; 0] ++
  [40; 0; 0; 0; 2; 0; 0; 0; 254; 255; 255; 255; 1; 0; 16; 0; 3; 0; 0; 0] ++ repeat 0 20 ++
  [0; 248; 0; 0; 224; 7; 0; 0; 31; 0; 0; 0] ++ [0; 248; 224; 7; 31; 0; 255; 255].
Example C52_accepts_ex : bytes top_down_file /\ acceptable top_down_file 14 TBitfields16 /\
  exists d, bmp_new top_down_file 0 = Ok d /\ bmp_read_image top_down_file d (repeat 9 12) = Ok [255; 0; 0; 0; 255; 0; 0; 0; 255; 255; 255; 255].
Proof.
  split; [unfold bytes, top_down_file; cbn [app repeat]; repeat (apply Forall_cons; [unfold is_u8, u8_max; lia|]); apply Forall_nil|]. split.
  { constructor; try (vm_compute; auto 20; fail); try reflexivity; try (split; [reflexivity|vm_compute; discriminate]); try (vm_compute; discriminate); try (intros _; right; reflexivity); try (split; [split; [reflexivity|vm_compute; discriminate]|vm_compute; discriminate]); try (intros H; discriminate H); try (intros _; split; [vm_compute; discriminate|eexists; vm_compute; reflexivity]). }
  eexists. split; [vm_compute; reflexivity|vm_compute; reflexivity].
Qed.
(** a 12-byte header with a palette of two colours, without any pixels *)
Definition core_file : list Z := [12; 0; 0; 0; 9; 0; 3; 0; 1; 0; 1; 0] ++ [0; 0; 0; 255; 255; 255].
Example C52_accepts_core_ex : acceptable_core core_file 0 /\ exists d, bmp_new_without_file_header core_file 0 = Ok d /\ b_w d = 9 /\ b_h d = 3.
Proof.
  split; [constructor; try reflexivity; try (vm_compute; discriminate); right; split; [left; reflexivity|vm_compute; discriminate]|].
  eexists. split; [vm_compute; reflexivity|split; reflexivity].
Qed.
Print Assumptions C52_accepts.
