(** Whole-file lemmas for the HDR codec. *)
From Verif Require Import Base BaseLemmas ListLemmas ListMore Text Formats FormatsProofs GenImage Hdr HdrProofs HdrProofs2.
Local Open Scope Z_scope.

Lemma zget_zipset k : forall buf vs i p v, zget buf i = Some p -> zget vs i = Some v -> zget (zipset k buf vs) i = Some (setc k p v).
Proof.
  unfold zipset. induction buf as [|b buf IH]; intros vs i p v H1 H2; [rewrite zget_nil in H1; discriminate|].
  destruct vs as [|w vs]; [rewrite zget_nil in H2; discriminate|]. cbn [combine map].
  rewrite zget_cons in H1. rewrite zget_cons in H2. rewrite zget_cons. destruct (i =? 0).
  - apply Some_inj in H1, H2. subst. reflexivity.
  - apply IH; auto.
Qed.

Lemma encode_rle px w h : 8 <= w <= 32768 -> 0 <= h -> w * h <= zlen px -> w * h <= u64_max ->
  encode_pixels px w h = (body <- scanlines (Z.to_nat h) w px ;; Ok (header w h ++ body)).
Proof.
  intros Hw Hh Hl Hs. unfold encode_pixels. replace (w * h <=? u64_max) with true by lia. cbn [negb].
  replace (zlen px <? w * h) with false by lia.
  replace ((8 <=? w) && (w <=? 32768)) with true by lia. cbn [negb]. reflexivity.
Qed.
Lemma mul3_le a : 0 <= a -> a * 3 <= u64_max -> a <= u64_max.
Proof. lia. Qed.

Lemma file_roundtrip_rle (T : Type) (f : rgbe -> T) fl m w h px :
  8 <= w <= 32767 -> is_u32 h -> w * h <= zlen px -> w * h * 3 <= u64_max ->
  exists file, encode_pixels px w h = Ok file /\
    forall trailing, hdr_decode fl f m (file ++ trailing) = Ok (w, h, map f (firstn (Z.to_nat (w * h)) px)).
Proof.
  intros Hw Hh Hl Hs. unfold is_u32 in Hh.
  assert (H0 : 0 <= w * h) by (apply Z.mul_nonneg_nonneg; lia).
  rewrite encode_rle by lia.
  set (q := firstn (Z.to_nat (w * h)) px).
  assert (Hq : zlen q = w * h) by (unfold q; rewrite zlen_firstn; lia).
  destruct (rows_rle f m w ltac:(lia) (Z.to_nat h) q) as (body & B1 & B2 & B3). { rewrite Z2Nat.id by lia. exact Hq. }
  rewrite <- (firstn_skipn (Z.to_nat (w * h)) px). fold q. rewrite B1. cbn [bind]. exists (header w h ++ body). split; [reflexivity|].
  intros tr. unfold hdr_decode. rewrite <- app_assoc, hdr_new_ok by (unfold is_u32, u32_max; auto; lia). cbn [bind].
  unfold read_image_transform. replace (w =? 0) with false by lia. cbn [orb].
  destruct (Z.eqb_spec h 0) as [->|].
  - cbn [bind]. rewrite (zlen_0_nil q) by lia. reflexivity.
  - rewrite B3 by (rewrite zlen_repeat; lia). reflexivity.
Qed.

Lemma file_roundtrip_flat (T : Type) (f : rgbe -> T) fl m w h px :
  is_u32 w -> is_u32 h -> 0 < w < 8 \/ 32768 < w -> zlen px = w * h -> w * h * 3 <= u64_max ->
  (forall p, In p px -> ~ (p0 p = 1 /\ p1 p = 1 /\ p2 p = 1)) ->
  (forall y p, 0 <= y < h -> zget px (y * w) = Some p -> ~ (p0 p = 2 /\ p1 p = 2 /\ p2 p < 128)) ->
  exists file, encode_pixels px w h = Ok file /\
    forall trailing, hdr_decode fl f m (file ++ trailing) = Ok (w, h, map f px).
Proof.
  intros Hw Hh Hw' Hl Hs H1 H2. unfold is_u32 in *.
  assert (H0 : 0 <= w * h) by (apply Z.mul_nonneg_nonneg; lia).
  unfold encode_pixels. replace (w * h <=? u64_max) with true by lia. cbn [negb].
  replace (zlen px <? w * h) with false by lia.
  replace ((8 <=? w) && (w <=? 32768)) with false by lia. cbn [negb]. fold (header w h).
  eexists. split; [reflexivity|]. intros tr.
  unfold hdr_decode. rewrite <- app_assoc, hdr_new_ok by (unfold is_u32; auto; lia). cbn [bind].
  unfold read_image_transform. replace (w =? 0) with false by lia. cbn [orb].
  destruct (Z.eqb_spec h 0) as [->|].
  - cbn [bind]. rewrite (zlen_0_nil px) by lia. reflexivity.
  - rewrite (rows_flat f m w); auto; try lia.
    + apply Forall_forall. intros p Hp. specialize (H1 p Hp). unfold rl_marker.
      destruct ((p0 p =? 1) && (p1 p =? 1) && (p2 p =? 1)) eqn:E; auto. lia.
    + rewrite Z2Nat.id by lia. exact H2.
    + rewrite zlen_repeat. lia.
Qed.

Lemma old_first m w fb r : 0 < w <= u32_max -> bytes r -> rl_marker fb = None ->
  forall buf out r', zlen buf = w -> decode_old_rle m fb buf r = Ok (out, r') -> zget out 0 = Some fb.
Proof.
  intros Hw HB EM buf out r' F H. unfold decode_old_rle in H. replace (zlen buf =? 0) with false in H by lia. rewrite EM in H.
  destruct (old_rle_total m (S (length r)) (S (length r)) 1 1 fb r w [fb]) as (o & Ho1 & Ho2); try lia; auto.
  { vm_compute. tauto. }
  rewrite Ho1 in H.
  - destruct o; try discriminate. cbn [res_of] in H. injection H as -> ->. destruct Ho2 as (_ & _ & tl & ->). reflexivity.
  - rewrite zlen_zset; auto.
  - change 1 with (0 + 1) at 1. rewrite firstn_zset_snoc by lia. reflexivity.
Qed.
Lemma read_rows_prefix {T} (f : rgbe -> T) m : forall n buf r out out' r', read_rows f n m buf r out = Ok (out', r') ->
  exists tl, out' = out ++ tl.
Proof.
  induction n as [|n IH]; intros buf r out out' r' H; cbn [read_rows] in H.
  - injection H as <- _. exists []. symmetry. apply app_nil_r.
  - apply bind_ok in H as ([b r1] & E & H). apply IH in H as [tl ->]. rewrite <- app_assoc. eauto.
Qed.

Lemma rle_compress_bytes l e : bytes l -> rle_compress l = Ok e -> bytes e.
Proof.
  intros HB HE. destruct l as [|x l].
  - injection HE as <-. repeat constructor; discriminate.
  - destruct (rle_compress_ok (x :: l)) as (e' & A & B & _); [discriminate|].
    rewrite A in HE. injection HE as <-. auto.
Qed.
Lemma comp_bytes row : Forall rgbe_ok row -> bytes (map p0 row) /\ bytes (map p1 row) /\ bytes (map p2 row) /\ bytes (map pe row).
Proof. intros HF. repeat split; apply Forall_map_iff; (eapply Forall_impl; [|exact HF]); intros a Ha; apply Ha. Qed.
Lemma scanlines_bytes w : forall n px b, Forall rgbe_ok px -> scanlines n w px = Ok b -> bytes b.
Proof.
  induction n as [|n IH]; intros px b HF H; cbn [scanlines] in H.
  - injection H as <-. constructor.
  - destruct (zlen px <? w); [discriminate|].
    destruct (comp_bytes (firstn (Z.to_nat w) px)) as (K0 & K1 & K2 & K3). { apply Forall_firstn'. exact HF. }
    apply bind_ok in H as (r & R & H). apply bind_ok in H as (g & G & H).
    apply bind_ok in H as (bl & B & H). apply bind_ok in H as (e & E & H).
    apply bind_ok in H as (rest & Q & H). injection H as <-.
    apply IH in Q; [|apply Forall_skipn'; exact HF].
    apply rle_compress_bytes in R, G, B, E; auto.
    assert (forall x, is_u8 (wrap_u8 x)) as W.
    { intros x. unfold is_u8, u8_max, wrap_u8. pose proof (Z.mod_pos_bound x 256). lia. }
    change (bytes ([2; 2; wrap_u8 (w / 256); wrap_u8 (w mod 256)] ++ r ++ g ++ bl ++ e ++ rest)).
    rewrite !bytes_app. split; [|auto].
    constructor; [unfold is_u8, u8_max; lia|]. constructor; [unfold is_u8, u8_max; lia|].
    constructor; [apply W|]. constructor; [apply W|constructor].
Qed.

Lemma width_32768_w w (T : Type) (f : rgbe -> T) fl m h px file : w = 32768 -> 0 < h -> is_u32 h -> Forall rgbe_ok px ->
  encode_pixels px w h = Ok file ->
  forall w' h' out, hdr_decode fl f m file = Ok (w', h', out) -> zget out 0 = Some (f (mkRgbe 2 2 128 0)).
Proof.
  intros W H0 Hh HF HE w' h' out HD. unfold is_u32, u32_max in Hh.
  assert (Hl : w * h <= zlen px).
  { unfold encode_pixels in HE. destruct (negb _) in HE; [discriminate|]. destruct (Z.ltb_spec (zlen px) (w * h)); [discriminate|auto]. }
  rewrite encode_rle in HE by (unfold u64_max; lia).
  apply bind_ok in HE as (body & EB & HE). apply Ok_inj in HE. subst file.
  unfold hdr_decode in HD. rewrite hdr_new_ok in HD by (unfold is_u32, u32_max, u64_max; lia). cbn [bind] in HD.
  apply bind_ok in HD as ([px' r'] & ED & HD). apply Ok_inj in HD. assert (out = px') by congruence; subst out.
  unfold read_image_transform in ED. replace (h =? 0) with false in ED by lia. replace (w =? 0) with false in ED by lia. cbn [orb] in ED.
  pose proof (scanlines_bytes _ _ _ _ HF EB) as HB.
  destruct (Z.to_nat h) as [|n] eqn:En; [lia|]. cbn [scanlines] in EB.
  replace (zlen px <? w) with false in EB by lia.
  apply bind_ok in EB as (r & R & EB). apply bind_ok in EB as (g & G & EB).
  apply bind_ok in EB as (bl & B & EB). apply bind_ok in EB as (e & E & EB).
  apply bind_ok in EB as (rest & Q & EB). apply Ok_inj in EB. subst body.
  assert (W1 : wrap_u8 (w / 256) = 128) by (rewrite W; reflexivity). assert (W2 : wrap_u8 (w mod 256) = 0) by (rewrite W; reflexivity). rewrite W1, W2 in *.
  change (write_rgbe8 (mkRgbe 2 2 128 0)) with [2; 2; 128; 0] in *.
  rewrite bytes_app in HB. destruct HB as [_ HB]. set (tl := r ++ g ++ bl ++ e ++ rest) in *.
  cbn [read_rows] in ED. apply bind_ok in ED as ([b r1] & E1 & ED).
  assert (Lb : zlen (repeat (mkRgbe 0 0 0 0) (Z.to_nat w)) = w) by (rewrite zlen_repeat; lia).
  set (bf := repeat (mkRgbe 0 0 0 0) (Z.to_nat w)) in *. clearbody bf.
  unfold read_scanline in E1. replace (zlen bf =? 0) with false in E1 by lia.
  cbn [app read_rgbe bind p0 p1 p2] in E1. change ((2 =? 2) && (2 =? 2) && (128 <? 128)) with false in E1. cbv iota in E1.
  apply (old_first m w) in E1; auto; [|unfold u32_max; lia].
  apply read_rows_prefix in ED as [tl' ->]. cbn [app]. destruct b as [|b0 b]; [discriminate|].
  injection E1 as ->. reflexivity.
Qed.

Lemma width_32768 (T : Type) (f : rgbe -> T) fl m h px file : 0 < h -> is_u32 h -> Forall rgbe_ok px ->
  encode_pixels px 32768 h = Ok file ->
  forall w' h' out, hdr_decode fl f m file = Ok (w', h', out) -> zget out 0 = Some (f (mkRgbe 2 2 128 0)).
Proof. apply width_32768_w. reflexivity. Qed.

Lemma header_bytes w h : is_u32 w -> is_u32 h -> exists tl, header w h = SIGNATURE ++ tl /\ bytes tl.
Proof.
  intros Hw Hh. eexists. split; [reflexivity|]. unfold is_u32, u32_max in *.
  assert (D : forall n, 0 <= n <= 4294967295 -> bytes (dec n)).
  { intros n Hn. assert (P : 0 <= n < 10 ^ 21) by (split; [lia|]; apply Z.le_lt_trans with 4294967295; [lia|reflexivity]).
    eapply Forall_impl; [|exact (dec_bytes n P)]. cbn. unfold is_u8, u8_max. lia. }
  unfold dim_line. rewrite !bytes_app. repeat split; try (apply D; lia); repeat (constructor; [unfold is_u8, u8_max; lia|]); constructor.
Qed.
Lemma flat_bytes px : Forall rgbe_ok px -> bytes (flat_map write_rgbe8 px).
Proof.
  induction 1 as [|p px (A & B & C & D) H IH]; [constructor|]. cbn [flat_map]. apply bytes_app. split; auto.
  repeat (constructor; auto).
Qed.
Lemma hdr_guess w h px file : Forall rgbe_ok px -> is_u32 w -> is_u32 h -> encode_pixels px w h = Ok file ->
  guess_format file = Some Formats.Hdr.
Proof.
  intros HF Hw Hh HE. destruct (header_bytes w h Hw Hh) as (tl & E1 & E2).
  unfold encode_pixels in HE. fold (header w h) in HE. rewrite E1 in HE.
  destruct (negb (w * h <=? u64_max)); [discriminate|]. destruct (zlen px <? w * h); [discriminate|].
  assert (K : forall b, bytes b -> guess_format ((SIGNATURE ++ tl) ++ b) = Some Formats.Hdr).
  { intros b Hb. rewrite <- app_assoc. apply guess_plain.
    - repeat constructor; discriminate.
    - apply bytes_app. auto.
    - vm_compute. tauto.
    - discriminate. }
  destruct (negb _).
  - injection HE as <-. apply K, flat_bytes, HF.
  - apply bind_ok in HE as (b & EB & HE). injection HE as <-. apply K. eapply scanlines_bytes; eauto.
Qed.

(** ** totality of the whole decoder *)
Lemma read_line_suffix : forall r acc o r', read_line_aux r acc = (o, r') ->
  suffix r' r /\ (o <> None -> r <> [] \/ acc <> []) /\ (r <> [] -> (length r' < length r)%nat).
Proof.
  induction r as [|b r IH]; intros acc o r' H; cbn [read_line_aux] in H.
  - injection H as <- <-. split; [exists []; reflexivity|]. split; [|congruence].
    destruct acc; [congruence|]. intros _. right. discriminate.
  - destruct (b =? 10).
    + injection H as <- <-. split; [exists [b]; reflexivity|]. split; [left; discriminate|]. intros _. cbn. lia.
    + apply IH in H as (S & _ & L). split; [destruct S as [c ->]; exists (b :: c); reflexivity|].
      split; [left; discriminate|]. intros _. destruct S as [c Hc]. subst r. rewrite !app_length in *. cbn. rewrite app_length. lia.
Qed.
Lemma header_loop_total fl : forall n fuel r, (length r < n)%nat -> (length r < fuel)%nat ->
  match header_loop fl fuel r with
  | Ok r' => suffix r' r
  | Err e => e = EDecoding \/ e = EUnsupported
  | Panic => False
  end.
Proof.
  induction n as [|n IH]; intros fuel r Hn Hf; [lia|]. destruct fuel as [|fuel]; [lia|].
  cbn [header_loop]. destruct (read_line_u8 r) as [o r'] eqn:E.
  unfold read_line_u8 in E. apply read_line_suffix in E as (S & N & L).
  destruct o as [[|b l]|]; [exact S| |left; reflexivity].
  assert (NE : r <> []). { destruct N as [N|N]; [discriminate|auto|congruence]. }
  specialize (L NE).
  assert (K : match header_loop fl fuel r' with Ok r'' => suffix r'' r | Err e => e = EDecoding \/ e = EUnsupported | Panic => False end).
  { specialize (IH fuel r' ltac:(lia) ltac:(lia)). destruct (header_loop fl fuel r'); auto. eapply suffix_trans; eauto. }
  destruct (b =? 35); [exact K|].
  unfold update_header_info. destruct (split_at_first (b :: l)) as [[key val]|]; [|exact K].
  destruct (leqb (trim key) FORMAT_KEY).
  - destruct (leqb (trim val) FORMAT_VAL); cbn [bind]; [exact K|right; reflexivity].
  - destruct (_ || _); [|exact K]. destruct (fl (trim key) val); cbn [bind]; [exact K|left; reflexivity].
Qed.
Lemma digits_val_range max : forall l acc v, 0 <= acc <= max -> digits_val max l acc = Some v -> 0 <= v <= max.
Proof.
  induction l as [|b l IH]; intros acc v Ha H; cbn [digits_val] in H.
  - injection H as <-. exact Ha.
  - destruct (is_digit b) eqn:Eb; [|discriminate]. destruct (Z.leb_spec (acc * 10 + (b - 48)) max); [|discriminate].
    apply IH in H; auto. unfold is_digit in Eb. lia.
Qed.
Lemma parse_u32_range l v : parse_u32 l = Some v -> is_u32 v.
Proof.
  unfold parse_u32, parse_uint, is_u32. destruct l as [|b l]; [discriminate|].
  destruct (b =? 43); [destruct l; [discriminate|]|]; apply digits_val_range; unfold u32_max; lia.
Qed.
Lemma read_rows_total {T} (f : rgbe -> T) m w : 0 < w <= u32_max -> forall n buf r out, zlen buf = w -> bytes r ->
  match read_rows f n m buf r out with
  | Ok (out', _) => zlen out' = zlen out + w * Z.of_nat n
  | Err e => real_err e
  | Panic => m = Debug
  end.
Proof.
  intros Hw. induction n as [|n IH]; intros buf r out Hb HB; cbn [read_rows].
  - lia.
  - destruct (read_scanline_total m w r Hw HB) as (o & H1 & H2). rewrite H1 by auto.
    destruct o as [e| |b r']; cbn [res_of bind]; auto.
    destruct H2 as [L S]. specialize (IH b r' (out ++ map f b) L (suffix_bytes _ _ S HB)).
    destruct (read_rows f n m b r' (out ++ map f b)) as [[out' ?]|e|]; auto.
    rewrite IH, zlen_app, zlen_map. lia.
Qed.
Lemma hdr_decode_total (T : Type) (f : rgbe -> T) fl m r : bytes r ->
  match hdr_decode fl f m r with
  | Ok (w, h, out) => is_u32 w /\ is_u32 h /\ zlen out = w * h
  | Err e => e = EEof \/ e = EDecoding \/ e = EUnsupported
  | Panic => m = Debug
  end.
Proof.
  intros HB. unfold hdr_decode, hdr_new.
  destruct (read_exact 10 r) as [[sig r0]|e|] eqn:E0; cbn [bind].
  2:{ unfold read_exact in E0. destruct (_ <? _) in E0; [injection E0 as <-; auto|discriminate]. }
  2:{ unfold read_exact in E0. destruct (_ <? _) in E0; discriminate. }
  destruct (negb (leqb sig SIGNATURE)); [cbn [bind]; auto|].
  assert (S0 : suffix r0 r). { unfold read_exact in E0. destruct (_ <? _) in E0; [discriminate|]. apply Ok_inj in E0. exists sig. assert (sig = firstn (Z.to_nat 10) r) by congruence. assert (r0 = skipn (Z.to_nat 10) r) by congruence. subst sig r0. symmetry. apply firstn_skipn. }
  destruct (read_line_u8 r0) as [o r1] eqn:E1. apply read_line_suffix in E1 as (S1 & _ & _).
  pose proof (header_loop_total fl (S (length r1)) (S (length r1)) r1 ltac:(lia) ltac:(lia)) as HL.
  destruct (header_loop fl (S (length r1)) r1) as [r2|e|]; cbn [bind]; [|tauto|tauto].
  destruct (read_line_u8 r2) as [o2 r3] eqn:E2. apply read_line_suffix in E2 as (S2 & _ & _).
  destruct o2 as [line|]; [|cbn [bind]; auto].
  unfold parse_dimensions_line. destruct (split_ws line) as [|t1 [|s1 [|t2 [|s2 [|]]]]]; cbn [bind]; auto.
  destruct (leqb t1 [45; 89] && leqb t2 [43; 88]); cbn [bind]; auto. destruct (parse_u32 s1) as [h|] eqn:Eh; cbn [bind]; auto.
  destruct (parse_u32 s2) as [w|] eqn:Ew; cbn [bind]; auto.
  apply parse_u32_range in Eh, Ew. destruct (u64_max / 3 <? w * h); cbn [bind]; auto.
  assert (B3 : bytes r3). { eapply suffix_bytes; [exact S2|]. eapply suffix_bytes; [exact HL|]. eapply suffix_bytes; [exact S1|]. eapply suffix_bytes; eauto. }
  unfold read_image_transform. unfold is_u32 in *.
  destruct ((w =? 0) || (h =? 0)) eqn:EZ; cbn [bind].
  { split; [exact Ew|]. split; [exact Eh|]. change (zlen (@nil T)) with 0. assert (w = 0 \/ h = 0) as [->| ->] by lia; lia. }
  pose proof (read_rows_total f m w ltac:(lia) (Z.to_nat h) (repeat (mkRgbe 0 0 0 0) (Z.to_nat w)) r3 [] ltac:(rewrite zlen_repeat; lia) B3) as Q.
  destruct (read_rows f _ m _ r3 []) as [[out' ?]|e|]; cbn [bind]; auto.
  - split; [exact Ew|]. split; [exact Eh|]. rewrite Q. change (zlen (@nil T)) with 0. lia.
  - destruct Q; auto.
Qed.
