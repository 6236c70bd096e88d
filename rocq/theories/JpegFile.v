(** The whole file: marker segments, scan, end of image. *)
From Coq Require Import String Ascii.
From Verif Require Import Base BaseLemmas ListLemmas ListMore BitLemmas GenImage Color ColorProofs Overlay OverlayProofs Jpeg JpegSpec JpegProofs JpegProofs2 JpegDct JpegQuant JpegScan.
Local Open Scope Z_scope.
Lemma wrap_u8_small v : 0 <= v <= 255 -> wrap_u8 v = v.
Proof. intros H. unfold wrap_u8. rewrite Z.mod_small; lia. Qed.

(** ** padding and the end of the entropy-coded segment *)
Lemma pad_ok base s B : rep base s B -> exists s' D pad, pad_byte s = Ok s' /\ bw_out s' = base ++ stuff D /\ bytes D /\ flat_map byte_bits D = B ++ pad.
Proof.
  intros R. unfold pad_byte. destruct (write_bits_ok base s B 127 7 R ltac:(lia) ltac:(cbn; lia)) as (s' & W & (D & L & E & BD & LL & O & _)). exists s', D.
  assert (LB : zlen B <= zlen (flat_map byte_bits D)). { apply (f_equal zlen) in E. rewrite !zlen_app, zlen_tobits in E. lia. }
  exists (skipn (length B) (flat_map byte_bits D)). split; [exact W|]. split; [exact O|]. split; [exact BD|].
  rewrite <- (firstn_skipn (length B) (flat_map byte_bits D)) at 1. f_equal. apply (f_equal (firstn (length B))) in E. rewrite firstn_app_exact in E by reflexivity. rewrite firstn_app in E. replace (length B - length (flat_map byte_bits D))%nat with 0%nat in E by (unfold zlen in LB; lia). cbn [firstn] in E. rewrite app_nil_r in E. congruence.
Qed.
Lemma entropy_stuff D : forall rest, bytes D -> entropy_bytes (stuff D ++ 255 :: 217 :: rest) = (D, 255 :: 217 :: rest).
Proof.
  induction D as [|d D IH]; intros rest H; [reflexivity|]. inversion H; subst. cbn [stuff flat_map]. destruct (Z.eqb_spec d 255) as [->|N].
  - cbn [app entropy_bytes]. change (255 =? 255) with true. change (0 =? 0) with true. cbv iota. fold (stuff D). rewrite IH by assumption. reflexivity.
  - cbn [app entropy_bytes]. replace (d =? 255) with false by lia. fold (stuff D). rewrite IH by assumption. reflexivity.
Qed.

(** ** marker segments *)
Definition seg (m : Z) (d : list Z) : list Z := [255; m] ++ be16 (2 + zlen d) ++ d.
Lemma write_segment_ok s m d : zlen d <= 65533 -> write_segment s m d = Ok (mkBw (bw_out s ++ seg m d) (bw_acc s) (bw_n s)).
Proof.
  intros H. unfold write_segment. pose proof (zlen_nonneg d). replace (wrap_u16 (zlen d)) with (zlen d) by (unfold wrap_u16; rewrite Z.mod_small; lia). replace (u16_max <? zlen d + 2) with false by (unfold u16_max; lia). unfold seg. do 4 f_equal. replace (zlen d + 2) with (2 + zlen d) by lia. reflexivity.
Qed.
Definition reads (n : nat) (st : jstate) (l : list Z) (jf : jfile) : Prop := (n <= length l)%nat /\ forall fuel, (n <= fuel)%nat -> read_segments fuel st l = Some jf.
Lemma num16be_be16 n l : 0 <= n <= 65535 -> num16be (be16 n ++ l) 0 = n.
Proof. intros H. change (256 * ((n / 256) mod 256) + n mod 256 = n). zdm. Qed.
(** what the reader sees of one segment *)
Lemma seg_view m d rest : zlen d <= 65533 -> exists r, seg m d ++ rest = 255 :: m :: r /\ num16be r 0 = 2 + zlen d /\ (num16be r 0 <? 2) || (zlen r <? num16be r 0) = false /\ zslice r 2 (num16be r 0 - 2) = d /\ skipn (Z.to_nat (num16be r 0)) r = rest.
Proof.
  intros H. exists (be16 (2 + zlen d) ++ d ++ rest). pose proof (zlen_nonneg d). pose proof (zlen_nonneg rest). split; [unfold seg; rewrite <- !app_assoc; reflexivity|]. assert (N : num16be (be16 (2 + zlen d) ++ d ++ rest) 0 = 2 + zlen d) by (apply num16be_be16; lia). rewrite N. split; [reflexivity|]. split; [|split].
  - rewrite !zlen_app. change (zlen (be16 _)) with 2. lia.
  - replace (2 + zlen d - 2) with (zlen d) by lia. unfold zslice. change (skipn (Z.to_nat 2) (be16 (2 + zlen d) ++ d ++ rest)) with (d ++ rest). unfold zlen. rewrite Nat2Z.id. apply firstn_app_exact. reflexivity.
  - replace (Z.to_nat (2 + zlen d)) with (2 + length d)%nat by (unfold zlen; lia). change (skipn (2 + length d) (be16 (2 + zlen d) ++ d ++ rest)) with (skipn (length d) (d ++ rest)). apply skipn_app_exact. reflexivity.
Qed.
Lemma seg_len m d rest : (length rest + 4 <= length (seg m d ++ rest))%nat.
Proof. unfold seg. rewrite !app_length. cbn [length be16]. lia. Qed.
Ltac seg_tac m d rest H :=
  let r := fresh "r" in let E := fresh "E" in let N := fresh "N" in let B := fresh "B" in let Z1 := fresh "Z1" in let Z2 := fresh "Z2" in
  destruct (seg_view m d rest H) as (r & E & N & B & Z1 & Z2); rewrite E; cbn [read_segments]; change (negb (255 =? 255)) with false; cbv iota zeta; rewrite B; rewrite Z1, Z2.
Lemma reads_sof n st d fr rest jf : zlen d <= 65533 -> read_sof d = Some fr -> reads n (mkJ (Some fr) (j_q st) (j_dc st) (j_ac st) (j_icc st)) rest jf -> reads (S n) st (seg 192 d ++ rest) jf.
Proof.
  intros H R (L & F). split; [pose proof (seg_len 192 d rest); lia|]. intros [|fuel] Hf; [lia|]. seg_tac 192 d rest H. change (192 =? 192) with true. cbv iota. rewrite R. apply F. lia.
Qed.
Lemma reads_dqt n st d q rest jf : zlen d <= 65533 -> read_dqt d = Some q -> reads n (mkJ (j_frame st) (q :: j_q st) (j_dc st) (j_ac st) (j_icc st)) rest jf -> reads (S n) st (seg 219 d ++ rest) jf.
Proof.
  intros H R (L & F). split; [pose proof (seg_len 219 d rest); lia|]. intros [|fuel] Hf; [lia|]. seg_tac 219 d rest H. change (219 =? 192) with false. change (219 =? 219) with true. cbv iota. rewrite R. apply F. lia.
Qed.
Lemma reads_dht_dc n st d i t rest jf : zlen d <= 65533 -> read_dht d = Some (0, i, t) -> reads n (mkJ (j_frame st) (j_q st) ((i, t) :: j_dc st) (j_ac st) (j_icc st)) rest jf -> reads (S n) st (seg 196 d ++ rest) jf.
Proof.
  intros H R (L & F). split; [pose proof (seg_len 196 d rest); lia|]. intros [|fuel] Hf; [lia|]. seg_tac 196 d rest H. change (196 =? 192) with false. change (196 =? 219) with false. change (196 =? 196) with true. cbv iota. rewrite R. change (0 =? 0) with true. cbv iota. apply F. lia.
Qed.
Lemma reads_dht_ac n st d i t rest jf : zlen d <= 65533 -> read_dht d = Some (1, i, t) -> reads n (mkJ (j_frame st) (j_q st) (j_dc st) ((i, t) :: j_ac st) (j_icc st)) rest jf -> reads (S n) st (seg 196 d ++ rest) jf.
Proof.
  intros H R (L & F). split; [pose proof (seg_len 196 d rest); lia|]. intros [|fuel] Hf; [lia|]. seg_tac 196 d rest H. change (196 =? 192) with false. change (196 =? 219) with false. change (196 =? 196) with true. cbv iota. rewrite R. change (1 =? 0) with false. change (1 =? 1) with true. cbv iota. apply F. lia.
Qed.
Lemma reads_app0 n st d rest jf : zlen d <= 65533 -> reads n st rest jf -> reads (S n) st (seg 224 d ++ rest) jf.
Proof.
  intros H (L & F). split; [pose proof (seg_len 224 d rest); lia|]. intros [|fuel] Hf; [lia|]. seg_tac 224 d rest H. change (224 =? 192) with false. change (224 =? 219) with false. change (224 =? 196) with false. change (224 =? 224) with true. cbv iota. apply F. lia.
Qed.
Lemma reads_icc n st i k c rest jf : zlen c <= 65519 -> reads n (mkJ (j_frame st) (j_q st) (j_dc st) (j_ac st) (j_icc st ++ [(i, k, c)])) rest jf -> reads (S n) st (seg 226 (str "ICC_PROFILE" ++ [0] ++ [i; k] ++ c) ++ rest) jf.
Proof.
  intros H (L & F). set (d := str "ICC_PROFILE" ++ [0] ++ [i; k] ++ c). assert (LD : zlen d <= 65533) by (unfold d; rewrite !zlen_app; change (zlen (str "ICC_PROFILE")) with 11; change (zlen [0]) with 1; change (zlen [i; k]) with 2; lia).
  split; [pose proof (seg_len 226 d rest); lia|]. intros [|fuel] Hf; [lia|]. seg_tac 226 d rest LD. change (226 =? 192) with false. change (226 =? 219) with false. change (226 =? 196) with false. change (226 =? 224) with false. change (226 =? 226) with true. cbv iota.
  replace (leqb (zslice d 0 12) icc_signature) with true by reflexivity. change (byte0 d 12) with i. change (byte0 d 13) with k. change (skipn 14 d) with c. apply F. lia.
Qed.
Lemma reads_sos st d sel w h cs D tables quant ms : zlen d <= 65533 -> read_sos d = Some sel -> j_frame st = Some (w, h, cs) -> map fst cs = map (fun s => fst (fst s)) sel -> bytes D ->
  all_some (map (fun s => match lookup (j_dc st) (snd (fst s)), lookup (j_ac st) (snd s) with Some a, Some b => Some (a, b) | _, _ => None end) sel) = Some tables ->
  all_some (map (fun c => lookup (j_q st) (snd c)) cs) = Some quant ->
  decode_scan (Z.to_nat (((w + 7) / 8) * ((h + 7) / 8))) tables (map (fun _ => 0) tables) (flat_map byte_bits D) = Some ms ->
  reads 1 st (seg 218 d ++ stuff D ++ [255; 217]) (mkJfile w h quant ms (j_icc st)).
Proof.
  intros H R FR EC BD ET EQ DS. split; [pose proof (seg_len 218 d (stuff D ++ [255; 217])); lia|]. intros [|fuel] Hf; [lia|]. seg_tac 218 d (stuff D ++ [255; 217]) H.
  change (218 =? 192) with false. change (218 =? 219) with false. change (218 =? 196) with false. change (218 =? 224) with false. change (218 =? 226) with false. change (218 =? 218) with true. cbv iota. rewrite R, FR, EC. rewrite leqb_refl. cbn [negb]. rewrite entropy_stuff by assumption. cbn [firstn]. change (leqb [255; 217] [255; 217]) with true. cbn [negb]. rewrite ET, EQ, DS. reflexivity.
Qed.
(** ** ICC profile *)
Lemma chunks_fuel_ok n : 0 < n -> forall fuel l, (length l <= fuel)%nat -> concat (chunks_fuel fuel n l) = l /\ Forall (fun c => 1 <= zlen c <= n) (chunks_fuel fuel n l) /\ zlen (chunks_fuel fuel n l) = (zlen l + n - 1) / n.
Proof.
  intros Hn. induction fuel as [|fuel IH]; intros [|a l] H; try (cbn [length] in H; lia); try (cbn [chunks_fuel]; split; [reflexivity|]; split; [constructor|]; change (zlen (@nil Z)) with 0; symmetry; apply Z.div_small; lia).
  cbn [chunks_fuel]. destruct (IH (skipn (Z.to_nat n) (a :: l))) as (I1 & I2 & I3). { rewrite skipn_length. cbn [length] in *. lia. }
  cbn [concat]. rewrite I1, firstn_skipn. split; [reflexivity|]. split.
  - constructor; [|exact I2]. unfold zlen. rewrite firstn_length. cbn [length]. lia.
  - rewrite zlen_cons, I3. assert (LS : zlen (skipn (Z.to_nat n) (a :: l)) = Z.max 0 (1 + zlen l - n)) by (unfold zlen; rewrite skipn_length; cbn [length]; lia). rewrite LS. rewrite zlen_cons. pose proof (zlen_nonneg l). destruct (Z.le_gt_cases (1 + zlen l) n).
    + replace (Z.max 0 (1 + zlen l - n)) with 0 by lia. rewrite (Z.div_small (0 + n - 1)) by lia. apply (Z.div_unique _ _ _ (zlen l)); lia.
    + replace (Z.max 0 (1 + zlen l - n)) with (1 + zlen l - n) by lia. replace (1 + zlen l + n - 1) with ((1 + zlen l - n + n - 1) + 1 * n) by lia. rewrite Z.div_add by lia. lia.
Qed.
Lemma chunks_ok n l : 0 < n -> concat (chunks n l) = l /\ Forall (fun c => 1 <= zlen c <= n) (chunks n l) /\ zlen (chunks n l) = (zlen l + n - 1) / n.
Proof. intros H. apply chunks_fuel_ok; [exact H|apply le_n]. Qed.
Definition icc_seg (num : Z) (c : Z * list Z) : list Z := seg 226 (str "ICC_PROFILE" ++ [0] ++ [fst c + 1; num] ++ snd c).
Definition icc_chunks (icc : list Z) : list (Z * list Z) := combine (zrange 0 (zlen (chunks 65519 icc))) (chunks 65519 icc).
Definition icc_bytes (icc : list Z) : list Z := flat_map (icc_seg (zlen (chunks 65519 icc))) (icc_chunks icc).
Lemma icc_chunks_in icc c : zlen icc <= 65519 * 255 -> In c (icc_chunks icc) -> 0 <= fst c < zlen (chunks 65519 icc) /\ zlen (snd c) <= 65519 /\ zlen (chunks 65519 icc) <= 255.
Proof.
  intros L H. destruct c as [i c]. destruct (chunks_ok 65519 icc ltac:(lia)) as (_ & F & N). pose proof (in_combine_l _ _ _ _ H) as H1. pose proof (in_combine_r _ _ _ _ H) as H2. apply In_zrange in H1. rewrite Forall_forall in F. specialize (F _ H2). cbn [fst snd]. split; [lia|]. split; [lia|]. rewrite N. clear - L. zdm.
Qed.
Lemma write_icc_ok s icc : zlen icc <= 65519 * 255 -> write_icc s icc = Ok (mkBw (bw_out s ++ icc_bytes icc) (bw_acc s) (bw_n s)).
Proof.
  intros L. unfold write_icc. destruct (Z.eqb_spec (zlen icc) 0) as [E|N].
  - rewrite (zlen_0_nil icc) by lia. cbn. rewrite app_nil_r. destruct s; reflexivity.
  - change MAX_CHUNK_SIZE with 65519. replace (65519 * 255 <? zlen icc) with false by lia. cbv zeta. fold (icc_chunks icc). unfold icc_bytes.
    assert (G : forall l s, (forall c, In c l -> 0 <= fst c < zlen (chunks 65519 icc) /\ zlen (snd c) <= 65519 /\ zlen (chunks 65519 icc) <= 255) ->
      foldM (fun s c => write_segment s 226 (str "ICC_PROFILE" ++ [0] ++ [wrap_u8 (fst c + 1); wrap_u8 (zlen (chunks 65519 icc))] ++ snd c)) l s = Ok (mkBw (bw_out s ++ flat_map (icc_seg (zlen (chunks 65519 icc))) l) (bw_acc s) (bw_n s))).
    { clear s. induction l as [|c l IH]; intros s H; cbn [foldM flat_map]; [rewrite app_nil_r; destruct s; reflexivity|]. destruct (H c ltac:(left; reflexivity)) as (H1 & H2 & H3).
      rewrite write_segment_ok. 2: { rewrite !zlen_app. change (zlen (str "ICC_PROFILE")) with 11. change (zlen [0]) with 1. change (zlen [wrap_u8 (fst c + 1); _]) with 2. lia. }
      cbn [bind]. rewrite IH by (intros; apply H; right; assumption). cbn [bw_out bw_acc bw_n]. unfold icc_seg at 2. rewrite (wrap_u8_small (fst c + 1)) by lia. rewrite (wrap_u8_small (zlen (chunks 65519 icc))) by lia. rewrite <- app_assoc. reflexivity. }
    apply G. intros c Hc. exact (icc_chunks_in icc c L Hc).
Qed.
Definition icc_list (icc : list Z) : list (Z * Z * list Z) := map (fun c => (fst c + 1, zlen (chunks 65519 icc), snd c)) (icc_chunks icc).
Lemma reads_icc_all n st icc rest jf : zlen icc <= 65519 * 255 -> j_icc st = [] -> reads n (mkJ (j_frame st) (j_q st) (j_dc st) (j_ac st) (icc_list icc)) rest jf -> reads (length (icc_chunks icc) + n) st (icc_bytes icc ++ rest) jf.
Proof.
  intros L EI R. unfold icc_bytes, icc_list in *. assert (H : forall c, In c (icc_chunks icc) -> zlen (snd c) <= 65519) by (intros c Hc; apply (icc_chunks_in icc c L Hc)). revert R H. replace (map (fun c => (fst c + 1, zlen (chunks 65519 icc), snd c)) (icc_chunks icc)) with (j_icc st ++ map (fun c => (fst c + 1, zlen (chunks 65519 icc), snd c)) (icc_chunks icc)) by (rewrite EI; reflexivity). clear EI.
  generalize (zlen (chunks 65519 icc)) as num. generalize (icc_chunks icc) as l. intros l num. revert st. induction l as [|c l IH]; intros st R H; cbn [map flat_map length plus] in *.
  - rewrite app_nil_r in R. destruct st; exact R.
  - unfold icc_seg at 1. rewrite <- app_assoc. apply reads_icc; [apply H; left; reflexivity|]. apply IH; cbn [j_frame j_q j_dc j_ac j_icc]; [rewrite <- app_assoc; exact R|intros; apply H; right; assumption].
Qed.
Lemma map_fst_combine {A B} (l : list A) (m : list B) : length l = length m -> map fst (combine l m) = l.
Proof. revert m. induction l as [|a l IH]; intros [|b m] H; try discriminate; [reflexivity|]. cbn. rewrite IH; [reflexivity|]. cbn in H. lia. Qed.
Lemma map_snd_combine {A B} (l : list A) (m : list B) : length l = length m -> map snd (combine l m) = m.
Proof. revert m. induction l as [|a l IH]; intros [|b m] H; try discriminate; [reflexivity|]. cbn. rewrite IH; [reflexivity|]. cbn in H. lia. Qed.
Lemma icc_list_profile icc : icc_profile (icc_list icc) = Some icc.
Proof.
  destruct (chunks_ok 65519 icc ltac:(lia)) as (C & _ & _). assert (LEN : length (zrange 0 (zlen (chunks 65519 icc))) = length (chunks 65519 icc)). { pose proof (zlen_zrange 0 (zlen (chunks 65519 icc))). pose proof (zlen_nonneg (chunks 65519 icc)). unfold zlen in *. lia. }
  assert (LL : zlen (icc_list icc) = zlen (chunks 65519 icc)). { unfold icc_list, icc_chunks. rewrite zlen_map. unfold zlen at 1. rewrite combine_length. unfold zlen in *. lia. }
  unfold icc_profile. rewrite LL. replace (leqb _ _) with true. 2: { symmetry. apply leqb_eq. unfold icc_list. rewrite map_map. cbn [fst]. rewrite <- (map_map fst (fun i => i + 1)). unfold icc_chunks. rewrite map_fst_combine by exact LEN. rewrite <- (map_id (zrange 1 _)). rewrite (map_zrange_shift (fun x => x)). apply map_ext. intros; lia. }
  replace (forallb _ _) with true. 2: { symmetry. apply forallb_forall. intros c Hc. apply in_map_iff in Hc. destruct Hc as (x & <- & _). cbn [fst snd]. apply Z.eqb_refl. }
  cbn [andb]. f_equal. unfold icc_list. rewrite map_map. cbn [snd]. unfold icc_chunks. rewrite map_snd_combine by exact LEN. exact C.
Qed.
(** ** the encoder's output *)
Lemma qseg_ok q id : zlen q = 64 -> 0 <= id < 16 -> quantization_segment 8 id q = Ok (id :: in_zigzag q).
Proof.
  intros L H. unfold quantization_segment. change (8 =? 8) with true. cbv iota zeta. rewrite (map_res_ok _ (fun k => nth (Z.to_nat k) q 0)).
  - cbn [bind]. unfold in_zigzag. rewrite zigzag_is. change (Z.shiftl 0 4) with 0. rewrite Z.lor_0_l. reflexivity.
  - intros k Hk. assert (0 <= k <= 63). { assert (F : Forall (fun k => 0 <= k <= 63) unzigzag) by (unfold unzigzag; repeat constructor; lia). rewrite Forall_forall in F. exact (F k Hk). }
    destruct (zget_some q k ltac:(lia)) as (c & G). rewrite G. f_equal. unfold zget in G. replace (k <? 0) with false in G by lia. symmetry. apply nth_error_nth. exact G.
Qed.
Lemma zlen_in_zigzag q : zlen (in_zigzag q) = 64.
Proof. unfold in_zigzag. rewrite zlen_map. reflexivity. Qed.
Lemma read_dqt_ok q id : 0 <= id < 16 -> read_dqt (id :: in_zigzag q) = Some (id, in_zigzag q).
Proof.
  intros H. unfold read_dqt. rewrite zlen_cons, zlen_in_zigzag. change (byte0 (id :: in_zigzag q) 0) with id. rewrite (Z.div_small id 16), (Z.mod_small id 16) by lia. reflexivity.
Qed.
Lemma read_sof_ok w h cs : 0 <= w <= 65535 -> 0 <= h <= 65535 -> cs = [(1, 0)] \/ cs = components -> read_sof (frame_header 8 w h cs) = Some (w, h, cs).
Proof.
  intros Hw Hh [-> | ->]; unfold read_sof; change (num16be (frame_header 8 w h _) 3) with (256 * ((w / 256) mod 256) + w mod 256); change (num16be (frame_header 8 w h _) 1) with (256 * ((h / 256) mod 256) + h mod 256);
    replace (256 * ((w / 256) mod 256) + w mod 256) with w by zdm; replace (256 * ((h / 256) mod 256) + h mod 256) with h by zdm; reflexivity.
Qed.
Lemma blocks_count w h : 0 <= w -> 0 <= h -> length (block_origins w h) = Z.to_nat ((w + 7) / 8 * ((h + 7) / 8)).
Proof.
  intros Hw Hh. unfold block_origins. rewrite map_length. pose proof (zlen_coords ((w + 7) / 8) ((h + 7) / 8)) as L. unfold zlen in L. rewrite <- L by (apply Z.div_pos; lia). rewrite Nat2Z.id. reflexivity.
Qed.
Definition head (d : Z * Z * unit_t) (icc : list Z) : list Z := [255; 216] ++ seg 224 (jfif_header d) ++ icc_bytes icc.
Definition ldc_seg : list Z := 0 :: luma_dc_lengths ++ luma_dc_values.
Definition lac_seg : list Z := 16 :: luma_ac_lengths ++ luma_ac_values.
Definition cdc_seg : list Z := 1 :: chroma_dc_lengths ++ chroma_dc_values.
Definition cac_seg : list Z := 17 :: chroma_ac_lengths ++ chroma_ac_values.
Lemma jfif_len d : zlen (jfif_header d) = 14.
Proof. destruct d as ((x & y) & u). unfold jfif_header. destruct u; reflexivity. Qed.
Definition gray_head (w h : Z) (q0 : list Z) : list Z := seg 192 (frame_header 8 w h [(1, 0)]) ++ seg 219 (0 :: in_zigzag q0) ++ seg 196 ldc_seg ++ seg 196 lac_seg ++ seg 218 (scan_header [(1, 0)]).
Definition color_head (w h : Z) (q0 q1 : list Z) : list Z :=
  seg 192 (frame_header 8 w h components) ++ seg 219 (0 :: in_zigzag q0) ++ seg 219 (1 :: in_zigzag q1) ++ seg 196 ldc_seg ++ seg 196 lac_seg ++ seg 196 cdc_seg ++ seg 196 cac_seg ++ seg 218 (scan_header components).
Lemma gray_reads st w h q0 D ms : 0 <= w <= 65535 -> 0 <= h <= 65535 -> j_frame st = None -> j_q st = [] -> j_dc st = [] -> j_ac st = [] -> bytes D ->
  decode_scan (Z.to_nat (((w + 7) / 8) * ((h + 7) / 8))) [(luma_dc_t, luma_ac_t)] [0] (flat_map byte_bits D) = Some ms ->
  reads 5 st (gray_head w h q0 ++ stuff D ++ [255; 217]) (mkJfile w h [in_zigzag q0] ms (j_icc st)).
Proof.
  intros Hw Hh E1 E2 E3 E4 BD DS. unfold gray_head. rewrite <- !app_assoc. apply reads_sof with (fr := (w, h, [(1, 0)])); [vm_compute; discriminate|apply read_sof_ok; auto|].
  apply reads_dqt with (q := (0, in_zigzag q0)); [rewrite zlen_cons, zlen_in_zigzag; lia|apply read_dqt_ok; lia|].
  apply reads_dht_dc with (i := 0) (t := luma_dc_t); [vm_compute; discriminate|reflexivity|]. apply reads_dht_ac with (i := 0) (t := luma_ac_t); [vm_compute; discriminate|reflexivity|]. rewrite E2, E3, E4. cbn [j_frame j_q j_dc j_ac j_icc].
  change (j_icc st) with (j_icc (mkJ (Some (w, h, [(1, 0)])) [(0, in_zigzag q0)] [(0, luma_dc_t)] [(0, luma_ac_t)] (j_icc st))) at 2.
  eapply reads_sos with (w := w) (h := h) (cs := [(1, 0)]) (sel := [(1, 0, 0)]) (tables := [(luma_dc_t, luma_ac_t)]); try reflexivity; try assumption. vm_compute; discriminate.
Qed.
Lemma color_reads st w h q0 q1 D ms : 0 <= w <= 65535 -> 0 <= h <= 65535 -> j_frame st = None -> j_q st = [] -> j_dc st = [] -> j_ac st = [] -> bytes D ->
  decode_scan (Z.to_nat (((w + 7) / 8) * ((h + 7) / 8))) [(luma_dc_t, luma_ac_t); (chroma_dc_t, chroma_ac_t); (chroma_dc_t, chroma_ac_t)] [0; 0; 0] (flat_map byte_bits D) = Some ms ->
  reads 8 st (color_head w h q0 q1 ++ stuff D ++ [255; 217]) (mkJfile w h [in_zigzag q0; in_zigzag q1; in_zigzag q1] ms (j_icc st)).
Proof.
  intros Hw Hh E1 E2 E3 E4 BD DS. unfold color_head. rewrite <- !app_assoc. apply reads_sof with (fr := (w, h, components)); [vm_compute; discriminate|apply read_sof_ok; auto|].
  apply reads_dqt with (q := (0, in_zigzag q0)); [rewrite zlen_cons, zlen_in_zigzag; lia|apply read_dqt_ok; lia|]. apply reads_dqt with (q := (1, in_zigzag q1)); [rewrite zlen_cons, zlen_in_zigzag; lia|apply read_dqt_ok; lia|].
  apply reads_dht_dc with (i := 0) (t := luma_dc_t); [vm_compute; discriminate|reflexivity|]. apply reads_dht_ac with (i := 0) (t := luma_ac_t); [vm_compute; discriminate|reflexivity|].
  apply reads_dht_dc with (i := 1) (t := chroma_dc_t); [vm_compute; discriminate|reflexivity|]. apply reads_dht_ac with (i := 1) (t := chroma_ac_t); [vm_compute; discriminate|reflexivity|]. rewrite E2, E3, E4. cbn [j_frame j_q j_dc j_ac j_icc].
  change (j_icc st) with (j_icc (mkJ (Some (w, h, components)) [(1, in_zigzag q1); (0, in_zigzag q0)] [(1, chroma_dc_t); (0, luma_dc_t)] [(1, chroma_ac_t); (0, luma_ac_t)] (j_icc st))) at 2.
  eapply reads_sos with (w := w) (h := h) (cs := components) (sel := [(1, 0, 0); (2, 1, 1); (3, 1, 1)]) (tables := [(luma_dc_t, luma_ac_t); (chroma_dc_t, chroma_ac_t); (chroma_dc_t, chroma_ac_t)]); try reflexivity; try assumption. vm_compute; discriminate.
Qed.
Lemma read_file_ok n d icc tail w h q ms : zlen icc <= 65519 * 255 -> reads n (mkJ None [] [] [] (icc_list icc)) tail (mkJfile w h q ms (icc_list icc)) -> read_jpeg (head d icc ++ tail) = Some (mkJfile w h q ms (icc_list icc)).
Proof.
  intros L R. unfold head. rewrite <- !app_assoc. cbn [app read_jpeg]. change ((255 =? 255) && (216 =? 216)) with true. cbv iota.
  assert (R2 : reads (S (length (icc_chunks icc) + n)) (mkJ None [] [] [] []) (seg 224 (jfif_header d) ++ icc_bytes icc ++ tail) (mkJfile w h q ms (icc_list icc))).
  { apply reads_app0; [rewrite jfif_len; lia|]. apply (reads_icc_all n (mkJ None [] [] [] []) icc tail _ L eq_refl). exact R. }
  destruct R2 as (LE & F). apply F. exact LE.
Qed.
Lemma rep_new base : rep base (mkBw base 0 0) [].
Proof. exists [], []. cbn. rewrite app_nil_r. repeat split; try lia. constructor. Qed.
Definition gray_mcus (q0 : list Z) (im : img (list Z)) : list (list (list Z)) :=
  map (fun o => [in_zigzag (coefs q0 (block_samples (chan 0) im o))]) (block_origins (iw im) (ih im)).
Definition color_mcus (q0 q1 : list Z) (im : img (list Z)) : list (list (list Z)) :=
  map (fun o => [in_zigzag (coefs q0 (block_samples y_of im o)); in_zigzag (coefs q1 (block_samples cb_of im o)); in_zigzag (coefs q1 (block_samples cr_of im o))]) (block_origins (iw im) (ih im)).
Lemma huff_ldc : huffman_segment 0 0 luma_dc_lengths luma_dc_values = Ok ldc_seg. Proof. reflexivity. Qed.
Lemma huff_lac : huffman_segment 1 0 luma_ac_lengths luma_ac_values = Ok lac_seg. Proof. reflexivity. Qed.
Lemma huff_cdc : huffman_segment 0 1 chroma_dc_lengths chroma_dc_values = Ok cdc_seg. Proof. reflexivity. Qed.
Lemma huff_cac : huffman_segment 1 1 chroma_ac_lengths chroma_ac_values = Ok cac_seg. Proof. reflexivity. Qed.
Lemma gray_encode e out q0 q1 k im : je_w e = bw_new out -> je_tables e = (q0, q1) -> table_ok q0 -> zlen (je_icc e) <= 65519 * 255 -> is_gray k -> wf im -> Forall (is_pixel U8 k) (px im) -> iw im <= 65535 -> ih im <= 65535 ->
  exists e' D, encode_image e U8 k im = Ok e' /\ bw_out (je_w e') = out ++ head (je_density e) (je_icc e) ++ gray_head (iw im) (ih im) q0 ++ stuff D ++ [255; 217] /\ bytes D /\
    read_jpeg (head (je_density e) (je_icc e) ++ gray_head (iw im) (ih im) q0 ++ stuff D ++ [255; 217]) = Some (mkJfile (iw im) (ih im) [in_zigzag q0] (gray_mcus q0 im) (icc_list (je_icc e))).
Proof.
  intros EW ET TQ LI K W F Hw Hh. unfold encode_image. rewrite EW, ET. destruct W as (W0 & H0 & WL).
  replace ((nch k =? 1) || (nch k =? 2)) with true by (destruct K as [-> | ->]; reflexivity). cbv iota zeta. change (firstn (Z.to_nat 1) components) with [(1, 0)].
  rewrite write_segment_ok by (rewrite jfif_len; lia). cbn [bind]. rewrite write_icc_ok by exact LI. cbn [bind write_marker bw_new bw_out bw_acc bw_n].
  replace ((u16_max <? iw im) || (u16_max <? ih im)) with false by (unfold u16_max; lia). rewrite write_segment_ok by (vm_compute; discriminate). cbn [bind bw_out bw_acc bw_n].
  rewrite qseg_ok by (try apply TQ; lia). cbn [bind]. rewrite write_segment_ok by (rewrite zlen_cons, zlen_in_zigzag; lia). change (1 =? 1) with true. change (1 =? 3) with false. cbn [bind bw_out bw_acc bw_n].
  rewrite huff_ldc. cbn [bind]. rewrite write_segment_ok by (vm_compute; discriminate). rewrite huff_lac. cbn [bind bw_out bw_acc bw_n]. rewrite write_segment_ok by (vm_compute; discriminate). cbn [bind bw_out bw_acc bw_n]. rewrite write_segment_ok by (vm_compute; discriminate). cbn [bind bw_out bw_acc bw_n].
  replace (is_rgb8 U8 k) with false by (destruct K as [-> | ->]; reflexivity). cbv iota.
  match goal with |- context [encode_gray (mkBw ?b 0 0)] => set (base := b) end.
  destruct (encode_gray_ok base (mkBw base 0 0) [] k im q0 K ltac:(repeat split; assumption) F TQ (rep_new base)) as (s' & E & EE & R & DS). rewrite EE. cbn [bind]. cbn [app] in R.
  destruct (pad_ok base s' E R) as (s2 & D & pad & EP & O & BD & FB). rewrite EP. cbn [bind]. exists (set_w e (write_marker s2 217)), D. split; [reflexivity|]. split; [|split; [exact BD|]].
  - cbn [set_w je_w write_marker bw_out]. rewrite O. unfold base, head, gray_head. rewrite <- !app_assoc. reflexivity.
  - apply (read_file_ok 5); [exact LI|]. apply (gray_reads (mkJ None [] [] [] (icc_list (je_icc e)))); try reflexivity; try lia; try assumption. rewrite FB. rewrite <- blocks_count by lia. apply DS.
Qed.
Lemma color_encode e out q0 q1 k im : je_w e = bw_new out -> je_tables e = (q0, q1) -> table_ok q0 -> table_ok q1 -> zlen (je_icc e) <= 65519 * 255 -> is_color k -> wf im -> Forall (is_pixel U8 k) (px im) -> iw im <= 65535 -> ih im <= 65535 ->
  exists e' D, encode_image e U8 k im = Ok e' /\ bw_out (je_w e') = out ++ head (je_density e) (je_icc e) ++ color_head (iw im) (ih im) q0 q1 ++ stuff D ++ [255; 217] /\ bytes D /\
    read_jpeg (head (je_density e) (je_icc e) ++ color_head (iw im) (ih im) q0 q1 ++ stuff D ++ [255; 217]) = Some (mkJfile (iw im) (ih im) [in_zigzag q0; in_zigzag q1; in_zigzag q1] (color_mcus q0 q1 im) (icc_list (je_icc e))).
Proof.
  intros EW ET TQ TQ1 LI K W F Hw Hh. unfold encode_image. rewrite EW, ET. destruct W as (W0 & H0 & WL).
  replace ((nch k =? 1) || (nch k =? 2)) with false by (destruct K as [-> | ->]; reflexivity). cbv iota zeta. change (firstn (Z.to_nat 3) components) with components.
  rewrite write_segment_ok by (rewrite jfif_len; lia). cbn [bind]. rewrite write_icc_ok by exact LI. cbn [bind write_marker bw_new bw_out bw_acc bw_n].
  replace ((u16_max <? iw im) || (u16_max <? ih im)) with false by (unfold u16_max; lia). rewrite write_segment_ok by (vm_compute; discriminate). cbn [bind bw_out bw_acc bw_n].
  rewrite qseg_ok by (try apply TQ; lia). cbn [bind]. rewrite write_segment_ok by (rewrite zlen_cons, zlen_in_zigzag; lia). change (3 =? 1) with false. change (3 =? 3) with true. cbn [bind bw_out bw_acc bw_n].
  rewrite qseg_ok by (try apply TQ1; lia). cbn [bind]. rewrite write_segment_ok by (rewrite zlen_cons, zlen_in_zigzag; lia). cbn [bind bw_out bw_acc bw_n].
  rewrite huff_ldc. cbn [bind]. rewrite write_segment_ok by (vm_compute; discriminate). rewrite huff_lac. cbn [bind bw_out bw_acc bw_n]. rewrite write_segment_ok by (vm_compute; discriminate). cbn [bind bw_out bw_acc bw_n].
  rewrite huff_cdc. cbn [bind]. rewrite write_segment_ok by (vm_compute; discriminate). rewrite huff_cac. cbn [bind bw_out bw_acc bw_n]. rewrite write_segment_ok by (vm_compute; discriminate). cbn [bind bw_out bw_acc bw_n]. rewrite write_segment_ok by (vm_compute; discriminate). cbn [bind bw_out bw_acc bw_n].
  replace (is_rgb8 U8 k) with true by (destruct K as [-> | ->]; reflexivity). cbv iota.
  match goal with |- context [encode_rgb (mkBw ?b 0 0)] => set (base := b) end.
  destruct (encode_rgb_ok base (mkBw base 0 0) [] k im q0 q1 K ltac:(repeat split; assumption) F TQ TQ1 (rep_new base)) as (s' & E & EE & R & DS). rewrite EE. cbn [bind]. cbn [app] in R.
  destruct (pad_ok base s' E R) as (s2 & D & pad & EP & O & BD & FB). rewrite EP. cbn [bind]. exists (set_w e (write_marker s2 217)), D. split; [reflexivity|]. split; [|split; [exact BD|]].
  - cbn [set_w je_w write_marker bw_out]. rewrite O. unfold base, head, color_head. rewrite <- !app_assoc. reflexivity.
  - apply (read_file_ok 8); [exact LI|]. apply (color_reads (mkJ None [] [] [] (icc_list (je_icc e)))); try reflexivity; try lia; try assumption. rewrite FB. rewrite <- blocks_count by lia. apply DS.
Qed.
