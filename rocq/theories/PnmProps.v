(** C41 (PNM round trip), C42 (the encoder's range check), C55 (the PNM decoder), and the PNM instance of C27.
    [encode st samples w h c] is PnmEncoder::encode with a header strategy and u8 or u16 samples, [write_image] the
    ImageEncoder entry point, [pnm_decode md big file] opens a file and reads the image ([md]: debug or release
    arithmetic, [big]: the byte order of the machine).  Specification: PnmSpec.v. *)
From Coq Require Import String.
From Verif Require Import Base BaseLemmas ListLemmas ListMore ColorType Limits Text GenImage Formats FormatsProofs Farbfeld FarbfeldSpec Post Pnm PnmSpec PnmScale PnmProofs PnmProofs2 PnmProofs3 PnmProofs4.
Local Open Scope Z_scope.

(** ** C41 *)
(** the 8-bit choices: the strategy, the color type passed, the encoding, the color type read back, the channels *)
Inductive kept8 : strategy -> ectype -> senc -> ctype -> Z -> Prop :=
| k_gray e : kept8 (Subtype (SubGray e)) XL8 e CL8 1
| k_pix e : kept8 (Subtype (SubPix e)) XRgb8 e CRgb8 3
| k_pam_gray : kept8 (Subtype SubArb) XL8 SBin CL8 1
| k_pam_rgb : kept8 (Subtype SubArb) XRgb8 SBin CRgb8 3
| k_dyn_gray : kept8 Dynamic XL8 SBin CL8 1
| k_dyn_rgb : kept8 Dynamic XRgb8 SBin CRgb8 3.
Lemma bytes_u16 l : bytes l -> Forall is_u16 l.
Proof. intros B. eapply Forall_impl; [|exact B]. cbv beta. unfold is_u8, is_u16, u8_max, u16_max. lia. Qed.
Lemma kept8_header st c e ct ch w h : kept8 st c e ct ch ->
  exists hd, sampled hd e ct ch 255 255 /\ h_width hd = w /\ h_height hd = h /\ check_header_color hd c = Ok tt /\ max_sample c = Ok 255 /\ maximal_sample hd = 255 /\ ect_channels c = ch /\ ct_bytes ct = ch /\ ect_bits c = 8 * ch /\
    forall s, encode st s w h c = write_with_header hd s w h c.
Proof.
  destruct 1.
  - exists (HGray e w h 255). split; [constructor; lia|]. repeat (split; [reflexivity|]). reflexivity.
  - exists (HPix e w h 255). split; [constructor; lia|]. repeat (split; [reflexivity|]). reflexivity.
  - exists (HArb w h 1 255 (Some TGray)). split; [constructor; lia|]. repeat (split; [reflexivity|]). reflexivity.
  - exists (HArb w h 3 255 (Some TRgb)). split; [constructor; lia|]. repeat (split; [reflexivity|]). reflexivity.
  - exists (HArb w h 1 255 (Some TGray)). split; [constructor; lia|]. repeat (split; [reflexivity|]). reflexivity.
  - exists (HArb w h 3 255 (Some TRgb)). split; [constructor; lia|]. repeat (split; [reflexivity|]). reflexivity.
Qed.
Theorem C41_roundtrip_8bit : forall md big st c e ct ch w h data, kept8 st c e ct ch -> is_u32 w -> is_u32 h -> bytes data -> zlen data = w * h * ch ->
  size_ok e (w * h * ch) ->
  exists file, write_image st data w h c = Ok file /\ pnm_decode md big file = Ok (w, h, ct, data).
Proof.
  intros md big st c e ct ch w h data K Hw Hh B L SZ. destruct (kept8_header st c e ct ch w h K) as (hd & SP & W & H & C & MS & MX & CH & CB & BT & E).
  destruct (body_stores hd e ct ch 255 255 (S8 data) SP) as (body & BO & ST). { destruct e; reflexivity. } { apply bytes_u16; exact B. }
  pose proof (size_isize _ _ SZ) as SI. assert (CR : 1 <= ch <= 3) by (destruct K; lia). assert (P : 0 <= w * h) by (apply Z.mul_nonneg_nonneg; unfold is_u32 in *; lia).
  assert (A : write_with_header hd (S8 data) w h c = Ok (write_header hd ++ body)).
  { apply (accept hd (S8 data) w h c 255 body W H C); [cbn [vals]; rewrite CH, L; ring|cbn [vals]; rewrite L; unfold isize_max, u64_max in *; lia|exact MS|left; lia|exact BO]. }
  exists (write_header hd ++ body). split.
  - unfold write_image, buffer_size. rewrite BT. replace (w * (8 * ch) + 7 <=? u64_max) with true by (unfold is_u32, u32_max, u64_max in *; nia).
    replace ((w * (8 * ch) + 7) / 8) with (w * ch) by (apply (Z.div_unique _ _ _ 7); lia). unfold sat_mul_u64. replace (w * ch * h) with (w * h * ch) by ring. cbn [bind].
    rewrite Z.min_r by (unfold isize_max, u64_max in *; lia). rewrite L, Z.eqb_refl, E. exact A.
  - rewrite <- CB in SZ. rewrite (chosen_round md big hd (S8 data) w h c _ e ct ch 255 255 SP A Hw Hh); [reflexivity|destruct e; reflexivity| |exact SZ]. exact B.
Qed.
Print Assumptions C41_roundtrip_8bit.
Theorem C41_roundtrip_16bit : forall md big st w h data, st = Dynamic \/ st = Subtype SubArb -> is_u32 w -> is_u32 h -> Forall is_u16 data -> zlen data = w * h ->
  w * h * 2 <= u32_max ->
  exists file, encode st (S16 data) w h XL16 = Ok file /\ pnm_decode md big file = Ok (w, h, CL16, native big data).
Proof.
  intros md big st w h data K Hw Hh B L SZ. set (hd := HArb w h 1 65535 (Some TGray)). assert (SP : sampled hd SBin CL16 1 65535 65535) by (constructor; lia).
  destruct (body_stores hd SBin CL16 1 65535 65535 (S16 data) SP eq_refl B) as (body & BO & ST). assert (P : 0 <= w * h) by (apply Z.mul_nonneg_nonneg; unfold is_u32 in *; lia).
  assert (A : write_with_header hd (S16 data) w h XL16 = Ok (write_header hd ++ body)).
  { apply (accept hd (S16 data) w h XL16 65535 body eq_refl eq_refl eq_refl); [cbn [vals ect_channels]; rewrite L; ring|cbn [vals]; rewrite L; unfold u32_max, u64_max in *; lia|reflexivity|left; cbn; lia|exact BO]. }
  exists (write_header hd ++ body). split; [destruct K as [-> | ->]; exact A|].
  rewrite (chosen_round md big hd (S16 data) w h XL16 _ SBin CL16 1 65535 65535 SP A Hw Hh); [reflexivity|reflexivity|exact B|exact SZ].
Qed.
Print Assumptions C41_roundtrip_16bit.
(** black and white through PAM: the samples 0 and 1 come back as 0 and 255 *)
Theorem C41_roundtrip_bits_pam : forall md big st w h data, st = Dynamic \/ st = Subtype SubArb -> is_u32 w -> is_u32 h -> Forall (fun v => v = 0 \/ v = 1) data -> zlen data = w * h ->
  w * h <= u32_max ->
  exists file, encode st (S8 data) w h XL1 = Ok file /\ pnm_decode md big file = Ok (w, h, CL8, map (fun v => 255 * v) data).
Proof.
  intros md big st w h data K Hw Hh B L SZ. set (hd := HArb w h 1 1 (Some TBW)). assert (SP : sampled hd SBin CL8 1 255 1) by constructor.
  assert (V : Forall (fun v => 0 <= v <= 1) data) by (eapply Forall_impl; [|exact B]; cbv beta; lia).
  destruct (body_stores hd SBin CL8 1 255 1 (S8 data) SP eq_refl) as (body & BO & ST). { eapply Forall_impl; [|exact V]. cbv beta. unfold is_u16, u16_max. cbn [vals]. lia. }
  assert (P : 0 <= w * h) by (apply Z.mul_nonneg_nonneg; unfold is_u32 in *; lia).
  assert (A : write_with_header hd (S8 data) w h XL1 = Ok (write_header hd ++ body)).
  { apply (accept hd (S8 data) w h XL1 1 body eq_refl eq_refl eq_refl); [cbn [vals ect_channels]; rewrite L; ring|cbn [vals]; rewrite L; unfold u32_max, u64_max in *; lia|reflexivity|left; cbn; lia|exact BO]. }
  exists (write_header hd ++ body). split; [destruct K as [-> | ->]; exact A|].
  rewrite (chosen_round md big hd (S8 data) w h XL1 _ SBin CL8 1 255 1 SP A Hw Hh); [|reflexivity|exact V|cbn [ct_bytes size_ok]; lia].
  f_equal. f_equal. change (1 =? 255) with false. cbv iota. unfold layout. change (255 =? 255) with true. cbv iota. cbn [vals]. apply map_ext_in. intros v Hv. rewrite Forall_forall in B. destruct (B v Hv) as [-> | ->]; vm_compute; reflexivity.
Qed.
Print Assumptions C41_roundtrip_bits_pam.
(** binary bitmaps, every width: black (0) and white (anything else) come back; the samples 0 and 1 of an L1 image are
    always accepted, an L8 image when it has a sample above 1 *)
Theorem C41_roundtrip_pbm : forall md big w h data c, 1 <= w -> w + 7 <= u32_max -> is_u32 h -> zlen data = w * h -> (w + 7) / 8 * h <= u32_max ->
  c = XL1 \/ c = XL8 /\ Exists (fun v => 1 < v) data ->
  exists file, encode (Subtype (SubBit SBin)) (S8 data) w h c = Ok file /\
    pnm_decode md big file = Ok (w, h, CL8, map (fun v => if v =? 0 then 0 else 255) data).
Proof.
  intros md big w h data c Hw H7 Hh L SZ K. destruct (pbm_body_ok data w h Hw ltac:(unfold is_u32 in Hh; lia) L) as (body & WB & BB & LB & PB).
  assert (Hw' : is_u32 w) by (unfold is_u32; lia). pose proof (u32_prod _ _ Hw' Hh) as P.
  exists (write_header (HBit SBin w h) ++ body). split.
  - transitivity (write_with_header (HBit SBin w h) (S8 data) w h c); [destruct K as [-> |(-> & _)]; reflexivity|].
    apply (accept (HBit SBin w h) (S8 data) w h c (if match c with XL1 => true | _ => false end then 1 else 255) body eq_refl eq_refl).
    + destruct K as [-> |(-> & _)]; reflexivity.
    + destruct K as [-> |(-> & _)]; cbn [ect_channels vals]; lia.
    + cbn [vals]. lia.
    + destruct K as [-> |(-> & _)]; reflexivity.
    + destruct K as [-> |(-> & X)]; [left; cbn; lia|right; exact X].
    + exact WB.
  - rewrite (decode_pbm md big w h (write_header (HBit SBin w h)) body); try assumption; [|apply write_header_text; split; [exact Hw'|split; [exact Hh|split; [apply one_u32|exact I]]]|rewrite LB; lia].
    f_equal. f_equal. etransitivity; [|apply (picture_list data w h (fun o => if is0 o then 0 else 255) (fun v => if v =? 0 then 0 else 255)); [exact Hw|unfold is_u32 in Hh; lia|exact L|reflexivity]].
    unfold picture. apply map_ext_in. intros (x & y) Hc. apply In_coords in Hc; [|unfold is_u32 in *; lia..]. cbn [fst snd]. rewrite PB by lia. reflexivity.
Qed.
Print Assumptions C41_roundtrip_pbm.
(** any header with a sample range that the encoder accepts, with samples in that range and of the width the header
    implies: decoding gives the samples rescaled to the full range, and the samples themselves for a full-range header *)
Theorem C41_chosen_header : forall md big hd s w h c file e ct ch T m, sampled hd e ct ch T m -> encode (Chosen hd) s w h c = Ok file -> is_u32 w -> is_u32 h ->
  width_ok e T s -> Forall (fun v => 0 <= v <= m) (vals s) -> size_ok e (w * h * ct_bytes ct) ->
  exists out, pnm_decode md big file = Ok (w, h, ct, layout big T out) /\ Forall2 (rescaled T m) (vals s) out /\ (m = T -> out = vals s).
Proof.
  intros md big hd s w h c file e ct ch T m SP E Hw Hh WO V SZ. exists (if m =? T then vals s else map (scale T m) (vals s)). split; [exact (chosen_round md big hd s w h c file e ct ch T m SP E Hw Hh WO V SZ)|].
  split; [exact (scale_rescaled T m (vals s) hd e ct ch SP V)|]. intros ->. rewrite Z.eqb_refl. reflexivity.
Qed.
Print Assumptions C41_chosen_header.
(** ASCII output: after a header of two lines come the samples in order as decimal numbers separated by blanks, and no
    line is longer than 70 *)
Definition is_ascii (hd : hdr) : Prop := match hd with HBit e _ _ | HGray e _ _ _ | HPix e _ _ _ => e = SAsc | HArb _ _ _ _ _ => False end.
Definition ascii_choice (st : strategy) : Prop := match st with Subtype (SubBit e) | Subtype (SubGray e) | Subtype (SubPix e) => e = SAsc | Chosen hd => is_ascii hd | _ => False end.
Lemma ascii_chosen st s w h c file : ascii_choice st -> encode st s w h c = Ok file -> (exists hd, st = Chosen hd /\ is_ascii hd /\ write_with_header hd s w h c = Ok file) \/ exists hd, is_ascii hd /\ hdr_ok hd = hdr_ok hd /\ maximal_sample hd <= 255 /\ 0 <= maximal_sample hd /\ write_with_header hd s w h c = Ok file.
Proof.
  destruct st as [|[e|e|e|]|hd]; cbn [ascii_choice encode write_subtyped_header]; intros A E; try contradiction; [| | |left; exists hd; auto]; subst e; right.
  - exists (HBit SAsc w h). cbn. split; [reflexivity|split; [reflexivity|split; [lia|split; [lia|]]]]. destruct c; first [exact E|discriminate E].
  - exists (HGray SAsc w h 255). cbn. split; [reflexivity|split; [reflexivity|split; [lia|split; [lia|]]]]. destruct c; first [exact E|discriminate E].
  - exists (HPix SAsc w h 255). cbn. split; [reflexivity|split; [reflexivity|split; [lia|split; [lia|]]]]. destruct c; first [exact E|discriminate E].
Qed.
Lemma ascii_file hd s w h c file : is_ascii hd -> is_u32 w -> is_u32 h -> is_u32 (maximal_sample hd) -> Forall is_u16 (vals s) -> write_with_header hd s w h c = Ok file ->
  exists magic numbers body, file = magic ++ [10] ++ numbers ++ [10] ++ body /\ Forall (fun b => b <> 10) (magic ++ numbers) /\ split_ws body = map dec (vals s) /\ Forall (fun l => zlen l <= 70) (lines file).
Proof.
  intros A Hw Hh Hm U E. destruct (accepted _ _ _ _ _ _ E) as (W & H & _ & _ & _ & _ & body & B & ->). rewrite <- W in Hw. rewrite <- H in Hh.
  assert (BE : body = write_samples_ascii (vals s)) by (destruct hd; cbn [is_ascii] in A; try contradiction; subst e; apply Ok_inj in B; auto). subst body. clear B.
  set (nums := match hd with HBit _ w hh => dec w ++ [32] ++ dec hh | HGray _ w hh m | HPix _ w hh m => dec w ++ [32] ++ dec hh ++ [32] ++ dec m | HArb _ _ _ _ _ => [] end).
  assert (HE : write_header hd = magic_constant (h_subtype hd) ++ [10] ++ nums ++ [10]) by (destruct hd; cbn [is_ascii] in A; try contradiction; unfold write_header, nums; rewrite <- !app_assoc; reflexivity).
  assert (U32 : forall v, is_u32 v -> Forall ne10 (dec v) /\ zlen (dec v) <= 21) by (intros v Hv; split; [apply dec_ne10; unfold is_u32, u32_max in Hv; lia|apply dec_len]).
  destruct (U32 _ Hw) as (W1 & W2). destruct (U32 _ Hh) as (H1 & H2). destruct (U32 _ Hm) as (M1 & M2). clear U32.
  assert (N32 : Forall ne10 [32]) by (constructor; [unfold ne10; lia|constructor]).
  assert (MG : Forall ne10 (magic_constant (h_subtype hd)) /\ zlen (magic_constant (h_subtype hd)) = 2). { destruct hd; cbn [is_ascii] in A; try contradiction; subst e; (split; [apply ne10_lit; reflexivity|reflexivity]). }
  assert (NM : Forall ne10 nums /\ zlen nums <= 70). { destruct hd; cbn [is_ascii] in A; try contradiction; cbn [h_width h_height maximal_sample] in *; unfold nums; clear nums HE; rewrite ?zlen_app; change (zlen [32]) with 1; (split; [repeat (apply Forall_app; split; [assumption|]); assumption|lia]). }
  exists (magic_constant (h_subtype hd)), nums, (write_samples_ascii (vals s)). split; [rewrite HE, <- !app_assoc; reflexivity|]. split; [apply Forall_app; split; [apply MG|apply NM]|]. split; [apply ascii_words, small_dec, U|].
  rewrite HE. replace ((magic_constant (h_subtype hd) ++ [10] ++ nums ++ [10]) ++ write_samples_ascii (vals s)) with (flat_map (fun ln => ln ++ [10]) [magic_constant (h_subtype hd); nums] ++ write_samples_ascii (vals s)) by (cbn [flat_map]; rewrite app_nil_r, <- !app_assoc; reflexivity).
  apply ascii_lines; [|apply small_dec, U]. constructor; [split; [lia|apply MG]|]. constructor; [split; [apply NM|apply NM]|constructor].
Qed.
Theorem C41_ascii_text : forall st s w h c file, ascii_choice st -> is_u32 w -> is_u32 h -> (forall hd, st = Chosen hd -> is_u32 (maximal_sample hd)) -> Forall is_u16 (vals s) -> encode st s w h c = Ok file ->
  exists magic numbers body, file = magic ++ [10] ++ numbers ++ [10] ++ body /\ Forall (fun b => b <> 10) (magic ++ numbers) /\
    split_ws body = map dec (vals s) /\ Forall (fun l => zlen l <= 70) (lines file).
Proof.
  intros st s w h c file A Hw Hh HM U E. destruct (ascii_chosen st s w h c file A E) as [(hd & -> & AH & E')|(hd & AH & _ & M1 & M2 & E')]; apply (ascii_file hd s w h c file AH Hw Hh); try assumption; [apply HM; reflexivity|unfold is_u32, u32_max; lia].
Qed.
Print Assumptions C41_ascii_text.
Definition written st s w h c : list Z := match encode st s w h c with Ok f => f | _ => [] end.
Definition ex8 : list Z := [0; 17; 255; 128; 9; 1].
Example C41_ex8 : forall md big e, exists file, write_image (Subtype (SubGray e)) ex8 2 3 XL8 = Ok file /\ pnm_decode md big file = Ok (2, 3, CL8, ex8).
Proof. intros. apply (C41_roundtrip_8bit md big _ _ e CL8 1); [constructor|unfold is_u32, u32_max; lia..|repeat constructor; unfold u8_max; lia|reflexivity|destruct e; vm_compute; discriminate]. Qed.
Example C41_ex_chosen : sampled (HGray SAsc 2 1 300) SAsc CL16 1 65535 300 /\ exists file, encode (Chosen (HGray SAsc 2 1 300)) (S16 [7; 300]) 2 1 XL8 = Ok file /\ pnm_decode Debug false file = Ok (2, 1, CL16, native false [1529; 65535]).
Proof. split; [constructor; lia|]. exists (written (Chosen (HGray SAsc 2 1 300)) (S16 [7; 300]) 2 1 XL8). split; vm_compute; reflexivity. Qed.

(** what does not round trip *)
(** ASCII bitmaps are written with the opposite polarity: every 0/1 image comes back inverted *)
Theorem C41_pbm_ascii_inverted_refuted : forall md big w h data, is_u32 w -> is_u32 h -> Forall (fun v => v = 0 \/ v = 1) data -> zlen data = w * h -> w * h <= isize_max ->
  exists file, encode (Subtype (SubBit SAsc)) (S8 data) w h XL1 = Ok file /\
    pnm_decode md big file = Ok (w, h, CL8, map (fun v => if v =? 0 then 255 else 0) data).
Proof.
  intros md big w h data Hw Hh B L SZ. pose proof (u32_prod _ _ Hw Hh) as P. exists (write_header (HBit SAsc w h) ++ write_samples_ascii data). split.
  - apply (accept (HBit SAsc w h) (S8 data) w h XL1 1 _ eq_refl eq_refl eq_refl); [cbn [ect_channels vals]; lia|cbn [vals]; lia|reflexivity|left; cbn; lia|reflexivity].
  - rewrite (decode_pbm_ascii md big w h (write_header (HBit SAsc w h)) (write_samples_ascii data) (map (fun v => v =? 1) data) []); try assumption.
    + f_equal. f_equal. rewrite map_map. apply map_ext_in. intros v Hv. rewrite Forall_forall in B. destruct (B v Hv) as [-> | ->]; reflexivity.
    + apply write_header_text; split; [exact Hw|split; [exact Hh|split; [apply one_u32|exact I]]].
    + rewrite zlen_map. exact L.
    + rewrite app_nil_r. apply bits_text. exact B.
Qed.
Print Assumptions C41_pbm_ascii_inverted_refuted.
(** a binary bitmap of width 0 panics; an L8 image whose samples are all 0 or 1 is refused as a bitmap *)
Theorem C41_bitmap_refuted : (forall h c, is_u32 h -> c = XL1 -> encode (Subtype (SubBit SBin)) (S8 []) 0 h c = Panic) /\
  (forall e w h data, Forall (fun v => v = 0 \/ v = 1) data -> encode (Subtype (SubBit e)) (S8 data) w h XL8 = Err EUnsupported).
Proof.
  split.
  - intros h c Hh ->. cbn [encode write_subtyped_header]. unfold write_with_header, check_header_dimensions. cbn [h_width h_height]. rewrite !Z.eqb_refl. cbn. reflexivity.
  - intros e w h data B. cbn [encode write_subtyped_header]. unfold write_with_header, check_header_dimensions. cbn [h_width h_height]. rewrite !Z.eqb_refl. cbn [negb orb bind check_header_color]. unfold check_sample_values. cbn [max_sample bind maximal_sample]. change (1 <? 255) with true. cbn [andb].
    replace (all_smaller (S8 data) 1) with false; [reflexivity|]. symmetry. unfold all_smaller. cbn [vals]. apply Bool.not_true_iff_false. intros X. apply existsb_exists in X as (v & I & V). rewrite Forall_forall in B. specialize (B v I). lia.
Qed.
Print Assumptions C41_bitmap_refuted.
(** ImageEncoder::write_image never accepts a non-empty L16 image: the byte buffer is taken as 8-bit samples *)
Theorem C41_l16_write_image_refuted : forall st data w h, is_u32 w -> is_u32 h -> zlen data = w * h * 2 -> 1 <= w * h -> forall file, write_image st data w h XL16 <> Ok file.
Proof.
  intros st data w h Hw Hh L N file E. unfold write_image in E. apply bind_ok in E as (n & _ & E). destruct (_ =? _); [|discriminate E].
  assert (X : forall hd, write_with_header hd (S8 data) w h XL16 <> Ok file) by (intros hd F; destruct (accepted _ _ _ _ _ _ F) as (_ & _ & _ & Q & _); cbn [vals ect_channels] in Q; lia).
  destruct st as [|[e|e|e|]|hd]; cbn [encode write_subtyped_header write_dynamic_header] in E; first [exact (X _ E)|discriminate E].
Qed.
Print Assumptions C41_l16_write_image_refuted.
(** the dynamic header offers, and then itself refuses, the color types La1, La16, Rgb16 and Rgba16 *)
Theorem C41_dynamic_refused : forall s w h c, In c [XLa1; XLa16; XRgb16; XRgba16] -> encode Dynamic s w h c = Err EParameter.
Proof.
  intros s w h c H. cbn [encode]. unfold write_dynamic_header, write_with_header, check_header_dimensions. destruct H as [<-|[<-|[<-|[<-|[]]]]]; cbv zeta; cbn [h_width h_height]; rewrite !Z.eqb_refl; reflexivity.
Qed.
Print Assumptions C41_dynamic_refused.
(** La8 and Rgba8 images are written as PAM files that the decoder does not support *)
Theorem C41_alpha_not_decodable : forall md big w h data c ch, c = XLa8 /\ ch = 2 \/ c = XRgba8 /\ ch = 4 -> is_u32 w -> is_u32 h -> bytes data -> zlen data = w * h * ch -> zlen data <= u64_max ->
  exists file, encode Dynamic (S8 data) w h c = Ok file /\ pnm_decode md big file = Err EUnsupported.
Proof.
  intros md big w h data c ch K Hw Hh B L LU. set (t := if ch =? 2 then TGrayA else TRgbA). set (hd := HArb w h ch 255 (Some t)). exists (write_header hd ++ data).
  assert (A : write_with_header hd (S8 data) w h c = Ok (write_header hd ++ data)).
  { apply (accept hd (S8 data) w h c 255 data eq_refl eq_refl); [|cbn [vals]; rewrite L; destruct K as [(-> & ->)|(-> & ->)]; cbn [ect_channels]; ring|exact LU| |left; cbn; lia|reflexivity]; destruct K as [(-> & ->)|(-> & ->)]; reflexivity. }
  split; [destruct K as [(-> & ->)|(-> & ->)]; exact A|].
  assert (HO : hdr_ok hd). { split; [exact Hw|split; [exact Hh|]]. split; [cbn; unfold is_u32, u32_max; lia|]. cbn [hd]. split; [unfold is_u32, u32_max; destruct K as [(_ & ->)|(_ & ->)]; lia|unfold t; destruct (ch =? 2); exact I]. }
  destruct (header_read hd (write_header hd) data (write_header_text hd HO)) as (mg & r0 & R1 & R2 & R3). { unfold std_type, hd, t. destruct (ch =? 2); exact I. }
  unfold pnm_decode, pnm_new. rewrite R1. cbn [bind]. rewrite R2. cbn [bind]. rewrite R3. cbn [bind]. destruct K as [(_ & ->)|(_ & ->)]; reflexivity.
Qed.
Print Assumptions C41_alpha_not_decodable.
(** samples of the wrong width for a binary header are written without an error, and the file decodes to something else
    or not at all; without a tuple type the decoder ignores a maximum above 255 *)
Theorem C41_width_mismatch_refuted :
  (exists file, encode (Chosen (HGray SBin 2 1 65535)) (S8 [1; 2]) 2 1 XL8 = Ok file /\ pnm_decode Release false file = Err EDecoding) /\
  (exists file, encode (Chosen (HGray SBin 2 1 255)) (S16 [1; 2]) 2 1 XL8 = Ok file /\ pnm_decode Release false file = Ok (2, 1, CL8, [0; 1])) /\
  (exists file, encode (Chosen (HArb 2 1 1 65535 None)) (S16 [256; 512]) 2 1 XL16 = Ok file /\ pnm_decode Release false file = Ok (2, 1, CL8, [0; 0])).
Proof.
  split; [|split]; [exists (written (Chosen (HGray SBin 2 1 65535)) (S8 [1; 2]) 2 1 XL8)|exists (written (Chosen (HGray SBin 2 1 255)) (S16 [1; 2]) 2 1 XL8)|exists (written (Chosen (HArb 2 1 1 65535 None)) (S16 [256; 512]) 2 1 XL16)];
  (split; [vm_compute; reflexivity|vm_compute; reflexivity]).
Qed.
Print Assumptions C41_width_mismatch_refuted.

(** ** C42 *)
(** what is checked: the color type's largest sample does not exceed the header's maximum, or some sample DOES exceed it *)
Theorem C42_accepted_iff : forall hd s w h c, (forall e, hd = HBit e 0 h -> e = SAsc) -> (exists file, encode (Chosen hd) s w h c = Ok file) <->
  h_width hd = w /\ h_height hd = h /\ check_header_color hd c = Ok tt /\ zlen (vals s) = ect_channels c * w * h /\ zlen (vals s) <= u64_max /\
  exists M, max_sample c = Ok M /\ (M <= maximal_sample hd \/ Exists (fun v => maximal_sample hd < v) (vals s)).
Proof.
  intros hd s w h c NP. split.
  - intros (file & E). destruct (accepted _ _ _ _ _ _ E) as (A1 & A2 & A3 & A4 & A5 & A6 & _). auto 10.
  - intros (A1 & A2 & A3 & A4 & A5 & M & A6 & A7). assert (B : exists body, write_body hd s = Ok body).
    { destruct hd as [[] w' h'|[] w' h' m|[] w' h' m|w' h' d m t]; cbn [write_body h_width h_height] in *; try (eexists; reflexivity). unfold write_pbm_bits. destruct (Z.eqb_spec w' 0) as [-> |]; [|eexists; reflexivity]. subst h'. specialize (NP SBin eq_refl). discriminate NP. }
    destruct B as (body & B). exists (write_header hd ++ body). exact (accept hd s w h c M body A1 A2 A3 A4 A5 A6 A7 B).
Qed.
Print Assumptions C42_accepted_iff.
(** with a header whose maximum covers the color type the claim holds: everything is accepted *)
Theorem C42_covering_header : forall hd s w h c M, (forall e, hd = HBit e 0 h -> e = SAsc) -> h_width hd = w -> h_height hd = h -> check_header_color hd c = Ok tt ->
  zlen (vals s) = ect_channels c * w * h -> zlen (vals s) <= u64_max -> max_sample c = Ok M -> M <= maximal_sample hd ->
  exists file, encode (Chosen hd) s w h c = Ok file.
Proof. intros hd s w h c M NP W H C L LU MS R. apply C42_accepted_iff; [exact NP|]. repeat (split; [assumption|]). exists M. auto. Qed.
Print Assumptions C42_covering_header.
(** below that the check is inverted: an image all of whose samples fit is always refused, and one with a sample that
    does not fit is accepted *)
Theorem C42_range_check_refuted : forall hd s w h c M, h_width hd = w -> h_height hd = h -> check_header_color hd c = Ok tt -> zlen (vals s) = ect_channels c * w * h -> zlen (vals s) <= u64_max -> max_sample c = Ok M -> maximal_sample hd < M ->
  (Forall (fun v => v <= maximal_sample hd) (vals s) -> encode (Chosen hd) s w h c = Err EUnsupported) /\
  ((forall e, hd = HBit e 0 h -> e = SAsc) -> Exists (fun v => maximal_sample hd < v) (vals s) -> exists file, encode (Chosen hd) s w h c = Ok file).
Proof.
  intros hd s w h c M W H C L LU MS R. split.
  - intros F. cbn [encode]. unfold write_with_header, check_header_dimensions. rewrite W, H, !Z.eqb_refl. cbn [negb orb bind]. rewrite C. cbn [bind]. unfold check_sample_values. rewrite MS. cbn [bind].
    replace (maximal_sample hd <? M) with true by lia. cbn [andb]. replace (all_smaller s (maximal_sample hd)) with false; [reflexivity|]. symmetry. apply Bool.not_true_iff_false. intros X. unfold all_smaller in X. apply existsb_exists in X as (v & I & V). rewrite Forall_forall in F. specialize (F v I). lia.
  - intros NP X. apply C42_accepted_iff; [exact NP|]. repeat (split; [assumption|]). exists M. auto.
Qed.
Print Assumptions C42_range_check_refuted.
Example C42_ex : encode (Chosen (HGray SBin 2 1 100)) (S8 [7; 100]) 2 1 XL8 = Err EUnsupported /\ exists file, encode (Chosen (HGray SBin 2 1 100)) (S8 [7; 101]) 2 1 XL8 = Ok file.
Proof. split; [reflexivity|]. exists (written (Chosen (HGray SBin 2 1 100)) (S8 [7; 101]) 2 1 XL8). vm_compute. reflexivity. Qed.

(** ** C55 *)
(** every file that begins with a header with a sample range and then the samples *)
Theorem C55_decode_samples : forall md big hd text raster e c ch T m samples,
  header_text hd text -> sampled hd e c ch T m ->
  zlen samples = h_width hd * h_height hd * ch -> Forall (fun v => 0 <= v <= m) samples -> stores e T samples raster ->
  size_ok e (h_width hd * h_height hd * ct_bytes c) -> is_u32 (h_width hd) -> is_u32 (h_height hd) ->
  exists out, pnm_decode md big (text ++ raster) = Ok (h_width hd, h_height hd, c, layout big T out) /\ Forall2 (rescaled T m) samples out /\ (m = T -> out = samples) /\
    (forall i j v v' o o', zget samples i = Some v -> zget samples j = Some v' -> zget out i = Some o -> zget out j = Some o' -> v <= v' -> o <= o').
Proof.
  intros md big hd text raster e c ch T m samples HT SP L V ST SZ Hw Hh. exists (if m =? T then samples else map (scale T m) samples).
  split; [exact (decode_sampled md big hd text raster e c ch T m samples HT SP Hw Hh L V ST SZ)|]. split; [exact (scale_rescaled T m samples hd e c ch SP V)|].
  split; [intros ->; rewrite Z.eqb_refl; reflexivity|]. intros i j v v' o o'. exact (scale_sorted T m samples hd e c ch i j v v' o o' SP V).
Qed.
Print Assumptions C55_decode_samples.
(** binary bitmaps *)
Theorem C55_decode_bitmap : forall md big w h text raster, header_text (HBit SBin w h) text -> 1 <= w -> w + 7 <= u32_max -> is_u32 h -> bytes raster ->
  (w + 7) / 8 * h <= u32_max -> (w + 7) / 8 * h <= zlen raster ->
  pnm_decode md big (text ++ raster) = Ok (w, h, CL8, picture w h (fun x y => if pbm_black raster w x y then 0 else 255)).
Proof. exact decode_pbm. Qed.
Print Assumptions C55_decode_bitmap.
(** ASCII bitmaps: the characters 0 and 1, with or without white space between them; 1 is black *)
Theorem C55_decode_bitmap_ascii : forall md big w h text raster bits more, header_text (HBit SAsc w h) text -> is_u32 w -> is_u32 h -> w * h <= isize_max -> zlen bits = w * h ->
  filter (fun b => negb (is_ws b)) raster = map (fun v : bool => if v then 49 else 48) bits ++ more ->
  pnm_decode md big (text ++ raster) = Ok (w, h, CL8, map (fun v : bool => if v then 0 else 255) bits).
Proof. exact decode_pbm_ascii. Qed.
Print Assumptions C55_decode_bitmap_ascii.
(** opening never panics on any bytes; decoding never panics when the announced size is below 2^32, and then the buffer
    has the announced size *)
Theorem C55_total : forall md big file, bytes file ->
  pnm_new file <> Panic /\
  ((forall d, pnm_new file = Ok d -> h_width (d_hdr d) + 7 <= u32_max /\ h_width (d_hdr d) * h_height (d_hdr d) * ct_bytes (color_of (d_tuple d)) <= u32_max) ->
   pnm_decode md big file <> Panic /\
   forall w h c buf, pnm_decode md big file = Ok (w, h, c, buf) -> is_u32 w /\ is_u32 h /\ zlen buf = w * h * ct_bytes c /\ bytes buf).
Proof.
  intros md big file B. split; [intros E; pose proof (pnm_new_total file B) as P; rewrite E in P; exact P|]. intros F. pose proof (pnm_decode_total md big file B F) as P.
  split; [intros E; rewrite E in P; exact P|]. intros w h c buf E. rewrite E in P. exact P.
Qed.
Print Assumptions C55_total.
(** a header announcing 65536 x 65536 bytes panics, whatever follows: with overflow checks in the
    size computation, without them in copying 0 bytes into a buffer of 2^32 *)
Theorem C55_large_refuted : forall md big rest, bytes rest ->
  pnm_decode md big (txt "P5 65536 65536 255 " ++ rest) = Panic.
Proof.
  intros md big rest B. destruct (header_read (HGray SBin 65536 65536 255) (txt "P5 65536 65536 255 ") rest) as (mg & r0 & R1 & R2 & R3).
  { exists (txt " 65536 65536 255 "). split; [reflexivity|].
    change (txt " 65536 65536 255 ") with ([32] ++ dec 65536 ++ 32 :: ([] ++ dec 65536 ++ 32 :: ([] ++ dec 255 ++ 32 :: []))).
    apply nums1; [apply gap_ws; [reflexivity|constructor]|unfold is_u32, u32_max; lia|reflexivity|]. apply nums1; [constructor|unfold is_u32, u32_max; lia|reflexivity|]. apply nums1; [constructor|unfold is_u32, u32_max; lia|reflexivity|constructor]. }
  { exact I. }
  unfold pnm_decode, pnm_new. rewrite R1. cbn [bind]. rewrite R2. cbn [bind]. rewrite R3. destruct md; reflexivity.
Qed.
Print Assumptions C55_large_refuted.
(** an ASCII raster that ends early is completed with zeros, without an error *)
Lemma ascii_empty n max : 0 <= max -> read_ascii_samples n max [] = Ok (repeat 0 n).
Proof. intros M. induction n as [|n IH]; [reflexivity|]. cbn [read_ascii_samples repeat]. unfold read_separated_ascii. cbn [trim_start sep_digits bind]. replace (0 <=? max) with true by lia. cbn [bind]. rewrite IH. reflexivity. Qed.
Theorem C55_truncated_ascii_refuted : forall md big w h text, header_text (HGray SAsc w h 255) text -> is_u32 w -> is_u32 h -> w * h <= isize_max ->
  pnm_decode md big text = Ok (w, h, CL8, repeat 0 (Z.to_nat (w * h))).
Proof.
  intros md big w h text HT Hw Hh SZ. destruct (header_read (HGray SAsc w h 255) text [] HT I) as (mg & r0 & R1 & R2 & R3). rewrite app_nil_r in R1.
  destruct (checks_ok w h CL8 Hw Hh ltac:(cbn [ct_bytes]; lia)) as (C1 & C2). change (ct_bytes CL8) with 1 in *. rewrite Z.mul_1_r in C2.
  unfold pnm_decode, pnm_new. rewrite R1. cbn [bind]. rewrite R2. cbn [bind]. rewrite R3. cbn [bind tuple_type]. change (255 =? 0) with false. change (255 <=? 255) with true. cbv iota. cbn [bind h_width h_height color_of]. change (ct_bytes CL8) with 1. rewrite C1. cbn [bind d_hdr d_tuple h_width h_height color_of]. rewrite C2. cbn [bind].
  replace (isize_max <? w * h) with false by lia. unfold read_image. cbn [d_hdr d_tuple h_width h_height color_of]. rewrite C2. cbn [bind]. rewrite Z.eqb_refl. unfold read_samples. cbn [d_hdr d_tuple d_reader h_subtype sample_encoding from_ascii].
  rewrite ascii_empty by lia. reflexivity.
Qed.
Print Assumptions C55_truncated_ascii_refuted.
(** a comment directly after a number does not end the number; a P7 line that begins with a blank is not understood *)
Theorem C55_header_quirks :
  pnm_decode Debug false (txt "P2 1#x" ++ [10] ++ txt "2 1 255 7 8 9 7 8 9 7 8 9 7 8 9") = Ok (12, 1, CL8, [7; 8; 9; 7; 8; 9; 7; 8; 9; 7; 8; 9]) /\
  (forall p b l, is_ws b = true -> post (pam_line (b :: l) p) (fun _ => False)).
Proof.
  split; [vm_compute; reflexivity|]. intros p b l B. unfold pam_line. destruct (negb (utf8 _)); [discriminate|]. replace (b =? 35) with false by (unfold is_ws in B; lia). destruct (negb _); [discriminate|]. cbv zeta. cbn [find_ws]. rewrite B.
  change (Nat.ltb (length (trim_start (b :: l))) 0) with false. cbv iota. cbn [firstn]. discriminate.
Qed.
Print Assumptions C55_header_quirks.
Definition ex_pam : list Z := txt "P7" ++ [10] ++ txt "# c" ++ [10] ++ txt "TUPLTYPE RGB" ++ [10] ++ txt "MAXVAL 15" ++ [10] ++ txt "DEPTH 3" ++ [10] ++ txt "HEIGHT   1 " ++ [10] ++ txt "WIDTH 1" ++ [10] ++ txt "ENDHDR" ++ [10].
Example C55_ex : pnm_decode Debug true (ex_pam ++ [1; 15; 0; 99]) = Ok (1, 1, CRgb8, [17; 255; 0]) /\
  pnm_decode Release false (txt "P4#com" ++ [10] ++ txt "9 1 " ++ [255; 0]) = Ok (9, 1, CL8, [0; 0; 0; 0; 0; 0; 0; 0; 255]).
Proof. split; vm_compute; reflexivity. Qed.
Example C55_ex_header : header_text (HPix SAsc 2 1 15) (txt "P3#c" ++ [10] ++ txt "2 01" ++ [10] ++ txt "15 ").
Proof.
  exists (txt "#c" ++ [10] ++ txt "2 01" ++ [10] ++ txt "15 "). split; [reflexivity|].
  change (txt "#c" ++ [10] ++ txt "2 01" ++ [10] ++ txt "15 ") with ((35 :: [99] ++ 10 :: []) ++ [50] ++ 32 :: ([] ++ [48; 49] ++ 10 :: ([] ++ [49; 53] ++ 32 :: []))).
  apply nums_cons; [apply gap_comment; [constructor; [lia|constructor]|auto|constructor]|split; [discriminate|split; [constructor; [reflexivity|constructor]|reflexivity]]|unfold u32_max; lia|reflexivity|].
  apply nums_cons; [constructor|split; [discriminate|split; [constructor; [reflexivity|constructor; [reflexivity|constructor]]|reflexivity]]|unfold u32_max; lia|reflexivity|].
  apply nums_cons; [constructor|split; [discriminate|split; [constructor; [reflexivity|constructor; [reflexivity|constructor]]|reflexivity]]|unfold u32_max; lia|reflexivity|constructor].
Qed.

(** ** C27: what the encoder writes is recognised as PNM *)
Theorem C27_pnm_output_recognised : forall st s w h c file, encode st s w h c = Ok file -> bytes file -> guess_format file = Some Formats.Pnm.
Proof.
  intros st s w h c file E B. assert (X : exists hd, write_with_header hd s w h c = Ok file).
  { destruct st as [|[e|e|e|]|hd]; cbn [encode write_subtyped_header] in E; unfold write_dynamic_header in E; cbv zeta in E; [| | | | |exists hd; exact E]; destruct c; first [discriminate E|eexists; exact E]. }
  destruct X as (hd & X). destruct (accepted _ _ _ _ _ _ X) as (_ & _ & _ & _ & _ & _ & body & _ & ->). unfold write_header in *. rewrite <- app_assoc in *. apply bytes_app in B as (B1 & B2).
  destruct (h_subtype hd) as [[]|[]|[]|]; (apply guess_plain; [exact B1|exact B2|vm_compute; tauto|discriminate]).
Qed.
Print Assumptions C27_pnm_output_recognised.
