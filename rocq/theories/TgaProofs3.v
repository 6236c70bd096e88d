(** Whole TGA files. *)
From Verif Require Import Base BaseLemmas ListLemmas ListMore Limits ColorType Tga TgaSpec TgaProofs TgaProofs2 HdrProofs2.
Local Open Scope Z_scope.

Lemma zsplice_all {A} (l new : list A) : zlen new = zlen l -> zsplice l 0 new = new.
Proof.
  intros H. unfold zsplice. change (Z.to_nat 0) with O. cbn [firstn app Nat.add].
  rewrite skipn_all2 by (unfold zlen in H; lia). apply app_nil_r.
Qed.
Lemma total_bytes_16 w h c : 0 <= w <= 65535 -> 0 <= h <= 65535 -> total_bytes w h c = Ok (w * h * ct_bytes c).
Proof.
  intros Hw Hh. unfold total_bytes, sat_mul_u64.
  assert (0 <= w * h <= 65535 * 65535) by (split; [apply Z.mul_nonneg_nonneg; lia|apply Z.mul_le_mono_nonneg; lia]).
  assert (0 <= w * h * ct_bytes c <= 65535 * 65535 * 16)
    by (split; [apply Z.mul_nonneg_nonneg; destruct c; cbn; lia|apply Z.mul_le_mono_nonneg; try lia; destruct c; cbn; lia]).
  unfold u64_max. replace (_ <? w * h) with false by lia. f_equal. apply Z.min_r. lia.
Qed.
Lemma zslice_eq {A} (a b : list A) i j n : 0 <= i -> 0 <= j ->
  (forall k, 0 <= k < n -> zget a (i + k) = zget b (j + k)) -> zslice a i n = zslice b j n.
Proof.
  intros Hi Hj H. apply zget_ext'. intros k Hk. rewrite !zget_zslice_gen by lia.
  destruct (Z.ltb_spec k n); rewrite ?andb_true_r, ?andb_false_r; auto.
  assert (0 <=? k = true) as -> by lia. cbn. auto.
Qed.

Lemma sw_file_order n p : zlen p = n -> 3 <= n <= 4 -> sw (file_order p) = p.
Proof.
  intros H Hn. destruct p as [|a [|b [|c [|d [|e p]]]]]; rewrite ?zlen_cons in H; try change (zlen (@nil Z)) with 0 in H; try lia; try reflexivity.
  pose proof (zlen_nonneg p). lia.
Qed.
Lemma file_order_len p : zlen (file_order p) = zlen p.
Proof. destruct p as [|a [|b [|c [|d [|e p]]]]]; reflexivity. Qed.
Lemma file_order_small n p : zlen p = n -> n <= 2 -> file_order p = p.
Proof.
  intros H Hn. destruct p as [|a [|b [|c p]]]; try reflexivity. rewrite ?zlen_cons in H. pose proof (zlen_nonneg p). lia.
Qed.
Lemma file_order_sw n p : zlen p = n -> n <= 4 -> 3 <= n -> sw p = file_order p.
Proof.
  intros H Hn. destruct p as [|a [|b [|c [|d [|e p]]]]]; rewrite ?zlen_cons in H; try change (zlen (@nil Z)) with 0 in H; try lia; try reflexivity.
  pose proof (zlen_nonneg p). lia.
Qed.

Lemma stores_read c rle l body bpp num r : tga_color c -> bpp = nbytes c -> Forall (fun p => zlen p = nbytes c) l ->
  stores c rle l body -> num = zlen l * nbytes c ->
  (if rle then read_encoded_data bpp num (body ++ r) else read_exact num (body ++ r)) = Ok (concat (map file_order l), r).
Proof.
  intros Hc -> F S ->. assert (0 < nbytes c) by (destruct Hc as [->|[->|[->| ->]]]; cbn; lia).
  assert (F2 : Forall (fun p => zlen p = nbytes c) (map file_order l)).
  { apply Forall_map_iff. eapply Forall_impl; [|exact F]. intros p Hp. rewrite file_order_len. exact Hp. }
  destruct rle; cbn [stores] in S.
  - destruct S as (ps & -> & Fp & E).
    replace (zlen l) with (zlen (flat_map packet_pixels ps)) by (rewrite E, zlen_map; reflexivity).
    rewrite read_encoded_packets by auto. rewrite E. reflexivity.
  - subst body. apply read_exact_app. rewrite (zlen_concat (nbytes c)) by auto. rewrite zlen_map. reflexivity.
Qed.

Lemma tga_header_write c w h rle top id : tga_header c w h rle top id =
  write_hdr (mkHdr (zlen id) 0 ((if is_gray c then 3 else 2) + (if rle then 8 else 0)) 0 0 0 0 0 w h (8 * nbytes c) (has_alpha8 c + (if top then 32 else 0))).
Proof. reflexivity. Qed.

(** the decoder reads every such file *)
Lemma tga_decode_ok c w h rle top id l body r fresh : tga_color c -> 1 <= w <= 65535 -> 1 <= h <= 65535 ->
  zlen id <= 255 -> zlen l = w * h -> Forall (fun p => zlen p = nbytes c) l -> stores c rle l body ->
  (forall n, 0 <= n -> zlen (fresh n) = n) ->
  exists b, tga_decode fresh (tga_header c w h rle top id ++ id ++ body ++ r) = Ok (w, h, c, b, r) /\
    (if top then b = concat l else zlen b = zlen (concat l) /\ forall x y, 0 <= x < w -> 0 <= y < h ->
       zslice b ((y * w + x) * nbytes c) (nbytes c) = zslice (concat l) (((h - 1 - y) * w + x) * nbytes c) (nbytes c)).
Proof.
  intros Hc Hw Hh Hid Ll F S Hf. unfold tga_decode, tga_new. rewrite tga_header_write. pose proof (zlen_nonneg id).
  rewrite hdr_round.
  2:{ unfold hdr_ok, is_u8, is_u16, u8_max, u16_max. cbn [id_length map_type image_type map_origin map_length map_entry_size x_origin y_origin image_width image_height pixel_depth image_desc].
      destruct Hc as [->|[->|[->| ->]]]; cbn [is_gray nbytes has_alpha8]; destruct rle, top; lia. }
  cbn [bind id_length]. rewrite read_exact_app by reflexivity. cbn [bind]. unfold read_color_map. cbn [map_type]. cbn [Z.eqb bind].
  set (hd := mkHdr _ _ _ _ _ _ _ _ _ _ _ _).
  assert (T : is_encoded (itype_new (image_type hd)) = rle /\ is_color_mapped (itype_new (image_type hd)) = false)
    by (destruct Hc as [->|[->|[->| ->]]]; destruct rle; split; reflexivity).
  assert (C : read_color_information hd (itype_new (image_type hd)) = Ok c)
    by (destruct Hc as [->|[->|[->| ->]]]; destruct rle, top; reflexivity).
  assert (D : (pixel_depth hd + 7) / 8 = nbytes c) by (destruct Hc as [->|[->|[->| ->]]]; reflexivity).
  assert (O : (Z.land SCREEN_ORIGIN_BIT_MASK (image_desc hd) =? 0) = negb top)
    by (destruct Hc as [->|[->|[->| ->]]]; destruct top; reflexivity).
  assert (CB : ct_bytes c = nbytes c) by (destruct Hc as [->|[->|[->| ->]]]; reflexivity).
  assert (HW : image_width hd = w /\ image_height hd = h) by (split; reflexivity). clearbody hd.
  destruct T as [T1 T2]. destruct HW as [HW HH]. rewrite C. cbn [bind]. rewrite HW, HH, D.
  cbn [d_w d_h d_color]. rewrite total_bytes_16 by lia. cbn [bind]. rewrite CB.
  assert (N0 : 0 < nbytes c <= 4) by (destruct Hc as [->|[->|[->| ->]]]; cbn; lia).
  assert (WH : 1 <= w * h) by (assert (1 * 1 <= w * h) by (apply Z.mul_le_mono_nonneg; lia); lia).
  assert (TT : 0 <= w * h * nbytes c) by (apply Z.mul_nonneg_nonneg; lia).
  unfold tga_read_image. cbn [d_w d_h d_color d_bpp d_type d_map]. rewrite total_bytes_16 by lia. cbn [bind]. rewrite CB.
  rewrite Hf by lia. rewrite Z.eqb_refl. cbn [negb]. rewrite T1, T2.
  rewrite (stores_read c rle l body (nbytes c) (w * h * nbytes c) r Hc eq_refl F S) by (rewrite Ll; reflexivity).
  cbn [bind]. rewrite Z.leb_refl.
  assert (F2 : Forall (fun p => zlen p = nbytes c) (map file_order l)).
  { apply Forall_map_iff. eapply Forall_impl; [|exact F]. intros p Hp. rewrite file_order_len. exact Hp. }
  assert (L1 : zlen (concat (map file_order l)) = w * h * nbytes c) by (rewrite (zlen_concat (nbytes c)), zlen_map, Ll by auto; reflexivity).
  assert (L2 : zlen (concat l) = w * h * nbytes c) by (rewrite (zlen_concat (nbytes c)), Ll by auto; reflexivity).
  rewrite L1, Z.leb_refl. cbn [bind]. rewrite zsplice_all by (rewrite L1, Hf; lia).
  set (d := mkDec _ _ _ _ _ _ _).
  assert (R : reverse_encoding d (concat (map file_order l)) = Ok (concat l)).
  { unfold reverse_encoding, d. cbn [d_color].
    assert (X1 : nbytes c <= 2 -> map file_order l = l).
    { intros Q. rewrite <- (map_id l) at 2. apply map_ext_in. intros p Hp. rewrite Forall_forall in F. eapply file_order_small; [apply F; auto|lia]. }
    assert (X2 : 3 <= nbytes c -> swap_all (nbytes c) (concat (map file_order l)) = Ok (concat l)).
    { intros Q. rewrite swap_all_ok by lia. rewrite chunks_exact_concat by (auto; lia). rewrite map_map. f_equal. f_equal.
      rewrite <- (map_id l) at 2. apply map_ext_in. intros p Hp. rewrite Forall_forall in F. eapply sw_file_order; [apply F; auto|lia]. }
    destruct Hc as [->|[->|[->| ->]]]; cbn [nbytes] in *; [rewrite X1 by lia; reflexivity|rewrite X1 by lia; reflexivity|apply X2; lia|apply X2; lia]. }
  rewrite R. cbn [bind].
  destruct (flip_ok d (concat l) (w * nbytes c)) as (m & Em & Lm & Pm).
  - cbn. lia.
  - apply Z.mul_nonneg_nonneg; lia.
  - cbn [d d_h]. rewrite L2. ring.
  - rewrite Em. cbn [bind]. unfold d in *. cbn [d_w d_h d_color d_hdr] in *. rewrite O in Pm. exists m. split; [reflexivity|].
    destruct top; cbn [negb] in Pm; [exact Pm|]. split; [lia|]. intros x y Hx Hy.
    assert (0 <= y * w + x < w * h) by (apply idx_range; lia).
    assert (0 <= (h - 1 - y) * w + x < w * h) by (apply idx_range; lia).
    apply zslice_eq; try (apply Z.mul_nonneg_nonneg; lia).
    intros k Hk. assert (0 <= x * nbytes c + k < w * nbytes c).
    { assert (0 <= x * nbytes c) by (apply Z.mul_nonneg_nonneg; lia).
      assert ((x + 1) * nbytes c <= w * nbytes c) by (apply Z.mul_le_mono_nonneg_r; lia). lia. }
    specialize (Pm (x * nbytes c + k) y ltac:(lia) ltac:(lia)).
    replace ((y * w + x) * nbytes c + k) with (y * (w * nbytes c) + (x * nbytes c + k)) by ring. rewrite Pm. f_equal. ring.
Qed.

(** the encoder writes such a file *)
Lemma tga_encode_ok c w h rle buf : tga_color c -> 1 <= w <= 65535 -> 1 <= h <= 65535 -> zlen buf = w * h * nbytes c ->
  exists body, tga_encode rle buf w h (ect_of c) = Ok (tga_header c w h rle true [] ++ body) /\
    stores c rle (chunks_exact (nbytes c) buf) body.
Proof.
  intros Hc Hw Hh L. unfold tga_encode.
  assert (N0 : 0 < nbytes c <= 4) by (destruct Hc as [->|[->|[->| ->]]]; cbn; lia).
  assert (EB : ect_bits (ect_of c) = 8 * nbytes c) by (destruct Hc as [->|[->|[->| ->]]]; reflexivity).
  assert (B : buffer_size (ect_of c) w h = Ok (w * h * nbytes c)).
  { unfold buffer_size. rewrite EB.
    assert (0 <= w * nbytes c <= 65535 * 4) by (split; [apply Z.mul_nonneg_nonneg; lia|apply Z.mul_le_mono_nonneg; lia]).
    replace (w * (8 * nbytes c) + 7) with (7 + w * nbytes c * 8) by ring. unfold u64_max at 1. replace (_ <=? _) with true by lia.
    rewrite Z.div_add by lia. change (7 / 8) with 0. unfold sat_mul_u64. f_equal.
    assert (0 <= w * nbytes c * h <= 65535 * 4 * 65535) by (split; [apply Z.mul_nonneg_nonneg; lia|apply Z.mul_le_mono_nonneg; lia]).
    unfold u64_max. rewrite Z.min_r by lia. ring. }
  rewrite B. cbn [bind]. rewrite L, Z.eqb_refl. cbn [negb]. unfold u16_max.
  replace (65535 <? w) with false by lia. replace (65535 <? h) with false by lia.
  assert (HD : from_pixel_info (ect_of c) w h rle = Ok (mkHdr 0 0 ((if is_gray c then 3 else 2) + (if rle then 8 else 0)) 0 0 0 0 0 w h (8 * nbytes c) (has_alpha8 c + 32))).
  { unfold from_pixel_info. replace ((0 <? w) && (0 <? h)) with true by lia.
    destruct Hc as [->|[->|[->| ->]]]; destruct rle; reflexivity. }
  rewrite HD. cbn [bind]. rewrite (tga_header_write c w h rle true []). cbn [image_type].
  assert (D8 : ect_bits (ect_of c) / 8 = nbytes c) by (rewrite EB, Z.mul_comm; apply Z.div_mul; lia).
  rewrite D8.
  destruct (chunks_exact_id (nbytes c) buf (w * h) ltac:(lia) L) as [C1 C2].
  assert (F : Forall (fun p : list Z => zlen p = nbytes c) (chunks_exact (nbytes c) buf)) by (apply chunks_exact_len; lia).
  assert (DT : exists m, match ect_of c with XRgb8 | XRgba8 => swap_all (nbytes c) buf | _ => Ok buf end = Ok m /\
     m = concat (map file_order (chunks_exact (nbytes c) buf)) /\ chunks_exact (nbytes c) m = map file_order (chunks_exact (nbytes c) buf)).
  { assert (X1 : nbytes c <= 2 -> map file_order (chunks_exact (nbytes c) buf) = chunks_exact (nbytes c) buf).
    { intros Q. rewrite <- (map_id (chunks_exact (nbytes c) buf)) at 2. apply map_ext_in. intros p Hp.
      rewrite Forall_forall in F. eapply file_order_small; [apply F; auto|lia]. }
    assert (X2 : 3 <= nbytes c -> map sw (chunks_exact (nbytes c) buf) = map file_order (chunks_exact (nbytes c) buf)).
    { intros Q. apply map_ext_in. intros p Hp. rewrite Forall_forall in F. eapply file_order_sw; [apply F; auto|lia|lia]. }
    assert (X3 : 3 <= nbytes c -> exists m, swap_all (nbytes c) buf = Ok m /\
     m = concat (map file_order (chunks_exact (nbytes c) buf)) /\ chunks_exact (nbytes c) m = map file_order (chunks_exact (nbytes c) buf)).
    { intros Q. destruct (swap_all_twice (nbytes c) buf (w * h) ltac:(lia) L) as (m & E1 & _ & E2 & _). exists m. split; [exact E1|].
      rewrite swap_all_ok in E1 by lia. apply Ok_inj in E1. rewrite <- X2 by lia. split; auto. }
    assert (X4 : nbytes c <= 2 -> exists m, Ok buf = Ok m /\
     m = concat (map file_order (chunks_exact (nbytes c) buf)) /\ chunks_exact (nbytes c) m = map file_order (chunks_exact (nbytes c) buf)).
    { intros Q. exists buf. rewrite X1 by lia. rewrite C1. auto. }
    destruct Hc as [->|[->|[->| ->]]]; cbn [ect_of]; cbn [nbytes] in *; [apply X4|apply X4|apply X3|apply X3]; lia. }
  destruct DT as (m & -> & E1 & E2). cbn [bind].
  assert (IT : match itype_new ((if is_gray c then 3 else 2) + (if rle then 8 else 0)) with RunTrueColor | RunGrayScale => true | _ => false end = rle)
    by (destruct Hc as [->|[->|[->| ->]]]; destruct rle; reflexivity).
  destruct rle.
  - destruct (rle_encode_ok (nbytes c) ltac:(lia) m) as (ps & Ep & Fp & Pp). rewrite E2 in Pp.
    exists (flat_map packet_bytes ps). split; [|exists ps; auto].
    destruct (itype_new _); try discriminate IT; rewrite Ep; reflexivity.
  - exists m. split; [|exact E1]. destruct (itype_new _); try discriminate IT; reflexivity.
Qed.
