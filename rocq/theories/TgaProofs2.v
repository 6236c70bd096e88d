(** The TGA decoder: packets, channel order, vertical flip, header, totality. *)
From Verif Require Import Base BaseLemmas ListLemmas ListMore ColorType Tga TgaSpec TgaProofs HdrProofs2.
From Verif Require Affine AffineProofs.
Local Open Scope Z_scope.

(** ** repeated pixels *)
Lemma flat_map_zget {A} (l : list A) :
  flat_map (fun i => match zget l i with Some v => [v] | None => [] end) (zrange 0 (zlen l)) = l.
Proof.
  induction l as [|a l IH] using rev_ind; [reflexivity|].
  rewrite zlen_app. change (zlen [a]) with 1. rewrite zrange_snoc by apply zlen_nonneg. rewrite flat_map_app.
  f_equal.
  - rewrite <- IH at 2. rewrite !flat_map_concat_map. f_equal. apply map_ext_in. intros i Hi. apply In_zrange in Hi.
    rewrite zget_app. replace (i <? zlen l) with true by lia. reflexivity.
  - cbn [flat_map]. rewrite Z.add_0_l. rewrite zget_app_mid. reflexivity.
Qed.
Lemma cycle_take_repeat p n : p <> [] -> cycle_take p (Z.of_nat n * zlen p) = concat (repeat p n).
Proof.
  intros Hp. pose proof (zlen_nonneg p) as H0. assert (L : zlen p <> 0) by (intros Q; apply zlen_zero in Q; auto).
  unfold cycle_take. destruct p as [|a p']; [congruence|]. set (p := a :: p') in *. clearbody p.
  induction n as [|n IH]; [reflexivity|].
  replace (Z.of_nat (S n) * zlen p) with (Z.of_nat n * zlen p + zlen p) by lia.
  rewrite zrange_app by (try apply Z.mul_nonneg_nonneg; lia). rewrite flat_map_app, IH.
  replace (S n) with (n + 1)%nat by lia. rewrite repeat_app, concat_app. f_equal. cbn [repeat concat]. rewrite app_nil_r.
  transitivity (flat_map (fun i => match zget p i with Some v => [v] | None => [] end) (zrange 0 (zlen p))); [|apply flat_map_zget].
  rewrite !flat_map_concat_map. f_equal.
  rewrite map_zrange_shift. apply map_ext_in. intros i Hi. apply In_zrange in Hi.
  replace (0 + Z.of_nat n * zlen p + i) with (i + Z.of_nat n * zlen p) by lia.
  rewrite Z.mod_add by lia. rewrite Z.mod_small by lia. reflexivity.
Qed.

Lemma take_upto_app a r n : n = zlen a -> take_upto n (a ++ r) = (a, r).
Proof.
  intros ->. unfold take_upto. rewrite firstn_app_exact, skipn_app_exact; auto; unfold zlen; lia.
Qed.
Lemma zlen_flat_map_pixels bpp ps : Forall (packet_ok bpp) ps -> Forall (fun p => zlen p = bpp) (flat_map packet_pixels ps).
Proof.
  induction 1 as [|k ps Hk Hp IH]; cbn [flat_map]; [constructor|]. apply Forall_app. split; [|exact IH].
  destruct k; cbn in *; [apply Hk|]. destruct Hk as [_ Hk]. apply Forall_forall. intros x Hx. apply repeat_spec in Hx. congruence.
Qed.

Lemma dec_packets bpp num : 0 < bpp -> forall ps fuel data r, Forall (packet_ok bpp) ps -> (length ps <= fuel)%nat ->
  zlen data + zlen (flat_map packet_pixels ps) * bpp = num ->
  read_encoded_loop fuel bpp num data (flat_map packet_bytes ps ++ r) = Ok (data ++ concat (flat_map packet_pixels ps), r).
Proof.
  intros Hb. induction ps as [|k ps IH]; intros fuel data r F L E.
  - cbn [flat_map concat app]. rewrite app_nil_r. change (zlen (flat_map packet_pixels [])) with 0 in E.
    destruct fuel; cbn [read_encoded_loop]; replace (zlen data <? num) with false by lia; reflexivity.
  - destruct fuel as [|f]; [cbn in L; lia|]. pose proof (Forall_inv F) as Hk. pose proof (Forall_inv_tail F) as Hps.
    cbn [flat_map] in *. rewrite zlen_app in E. pose proof (zlen_nonneg (flat_map packet_pixels ps)) as P0.
    assert (0 <= zlen (flat_map packet_pixels ps) * bpp) by (apply Z.mul_nonneg_nonneg; lia).
    rewrite <- app_assoc.
    destruct k as [q|p n]; cbn [packet_bytes packet_pixels packet_ok] in *.
    + destruct Hk as [Hn Hq].
      assert (1 * bpp <= zlen q * bpp) by (apply Z.mul_le_mono_nonneg_r; lia).
      cbn [read_encoded_loop]. replace (zlen data <? num) with true by lia. cbn [app read_u8 bind].
      rewrite land128 by lia. replace (zlen q - 1 <? 128) with true by lia. cbn [negb].
      rewrite take_upto_app by (rewrite (zlen_concat bpp) by auto; f_equal; lia).
      rewrite IH; auto; [|cbn in L; lia|rewrite zlen_app, (zlen_concat bpp) by auto; lia].
      rewrite concat_app, app_assoc. reflexivity.
    + destruct Hk as [Hn Hp]. rewrite zlen_repeat in E.
      assert (1 * bpp <= Z.of_nat (Z.to_nat n) * bpp) by (apply Z.mul_le_mono_nonneg_r; lia).
      cbn [read_encoded_loop]. replace (zlen data <? num) with true by lia. cbn [app read_u8 bind].
      rewrite land128 by lia. replace (128 + (n - 1) <? 128) with false by lia. cbn [negb].
      rewrite land127 by lia. replace ((128 + (n - 1)) mod 128 + 1) with n
        by (replace (128 + (n - 1)) with ((n - 1) + 1 * 128) by lia; rewrite Z.mod_add, Z.mod_small by lia; lia).
      rewrite take_upto_app by lia.
      assert (NE : p <> []) by (intros ->; change (zlen (@nil Z)) with 0 in Hp; lia).
      replace (n * bpp) with (Z.of_nat (Z.to_nat n) * zlen p) by (rewrite Hp; f_equal; lia).
      rewrite cycle_take_repeat by auto.
      rewrite IH; auto; [|cbn in L; lia|].
      * rewrite concat_app, app_assoc. reflexivity.
      * rewrite zlen_app, (zlen_concat bpp), zlen_repeat; [lia|].
        apply Forall_forall. intros x Hx. apply repeat_spec in Hx. congruence.
Qed.
Lemma packets_len ps : (length ps <= length (flat_map packet_bytes ps))%nat.
Proof. induction ps as [|k ps IH]; cbn; [lia|]. rewrite app_length. destruct k; cbn; lia. Qed.
Lemma read_encoded_packets bpp ps r : 0 < bpp -> Forall (packet_ok bpp) ps ->
  read_encoded_data bpp (zlen (flat_map packet_pixels ps) * bpp) (flat_map packet_bytes ps ++ r)
  = Ok (concat (flat_map packet_pixels ps), r).
Proof.
  intros Hb F. unfold read_encoded_data. rewrite dec_packets; auto.
  - cbn [bind app]. f_equal. f_equal. rewrite firstn_all2; [reflexivity|].
    pose proof (zlen_concat bpp _ (zlen_flat_map_pixels bpp ps F)) as Z. unfold zlen in *. lia.
  - rewrite app_length. pose proof (packets_len ps). lia.
Qed.

(** arbitrary streams *)
Lemma take_upto_suffix n r : suffix (snd (take_upto n r)) r.
Proof. apply suffix_skipn. Qed.
Lemma read_encoded_total bpp num : forall fuel data r, (length r < fuel)%nat -> bytes r ->
  read_encoded_loop fuel bpp num data r = Err EEof \/
  exists d r', read_encoded_loop fuel bpp num data r = Ok (d, r') /\ num <= zlen d /\ suffix r' r.
Proof.
  induction fuel as [|f IH]; intros data r L B; [lia|]. cbn [read_encoded_loop].
  destruct (Z.ltb_spec (zlen data) num) as [C|C]; [|right; exists data, r; repeat split; auto; apply suffix_refl].
  destruct r as [|b r]; [left; reflexivity|]. cbn [read_u8 bind]. apply bytes_cons in B. destruct B as [Hb B].
  assert (X : forall n data', (let (p, r0) := take_upto n r in read_encoded_loop f bpp num (data' p) r0) = Err EEof \/
     exists d r', (let (p, r0) := take_upto n r in read_encoded_loop f bpp num (data' p) r0) = Ok (d, r') /\ num <= zlen d /\ suffix r' (b :: r)).
  { intros n data'. unfold take_upto. pose proof (suffix_skipn (Z.to_nat n) r) as S1.
    destruct (IH (data' (firstn (Z.to_nat n) r)) (skipn (Z.to_nat n) r)) as [E|(d & r' & E & N & S)].
    - apply suffix_len in S1. cbn in L. lia.
    - eapply suffix_bytes; eauto.
    - left. exact E.
    - right. exists d, r'. repeat split; auto. eapply suffix_trans; [exact S|]. eapply suffix_trans; [exact S1|apply suffix_cons]. }
  destruct (negb (Z.land b 128 =? 0)).
  - exact (X bpp (fun p => data ++ cycle_take p ((Z.land b 127 + 1) * bpp))).
  - exact (X ((b + 1) * bpp) (fun p => data ++ p)).
Qed.
Lemma read_encoded_data_total bpp num r : 0 <= num -> bytes r ->
  read_encoded_data bpp num r = Err EEof \/
  exists d r', read_encoded_data bpp num r = Ok (d, r') /\ zlen d = num /\ suffix r' r.
Proof.
  intros Hn B. unfold read_encoded_data.
  destruct (read_encoded_total bpp num (S (length r)) [] r ltac:(lia) B) as [E|(d & r' & E & N & S)]; rewrite E; cbn [bind].
  - left. reflexivity.
  - right. eexists _, r'. split; [reflexivity|]. split; [|exact S]. rewrite zlen_firstn. lia.
Qed.

(** ** channel order *)
Definition sw (p : list Z) : list Z := match p with a :: b :: c :: r => c :: b :: a :: r | _ => p end.
Lemma swap02_ok p : 3 <= zlen p -> swap02 p = Ok (sw p).
Proof.
  intros H. destruct p as [|a [|b [|c r]]]; rewrite ?zlen_cons in H; try change (zlen (@nil Z)) with 0 in H; try lia.
  reflexivity.
Qed.
Lemma swap_all_ok n l : 3 <= n -> swap_all n l = Ok (concat (map sw (chunks_exact n l))).
Proof.
  intros Hn. unfold swap_all.
  assert (F : Forall (fun p : list Z => zlen p = n) (chunks_exact n l)) by (apply chunks_exact_len; lia).
  assert (G : forall ls acc, Forall (fun p : list Z => zlen p = n) ls ->
    foldM (fun acc p => q <- swap02 p ;; Ok (acc ++ q)) ls acc = Ok (acc ++ concat (map sw ls))).
  { induction ls as [|p ls IH]; intros acc Fl; cbn [foldM map concat]; [rewrite app_nil_r; reflexivity|].
    inversion Fl; subst. rewrite swap02_ok by lia. cbn [bind]. rewrite IH by auto. rewrite app_assoc. reflexivity. }
  rewrite G by auto. reflexivity.
Qed.
Lemma sw_sw p : sw (sw p) = p.
Proof. destruct p as [|a [|b [|c r]]]; reflexivity. Qed.
Lemma zlen_sw p : zlen (sw p) = zlen p.
Proof. destruct p as [|a [|b [|c r]]]; reflexivity. Qed.
Lemma chunks_exact_id {A} n (l : list A) k : 0 < n -> zlen l = k * n -> concat (chunks_exact n l) = l /\ zlen (chunks_exact n l) = k.
Proof.
  intros Hn E. pose proof (zlen_nonneg l).
  assert (0 <= k) by (destruct (Z.ltb_spec k 0); [|lia]; assert (k * n < 0 * n) by (apply Z.mul_lt_mono_pos_r; lia); lia).
  rewrite <- (zslice_full l (k * n)) by lia.
  pose proof (chunks_exact_slices n l 0 k Hn ltac:(lia) ltac:(lia) ltac:(lia)) as C.
  rewrite C. rewrite zlen_map, zlen_zrange. split; [|lia].
  rewrite concat_slices by lia. reflexivity.
Qed.
Lemma swap_all_twice n l k : 3 <= n -> zlen l = k * n ->
  exists m, swap_all n l = Ok m /\ zlen m = zlen l /\ chunks_exact n m = map sw (chunks_exact n l) /\ swap_all n m = Ok l.
Proof.
  intros Hn E. rewrite swap_all_ok by lia. eexists. split; [reflexivity|].
  destruct (chunks_exact_id n l k ltac:(lia) E) as [C1 C2].
  assert (F : Forall (fun p : list Z => zlen p = n) (chunks_exact n l)) by (apply chunks_exact_len; lia).
  assert (F2 : Forall (fun p : list Z => zlen p = n) (map sw (chunks_exact n l))).
  { apply Forall_map_iff. eapply Forall_impl; [|exact F]. intros p Hp. rewrite zlen_sw. exact Hp. }
  assert (X : chunks_exact n (concat (map sw (chunks_exact n l))) = map sw (chunks_exact n l))
    by (apply chunks_exact_concat; [lia|auto]).
  split; [|split; [exact X|]].
  - rewrite (zlen_concat n) by auto. rewrite zlen_map, C2. lia.
  - rewrite swap_all_ok by lia. rewrite X. rewrite map_map. rewrite (map_ext _ (fun p => p)) by apply sw_sw.
    rewrite map_id, C1. reflexivity.
Qed.

(** ** vertical flip *)
Definition frel (wb h : Z) (l : list Z) (im : img Z) : Prop := im = mkImg wb h l /\ zlen l = wb * h.
Lemma foldM_rel {S T A} (R : S -> T -> Prop) (f : S -> A -> res S) (g : T -> A -> res T) l :
  (forall a s t t', In a l -> R s t -> g t a = Ok t' -> exists s', f s a = Ok s' /\ R s' t') ->
  forall s t t', R s t -> foldM g l t = Ok t' -> exists s', foldM f l s = Ok s' /\ R s' t'.
Proof.
  induction l as [|a l IH]; intros H s t t' Hr E; cbn [foldM] in *.
  - apply Ok_inj in E. subst. eauto.
  - apply bind_ok in E. destruct E as (t1 & E1 & E2). destruct (H a s t t1 (or_introl eq_refl) Hr E1) as (s1 & -> & R1).
    cbn [bind]. eapply IH; eauto. intros; eapply H; eauto. right; auto.
Qed.
Lemma flip_ok d l wb : 0 < d_h d -> 0 <= wb -> zlen l = wb * d_h d ->
  exists m, flip_vertically d l = Ok m /\ zlen m = zlen l /\
    (if Z.land SCREEN_ORIGIN_BIT_MASK (image_desc (d_hdr d)) =? 0 then
       forall x y, 0 <= x < wb -> 0 <= y < d_h d -> zget m (y * wb + x) = zget l ((d_h d - 1 - y) * wb + x)
     else m = l).
Proof.
  intros Hh Hw E. unfold flip_vertically. destruct (_ =? 0); [|eauto]. replace (d_h d =? 0) with false by lia.
  rewrite E, Z.div_mul by lia. set (h := d_h d) in *.
  assert (W : wf (mkImg wb h l)) by (repeat split; cbn; lia).
  destruct (AffineProofs.flip_v_in_place_moved _ W) as (o & Eo & Wo & Io & Ho & Po). cbn [iw ih] in *.
  unfold Affine.flip_vertical_in_place in Eo. cbn [iw ih] in Eo. unfold for2 in Eo.
  match type of Eo with foldM ?g _ _ = _ => set (gg := g) in Eo end.
  match goal with |- exists m, foldM ?f _ _ = _ /\ _ => set (ff := f) end.
  destruct (foldM_rel (frel wb h) ff gg (zrange 0 (h / 2))) with (s := l) (t := mkImg wb h l) (t' := o) as (m & Em & Rm & Lm); auto.
  { intros v s t t' Hv Hr E1. apply In_zrange in Hv. unfold ff, gg in *.
    assert (Hv2 : 0 <= v < h /\ 0 <= h - v - 1 < h) by zdm.
    destruct (foldM_rel (frel wb h) (fun l x => swap l ((h - v) * wb - wb + x) (v * wb + x))
       (fun im x => p2 <- get_pixel im x (h - v - 1) ;; p <- get_pixel im x v ;; im' <- put_pixel im x (h - v - 1) p ;; put_pixel im' x v p2)
       (zrange 0 wb)) with (s := s) (t := t) (t' := t') as (s' & Es & Rs); auto; [|exists s'; auto].
    intros x s1 t1 t1' Hx (Q1 & Q2) E2. apply In_zrange in Hx. subst t1.
    unfold get_pixel, put_pixel, pixel, inb in E2. cbn [iw ih px] in E2.
    replace ((0 <=? x) && (x <? wb) && (0 <=? h - v - 1) && (h - v - 1 <? h)) with true in E2 by lia.
    replace ((0 <=? x) && (x <? wb) && (0 <=? v) && (v <? h)) with true in E2 by lia.
    unfold swap. replace ((h - v) * wb - wb + x) with ((h - v - 1) * wb + x) by ring.
    destruct (zget s1 ((h - v - 1) * wb + x)) as [a|]; [|discriminate]. cbn [bind] in E2.
    destruct (zget s1 (v * wb + x)) as [b|]; [|discriminate]. cbn [bind iw ih px] in E2.
    replace ((0 <=? x) && (x <? wb) && (0 <=? v) && (v <? h)) with true in E2 by lia.
    apply Ok_inj in E2. subst t1'. eexists. split; [reflexivity|]. split; [reflexivity|]. rewrite !zlen_zset. exact Q2. }
  { split; auto. }
  exists m. split; [exact Em|]. split; [lia|]. intros x y Hx Hy. specialize (Po x y Hx Hy). cbn [fst snd] in Po.
  subst o. unfold pixel, inb in Po. cbn [iw ih px] in Po.
  replace ((0 <=? x) && (x <? wb) && (0 <=? y) && (y <? h)) with true in Po by lia.
  replace ((0 <=? x) && (x <? wb) && (0 <=? h - 1 - y) && (h - 1 - y <? h)) with true in Po by lia. exact Po.
Qed.

(** ** header *)
Definition hdr_ok (h : hdr) : Prop :=
  is_u8 (id_length h) /\ is_u8 (map_type h) /\ is_u8 (image_type h) /\ is_u16 (map_origin h) /\ is_u16 (map_length h) /\
  is_u8 (map_entry_size h) /\ is_u16 (x_origin h) /\ is_u16 (y_origin h) /\ is_u16 (image_width h) /\ is_u16 (image_height h) /\
  is_u8 (pixel_depth h) /\ is_u8 (image_desc h).
Lemma hdr_round h r : hdr_ok h -> read_hdr (write_hdr h ++ r) = Ok (h, r).
Proof.
  intros (A & B & C & D & E & F & G & H & I & J & K & L). unfold read_hdr, write_hdr. rewrite <- !app_assoc. cbn [app read_u8 bind].
  rewrite (le16_read _ _ D). cbn [bind]. rewrite (le16_read _ _ E). cbn [bind read_u8].
  rewrite (le16_read _ _ G). cbn [bind]. rewrite (le16_read _ _ H). cbn [bind].
  rewrite (le16_read _ _ I). cbn [bind]. rewrite (le16_read _ _ J). cbn [bind read_u8].
  destruct h; reflexivity.
Qed.
Lemma write_hdr_len h : zlen (write_hdr h) = 18.
Proof. reflexivity. Qed.
