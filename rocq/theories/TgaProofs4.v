(** The TGA decoder on arbitrary input. *)
From Verif Require Import Base BaseLemmas ListLemmas ListMore Limits ColorType Tga TgaSpec TgaProofs TgaProofs2 TgaProofs3 HdrProofs2.
Local Open Scope Z_scope.

Lemma read_u8_total r : bytes r -> read_u8 r = Err EEof \/
  exists b r', read_u8 r = Ok (b, r') /\ is_u8 b /\ suffix r' r /\ bytes r'.
Proof.
  intros B. destruct r as [|b r]; [left; reflexivity|]. apply bytes_cons in B. right. exists b, r. repeat split; try apply B.
  apply suffix_cons.
Qed.
Lemma read_u16_total r : bytes r -> read_u16le r = Err EEof \/
  exists b r', read_u16le r = Ok (b, r') /\ is_u16 b /\ suffix r' r /\ bytes r'.
Proof.
  intros B. destruct r as [|b [|c r]]; [left; reflexivity|left; reflexivity|].
  apply bytes_cons in B. destruct B as [Hb B]. apply bytes_cons in B. destruct B as [Hc B].
  right. exists (b + 256 * c), r. unfold is_u8, is_u16, u8_max, u16_max in *. repeat split; try lia; auto.
  exists [b; c]. reflexivity.
Qed.
Lemma read_hdr_total r : bytes r -> read_hdr r = Err EEof \/
  exists h r', read_hdr r = Ok (h, r') /\ hdr_ok h /\ suffix r' r /\ bytes r' /\
    zget r 1 = Some (map_type h) /\ zget r 2 = Some (image_type h).
Proof.
  intros B. unfold read_hdr.
  destruct r as [|a [|b [|c r]]]; try (left; reflexivity). cbn [read_u8 bind].
  apply bytes_cons in B. destruct B as [Ha B]. apply bytes_cons in B. destruct B as [Hb B]. apply bytes_cons in B. destruct B as [Hc B].
  pose proof (suffix_refl r) as S.
  repeat match goal with
  | |- context [bind (read_u16le ?x) _] =>
      let E := fresh "E" in let v := fresh "v" in let x' := fresh "r" in let S' := fresh "S" in
      destruct (read_u16_total x ltac:(assumption)) as [E|(v & x' & E & ? & S' & ?)]; rewrite E; cbn [bind]; [left; reflexivity|]
  | |- context [bind (read_u8 ?x) _] =>
      let E := fresh "E" in let v := fresh "v" in let x' := fresh "r" in let S' := fresh "S" in
      destruct (read_u8_total x ltac:(assumption)) as [E|(v & x' & E & ? & S' & ?)]; rewrite E; cbn [bind]; [left; reflexivity|]
  end.
  right. eexists _, _. split; [reflexivity|]. split; [unfold hdr_ok; cbn; repeat (apply conj; [assumption|]); assumption|]. split; [|split; [assumption|split; reflexivity]].
  eapply suffix_trans; [|exists [a; b; c]; reflexivity].
  repeat (eapply suffix_trans; [eassumption|]). apply suffix_refl.
Qed.

Lemma color_info_total h t : hdr_ok h ->
  read_color_information h t = Err EUnsupported \/
  exists c, read_color_information h t = Ok c /\ tga_color c /\
    (map_type h = 0 -> (pixel_depth h + 7) / 8 = ct_bytes c).
Proof.
  intros (_ & Hm & _ & _ & _ & _ & _ & _ & _ & _ & Hd & Hi). unfold read_color_information.
  destruct (negb (pixel_depth h mod 8 =? 0) || (32 <? pixel_depth h)) eqn:E0; [left; reflexivity|].
  set (na := Z.land (image_desc h) ALPHA_BIT_MASK).
  assert (X : forall oc, (map_type h = 0 -> oc = pixel_depth h - na) ->
    (if (na =? 0) && (oc =? 32) && is_color t then Ok CRgba8
    else if (na =? 8) && (oc =? 24) && is_color t then Ok CRgba8
    else if (na =? 0) && (oc =? 24) && is_color t then Ok CRgb8
    else if (na =? 8) && (oc =? 8) && negb (is_color t) then Ok CLa8
    else if (na =? 0) && (oc =? 8) && negb (is_color t) then Ok CL8
    else if (na =? 8) && (oc =? 0) && negb (is_color t) then Ok CL8
    else Err EUnsupported) = Err EUnsupported \/ exists c,
    (if (na =? 0) && (oc =? 32) && is_color t then Ok CRgba8
    else if (na =? 8) && (oc =? 24) && is_color t then Ok CRgba8
    else if (na =? 0) && (oc =? 24) && is_color t then Ok CRgb8
    else if (na =? 8) && (oc =? 8) && negb (is_color t) then Ok CLa8
    else if (na =? 0) && (oc =? 8) && negb (is_color t) then Ok CL8
    else if (na =? 8) && (oc =? 0) && negb (is_color t) then Ok CL8
    else Err EUnsupported) = Ok c /\ tga_color c /\ (map_type h = 0 -> (pixel_depth h + 7) / 8 = ct_bytes c)).
  { intros oc Ho.
    repeat match goal with |- context [if ?b then Ok _ else _] => destruct b eqn:?E end;
      try (left; reflexivity); right; eexists; (split; [reflexivity|]); (split; [unfold tga_color; tauto|]);
      intros M; specialize (Ho M); cbn [ct_bytes]; zdm. }
  destruct (negb (map_type h =? 0)) eqn:EM; cbn [bind].
  - apply X. intros; lia.
  - destruct (pixel_depth h <? na); [left; reflexivity|]. cbn [bind]. apply X. auto.
Qed.

Lemma read_exact_total n r : bytes r -> 0 <= n -> read_exact n r = Err EEof \/
  exists a r', read_exact n r = Ok (a, r') /\ zlen a = n /\ suffix r' r /\ bytes r'.
Proof.
  intros B Hn. unfold read_exact. destruct (Z.ltb_spec (zlen r) n); [left; reflexivity|]. right.
  eexists _, _. split; [reflexivity|]. rewrite zlen_firstn. split; [lia|]. pose proof (suffix_skipn (Z.to_nat n) r).
  split; [auto|]. eapply suffix_bytes; eauto.
Qed.

(** what a constructed decoder looks like *)
Definition dec_inv (d : dec_t) : Prop :=
  0 <= d_w d <= 65535 /\ 0 <= d_h d <= 65535 /\ tga_color (d_color d) /\ 0 <= d_bpp d /\
  (map_type (d_hdr d) = 0 -> d_bpp d = ct_bytes (d_color d)).
Definition soft (e : err) : Prop := e <> EFuel.

Lemma tga_new_total r : bytes r -> (exists e, tga_new r = Err e /\ soft e) \/
  exists d r', tga_new r = Ok (d, r') /\ dec_inv d /\ suffix r' r /\ bytes r' /\
    zget r 1 = Some (map_type (d_hdr d)) /\ (zget r 2 = Some 1 \/ zget r 2 = Some 9 -> is_color_mapped (d_type d) = true).
Proof.
  intros B. unfold tga_new. destruct (read_hdr_total r B) as [E|(h & r1 & E & H & S1 & B1 & G1 & G2)]; rewrite E; cbn [bind].
  { left. exists EEof. split; [reflexivity|discriminate]. }
  pose proof H as (Hid & Hm & Hit & Hmo & Hml & Hme & _ & _ & Hw & Hh & Hd & Hi). unfold is_u8, is_u16, u8_max, u16_max in *.
  destruct (read_exact_total (id_length h) r1 B1 ltac:(lia)) as [E1|(a1 & r2 & E1 & L1 & S2 & B2)]; rewrite E1; cbn [bind].
  { left. exists EEof. split; [reflexivity|discriminate]. }
  assert (M : (exists e, read_color_map h r2 = Err e /\ soft e) \/ exists m r3, read_color_map h r2 = Ok (m, r3) /\ suffix r3 r2 /\ bytes r3).
  { unfold read_color_map. destruct (map_type h =? 1).
    - assert (0 <= (map_entry_size h + 7) / 8 * map_length h) by (apply Z.mul_nonneg_nonneg; zdm).
      destruct (read_exact_total ((map_entry_size h + 7) / 8 * map_length h) r2 B2 ltac:(lia)) as [E2|(a2 & r3 & E2 & L2 & S3 & B3)]; rewrite E2; cbn [bind].
      + left. exists EEof. split; [reflexivity|discriminate].
      + right. eauto.
    - right. exists None, r2. repeat split; auto. apply suffix_refl. }
  destruct M as [(e & -> & He)|(m & r3 & -> & S3 & B3)]; cbn [bind]; [left; eauto|].
  destruct (color_info_total h (itype_new (image_type h)) H) as [E2|(c & E2 & Hc & Hp)]; rewrite E2; cbn [bind].
  { left. exists EUnsupported. split; [reflexivity|discriminate]. }
  right. eexists _, _. split; [reflexivity|]. unfold dec_inv. cbn [d_w d_h d_color d_bpp d_hdr d_type].
  split; [|split; [|split; [exact B3|split; [exact G1|]]]].
  - repeat split; auto; try lia; try apply Hc.
  - eapply suffix_trans; [exact S3|]. eapply suffix_trans; eauto.
  - intros [Q|Q]; rewrite Q in G2; apply Some_inj in G2; rewrite <- G2; reflexivity.
Qed.

Lemma foldM_nopanic {S A} (f : S -> A -> res S) (G : S -> Prop) l :
  (forall s a, In a l -> G s -> match f s a with Ok s' => G s' | Err e => soft e | Panic => False end) ->
  forall s, G s -> match foldM f l s with Ok s' => G s' | Err e => soft e | Panic => False end.
Proof.
  induction l as [|a l IH]; intros H s Gs; cbn [foldM]; auto.
  pose proof (H s a (or_introl eq_refl) Gs) as X. destruct (f s a); cbn [bind]; auto. apply IH; auto.
  intros; apply H; auto. right; auto.
Qed.

Lemma tga_read_total d buf r : dec_inv d -> bytes r -> zlen buf = d_w d * d_h d * ct_bytes (d_color d) ->
  (exists e, tga_read_image d buf r = Err e /\ soft e) \/
  exists b r', tga_read_image d buf r = Ok (b, r') /\ zlen b = zlen buf /\ suffix r' r.
Proof.
  intros (Hw & Hh & Hc & Hb & _) B L. unfold tga_read_image. rewrite total_bytes_16 by lia. cbn [bind].
  rewrite L, Z.eqb_refl. cbn [negb]. set (num := d_w d * d_h d * d_bpp d).
  assert (WH : 0 <= d_w d * d_h d) by (apply Z.mul_nonneg_nonneg; lia).
  assert (Hn : 0 <= num) by (apply Z.mul_nonneg_nonneg; lia).
  assert (R : (exists e, (if is_encoded (d_type d) then read_encoded_data (d_bpp d) num r else read_exact num r) = Err e /\ soft e) \/
    exists a r', (if is_encoded (d_type d) then read_encoded_data (d_bpp d) num r else read_exact num r) = Ok (a, r') /\ zlen a = num /\ suffix r' r).
  { destruct (is_encoded (d_type d)).
    - destruct (read_encoded_data_total (d_bpp d) num r Hn B) as [E|E]; [left; exists EEof; split; [auto|discriminate]|right; exact E].
    - destruct (read_exact_total num r B Hn) as [E|(a & r' & E & La & S & _)]; [left; exists EEof; split; [auto|discriminate]|right; eauto]. }
  destruct R as [(e & -> & He)|(raw & r' & -> & La & S)]; cbn [bind]; [left; eauto|].
  assert (D : exists b1, (if d_bpp d <=? ct_bytes (d_color d) then if zlen raw <=? d_w d * d_h d * ct_bytes (d_color d) then Ok (zsplice buf 0 raw) else Panic else Ok buf) = Ok b1 /\ zlen b1 = zlen buf).
  { destruct (Z.leb_spec (d_bpp d) (ct_bytes (d_color d))); [|eauto].
    assert (zlen raw <= d_w d * d_h d * ct_bytes (d_color d)) by (rewrite La; apply Z.mul_le_mono_nonneg_l; lia).
    replace (zlen raw <=? _) with true by lia. eexists. split; [reflexivity|]. apply zlen_zsplice; lia. }
  destruct D as (b1 & -> & L1). cbn [bind].
  assert (D : (exists e, (if is_color_mapped (d_type d) then e <- expand_color_map d raw ;; if negb (zlen e =? zlen b1) then Err ELimits else Ok e else Ok b1) = Err e /\ soft e) \/
     exists b2, (if is_color_mapped (d_type d) then e <- expand_color_map d raw ;; if negb (zlen e =? zlen b1) then Err ELimits else Ok e else Ok b1) = Ok b2 /\ zlen b2 = zlen buf).
  { destruct (is_color_mapped (d_type d)); [|right; eauto].
    assert (X : match expand_color_map d raw with Ok _ => True | Err e => soft e | Panic => False end).
    { unfold expand_color_map. destruct (d_bpp d =? 0); [discriminate|]. destruct (d_map d) as [m|]; [|discriminate].
      apply foldM_nopanic with (G := fun _ => True); [|exact I]. intros s a _ _. destruct (cmap_get m _); [exact I|discriminate]. }
    destruct (expand_color_map d raw) as [e|e|]; cbn [bind]; [|left; eauto|contradiction].
    destruct (Z.eqb_spec (zlen e) (zlen b1)); cbn [negb]; [right; exists e; split; [auto|lia]|left; exists ELimits; split; [auto|discriminate]]. }
  destruct D as [(e & -> & He)|(b2 & -> & L2)]; cbn [bind]; [left; eauto|].
  assert (D : exists b3, reverse_encoding d b2 = Ok b3 /\ zlen b3 = zlen buf).
  { unfold reverse_encoding. assert (X : 3 <= ct_bytes (d_color d) -> exists b3, swap_all (ct_bytes (d_color d)) b2 = Ok b3 /\ zlen b3 = zlen buf).
    { intros Q. destruct (swap_all_twice (ct_bytes (d_color d)) b2 (d_w d * d_h d) Q ltac:(lia)) as (m & E & Lm & _). exists m. split; [auto|lia]. }
    destruct Hc as [Q|[Q|[Q|Q]]]; rewrite Q in *; eauto; apply X; cbn; lia. }
  destruct D as (b3 & -> & L3). cbn [bind].
  assert (D : exists b4, flip_vertically d b3 = Ok b4 /\ zlen b4 = zlen buf).
  { destruct (Z.eq_dec (d_h d) 0) as [H0|H0].
    - unfold flip_vertically. rewrite H0. cbn [Z.eqb]. destruct (_ =? 0); eauto.
    - destruct (flip_ok d b3 (d_w d * ct_bytes (d_color d))) as (m & E & Lm & _).
      + lia.
      + apply Z.mul_nonneg_nonneg; [lia|destruct (d_color d); cbn; lia].
      + rewrite L3, L. ring.
      + exists m. split; [auto|lia]. }
  destruct D as (b4 & -> & L4). cbn [bind]. right. eexists _, _. split; [reflexivity|]. split; [lia|exact S].
Qed.

Lemma tga_read_indep d b1 b2 r : dec_inv d -> bytes r -> zlen b1 = d_w d * d_h d * ct_bytes (d_color d) -> zlen b2 = zlen b1 ->
  map_type (d_hdr d) = 0 \/ is_color_mapped (d_type d) = true -> tga_read_image d b1 r = tga_read_image d b2 r.
Proof.
  intros (Hw & Hh & Hc & Hb & Hbpp) B L1 L2 H. unfold tga_read_image. rewrite total_bytes_16 by lia. cbn [bind].
  rewrite L2, L1, Z.eqb_refl. cbn [negb]. set (num := d_w d * d_h d * d_bpp d).
  assert (WH : 0 <= d_w d * d_h d) by (apply Z.mul_nonneg_nonneg; lia).
  assert (Hn : 0 <= num) by (apply Z.mul_nonneg_nonneg; lia).
  assert (R : (if is_encoded (d_type d) then read_encoded_data (d_bpp d) num r else read_exact num r) = Err EEof \/
    exists a r', (if is_encoded (d_type d) then read_encoded_data (d_bpp d) num r else read_exact num r) = Ok (a, r') /\ zlen a = num).
  { destruct (is_encoded (d_type d)).
    - destruct (read_encoded_data_total (d_bpp d) num r Hn B) as [E|(a & r' & E & Q & _)]; [left; auto|right; eauto].
    - destruct (read_exact_total num r B Hn) as [E|(a & r' & E & La & S & _)]; [left; auto|right; eauto]. }
  destruct R as [-> | (raw & r' & -> & La)]; [reflexivity|]. cbn [bind].
  destruct H as [H|H].
  - specialize (Hbpp H). rewrite Hbpp, Z.leb_refl. unfold num in La. rewrite Hbpp in La. rewrite La, Z.leb_refl.
    rewrite !zsplice_all by lia. reflexivity.
  - rewrite H. destruct (d_bpp d <=? ct_bytes (d_color d)).
    + destruct (zlen raw <=? d_w d * d_h d * ct_bytes (d_color d)) eqn:E; cbn [bind]; [|reflexivity].
      destruct (expand_color_map d raw); cbn [bind]; auto. rewrite !zlen_zsplice by lia. rewrite L1, L2, L1. reflexivity.
    + cbn [bind]. rewrite L1, L2, L1. reflexivity.
Qed.
