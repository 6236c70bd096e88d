(** C45 (ICO) and the ICO instance of the recognition claim of C27. *)
From Verif Require Import Base BaseLemmas ListLemmas ListMore Post OverlayProofs GenImage ColorType Formats FormatsProofs DxtProofs2 Ico IcoSpec IcoProofs.
Local Open Scope Z_scope.

Lemma frame_size w : 1 <= w <= 256 -> size_of (wrap_u8 w) = w.
Proof. intros H. unfold size_of, wrap_u8. destruct (Z.eq_dec w 256) as [->|]; [reflexivity|]. rewrite Z.mod_small by lia. destruct (Z.eqb_spec w 0); lia. Qed.
Lemma le16_num16 a b c d : 0 <= a <= 65535 -> num16 ([a mod 256; (a / 256) mod 256; c; d] ++ b) 0 = a.
Proof. intros H. unfold num16, byte_at. cbn [app]. change (zget (a mod 256 :: (a / 256) mod 256 :: c :: d :: b) 0) with (Some (a mod 256)). change (zget (a mod 256 :: (a / 256) mod 256 :: c :: d :: b) (0 + 1)) with (Some ((a / 256) mod 256)). zdm. Qed.
Lemma num16_slice file o n j : 0 <= o -> 0 <= j -> j + 1 < n -> o + n <= zlen file -> num16 file (o + j) = num16 (zslice file o n) j.
Proof. intros. unfold num16. rewrite <- (Z.add_assoc o j 1). rewrite !(byte_at_slice file o n) by lia. reflexivity. Qed.
Lemma num32_slice file o n j : 0 <= o -> 0 <= j -> j + 3 < n -> o + n <= zlen file -> num32 file (o + j) = num32 (zslice file o n) j.
Proof. intros. unfold num32. rewrite <- (Z.add_assoc o j 2). rewrite !(num16_slice file o n) by lia. reflexivity. Qed.
Lemma direntry_fields w h c off len : is_u16 (ect_bits c) -> is_u32 off -> is_u32 len ->
  let d := direntry w h c off len in
  byte_at d 0 = w /\ byte_at d 1 = h /\ num16 d 4 = 0 /\ num16 d 6 = ect_bits c /\ num32 d 8 = len /\ num32 d 12 = off.
Proof.
  unfold is_u16, is_u32, u16_max, u32_max. intros Hc Ho Hl. cbv zeta. unfold direntry, le16, le32, num32, num16, byte_at. cbn [app].
  repeat match goal with |- context [zget ?l ?i] => let v := eval cbv [zget nth_error Z.to_nat Z.add Pos.add Pos.succ Z.ltb Z.compare Pos.to_nat Pos.iter_op Nat.add Pos.compare Pos.compare_cont] in (zget l i) in change (zget l i) with v end.
  repeat split; zdm.
Qed.

(** [images]: (encoded data, width, height, colour type) as given to IcoFrame::with_encoded.  The file the encoder writes has
    one directory entry per image, with that image's size and depth, and the entry's offset and length delimit exactly the
    image's bytes; the decoder's directory reader reads those entries back.  Both build modes. *)
Theorem C45_round_trip : forall m images frames,
  Forall2 (fun '(d, w, h, c) f => with_encoded d w h c = Ok f) images frames ->
  1 <= zlen images <= 65535 ->
  Forall (fun '(d, w, h, c) => bytes d /\ 0 <= ect_bits c <= 256) images ->
  6 + 16 * zlen images + zlen (concat (map (fun '(d, _, _, _) => d) images)) <= u32_max ->
  exists file, encode_images m frames = Ok file /\ num16 file 4 = zlen images /\
    (forall i d w h c, zget images i = Some (d, w, h, c) ->
       exists off, icon_at file i = mkIcon w h (ect_bits c) (zlen d) off /\ 6 + 16 * zlen images <= off /\ zslice file off (zlen d) = d) /\
    exists es rest, read_entries file = Ok (es, rest) /\ map to_icon es = map (icon_at file) (zrange 0 (zlen images)).
Proof.
  intros m images frames F N FB T.
  assert (LF : zlen frames = zlen images) by (clear - F; induction F; [reflexivity|]; rewrite !zlen_cons; lia).
  assert (CD : concat (map fr_data frames) = concat (map (fun '(d, _, _, _) => d) images)).
  { clear - F. induction F as [|[[[d w] h] c] f l l' H F IH]; [reflexivity|]. cbn [map concat]. rewrite IH. f_equal. unfold with_encoded in H. destruct (negb _); [discriminate|]. destruct (negb _); [discriminate|]. apply Ok_inj in H. subst f. reflexivity. }
  assert (GET : forall i d w h c, zget images i = Some (d, w, h, c) -> zget frames i = Some (mkFrame d (wrap_u8 w) (wrap_u8 h) c) /\ 1 <= w <= 256 /\ 1 <= h <= 256).
  { clear - F. induction F as [|x f l l' H F IH]; intros i d w h c G; [apply zget_range in G; change (zlen (@nil (list Z * Z * Z * ectype))) with 0 in G; lia|].
    pose proof (zget_range _ _ _ G) as R. change (x :: l) with ([x] ++ l) in G. change (f :: l') with ([f] ++ l'). rewrite zget_app in G. rewrite zget_app. change (zlen [x]) with 1 in G. change (zlen [f]) with 1.
    destruct (Z.ltb_spec i 1) as [I1|I1].
    - replace i with 0 in * by lia. apply Some_inj in G. subst x. unfold with_encoded in H. destruct ((1 <=? w) && (w <=? 256)) eqn:A; [|discriminate]. destruct ((1 <=? h) && (h <=? 256)) eqn:B; [|discriminate]. apply Ok_inj in H. subst f. split; [reflexivity|lia].
    - exact (IH _ _ _ _ _ G). }
  set (n := zlen images) in *. pose proof (zlen_nonneg (concat (map (fun '(d, _, _, _) => d) images))) as TN.
  set (file := (icondir n ++ dir frames (6 + 16 * n)) ++ concat (map fr_data frames)).
  assert (E : encode_images m frames = Ok file).
  { unfold encode_images. rewrite LF. fold n. replace ((1 <=? n) && (n <=? u16_max)) with true by (unfold u16_max; lia). cbn [negb].
    rewrite encode_fold; [reflexivity|lia|]. unfold total. rewrite CD. exact T. }
  assert (DL : zlen (icondir n ++ dir frames (6 + 16 * n)) = 6 + 16 * n) by (rewrite zlen_app, dir_len, LF; reflexivity).
  assert (FL : zlen file = 6 + 16 * n + zlen (concat (map (fun '(d, _, _, _) => d) images))) by (unfold file; rewrite zlen_app, DL, CD; lia).
  assert (NUM : num16 file 4 = n).
  { unfold file, icondir. unfold num16, byte_at, le16. cbn [app].
    change (n mod 256 + 256 * ((n / 256) mod 256) = n). zdm. }
  assert (ENT : forall i d w h c, zget images i = Some (d, w, h, c) ->
    icon_at file i = mkIcon w h (ect_bits c) (zlen d) (6 + 16 * n + total (firstn (Z.to_nat i) frames)) /\ num16 file (6 + 16 * i + 4) = 0 /\
    0 <= total (firstn (Z.to_nat i) frames) /\ zslice file (6 + 16 * n + total (firstn (Z.to_nat i) frames)) (zlen d) = d).
  { intros i d w h c G. destruct (GET _ _ _ _ _ G) as (GF & Hw & Hh). pose proof (zget_range _ _ _ G) as R. fold n in R.
    pose proof (total_nonneg (firstn (Z.to_nat i) frames)) as TP.
    assert (TT : total (firstn (Z.to_nat i) frames) + zlen d <= total frames).
    { assert (S : frames = firstn (Z.to_nat i) frames ++ skipn (Z.to_nat i) frames) by (symmetry; apply firstn_skipn).
      assert (G0 : zget (skipn (Z.to_nat i) frames) 0 = Some (mkFrame d (wrap_u8 w) (wrap_u8 h) c)) by (rewrite zget_skipn by lia; rewrite <- GF; f_equal; lia).
      destruct (skipn (Z.to_nat i) frames) as [|f0 l0]; [discriminate G0|]. apply Some_inj in G0. subst f0. rewrite S at 2. unfold total. rewrite map_app, concat_app. cbn [map concat fr_data]. rewrite !zlen_app. pose proof (zlen_nonneg (concat (map fr_data l0))). lia. }
    assert (TF : total frames = zlen (concat (map (fun '(d, _, _, _) => d) images))) by (unfold total; rewrite CD; reflexivity).
    assert (SL : zslice file (6 + 16 * i) 16 = direntry (wrap_u8 w) (wrap_u8 h) c (6 + 16 * n + total (firstn (Z.to_nat i) frames)) (zlen d)).
    { unfold file. rewrite <- app_assoc. rewrite zslice_app2 by (change (zlen (icondir n)) with 6; lia). change (zlen (icondir n)) with 6. replace (6 + 16 * i - 6) with (16 * i) by lia. rewrite (dir_entry frames _ i _ _ GF). reflexivity. }
    rewrite Forall_forall in FB. pose proof (FB _ (zget_In _ _ _ G)) as [_ CB]. pose proof (zlen_nonneg d).
    destruct (direntry_fields (wrap_u8 w) (wrap_u8 h) c (6 + 16 * n + total (firstn (Z.to_nat i) frames)) (zlen d)) as (B0 & B1 & N4 & N6 & N8 & N12); [unfold is_u16, u16_max; lia|unfold is_u32; lia|unfold is_u32; lia|].
    assert (F16 : 6 + 16 * i + 16 <= zlen file) by lia.
    split; [|split; [|split; [exact TP|]]].
    - unfold icon_at. cbv zeta. rewrite !(num32_slice file (6 + 16 * i) 16), (num16_slice file (6 + 16 * i) 16) by lia. rewrite (byte_at_slice file (6 + 16 * i) 16 1) by lia.
      replace (byte_at file (6 + 16 * i)) with (byte_at (zslice file (6 + 16 * i) 16) 0) by (rewrite <- byte_at_slice by lia; f_equal; lia).
      rewrite SL, B0, B1, N6, N8, N12, !frame_size by lia. reflexivity.
    - rewrite (num16_slice file (6 + 16 * i) 16) by lia. rewrite SL. exact N4.
    - pose proof (data_slice frames (icondir n ++ dir frames (6 + 16 * n)) i _ GF) as DS. rewrite DL in DS. exact DS. }
  assert (BF : bytes file).
  { unfold file, bytes. rewrite !Forall_app. assert (BM : forall z, is_u8 (z mod 256)) by (intros z; unfold is_u8, u8_max; pose proof (Z.mod_pos_bound z 256); lia).
    split; [split|].
    - unfold icondir, le16. cbn [app]. repeat (apply Forall_cons; [apply BM|]). constructor.
    - generalize (6 + 16 * n). assert (FR : Forall (fun f => is_u8 (fr_w f) /\ is_u8 (fr_h f)) frames).
      { clear - F BM. induction F as [|[[[d w] h] c] f l l' H F IH]; [constructor|]. constructor; [|exact IH]. unfold with_encoded in H. destruct (negb _); [discriminate|]. destruct (negb _); [discriminate|]. apply Ok_inj in H. subst f. cbn [fr_w fr_h]. unfold wrap_u8. auto. }
      clear - FR BM. induction FR as [|f l [Hw Hh] FR IH]; intros o; cbn [dir]; [constructor|]. apply Forall_app. split; [|apply IH]. unfold direntry, le16, le32. cbn [app].
      apply Forall_cons; [exact Hw|]. apply Forall_cons; [exact Hh|]. do 2 (apply Forall_cons; [unfold is_u8, u8_max; lia|]). repeat (apply Forall_cons; [apply BM|]). constructor.
    - rewrite CD. apply Forall_concat, Forall_map. apply Forall_forall. intros [[[d w] h] c] I. rewrite Forall_forall in FB. apply (FB _ I). }
  exists file. split; [exact E|]. split; [exact NUM|]. split.
  - intros i d w h c G. destruct (ENT _ _ _ _ _ G) as (A & _ & TP & D). eexists. split; [exact A|]. split; [lia|exact D].
  - exists (map (entry_at file) (zrange 0 n)), (at_ file (6 + 16 * n)). split.
    + apply read_entries_iff; [exact BF|]. rewrite NUM. split; [lia|]. split; [|auto]. intros i Hi. destruct (zget_some images i) as ([[[d w] h] c] & G); [fold n; lia|].
      destruct (ENT _ _ _ _ _ G) as (A & A4 & _). unfold entry_ok. rewrite A4. split; [lia|]. change (num16 file (6 + 16 * i + 6)) with (ic_bpp (icon_at file i)). rewrite A. cbn [ic_bpp].
      rewrite Forall_forall in FB. pose proof (FB _ (zget_In _ _ _ G)) as [_ CB]. lia.
    + rewrite map_map. reflexivity.
Qed.
Print Assumptions C45_round_trip.

(** the limits are enforced *)
Theorem C45_refused : forall m d w h c frames,
  ((1 <= w <= 256 /\ 1 <= h <= 256) \/ with_encoded d w h c = Err EParameter) /\
  (1 <= zlen frames <= 65535 \/ encode_images m frames = Err EParameter).
Proof.
  intros. split.
  - unfold with_encoded. destruct ((1 <=? w) && (w <=? 256)) eqn:A; [|right; reflexivity]. destruct ((1 <=? h) && (h <=? 256)) eqn:B; [|right; reflexivity]. left. lia.
  - unfold encode_images. destruct ((1 <=? zlen frames) && (zlen frames <=? u16_max)) eqn:A; [|right; reflexivity]. left. unfold u16_max in A. lia.
Qed.
Print Assumptions C45_refused.

(** The entry the decoder selects is one of the directory's, none of the others is deeper, and none of the same depth is larger;
    it hands the inner decoder the bytes at that entry's offset, as PNG exactly when they begin with the PNG signature. *)
Theorem C45_selection : forall file e p r, bytes file -> ico_select file = Ok (e, p, r) ->
  let n := num16 file 4 in
  exists i, 0 <= i < n /\ to_icon e = icon_at file i /\ (forall j, 0 <= j < n -> as_good (icon_at file i) (icon_at file j)) /\
    ic_off (icon_at file i) + 8 <= zlen file /\
    r = skipn (Z.to_nat (ic_off (icon_at file i))) file /\
    (p = true <-> zslice file (ic_off (icon_at file i)) 8 = [137; 80; 78; 71; 13; 10; 26; 10]).
Proof.
  intros file e p r B. unfold ico_select. destruct (read_entries file) as [[es r0]| |] eqn:ER; cbn [bind]; try discriminate.
  apply read_entries_iff in ER; [|exact B]. destruct ER as (L & OKs & -> & ->). cbv zeta. set (n := num16 file 4) in *.
  destruct (Z.eq_dec n 0) as [N0|N0]; [rewrite N0; cbn; discriminate|]. pose proof (num16_range file 4 B) as NR. fold n in NR. unfold is_u16 in NR.
  destruct (best_ok (map (entry_at file) (zrange 0 n))) as (e0 & E0 & I0 & A0).
  { intros Z0. assert (LL : zlen (map (entry_at file) (zrange 0 n)) = 0) by (rewrite Z0; reflexivity). rewrite zlen_map, zlen_zrange in LL. lia. }
  rewrite E0. cbn [bind]. apply in_map_iff in I0. destruct I0 as (i & <- & Hi). apply In_zrange in Hi.
  assert (BY : forall o, 0 <= byte_at file o <= 255).
  { intros q. unfold byte_at. destruct (zget file q) eqn:E; [|lia]. apply zget_In in E. unfold bytes in B. rewrite Forall_forall in B. specialize (B _ E). unfold is_u8, u8_max in B. lia. }
  assert (O0 : 0 <= de_off (entry_at file i)).
  { cbn [entry_at de_off]. unfold num32, num16. pose proof (BY (6 + 16 * i + 12)). pose proof (BY (6 + 16 * i + 12 + 1)). pose proof (BY (6 + 16 * i + 12 + 2)). pose proof (BY (6 + 16 * i + 12 + 2 + 1)). lia. }
  unfold is_png. change (skipn (Z.to_nat (de_off (entry_at file i))) file) with (at_ file (de_off (entry_at file i))). rewrite at_exact by lia. change (8 =? 0) with false. rewrite Bool.andb_false_r.
  destruct (Z.ltb_spec (zlen file) (de_off (entry_at file i) + 8)); cbn [bind]; [discriminate|]. intros E. injection E as <- <- <-. exists i.
  split; [lia|]. split; [reflexivity|]. split.
  { intros j Hj. apply (A0 (entry_at file j)). apply in_map. apply In_zrange. lia. }
  split; [exact H|]. split; [reflexivity|]. apply leqb_eq.
Qed.
Print Assumptions C45_selection.
(** reading the directory and selecting never panics, whatever the bytes; an empty directory is an error *)
Theorem C45_select_no_panic : forall file, bytes file -> ico_select file <> Panic /\ (num16 file 4 = 0 -> exists e, ico_select file = Err e).
Proof.
  intros file B.
  assert (P1 : post (read_entries file) (fun _ => True)).
  { unfold read_entries. do 3 prd. eapply post_imp with (Q := fun '(es, r) => bytes r); [|trivial]. apply post_foldM; [|assumption]. intros [es r3] i _ B3.
    eapply post_bind with (Q := fun '(e, r) => bytes r); [|intros [e r4] B4; cbn; exact B4]. unfold read_entry. do 5 prd. apply post_if; intros _; [apply post_err; discriminate|]. prd. apply post_if; intros _; [apply post_err; discriminate|]. do 2 prd. apply post_ok. assumption. }
  assert (P : post (ico_select file) (fun _ => True)).
  { unfold ico_select. eapply post_bind; [exact P1|]. intros [es r] _. eapply post_bind with (Q := fun _ => True).
    - destruct es as [|e0 l0]; [cbn; discriminate|]. destruct (best_ok (e0 :: l0)) as (e & E & _); [discriminate|]. rewrite E. exact I.
    - intros e _. eapply post_bind with (Q := fun _ => True); [|intros; exact I]. unfold is_png. eapply post_bind with (Q := fun _ => True); [|intros [? ?] _; exact I]. unfold read_exact. apply post_if; intros _; [apply post_err; discriminate|exact I]. }
  split; [destruct (ico_select file); cbn in P; try discriminate; contradiction|].
  intros N0. unfold ico_select. destruct (read_entries file) as [[es r]|e|] eqn:ER; cbn [bind]; [|eauto|cbn in P1; contradiction].
  apply read_entries_iff in ER; [|exact B]. destruct ER as (_ & _ & -> & _). rewrite N0. cbn. eauto.
Qed.
Print Assumptions C45_select_no_panic.

(** BMP icons: the AND mask makes exactly the masked pixels transparent and changes nothing else; data that ends right after
    the pixels has no mask; every other length is an error; no file panics. *)
Theorem C45_mask : forall file e w h image_end buf, bytes file -> 0 < w <= 65535 -> 0 < h <= 65535 -> zlen buf = w * h * 4 -> 0 <= image_end ->
  let mask_len := (w + 31) / 32 * 4 * h in
  let data_end := de_off e + de_len e in
  (image_end + mask_len <= data_end -> image_end + mask_len <= zlen file ->
     exists out, ico_bmp_finish file e w h image_end buf = Ok out /\ zlen out = zlen buf /\
       forall x y c, 0 <= x < w -> 0 <= y < h -> 0 <= c < 4 ->
         zget out ((y * w + x) * 4 + c) = if (c =? 3) && mask_bit (zslice file image_end mask_len) w h x y then Some 0 else zget buf ((y * w + x) * 4 + c)) /\
  (data_end = image_end -> ico_bmp_finish file e w h image_end buf = Ok buf) /\
  (data_end < image_end + mask_len -> data_end <> image_end -> ico_bmp_finish file e w h image_end buf = Err EDecoding) /\
  ico_bmp_finish file e w h image_end buf <> Panic.
Proof.
  intros file e w h image_end buf B Hw Hh Lb H0. cbv zeta. unfold ico_bmp_finish. fold (mask_row_bytes w). destruct (row_bytes w Hw) as [R0 RW].
  assert (MP : 0 < mask_row_bytes w * h) by (apply Z.mul_pos_pos; lia).
  split; [|split; [|split]].
  - intros HD HF. replace (image_end + mask_row_bytes w * h <=? de_off e + de_len e) with true by lia.
    change (skipn (Z.to_nat image_end) file) with (at_ file image_end). rewrite (at_slice file image_end (mask_row_bytes w * h)) by lia.
    apply apply_mask_ok; auto. rewrite zlen_zslice_gen. lia.
  - intros ->. replace (image_end + mask_row_bytes w * h <=? image_end) with false by lia. rewrite Z.eqb_refl. reflexivity.
  - intros HD HN. replace (image_end + mask_row_bytes w * h <=? de_off e + de_len e) with false by lia. replace (de_off e + de_len e =? image_end) with false by lia. reflexivity.
  - destruct (_ <=? _).
    + pose proof (apply_mask_post w h buf (skipn (Z.to_nat image_end) file) Hw Hh Lb) as P. destruct (apply_mask w h buf _); cbn in P; try discriminate. contradiction.
    + destruct (_ =? _); discriminate.
Qed.
Print Assumptions C45_mask.

(** An icon whose directory size disagrees with its image (sizes above 256 count as 256) is refused. *)
Theorem C45_size_checked : forall file e i, 0 <= de_w e <= 255 -> 0 <= de_h e <= 255 ->
  match ico_read_image file e i with
  | Ok _ => match i with InPng w h c _ | InBmp w h c _ => ic_w (to_icon e) = Z.min w 256 /\ ic_h (to_icon e) = Z.min h 256 /\ c = CRgba8 end
  | _ => True
  end.
Proof.
  intros file e i H1 H2. unfold ico_read_image, matches_dimensions. cbn [to_icon ic_w ic_h]. change (size_of (de_w e)) with (real (de_w e)). change (size_of (de_h e)) with (real (de_h e)).
  destruct i as [w h c px|w h c px].
  - destruct (_ <? 8); [exact I|]. destruct ((real (de_w e) =? Z.min w 256) && (real (de_h e) =? Z.min h 256)) eqn:M; cbn [negb]; [|exact I]. destruct c; cbn [ct_eqb_rgba8 negb]; try exact I. destruct px; try exact I. split; [lia|]. split; [lia|reflexivity].
  - destruct ((real (de_w e) =? Z.min w 256) && (real (de_h e) =? Z.min h 256)) eqn:M; cbn [negb]; [|exact I]. destruct c; cbn [ct_eqb_rgba8 negb]; try exact I. destruct (bind _ _); try exact I. split; [lia|]. split; [lia|reflexivity].
Qed.
Print Assumptions C45_size_checked.

(** the encoder's output is recognised by its magic bytes *)
Theorem C27_ico_output_recognised : forall m frames file, bytes file -> encode_images m frames = Ok file -> guess_format file = Some Formats.Ico.
Proof.
  intros m frames file B E. unfold encode_images in E. destruct (negb _); [discriminate|].
  destruct (foldM _ frames _) as [[out off]| |] eqn:EF; cbn [bind] in E; try discriminate. apply Ok_inj in E.
  assert (P : exists t, out = icondir (zlen frames) ++ t).
  { clear - EF. revert EF. generalize (6 + 16 * zlen frames). generalize (zlen frames). intros n o0.
    assert (K : forall l o1 t o2 off2, foldM (fun '(out, offset) im => let len := wrap_u32 (zlen (fr_data im)) in offset' <- u32_add_m m offset len ;; Ok (out ++ direntry (fr_w im) (fr_h im) (fr_c im) offset len, offset')) l (icondir n ++ t, o1) = Ok (o2, off2) -> exists t', o2 = icondir n ++ t').
    { induction l as [|im l IH]; intros o1 t o2 off2 E; cbn [foldM] in E; [apply Ok_inj in E; assert (E1 : icondir n ++ t = o2) by (change (fst (icondir n ++ t, o1) = fst (o2, off2)); rewrite E; reflexivity); subst o2; exists t; reflexivity|]. cbv zeta in E. destruct (u32_add_m m o1 _); cbn [bind] in E; try discriminate. rewrite <- app_assoc in E. eapply IH. exact E. }
    intros E. apply (K frames o0 [] out off). rewrite app_nil_r. exact E. }
  destruct P as (t & ->). subst file. unfold icondir, le16 in *. cbn [app] in *. change (0 mod 256) with 0 in *. change (0 / 256) with 0 in *. change (0 mod 256) with 0 in *. change (1 mod 256) with 1 in *. change ((1 / 256) mod 256) with 0 in *.
  apply (guess_plain [0; 0; 1; 0]).
  - repeat constructor; cbv; discriminate.
  - unfold bytes in *. do 4 (inversion B as [|? ? ? B']; subst; clear B; rename B' into B). exact B.
  - cbn. tauto.
  - discriminate.
Qed.
Print Assumptions C27_ico_output_recognised.

(** ** The hypotheses are met *)
Example C45_ex : exists f1 f2, with_encoded [137; 80; 78; 71; 13; 10; 26; 10; 1] 256 16 XRgba8 = Ok f1 /\ with_encoded [1; 2; 3; 4; 5; 6; 7; 8] 32 32 XRgb8 = Ok f2 /\
  (file <- encode_images Debug [f1; f2] ;; '(e, p, r) <- ico_select file ;; Ok (de_off e, de_len e, real (de_w e), p, r)) = Ok (38, 9, 256, true, [137; 80; 78; 71; 13; 10; 26; 10; 1; 1; 2; 3; 4; 5; 6; 7; 8]).
Proof. do 2 eexists. split; [reflexivity|]. split; [reflexivity|]. vm_compute. reflexivity. Qed.
Example C45_ex_mask : ico_bmp_finish ([9; 9] ++ [64; 0; 0; 0] ++ [128; 0; 0; 0]) (mkEntry 2 2 0 32 8 2) 2 2 2 (repeat 7 16) = Ok [7; 7; 7; 0; 7; 7; 7; 7; 7; 7; 7; 7; 7; 7; 7; 0].
Proof. vm_compute. reflexivity. Qed.
