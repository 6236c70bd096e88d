(** Whole BMP images: uncompressed and run length encoded. *)
From Verif Require Import Base BaseLemmas ListLemmas ListMore BitLemmas ColorType BmpBits BmpBitsProps Bmp DxtProofs2 IcoSpec IcoProofs BmpSpec Post BmpProofs BmpProofs2 TgaProofs2 BmpProofs3 BmpProofs4 BmpProofs5.
Local Open Scope Z_scope.

(** what opening yields besides [good] *)
Definition wellformed (d : bmp) : Prop :=
  good d /\ match b_type d with
            | TRGB16 | TBitfields16 => b_bits d = 16 | TRGB24 => b_bits d = 24 | TRGB32 | TRGBA32 | TBitfields32 => b_bits d = 32
            | _ => True end /\
  (has_fields (b_type d) = true -> exists f, b_fields d = Some f).
Lemma wellformed_metadata file start nfh alpha d : bytes file -> 0 <= start -> read_metadata file start nfh alpha = Ok d -> wellformed d.
Proof.
  intros B Hs E. pose proof (post_metadata file start nfh alpha B Hs) as PM. rewrite E in PM. cbn [post] in PM. destruct PM as [G _].
  destruct (metadata_inv file start nfh alpha d B Hs E) as (D & _ & _). split; [exact G|]. destruct D as [_ _ _ _ DB DK _ DF _ _]. split.
  - clear - DB DK. rewrite DB. revert DK. generalize (dib_method file (if nfh then start else start + 14)) (dib_depth file (if nfh then start else start + 14)) (b_type d). intros m b t DK. unfold kinds in DK. cbn [In] in DK.
    repeat (destruct DK as [DK|DK]; [inversion DK; subst; first [reflexivity|exact I|destruct alpha; reflexivity]|]). destruct DK.
  - intros HF. rewrite HF in DF. destruct DF as (f & Ef & _). eauto.
Qed.
Lemma wellformed_ico d h : wellformed d -> 0 <= h <= 2147483647 -> wellformed (mkBmp (b_w d) h (b_off d) (b_top_down d) (b_alpha d) (b_type d) (b_bits d) (b_pal d) (b_fields d) false).
Proof. intros ((G1 & G2 & G3 & G4 & G5) & W2 & W3) Hh. split; [|split; assumption]. unfold good. cbn. auto. Qed.
Lemma wellformed_bmp_ico file start d : bytes file -> 0 <= start -> bmp_new_ico file start = Ok d -> wellformed d.
Proof.
  intros B Hs E. unfold bmp_new_ico in E. apply bind_ok in E as (d0 & E0 & E). apply Ok_inj in E. subst d. apply wellformed_ico; [eapply wellformed_metadata; eassumption|].
  pose proof (wellformed_metadata _ _ _ _ _ B Hs E0) as ((_ & G2 & _) & _). clear - G2. zdm.
Qed.
Lemma raster_rows w h px : raster w h px = concat (map (fun y => concat (map (fun x => px x y) (zrange 0 w))) (zrange 0 h)).
Proof. unfold raster. rewrite flat_map_concat_map. f_equal. apply map_ext. intros y. apply flat_map_concat_map. Qed.
Lemma raster_ext w h p q : (forall x y, 0 <= x < w -> 0 <= y < h -> p x y = q x y) -> raster w h p = raster w h q.
Proof. intros H. rewrite !raster_rows. f_equal. apply map_ext_in. intros y Hy. f_equal. apply map_ext_in. intros x Hx. apply In_zrange in Hx, Hy. apply H; lia. Qed.
Lemma out_rows_raster G k w td st h r : out_rows (row_fn G k w) td st h r = raster w h (fun x y => G r ((if td then y else h - 1 - y) * st + x * k)).
Proof. rewrite raster_rows. reflexivity. Qed.
Lemma channel8 s data : channel (mkBf s 8) data = data / 2 ^ s mod 256.
Proof.
  unfold channel. cbn [bf_len bf_shift]. change (2 ^ 8) with 256. cbv zeta. change (2 * (256 - 1)) with 510. set (v := data / 2 ^ s mod 256). clearbody v. clear. zdm.
Qed.
Lemma num32_bytes r o : bytes r -> let b k := byte_at r (o + k) in
  num32 r o / 2 ^ 0 mod 256 = b 0 /\ num32 r o / 2 ^ 8 mod 256 = b 1 /\ num32 r o / 2 ^ 16 mod 256 = b 2 /\ num32 r o / 2 ^ 24 mod 256 = b 3.
Proof.
  intros B. cbv zeta. unfold num32, num16. rewrite Z.add_0_r. replace (o + 2 + 1) with (o + 3) by lia. pose proof (byte_at_range r o B). pose proof (byte_at_range r (o + 1) B). pose proof (byte_at_range r (o + 2) B). pose proof (byte_at_range r (o + 3) B).
  change (2 ^ 0) with 1. change (2 ^ 8) with 256. change (2 ^ 16) with 65536. change (2 ^ 24) with 16777216.
  generalize dependent (byte_at r o). generalize dependent (byte_at r (o + 1)). generalize dependent (byte_at r (o + 2)). generalize dependent (byte_at r (o + 3)). clear. intros. repeat split; zdm.
Qed.
Lemma bfs_eqb_eq f g : bfs_eqb f g = true -> f = g.
Proof.
  unfold bfs_eqb. intros E. apply andb_prop in E as [E E4]. apply andb_prop in E as [E E3]. apply andb_prop in E as [E1 E2]. apply bf_eqb_true in E1, E2, E3, E4.
  destruct f as [[] [] [] []], g as [[] [] [] []]. cbn in *. destruct E1, E2, E3, E4. subst. reflexivity.
Qed.
Lemma full_888 r o (alpha : bool) : bytes r -> full_at F888 (if alpha then 4 else 3) r o = fields_pixel R8_G8_B8 alpha (num32 r o).
Proof.
  intros B. destruct (num32_bytes r o B) as (N0 & N1 & N2 & N3). unfold full_at, fields_pixel, R8_G8_B8. cbn [bf_r bf_g bf_b bf_a bf_len]. rewrite !channel8, N1, N2, N3. rewrite <- !Z.add_assoc. destruct alpha; reflexivity.
Qed.
Lemma full_8888 r o : bytes r -> full_at FRGBA32 4 r o = fields_pixel R8_G8_B8_A8 true (num32 r o).
Proof.
  intros B. destruct (num32_bytes r o B) as (N0 & N1 & N2 & N3). unfold full_at, fields_pixel, R8_G8_B8_A8. cbn [bf_r bf_g bf_b bf_a bf_len]. rewrite !channel8, N0, N1, N2, N3. rewrite Z.add_0_r. reflexivity.
Qed.
Lemma color_channels d : b_indexed d = false -> ct_bytes (bmp_color d) = num_channels d.
Proof. intros E. unfold bmp_color, num_channels. rewrite E. destruct (b_alpha d); reflexivity. Qed.

Lemma total_is d : good d -> total_bytes (b_w d) (b_h d) (bmp_color d) = Ok (num_channels d * b_w d * b_h d).
Proof.
  intros (G1 & G2 & _ & G4 & _). unfold total_bytes. assert (0 <= b_w d * b_h d <= 65535 * 2147483647) by (split; [apply Z.mul_nonneg_nonneg; lia|apply Z.mul_le_mono_nonneg; lia]).
  replace (u64_max <? b_w d * b_h d) with false by (unfold u64_max; lia). rewrite color_channels by exact G4. f_equal. unfold Limits.sat_mul_u64.
  assert (3 <= num_channels d <= 4) by (destruct (num_channels_cases d G4) as [[-> _]|[-> _]]; lia). assert (b_w d * b_h d * num_channels d <= (65535 * 2147483647) * 4) by (apply Z.mul_le_mono_nonneg; lia). unfold u64_max. lia.
Qed.
Lemma with_prefix (file : list Z) off n : 0 <= off -> (n <=? zlen (skipn (Z.to_nat off) file)) = (off + n <=? Z.max off (zlen file)).
Proof. intros Ho. rewrite zlen_skipn, Z2Nat.id by lia. pose proof (zlen_nonneg file). destruct (Z.leb_spec n (Z.max 0 (zlen file - off))), (Z.leb_spec (off + n) (Z.max off (zlen file))); try reflexivity; lia. Qed.
Lemma uncompressed_meaning file d buf : bytes file -> wellformed d -> compressed d = false -> zlen buf = num_channels d * b_w d * b_h d ->
  bmp_read_image file d buf =
    if b_off d + b_h d * stride d <=? Z.max (b_off d) (zlen file) then Ok (raster (b_w d) (b_h d) (fun x y => stored_pixel file d x (stored_row d y))) else Err EEof.
Proof.
  intros B (G & W2 & W3) NC L. pose proof G as (G1 & G2 & G3 & G4 & G5 & G6 & G7 & G8). unfold bmp_read_image. rewrite total_is by exact G. cbn [bind]. replace (zlen buf =? num_channels d * b_w d * b_h d) with true by lia. cbn [negb].
  assert (Br : bytes (skipn (Z.to_nat (b_off d)) file)) by (apply Forall_skipn'; exact B). unfold read_image_data. cbv zeta. rewrite <- with_prefix by exact G3. unfold stride, stored_pixel, stored_row. set (r := skipn (Z.to_nat (b_off d)) file) in *.
  pose proof (channels_alpha d G4) as CA.
  assert (SH : forall {A} (G : list Z -> Z -> A) i, shifts G -> 0 <= i -> G r i = G file (b_off d + i)) by (intros A Gf i S Hi; unfold r; apply S; lia).
  assert (POS : forall y, 0 <= y < b_h d -> 0 <= (if b_top_down d then y else b_h d - 1 - y)) by (intros; destruct (b_top_down d); lia).
  unfold compressed in NC. destruct (b_type d) eqn:T; try discriminate NC.
  - destruct (G5 ltac:(auto)) as (pal & EP & OK). rewrite (read_palettized_meaning d pal) by assumption. rewrite EP. assert (Hb : bits_ok (b_bits d)) by (apply G6; reflexivity). unfold row_byte_length. rewrite (Z.mul_comm _ 4). destruct (_ <=? _); [|reflexivity]. cbn [bind]. f_equal.
    unfold out_rows, pal_row. rewrite <- raster_rows. apply raster_ext. intros x y Hx Hy. cbv beta.
    assert (S0 : 0 <= 4 * ((b_bits d * b_w d + 31) / 32)) by (apply Z.mul_nonneg_nonneg; [lia|apply Z.div_pos; [|lia]]; destruct Hb as [->|[->|[->| ->]]]; lia).
    specialize (POS y Hy). rewrite (SH _ (fun r o => index_at r (b_bits d) o x) _ (shifts_index (b_bits d) x ltac:(lia) Hb)) by (apply Z.mul_nonneg_nonneg; assumption).
    unfold pal_pixel, stride. rewrite CA. replace ((if b_alpha d then 4 else 3) =? 4) with (b_alpha d) by (destruct (b_alpha d); reflexivity). reflexivity.
  - rewrite (read_16_meaning d); auto; [|unfold fields_ok, readable, R5_G5_B5; cbn; lia]. rewrite W2. replace (b_w d * 2 + b_w d mod 2 * 2) with (4 * ((16 * b_w d + 31) / 32)) by (clear; zdm). destruct (_ <=? _); [|reflexivity]. cbn [bind]. f_equal. rewrite out_rows_raster. apply raster_ext. intros x y Hx Hy. unfold f16_at.
    specialize (POS y Hy). assert (0 <= 4 * ((16 * b_w d + 31) / 32)) by (clear - G1; zdm). rewrite (SH _ num16 _ num16_shift) by nia. do 2 f_equal. unfold stride. rewrite W2. ring.
  - rewrite (read_full_meaning d); auto; [|discriminate]. rewrite W2. unfold full_stride. cbn [full_k row_padding]. replace (b_w d * 3 + (4 - b_w d * 3 mod 4) mod 4) with (4 * ((24 * b_w d + 31) / 32)) by (clear; zdm). destruct (_ <=? _); [|reflexivity]. cbn [bind]. f_equal. rewrite out_rows_raster. apply raster_ext. intros x y Hx Hy.
    specialize (POS y Hy). assert (0 <= 4 * ((24 * b_w d + 31) / 32)) by (clear - G1; zdm). rewrite (SH _ (full_at FRGB24 (num_channels d)) _ (shifts_full _ _)) by nia. unfold full_at. cbv zeta. rewrite CA. replace ((if b_alpha d then 4 else 3) =? 4) with (b_alpha d) by (destruct (b_alpha d); reflexivity). unfold stride. rewrite W2.
    replace (b_off d + ((if b_top_down d then y else b_h d - 1 - y) * (4 * ((24 * b_w d + 31) / 32)) + x * 3)) with (b_off d + (if b_top_down d then y else b_h d - 1 - y) * (4 * ((24 * b_w d + 31) / 32)) + 3 * x) by ring. reflexivity.
  - rewrite (read_full_meaning d); auto; [|discriminate]. rewrite W2. unfold full_stride. cbn [full_k row_padding]. replace (b_w d * 4 + 0) with (4 * ((32 * b_w d + 31) / 32)) by (clear; zdm). destruct (_ <=? _); [|reflexivity]. cbn [bind]. f_equal. rewrite out_rows_raster. apply raster_ext. intros x y Hx Hy.
    specialize (POS y Hy). assert (0 <= 4 * ((32 * b_w d + 31) / 32)) by (clear - G1; zdm). rewrite (SH _ (full_at FRGB32 (num_channels d)) _ (shifts_full _ _)) by nia. unfold full_at. cbv zeta. rewrite CA. replace ((if b_alpha d then 4 else 3) =? 4) with (b_alpha d) by (destruct (b_alpha d); reflexivity). unfold stride. rewrite W2.
    replace (b_off d + ((if b_top_down d then y else b_h d - 1 - y) * (4 * ((32 * b_w d + 31) / 32)) + x * 4)) with (b_off d + (if b_top_down d then y else b_h d - 1 - y) * (4 * ((32 * b_w d + 31) / 32)) + 4 * x) by ring. reflexivity.
  - rewrite (read_full_meaning d); auto. rewrite W2. unfold full_stride. cbn [full_k row_padding]. replace (b_w d * 4 + 0) with (4 * ((32 * b_w d + 31) / 32)) by (clear; zdm). destruct (_ <=? _); [|reflexivity]. cbn [bind]. f_equal. rewrite out_rows_raster. apply raster_ext. intros x y Hx Hy.
    specialize (POS y Hy). assert (0 <= 4 * ((32 * b_w d + 31) / 32)) by (clear - G1; zdm). rewrite (SH _ (full_at FRGBA32 (num_channels d)) _ (shifts_full _ _)) by nia. unfold full_at. cbv zeta. unfold stride. rewrite W2.
    replace (b_off d + ((if b_top_down d then y else b_h d - 1 - y) * (4 * ((32 * b_w d + 31) / 32)) + x * 4)) with (b_off d + (if b_top_down d then y else b_h d - 1 - y) * (4 * ((32 * b_w d + 31) / 32)) + 4 * x) by ring. reflexivity.
  - destruct (W3 eq_refl) as (f & EF). rewrite EF. destruct (G8 f EF) as [FO _]. rewrite (read_16_meaning d); auto. rewrite W2. replace (b_w d * 2 + b_w d mod 2 * 2) with (4 * ((16 * b_w d + 31) / 32)) by (clear; zdm). destruct (_ <=? _); [|reflexivity]. cbn [bind]. f_equal. rewrite out_rows_raster. apply raster_ext. intros x y Hx Hy. unfold f16_at.
    specialize (POS y Hy). assert (0 <= 4 * ((16 * b_w d + 31) / 32)) by (clear - G1; zdm). rewrite (SH _ num16 _ num16_shift) by nia. do 2 f_equal. unfold stride. rewrite W2. ring.
  - destruct (W3 eq_refl) as (f & EF). rewrite EF. destruct (G8 f EF) as [FO FA]. rewrite W2.
    assert (ST : b_w d * 4 = 4 * ((32 * b_w d + 31) / 32)) by (clear; zdm). assert (S0 : 0 <= 4 * ((32 * b_w d + 31) / 32)) by lia.
    assert (FIN : forall x y, 0 <= x < b_w d -> 0 <= y < b_h d -> f32_at f (b_alpha d) r ((if b_top_down d then y else b_h d - 1 - y) * (4 * ((32 * b_w d + 31) / 32)) + x * 4) = fields_pixel f (b_alpha d) (num32 file (b_off d + (if b_top_down d then y else b_h d - 1 - y) * stride d + 4 * x))).
    { intros x y Hx Hy. specialize (POS y Hy). unfold f32_at. rewrite (SH _ num32 _ num32_shift) by nia. do 2 f_equal. unfold stride. rewrite W2. ring. }
    destruct (bfs_eqb f R8_G8_B8) eqn:Q1; [|destruct (bfs_eqb f R8_G8_B8_A8) eqn:Q2].
    + apply bfs_eqb_eq in Q1. subst f. rewrite (read_full_meaning d); auto; [|discriminate]. unfold full_stride. cbn [full_k row_padding]. rewrite Z.add_0_r, ST. destruct (_ <=? _); [|reflexivity]. cbn [bind]. f_equal. rewrite out_rows_raster. apply raster_ext. intros x y Hx Hy. rewrite <- FIN by assumption. rewrite CA. apply full_888. exact Br.
    + apply bfs_eqb_eq in Q2. subst f. assert (AL : b_alpha d = true) by (apply FA; cbn; lia). rewrite (read_full_meaning d); auto. unfold full_stride. cbn [full_k row_padding]. rewrite Z.add_0_r, ST. destruct (_ <=? _); [|reflexivity]. cbn [bind]. f_equal. rewrite out_rows_raster. apply raster_ext. intros x y Hx Hy. rewrite <- FIN by assumption. rewrite CA, AL. apply full_8888. exact Br.
    + rewrite (read_32_meaning d); auto. rewrite ST. destruct (_ <=? _); [|reflexivity]. cbn [bind]. f_equal. rewrite out_rows_raster. apply raster_ext. intros x y Hx Hy. rewrite <- FIN by assumption. reflexivity.
Qed.
(** *** run length encoding *)
Lemma rle_start w h rows row rest : Forall (three w) rows -> zlen rows = h -> rows = row :: rest -> inv w h blank [] [] row 0 rest.
Proof.
  intros F L E. subst rows. apply Forall_cons_iff in F as [[F1 F2] F3]. rewrite zlen_cons in L. constructor; change (zlen (@nil prow)) with 0; change (zlen (@nil (list Z))) with 0; auto; try lia.
  - intros y r0 E. destruct (zget_range _ _ _ E) as [E1 E2]. change (zlen (@nil prow)) with 0 in E2. lia.
Qed.

Lemma rows_are_map w h c rows : 0 <= w -> rows_are w c rows -> zlen rows = h -> rows = map (fun y => map (fun x => c x y) (zrange 0 w)) (zrange 0 h).
Proof.
  intros Hw R L. apply zget_ext; [rewrite zlen_map, zlen_zrange; pose proof (zlen_nonneg rows); lia|]. intros y Hy. destruct (zget_some rows y Hy) as (row & E). rewrite E. rewrite zget_map, zget_zrange by lia. cbn [option_map]. f_equal.
  destruct (R y row E) as [R1 R2]. apply zget_ext; [rewrite zlen_map, zlen_zrange; lia|]. intros x Hx. rewrite R2 by lia. rewrite zget_map, zget_zrange by lia. reflexivity.
Qed.
Lemma rows_raster w h c (td : bool) : concat (map (@concat Z) (if td then map (fun y => map (fun x => c x y) (zrange 0 w)) (zrange 0 h) else rev (map (fun y => map (fun x => c x y) (zrange 0 w)) (zrange 0 h)))) = raster w h (fun x y => c x (if td then y else h - 1 - y)).
Proof. rewrite raster_rows. f_equal. destruct td; [|rewrite rev_zrange_map]; rewrite map_map; reflexivity. Qed.
Definition is_rle4 (t : imtype) : bool := match t with TRLE4 => true | _ => false end.
Lemma rle_meaning file d pal buf : bytes file -> wellformed d -> compressed d = true -> b_pal d = Some pal -> b_alpha d = false -> 1 <= b_h d -> bytes buf -> zlen buf = num_channels d * b_w d * b_h d -> forall out,
  bmp_read_image file d buf = Ok out <->
  exists c r', runs (is_rle4 (b_type d)) (b_w d) (b_h d) (colour_of pal) 0 0 blank (skipn (Z.to_nat (b_off d)) file) c r' /\ out = raster (b_w d) (b_h d) (fun x y => c x (stored_row d y)).
Proof.
  intros B (G & W2 & W3) CM EP NA H1 BB L out. pose proof G as (G1 & G2 & G3 & G4 & G5 & _). unfold bmp_read_image. rewrite total_is by exact G. cbn [bind]. replace (zlen buf =? num_channels d * b_w d * b_h d) with true by lia. cbn [negb].
  assert (Br : bytes (skipn (Z.to_nat (b_off d)) file)) by (apply Forall_skipn'; exact B). set (r := skipn (Z.to_nat (b_off d)) file) in *.
  assert (OK : pal_ok pal). { destruct G5 as (pal' & EP' & OK'); [unfold compressed in CM; destruct (b_type d); try discriminate CM; auto|]. rewrite EP in EP'. apply Some_inj in EP'. subst. exact OK'. }
  assert (RD : read_image_data file d buf = read_rle d (is_rle4 (b_type d)) buf r) by (unfold read_image_data, r; unfold compressed in CM; destruct (b_type d); try discriminate CM; reflexivity).
  rewrite RD. unfold read_rle. rewrite EP. pose proof (channels_alpha d G4) as CA. rewrite NA in CA. rewrite CA in *. cbv zeta. replace (b_w d * 3 =? 0) with false by lia.
  destruct (rows_ok 3 (b_w d) (b_h d) buf ltac:(lia) ltac:(lia) ltac:(lia) ltac:(lia) BB) as (R1 & R2). set (rows := map (chunks_exact 3) (chunks_exact (b_w d * 3) buf)) in *.
  assert (R3 : Forall (three (b_w d)) (if b_top_down d then rows else rev rows) /\ zlen (if b_top_down d then rows else rev rows) = b_h d).
  { assert (T : Forall (three (b_w d)) rows) by (eapply Forall_impl; [|exact R1]; intros row [Q1 Q2]; split; [exact Q1|]; eapply Forall_impl; [|exact Q2]; intros p0 [Q3 _]; exact Q3).
    destruct (b_top_down d); [split; assumption|]. split; [apply Forall_rev; exact T|]. unfold zlen in *. rewrite rev_length. exact R2. }
  destruct R3 as [R3 R4]. destruct (if b_top_down d then rows else rev rows) as [|row rest] eqn:ER; [change (zlen (@nil prow)) with 0 in R4; lia|].
  pose proof (rle_start (b_w d) (b_h d) (row :: rest) row rest R3 R4 eq_refl) as INV. unfold stored_row. split.
  - intros E. apply bind_ok in E as ([o r1] & E1 & E). apply Ok_inj in E. subst o. apply bind_ok in E1 as ([rows' r2] & E2 & E1). apply Ok_inj in E1. inversion E1; subst out r2. clear E1.
    destruct (rle_forward _ pal (b_w d) (b_h d) OK _ _ _ _ _ _ _ _ _ _ Br INV E2) as (c & RU & RA & RL). exists c, r1. split; [exact RU|].
    rewrite (rows_are_map (b_w d) (b_h d) c rows' ltac:(lia) RA RL). apply rows_raster.
  - intros (c & r' & RU & ->). destruct (rle_backward _ pal (b_w d) (b_h d) OK _ _ _ _ _ _ RU Br (S (length r)) [] [] row rest ltac:(lia) INV eq_refl) as (rows' & E & RA & RL).
    rewrite E. cbn [bind]. rewrite (rows_are_map (b_w d) (b_h d) c rows' ltac:(lia) RA RL). rewrite rows_raster. reflexivity.
Qed.
