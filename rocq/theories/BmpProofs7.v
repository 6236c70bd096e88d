(** The BMP encoder's output and decoding it again. *)
From Verif Require Import Base BaseLemmas ListLemmas ListMore BitLemmas GenImage ColorType BmpBits BmpBitsProps Bmp DxtProofs2 IcoSpec IcoProofs BmpSpec Post BmpProofs BmpProofs2 TgaProofs2 BmpProofs3 BmpProofs4 BmpProofs5 BmpProofs6.
Local Open Scope Z_scope.

(** *** the pixel data the encoder writes *)
Definition pad_of (row : Z) : Z := (4 - row mod 4) mod 4.
Lemma rev_zrange n : rev (zrange 0 n) = map (fun i => n - 1 - i) (zrange 0 n).
Proof. rewrite <- (map_id (zrange 0 n)) at 1. apply (rev_zrange_map (fun i => i)). Qed.
Lemma foldM_flat {A B} (f : list B -> A -> res (list B)) (g : A -> list B) ls : (forall out a, In a ls -> f out a = Ok (out ++ g a)) -> forall out, foldM f ls out = Ok (out ++ flat_map g ls).
Proof.
  induction ls as [|a ls IH]; intros H out; cbn [foldM flat_map]; [rewrite app_nil_r; reflexivity|]. rewrite H by (left; reflexivity). cbn [bind]. rewrite IH by (intros; apply H; right; assumption). rewrite <- app_assoc. reflexivity.
Qed.
Lemma slice_at_ok image s n : 0 <= s -> 0 <= n -> s + n <= zlen image -> slice_at image s n = Ok (zslice image s n).
Proof. intros. unfold slice_at. replace (zlen image <? s) with false by lia. replace (zlen image - s <? n) with false by lia. reflexivity. Qed.
(** stored row j, made of the bytes [px x y] of each pixel *)
Definition stored_rows (px : Z -> Z -> list Z) (w h pad : Z) : list Z :=
  flat_map (fun j => flat_map (fun x => px x (h - 1 - j)) (zrange 0 w) ++ repeat 0 (Z.to_nat pad)) (zrange 0 h).
Lemma encode_color_ok conv (cv : list Z -> list Z) image w h pad xs : 1 <= w -> 1 <= h -> 1 <= xs -> zlen image = xs * w * h -> (forall p, zlen p = xs -> conv p = Ok (cv p)) ->
  encode_color conv image w h pad xs = Ok (stored_rows (fun x y => cv (zslice image ((y * w + x) * xs) xs)) w h pad).
Proof.
  intros Hw Hh Hx L C. unfold encode_color. cbv zeta. rewrite rev_zrange.
  rewrite (foldM_flat _ (fun y => flat_map (fun x => cv (zslice image ((y * w + x) * xs) xs)) (zrange 0 w) ++ repeat 0 (Z.to_nat pad))).
  - cbn [app]. f_equal. unfold stored_rows. rewrite !flat_map_concat_map, map_map. reflexivity.
  - intros out y Hy. apply in_map_iff in Hy as (j & <- & Hj). apply In_zrange in Hj. set (y := h - 1 - j). assert (Hy : 0 <= y < h) by (subst y; lia). clearbody y. clear j Hj.
    assert (0 <= y * (w * xs)) by (apply Z.mul_nonneg_nonneg; nia). assert (y * (w * xs) + w * xs <= zlen image) by (rewrite L; assert ((y + 1) * (w * xs) <= h * (w * xs)) by (apply Z.mul_le_mono_nonneg_r; nia); nia). assert (0 <= w * xs) by nia.
    rewrite slice_at_ok by lia. cbn [bind]. rewrite chunks_exact_slices by lia.
    rewrite (foldM_flat _ cv).
    + cbn [bind]. rewrite <- app_assoc. do 3 f_equal. rewrite !flat_map_concat_map, map_map. f_equal. apply map_ext. intros x. f_equal. f_equal. ring.
    + intros out' p Hp. apply in_map_iff in Hp as (x & <- & Hx'). apply In_zrange in Hx'. rewrite C; [reflexivity|]. assert (0 <= x * xs) by (apply Z.mul_nonneg_nonneg; lia). assert (x * xs + xs <= w * xs) by nia. rewrite zlen_zslice_gen. lia.
Qed.
Lemma gray_palette_ok pal : (forall p, pal = Some p -> Forall (fun c => zlen c = 3) p) ->
  gray_palette pal = Ok (flat_map (fun c => rev c ++ [0]) (match pal with Some p => p | None => map (fun v => [v; v; v]) (zrange 0 256) end)).
Proof.
  intros H. unfold gray_palette. destruct pal as [p|].
  - rewrite (foldM_flat _ (fun c => rev c ++ [0])); [reflexivity|]. intros out c Hc. specialize (H p eq_refl). rewrite Forall_forall in H. destruct (list3 c (H c Hc)) as (a & b & d & ->). reflexivity.
  - f_equal.
Qed.
Lemma u32_mul_ok m a b : a * b <= u32_max -> u32_mul_m m a b = Ok (a * b).
Proof. intros H. unfold u32_mul_m. replace (a * b <=? u32_max) with true by lia. reflexivity. Qed.
Lemma u32_add_ok m a b : a + b <= u32_max -> u32_add_m m a b = Ok (a + b).
Proof. intros H. unfold u32_add_m. destruct m; repeat match goal with |- context [if ?c then _ else _] => destruct c eqn:?; try lia end; try reflexivity; f_equal; lia. Qed.
Definition all_grey : list (list Z) := map (fun v => [v; v; v]) (zrange 0 256).
Definition pal_list (pal : option (list (list Z))) : list (list Z) := match pal with Some p => p | None => all_grey end.
Lemma encode_gray_ok m image w h pad xs pal : 1 <= w <= 65535 -> 1 <= h <= 65535 -> xs = 1 \/ xs = 2 -> xs * w * h <= u32_max + 1 -> zlen image = xs * w * h -> (forall p, pal = Some p -> Forall (fun c => zlen c = 3) p) ->
  encode_gray m image w h pad xs pal = Ok (flat_map (fun c => rev c ++ [0]) (pal_list pal) ++ stored_rows (fun x y => [byte_at image ((y * w + x) * xs)]) w h pad).
Proof.
  intros Hw Hh Hx U L HP. unfold encode_gray. rewrite gray_palette_ok by exact HP. cbn [bind]. rewrite u32_mul_ok by (unfold u32_max; nia). cbn [bind]. rewrite rev_zrange.
  rewrite (foldM_flat _ (fun y => flat_map (fun x => [byte_at image ((y * w + x) * xs)]) (zrange 0 w) ++ repeat 0 (Z.to_nat pad))).
  - f_equal. f_equal. unfold stored_rows. rewrite !flat_map_concat_map, map_map. reflexivity.
  - intros out y Hy. apply in_map_iff in Hy as (j & <- & Hj). apply In_zrange in Hj. set (y := h - 1 - j). assert (Hy : 0 <= y < h) by (subst y; lia). clearbody y. clear j Hj.
    assert (Y0 : 0 <= y * (w * xs)) by (apply Z.mul_nonneg_nonneg; nia). assert (Y1 : y * (w * xs) + w * xs <= xs * w * h) by (assert ((y + 1) * (w * xs) <= h * (w * xs)) by (apply Z.mul_le_mono_nonneg_r; nia); nia). assert (W0 : w <= w * xs) by nia.
    rewrite u32_mul_ok by (unfold u32_max in *; lia). cbn [bind].
    assert (G : forall x, 0 <= x < w -> zget image (y * (w * xs) + x * xs) = Some (byte_at image ((y * w + x) * xs))).
    { intros x Hx'. assert (0 <= x * xs) by (apply Z.mul_nonneg_nonneg; lia). assert (x * xs + xs <= w * xs) by nia. unfold byte_at. replace ((y * w + x) * xs) with (y * (w * xs) + x * xs) by ring. destruct (zget_some image (y * (w * xs) + x * xs) ltac:(lia)) as (v & ->). reflexivity. }
    destruct Hx as [->| ->]; cbn [Z.eqb Pos.eqb].
    + rewrite slice_at_ok by lia. cbn [bind]. rewrite <- app_assoc. do 3 f_equal. apply zget_ext.
      * rewrite zlen_zslice_gen. rewrite flat_map_concat_map, (zlen_concat 1); [rewrite zlen_map, zlen_zrange; lia|]. apply Forall_map_iff. apply Forall_forall. reflexivity.
      * intros x Hx'. rewrite zlen_zslice_gen in Hx'. rewrite zget_zslice_gen by lia. replace ((0 <=? x) && (x <? w * 1)) with true by lia.
        destruct (zget_flat_map (fun x => [byte_at image ((y * w + x) * 1)]) 1 (zrange 0 w) ltac:(lia)) as (_ & GG); [apply Forall_forall; reflexivity|]. destruct (GG x) as (a & E1 & ->); [rewrite zlen_zrange; lia|].
        rewrite Z.div_1_r, zget_zrange in E1 by lia. apply Some_inj in E1. subst a. rewrite Z.mod_1_r. rewrite Z.add_0_l. specialize (G x ltac:(lia)). replace (y * (w * 1) + x * 1) with (y * (w * 1) + x) in G by ring. rewrite G. reflexivity.
    + rewrite (foldM_flat _ (fun x => [byte_at image ((y * w + x) * 2)])).
      * cbn [bind]. rewrite <- app_assoc. reflexivity.
      * intros out' x Hx'. apply In_zrange in Hx'. rewrite u32_mul_ok by (unfold u32_max; nia). cbn [bind]. rewrite u32_add_ok by (unfold u32_max in *; nia). cbn [bind]. rewrite G by lia. reflexivity.
Qed.

(** *** the whole file *)
Definition dib_size_of (c : ectype) : Z := match c with XRgba8 => 108 | _ => 40 end.
Definition px_size (c : ectype) : Z := match c with XRgb8 => 3 | XRgba8 => 4 | _ => 1 end.
Definition src_size (c : ectype) : Z := match c with XRgb8 => 3 | XRgba8 => 4 | XLa8 => 2 | _ => 1 end.
Definition supported (c : ectype) : Prop := c = XRgb8 \/ c = XRgba8 \/ c = XL8 \/ c = XLa8.
Definition colors_of (c : ectype) (pal : option (list (list Z))) : Z := if is_l8 c then zlen (pal_list pal) else 0.
Definition data_size (c : ectype) (w h : Z) : Z := h * (w * px_size c + pad_of (w * px_size c)).
Definition file_size (c : ectype) (pal : option (list (list Z))) (w h : Z) : Z := 14 + dib_size_of c + 4 * colors_of c pal + data_size c w h.
Definition body_of (m : mode) (image : list Z) (w h : Z) (c : ectype) (pal : option (list (list Z))) : res (list Z) :=
  match c with
  | XRgb8 => encode_color bgr image w h (pad_of (w * px_size c)) 3
  | XRgba8 => encode_color bgra image w h (pad_of (w * px_size c)) 4
  | XL8 => encode_gray m image w h (pad_of (w * px_size c)) 1 pal
  | XLa8 => encode_gray m image w h (pad_of (w * px_size c)) 2 pal
  | _ => Err EEncoding
  end.
Definition header_of (w h : Z) (c : ectype) (pal : option (list (list Z))) : list Z :=
  file_header (file_size c pal w h) (14 + dib_size_of c + 4 * colors_of c pal) ++ dib_header (dib_size_of c) w h (px_size c) (data_size c w h) (colors_of c pal).
Definition pal_fits (c : ectype) (pal : option (list (list Z))) : Prop := match pal with None => True | Some p => is_l8 c = true /\ 1 <= zlen p <= 256 /\ Forall (fun c => zlen c = 3 /\ bytes c) p end.
Lemma all_grey_len : zlen all_grey = 256.
Proof. reflexivity. Qed.
Lemma colors_range c pal : supported c -> pal_fits c pal -> 0 <= colors_of c pal <= 256.
Proof. intros S P. unfold colors_of, pal_list. destruct (is_l8 c); [|lia]. destruct pal as [p|]; [cbn in P; lia|rewrite all_grey_len; lia]. Qed.
Lemma encode_shape m image w h c pal : supported c -> pal_fits c pal -> 1 <= w <= 65535 -> 1 <= h <= 65535 -> zlen image = src_size c * w * h ->
  (file_size c pal w h <= u32_max -> bmp_encode m image w h c pal = (body <- body_of m image w h c pal ;; Ok (header_of w h c pal ++ body))) /\
  (u32_max < file_size c pal w h -> exists e, bmp_encode m image w h c pal = Err e).
Proof.
  intros S P Hw Hh L. unfold bmp_encode.
  assert (NP : (match pal with Some _ => true | None => false end) && negb (is_l8 c) = false) by (destruct pal; [destruct P as [-> _]; reflexivity|reflexivity]). rewrite NP.
  assert (BS : buffer_size c w h = Ok (src_size c * w * h)).
  { unfold buffer_size. assert (ect_bits c = 8 * src_size c /\ 1 <= src_size c <= 4) as [-> SS] by (destruct S as [->|[->|[->| ->]]]; cbn; lia). replace (w * (8 * src_size c) + 7 <=? u64_max) with true by (unfold u64_max; nia). f_equal. unfold Limits.sat_mul_u64.
    replace ((w * (8 * src_size c) + 7) / 8) with (w * src_size c) by (replace (w * (8 * src_size c) + 7) with (7 + (w * src_size c) * 8) by ring; rewrite Z.div_add by lia; reflexivity). rewrite Z.min_r; [ring|]. assert (w * src_size c <= 65535 * 4) by (apply Z.mul_le_mono_nonneg; lia). assert (w * src_size c * h <= (65535 * 4) * 65535) by (apply Z.mul_le_mono_nonneg; [apply Z.mul_nonneg_nonneg; lia|lia|lia|lia]). unfold u64_max. lia. }
  rewrite BS. cbn [bind]. replace (src_size c * w * h =? zlen image) with true by lia. cbn [negb].
  assert (GI : get_pixel_info c pal = Ok (dib_size_of c, px_size c, colors_of c pal)).
  { unfold get_pixel_info, colors_of, pal_list. destruct pal as [p|].
    - destruct P as (P0 & P1 & _). replace (wrap_u32 (zlen p)) with (zlen p) by (symmetry; apply OverlayProofs.wrap_u32_id; unfold u32_max; lia). destruct S as [->|[->|[->| ->]]]; reflexivity.
    - rewrite all_grey_len. destruct S as [->|[->|[->| ->]]]; reflexivity. }
  rewrite GI. cbn [bind]. assert (PS : 1 <= px_size c <= 4) by (destruct c; cbn; lia). rewrite u32_mul_ok by (unfold u32_max; nia). cbn [bind]. fold (pad_of (w * px_size c)). assert (PP : 0 <= pad_of (w * px_size c) <= 3) by (unfold pad_of; clear; zdm).
  pose proof (colors_range c pal S P) as CR. set (colors := colors_of c pal) in *. set (pad := pad_of (w * px_size c)) in *. assert (DSZ : data_size c w h = w * h * px_size c + h * pad) by (unfold data_size; fold pad; ring).
  assert (0 <= w * h) by nia. assert (0 <= w * h * px_size c) by nia. assert (0 <= h * pad) by nia. assert (w * h <= w * h * px_size c) by nia.
  assert (HD : 40 <= dib_size_of c <= 108) by (destruct c; cbn; lia).
  assert (E1 : obind (u32_cmul w h) (fun v => u32_cmul v (px_size c)) = if w * h * px_size c <=? u32_max then Some (w * h * px_size c) else None).
  { unfold u32_cmul. destruct (Z.leb_spec (w * h) u32_max); cbn [obind]; [reflexivity|]. replace (w * h * px_size c <=? u32_max) with false by lia. reflexivity. }
  rewrite E1. rewrite (u32_mul_ok m h pad) by (unfold u32_max in *; nia). rewrite (u32_mul_ok m colors 4) by (unfold u32_max in *; lia).
  assert (E2 : forall v, obind (obind (u32_cadd 14 (dib_size_of c)) (fun v => u32_cadd v (colors * 4))) (fun x => u32_cadd x v) = u32_cadd (14 + dib_size_of c + colors * 4) v).
  { intros v. unfold u32_cadd. replace (14 + dib_size_of c <=? u32_max) with true by (unfold u32_max in *; lia). cbn [obind]. replace (14 + dib_size_of c + colors * 4 <=? u32_max) with true by (unfold u32_max in *; lia). reflexivity. }
  cbn [bind]. unfold file_size. fold colors. split; intros F.
  - replace (w * h * px_size c <=? u32_max) with true by lia. unfold u32_cadd at 1. replace (w * h * px_size c + h * pad <=? u32_max) with true by lia. cbn [ok_or bind]. rewrite E2. unfold u32_cadd.
    replace (14 + dib_size_of c + colors * 4 + (w * h * px_size c + h * pad) <=? u32_max) with true by lia. cbn [ok_or bind].
    unfold header_of, file_size. fold colors. rewrite DSZ. rewrite (Z.mul_comm 4 colors). destruct S as [->|[->|[->| ->]]]; reflexivity.
  - destruct (w * h * px_size c <=? u32_max); [|eexists; reflexivity]. unfold u32_cadd at 1. destruct (w * h * px_size c + h * pad <=? u32_max); [|eexists; reflexivity]. cbn [ok_or bind]. rewrite E2. unfold u32_cadd.
    replace (14 + dib_size_of c + colors * 4 + (w * h * px_size c + h * pad) <=? u32_max) with false by lia. eexists; reflexivity.
Qed.
(** *** opening the encoder's file *)
Lemma i32_le32 v r : 0 <= v <= i32_max -> read_i32le (le32 v ++ r) = Ok (v, r).
Proof. intros H. unfold read_i32le. rewrite le32_read by (unfold i32_max, u32_max in *; lia). cbn [bind]. do 2 f_equal. unfold wrap_i32, i32_max in *. zdm. Qed.
Definition kind_of (c : ectype) : imtype := match c with XRgb8 => TRGB24 | XRgba8 => TBitfields32 | _ => TPalette end.
Lemma info_forward w h ps isz colors ty it r : 1 <= w <= 65535 -> 1 <= h <= 65535 -> 1 <= ps <= 4 -> 0 <= isz <= u32_max -> 0 <= colors <= 256 -> 0 <= ty <= 3 -> image_type_of false ty (ps * 8) = Ok it ->
  read_info_header false (le32 w ++ le32 h ++ le16 1 ++ le16 (ps * 8) ++ le32 ty ++ le32 isz ++ le32 0 ++ le32 0 ++ le32 colors ++ le32 0 ++ r) = Ok (mkDib w h false it (ps * 8) colors, r).
Proof.
  intros Hw Hh Hp Hi Hc Ht E. unfold read_info_header. rewrite i32_le32 by (unfold i32_max; lia). cbn [bind]. rewrite i32_le32 by (unfold i32_max; lia). cbn [bind]. replace (w <? 0) with false by lia. replace ((65535 <? w) || (65535 <? h)) with false by lia. replace (h =? i32_min) with false by (unfold i32_min; lia).
  replace (h <? 0) with false by lia. cbv zeta. unfold check_for_overflow, num_channels0. replace ((w <=? 0) || (h <=? 0)) with false by lia. replace ((u64_max <? 3 * w) || (u64_max <? 3 * w * h)) with false by (unfold u64_max; nia). cbn [bind].
  rewrite le16_read by (unfold u16_max; lia). cbn [bind]. change (negb (1 =? 1)) with false. cbv iota. rewrite le16_read by (unfold u16_max; lia). cbn [bind]. rewrite le32_read by (unfold u32_max; lia). cbn [bind andb]. rewrite E. cbn [bind].
  rewrite le32_read by lia. cbn [bind]. rewrite le32_read by (unfold u32_max; lia). cbn [bind]. rewrite le32_read by (unfold u32_max; lia). cbn [bind]. rewrite le32_read by (unfold u32_max; lia). cbn [bind]. rewrite le32_read by (unfold u32_max; lia). reflexivity.
Qed.
Lemma palette_forward bits used r : bits = 8 -> 1 <= used <= 256 -> 4 * used <= zlen r -> exists pal, read_palette false bits used r = Ok (pal, 4 * used).
Proof.
  intros -> Hu L. unfold read_palette, get_palette_size. replace (used =? 0) with false by lia. change (31 <? 8) with false. change (2 ^ 8) with 256. replace (256 <? used) with false by lia. cbn [bind]. cbv zeta. change (256 * 4) with 1024. replace (Z.min (used * 4) 1024) with (4 * used) by lia.
  rewrite read_exact_if by lia. replace (4 * used <=? zlen r) with true by lia. cbn [bind]. set (buf := firstn _ r). assert (Lb : zlen buf = 4 * used) by (unfold buf; rewrite zlen_firstn; lia). rewrite Lb.
  set (buf2 := buf ++ repeat 0 (Z.to_nat (1024 - 4 * used))). assert (L2 : zlen buf2 = 1024) by (unfold buf2; rewrite zlen_app, Lb; unfold zlen; rewrite repeat_length; lia). clearbody buf2.
  match goal with |- context [foldM ?f ?l ?s] => destruct (foldM_zrange_inv f (fun _ _ => True) 0 256 s) as (p & E & _); [lia|exact I| |rewrite E] end.
  - intros k s Hk _. rewrite Z.add_0_l. destruct (zget_some buf2 (4 * k) ltac:(lia)) as (a & ->). destruct (zget_some buf2 (4 * k + 1) ltac:(lia)) as (b & ->). destruct (zget_some buf2 (4 * k + 2) ltac:(lia)) as (c & ->). eexists. split; [reflexivity|exact I].
  - cbn [bind]. exists p. do 2 f_equal. lia.
Qed.
Definition off_of (c : ectype) (pal : option (list (list Z))) : Z := 14 + dib_size_of c + 4 * colors_of c pal.
Lemma open_encoded w h c pal body : supported c -> pal_fits c pal -> 1 <= w <= 65535 -> 1 <= h <= 65535 -> file_size c pal w h <= u32_max -> 4 * colors_of c pal <= zlen body ->
  exists palo fso, bmp_new (header_of w h c pal ++ body) 0 = Ok (mkBmp w h (off_of c pal) false (match c with XRgba8 => true | _ => false end) (kind_of c) (px_size c * 8) palo fso false) /\
    (c = XRgba8 -> fso = Some R8_G8_B8_A8) /\
    (is_l8 c = true -> exists p, palo = Some p /\ read_palette false 8 (colors_of c pal) body = Ok (p, 4 * colors_of c pal)).
Proof.
  intros S P Hw Hh F LB. pose proof (colors_range c pal S P) as CR. assert (PS : 1 <= px_size c <= 4) by (destruct c; cbn; lia).
  assert (D0 : 0 <= data_size c w h) by (unfold data_size, pad_of; apply Z.mul_nonneg_nonneg; [lia|]; assert (0 <= (4 - w * px_size c mod 4) mod 4) by (clear; zdm); nia).
  assert (HS : 40 <= dib_size_of c <= 108) by (destruct c; cbn; lia). unfold file_size in F. pose proof F as F'. unfold u32_max in F'.
  set (file := header_of w h c pal ++ body). unfold bmp_new, read_metadata. change (skipn (Z.to_nat 0) file) with file. cbv zeta.
  unfold file at 1. unfold header_of, file_header, dib_header, read_file_header. rewrite <- !app_assoc. rewrite read_exact_app by reflexivity. cbn [bind]. change (negb (leqb [66; 77] [66; 77])) with false. cbv iota.
  rewrite le32_read by (unfold file_size; lia). cbn [bind]. rewrite (app_assoc (le16 0) (le16 0)). change (le16 0 ++ le16 0) with (le32 0). rewrite le32_read by (unfold u32_max; lia). cbn [bind]. rewrite le32_read by (unfold u32_max; lia). cbn [bind]. rewrite le32_read by (unfold u32_max; lia). cbn [bind].
  change (0 + 14) with 14. change (14 + dib_size_of c + 4 * colors_of c pal) with (off_of c pal).
  destruct S as [->|[->|[->| ->]]]; cbn [dib_size_of px_size kind_of is_l8] in *.
  - change (header_type 40) with (Ok HInfo). change (108 <=? 40) with false. cbn [bind app]. rewrite (info_forward w h 3 _ _ 0 TRGB24) by (auto; unfold u32_max in *; lia). cbn [bind di_type di_w di_h di_td di_bits]. eexists None, None. split; [reflexivity|]. split; discriminate.
  - change (header_type 108) with (Ok HV4). change (108 <=? 108) with true. cbn [bind app]. rewrite <- !app_assoc. rewrite (info_forward w h 4 _ _ 3 TBitfields32) by (auto; unfold u32_max in *; lia). cbn [bind di_type di_w di_h di_td di_bits].
    unfold read_bitmasks. rewrite le32_read by (unfold u32_max; lia). cbn [bind]. rewrite le32_read by (unfold u32_max; lia). cbn [bind]. rewrite le32_read by (unfold u32_max; lia). cbn [bind]. rewrite le32_read by (unfold u32_max; lia). cbn [bind].
    replace (bfs_from_mask (255 * 65536) (255 * 256) 255 (255 * 16777216) 32) with (Ok R8_G8_B8_A8) by (vm_compute; reflexivity). cbn [bind]. eexists None, _. split; [reflexivity|]. split; [reflexivity|discriminate].
  - change (header_type 40) with (Ok HInfo). change (108 <=? 40) with false. cbn [bind app]. rewrite (info_forward w h 1 _ _ 0 TPalette) by (auto; unfold u32_max in *; lia). cbn [bind di_type di_w di_h di_td di_bits di_used].
    assert (SK : skipn (Z.to_nat (14 + 40)) file = body) by reflexivity. rewrite SK.
    assert (C1 : 1 <= colors_of XL8 pal) by (unfold colors_of, pal_list; destruct pal; [cbn in *; lia|rewrite all_grey_len; cbn; lia]).
    destruct (palette_forward (1 * 8) (colors_of XL8 pal) body eq_refl ltac:(lia) LB) as (p & EP). rewrite EP. cbn [bind]. exists (Some p), None. split; [reflexivity|]. split; [discriminate|]. intros _. exists p. split; [reflexivity|exact EP].
  - change (header_type 40) with (Ok HInfo). change (108 <=? 40) with false. cbn [bind app]. rewrite (info_forward w h 1 _ _ 0 TPalette) by (auto; unfold u32_max in *; lia). cbn [bind di_type di_w di_h di_td di_bits di_used].
    assert (SK : skipn (Z.to_nat (14 + 40)) file = body) by reflexivity. rewrite SK.
    assert (C1 : 1 <= colors_of XLa8 pal) by (unfold colors_of, pal_list; destruct pal; [cbn in *; lia|rewrite all_grey_len; cbn; lia]).
    destruct (palette_forward (1 * 8) (colors_of XLa8 pal) body eq_refl ltac:(lia) LB) as (p & EP). rewrite EP. cbn [bind]. exists (Some p), None. split; [reflexivity|]. split; [discriminate|]. intros _. exists p. split; [reflexivity|exact EP].
Qed.

Lemma stored_rows_spec px w h pad n : 1 <= w -> 0 <= h -> 1 <= n -> 0 <= pad -> (forall x y, 0 <= x < w -> 0 <= y < h -> zlen (px x y) = n) ->
  zlen (stored_rows px w h pad) = h * (w * n + pad) /\
  forall x j i, 0 <= x < w -> 0 <= j < h -> 0 <= i < n -> byte_at (stored_rows px w h pad) (j * (w * n + pad) + x * n + i) = byte_at (px x (h - 1 - j)) i.
Proof.
  intros Hw Hh Hn Hp H. assert (R : forall j, 0 <= j < h -> zlen (flat_map (fun x => px x (h - 1 - j)) (zrange 0 w)) = n * w /\ forall k, 0 <= k < n * w -> exists a, zget (zrange 0 w) (k / n) = Some a /\ zget (flat_map (fun x => px x (h - 1 - j)) (zrange 0 w)) k = zget (px a (h - 1 - j)) (k mod n)).
  { intros j Hj. destruct (zget_flat_map (fun x => px x (h - 1 - j)) n (zrange 0 w) ltac:(lia)) as (A & B); [apply Forall_forall; intros x Hx; apply In_zrange in Hx; apply H; lia|]. rewrite zlen_zrange in A, B. replace (Z.max 0 w) with w in A, B by lia. auto. }
  set (st := w * n + pad). assert (ST : 1 <= st) by (unfold st; nia).
  destruct (zget_flat_map (fun j => flat_map (fun x => px x (h - 1 - j)) (zrange 0 w) ++ repeat 0 (Z.to_nat pad)) st (zrange 0 h) ltac:(lia)) as (A & B).
  { apply Forall_forall. intros j Hj. apply In_zrange in Hj. destruct (R j ltac:(lia)) as (R1 & _). rewrite zlen_app, R1. unfold zlen. rewrite repeat_length. unfold st. nia. }
  rewrite zlen_zrange in A, B. replace (Z.max 0 h) with h in A, B by lia. fold (stored_rows px w h pad) in A, B. split; [rewrite A; ring|]. intros x j i Hx Hj Hi.
  assert (XN : 0 <= x * n /\ x * n + n <= w * n) by nia. assert (JS : 0 <= j * st /\ j * st + st <= st * h) by nia. set (k := j * st + x * n + i). assert (KS : 0 <= x * n + i < st) by (unfold st; lia).
  destruct (B k ltac:(unfold k; lia)) as (j' & E1 & E2). assert (KD : k / st = j) by (unfold k; replace (j * st + x * n + i) with ((x * n + i) + j * st) by ring; rewrite Z.div_add, Z.div_small by lia; lia).
  assert (KM : k mod st = x * n + i) by (unfold k; replace (j * st + x * n + i) with ((x * n + i) + j * st) by ring; rewrite Z.mod_add, Z.mod_small by lia; lia). rewrite KD, zget_zrange in E1 by lia. apply Some_inj in E1. subst j'. rewrite KM, Z.add_0_l in E2.
  unfold byte_at. rewrite E2. destruct (R j Hj) as (R1 & R2). rewrite zget_app by lia. rewrite R1. replace (x * n + i <? n * w) with true by lia. destruct (R2 (x * n + i) ltac:(lia)) as (x' & E3 & E4).
  replace ((x * n + i) / n) with x in E3 by (rewrite (Z.add_comm (x * n)), Z.div_add, Z.div_small by lia; lia). rewrite zget_zrange in E3 by lia. apply Some_inj in E3. subst x'. rewrite E4. rewrite Z.add_0_l. replace ((x * n + i) mod n) with i by (rewrite (Z.add_comm (x * n)), Z.mod_add, Z.mod_small by lia; lia). reflexivity.
Qed.
Lemma byte_at_app a b k : 0 <= k -> byte_at (a ++ b) (zlen a + k) = byte_at b k.
Proof. intros Hk. unfold byte_at. pose proof (zlen_nonneg a). rewrite zget_app by lia. replace (zlen a + k <? zlen a) with false by lia. do 2 f_equal. replace (zlen a + k - zlen a) with k by lia. reflexivity. Qed.
Lemma byte_at_app1 a b k : 0 <= k < zlen a -> byte_at (a ++ b) k = byte_at a k.
Proof. intros Hk. unfold byte_at. rewrite zget_app by lia. replace (k <? zlen a) with true by lia. reflexivity. Qed.
Lemma byte_at_zslice l a n i : 0 <= a -> 0 <= i < n -> byte_at (zslice l a n) i = byte_at l (a + i).
Proof. intros Ha Hi. unfold byte_at. rewrite zget_zslice_gen by lia. replace ((0 <=? i) && (i <? n)) with true by lia. reflexivity. Qed.
Lemma header_len w h c pal : supported c -> zlen (header_of w h c pal) = 14 + dib_size_of c.
Proof. intros [->|[->|[->| ->]]]; reflexivity. Qed.
Lemma bytes_le32 v : bytes (le32 v).
Proof. unfold le32, bytes. repeat constructor; unfold is_u8, u8_max; zdm. Qed.
Lemma bytes_le16 v : bytes (le16 v).
Proof. unfold le16, bytes. repeat constructor; unfold is_u8, u8_max; zdm. Qed.
Lemma bytes_header w h c pal : bytes (header_of w h c pal).
Proof.
  unfold header_of, file_header, dib_header. rewrite !bytes_app. repeat match goal with |- _ /\ _ => split end; try apply bytes_le32; try apply bytes_le16; [repeat constructor; unfold is_u8, u8_max; lia|].
  destruct (_ <=? _); [|constructor]. rewrite !bytes_app. repeat match goal with |- _ /\ _ => split end; try apply bytes_le32. apply bytes_concat. apply Forall_forall. intros x Hx. apply repeat_spec in Hx. subst. apply bytes_le32.
Qed.
Lemma bytes_flat {A} (f : A -> list Z) l : (forall a, In a l -> bytes (f a)) -> bytes (flat_map f l).
Proof. induction l; intros H; cbn [flat_map]; [constructor|]. apply bytes_app. split; [apply H; left; reflexivity|apply IHl; intros; apply H; right; assumption]. Qed.
Lemma bytes_zeros n : bytes (repeat 0 n).
Proof. apply Forall_forall. intros x Hx. apply repeat_spec in Hx. subst. unfold is_u8, u8_max; lia. Qed.
Lemma bytes_stored px w h pad : (forall x y, 0 <= x < w -> 0 <= y < h -> bytes (px x y)) -> bytes (stored_rows px w h pad).
Proof. intros H. unfold stored_rows. apply bytes_flat. intros j Hj. apply In_zrange in Hj. apply bytes_app. split; [|apply bytes_zeros]. apply bytes_flat. intros x Hx. apply In_zrange in Hx. apply H; lia. Qed.
Lemma raster_image image w h n : 0 <= w -> 0 <= h -> 1 <= n -> zlen image = n * w * h -> raster w h (fun x y => zslice image ((y * w + x) * n) n) = image.
Proof.
  intros Hw Hh Hn L. rewrite raster_rows. transitivity (concat (map (fun y => zslice image (0 + y * (w * n)) (w * n)) (zrange 0 h))).
  - f_equal. apply map_ext_in. intros y Hy. apply In_zrange in Hy. rewrite <- (concat_slices n image (0 + y * (w * n)) w) by nia. f_equal. apply map_ext. intros x. f_equal. ring.
  - rewrite concat_slices by nia. replace (h * (w * n)) with (zlen image) by (rewrite L; ring). apply zslice_full; lia.
Qed.
(** *** round trips *)
Definition rd (c : ectype) : Z := match c with XRgb8 => 3 | XRgba8 => 4 | _ => 3 end.
Lemma three_bytes (l : list Z) : zlen l = 3 -> l = [byte_at l 0; byte_at l 1; byte_at l 2].
Proof. intros L. destruct (list3 l L) as (a & b & c & ->). reflexivity. Qed.
Lemma four_bytes (l : list Z) : zlen l = 4 -> l = [byte_at l 0; byte_at l 1; byte_at l 2; byte_at l 3].
Proof. intros L. destruct (list4 l L) as (a & b & c & d & ->). reflexivity. Qed.
Lemma zslice_len_in (image : list Z) w h n x y : 0 <= x < w -> 0 <= y < h -> 1 <= n -> zlen image = n * w * h -> 0 <= (y * w + x) * n /\ zlen (zslice image ((y * w + x) * n) n) = n.
Proof.
  intros Hx Hy Hn L. assert (0 <= y * w + x) by nia. assert (y * w + x + 1 <= w * h) by nia. assert (0 <= (y * w + x) * n) by nia. assert ((y * w + x + 1) * n <= w * h * n) by (apply Z.mul_le_mono_nonneg_r; lia). split; [lia|]. rewrite zlen_zslice_gen. lia.
Qed.
Lemma pad_stride (w ps : Z) : w * ps + pad_of (w * ps) = 4 * ((ps * 8 * w + 31) / 32).
Proof. unfold pad_of. replace (ps * 8 * w + 31) with (w * ps * 8 + 31) by ring. generalize (w * ps). clear. intros k. zdm. Qed.
Definition bgr_of (p : list Z) : list Z := [byte_at p 2; byte_at p 1; byte_at p 0].
Definition bgra_of (p : list Z) : list Z := [byte_at p 2; byte_at p 1; byte_at p 0; byte_at p 3].
Lemma round_rgb m image w h file : 1 <= w <= 65535 -> 1 <= h <= 65535 -> bytes image -> zlen image = 3 * w * h -> bmp_encode m image w h XRgb8 None = Ok file ->
  exists d, bmp_new file 0 = Ok d /\ b_w d = w /\ b_h d = h /\ bmp_color d = CRgb8 /\ forall buf, zlen buf = 3 * w * h -> bmp_read_image file d buf = Ok image.
Proof.
  intros Hw Hh B L E. destruct (encode_shape m image w h XRgb8 None ltac:(red; auto) I Hw Hh L) as (E1 & E2).
  destruct (Z_le_gt_dec (file_size XRgb8 None w h) u32_max) as [F|F]; [|destruct (E2 ltac:(lia)) as (e & E3); congruence]. specialize (E1 F). rewrite E in E1. symmetry in E1. apply bind_ok in E1 as (body & EB & E1). apply Ok_inj in E1. subst file.
  cbn [body_of px_size] in EB. rewrite (encode_color_ok bgr bgr_of) in EB; [|lia|lia|lia|exact L|intros p Lp; destruct (list3 p Lp) as (a & b & c & ->); reflexivity]. apply Ok_inj in EB.
  set (px := fun x y => bgr_of (zslice image ((y * w + x) * 3) 3)) in *. set (pad := pad_of (w * 3)) in *. assert (Hpad : 0 <= pad) by (unfold pad, pad_of; clear; zdm).
  assert (PX : forall x y, 0 <= x < w -> 0 <= y < h -> zlen (px x y) = 3) by (intros; reflexivity). destruct (stored_rows_spec px w h pad 3 ltac:(lia) ltac:(lia) ltac:(lia) Hpad PX) as (SL & SB). rewrite EB in SL, SB.
  destruct (open_encoded w h XRgb8 None body ltac:(red; auto) I Hw Hh F ltac:(cbn; apply zlen_nonneg)) as (palo & fso & EO & _). eexists. split; [exact EO|]. split; [reflexivity|]. split; [reflexivity|]. split; [reflexivity|]. intros buf LBuf.
  assert (BF : bytes (header_of w h XRgb8 None ++ body)).
  { apply bytes_app. split; [apply bytes_header|]. rewrite <- EB. apply bytes_stored. intros x y Hx Hy. unfold px, bgr_of. assert (forall i, is_u8 (byte_at (zslice image ((y * w + x) * 3) 3) i)) by (intros i; apply (byte_at_range); apply Forall_zslice; exact B). repeat constructor; apply H. }
  pose proof (wellformed_metadata _ 0 false false _ BF ltac:(lia) EO) as WF. rewrite uncompressed_meaning; [|exact BF|exact WF|reflexivity|exact LBuf].
  set (d := mkBmp _ _ _ _ _ _ _ _ _ _) in *. assert (SD : stride d = w * 3 + pad) by (unfold stride, d; cbn [b_bits b_w px_size]; rewrite pad_stride; reflexivity).
  assert (OFF : b_off d = zlen (header_of w h XRgb8 None)) by reflexivity. rewrite SD. change (b_h d) with h. change (b_w d) with w. rewrite zlen_app, OFF. rewrite SL. rewrite OFF || idtac. match goal with |- (if ?c then _ else _) = _ => replace c with true by lia end. f_equal.
  rewrite <- (raster_image image w h 3) by lia. apply raster_ext. intros x y Hx Hy. unfold stored_pixel, stored_row. cbn [b_type d kind_of b_alpha b_top_down b_h]. rewrite SD. fold d. rewrite OFF. rewrite app_nil_r.
  destruct (zslice_len_in image w h 3 x y Hx Hy ltac:(lia) L) as (A1 & A2). rewrite (three_bytes _ A2).
  assert (J : 0 <= (h - 1 - y) * (w * 3 + pad)) by (apply Z.mul_nonneg_nonneg; lia).
  replace (zlen (header_of w h XRgb8 None) + (h - 1 - y) * (w * 3 + pad) + 3 * x) with (zlen (header_of w h XRgb8 None) + ((h - 1 - y) * (w * 3 + pad) + x * 3)) by ring.
  rewrite <- !Z.add_assoc. rewrite !byte_at_app by lia. rewrite !Z.add_assoc. rewrite (SB x (h - 1 - y) 2), (SB x (h - 1 - y) 1) by lia. specialize (SB x (h - 1 - y) 0 Hx ltac:(lia) ltac:(lia)). rewrite Z.add_0_r in SB. rewrite SB. unfold px. replace (h - 1 - (h - 1 - y)) with y by lia. reflexivity.
Qed.
Lemma round_rgba m image w h file : 1 <= w <= 65535 -> 1 <= h <= 65535 -> bytes image -> zlen image = 4 * w * h -> bmp_encode m image w h XRgba8 None = Ok file ->
  exists d, bmp_new file 0 = Ok d /\ b_w d = w /\ b_h d = h /\ bmp_color d = CRgba8 /\ forall buf, zlen buf = 4 * w * h -> bmp_read_image file d buf = Ok image.
Proof.
  intros Hw Hh B L E. destruct (encode_shape m image w h XRgba8 None ltac:(red; auto) I Hw Hh L) as (E1 & E2).
  destruct (Z_le_gt_dec (file_size XRgba8 None w h) u32_max) as [F|F]; [|destruct (E2 ltac:(lia)) as (e & E3); congruence]. specialize (E1 F). rewrite E in E1. symmetry in E1. apply bind_ok in E1 as (body & EB & E1). apply Ok_inj in E1. subst file.
  cbn [body_of px_size] in EB. rewrite (encode_color_ok bgra bgra_of) in EB; [|lia|lia|lia|exact L|intros p Lp; destruct (list4 p Lp) as (a & b & c & d & ->); reflexivity]. apply Ok_inj in EB.
  set (px := fun x y => bgra_of (zslice image ((y * w + x) * 4) 4)) in *. set (pad := pad_of (w * 4)) in *. assert (Hpad : 0 <= pad) by (unfold pad, pad_of; clear; zdm).
  assert (PX : forall x y, 0 <= x < w -> 0 <= y < h -> zlen (px x y) = 4) by (intros; reflexivity). destruct (stored_rows_spec px w h pad 4 ltac:(lia) ltac:(lia) ltac:(lia) Hpad PX) as (SL & SB). rewrite EB in SL, SB.
  destruct (open_encoded w h XRgba8 None body ltac:(red; auto) I Hw Hh F ltac:(cbn; apply zlen_nonneg)) as (palo & fso & EO & FS & _). specialize (FS eq_refl). subst fso. eexists. split; [exact EO|]. split; [reflexivity|]. split; [reflexivity|]. split; [reflexivity|]. intros buf LBuf.
  assert (BF : bytes (header_of w h XRgba8 None ++ body)).
  { apply bytes_app. split; [apply bytes_header|]. rewrite <- EB. apply bytes_stored. intros x y Hx Hy. unfold px, bgra_of. assert (forall i, is_u8 (byte_at (zslice image ((y * w + x) * 4) 4) i)) by (intros i; apply (byte_at_range); apply Forall_zslice; exact B). repeat constructor; apply H. }
  pose proof (wellformed_metadata _ 0 false false _ BF ltac:(lia) EO) as WF. rewrite uncompressed_meaning; [|exact BF|exact WF|reflexivity|exact LBuf].
  set (d := mkBmp _ _ _ _ _ _ _ _ _ _) in *. assert (SD : stride d = w * 4 + pad) by (unfold stride, d; cbn [b_bits b_w px_size]; rewrite pad_stride; reflexivity).
  assert (OFF : b_off d = zlen (header_of w h XRgba8 None)) by reflexivity. rewrite SD. change (b_h d) with h. change (b_w d) with w. rewrite zlen_app, OFF. rewrite SL. match goal with |- (if ?c then _ else _) = _ => replace c with true by lia end. f_equal.
  rewrite <- (raster_image image w h 4) by lia. apply raster_ext. intros x y Hx Hy. unfold stored_pixel, stored_row. cbn [b_type d kind_of b_alpha b_top_down b_h b_fields]. rewrite SD. fold d. rewrite OFF. rewrite <- full_8888 by exact BF. unfold full_at. cbv zeta. cbn [app].
  destruct (zslice_len_in image w h 4 x y Hx Hy ltac:(lia) L) as (A1 & A2). rewrite (four_bytes _ A2).
  assert (J : 0 <= (h - 1 - y) * (w * 4 + pad)) by (apply Z.mul_nonneg_nonneg; lia).
  replace (zlen (header_of w h XRgba8 None) + (h - 1 - y) * (w * 4 + pad) + 4 * x) with (zlen (header_of w h XRgba8 None) + ((h - 1 - y) * (w * 4 + pad) + x * 4)) by ring.
  rewrite <- !Z.add_assoc. rewrite !byte_at_app by lia. rewrite !Z.add_assoc. rewrite (SB x (h - 1 - y) 2), (SB x (h - 1 - y) 1), (SB x (h - 1 - y) 3) by lia. specialize (SB x (h - 1 - y) 0 Hx ltac:(lia) ltac:(lia)). rewrite Z.add_0_r in SB. rewrite SB. unfold px. replace (h - 1 - (h - 1 - y)) with y by lia. reflexivity.
Qed.
Lemma round_gray m image w h c pal file : c = XL8 \/ c = XLa8 -> pal_fits c pal -> 1 <= w <= 65535 -> 1 <= h <= 65535 -> bytes image -> zlen image = src_size c * w * h -> src_size c * w * h <= u32_max + 1 ->
  bmp_encode m image w h c pal = Ok file ->
  exists d, bmp_new file 0 = Ok d /\ b_w d = w /\ b_h d = h /\ bmp_color d = CRgb8 /\
    forall buf, zlen buf = 3 * w * h -> bmp_read_image file d buf = Ok (raster w h (fun x y => nth (Z.to_nat (byte_at image ((y * w + x) * src_size c))) (pal_list pal) [0; 0; 0])).
Proof.
  intros Hc PF Hw Hh B L U E. assert (SU : supported c) by (unfold supported; tauto). destruct (encode_shape m image w h c pal SU PF Hw Hh L) as (E1 & E2).
  destruct (Z_le_gt_dec (file_size c pal w h) u32_max) as [F|F]; [|destruct (E2 ltac:(lia)) as (e & E3); congruence]. specialize (E1 F). rewrite E in E1. symmetry in E1. apply bind_ok in E1 as (body & EB & E1). apply Ok_inj in E1. subst file. clear E E2.
  assert (P3 : Forall (fun q => zlen q = 3 /\ bytes q) (pal_list pal)).
  { unfold pal_list. destruct pal as [p|]; [apply PF|]. unfold all_grey. apply Forall_map_iff. apply Forall_forall. intros v Hv. apply In_zrange in Hv. split; [reflexivity|]. repeat constructor; unfold u8_max; lia. }
  assert (PS : px_size c = 1 /\ is_l8 c = true /\ kind_of c = TPalette /\ dib_size_of c = 40 /\ (match c with XRgba8 => true | _ => false end) = false /\ 1 <= src_size c) by (destruct Hc as [->| ->]; cbn; repeat split; lia). destruct PS as (PS & IL & KO & DS & NA & SS).
  set (pb := flat_map (fun q => rev q ++ [0]) (pal_list pal)). set (pad := pad_of (w * 1)). set (px := fun x y => [byte_at image ((y * w + x) * src_size c)]).
  assert (EB' : body = pb ++ stored_rows px w h pad).
  { assert (PP : forall p, pal = Some p -> Forall (fun q => zlen q = 3) p) by (intros p ->; cbn in PF; destruct PF as (_ & _ & PF); eapply Forall_impl; [|exact PF]; intros q [Q _]; exact Q).
    destruct Hc as [->| ->]; cbn [body_of px_size src_size] in *; rewrite encode_gray_ok in EB; auto; apply Ok_inj in EB; rewrite <- EB; reflexivity. } clear EB.
  destruct (zget_flat_map (fun q => rev q ++ [0]) 4 (pal_list pal) ltac:(lia)) as (PL & PG).
  { eapply Forall_impl; [|exact P3]. intros q [Q _]. rewrite zlen_app. unfold zlen in *. rewrite rev_length. cbn. lia. }
  fold pb in PL, PG. assert (CO : colors_of c pal = zlen (pal_list pal)) by (unfold colors_of; rewrite IL; reflexivity).
  assert (Hpad : 0 <= pad) by (unfold pad, pad_of; clear; zdm). assert (PX : forall x y, 0 <= x < w -> 0 <= y < h -> zlen (px x y) = 1) by (intros; reflexivity). destruct (stored_rows_spec px w h pad 1 ltac:(lia) ltac:(lia) ltac:(lia) Hpad PX) as (SL & SB).
  destruct (open_encoded w h c pal body SU PF Hw Hh F) as (palo & fso & EO & _ & PO). { rewrite EB', zlen_app, CO, PL. pose proof (zlen_nonneg (stored_rows px w h pad)). lia. }
  destruct (PO IL) as (p & -> & EP). clear PO. rewrite KO, PS, NA in EO. eexists. split; [exact EO|]. split; [reflexivity|]. split; [reflexivity|]. split; [reflexivity|]. intros buf LBuf.
  assert (BB : bytes body).
  { rewrite EB'. apply bytes_app. split; [unfold pb; apply bytes_flat; intros q Hq; rewrite Forall_forall in P3; destruct (P3 q Hq) as [_ Bq]; apply bytes_app; split; [apply Forall_rev; exact Bq|repeat constructor; unfold u8_max; lia]|].
    apply bytes_stored. intros x y Hx Hy. unfold px. repeat constructor; apply (byte_at_range image ((y * w + x) * src_size c) B). }
  assert (BF : bytes (header_of w h c pal ++ body)) by (apply bytes_app; split; [apply bytes_header|exact BB]).
  pose proof (wellformed_metadata _ 0 false false _ BF ltac:(lia) EO) as WF. rewrite uncompressed_meaning; [|exact BF|exact WF|reflexivity|exact LBuf].
  set (d := mkBmp _ _ _ _ _ _ _ _ _ _) in *. assert (SD : stride d = w * 1 + pad) by (unfold stride, d; cbn [b_bits b_w]; change (1 * 8 * w) with (1 * 8 * w); rewrite <- pad_stride; reflexivity).
  assert (HL : zlen (header_of w h c pal) = 54) by (rewrite header_len by exact SU; rewrite DS; reflexivity).
  assert (OFF : b_off d = 54 + 4 * zlen (pal_list pal)) by (unfold d; cbn [b_off]; unfold off_of; rewrite DS, CO; reflexivity). pose proof (zlen_nonneg (pal_list pal)) as PN.
  rewrite SD. change (b_h d) with h. change (b_w d) with w. rewrite zlen_app, OFF, HL, EB', zlen_app, PL, SL. match goal with |- (if ?c then _ else _) = _ => replace c with true by lia end. f_equal.
  apply raster_ext. intros x y Hx Hy. unfold stored_pixel, stored_row. cbn [b_type d b_alpha b_top_down b_h b_pal b_bits]. rewrite SD. fold d. rewrite OFF. rewrite app_nil_r. change (1 * 8) with 8.
  assert (IX : index_at (header_of w h c pal ++ body) 8 (54 + 4 * zlen (pal_list pal) + (h - 1 - y) * (w * 1 + pad)) x = byte_at image ((y * w + x) * src_size c)).
  { unfold index_at. replace (x * 8 / 8) with x by (clear; zdm). replace (x * 8 mod 8) with 0 by (clear; zdm). change (8 - 8 - 0) with 0. change (2 ^ 0) with 1. rewrite Z.div_1_r. change (2 ^ 8) with 256.
    assert (J : 0 <= (h - 1 - y) * (w * 1 + pad)) by (apply Z.mul_nonneg_nonneg; lia).
    replace (54 + 4 * zlen (pal_list pal) + (h - 1 - y) * (w * 1 + pad) + x) with (zlen (header_of w h c pal) + (zlen pb + ((h - 1 - y) * (w * 1 + pad) + x * 1 + 0))) by (rewrite HL, PL; ring). pose proof (zlen_nonneg pb).
    rewrite byte_at_app by lia. rewrite EB', byte_at_app by lia. rewrite SB by lia. unfold px. replace (h - 1 - (h - 1 - y)) with y by lia. change (byte_at [byte_at image ((y * w + x) * src_size c)] 0) with (byte_at image ((y * w + x) * src_size c)).
    pose proof (byte_at_range image ((y * w + x) * src_size c) B). apply Z.mod_small. lia. }
  rewrite EB' in IX. rewrite IX. set (v := byte_at image _) in *. assert (Hv : 0 <= v <= 255) by (apply byte_at_range; exact B). clearbody v. clear IX.
  assert (C1 : 1 <= zlen (pal_list pal) <= 256) by (unfold pal_list; destruct pal as [q|]; [apply PF|rewrite all_grey_len; lia]).
  rewrite <- (skipn_O body) in EP. change 0%nat with (Z.to_nat 0) in EP. fold (at_ body 0) in EP. apply palette_inv in EP; [|exact BB|lia|auto|lia]. destruct EP as (P1 & _ & P2). unfold colour_of. rewrite P2 by lia. rewrite CO. replace (zlen (pal_list pal) =? 0) with false by lia. cbv zeta.
  destruct (Z.ltb_spec v (zlen (pal_list pal))) as [VL|VL].
  - destruct (zget_some (pal_list pal) v ltac:(lia)) as (q & EQ). assert (NQ : nth (Z.to_nat v) (pal_list pal) [0; 0; 0] = q) by (unfold zget in EQ; replace (v <? 0) with false in EQ by lia; apply nth_error_nth; exact EQ). rewrite NQ.
    assert (Q3 : zlen q = 3) by (rewrite Forall_forall in P3; apply (P3 q); eapply zget_In; eassumption).
    assert (GB : forall i, 0 <= i < 3 -> byte_at body (0 + 4 * v + i) = byte_at q (2 - i)).
    { intros i Hi. rewrite EB'. rewrite byte_at_app1 by lia. unfold byte_at at 1. destruct (PG (0 + 4 * v + i) ltac:(lia)) as (q' & G1 & ->). replace ((0 + 4 * v + i) / 4) with v in G1 by (clear - Hi; zdm). rewrite EQ in G1. apply Some_inj in G1. subst q'. replace ((0 + 4 * v + i) mod 4) with i by (clear - Hi; zdm).
      destruct (list3 q Q3) as (a & b & c0 & ->). assert (i = 0 \/ i = 1 \/ i = 2) as [->|[->| ->]] by lia; reflexivity. }
    pose proof (GB 0 ltac:(lia)) as G0. rewrite Z.add_0_r in G0. rewrite G0, (GB 1), (GB 2) by lia. symmetry. apply three_bytes. exact Q3.
  - rewrite nth_overflow by (unfold zlen in VL; lia). reflexivity.
Qed.
