(** C65: OpenEXR: layer selection, placement of the data window in the display window, and the lossless round trip. *)
From Coq Require Import ZArith Bool List Lia.
From Verif Require Import Base BaseLemmas ListLemmas ListMore Color ColorProofs GenImage ColorType Tiff Exr ExrProofs.
Import ListNotations.
Local Open Scope Z_scope.

(** the decoder takes the first header that is not deep and has channels R, G and B, and reports an error exactly when there is none; without a preference
    the image has an alpha channel exactly when that header has a channel A *)
Definition colour_layer (h : exr_header) : Prop := hd_deep h = false /\ In [82] (hd_channels h) /\ In [71] (hd_channels h) /\ In [66] (hd_channels h).
Lemma has_channel_in : forall h n, has_channel h n = true <-> In n (hd_channels h).
Proof.
  intros h n. unfold has_channel. rewrite existsb_exists. split.
  - intros (x & I & E). apply leqb_eq in E. subst. exact I.
  - intros I. exists n. split; [exact I|apply leqb_refl].
Qed.
Lemma usable_layer : forall h, usable h = true <-> colour_layer h.
Proof.
  intros h. unfold usable, colour_layer. cbn [forallb]. rewrite !andb_true_iff, negb_true_iff, !has_channel_in. tauto.
Qed.
Lemma unusable_layer : forall h, usable h = false <-> ~ colour_layer h.
Proof. intros h. rewrite <- usable_layer. destruct (usable h); split; congruence. Qed.
Theorem C65_layer : forall hs pref,
  (forall d, exr_open hs pref = Ok d ->
     zget hs (x_index d) = Some (x_header d) /\ colour_layer (x_header d) /\ (forall i h, 0 <= i < x_index d -> zget hs i = Some h -> ~ colour_layer h) /\
     (x_alpha d = true <-> In [65] (hd_channels (x_header d))) /\
     (pref = Some true -> exr_color d = CRgba32F) /\ (pref = Some false -> exr_color d = CRgb32F) /\
     (pref = None -> In [65] (hd_channels (x_header d)) -> exr_color d = CRgba32F) /\
     (pref = None -> ~ In [65] (hd_channels (x_header d)) -> exr_color d = CRgb32F)) /\
  ((forall h, In h hs -> ~ colour_layer h) <-> exr_open hs pref = Err EDecoding).
Proof.
  intros hs pref.
  assert (P : forall l k, match position k l with
     | Some (i, h) => k <= i /\ zget l (i - k) = Some h /\ usable h = true /\ (forall j g, 0 <= j < i - k -> zget l j = Some g -> usable g = false)
     | None => forall h, In h l -> usable h = false end).
  { induction l as [|h l IH]; intros k; cbn [position]; [intros h []|]. destruct (usable h) eqn:U.
    - split; [lia|]. rewrite Z.sub_diag. split; [reflexivity|]. split; [exact U|]. intros j g Hj. lia.
    - specialize (IH (k + 1)). destruct (position (k + 1) l) as [(i, g)|].
      + destruct IH as (L & G & UG & F). split; [lia|]. rewrite zget_cons. replace (i - k =? 0) with false by lia. replace (i - k - 1) with (i - (k + 1)) by lia. split; [exact G|]. split; [exact UG|].
        intros j g' Hj. rewrite zget_cons. destruct (j =? 0) eqn:J; [intros E; apply Some_inj in E; subst; exact U|]. apply F. lia.
      + intros g [<-|I]; [exact U|apply IH; exact I]. }
  specialize (P hs 0). unfold exr_open. destruct (position 0 hs) as [(i, h)|].
  - destruct P as (L & G & U & F). rewrite Z.sub_0_r in *. split.
    + intros d E. apply Ok_inj in E. subst d. cbn [x_index x_header x_alpha]. split; [exact G|]. split; [apply usable_layer; exact U|]. split; [intros j g Hj Hg; apply unusable_layer; apply (F j g); [lia|exact Hg]|]. split; [apply has_channel_in|]. unfold exr_color. cbn [x_pref x_alpha].
      split; [intros ->; reflexivity|]. split; [intros ->; reflexivity|]. split; intros ->; rewrite <- has_channel_in; destruct (has_channel h [65]); congruence.
    + split; [|discriminate]. intros A. exfalso. apply zget_In in G. apply (A h G). apply usable_layer. exact U.
  - split; [intros d E; discriminate|]. split; [reflexivity|]. intros _ g I. apply unusable_layer. apply P. exact I.
Qed.

(** Decoding.  ps is what the exr crate delivers, in any order: the position of a pixel in the data window and its samples r, g, b, a.
    The result is the display window: the pixel at (X, Y) is the one delivered for the data position (X, Y) - offset, where offset is the layer's
    position relative to the display window, or zero (all samples, alpha included) if none was.  Pixels outside the display window are dropped.
    No overflow of the 32-bit sums can misplace a pixel. *)
Definition offx (d : exr_dec) : Z := lay_x (x_header d) - dw_x (x_header d).
Definition offy (d : exr_dec) : Z := lay_y (x_header d) - dw_y (x_header d).
Theorem C65_decode : forall m big d ps bytes,
  let w := dw_w (x_header d) in let h := dw_h (x_header d) in let ch := ct_channels (exr_color d) in
  0 <= w <= i32_max -> 0 <= h <= i32_max -> is_i32 (offx d) -> is_i32 (offy d) ->
  (forall x y s, In ((x, y), s) ps -> 0 <= x <= i32_max /\ 0 <= y <= i32_max /\ zlen s = 4 /\ (m = Debug -> x + offx d <= i32_max /\ y + offy d <= i32_max)) ->
  (forall x y s s', In ((x, y), s) ps -> In ((x, y), s') ps -> s = s') ->
  zlen bytes = w * h * ch * 4 -> zlen bytes <= i64_max ->
  exists out, exr_read m big d (Ok ps) bytes = Ok out /\ zlen out = zlen bytes /\
    forall X Y c, 0 <= X < w -> 0 <= Y < h -> 0 <= c < ch ->
      (forall s v, In ((X - offx d, Y - offy d), s) ps -> zget s c = Some v -> zslice out (((Y * w + X) * ch + c) * 4) 4 = pat_bytes big v) /\
      ((forall s, ~ In ((X - offx d, Y - offy d), s) ps) -> zslice out (((Y * w + X) * ch + c) * 4) 4 = [0; 0; 0; 0]).
Proof.
  intros m big d ps bytes w h ch Hw Hh Hx Hy HD HF HL HM.
  assert (Hc : 1 <= ch <= 4) by (unfold ch, exr_color; destruct (match x_pref d with Some b => b | None => x_alpha d end); cbn; lia).
  assert (HB : ct_bytes (exr_color d) = ch * 4) by (unfold ch, exr_color; destruct (match x_pref d with Some b => b | None => x_alpha d end); reflexivity).
  set (z0 := repeat 0 (Z.to_nat (w * h * ch))). assert (HW : 0 <= w * h) by (apply Z.mul_nonneg_nonneg; lia).
  assert (LZ : zlen z0 = w * h * ch) by (unfold z0; rewrite zlen_repeat; nia).
  destruct (place_loop m w h ch (offx d) (offy d) Hw Hh Hc Hx Hy ps z0 LZ) as (buf & EB & LB & PB).
  { intros ((x, y), s) I. exact (HD x y s I). }
  exists (flat_map (pat_bytes big) buf). split; [|split].
  - unfold exr_read. cbv zeta. fold (offx d) (offy d). rewrite !i32_m_in by assumption. cbn [bind]. unfold exr_dims. fold w h ch.
    replace (wrap_u32 w) with w by (unfold wrap_u32, i32_max in *; rewrite Z.mod_small by lia; reflexivity). replace (wrap_u32 h) with h by (unfold wrap_u32, i32_max in *; rewrite Z.mod_small by lia; reflexivity).
    rewrite HB. unfold cmul. assert (w * h <= w * h * ch * 4) by nia. unfold i64_max in HM. unfold u64_max. replace (w * h <=? 18446744073709551615) with true by lia. replace (w * h * (ch * 4)) with (w * h * ch * 4) by lia. replace (w * h * ch * 4 <=? 18446744073709551615) with true by lia.
    replace (zlen bytes =? w * h * ch * 4) with true by lia. cbn [negb]. cbn [bind]. fold z0. rewrite EB. cbn [bind]. unfold copy_from. rewrite flat_pat_len. replace (zlen bytes =? zlen buf * 4) with true by lia. reflexivity.
  - rewrite flat_pat_len. lia.
  - intros X Y c HX HY HC. destruct (PB X Y c HX HY HC) as (A & B). split.
    + intros s v I V. apply flat_pat_slice. rewrite <- V. apply (A ((X - offx d, Y - offy d), s) I); [split; cbn [fst snd]; lia|]. intros ((x, y), s') I' (E1 & E2). cbn [fst snd] in *. apply (HF (X - offx d) (Y - offy d)); [|exact I]. replace (X - offx d) with x by lia. replace (Y - offy d) with y by lia. exact I'.
    + intros N. change [0; 0; 0; 0] with (le32 0). replace (le32 0) with (pat_bytes big 0) by (destruct big; reflexivity). apply flat_pat_slice. rewrite B.
      * unfold z0. apply zget_repeat. pose proof (area_idx w h X Y HX HY). nia.
      * intros ((x, y), s) I (E1 & E2). cbn [fst snd] in *. apply (N s). replace (X - offx d) with x by lia. replace (Y - offy d) with y by lia. exact I.
Qed.
(** a buffer of any other size makes read_image panic, and an error of the exr crate is passed on *)
Theorem C65_buffer : forall m big d ps bytes,
  let w := dw_w (x_header d) in let h := dw_h (x_header d) in
  0 <= w <= i32_max -> 0 <= h <= i32_max -> is_i32 (offx d) -> is_i32 (offy d) ->
  (zlen bytes <> w * h * ct_bytes (exr_color d) -> exr_read m big d ps bytes = Panic) /\
  (zlen bytes = w * h * ct_bytes (exr_color d) -> zlen bytes <= i64_max -> forall e, exr_read m big d (Err e) bytes = Err e).
Proof.
  intros m big d ps bytes w h Hw Hh Hx Hy. assert (CB : 12 <= ct_bytes (exr_color d) <= 16) by (unfold exr_color; destruct (match x_pref d with Some b => b | None => x_alpha d end); cbn; lia).
  assert (W1 : wrap_u32 w = w) by (unfold wrap_u32, i32_max in *; rewrite Z.mod_small by lia; reflexivity). assert (W2 : wrap_u32 h = h) by (unfold wrap_u32, i32_max in *; rewrite Z.mod_small by lia; reflexivity).
  split; [intros N|intros E M e]; unfold exr_read; cbv zeta; fold (offx d) (offy d); rewrite !i32_m_in by assumption; cbn [bind]; unfold exr_dims; fold w h; rewrite W1, W2; unfold cmul.
  - destruct (w * h <=? u64_max); [|reflexivity]. destruct (w * h * ct_bytes (exr_color d) <=? u64_max); [|reflexivity]. replace (zlen bytes =? w * h * ct_bytes (exr_color d)) with false by lia. reflexivity.
  - assert (0 <= w * h) by (apply Z.mul_nonneg_nonneg; lia). assert (w * h <= w * h * ct_bytes (exr_color d)) by nia. unfold i64_max, u64_max in *. replace (w * h <=? 18446744073709551615) with true by lia. replace (w * h * ct_bytes (exr_color d) <=? 18446744073709551615) with true by lia. replace (zlen bytes =? w * h * ct_bytes (exr_color d)) with true by lia. reflexivity.
Qed.

(** The file written for an image: one non-deep layer with the channels R, G, B and possibly A, whose data window is the display window; dx, dy: its position.
    Reading it delivers what the encoder's pixel function returned at every position, in some order, with alpha 1.0 (pattern 0x3f800000) if the file has none. *)
Definition written_header (alpha : bool) (size : Z * Z) (dx dy : Z) : exr_header :=
  mkHeader false (if alpha then [[65]; [66]; [71]; [82]] else [[66]; [71]; [82]]) dx dy (fst size) (snd size) dx dy.
Definition f32_one_bits : Z := 1065353216.
Definition delivered (alpha : bool) (f : Z -> Z -> res (list Z)) (positions : list (Z * Z)) : res (list ((Z * Z) * list Z)) :=
  map_res (fun '(x, y) => s <- f x y ;; Ok ((x, y), if alpha then s else s ++ [f32_one_bits])) positions.

Lemma pat_inv big b : bytes b -> zlen b = 4 -> pat_bytes big (pat_of big b) = b.
Proof.
  intros B L. destruct b as [|b0 [|b1 [|b2 [|b3 [|b4 l]]]]]; try discriminate; [|rewrite !zlen_cons in L; pose proof (zlen_nonneg l); lia]. unfold bytes, is_u8, u8_max in B.
  pose proof (Forall_inv B) as K0. pose proof (Forall_inv (Forall_inv_tail B)) as K1. pose proof (Forall_inv (Forall_inv_tail (Forall_inv_tail B))) as K2. pose proof (Forall_inv (Forall_inv_tail (Forall_inv_tail (Forall_inv_tail B)))) as K3. clear B L. cbn beta in *.
  unfold pat_bytes, pat_of, le32, be32. destruct big; repeat f_equal; Z.div_mod_to_equations; lia.
Qed.
Lemma pixel_at_ok big b w h ch x y : 1 <= ch <= 4 -> 0 <= x < w -> 0 <= y < h -> zlen b = w * h * (ch * 4) ->
  pixel_at big b w (ch * 4) x y = Ok (map (fun c => pat_of big (zslice b (((y * w + x) * ch + c) * 4) 4)) (zrange 0 ch)).
Proof.
  intros Hc Hx Hy L. unfold pixel_at. cbv zeta. pose proof (area_idx w h x y Hx Hy) as A. assert (E : (y * w + x) * (ch * 4) + ch * 4 <= zlen b) by nia. replace (_ <=? _) with true by lia.
  assert (P0 : 0 <= (y * w + x) * (ch * 4)) by (apply Z.mul_nonneg_nonneg; lia).
  rewrite chunks_exact_slices by lia. rewrite map_map. f_equal. apply map_ext. intros c. do 2 f_equal. lia.
Qed.

Theorem C65_roundtrip : forall m big big' b w h c dx dy positions,
  0 <= w <= i32_max -> 0 <= h <= i32_max -> is_i32 dx -> is_i32 dy -> c = XRgb32F \/ c = XRgba32F -> bytes b -> zlen b <= i64_max -> buffer_size c w h = Ok (zlen b) ->
  (forall x y, In (x, y) positions <-> 0 <= x < w /\ 0 <= y < h) ->
  exists alpha size f ps d,
    exr_encode big' b w h c = Ok (alpha, size, f) /\ delivered alpha f positions = Ok ps /\
    exr_open [written_header alpha size dx dy] None = Ok d /\ exr_dims d = (w, h) /\ exr_original d = c /\ ect_of (exr_color d) = c /\
    (big = big' -> forall buf, zlen buf = zlen b -> exr_read m big d (Ok ps) buf = Ok b).
Proof.
  intros m big big' b w h c dx dy positions Hw Hh Hdx Hdy HC HB HM HS HP.
  set (alpha := match c with XRgba32F => true | _ => false end). set (ch := ect_channels c).
  assert (CH : ect_bits c / 8 = ch * 4 /\ 3 <= ch <= 4) by (unfold ch; destruct HC as [->| ->]; cbn; split; try lia; reflexivity). destruct CH as (CH & CR).
  assert (HL : zlen b = w * h * (ch * 4)).
  { unfold buffer_size, Limits.sat_mul_u64 in HS. destruct (w * ect_bits c + 7 <=? u64_max); [|discriminate]. apply Ok_inj in HS.
    assert (D : (w * ect_bits c + 7) / 8 = w * (ch * 4)). { symmetry. apply Z.div_unique with 7; [lia|]. assert (ect_bits c = ch * 32) by (unfold ch; destruct HC as [->| ->]; reflexivity). lia. }
    rewrite D in HS. unfold i64_max, u64_max in *. nia. }
  set (f := pixel_at big' b w (ch * 4)).
  set (g := fun p : Z * Z => map (fun k => pat_of big' (zslice b (((snd p * w + fst p) * ch + k) * 4) 4)) (zrange 0 ch)).
  set (ps := map (fun p : Z * Z => (p, if alpha then g p else g p ++ [f32_one_bits])) positions).
  assert (EO : exr_open [written_header alpha (w, h) dx dy] None = Ok (mkExr 0 (written_header alpha (w, h) dx dy) None alpha)) by (destruct alpha; reflexivity).
  assert (EC : exr_color (mkExr 0 (written_header alpha (w, h) dx dy) None alpha) = if alpha then CRgba32F else CRgb32F) by reflexivity.
  assert (ECH : ct_channels (if alpha then CRgba32F else CRgb32F) = ch) by (unfold alpha, ch; destruct HC as [->| ->]; reflexivity).
  exists alpha, (w, h), f, ps, (mkExr 0 (written_header alpha (w, h) dx dy) None alpha).
  split; [unfold exr_encode; rewrite HS; cbn [bind]; rewrite Z.eqb_refl; cbn [negb]; unfold f; rewrite <- CH; destruct HC as [->| ->]; reflexivity|].
  split. { unfold delivered, ps. apply map_res_ok. intros (x, y) I. apply HP in I. unfold f. rewrite (pixel_at_ok big' b w h ch x y) by (try lia; apply I). reflexivity. }
  split; [exact EO|].
  split. { unfold exr_dims. cbn [x_header written_header dw_w dw_h fst snd]. unfold wrap_u32, i32_max in *. rewrite !Z.mod_small by lia. reflexivity. }
  split; [unfold exr_original, alpha; destruct HC as [->| ->]; reflexivity|]. split; [unfold exr_color, alpha; destruct HC as [->| ->]; reflexivity|].
  intros -> buf LBF.
  assert (LG : forall p, zlen (g p) = ch) by (intros p; unfold g; rewrite zlen_map, zlen_zrange; lia).
  destruct (C65_decode m big' (mkExr 0 (written_header alpha (w, h) dx dy) None alpha) ps buf) as (out & EO' & LO & PO); try (cbn [x_header written_header dw_w dw_h fst snd]; assumption).
  - unfold offx. cbn [x_header written_header lay_x dw_x]. rewrite Z.sub_diag. unfold is_i32, i32_min, i32_max. lia.
  - unfold offy. cbn [x_header written_header lay_y dw_y]. rewrite Z.sub_diag. unfold is_i32, i32_min, i32_max. lia.
  - intros x y s I. unfold ps in I. apply in_map_iff in I as ((x', y') & E & I). injection E as -> -> <-. apply HP in I. unfold offx, offy. cbn [x_header written_header lay_x lay_y dw_x dw_y]. rewrite !Z.sub_diag. repeat split; try lia.
    specialize (LG (x, y)). destruct alpha eqn:A; unfold alpha, ch in *; destruct HC as [->| ->]; try discriminate; rewrite ?zlen_app, LG; reflexivity.
  - intros x y s s' I I'. unfold ps in *. apply in_map_iff in I as (p & E & I). apply in_map_iff in I' as (p' & E' & I'). injection E as E1 <-. injection E' as E2 <-. subst p p'. reflexivity.
  - rewrite EC, ECH. cbn [x_header written_header dw_w dw_h fst snd]. lia.
  - lia.
  - rewrite EO'. f_equal. cbn [x_header written_header dw_w dw_h fst snd] in PO. rewrite EC, ECH in PO.
    assert (HW : 0 <= w * h) by (apply Z.mul_nonneg_nonneg; lia).
    apply (slices_eq out b (w * h * ch)); [lia|lia|]. intros i Hi. destruct (Z.eq_dec w 0) as [->|W0]; [lia|].
    set (k := i / ch). set (cc := i mod ch). assert (EI : i = k * ch + cc /\ 0 <= cc < ch) by (unfold k, cc; pose proof (Z.div_mod i ch ltac:(lia)); pose proof (Z.mod_pos_bound i ch ltac:(lia)); lia). destruct EI as (EI & CC).
    assert (KR : 0 <= k < w * h) by nia. set (Y := k / w). set (X := k mod w).
    assert (EK : k = Y * w + X /\ 0 <= X < w) by (unfold X, Y; pose proof (Z.div_mod k w ltac:(lia)); pose proof (Z.mod_pos_bound k w ltac:(lia)); lia). destruct EK as (EK & XR). assert (YR : 0 <= Y < h) by nia.
    rewrite EI, EK. destruct (PO X Y cc XR YR CC) as (A & _).
    assert (SL : zslice b (((Y * w + X) * ch + cc) * 4) 4 = pat_bytes big' (pat_of big' (zslice b (((Y * w + X) * ch + cc) * 4) 4))). { symmetry. apply pat_inv; [apply ListMore.Forall_zslice; exact HB|]. apply zlen_zslice; nia. }
    rewrite SL. apply (A (if alpha then g (X, Y) else g (X, Y) ++ [f32_one_bits])).
    + unfold offx, offy. cbn [x_header written_header lay_x lay_y dw_x dw_y]. rewrite !Z.sub_diag, !Z.sub_0_r. unfold ps. apply in_map_iff. exists (X, Y). split; [reflexivity|]. apply HP. split; assumption.
    + assert (GG : zget (g (X, Y)) cc = Some (pat_of big' (zslice b (((Y * w + X) * ch + cc) * 4) 4))) by (unfold g; rewrite zget_map, zget_zrange by lia; reflexivity).
      destruct alpha; [exact GG|]. rewrite zget_app. replace (cc <? zlen (g (X, Y))) with true by (rewrite LG; lia). exact GG.
Qed.
(** every other colour type is refused, and a buffer of the wrong length makes write_image panic *)
Theorem C65_encode_rejects : forall big b w h c n, buffer_size c w h = Ok n ->
  (n <> zlen b -> exr_encode big b w h c = Panic) /\ (n = zlen b -> c <> XRgb32F -> c <> XRgba32F -> exr_encode big b w h c = Err EEncoding).
Proof.
  intros big b w h c n HS. unfold exr_encode. rewrite HS. cbn [bind]. split; [intros N; replace (n =? zlen b) with false by lia; reflexivity|]. intros ->. rewrite Z.eqb_refl. cbn [negb]. intros N1 N2. destruct c; try reflexivity; contradiction.
Qed.

(** a 2 x 1 display window at (5, 5) with a 2 x 2 layer at (6, 4): only the data pixel (0, 1) lands, at (1, 0) *)
Definition hd1 : exr_header := mkHeader false [[66]; [71]; [82]] 5 5 2 1 6 4.
Definition ps1 : list ((Z * Z) * list Z) := [((1, 1), [1; 2; 3; 4]); ((0, 1), [5; 6; 7; 8]); ((0, 0), [9; 9; 9; 9]); ((1, 0), [8; 8; 8; 8])].
Example C65_non_vacuous :
  (exists d, exr_open [mkHeader true [[66]; [71]; [82]] 0 0 9 9 0 0; hd1] None = Ok d /\ x_index d = 1 /\ exr_dims d = (2, 1) /\ exr_color d = CRgb32F /\
     exr_read Debug false d (Ok ps1) (repeat 7 24) = Ok (repeat 0 12 ++ [5; 0; 0; 0; 6; 0; 0; 0; 7; 0; 0; 0])) /\
  (exists f, exr_encode false (zrange 0 24) 2 1 XRgb32F = Ok (false, (2, 1), f) /\ f 1 0 = Ok [252579084; 319951120; 387323156]).
Proof.
  split.
  - eexists. split; [reflexivity|]. vm_compute. repeat split; reflexivity.
  - eexists. split; vm_compute; reflexivity.
Qed.
Definition c65_theorems := (C65_layer, C65_decode, C65_buffer, C65_roundtrip, C65_encode_rejects).
Print Assumptions c65_theorems.
