(** C34 (APNG composition), C50 (byte order of 16-bit PNG samples). *)
From Verif Require Import Base BaseLemmas ListLemmas ListMore GenImage Color ColorType Limits Farbfeld FarbfeldSpec FarbfeldProofs Delay Png PngSpec PngProofs.
Local Open Scope Z_scope.

Lemma pair_invol big a b : exists x y, ne_pair big a b = [x; y] /\ ne_pair big x y = [a; b].
Proof. destruct big; cbn; eauto. Qed.
Lemma native_to_be_samples big l : native_to_be big (native big l) = flat_map u16_be l.
Proof.
  induction l as [|v l IH]; [reflexivity|]. unfold native. cbn [flat_map]. fold (native big l).
  destruct (native16_pair big v) as (a & b & E & E2). rewrite E. cbn [app native_to_be]. rewrite E2, IH. reflexivity.
Qed.
Lemma be_to_native_samples big l : be_to_native big (flat_map u16_be l) = native big l.
Proof.
  induction l as [|v l IH]; [reflexivity|]. unfold native. cbn [flat_map]. fold (native big l). unfold u16_be at 1. cbn [app be_to_native].
  rewrite IH. unfold native16. destruct big; reflexivity.
Qed.
Lemma even_native big l n : zlen l = 2 * n -> bytes l -> exists s, Forall is_u16 s /\ zlen s = n /\ l = native big s.
Proof.
  revert n. assert (G : forall k l n, (length l <= k)%nat -> zlen l = 2 * n -> bytes l -> exists s, Forall is_u16 s /\ zlen s = n /\ l = native big s).
  { induction k as [|k IH]; intros [|a [|b r]] n Hk L B; try (cbn in Hk; lia).
    - exists []. change (zlen (@nil Z)) with 0 in L. split; [constructor|]. split; [|reflexivity]. change (zlen (@nil Z)) with 0. lia.
    - exists []. change (zlen (@nil Z)) with 0 in L. split; [constructor|]. split; [|reflexivity]. change (zlen (@nil Z)) with 0. lia.
    - rewrite zlen_cons in L. change (zlen (@nil Z)) with 0 in L. lia.
    - rewrite !zlen_cons in L. inversion B as [|? ? Ba B1]; subst. inversion B1 as [|? ? Bb B2]; subst.
      destruct (IH r (n - 1)) as (s & F & Ls & E); [cbn in Hk; lia|lia|exact B2|].
      unfold is_u8, u8_max in *. exists ((if big then a * 256 + b else b * 256 + a) :: s). split; [constructor; [|exact F]; unfold is_u16, u16_max; destruct big; lia|].
      split; [rewrite zlen_cons; lia|]. unfold native. cbn [flat_map]. fold (native big s). rewrite <- E. unfold native16.
      destruct big; [rewrite Z.div_add_l, (Z.add_comm _ b), Z.mod_add, (Z.div_small b 256), (Z.mod_small b 256) by lia
                    |rewrite Z.div_add_l, (Z.add_comm _ a), Z.mod_add, (Z.div_small a 256), (Z.mod_small a 256) by lia];
      cbn [app]; f_equal; try lia; f_equal; lia. }
  intros n. apply (G (length l)). lia.
Qed.

(** colour types by sample depth *)
Definition png_deep (c : ectype) : Prop := c = XL16 \/ c = XLa16 \/ c = XRgb16 \/ c = XRgba16.
Definition png_shallow (c : ectype) : Prop := c = XL8 \/ c = XLa8 \/ c = XRgb8 \/ c = XRgba8.

(** What is handed to the png crate is the big-endian byte pair of each 16-bit sample, in order, whatever the byte order of
    the machine; and a decoder that receives those bytes delivers the original buffer. *)
Theorem C50_encode_big_endian : forall big samples w h c, png_deep c ->
  buffer_size c w h = Ok (2 * zlen samples) ->
  exists ct, png_write_image big (native big samples) w h c = Ok (w, h, ct, 16, flat_map u16_be samples).
Proof.
  intros big samples w h c D B. unfold png_write_image. rewrite B. cbn [bind]. rewrite native_len, Z.eqb_refl. cbn [negb].
  destruct D as [->|[->|[->| ->]]]; unfold encode_inner; cbn [png_color bind]; rewrite native_to_be_samples; eauto.
Qed.
Print Assumptions C50_encode_big_endian.
Theorem C50_round_trip : forall big buf w h ec c, ec = ect_of c -> png_deep ec \/ png_shallow ec -> bytes buf ->
  is_u32 w -> is_u32 h -> w * h * ct_bytes c <= u64_max -> zlen buf = w * h * ct_bytes c ->
  exists ct bits data, png_write_image big buf w h ec = Ok (w, h, ct, bits, data) /\ zlen data = zlen buf /\
    png_read_image big c (zlen buf) (zlen buf) (Ok data) = Ok buf.
Proof.
  intros big buf w h ec c -> HD B Hw Hh Lim Lb.
  assert (P : 0 <= w * h) by (apply Z.mul_nonneg_nonneg; unfold is_u32 in *; lia).
  assert (Z1 : buffer_size (ect_of c) w h = Ok (zlen buf)).
  { unfold buffer_size, is_u32, u32_max, u64_max in *. unfold sat_mul_u64, u64_max.
    assert (X : ect_bits (ect_of c) = 8 * ct_bytes c /\ 1 <= ct_bytes c <= 16) by (destruct c; cbn; lia). destruct X as [X1 X2]. rewrite X1.
    replace (w * (8 * ct_bytes c) + 7 <=? 18446744073709551615) with true by nia.
    replace (w * (8 * ct_bytes c) + 7) with (7 + w * ct_bytes c * 8) by lia. rewrite Z.div_add by lia. change (7 / 8) with 0. f_equal. rewrite Lb.
    replace ((0 + w * ct_bytes c) * h) with (w * h * ct_bytes c) by lia. lia. }
  assert (M : zlen buf mod (ct_bytes c / ct_channels c) = 0).
  { rewrite Lb. destruct HD as [D|D]; destruct c; try (exfalso; cbn in D; destruct D as [|[|[|]]]; congruence);
    cbn [ct_bytes ct_channels]; match goal with |- _ mod ?x = 0 => let v := eval compute in x in change x with v end; try apply Z.mod_1_r;
    match goal with |- (?a * ?b) mod 2 = 0 => rewrite (Z.mul_comm a b); let k := eval compute in (b / 2) in replace (b * a) with (k * a * 2) by lia; apply Z.mod_mul; lia end. }
  unfold png_write_image, png_read_image. rewrite Z1. cbn [bind]. rewrite Z.eqb_refl. cbn [negb].
  destruct HD as [D|D].
  - assert (B2 : ct_bytes c / ct_channels c = 2) by (destruct c; try reflexivity; exfalso; cbn in D; destruct D as [|[|[|]]]; congruence).
    rewrite B2 in *. destruct (even_native big buf (zlen buf / 2)) as (s & F & L & E); [zdm|auto|].
    assert (W : native_to_be big buf = flat_map u16_be s) by (rewrite E; apply native_to_be_samples).
    exists (match ect_of c with XL16 => 0 | XLa16 => 4 | XRgb16 => 2 | _ => 6 end), 16, (flat_map u16_be s).
    split; [|split].
    + rewrite <- W. destruct D as [D|[D|[D|D]]]; rewrite D; reflexivity.
    + rewrite u16s_len, E, native_len. reflexivity.
    + cbn [Z.eqb Pos.eqb]. rewrite be_to_native_samples. f_equal. auto.
  - assert (B2 : ct_bytes c / ct_channels c = 1) by (destruct c; try reflexivity; exfalso; cbn in D; destruct D as [|[|[|]]]; congruence).
    rewrite B2. exists (match ect_of c with XL8 => 0 | XLa8 => 4 | XRgb8 => 2 | _ => 6 end), 8, buf.
    split; [|split; reflexivity]. destruct D as [D|[D|[D|D]]]; rewrite D; reflexivity.
Qed.
Print Assumptions C50_round_trip.
(** decoding delivers each sample's value in the machine's byte order *)
Theorem C50_decode_native : forall big samples c, ct_bytes c / ct_channels c = 2 ->
  png_read_image big c (2 * zlen samples) (2 * zlen samples) (Ok (flat_map u16_be samples)) = Ok (native big samples).
Proof. intros big samples c B. unfold png_read_image. rewrite Z.eqb_refl. cbn [negb bind]. rewrite B. cbn [Z.eqb Pos.eqb]. rewrite be_to_native_samples. reflexivity. Qed.
Print Assumptions C50_decode_native.
(** other colour types are refused, and a buffer of the wrong length panics *)
Theorem C50_other_types : forall big buf w h c n, buffer_size c w h = Ok n ->
  (zlen buf <> n -> png_write_image big buf w h c = Panic) /\
  (zlen buf = n -> ~ png_deep c -> ~ png_shallow c -> png_write_image big buf w h c = Err EEncoding).
Proof.
  intros big buf w h c n B. unfold png_write_image. rewrite B. cbn [bind]. split.
  - intros N. replace (n =? zlen buf) with false by lia. reflexivity.
  - intros -> N1 N2. rewrite Z.eqb_refl. cbn [negb]. unfold png_deep, png_shallow in *. destruct c; try reflexivity; exfalso; tauto.
Qed.
Print Assumptions C50_other_types.
Example C50_example : png_write_image false [52; 18; 120; 86] 2 1 XL16 = Ok (2, 1, 0, 16, [18; 52; 86; 120]) /\
  png_read_image false CL16 4 4 (Ok [18; 52; 86; 120]) = Ok [52; 18; 120; 86].
Proof. split; vm_compute; reflexivity. Qed.
Example C50_example_hyps : buffer_size (ect_of CRgb16) 3 2 = Ok 36 /\ 3 * 2 * ct_bytes CRgb16 = 36 /\ png_deep (ect_of CRgb16).
Proof. repeat split; try (vm_compute; reflexivity). right; right; left; reflexivity. Qed.

(** * APNG *)
(** Every animation of valid frames in which no dispose-to-previous frame directly follows a dispose-to-background one:
    each call of the iterator yields the reference composition and the frame's delay, and then the iterator ends.
    The first frame of the stream may be a thumbnail that is not part of the animation. *)
Theorem C34_composition : forall m bl W H k fs thumb, is_u32 W -> is_u32 H -> Forall (valid_frame k W H) fs -> no_bg_prev fs = true ->
  let start := match thumb with
               | Some t => apng_new (zlen fs) None (t :: stream fs)
               | None => apng_new (zlen fs) (match fs with (f, _) :: _ => Some f | [] => None end) (stream fs)
               end in
  (thumb = None -> fs <> []) ->
  exists final outs, apng_frames m bl W H k U8 (length fs) start = (final, outs) /\
    Forall2 (frame_ok W H) outs (combine (reference bl k blank fs) (map fst fs)) /\
    forall n, snd (apng_frames m bl W H k U8 n final) = repeat None n.
Proof.
  intros m bl W H k fs thumb BW BH F NB start NE.
  assert (E : exists a' outs, apng_frames m bl W H k U8 (length fs) start = (a', outs) /\ a_remaining a' = 0 /\
    Forall2 (frame_ok W H) outs (combine (reference bl k blank fs) (map fst fs))).
  { apply (frames_run m bl W H k fs BW BH F NB start blank true).
    - subst start. destruct thumb; apply ready_new; auto.
    - auto.
    - subst start. destruct thumb; reflexivity.
    - subst start. destruct thumb as [t|]; cbn [a_thumb apng_new a_reader]; [eauto|]. destruct fs as [|[f b] fs]; [exfalso; apply NE; reflexivity|reflexivity]. }
  destruct E as (a' & outs & E & Z0 & FF). exists a', outs. split; [exact E|]. split; [exact FF|].
  clear E FF outs start NE. intros n. revert a' Z0. induction n as [|n IH]; intros a' Z0; [reflexivity|].
  cbn [apng_frames]. unfold apng_next, mix_next_frame. rewrite Z0. cbn [Z.eqb].
  match goal with |- context [apng_frames m bl W H k U8 n ?x] => specialize (IH x eq_refl); destruct (apng_frames m bl W H k U8 n x) end.
  cbn [snd] in *. rewrite IH. reflexivity.
Qed.
Print Assumptions C34_composition.

(** the delay is the frame's delay_num/delay_den seconds, in milliseconds *)
Theorem C34_delay : forall f, numer (ms_of f) * f_den f = f_num f * 1000 * denom (ms_of f) \/ (f_den f = 0 /\ ms_of f = mkRatio (f_num f * 1000) 100).
Proof. intros f. unfold ms_of. cbn [numer denom]. destruct (Z.eqb_spec (f_den f) 0); [right|left]; auto; lia. Qed.
Print Assumptions C34_delay.

(** an error ends the animation: every later call yields nothing; and 16-bit animations are refused *)
Theorem C34_error_ends : forall m bl W H k t a a' e, apng_next m bl W H k t a = (a', Some (Err e)) ->
  forall n, snd (apng_frames m bl W H k t n a') = repeat None n.
Proof.
  intros m bl W H k t a a' e E.
  assert (Z0 : a_remaining a' = 0).
  { unfold apng_next in E. destruct (mix_next_frame m bl W H k t a) as [a1 r] eqn:M.
    assert (R : a1 = a' /\ (r = Err e \/ exists im, r = Ok (Some im))).
    { destruct r as [[im|]|e'|]; injection E; intros; subst; eauto; congruence. }
    destruct R as [-> [->|[im ->]]].
    - unfold mix_next_frame in M. destruct (a_remaining a =? 0); [congruence|].
      destruct (if a_thumb a then _ else _) as [rd|]; [|injection M; intros; subst; reflexivity].
      destruct t; [|injection M; intros; subst; reflexivity].
      destruct (dispose_step _ _ _ _ _) as [[p c]|e'|]; [|injection M; intros; subst; reflexivity|congruence].
      destruct rd as [|[inf buf] rd]; [injection M; intros; subst; reflexivity|].
      destruct inf; cbv zeta iota beta in M;
      match type of M with context [bind ?x ?y] => destruct (bind x y) end; try congruence; injection M; intros; subst; reflexivity.
    - exfalso. injection E; intros Er. destruct (a_info a'); [|discriminate].
      unfold mul_m, ratio_new in Er. destruct (f_num f * 1000 <=? u32_max); cbn [bind] in Er; [|discriminate].
      destruct ((if f_den f =? 0 then 100 else f_den f) =? 0); discriminate. }
  clear E. intros n. revert a' Z0. induction n as [|n IH]; intros a' Z0; [reflexivity|].
  cbn [apng_frames]. unfold apng_next, mix_next_frame. rewrite Z0. cbn [Z.eqb].
  match goal with |- context [apng_frames m bl W H k t n ?x] => specialize (IH x eq_refl); destruct (apng_frames m bl W H k t n x) end.
  cbn [snd] in *. rewrite IH. reflexivity.
Qed.
Print Assumptions C34_error_ends.

(** The excluded case: dispose-to-previous directly after dispose-to-background restores the picture from before the
    background was cleared.  One pixel: red (background), blue (previous), then a fully transparent frame. *)
Definition px_over (q p : list Z) : list Z := if leqb (skipn 3 p) [0] then q else p.
Definition f1 (d : disp) (b : blnd) : fctl := mkFctl 1 1 0 0 d b 1 10.
Definition bad_anim : list (fctl * list Z) :=
  [(f1 DBackground BSource, [255; 0; 0; 255]); (f1 DPrevious BSource, [0; 0; 255; 255]); (f1 DNone BOver, [0; 0; 0; 0])].
Theorem C34_background_then_previous_refuted :
  Forall (valid_frame Rgba 1 1) bad_anim /\
  map (fun c : canvas => c 0 0) (reference px_over Rgba blank bad_anim) = [[255; 0; 0; 255]; [0; 0; 255; 255]; [0; 0; 0; 0]] /\
  map (fun o => match o with Some (Ok (im, _)) => pixel im 0 0 | _ => None end)
    (snd (apng_frames Debug px_over 1 1 Rgba U8 3 (apng_new 3 (Some (f1 DBackground BSource)) (stream bad_anim))))
  = [Some [255; 0; 0; 255]; Some [0; 0; 255; 255]; Some [255; 0; 0; 255]].
Proof.
  split; [|split; vm_compute; reflexivity].
  unfold bad_anim, valid_frame, is_u16, u16_max, bytes. 
  repeat (apply Forall_cons; [cbn [fst snd f_w f_h f_x f_y f_num f_den f1 nch]; repeat (split; [lia|]); split; [repeat (apply Forall_cons; [unfold is_u8, u8_max; lia|]); constructor|vm_compute; discriminate]|]).
  constructor.
Qed.
Print Assumptions C34_background_then_previous_refuted.

(** a 2x1 grey animation using all three disposals, an offset, and blending *)
Definition good_anim : list (fctl * list Z) :=
  [(mkFctl 2 1 0 0 DNone BSource 1 10, [9; 200]); (mkFctl 1 1 1 0 DPrevious BOver 0 0, [7; 0]); (mkFctl 1 1 0 0 DBackground BSource 2 0, [5]); (mkFctl 1 1 1 0 DNone BOver 2 0, [77])].
Example C34_example : Forall (valid_frame Luma 2 1) good_anim /\ no_bg_prev good_anim = true /\
  map (fun o => match o with Some (Ok (im, d)) => (px im, d) | _ => ([], mkRatio 0 0) end)
    (snd (apng_frames Debug px_over 2 1 Luma U8 4 (apng_new 4 (Some (mkFctl 2 1 0 0 DNone BSource 1 10)) (stream good_anim))))
  = [([[9; 9; 9; 255]; [200; 200; 200; 255]], mkRatio 1000 10); ([[9; 9; 9; 255]; [7; 7; 7; 255]], mkRatio 0 100);
     ([[5; 5; 5; 255]; [200; 200; 200; 255]], mkRatio 2000 100); ([[0; 0; 0; 0]; [77; 77; 77; 255]], mkRatio 2000 100)].
Proof.
  split; [|split; vm_compute; reflexivity].
  unfold good_anim, valid_frame, is_u16, u16_max, bytes. 
  repeat (apply Forall_cons; [cbn [fst snd f_w f_h f_x f_y f_num f_den f1 nch]; repeat (split; [lia|]); split; [repeat (apply Forall_cons; [unfold is_u8, u8_max; lia|]); constructor|vm_compute; discriminate]|]).
  constructor.
Qed.
