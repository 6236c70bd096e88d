(** C60: AVIF pictures (YUV planes) become the RGBA image their signalled matrix and range describe. *)
From Coq Require Import ZArith Reals Lra Lia List Bool.
From Verif Require Import Base BaseLemmas Yuv YuvSpec YuvProofs YuvProofs2 YuvProofs3 YuvProofs4 YuvProofs5.
Import ListNotations.
Local Open Scope Z_scope.

(** one d-bit step in the output: 1 for 8-bit images, 2^(16-d) in 16-bit images *)
Definition step (d : Z) : Z := if d =? 8 then 1 else 2 ^ (16 - d).
Definition bytes_per_pixel (d : Z) : Z := if d =? 8 then 4 else 8.

(** every pixel of every picture, whatever the layout, size, strides, alignment and byte order *)
Theorem C60_pixels big al p buf : picture_ok big p -> zlen buf = pw p * ph p * bytes_per_pixel (depth p) ->
  exists out, read_image big al p buf = Ok out /\ zlen out = zlen buf /\
    forall x y, 0 <= x < pw p -> 0 <= y < ph p -> exists r g b, colour big p x y r g b /\
      (0 <= r < 2 ^ depth p /\ 0 <= g < 2 ^ depth p /\ 0 <= b < 2 ^ depth p) /\
      let o := out_at big (depth p) (pw p) out x y in let s := step (depth p) in
      o 0 = r * s /\ o 1 = g * s /\ o 2 = b * s /\ o 3 = alpha_at big p x y * s.
Proof. intros H1 H2. exact (read_ok big al p buf H1 H2). Qed.

(** BT.709, BT.601 (470BG) and BT.2020 pictures have H.273's colours *)
Theorem C60_standard big al p buf kr kb : picture_ok big p -> zlen buf = pw p * ph p * bytes_per_pixel (depth p) -> lay p <> I400 ->
  mc p = MCBT709 \/ mc p = MCUnspecified \/ mc p = MCBT470BG \/ mc p = MCBT2020NCL -> h273 (mc p) = Some (kr, kb) ->
  exists out, read_image big al p buf = Ok out /\
    forall x y, 0 <= x < pw p -> 0 <= y < ph p -> exists r g b,
      let d := depth p in let o := out_at big d (pw p) out x y in
      let Y := luma d (rng p) (Yat big p x y) in let Cb := chroma d (rng p) (Uat big p x y) in let Cr := chroma d (rng p) (Vat big p x y) in
      o 0 = r * step d /\ o 1 = g * step d /\ o 2 = b * step d /\
      close d r (red kr kb Y Cb Cr) /\ close d g (green kr kb Y Cb Cr) /\ close d b (blue kr kb Y Cb Cr).
Proof.
  intros Hp Hb HL Hc Hk. destruct (C60_pixels big al p buf Hp Hb) as (out & E & _ & Q). exists out. split; [exact E|].
  intros x y Hx Hy. destruct (Q x y Hx Hy) as (r & g & b & C & _ & O0 & O1 & O2 & _). exists r, g, b. cbv zeta in *. split; [exact O0|]. split; [exact O1|]. split; [exact O2|].
  unfold colour in C. cbv zeta in C. destruct Hc as [Hc|[Hc|[Hc|Hc]]]; rewrite Hc in C, Hk; apply Some_inj in Hk; injection Hk as <- <-;
  cbn [used h273] in C; destruct (lay p); try congruence; destruct C as (C1 & C2 & C3 & _); auto.
Qed.

(** 8 bits, limited range: nominal black and white without chroma come out as 0 and 255 *)
Lemma close8 v (x : R) (n : Z) : close 8 v x -> limit 8 x = IZR n -> v = n.
Proof.
  unfold close, tol. intros H E. rewrite E in H. change (2 ^ 8) with 256 in H. apply Rabs_le_inv in H.
  assert (IZR v - IZR n < 1)%R by lra. assert (-1 < IZR v - IZR n)%R by lra. rewrite <- minus_IZR in *. apply lt_IZR in H0. apply lt_IZR in H1. lia.
Qed.
Theorem C60_black_white big p x y r g b : picture_ok big p -> depth p = 8 -> rng p = Tv -> mc p <> MCIdentity ->
  (lay p <> I400 -> Uat big p x y = 128 /\ Vat big p x y = 128) -> colour big p x y r g b ->
  (Yat big p x y = 16 -> r = 0 /\ g = 0 /\ b = 0) /\ (Yat big p x y = 235 -> r = 255 /\ g = 255 /\ b = 255).
Proof.
  intros (_ & _ & _ & _ & _ & Hu & _) D8 Tv' HI HUV C.
  assert (K : close 8 r (luma 8 Tv (Yat big p x y)) /\ g = r /\ b = r).
  { destruct (is_400 (lay p)) eqn:E4.
    - assert (EL : lay p = I400) by (destruct (lay p); [reflexivity|discriminate E4..]). unfold colour in C. cbv zeta in C. rewrite EL, D8, Tv' in C.
      destruct Hu as [[Hu _]|Hu]; [contradiction|]. destruct (used (mc p)) as [q|]; [|contradiction]. destruct (mc p); tauto.
    - destruct HUV as [HU HV]. { intros E. rewrite E in E4. discriminate E4. }
      unfold colour in C. cbv zeta in C. rewrite D8, Tv', HU, HV in C. unfold red in C.
      replace (chroma 8 Tv 128) with 0%R in C by (unfold chroma; change (2 ^ (8 - 1)) with 128; unfold Rdiv; rewrite Rminus_eq_0; ring).
      destruct (used (mc p)) as [[kr kb]|] eqn:EU; [|destruct Hu as [[Hu _]|Hu]; contradiction].
      rewrite Rmult_0_r, Rplus_0_r in C.
      destruct (mc p); try contradiction; destruct (lay p); try discriminate E4; destruct C as (C1 & C2 & C3 & C4); destruct (C4 eq_refl eq_refl) as (E1 & E2 & _); auto. }
  destruct K as (K & -> & ->). split; intros E; rewrite E in K.
  - assert (r = 0); [|auto]. apply (close8 _ _ _ K). unfold luma, limit, white. change (2 ^ (8 - 8)) with 1. change (2 ^ 8 - 1) with 255.
    replace ((16 - 16 * 1) * 255 / (219 * 1))%R with 0%R by field. unfold Rmax, Rmin. repeat destruct (Rle_dec _ _); lra.
  - assert (r = 255); [|auto]. apply (close8 _ _ _ K). unfold luma, limit, white. change (2 ^ (8 - 8)) with 1. change (2 ^ 8 - 1) with 255.
    replace ((235 - 16 * 1) * 255 / (219 * 1))%R with 255%R by field. unfold Rmax, Rmin. repeat destruct (Rle_dec _ _); lra.
Qed.

(** planes of the wrong length are refused *)
Theorem C60_wrong_length big al p buf m : (depth p = 8) -> 0 < pw p -> 0 < ph p -> zlen buf = pw p * ph p * 4 -> get_matrix (mc p) = Ok m ->
  zlen (data (py p)) <> stride (py p) * ph p \/
  (lay p <> I400 /\ (zlen (data (pu p)) <> stride (pu p) * chroma_h (lay p) (ph p) \/ zlen (data (pv p)) <> stride (pv p) * chroma_h (lay p) (ph p))) ->
  read_image big al p buf = Err EDecoding.
Proof.
  intros D8 Hw Hh Hb Hm H. unfold read_image. rewrite D8, Hb. cbv zeta. change (8 =? 8) with true. cbn [negb orb].
  change (pw p * ph p * (4 * 1)) with (pw p * ph p * 4). rewrite Z.eqb_refl. cbn [negb]. replace ((pw p =? 0) || (ph p =? 0)) with false by lia. rewrite Hm. cbn [bind].
  destruct (is_identity m && negb (is_444 (lay p))) eqn:NI; [reflexivity|].
  assert (CB : forall l s h, check_len l s h = Ok tt \/ check_len l s h = Err EDecoding) by (intros; unfold check_len; destruct (_ =? _); auto).
  assert (CE : forall l s h, zlen l <> s * h -> check_len l s h = Err EDecoding) by (intros l s h Hne; unfold check_len; destruct (Z.eqb_spec (zlen l) (s * h)); [contradiction|reflexivity]).
  assert (NI' : lay p <> I444 -> is_identity m = false).
  { intros H4. destruct (is_identity m); [|reflexivity]. destruct (lay p); try discriminate NI. congruence. }
  match goal with |- bind ?w _ = _ => assert (W : w = Err EDecoding) end.
  { destruct (lay p); cbn [worker chroma_h] in *; unfold yuv400, yuv420, yuv422, yuv444; cbn [yp ys up us vp vs yw yh]; rewrite ?NI' by discriminate; cbv zeta;
    (destruct H as [H|[H4 [H|H]]]; [rewrite (CE _ _ _ H); reflexivity|try congruence|try congruence]).
    all: destruct (CB (data (py p)) (stride (py p)) (ph p)) as [E1|E1]; rewrite E1; cbn [bind]; [|reflexivity].
    all: try (rewrite (CE _ _ _ H); reflexivity).
    all: match goal with |- bind (check_len ?l ?s ?h) _ = _ => destruct (CB l s h) as [E2|E2]; rewrite E2 end; cbn [bind]; [|reflexivity]; rewrite (CE _ _ _ H); reflexivity. }
  rewrite W. reflexivity.
Qed.
(** what the decoder does not know it refuses *)
Theorem C60_unsupported big al p buf : depth_ok (depth p) -> 0 < pw p -> 0 < ph p -> zlen buf = pw p * ph p * bytes_per_pixel (depth p) ->
  (mc p <> MCIdentity /\ used (mc p) = None -> read_image big al p buf = Err EUnsupported) /\
  (mc p = MCIdentity /\ lay p <> I444 -> read_image big al p buf = Err EDecoding).
Proof.
  intros Hd Hw Hh Hb. assert (E : forall e, (m <- get_matrix (mc p) ;; if is_identity m && negb (is_444 (lay p)) then Err EDecoding else Ok m) = Err e -> read_image big al p buf = Err e).
  { intros e He. unfold read_image. rewrite Hb. unfold bytes_per_pixel. cbv zeta.
    replace (pw p * ph p * (if depth p =? 8 then 4 else 8) =? pw p * ph p * (4 * (if depth p =? 8 then 1 else 2))) with true by (destruct (depth p =? 8); symmetry; apply Z.eqb_eq; reflexivity).
    cbn [negb]. replace ((depth p =? 8) || (depth p =? 10) || (depth p =? 12)) with true by (destruct Hd as [-> |[-> | ->]]; reflexivity). cbn [negb].
    replace ((pw p =? 0) || (ph p =? 0)) with false by lia. destruct (get_matrix (mc p)) as [m|e'|]; cbn [bind] in He |- *; [|congruence|discriminate He].
    destruct (is_identity m && negb (is_444 (lay p))); [congruence|discriminate He]. }
  split; intros [H1 H2]; apply E.
  - destruct (mc p); try congruence; try discriminate H2; reflexivity.
  - rewrite H1. destruct (lay p); try congruence; reflexivity.
Qed.

(** 10 and 12 bits: an opaque picture is not opaque.  The shift that should repeat the top bits below the sample shifts
    everything out, so samples are multiples of 2^(16-d) and the greatest is 65472 or 65520, never 65535. *)
Theorem C60_opaque_refuted big al p buf out x y : picture_ok big p -> depth p <> 8 -> alpha p = None ->
  zlen buf = pw p * ph p * bytes_per_pixel (depth p) -> read_image big al p buf = Ok out -> 0 <= x < pw p -> 0 <= y < ph p ->
  out_at big (depth p) (pw p) out x y 3 = 65536 - 2 ^ (16 - depth p) /\ out_at big (depth p) (pw p) out x y 3 < 65535.
Proof.
  intros Hp D8 Ha Hb Ho Hx Hy. destruct (C60_pixels big al p buf Hp Hb) as (out' & E & _ & Q). rewrite Ho in E. apply Ok_inj in E. subst out'.
  destruct (Q x y Hx Hy) as (r & g & b & _ & _ & _ & _ & _ & ->). unfold alpha_at, step. rewrite Ha. destruct Hp as ([Hd|[Hd|Hd]] & _); [contradiction| |]; rewrite Hd; split; reflexivity.
Qed.

(** examples: 3x3 pictures with 2x2 chroma planes, odd strides and padding *)
Definition pl (st : Z) (l : list Z) : plane := mkPlane l st false.
Definition pic420 : picture := mkPic 8 3 3 I420 Tv MCBT709
  (pl 4 [16; 100; 235; 255;  50; 60; 70; 255;  81; 90; 255; 255]) (pl 3 [128; 90; 255;  240; 16; 255]) (pl 2 [128; 240;  16; 128])
  (Some (I400, pl 3 [0; 1; 2; 3; 4; 5; 6; 7; 255])).
Lemma plane8 big p w h : zlen (data p) = stride p * h -> w <= stride p -> Forall (fun b => 0 <= b <= 255) (data p) -> plane_ok big 8 p w h.
Proof.
  intros H1 H2 H3. split; [exact H1|]. split; [cbn; lia|]. split; [exact H3|]. intros x y _ _. unfold sample. cbn.
  pose proof (elt_byte (data p) (y * stride p + x) H3) as E. unfold elt in E. lia.
Qed.
Ltac p8 := apply plane8; [reflexivity|cbn; lia|repeat constructor; lia].
Example C60_pixels_nonvacuous : picture_ok false pic420 /\
  read_image false false pic420 (repeat 7 36) =
    Ok [0; 0; 0; 0;  98; 98; 98; 1;  255; 203; 175; 2;  40; 40; 40; 3;  51; 51; 51; 4;  255; 11; 0; 5;  0; 111; 255; 6;  0; 122; 255; 7;  255; 255; 42; 255].
Proof.
  split; [|vm_compute; reflexivity]. split; [left; reflexivity|]. split; [reflexivity|]. split; [reflexivity|]. split; [p8|]. split; [intros _; split; p8|].
  split; [right; discriminate|]. intros l a E. injection E as <- <-. split; [reflexivity|p8].
Qed.
Definition dot (d y u v : Z) (l : layout) (r : yuv_range) (c : coefficients) : picture :=
  let q s := if d =? 8 then pl 1 [s] else pl 2 [s mod 256; s / 256] in mkPic d 1 1 l r c (q y) (q u) (q v) None.
Lemma dot_ok d y u v l r c : depth_ok d -> 0 <= y < 2 ^ d -> 0 <= u < 2 ^ d -> 0 <= v < 2 ^ d -> l <> I420 -> l <> I422 -> used c <> None -> picture_ok false (dot d y u v l r c).
Proof.
  intros Hd Hy Hu Hv L1 L2 Hc. destruct (max_ok d Hd) as (_ & M & _).
  assert (P : forall s, 0 <= s < 2 ^ d -> plane_ok false d (if d =? 8 then pl 1 [s] else pl 2 [s mod 256; s / 256]) 1 1).
  { intros s Hs. destruct (Z.eqb_spec d 8) as [->|D8].
    - change (2 ^ 8) with 256 in Hs. apply plane8; [reflexivity|cbn; lia|repeat constructor; lia].
    - split; [reflexivity|]. split; [destruct (Z.eqb_spec d 8); [contradiction|cbn; lia]|]. pose proof (Z.mod_pos_bound s 256 ltac:(lia)). pose proof (Z.div_mod s 256 ltac:(lia)).
      assert (0 <= s / 256) by (apply Z.div_pos; lia). split; [repeat constructor; lia|].
      intros x0 y0 Hx0 Hy0. assert (x0 = 0) by lia. assert (y0 = 0) by lia. subst. unfold sample. destruct (Z.eqb_spec d 8); [contradiction|]. change (s mod 256 + 256 * (s / 256) < 2 ^ d). lia. }
  unfold picture_ok, dot. cbn [depth pw ph lay py pu pv mc alpha]. split; [exact Hd|]. split; [lia|]. split; [lia|]. split; [apply P; assumption|]. split; [|split; [right; exact Hc|discriminate]].
  intros _. destruct l; try congruence; cbn [is_444]; split; apply P; assumption.
Qed.
(** 12 bits, limited range: nominal white comes out one step short *)
Theorem C60_white12_refuted : exists p, picture_ok false p /\ depth p = 12 /\ rng p = Tv /\ Yat false p 0 0 = 3760 /\
  luma 12 Tv 3760 = white 12 /\ forall al buf out, zlen buf = 8 -> read_image false al p buf = Ok out -> out_at false 12 1 out 0 0 0 = 4094 * 16.
Proof.
  exists (dot 12 3760 0 0 I400 Tv MCBT709). split; [apply dot_ok; try discriminate; try (cbn; lia); right; right; reflexivity|]. do 3 (split; [reflexivity|]). split.
  - unfold luma, white. change (2 ^ (12 - 8)) with 16. change (2 ^ 12 - 1) with 4095. field.
  - intros al buf out Hb. assert (HL : length buf = 8%nat) by (unfold zlen in Hb; lia). destruct buf as [|b0 [|b1 [|b2 [|b3 [|b4 [|b5 [|b6 [|b7 [|? ?]]]]]]]]]; try discriminate HL.
    destruct al; (intros E; apply Ok_inj in E; subst out; vm_compute; reflexivity).
Qed.
Lemma len4 (buf : list Z) : zlen buf = 4 -> exists a b c d, buf = [a; b; c; d].
Proof. intros Hb. assert (HL : length buf = 4%nat) by (unfold zlen in Hb; lia). destruct buf as [|b0 [|b1 [|b2 [|b3 [|? ?]]]]]; try discriminate HL. do 4 eexists; reflexivity. Qed.
Lemma dot_red c v al buf out : (c = MCST170M /\ v = 241) \/ (c = MCST240M /\ v = 241) \/ (c = MCBT470M /\ v = 224) -> zlen buf = 4 ->
  read_image false al (dot 8 128 128 190 I444 Pc c) buf = Ok out -> out_at false 8 1 out 0 0 0 = v.
Proof.
  intros Hc Hb E. destruct (len4 buf Hb) as (a & b & c' & d & ->).
  assert (Q : exists g bl, read_image false al (dot 8 128 128 190 I444 Pc c) [a; b; c'; d] = Ok [v; g; bl; 255]).
  { destruct Hc as [[-> ->]|[[-> ->]|[-> ->]]]; do 2 eexists; vm_compute; reflexivity. }
  destruct Q as (g & bl & Q). rewrite E in Q. apply Ok_inj in Q. subst out. reflexivity.
Qed.
(** SMPTE 170M, SMPTE 240M and BT.470M pictures are decoded with other coefficients than theirs: 8-bit samples off by 9 to 26 *)
Theorem C60_matrix_refuted c : c = MCST170M \/ c = MCST240M \/ c = MCBT470M ->
  exists p kr kb, picture_ok false p /\ mc p = c /\ h273 c = Some (kr, kb) /\ depth p = 8 /\
    forall al buf out, zlen buf = 4 -> read_image false al p buf = Ok out ->
      let Y := luma 8 (rng p) (Yat false p 0 0) in let Cb := chroma 8 (rng p) (Uat false p 0 0) in let Cr := chroma 8 (rng p) (Vat false p 0 0) in
      (Rabs (IZR (out_at false 8 1 out 0 0 0) - limit 8 (red kr kb Y Cb Cr)) > 8)%R.
Proof.
  assert (YY : forall c, Yat false (dot 8 128 128 190 I444 Pc c) 0 0 = 128) by reflexivity. assert (UU : forall c, Uat false (dot 8 128 128 190 I444 Pc c) 0 0 = 128) by reflexivity.
  assert (VV : forall c, Vat false (dot 8 128 128 190 I444 Pc c) 0 0 = 190) by reflexivity. assert (RR : forall c, rng (dot 8 128 128 190 I444 Pc c) = Pc) by reflexivity.
  intros [-> |[-> | ->]];
    [exists (dot 8 128 128 190 I444 Pc MCST170M), 0.299%R, 0.114%R; pose proof (dot_red MCST170M 241) as Q
    |exists (dot 8 128 128 190 I444 Pc MCST240M), 0.212%R, 0.087%R; pose proof (dot_red MCST240M 241) as Q
    |exists (dot 8 128 128 190 I444 Pc MCBT470M), 0.30%R, 0.11%R; pose proof (dot_red MCBT470M 224) as Q];
  (split; [apply dot_ok; try discriminate; try (cbn; lia); left; reflexivity|]); (split; [reflexivity|]); (split; [reflexivity|]); (split; [reflexivity|]);
  intros al buf out Hb E; rewrite (Q al buf out ltac:(auto) Hb E); clear Q E; rewrite YY, UU, VV, RR; cbv zeta; unfold luma, chroma, red, limit, white;
  change (2 ^ (8 - 1)) with 128; change (2 ^ 8 - 1) with 255;
  unfold Rmax, Rmin; repeat destruct (Rle_dec _ _); unfold Rabs; destruct (Rcase_abs _); lra.
Qed.
Example C60_black_white_nonvacuous : picture_ok false (dot 8 235 128 128 I444 Tv MCBT709) /\ Yat false (dot 8 235 128 128 I444 Tv MCBT709) 0 0 = 235.
Proof. split; [|reflexivity]. apply dot_ok; try discriminate; try (cbn; lia). left; reflexivity. Qed.
Example C60_opaque_nonvacuous : picture_ok false (dot 10 512 512 512 I444 Tv MCBT709) /\
  exists out, read_image false true (dot 10 512 512 512 I444 Tv MCBT709) (repeat 0 8) = Ok out /\ out_at false 10 1 out 0 0 3 = 65472.
Proof. split; [apply dot_ok; try discriminate; try (cbn; lia); right; left; reflexivity|]. eexists. split; vm_compute; reflexivity. Qed.
Example C60_wrong_length_nonvacuous : read_image false true (mkPic 8 1 2 I400 Pc MCBT709 (pl 1 [5]) (pl 0 []) (pl 0 []) None) (repeat 0 8) = Err EDecoding.
Proof. vm_compute. reflexivity. Qed.

Definition c60_theorems := (C60_pixels, C60_standard, C60_black_white, C60_wrong_length, C60_unsupported, C60_opaque_refuted, C60_white12_refuted, C60_matrix_refuted).
Print Assumptions c60_theorems.
