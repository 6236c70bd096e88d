(** C33: GIF composition. *)
From Verif Require Import Base BaseLemmas ListLemmas ListMore GenImage GenImageProofs Color ColorProofs OverlayProofs Delay Gif GifSpec GifProofs.
Local Open Scope Z_scope.

(** The frame iterator yields, for any sequence of frames (any rectangles, also outside the screen, any disposal methods), the
    reference composition and the frame's delay (10 ms units), and then ends. *)
Theorem C33_composition : forall W H fs, is_u16 W -> is_u16 H -> Forall gframe_ok fs ->
  exists final outs, gif_frames (length fs) (giter_new W H (gstream fs)) = (final, outs) /\
    Forall2 (gframe_shown W H) outs (combine (gif_reference gblank fs) (map fst fs)) /\
    forall n, snd (gif_frames n final) = repeat None n.
Proof.
  intros W H fs BW BH F.
  destruct (gif_run W H fs BW BH F (giter_new W H (gstream fs)) gblank) as (s' & outs & E & R & FF); auto.
  { cbn [giter_new gi_nd]. apply gshows_new; unfold is_u16 in *; lia. }
  exists s', outs. split; [exact E|]. split; [exact FF|]. clear E FF outs. intros n. revert s' R. induction n as [|n IH]; intros s' R; [reflexivity|].
  cbn [gif_frames]. unfold gif_next. rewrite R.
  match goal with |- context [gif_frames n ?x] => specialize (IH x eq_refl); destruct (gif_frames n x) end. cbn [snd] in *. rewrite IH. reflexivity.
Qed.
Print Assumptions C33_composition.

(** Decoding as a still image: the pixels of the first frame at its place on the screen, transparent black elsewhere, whatever
    the buffer contained; both code paths.  The result is the RGBA bytes row by row. *)
Theorem C33_still : forall W H buf f d rest, is_u16 W -> is_u16 H -> zlen buf = W * H * 4 -> gframe_ok (f, d) ->
  exists out, gif_read_image W H buf ((f, Ok d) :: rest) = Ok out /\ zlen out = W * H * 4 /\
    forall x y, 0 <= x < W -> 0 <= y < H ->
      zslice out ((y * W + x) * 4) 4 = if inside f x y then fpix f d x y else [0; 0; 0; 0].
Proof.
  intros W H buf f d rest BW BH Lb OK. pose proof OK as (A & B & C & D & E & L). cbn [fst snd] in *.
  unfold is_u16, u16_max in *. unfold gif_read_image. rewrite Lb, Z.eqb_refl. cbn [negb].
  unfold frame_delay, mul_m. replace (g_delay f * 10 <=? u32_max) with true by (unfold u32_max; lia). cbn [bind ratio_new Z.eqb].
  assert (PW : 0 <= W * H) by (apply Z.mul_nonneg_nonneg; lia).
  destruct ((g_left f =? 0) && (g_w f =? W) && (g_top f + g_h f <=? H)) eqn:Fast.
  - assert (g_left f = 0 /\ g_w f = W /\ g_top f + g_h f <= H) as (L0 & W0 & T0) by lia.
    assert (M1 : 0 <= W * g_top f) by (apply Z.mul_nonneg_nonneg; lia). assert (M2 : 0 <= W * g_h f) by (apply Z.mul_nonneg_nonneg; lia).
    assert (M3 : W * g_top f + W * g_h f <= W * H) by (rewrite <- Z.mul_add_distr_l; apply Z.mul_le_mono_nonneg_l; lia).
    replace (W * H * 4 <? W * 4 * g_top f) with false by lia. replace (W * H * 4 - W * 4 * g_top f <? W * 4 * g_h f) with false by lia.
    replace (zlen d =? W * 4 * g_h f) with true by (rewrite L, W0; lia). cbn [negb]. eexists. split; [reflexivity|].
    rewrite W0 in L. assert (ZR : forall n, 0 <= n -> zlen (repeat 0 (Z.to_nat n)) = n) by (intros; unfold zlen; rewrite repeat_length; lia).
    split; [rewrite !zlen_app, !ZR by lia; lia|]. intros x y Hx Hy.
    assert (Zs : forall n o, 0 <= o -> o + 4 <= n -> zslice (repeat 0 (Z.to_nat n)) o 4 = [0; 0; 0; 0]).
    { intros n o Ho Hn. apply (zget_ext (zslice (repeat 0 (Z.to_nat n)) o 4) [0; 0; 0; 0]); rewrite zlen_zslice_gen, ZR by lia; [cbn; lia|].
      intros i Hi. rewrite zget_zslice_gen by lia. replace ((0 <=? i) && (i <? 4)) with true by lia.
      destruct (zget_some (repeat 0 (Z.to_nat n)) (o + i)) as (v & Hv); [rewrite ZR; lia|].
      assert (v = 0) by (apply zget_In in Hv; apply repeat_spec in Hv; auto). subst v. rewrite Hv.
      assert (i = 0 \/ i = 1 \/ i = 2 \/ i = 3) as [->|[->|[->| ->]]] by lia; reflexivity. }
    unfold inside, fpix. rewrite L0, W0.
    destruct (Z_lt_dec y (g_top f)).
    + replace ((0 <=? x) && (x <? 0 + W) && (g_top f <=? y) && (y <? g_top f + g_h f)) with false by lia.
      assert ((y * W + x) * 4 + 4 <= W * 4 * g_top f) by nia. rewrite zslice_app1 by (rewrite ?ZR by lia; lia). apply Zs; lia.
    + assert (0 <= W * (y - g_top f)) by (apply Z.mul_nonneg_nonneg; lia).
      rewrite zslice_app2 by (rewrite ?ZR by lia; lia). rewrite ZR by lia. destruct (Z_lt_dec y (g_top f + g_h f)).
      * replace ((0 <=? x) && (x <? 0 + W) && (g_top f <=? y) && (y <? g_top f + g_h f)) with true by lia.
        assert ((y - g_top f) * W + x < W * g_h f) by nia. rewrite zslice_app1 by lia. f_equal. lia.
      * replace ((0 <=? x) && (x <? 0 + W) && (g_top f <=? y) && (y <? g_top f + g_h f)) with false by lia.
        assert (0 <= W * (y - (g_top f + g_h f))) by (apply Z.mul_nonneg_nonneg; lia).
        rewrite zslice_app2 by (rewrite ?L; lia). apply Zs; [rewrite L; lia|]. rewrite L.
        assert (y * W + x + 1 <= W * H) by nia. lia.
  - destruct (frame_of_ok f d OK) as (fb & Ef & F1 & F2 & F3 & F4). cbn [bind]. rewrite Ef. unfold frame_of at 1. rewrite Lb. rewrite Z.leb_refl.
    set (out := map (fun c => if inside f (fst c) (snd c) then fpix f d (fst c) (snd c) else [0; 0; 0; 0]) (coords W H)).
    assert (LF : Forall (fun c => zlen c = 4) out).
    { unfold out. apply Forall_forall. intros p Hp. apply in_map_iff in Hp. destruct Hp as ([x y] & <- & Hc). cbn [fst snd].
      destruct (inside f x y) eqn:I; [apply fpix_len; auto|reflexivity]. }
    rewrite (map_res_ok _ (fun c => if inside f (fst c) (snd c) then fpix f d (fst c) (snd c) else [0; 0; 0; 0])).
    2:{ intros [x y] Hc. apply In_coords in Hc. cbn [fst snd]. 
        destruct (wsub_in x (g_left f) (g_w f)) as [Ix Dx]; [unfold is_u16, u16_max; lia|auto|auto|].
        destruct (wsub_in y (g_top f) (g_h f)) as [Iy Dy]; [unfold is_u16, u16_max; lia|auto|auto|].
        assert (IN : (wsub x (g_left f) <? g_w f) && (wsub y (g_top f) <? g_h f) = inside f x y).
        { rewrite Ix, Iy. unfold inside. rewrite !Bool.andb_assoc. reflexivity. }
        rewrite IN. destruct (inside f x y) eqn:I; [|reflexivity]. unfold inside in I. rewrite Dx, Dy by lia. unfold get_pixel. rewrite F4 by lia. reflexivity. }
    cbn [bind]. fold out. exists (concat out). split; [reflexivity|].
    assert (LO : zlen out = W * H) by (unfold out; rewrite zlen_map; apply zlen_coords; lia).
    split; [rewrite (zlen_concat 4) by auto; lia|]. intros x y Hx Hy.
    assert (I : 0 <= y * W + x < W * H) by (apply idx_range; lia).
    rewrite (zslice_concat 4) with (c := if inside f x y then fpix f d x y else [0; 0; 0; 0]); auto; try lia.
    unfold out. rewrite zget_map. rewrite zget_coords by lia. cbn [option_map fst snd].
    replace ((y * W + x) mod W) with x; [replace ((y * W + x) / W) with y; [reflexivity|]|].
    + rewrite Z.div_add_l, (Z.div_small x) by lia. lia.
    + rewrite Z.add_comm, Z.mod_add, Z.mod_small by lia. reflexivity.
Qed.
Print Assumptions C33_still.

(** Encoder: a frame is accepted exactly when both dimensions fit 16 bits; it covers the whole screen from the origin and is
    disposed to background; the stored delay is the delay rounded down to 10 ms, saturated, so that the decoded delay
    never exceeds the original and is less than 10 ms short of it below 655.36 s. *)
Theorem C33_encode_frame : forall w h n dn, is_u32 w -> is_u32 h -> is_u32 n -> is_u32 dn -> 0 < dn ->
  (u16_max < w \/ u16_max < h -> convert_frame w h (mkRatio n dn) = Err EParameter) /\
  (w <= u16_max -> h <= u16_max -> exists f, convert_frame w h (mkRatio n dn) = Ok f /\
     g_left f = 0 /\ g_top f = 0 /\ g_w f = w /\ g_h f = h /\ g_disp f = GBackground /\ is_u16 (g_delay f) /\
     exists ms, frame_delay f = Ok (mkRatio ms 1) /\ ms * dn <= n /\
       (n < 655360 * dn -> n < (ms + 10) * dn) /\ (655360 * dn <= n -> ms = 655350)).
Proof.
  unfold is_u32. intros w h n dn Hw Hh Hn Hd D0. unfold convert_frame, to_integer. cbn [denom numer]. replace (dn =? 0) with false by lia. cbn [bind].
  unfold gif_dimensions. split.
  - intros G. replace ((w <=? u16_max) && (h <=? u16_max)) with false by lia. reflexivity.
  - intros Gw Gh. replace ((w <=? u16_max) && (h <=? u16_max)) with true by lia. cbn [bind]. eexists. split; [reflexivity|]. cbn [g_left g_top g_w g_h g_disp g_delay].
    do 5 (split; [reflexivity|]).
    assert (Q : n / dn / 10 = n / (dn * 10)) by (apply Z.div_div; lia).
    pose proof (Z.div_mod n (dn * 10) ltac:(lia)) as DM. pose proof (Z.mod_pos_bound n (dn * 10) ltac:(lia)) as MB.
    assert (0 <= n / dn / 10) by (rewrite Q; apply Z.div_pos; lia). set (q := n / dn / 10) in *. rewrite <- Q in DM. set (r := n mod (dn * 10)) in *. clearbody q r. clear Q.
    unfold is_u16, frame_delay, mul_m, u16_max in *. cbn [g_delay]. split; [destruct (q <=? 65535) eqn:Le; lia|].
    exists ((if q <=? 65535 then q else 65535) * 10). destruct (Z.leb_spec q 65535).
    + replace (q * 10 <=? u32_max) with true by (unfold u32_max; lia). cbn [bind ratio_new Z.eqb]. split; [reflexivity|]. split; [nia|]. split; [nia|].
      intros G. assert (655360 * dn <= q * (dn * 10) + r) by lia. nia.
    + change (65535 * 10 <=? u32_max) with true. cbn [bind ratio_new Z.eqb]. split; [reflexivity|]. split; [nia|]. split; [nia|]. reflexivity.
Qed.
Print Assumptions C33_encode_frame.

(** frames produced by this encoder do not bleed into each other: each is shown as itself on a transparent screen *)
Theorem C33_encoded_frames_independent : forall W H fs,
  Forall (fun fd => let f := fst fd in g_left f = 0 /\ g_top f = 0 /\ g_w f = W /\ g_h f = H /\ g_disp f = GBackground) fs ->
  Forall2 (fun (c : gcanvas) fd => forall x y, 0 <= x < W -> 0 <= y < H ->
      c x y = if opaque (fpix (fst fd) (snd fd) x y) then fpix (fst fd) (snd fd) x y else [0; 0; 0; 0])
    (gif_reference gblank fs) fs.
Proof.
  intros W H fs F. assert (G : forall c, (forall x y, 0 <= x < W -> 0 <= y < H -> c x y = [0; 0; 0; 0]) ->
    Forall2 (fun (c : gcanvas) fd => forall x y, 0 <= x < W -> 0 <= y < H ->
      c x y = if opaque (fpix (fst fd) (snd fd) x y) then fpix (fst fd) (snd fd) x y else [0; 0; 0; 0]) (gif_reference c fs) fs).
  { induction F as [|[f d] fs (A & B & C & D & E) F IH]; intros c Hc; [constructor|]. cbn [fst snd] in *. cbn [gif_reference].
    assert (I : forall x y, 0 <= x < W -> 0 <= y < H -> inside f x y = true) by (intros; unfold inside; lia).
    constructor; [|apply IH].
    - intros x y Hx Hy. cbn [fst snd]. unfold gdrawn. rewrite I by auto. cbn [andb]. rewrite Hc by auto. reflexivity.
    - intros x y Hx Hy. unfold gdisposed. rewrite I, E by auto. reflexivity. }
  apply G. intros. reflexivity.
Qed.
Print Assumptions C33_encoded_frames_independent.

(** 2x2 screen; a frame reaching outside the screen, a transparent pixel, all disposals *)
Definition gif_demo : list (gframe * list Z) :=
  [(mkG 0 0 2 2 GKeep 5, [1;1;1;255; 2;2;2;255; 3;3;3;255; 4;4;4;255]);
   (mkG 1 1 2 2 GPrevious 65535, [9;9;9;255; 8;8;8;255; 8;8;8;255; 8;8;8;255]);
   (mkG 0 1 2 1 GBackground 0, [5;5;5;0; 6;6;6;255]);
   (mkG 1 0 1 1 GAny 1, [7;7;7;255])].
Example C33_example : Forall gframe_ok gif_demo /\
  map (fun o => match o with Some (Ok (im, d)) => (map (fun p => nth 0 p 99) (px im), numer d) | _ => ([], 0) end)
    (snd (gif_frames 4 (giter_new 2 2 (gstream gif_demo))))
  = [([1; 2; 3; 4], 50); ([1; 2; 3; 9], 655350); ([1; 2; 3; 6], 0); ([1; 7; 0; 0], 10)].
Proof.
  split; [|vm_compute; reflexivity]. unfold gif_demo, gframe_ok, is_u16, u16_max.
  repeat (apply Forall_cons; [cbn [fst snd g_left g_top g_w g_h g_delay]; repeat (split; [lia|]); reflexivity|]). constructor.
Qed.
Example C33_still_example :
  gif_read_image 2 2 (repeat 77 16) [(mkG 1 1 2 2 GPrevious 3, Ok [9;9;9;255; 8;8;8;255; 8;8;8;255; 8;8;8;255])] = Ok (repeat 0 12 ++ [9; 9; 9; 255]) /\
  gif_read_image 2 2 (repeat 77 16) [(mkG 0 1 2 1 GPrevious 3, Ok [9;9;9;255; 8;8;8;255])] = Ok (repeat 0 8 ++ [9; 9; 9; 255; 8; 8; 8; 255]).
Proof. split; vm_compute; reflexivity. Qed.
