(** C63: TIFF, what this crate does around the tiff crate. *)
From Coq Require Import Reals Psatz.
From Flocq Require Import Core BinarySingleNaN.
From Verif Require Import Base BaseLemmas ListLemmas ListMore Float FloatProofs Color ColorF Limits LimitsProofs ColorType ColorTypeProps Reader ReaderProofs Tiff TiffProofs ReaderProps.
Local Open Scope Z_scope.

(** the colour types that are accepted, and what they are decoded to *)
Definition accepted : list (tiff_color * ctype * ectype) :=
  [ (TGray 8, CL8, XL8); (TGray 16, CL16, XL16); (TGrayA 8, CLa8, XLa8); (TGrayA 16, CLa16, XLa16);
    (TRGB 8, CRgb8, XRgb8); (TRGB 16, CRgb16, XRgb16); (TRGBA 8, CRgba8, XRgba8); (TRGBA 16, CRgba16, XRgba16); (TCMYK 8, CRgb8, XCmyk8) ].

Lemma formats_iff fs : check_sample_formats fs = Ok tt <-> Forall (fun f => f = 1) fs.
Proof.
  induction fs as [|f fs IH]; cbn [check_sample_formats]; [split; auto|]. unfold check_sample_format at 1. split.
  - intros H. destruct (Z.eqb_spec f 1) as [->|N]; [constructor; [reflexivity|apply IH; exact H]|]. destruct (_ || _); discriminate.
  - intros H. inversion H as [|? ? H1 H2]; subst. cbn. apply IH. exact H2.
Qed.
Lemma formats_total fs : check_sample_formats fs = Ok tt \/ check_sample_formats fs = Err EUnsupported \/ check_sample_formats fs = Err EDecoding.
Proof. induction fs as [|f fs IH]; cbn [check_sample_formats]; [auto|]. unfold check_sample_format. destruct (f =? 1); [exact IH|]. destruct (_ || _); cbn; auto. Qed.

(** Which files are opened: those whose sample formats are all unsigned integers and whose colour type is in the table; every other file is an error, never a panic. *)
Theorem C63_open w h c fs : 
  (forall d, tiff_new w h c fs = Ok d <-> (forall l, fs = Some l -> Forall (fun f => f = 1) l) /\ In (c, t_ct d, t_orig d) accepted /\ t_w d = w /\ t_h d = h) /\
  tiff_new w h c fs <> Panic.
Proof.
  split.
  - intros [w' h' ct o]. cbn [t_ct t_orig t_w t_h]. unfold tiff_new. split.
    + intros H. apply bind_ok in H. destruct H as ([] & H1 & H). split. { intros l ->. apply formats_iff. exact H1. }
      destruct c as [n|n|n|n|n|n|n]; cbn [tiff_ctype] in H; try discriminate; destruct (Z.eqb_spec n 8) as [->|?]; try destruct (Z.eqb_spec n 16) as [->|?]; cbn [bind] in H; try discriminate;
        apply Ok_inj in H; injection H as <- <- <- <-; (split; [cbn [accepted In Z.eqb Pos.eqb ect_of]; tauto|split; reflexivity]).
    + intros (H1 & H2 & -> & ->). assert (E : match fs with Some l => check_sample_formats l | None => Ok tt end = Ok tt) by (destruct fs as [l|]; [apply formats_iff, H1; reflexivity|reflexivity]).
      rewrite E. cbn [bind]. cbn [accepted In] in H2. repeat (destruct H2 as [H2|H2]; [injection H2 as <- <- <-; reflexivity|]). contradiction.
  - unfold tiff_new. assert (E : match fs with Some l => check_sample_formats l | None => Ok tt end <> Panic) by (destruct fs as [l|]; [destruct (formats_total l) as [H|[H|H]]; rewrite H; discriminate|discriminate]).
    destruct (match fs with Some l => check_sample_formats l | None => Ok tt end); cbn [bind]; [|discriminate|contradiction].
    destruct c as [n|n|n|n|n|n|n]; cbn [tiff_ctype]; try discriminate; destruct (n =? 8); try destruct (n =? 16); cbn [bind]; discriminate.
Qed.

(** The light an ink coverage c under black k leaves: (255 - c)(255 - k) / 255, rounded down, except that an exact integer may come out one too small;
    without black it is exactly 255 - c. *)
Definition ink_to_light (c k o : Z) : Prop :=
  0 <= o /\ o <= (255 - c) * (255 - k) / 255 /\ ((255 - c) * (255 - k) - 1) / 255 <= o /\ (k = 0 -> o = 255 - c).

(** CMYK: for a decoded w x h image every output sample is the light of the corresponding ink and black samples, in order. *)
Theorem C63_cmyk d v buf : is_u32 (t_w d) -> is_u32 (t_h d) -> t_ct d = CRgb8 -> t_orig d = XCmyk8 -> bytes v -> zlen v = 4 * (t_w d * t_h d) -> zlen buf = 3 * (t_w d * t_h d) -> zlen buf <= u64_max ->
  exists out, tiff_read d (Ok (RU8 v)) buf = Ok out /\ zlen out = zlen buf /\
    forall i j, 0 <= i < t_w d * t_h d -> 0 <= j < 3 -> exists c k o, zget v (4 * i + j) = Some c /\ zget v (4 * i + 3) = Some k /\ zget out (3 * i + j) = Some o /\ ink_to_light c k o.
Proof.
  intros Hw Hh Ec Eo Bv Lv Lb Lu. set (n := t_w d * t_h d) in *. assert (N0 : 0 <= n) by (unfold n, is_u32 in *; apply Z.mul_nonneg_nonneg; lia).
  assert (Ech : chunks_exact 4 v = map (fun i => zslice v (i * 4) 4) (zrange 0 n)).
  { replace v with (zslice v 0 (n * 4)) at 1 by (rewrite <- (zslice_full v (n * 4)) at 2 by lia; reflexivity). rewrite chunks_exact_slices by lia. apply map_ext. intros i. f_equal. }
  assert (F4 : Forall (fun p => zlen p = 4) (chunks_exact 4 v)).
  { rewrite Ech. apply Forall_map_iff, Forall_forall. intros i Hi. apply In_zrange in Hi. rewrite zlen_zslice_gen; lia. }
  assert (Ln : zlen (chunks_exact 4 v) = n) by (rewrite Ech, zlen_map, zlen_zrange; lia).
  destruct (cmyk_loop (chunks_exact 4 v) [] buf F4) as (outs & F2 & E). { lia. }
  unfold tiff_read. rewrite C25_total_bytes by auto. fold n. rewrite Ec. cbn [ct_bytes bind].
  assert (n * 3 <= u64_max) by lia.
  replace (n * 3 <=? u64_max) with true by lia. replace (zlen buf =? n * 3) with true by lia. cbn [negb]. unfold is_cmyk. rewrite Eo.
  cbn [app] in E. change (zlen (@nil Z)) with 0 in E. rewrite E. cbn [bind]. rewrite Ln. rewrite skipn_all2 by (unfold zlen in Lb; lia). rewrite app_nil_r.
  assert (F3 : Forall (fun o => zlen o = 3) outs). { clear -F2. induction F2 as [|? ? ? ? [? ?]]; constructor; auto. }
  assert (Lo : zlen outs = n). { assert (LL : length (chunks_exact 4 v) = length outs) by (clear -F2; induction F2; cbn; congruence). unfold zlen in *. lia. }
  exists (concat outs). split; [reflexivity|]. split; [rewrite (zlen_concat 3) by exact F3; lia|].
  intros i j Hi Hj.
  assert (G : exists o, zget outs i = Some o /\ cmyk_to_rgb (zslice v (i * 4) 4) = Ok o).
  { destruct (zget_some outs i) as (o & Go); [lia|]. exists o. split; [exact Go|].
    assert (Gp : zget (chunks_exact 4 v) i = Some (zslice v (i * 4) 4)) by (rewrite Ech, zget_map, zget_zrange by lia; reflexivity).
    generalize dependent (zslice v (i * 4) 4). clear -F2 Go. intros p0 Gp. revert i Go Gp. induction F2 as [|p q ps qs [E _] F IH]; intros i Go Gp; [rewrite zget_nil in Go; discriminate|].
    rewrite zget_cons in Go, Gp. destruct (i =? 0) eqn:Z0; [apply Some_inj in Go; apply Some_inj in Gp; subst; exact E|]. exact (IH _ Go Gp). }
  destruct G as (o & Go & Eo').
  assert (Sl : zslice (concat outs) (i * 3) 3 = o) by (apply zslice_concat; auto; lia).
  assert (Gv : forall t, 0 <= t < 4 -> zget (zslice v (i * 4) 4) t = zget v (4 * i + t)) by (intros t Ht; rewrite zget_zslice by lia; f_equal; lia).
  assert (Go3 : zget (concat outs) (3 * i + j) = zget o j) by (rewrite <- Sl, zget_zslice by lia; f_equal; lia).
  assert (L4 : zlen (zslice v (i * 4) 4) = 4) by (rewrite zlen_zslice_gen; lia).
  assert (B4 : bytes (zslice v (i * 4) 4)) by (apply Forall_zslice; exact Bv).
  destruct (zslice v (i * 4) 4) as [|a [|b [|c [|k [|? ?]]]]] eqn:Es; try (rewrite ?zlen_cons in L4; unfold zlen in L4; cbn [length] in L4; lia).
  cbn [cmyk_to_rgb] in Eo'. apply Ok_inj in Eo'. subst o. unfold bytes in B4. repeat match goal with H : Forall is_u8 (_ :: _) |- _ => inversion H; clear H; subst end.
  unfold is_u8, u8_max in *.
  assert (K : zget v (4 * i + 3) = Some k) by (rewrite <- Gv by lia; reflexivity).
  assert (J : j = 0 \/ j = 1 \/ j = 2) by lia. rewrite Go3.
  destruct J as [->|[->| ->]]; [exists a|exists b|exists c]; exists k; eexists; (split; [rewrite <- Gv by lia; reflexivity|]; split; [exact K|]; split; [reflexivity|]).
  all: unfold ink_to_light; match goal with |- context [cmyk_chan ?x ?y] => destruct (chan_ok x y) as (? & [? ?] & ?); auto end.
Qed.
(** the rounding is not exact: full light under black 65 is 190, the code answers 189 *)
Theorem C63_cmyk_exact_refuted : 255 * (255 - 65) = 190 * 255 /\ cmyk_to_rgb [0; 0; 0; 65] = Ok [189; 189; 189].
Proof. split; [reflexivity|vm_compute; reflexivity]. Qed.

(** Every other colour type: the decoded samples are the output, byte for byte; a sample vector of another size is a panic. *)
Theorem C63_read d v buf : is_u32 (t_w d) -> is_u32 (t_h d) -> t_orig d <> XCmyk8 -> zlen buf = t_w d * t_h d * ct_bytes (t_ct d) -> zlen buf <= u64_max ->
  let r := match v with RU8 b | ROther b => b end in
  (zlen r = zlen buf -> tiff_read d (Ok v) buf = Ok r) /\ (zlen r <> zlen buf -> tiff_read d (Ok v) buf = Panic) /\ (forall e, tiff_read d (Err e) buf = Err e).
Proof.
  intros Hw Hh No Lb Lu r. unfold tiff_read. rewrite C25_total_bytes by auto. rewrite <- Lb. cbn [bind]. replace (zlen buf <=? u64_max) with true by lia. rewrite Z.eqb_refl. cbn [negb].
  assert (Nc : is_cmyk d = false) by (unfold is_cmyk; destruct (t_orig d); congruence). rewrite Nc. unfold copy_from, r.
  split; [|split].
  - intros L. destruct v; cbn [bind]; rewrite L, Z.eqb_refl; reflexivity.
  - intros L. destruct v; cbn [bind]; destruct (Z.eqb_spec (zlen buf) (zlen l)) || destruct (Z.eqb_spec (zlen buf) (zlen v)) || destruct (Z.eqb_spec (zlen buf) (zlen b)); try reflexivity; congruence.
  - reflexivity.
Qed.

(** bytes the decoded samples of an accepted file take (CMYK is estimated at 16 bytes a pixel) *)
Definition needed (d : tdec) : Z := t_w d * t_h d * (match t_orig d with XCmyk8 => 16 | _ => ct_bytes (t_ct d) end).
(** set_limits splits the memory budget between the decoded image and everything else, never handing out more than the budget in total. *)
Theorem C63_limits d l : is_u32 (t_w d) -> is_u32 (t_h d) -> (forall b, max_alloc l = Some b -> 0 <= b <= u64_max) ->
  (check_dimensions l (t_w d) (t_h d) = Ok tt -> let budget := match max_alloc l with Some b => b | None => u64_max end in
     exists dbs ibs, tiff_set_limits d l = Ok (dbs, ibs) /\ dbs + ibs = budget /\ 0 <= ibs /\ dbs = Z.min budget (needed d)) /\
  (check_dimensions l (t_w d) (t_h d) <> Ok tt -> tiff_set_limits d l = Err ELimits).
Proof.
  intros Hw Hh Hb. unfold tiff_set_limits. split.
  - intros E. rewrite E. cbn [bind]. set (budget := match max_alloc l with Some b => b | None => u64_max end). unfold total_bytes_buffer.
    assert (W : 0 <= t_w d * t_h d <= u64_max) by (unfold is_u32, u32_max, u64_max in *; nia).
    replace (u64_max <? t_w d * t_h d) with false by lia. cbn [bind].
    assert (Nd : sat_mul_u64 (t_w d * t_h d) (if is_cmyk d then 16 else ct_bytes (t_ct d)) = Z.min u64_max (needed d)) by (unfold sat_mul_u64, needed, is_cmyk; destruct (t_orig d); reflexivity).
    rewrite Nd. assert (N0 : 0 <= needed d). { unfold needed. apply Z.mul_nonneg_nonneg; [lia|]. destruct (t_orig d), (t_ct d); cbn; lia. }
    assert (Bu : 0 <= budget <= u64_max). { unfold budget. destruct (max_alloc l) as [b|]; [apply Hb; reflexivity|unfold u64_max; lia]. }
    eexists. eexists. split; [reflexivity|]. lia.
  - intros N. destruct (check_dimensions l (t_w d) (t_h d)) as [[]|e|] eqn:E; [congruence| |].
    + cbn [bind]. unfold check_dimensions in E. destruct (max_image_width l), (max_image_height l); repeat match type of E with context [if ?b then _ else _] => destruct b end; congruence.
    + unfold check_dimensions in E. destruct (max_image_width l), (max_image_height l); repeat match type of E with context [if ?b then _ else _] => destruct b end; discriminate.
Qed.

(** ImageReader::decode first takes the image's bytes out of the budget and then gives the rest to set_limits, which reserves them again.  The tiff crate refuses
    to decode an image larger than its decoding_buffer_size; hence a file that fits the budget, but not twice, is refused. *)
Theorem C63_budget_refuted codecs r f mk d inner b : r_format r = Some f -> codecs f = Some mk -> mk (r_inner r) (r_limits r) = Ok (tiff_decoder d inner) ->
  is_u32 (t_w d) -> is_u32 (t_h d) -> t_orig d <> XCmyk8 -> max_alloc (r_limits r) = Some b -> 0 <= b <= u64_max ->
  (forall dbs ibs, dbs < needed d -> inner dbs ibs = Err ELimits) ->
  needed d <= b < 2 * needed d -> decode codecs r = Err ELimits.
Proof.
  intros Ef Ec Ed Hw Hh No Eb Hb Hin Hn. destruct (decode_eq codecs r f mk (tiff_decoder d inner) Ef Ec Ed Hw Hh) as [N A]. cbn [tiff_decoder dc_w dc_h dc_ct dc_set_limits dc_read] in N, A.
  assert (Nd : needed d = t_w d * t_h d * ct_bytes (t_ct d)) by (unfold needed; destruct (t_orig d); congruence). rewrite <- Nd in *.
  replace (Z.min u64_max (needed d)) with (needed d) in * by lia.
  assert (Af : affordable (r_limits r) (needed d)) by (intros b' E'; rewrite Eb in E'; apply Some_inj in E'; lia).
  rewrite (A Af). clear N A.
  assert (Hl : forall b', max_alloc (minus (r_limits r) (needed d)) = Some b' -> 0 <= b' <= u64_max) by (unfold minus; cbn [max_alloc]; rewrite Eb; intros b' E'; apply Some_inj in E'; lia).
  destruct (C63_limits d (minus (r_limits r) (needed d)) Hw Hh Hl) as [L1 L2].
  destruct (check_dimensions (minus (r_limits r) (needed d)) (t_w d) (t_h d)) as [[]|e|] eqn:Ed'.
  - destruct (L1 eq_refl) as (dbs & ibs & E & _ & _ & Edbs). rewrite E. cbn [bind]. destruct (Z.leb_spec (needed d) isize_max); [|reflexivity].
    unfold minus in Edbs. cbn [max_alloc] in Edbs. rewrite Eb in Edbs.
    assert (Hi : inner dbs ibs = Err ELimits) by (apply Hin; lia). unfold tiff_read. rewrite C25_total_bytes by auto. rewrite <- Nd. cbn [bind].
    assert (0 <= needed d) by lia.
    rewrite zlen_repeat, Z2Nat.id by lia. replace (needed d <=? u64_max) with true by lia. rewrite Z.eqb_refl. cbn [negb]. rewrite Hi. reflexivity.
  - rewrite L2 by discriminate. reflexivity.
  - rewrite L2 by discriminate. reflexivity.
Qed.
(** for example an RGB image of 10000 x 9000 pixels, 257.5 MiB, under the default limit of 512 MiB *)
Example C63_budget_ex : let d := mkT 10000 9000 CRgb8 XRgb8 in needed d = 270000000 /\ needed d <= 536870912 < 2 * needed d.
Proof. cbn. lia. Qed.

(** Encoding hands the tiff crate the six colour types it supports, with all samples in order; everything else is refused, and a buffer of the wrong size panics.
    16-bit samples in a buffer at an odd address are refused. *)
Theorem C63_encode big al buf w h c : is_u32 w -> is_u32 h -> ect_ok c -> zlen buf <= 2 ^ 63 - 1 ->
  (zlen buf <> (w * ect_bits c + 7) / 8 * h -> tiff_encode big al buf w h c = Panic) /\
  (zlen buf = (w * ect_bits c + 7) / 8 * h ->
    (forall t, In (c, t) [(XL8, TGray 8); (XRgb8, TRGB 8); (XRgba8, TRGBA 8)] -> tiff_encode big al buf w h c = Ok (t, buf)) /\
    (forall t, In (c, t) [(XL16, TGray 16); (XRgb16, TRGB 16); (XRgba16, TRGBA 16)] ->
       (al = false -> tiff_encode big al buf w h c = Err EParameter) /\
       (al = true -> exists s, tiff_encode big al buf w h c = Ok (t, s) /\ 2 * zlen s = zlen buf /\
          forall i, 0 <= i < zlen s -> exists a b, zget buf (2 * i) = Some a /\ zget buf (2 * i + 1) = Some b /\ zget s i = Some (if big then a * 256 + b else b * 256 + a))) /\
    (~ In c [XL8; XRgb8; XRgba8; XL16; XRgb16; XRgba16] -> tiff_encode big al buf w h c = Err EUnsupported)).
Proof.
  intros Hw Hh Hc Lb. pose proof (ect_bits_range c Hc) as Cb.
  assert (Sz : buffer_size c w h = Ok (Z.min u64_max ((w * ect_bits c + 7) / 8 * h))).
  { unfold buffer_size. assert (w * ect_bits c <= u32_max * 255) by (unfold is_u32 in *; apply Z.mul_le_mono_nonneg; lia). replace (w * ect_bits c + 7 <=? u64_max) with true by (unfold u32_max, u64_max in *; lia). reflexivity. }
  change (2 ^ 63 - 1) with isize_max in Lb. unfold tiff_encode. rewrite Sz. cbn [bind]. split.
  - intros N. replace (Z.min u64_max ((w * ect_bits c + 7) / 8 * h) =? zlen buf) with false; [reflexivity|]. symmetry. apply Z.eqb_neq. unfold isize_max, u64_max in *. lia.
  - intros E. replace (Z.min u64_max ((w * ect_bits c + 7) / 8 * h) =? zlen buf) with true by (symmetry; apply Z.eqb_eq; unfold isize_max, u64_max in *; lia). cbn [negb]. split; [|split].
    + intros t Ht. cbn [In] in Ht. repeat (destruct Ht as [Ht|Ht]; [injection Ht as <- <-; reflexivity|]). contradiction.
    + intros t Ht.
      assert (Ev : exists n, zlen buf = n * 2 /\ 0 <= n).
      { pose proof (zlen_nonneg buf). exists (zlen buf / 2). split; [|apply Z.div_pos; lia].
        assert (M : exists q, ect_bits c = 16 * q) by (exists (ect_bits c / 16); cbn [In] in Ht; repeat (destruct Ht as [Ht|Ht]; [injection Ht as <- <-; reflexivity|]); contradiction).
        destruct M as (q & Eq). rewrite Eq in E. replace ((w * (16 * q) + 7) / 8) with (w * q * 2) in E by (apply Z.div_unique with 7; lia).
        pose proof (Z.div_mod (zlen buf) 2 ltac:(lia)) as D. assert (Mz : zlen buf mod 2 = 0) by (rewrite E; replace (w * q * 2 * h) with (w * q * h * 2) by ring; apply Z.mod_mul; lia). lia. }
      destruct Ev as (n & En & N0).
      assert (X : u8_slice_as_u16 big false buf = Err EParameter /\ exists s, u8_slice_as_u16 big true buf = Ok s /\ 2 * zlen s = zlen buf /\
        forall i, 0 <= i < zlen s -> exists a b, zget buf (2 * i) = Some a /\ zget buf (2 * i + 1) = Some b /\ zget s i = Some (if big then a * 256 + b else b * 256 + a)).
      { split; [reflexivity|]. unfold u8_slice_as_u16. replace (zlen buf mod 2 =? 0) with true by (symmetry; apply Z.eqb_eq; rewrite En; apply Z.mod_mul; lia). cbn [andb].
        assert (Ech : chunks_exact 2 buf = map (fun i => zslice buf (i * 2) 2) (zrange 0 n)).
        { replace buf with (zslice buf 0 (n * 2)) at 1 by (rewrite <- (zslice_full buf (n * 2)) at 2 by lia; reflexivity). rewrite chunks_exact_slices by lia. apply map_ext. intros i. f_equal. }
        rewrite Ech, map_map. eexists. split; [reflexivity|]. split; [rewrite zlen_map, zlen_zrange; lia|]. rewrite zlen_map, zlen_zrange. intros i Hi. rewrite zget_map, zget_zrange by lia. cbn [option_map]. rewrite Z.add_0_l.
        assert (G : forall t, 0 <= t < 2 -> zget (zslice buf (i * 2) 2) t = zget buf (2 * i + t)) by (intros t' Ht'; rewrite zget_zslice by lia; f_equal; lia).
        assert (L2 : zlen (zslice buf (i * 2) 2) = 2) by (rewrite zlen_zslice_gen; lia).
        destruct (zslice buf (i * 2) 2) as [|a [|b [|? ?]]] eqn:Es; try (rewrite ?zlen_cons in L2; unfold zlen in L2; cbn [length] in L2; lia).
        exists a, b. rewrite <- (Z.add_0_r (2 * i)) at 1. rewrite <- !G by lia. auto. }
      destruct X as (X1 & s & X2 & X3 & X4).
      cbn [In] in Ht. repeat (destruct Ht as [Ht|Ht]; [injection Ht as <- <-; split; intros ->; [rewrite X1; reflexivity|exists s; rewrite X2; auto]|]). contradiction.
    + intros N. destruct c; try reflexivity; exfalso; apply N; cbn [In]; tauto.
Qed.

(** non-vacuity: two CMYK pixels; a 1 x 2 16-bit grey image on a little-endian machine; a file that opens *)
Example C63_ex : tiff_new 2 1 (TCMYK 8) (Some [1; 1; 1; 1]) = Ok (mkT 2 1 CRgb8 XCmyk8) /\
  tiff_read (mkT 2 1 CRgb8 XCmyk8) (Ok (RU8 [0; 255; 128; 0; 10; 20; 30; 100])) [1; 2; 3; 4; 5; 6] = Ok [255; 0; 127; 148; 142; 136] /\
  tiff_encode false true [1; 2; 3; 4] 1 2 XL16 = Ok (TGray 16, [513; 1027]) /\ tiff_new 1 1 (TGray 8) (Some [3]) = Err EUnsupported.
Proof. vm_compute. repeat split. Qed.

Definition c63_theorems := (C63_open, C63_cmyk, C63_cmyk_exact_refuted, C63_read, C63_limits, C63_budget_refuted, C63_encode).
Print Assumptions c63_theorems.
