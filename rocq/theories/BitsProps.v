(** C24: bit and palette expansion. *)
From Verif Require Import Base BaseLemmas ListLemmas ListMore Bits BitsProofs.
Local Open Scope Z_scope.

(** The specification: [field d buf k] (BitsProofs.v) is the k-th d-bit field of the byte sequence, most
    significant first.  C24_field_meaning pins it down. *)
Theorem C24_field_meaning : forall d buf byte i v, d = 1 \/ d = 2 \/ d = 4 \/ d = 8 ->
  zget buf byte = Some v -> is_u8 v -> 0 <= i < 8 / d ->
  field d buf (byte * (8 / d) + i) = v / 2 ^ (8 - d * (i + 1)) mod 2 ^ d.
Proof.
  intros d buf byte i v Hd G Hv Hi. apply zget_range in G as R. unfold field.
  assert (E : (byte * (8 / d) + i) * d / 8 = byte /\ 8 - d - ((byte * (8 / d) + i) * d) mod 8 = 8 - d * (i + 1)).
  { clear - Hd Hi R. destruct Hd as [-> |[-> |[-> | ->]]]; change (8 / 1) with 8 in *; change (8 / 2) with 4 in *; change (8 / 4) with 2 in *; change (8 / 8) with 1 in *; zdm. }
  destruct E as (-> & ->). rewrite G. reflexivity.
Qed.
Print Assumptions C24_field_meaning.

(** expand_bits: sample x of row y is field x of the row's bytes (rows start on byte boundaries), scaled so
    that 0 maps to 0 and 2^d - 1 to 255 *)
Theorem C24_expand_bits : forall d w h buf, d = 1 \/ d = 2 \/ d = 4 -> 0 < w -> w * d + 7 <= u32_max -> 0 <= h -> bytes buf ->
  zlen buf = h * ((w * d + 7) / 8) ->
  exists out, expand_bits d w buf = Ok out /\ zlen out = w * h /\
    forall x y, 0 <= x < w -> 0 <= y < h ->
      zget out (y * w + x) =
        Some (field d (zslice buf (y * ((w * d + 7) / 8)) ((w * d + 7) / 8)) x * (255 / (2 ^ d - 1))).
Proof.
  intros d w h buf Hd Hw Hwd Hh B L. rewrite (expand_bits_rows d w h buf) by auto. eexists. split; [reflexivity|].
  split; [rewrite zlen_map, zlen_coords; lia|]. intros x y Hx Hy. rewrite zget_map.
  rewrite zget_coords by (auto; try lia; apply idx_range; lia).
  replace (y * w + x) with (x + y * w) by ring. rewrite Z.mod_add, Z.div_add by lia. rewrite (Z.mod_small x w), (Z.div_small x w) by lia. cbn [option_map fst snd]. f_equal. f_equal.
  set (rb := (w * d + 7) / 8) in *.
  assert (Q : 0 <= x * d / 8 < rb) by (unfold rb; clear - Hd Hw Hx; destruct Hd as [-> |[-> | ->]]; zdm).
  unfold field. rewrite row_len_eq by auto. fold rb.
  assert (Hd8 : dok8 d) by (unfold dok8; tauto). destruct (dok8_m d Hd8) as (D0 & M0 & DM).
  assert (E : ((0 + y) * (rb * (8 / d)) + x) * d = x * d + y * rb * 8) by (replace 8 with (d * (8 / d)) at 2 by lia; ring).
  rewrite E. rewrite Z.div_add, Z.mod_add by lia.
  assert (0 <= y * rb) by (apply Z.mul_nonneg_nonneg; lia).
  rewrite zget_zslice_gen by lia. replace ((0 <=? x * d / 8) && (x * d / 8 <? rb)) with true by lia.
  rewrite (Z.add_comm (y * rb)). reflexivity.
Qed.
Print Assumptions C24_expand_bits.

Theorem C24_scaling : forall d, d = 1 \/ d = 2 \/ d = 4 ->
  0 * (255 / (2 ^ d - 1)) = 0 /\ (2 ^ d - 1) * (255 / (2 ^ d - 1)) = 255.
Proof. intros d [-> |[-> | ->]]; split; reflexivity. Qed.
Print Assumptions C24_scaling.

(** expand_packed, whole bytes of fields: never reads out of bounds, never reads a byte it has already
    overwritten, and stores each field's expansion - except for the first pixel, which it leaves alone *)
Theorem C24_expand_packed : forall c d n buf func f,
  d = 1 \/ d = 2 \/ d = 4 \/ d = 8 -> 1 <= c -> 1 <= n -> (n * d) mod 8 = 0 -> zlen buf = c * n -> bytes buf ->
  (forall k, 1 <= k < n -> func (field d buf k) = Ok (f (field d buf k)) /\ zlen (f (field d buf k)) = c) ->
  exists out, expand_packed buf c d func = Ok out /\ zlen out = zlen buf /\ zslice out 0 c = zslice buf 0 c /\
    forall k, 1 <= k < n -> zslice out (c * k) c = f (field d buf k).
Proof. intros; eapply expand_packed_ok; eauto. Qed.
Print Assumptions C24_expand_packed.

(** when the fields do not fill whole bytes it skips the wrong number of them: for three 4-bit fields 1, 2, 3
    nothing is expanded at all *)
Theorem C24_expand_packed_partial_byte_refuted :
  expand_packed [18; 48; 0] 1 4 (fun v => Ok [v]) = Ok [18; 48; 0].
Proof. reflexivity. Qed.
Print Assumptions C24_expand_packed_partial_byte_refuted.

(** expand_palette: every pixel but the first becomes its palette entry, with alpha 0 exactly for the
    transparent index *)
Definition palette_alpha (transparent : option Z) (i : Z) : Z :=
  match transparent with Some t => if t =? i then 0 else 255 | None => 255 end.
Theorem C24_expand_palette : forall palette transparent data,
  bytes data -> zlen data * 4 <= u64_max -> Forall (fun i => i < zlen palette) data -> data <> [] ->
  exists out, expand_palette palette transparent data = Ok out /\ zlen out = 4 * zlen data /\
    (forall k i r g b, 1 <= k -> zget data k = Some i -> zget palette i = Some (r, g, b) ->
       zslice out (4 * k) 4 = [r; g; b; palette_alpha transparent i]) /\
    zslice out 0 4 = firstn 4 (data ++ [0; 0; 0]).
Proof.
  intros palette transparent data B Hl F NE. unfold expand_palette. replace (u64_max <? zlen data * 4) with false by lia.
  set (n := zlen data). assert (Hn : 1 <= n) by (destruct data; [congruence|]; unfold n; rewrite zlen_cons; pose proof (zlen_nonneg data); lia).
  set (buf := data ++ repeat 0 (3 * length data)).
  assert (LB : zlen buf = 4 * n) by (unfold buf, n; rewrite zlen_app, zlen_repeat; unfold zlen; lia).
  assert (BB : bytes buf).
  { apply bytes_app. split; auto. apply Forall_forall. intros z Hz. apply repeat_spec in Hz. subst. unfold is_u8, u8_max; lia. }
  assert (FD : forall k i, 0 <= k -> zget data k = Some i -> field 8 buf k = i).
  { intros k i Hk G. unfold field. rewrite Z.div_mul by lia. unfold buf. rewrite zget_app. apply zget_range in G as R.
    replace (k <? zlen data) with true by lia. rewrite G. rewrite Z.mod_mul by lia. change (2 ^ (8 - 8 - 0)) with 1. rewrite Z.div_1_r.
    apply Z.mod_small. apply zget_In in G. unfold bytes in B. rewrite Forall_forall in B. specialize (B i G). unfold is_u8, u8_max in B.
    change (2 ^ 8) with 256. lia. }
  set (f := fun i => match zget palette i with Some (r, g, b) => [r; g; b; palette_alpha transparent i] | None => [0; 0; 0; 0] end).
  destruct (expand_packed_ok 4 8 n buf (palette_pixel palette transparent) f) as (out & E & L & P0 & P); auto.
  - unfold dok8; tauto.
  - lia.
  - apply Z.mod_mul. lia.
  - intros k Hk. destruct (zget_some data k) as (i & G); [unfold n in *; lia|]. rewrite (FD k i) by (auto; lia).
    assert (R : 0 <= i < zlen palette).
    { apply zget_In in G. unfold bytes in B. rewrite Forall_forall in B, F. specialize (B i G). specialize (F i G). unfold is_u8 in B. lia. }
    destruct (zget_some palette i R) as (((r & g) & b) & GP). unfold palette_pixel, f. rewrite GP. split; reflexivity.
  - exists out. split; [exact E|]. split; [lia|]. split.
    + intros k i r g b Hk G GP. apply zget_range in G as R. rewrite P by (unfold n; lia). rewrite (FD k i) by (auto; lia). unfold f. rewrite GP. reflexivity.
    + rewrite P0. unfold buf, zslice. change (Z.to_nat 0) with O. change (Z.to_nat 4) with 4%nat. cbn [skipn].
      destruct data as [|a [|b [|c [|e data]]]]; try congruence; reflexivity.
Qed.
Print Assumptions C24_expand_palette.

(** so the first pixel is wrong: the 2-pixel image of indices 1, 0 *)
Theorem C24_first_pixel_refuted :
  expand_palette [(10, 20, 30); (40, 50, 60)] None [1; 0] = Ok [1; 0; 0; 0; 10; 20; 30; 255]
  /\ zslice [1; 0; 0; 0; 10; 20; 30; 255] 0 4 <> [40; 50; 60; 255].
Proof. split; [reflexivity|discriminate]. Qed.
Print Assumptions C24_first_pixel_refuted.

(** ** Non-vacuity *)
Example C24_bits_example : expand_bits 2 3 [27; 228] = Ok [0; 85; 170; 255; 170; 85].
Proof. reflexivity. Qed.
Example C24_packed_example : expand_packed [18; 48; 0; 0] 1 4 (fun v => Ok [v]) = Ok [18; 2; 3; 0].
Proof. reflexivity. Qed.
