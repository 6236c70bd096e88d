(** C25: size arithmetic. *)
From Verif Require Import Base Limits ColorType.
Local Open Scope Z_scope.

Definition ect_ok (c : ectype) : Prop := match c with XUnknown b => is_u8 b | _ => True end.
Lemma ect_bits_range c : ect_ok c -> 0 <= ect_bits c <= 255.
Proof. destruct c; cbn; unfold is_u8, u8_max; lia. Qed.

(** buffer_size is the number of bytes of h rows of the least whole number of bytes holding
    w * bits_per_pixel bits, or u64::MAX when that does not fit: it never wraps or panics *)
Theorem C25_buffer_size : forall c w h, ect_ok c -> is_u32 w -> is_u32 h ->
  exists row, 8 * (row - 1) < w * ect_bits c <= 8 * row /\
    buffer_size c w h = Ok (if row * h <=? u64_max then row * h else u64_max).
Proof.
  intros c w h Hc Hw Hh. apply ect_bits_range in Hc. unfold is_u32 in *.
  assert (B : w * ect_bits c <= u32_max * 255) by (apply Z.mul_le_mono_nonneg; lia).
  assert (B0 : 0 <= w * ect_bits c) by (apply Z.mul_nonneg_nonneg; lia).
  exists ((w * ect_bits c + 7) / 8). pose proof (Z.div_mod (w * ect_bits c + 7) 8 ltac:(lia)) as D.
  pose proof (Z.mod_pos_bound (w * ect_bits c + 7) 8 ltac:(lia)). split; [lia|].
  unfold buffer_size. replace (_ + 7 <=? u64_max) with true by (unfold u64_max, u32_max in *; lia).
  unfold sat_mul_u64. destruct (Z.leb_spec ((w * ect_bits c + 7) / 8 * h) u64_max); f_equal; lia.
Qed.
Print Assumptions C25_buffer_size.

(** for every colour type whose pixels are whole bytes this is w * h * bytes *)
Theorem C25_buffer_size_color_type : forall c w h, is_u32 w -> is_u32 h ->
  buffer_size (ect_of c) w h = Ok (if w * ct_bytes c * h <=? u64_max then w * ct_bytes c * h else u64_max)
  /\ buffer_size (ect_of c) w h = total_bytes w h c.
Proof.
  intros c w h Hw Hh. unfold is_u32 in *.
  assert (E : ect_bits (ect_of c) = ct_bytes c * 8) by (destruct c; reflexivity).
  assert (R : 1 <= ct_bytes c <= 16) by (destruct c; cbn; lia).
  assert (B : w * ct_bytes c <= u32_max * 16) by (apply Z.mul_le_mono_nonneg; lia).
  assert (B0 : 0 <= w * ct_bytes c) by (apply Z.mul_nonneg_nonneg; lia).
  assert (F : buffer_size (ect_of c) w h = Ok (Z.min u64_max (w * ct_bytes c * h))).
  { unfold buffer_size, sat_mul_u64. rewrite E. replace (w * (ct_bytes c * 8) + 7) with (7 + w * ct_bytes c * 8) by ring.
    replace (_ <=? u64_max) with true by (unfold u64_max, u32_max in *; lia).
    rewrite Z.div_add by lia. change (7 / 8) with 0. rewrite Z.add_0_l. reflexivity. }
  split.
  - rewrite F. destruct (Z.leb_spec (w * ct_bytes c * h) u64_max); f_equal; lia.
  - rewrite F. unfold total_bytes, sat_mul_u64.
    assert (w * h <= u32_max * u32_max) by (apply Z.mul_le_mono_nonneg; lia).
    replace (u64_max <? w * h) with false by (unfold u32_max, u64_max in *; lia).
    f_equal. f_equal. ring.
Qed.
Print Assumptions C25_buffer_size_color_type.

Theorem C25_check_dimension_overflow : forall w h bpp, is_u32 w -> is_u32 h -> is_u8 bpp -> bpp <> 0 ->
  exists b, check_dimension_overflow w h bpp = Ok b /\ (b = true <-> u64_max < w * h * bpp).
Proof.
  intros w h bpp Hw Hh Hb Hn. unfold is_u32, is_u8 in *.
  assert (w * h <= u32_max * u32_max) by (apply Z.mul_le_mono_nonneg; lia).
  unfold check_dimension_overflow. replace (u64_max <? w * h) with false by (unfold u32_max, u64_max in *; lia).
  replace (bpp =? 0) with false by lia. eexists. split; [reflexivity|].
  pose proof (Z.div_mod u64_max bpp ltac:(lia)) as D. pose proof (Z.mod_pos_bound u64_max bpp ltac:(lia)) as M.
  destruct (Z.ltb_spec (u64_max / bpp) (w * h)) as [L|L]; split; intros Q; try discriminate; auto.
  - assert ((u64_max / bpp + 1) * bpp <= w * h * bpp) by (apply Z.mul_le_mono_nonneg_r; lia). lia.
  - assert (w * h * bpp <= u64_max / bpp * bpp) by (apply Z.mul_le_mono_nonneg_r; lia). lia.
Qed.
Print Assumptions C25_check_dimension_overflow.

Theorem C25_total_bytes : forall w h c, is_u32 w -> is_u32 h ->
  total_bytes w h c = Ok (if w * h * ct_bytes c <=? u64_max then w * h * ct_bytes c else u64_max).
Proof.
  intros w h c Hw Hh. unfold is_u32 in *.
  assert (w * h <= u32_max * u32_max) by (apply Z.mul_le_mono_nonneg; lia).
  unfold total_bytes, sat_mul_u64. replace (u64_max <? w * h) with false by (unfold u32_max, u64_max in *; lia).
  destruct (Z.leb_spec (w * h * ct_bytes c) u64_max); f_equal; lia.
Qed.
Print Assumptions C25_total_bytes.

(** the vector a decoder's pixels are read into: it is refused exactly when the true size exceeds
    isize::MAX, and otherwise has exactly w * h * channels samples (for samples of the colour type's
    own width) *)
Theorem C25_vec_len : forall w h c, is_u32 w -> is_u32 h ->
  let sz := ct_bytes c / ct_channels c in
  vec_len w h c sz = (if w * h * ct_bytes c <=? isize_max then Ok (w * h * ct_channels c) else Err ELimits).
Proof.
  intros w h c Hw Hh sz. unfold vec_len. rewrite C25_total_bytes by auto. cbn [bind].
  assert (E : ct_bytes c = ct_channels c * sz /\ 0 < sz) by (unfold sz; destruct c; cbn; split; reflexivity).
  destruct E as [E Hs]. assert (isize_max < u64_max) by reflexivity.
  destruct (Z.leb_spec (w * h * ct_bytes c) u64_max).
  - destruct (Z.ltb_spec isize_max (w * h * ct_bytes c)), (Z.leb_spec (w * h * ct_bytes c) isize_max); try lia; auto.
    f_equal. rewrite E, Z.mul_assoc. apply Z.div_mul. lia.
  - replace (isize_max <? u64_max) with true by reflexivity.
    replace (w * h * ct_bytes c <=? isize_max) with false by lia. reflexivity.
Qed.
Print Assumptions C25_vec_len.

Theorem C25_tables : forall c, ct_bits c = ect_bits (ect_of c) /\ ct_bytes c mod ct_channels c = 0 /\
  ct_channels c = (if ct_has_color c then 3 else 1) + (if ct_has_alpha c then 1 else 0).
Proof. destruct c; repeat split; reflexivity. Qed.
Print Assumptions C25_tables.

(** ** Non-vacuity *)
Example C25_saturates : total_bytes u32_max u32_max CRgba32F = Ok u64_max /\ buffer_size XRgb1 10 7 = Ok 28
  /\ check_dimension_overflow u32_max u32_max 2 = Ok true /\ check_dimension_overflow u32_max u32_max 1 = Ok false.
Proof. repeat split; reflexivity. Qed.
