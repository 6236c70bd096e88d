(** Facts about the model of ImageReader. *)
From Verif Require Import Base BaseLemmas ListLemmas Limits LimitsProofs ColorType ColorTypeProps Formats FormatsProofs Buffer Reader.
Local Open Scope Z_scope.

Lemma guess_stream r : reader_guess r = (guess_format (skipn (Z.to_nat (s_pos (r_inner r))) (s_bytes (r_inner r))), r).
Proof.
  destruct r as [[b p] f l]. unfold reader_guess, s_read, s_seek. cbn [r_inner s_pos s_bytes r_format r_limits]. f_equal.
  apply guess_prefix. rewrite firstn_firstn. reflexivity.
Qed.
Lemma wgf r : with_guessed_format r = mkReader (r_inner r) (match guess_format (skipn (Z.to_nat (s_pos (r_inner r))) (s_bytes (r_inner r))) with Some f => Some f | None => r_format r end) (r_limits r).
Proof. unfold with_guessed_format. rewrite guess_stream. reflexivity. Qed.
Lemma rstep_inner r o : r_inner (rstep r o) = r_inner r.
Proof. destruct o; try reflexivity. cbn [rstep]. rewrite wgf. reflexivity. Qed.
Lemma rrun_inner os : forall r, r_inner (rrun r os) = r_inner r.
Proof. induction os as [|o os IH]; intros r; [reflexivity|]. change (rrun r (o :: os)) with (rrun (rstep r o) os). rewrite IH. apply rstep_inner. Qed.
Lemma rrun_app r a b : rrun r (a ++ b) = rrun (rrun r a) b.
Proof. apply fold_left_app. Qed.

Lemma sample_size_eq c : sample_size c = ct_bytes c / ct_channels c /\ ct_bytes c = ct_channels c * sample_size c /\ 0 < sample_size c /\ 1 <= ct_channels c <= 4.
Proof. destruct c; cbn; repeat split; try reflexivity; lia. Qed.
Lemma fits c w h : is_u32 w -> is_u32 h -> w * h * ct_channels c <= u64_max -> check_image_fits (ct_channels c) w h (w * h * ct_channels c) = true.
Proof.
  intros Hw Hh B. unfold is_u32 in *. destruct (sample_size_eq c) as (_ & _ & _ & Hc). unfold check_image_fits, image_buffer_len, us_cmul.
  assert (ct_channels c * w <= u64_max) by (unfold u32_max, u64_max in *; nia).
  replace (ct_channels c * w <=? u64_max) with true by lia.
  assert (E : ct_channels c * w * h = w * h * ct_channels c) by ring. rewrite E.
  replace (w * h * ct_channels c <=? u64_max) with true by lia. apply Z.leb_refl.
Qed.

Lemma dti d l : is_u32 (dc_w d) -> is_u32 (dc_h d) ->
  decoder_to_image d l = if dc_w d * dc_h d * ct_bytes (dc_ct d) <=? isize_max
    then b <- dc_read d l (repeat 0 (Z.to_nat (dc_w d * dc_h d * ct_bytes (dc_ct d)))) ;; Ok (mkDyn (dc_ct d) (dc_w d) (dc_h d) b) else Err ELimits.
Proof.
  intros Hw Hh. unfold decoder_to_image. destruct (sample_size_eq (dc_ct d)) as (E1 & E2 & Hs & Hc). rewrite E1, C25_vec_len by auto.
  destruct (Z.leb_spec (dc_w d * dc_h d * ct_bytes (dc_ct d)) isize_max) as [B|B]; [|reflexivity]. cbn [bind]. rewrite <- E1.
  replace (dc_w d * dc_h d * ct_channels (dc_ct d) * sample_size (dc_ct d)) with (dc_w d * dc_h d * ct_bytes (dc_ct d)) by (rewrite E2; ring).
  rewrite fits; auto. assert (0 <= dc_w d * dc_h d) by (unfold is_u32 in *; nia). rewrite E2 in B. unfold isize_max, u64_max in *. nia.
Qed.

(** the limits that are left for the decoder after the image itself has been paid for *)
Definition minus (l : limits) (t : Z) : limits := mkLimits (max_image_width l) (max_image_height l) (match max_alloc l with Some b => Some (b - t) | None => None end).
Lemma reserve_eq l t : reserve l t = match max_alloc l with Some b => if b <? t then (l, Err ELimits) else (minus l t, Ok tt) | None => (minus l t, Ok tt) end.
Proof. destruct l as [w h [b|]]; unfold reserve, minus; cbn [max_alloc max_image_width max_image_height]; [destruct (b <? t); reflexivity|reflexivity]. Qed.
Definition affordable (l : limits) (t : Z) : Prop := forall b, max_alloc l = Some b -> t <= b.

Lemma decode_eq codecs r f mk d : r_format r = Some f -> codecs f = Some mk -> mk (r_inner r) (r_limits r) = Ok d -> is_u32 (dc_w d) -> is_u32 (dc_h d) ->
  let t := dc_w d * dc_h d * ct_bytes (dc_ct d) in let T := Z.min u64_max t in
  (~ affordable (r_limits r) T -> decode codecs r = Err ELimits) /\
  (affordable (r_limits r) T -> decode codecs r = (_ <- dc_set_limits d (minus (r_limits r) T) ;;
     if t <=? isize_max then b <- dc_read d (minus (r_limits r) T) (repeat 0 (Z.to_nat t)) ;; Ok (mkDyn (dc_ct d) (dc_w d) (dc_h d) b) else Err ELimits)).
Proof.
  intros Ef Ec Ed Hw Hh t T. unfold decode, require_format, make_decoder. rewrite Ef. cbn [bind]. rewrite Ec, Ed. cbn [bind]. rewrite C25_total_bytes by auto. fold t. cbn [bind].
  replace (if t <=? u64_max then t else u64_max) with T by (unfold T; destruct (Z.leb_spec t u64_max); lia).
  rewrite reserve_eq. split.
  - intros Na. destruct (max_alloc (r_limits r)) as [b|] eqn:Eb; [|exfalso; apply Na; intros b H; rewrite Eb in H; discriminate].
    destruct (Z.ltb_spec b T) as [L|L]; [reflexivity|]. exfalso. apply Na. intros b' H. rewrite Eb in H. apply Some_inj in H. lia.
  - intros A. destruct (max_alloc (r_limits r)) as [b|] eqn:Eb.
    + specialize (A b Eb). replace (b <? T) with false by lia. cbn [bind]. rewrite dti by auto. reflexivity.
    + cbn [bind]. rewrite dti by auto. reflexivity.
Qed.
