(** C35 (farbfeld), the farbfeld instance of C29 and of the recognition claim of C27. *)
From Verif Require Import Base BaseLemmas ListLemmas ListMore ColorType Limits Formats FormatsProofs LoadRect LoadRectProofs Farbfeld FarbfeldSpec FarbfeldProofs.
Local Open Scope Z_scope.

Lemma farbfeld_file_len w h samples : zlen (farbfeld_file w h samples) = 16 + 2 * zlen samples.
Proof. unfold farbfeld_file. rewrite !zlen_app, u16s_len. unfold u32_be. change (zlen [102; 97; 114; 98; 102; 101; 108; 100]) with 8. rewrite !zlen_cons. change (zlen (@nil Z)) with 0. lia. Qed.
Lemma ff_new_file w h samples pre rest : is_u32 w -> is_u32 h -> w * h * 8 <= u64_max ->
  ff_new (pre ++ farbfeld_file w h samples ++ rest) (zlen pre) = Ok (mkFf w h (pre ++ farbfeld_file w h samples ++ rest) (zlen pre + 16) 0 None).
Proof.
  intros Hw Hh B. unfold ff_new. unfold zlen at 1. rewrite Nat2Z.id. rewrite skipn_app_exact by reflexivity.
  unfold farbfeld_file at 1. fold magic. rewrite !u32_be_eq by auto. rewrite <- !app_assoc. rewrite read_exact_app by reflexivity. cbn [as_decoding bind].
  rewrite leqb_refl. cbn [negb]. unfold is_u32 in *. rewrite be32_read by lia. cbn [as_decoding bind]. rewrite be32_read by lia. cbn [as_decoding bind].
  unfold check_dimension_overflow.
  assert (0 <= w * h) by (apply Z.mul_nonneg_nonneg; lia). unfold u64_max in *.
  replace (18446744073709551615 <? w * h) with false by lia. cbn [Z.eqb bind]. replace (18446744073709551615 / 8 <? w * h) with false by (change (18446744073709551615 / 8) with 2305843009213693951; lia).
  reflexivity.
Qed.
Lemma ff_new_at big w h samples pre rest : 
  ff_at big w h (zlen pre + 16) (pre ++ magic ++ u32_be w ++ u32_be h) samples rest (mkFf w h (pre ++ farbfeld_file w h samples ++ rest) (zlen pre + 16) 0 None) 0.
Proof.
  unfold ff_at. cbn [ff_w ff_h ff_file ff_off ff_pos ff_cache]. pose proof (zlen_nonneg samples).
  split; [reflexivity|]. split; [reflexivity|]. split; [unfold farbfeld_file; fold magic; rewrite <- !app_assoc; reflexivity|]. split; [reflexivity|]. split; [lia|].
  left. split; [reflexivity|]. split; [lia|reflexivity].
Qed.
Lemma be32_bytes v : bytes (be32 v).
Proof. unfold be32, bytes, is_u8, u8_max. repeat (apply Forall_cons; [match goal with |- 0 <= ?x mod 256 <= _ => pose proof (Z.mod_pos_bound x 256 ltac:(lia)); lia end|]). constructor. Qed.
Lemma pre_len w h pre : zlen (pre ++ magic ++ u32_be w ++ u32_be h) = zlen pre + 16.
Proof. rewrite !zlen_app. reflexivity. Qed.

Lemma decode_file big w h samples rest : is_u32 w -> is_u32 h -> zlen samples = 4 * (w * h) -> w * h * 8 <= u64_max ->
  ff_decode big (farbfeld_file w h samples ++ rest) = Ok (w, h, native big samples).
Proof.
  intros Hw Hh L B. unfold ff_decode. pose proof (ff_new_file w h samples [] rest Hw Hh B) as EN. change (zlen (@nil Z)) with 0 in EN. cbn [app] in EN. rewrite EN. clear EN. cbn [bind]. cbn [app ff_w ff_h].
  assert (P : 0 <= w * h) by (apply Z.mul_nonneg_nonneg; unfold is_u32 in *; lia).
  assert (T : total_bytes w h CRgba16 = Ok (w * h * 8)).
  { unfold total_bytes, sat_mul_u64. cbn [ct_bytes]. replace (u64_max <? w * h) with false by lia. f_equal. lia. }
  rewrite T. cbn [bind]. unfold ff_read_image. cbn [ff_w ff_h]. rewrite T. cbn [bind]. rewrite Z.eqb_refl. cbn [negb].
  destruct (ff_read_exact_at big w h (zlen (@nil Z) + 16) ([] ++ magic ++ u32_be w ++ u32_be h) samples rest (pre_len w h []) (Z.to_nat (w * h * 8))
    (mkFf w h ([] ++ farbfeld_file w h samples ++ rest) (zlen (@nil Z) + 16) 0 None) 0 (w * h * 8) (ff_new_at big w h samples [] rest)) as (s' & E & _); [lia|lia|].
  cbn [app] in E. change (zlen (@nil Z)) with 0 in E. rewrite E. cbn [bind]. f_equal. f_equal. apply zslice_full. rewrite native_len. lia.
Qed.

(** Writing an image of 16-bit RGBA samples produces the file the format prescribes; reading that file, whatever follows it,
    gives back the dimensions and the samples.  For both byte orders of the machine. *)
Theorem C35_round_trip : forall big w h samples, is_u32 w -> is_u32 h -> Forall is_u16 samples ->
  zlen samples = 4 * (w * h) -> w * h * 8 <= u64_max ->
  ff_write_image big (native big samples) w h XRgba16 = Ok (farbfeld_file w h samples) /\
  forall rest, ff_decode big (farbfeld_file w h samples ++ rest) = Ok (w, h, native big samples).
Proof.
  intros big w h samples Hw Hh F L B. split; [apply encode_native; auto; lia|]. intros rest. apply decode_file; auto.
Qed.
Print Assumptions C35_round_trip.

(** Every byte stream: decoding never panics; it succeeds exactly on the streams that begin with a complete farbfeld file
    (and then delivers that file's image), and everything else is an error. *)
Theorem C35_decode_total : forall big file, bytes file ->
  (exists w h samples rest, is_u32 w /\ is_u32 h /\ Forall is_u16 samples /\ zlen samples = 4 * (w * h) /\ w * h * 8 <= u64_max /\
     file = farbfeld_file w h samples ++ rest /\ ff_decode big file = Ok (w, h, native big samples)) \/
  ff_decode big file = Err EDecoding \/ ff_decode big file = Err EUnsupported \/ ff_decode big file = Err EEof.
Proof.
  intros big file B. destruct (ff_new_cases file 0 B ltac:(lia)) as [E|[E|(w & h & r & S & Hw & Hh & O & E)]].
  - right. left. unfold ff_decode. rewrite E. reflexivity.
  - right. right. left. unfold ff_decode. rewrite E. reflexivity.
  - cbn in S. assert (P : 0 <= w * h) by (apply Z.mul_nonneg_nonneg; unfold is_u32 in *; lia).
    assert (T : total_bytes w h CRgba16 = Ok (w * h * 8)).
    { unfold total_bytes, sat_mul_u64. cbn [ct_bytes]. replace (u64_max <? w * h) with false by lia. f_equal. lia. }
    assert (LF : zlen file = 16 + zlen r).
    { rewrite S. unfold u32_be. cbn [app]. rewrite !zlen_cons. lia. }
    destruct (Z.le_gt_cases (w * h * 8) (zlen r)) as [Q|Q].
    + left. destruct (u16s_of_bytes (firstn (Z.to_nat (w * h * 8)) r) (4 * (w * h))) as (samples & FS & LS & ES).
      * apply Forall_firstn'. rewrite S in B. cbn [app u32_be] in B. do 16 (apply Forall_inv_tail in B). exact B.
      * rewrite zlen_firstn. lia.
      * assert (EF : file = farbfeld_file w h samples ++ skipn (Z.to_nat (w * h * 8)) r).
        { rewrite S. unfold farbfeld_file. rewrite <- ES. rewrite <- !app_assoc, firstn_skipn. reflexivity. }
        exists w, h, samples, (skipn (Z.to_nat (w * h * 8)) r). repeat (apply conj; [assumption|]).
        rewrite EF at 1. apply decode_file; auto.
    + right. right. right. unfold ff_decode. rewrite E. cbn [bind ff_w ff_h]. rewrite T. cbn [bind]. unfold ff_read_image. cbn [ff_w ff_h]. rewrite T. cbn [bind].
      rewrite Z.eqb_refl. cbn [negb]. pose proof (zlen_nonneg r).
      destruct (ff_read_exact_cases big (Z.to_nat (w * h * 8)) (mkFf w h file (0 + 16) 0 None) (w * h * 8)) as [-> |(b & s' & _ & _ & I & LD & EF)].
      * unfold ff_in. cbn [ff_pos ff_file]. lia.
      * lia.
      * reflexivity.
      * exfalso. unfold ff_in, lead in *. cbn [ff_pos ff_cache ff_file] in *. rewrite EF in I. destruct (ff_cache s'); lia.
Qed.
Print Assumptions C35_decode_total.

(** Only Rgba16 buffers of the documented length are written: other colour types are an error, other lengths the
    documented panic. *)
Theorem C35_encoder_rejects : forall big data w h c, is_u32 w -> is_u32 h ->
  (c <> XRgba16 -> ff_write_image big data w h c = Err EUnsupported) /\
  (zlen data <= u64_max -> zlen data <> w * h * 8 -> w * h * 8 <= u64_max -> ff_write_image big data w h XRgba16 = Panic).
Proof.
  intros big data w h c Hw Hh. split.
  - intros H. destruct c; try reflexivity. contradiction.
  - intros B N O. cbn [ff_write_image]. unfold ff_encode, sat_mul_u64. replace (Z.min u64_max (w * h * 8) =? zlen data) with false by lia. reflexivity.
Qed.
Print Assumptions C35_encoder_rejects.

(** A rectangle request that read_rect is documented to accept: inside the image, pitch at least a row, buffer long enough. *)
Definition rect_ok (w h x y rw rh rp : Z) (buf : list Z) : Prop :=
  0 <= x /\ 0 <= y /\ 0 < rw /\ 0 < rh /\ x + rw <= w /\ y + rh <= h /\ rw * 8 <= rp /\ (rh - 1) * rp + rw * 8 <= zlen buf.
(** the decoders a user can have: a freshly opened one, and any that successful read_rect calls have left behind *)
Inductive opened (big : bool) (file : list Z) (pos : Z) : ff -> Prop :=
| op_new : forall s, ff_new file pos = Ok s -> opened big file pos s
| op_rect : forall s x y rw rh buf rp out s', opened big file pos s -> rect_ok (ff_w s) (ff_h s) x y rw rh rp buf ->
    ff_read_rect big s x y rw rh buf rp = Ok (out, s') -> opened big file pos s'.

(** read_rect on a file anywhere in a stream gives the requested rectangle of the image, after any number of earlier calls. *)
Theorem C35_read_rect : forall big w h samples pre rest s x y rw rh buf rp,
  is_u32 w -> is_u32 h -> zlen samples = 4 * (w * h) -> zlen (pre ++ farbfeld_file w h samples ++ rest) <= i64_max ->
  opened big (pre ++ farbfeld_file w h samples ++ rest) (zlen pre) s -> rect_ok w h x y rw rh rp buf ->
  exists out s', ff_read_rect big s x y rw rh buf rp = Ok (out, s') /\ zlen out = zlen buf /\
    (forall j, 0 <= j < rh -> zslice out (j * rp) (rw * 8) = zslice (native big samples) (((y + j) * w + x) * 8) (rw * 8)) /\
    (forall i, 0 <= i < zlen buf -> (forall j, 0 <= j < rh -> ~ (j * rp <= i < j * rp + rw * 8)) -> zget out i = zget buf i).
Proof.
  intros big w h samples pre rest s x y rw rh buf rp Hw Hh L LF OP RO.
  rewrite !zlen_app, farbfeld_file_len in LF. pose proof (zlen_nonneg pre) as PN. pose proof (zlen_nonneg rest) as RN.
  assert (P : 0 <= w * h) by (apply Z.mul_nonneg_nonneg; unfold is_u32 in *; lia).
  assert (ST : forall s0 x y rw rh buf rp, ff_at big w h (zlen pre + 16) (pre ++ magic ++ u32_be w ++ u32_be h) samples rest s0 0 -> rect_ok w h x y rw rh rp buf ->
    exists out s', ff_read_rect big s0 x y rw rh buf rp = Ok (out, s') /\ ff_at big w h (zlen pre + 16) (pre ++ magic ++ u32_be w ++ u32_be h) samples rest s' 0 /\ zlen out = zlen buf /\
    (forall j, 0 <= j < rh -> zslice out (j * rp) (rw * 8) = zslice (native big samples) (((y + j) * w + x) * 8) (rw * 8)) /\
    (forall i, 0 <= i < zlen buf -> (forall j, 0 <= j < rh -> ~ (j * rp <= i < j * rp + rw * 8)) -> zget out i = zget buf i)).
  { intros s0 x0 y0 rw0 rh0 buf0 rp0 A (R1 & R2 & R3 & R4 & R5 & R6 & R7 & R8).
    apply ff_read_rect_at; auto; unfold i64_max, u64_max in *; try lia. apply pre_len. }
  assert (AT : ff_at big w h (zlen pre + 16) (pre ++ magic ++ u32_be w ++ u32_be h) samples rest s 0).
  { clear RO. induction OP as [s E|s x0 y0 rw0 rh0 buf0 rp0 out s' OP IH RO E].
    - rewrite ff_new_file in E by (auto; unfold i64_max, u64_max in *; lia). apply Ok_inj in E. subst s. apply ff_new_at.
    - pose proof IH as (W & H & _). rewrite W, H in RO. destruct (ST s x0 y0 rw0 rh0 buf0 rp0 IH RO) as (out2 & s2 & E2 & A2 & _). rewrite E2 in E. apply Ok_inj in E.
      injection E as _ ->. exact A2. }
  destruct (ST s x y rw rh buf rp AT RO) as (out & s' & E & _ & R). exists out, s'. split; [exact E|exact R].
Qed.
Print Assumptions C35_read_rect.

(** so read_rect agrees with cropping the result of a full decode *)
Theorem C29_farbfeld_read_rect_is_crop : forall big file w h full s x y rw rh buf rp, bytes file -> zlen file <= i64_max ->
  ff_decode big file = Ok (w, h, full) -> opened big file 0 s -> rect_ok w h x y rw rh rp buf ->
  exists out s', ff_read_rect big s x y rw rh buf rp = Ok (out, s') /\
    forall j, 0 <= j < rh -> zslice out (j * rp) (rw * 8) = zslice full (((y + j) * w + x) * 8) (rw * 8).
Proof.
  intros big file w h full s x y rw rh buf rp B L E OP RO.
  destruct (C35_decode_total big file B) as [(w' & h' & samples & rest & Hw & Hh & _ & LS & O & EF & E')|[E'|[E'|E']]]; rewrite E in E'; try discriminate.
  apply Ok_inj in E'. assert (w = w' /\ h = h' /\ full = native big samples) as (-> & -> & ->) by (split; [congruence|split; congruence]).
  rewrite EF in L, OP. destruct (C35_read_rect big w' h' samples [] rest s x y rw rh buf rp) as (out & s' & E2 & _ & R & _); auto. exists out, s'. auto.
Qed.
Print Assumptions C29_farbfeld_read_rect_is_crop.

(** the encoder's output is recognised by its magic bytes *)
Theorem C27_farbfeld_output_recognised : forall big data w h c out, is_u32 w -> is_u32 h -> bytes data ->
  ff_write_image big data w h c = Ok out -> guess_format out = Some Farbfeld.
Proof.
  intros big data w h c out Hw Hh B E. destruct c; try discriminate. cbn [ff_write_image] in E. unfold ff_encode in E.
  destruct (negb _); [discriminate|]. apply Ok_inj in E. subst out. apply guess_plain.
  - repeat constructor; cbv; discriminate.
  - unfold bytes. rewrite !Forall_app. repeat split.
    + apply be32_bytes.
    + apply be32_bytes.
    + apply Forall_flat_map. apply Forall_forall. intros ch Hch.
      assert (BC : bytes ch). { apply Forall_forall. intros z Hz. unfold bytes in B. rewrite Forall_forall in B. apply B. eapply chunks_exact_In; eauto. }
      destruct ch as [|a [|b [|? ?]]]; try constructor. inversion BC as [|? ? Ba BC1]; subst. inversion BC1 as [|? ? Bb BC2]; subst.
      unfold ne_pair. destruct big; repeat constructor; apply Ba || apply Bb.
  - cbn. tauto.
  - discriminate.
Qed.
Print Assumptions C27_farbfeld_output_recognised.

(** non-vacuity: a 1 x 2 image through the encoder, the decoder and read_rect (little-endian machine) *)
Example C35_ex : let samples := [65281; 65026; 3; 4; 5; 6; 7; 65535] in
  zlen samples = 4 * (1 * 2) /\
  (f <- ff_write_image false (native false samples) 1 2 XRgba16 ;; ff_decode false (f ++ [9])) = Ok (1, 2, native false samples) /\
  (f <- ff_write_image false (native false samples) 1 2 XRgba16 ;; s <- ff_new ([7; 7] ++ f) 2 ;;
   '(o, _) <- ff_read_rect false s 0 1 1 1 (repeat 0 9) 8 ;; Ok o) = Ok [5; 0; 6; 0; 7; 0; 255; 255; 0].
Proof. vm_compute. auto. Qed.
