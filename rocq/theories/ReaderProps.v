(** C62: ImageReader. *)
From Coq Require Import String.
From Verif Require Import Base BaseLemmas ListLemmas ListMore Limits LimitsProofs ColorType ColorTypeProps Formats FormatsProofs Buffer Farbfeld FarbfeldSpec FarbfeldProofs FarbfeldProps Reader ReaderProofs.
Local Open Scope Z_scope.

(** what the stream still holds *)
Definition remaining (s : stream) : list Z := skipn (Z.to_nat (s_pos s)) (s_bytes s).
(** a call that can change the format / the limits *)
Definition touches_format (s : stream) (o : rop) : Prop := match o with RSet _ | RClear => True | RGuess => guess_format (remaining s) <> None | _ => False end.
Definition touches_limits (o : rop) : Prop := match o with RNoLimits | RLimits _ => True | _ => False end.
(** the format / the limits such a call leaves *)
Definition format_of (s : stream) (o : rop) : option format := match o with RSet f => Some f | RGuess => guess_format (remaining s) | _ => None end.
Definition limits_of (o : rop) : limits := match o with RLimits l => l | _ => no_limits end.

Lemma keep_format os : forall r, Forall (fun o => ~ touches_format (r_inner r) o) os -> r_format (rrun r os) = r_format r.
Proof.
  induction os as [|o os IH]; intros r H; [reflexivity|]. inversion H as [|? ? H1 H2]; subst. change (rrun r (o :: os)) with (rrun (rstep r o) os).
  rewrite IH by (rewrite rstep_inner; exact H2). destruct o; cbn [touches_format] in H1; try (exfalso; apply H1; exact I); try reflexivity.
  cbn [rstep]. rewrite wgf. cbn [r_format]. fold (remaining (r_inner r)). destruct (guess_format (remaining (r_inner r))); [exfalso; apply H1; discriminate|reflexivity].
Qed.
Lemma keep_limits os : forall r, Forall (fun o => ~ touches_limits o) os -> r_limits (rrun r os) = r_limits r.
Proof.
  induction os as [|o os IH]; intros r H; [reflexivity|]. inversion H as [|? ? H1 H2]; subst. change (rrun r (o :: os)) with (rrun (rstep r o) os).
  rewrite IH by exact H2. destruct o; cbn [touches_limits] in H1; try (exfalso; apply H1; exact I); reflexivity.
Qed.

(** Every history of configuring calls: the stream (bytes and position) is untouched, the format is the one left by the last call that touches it
    (set_format, clear_format, or a guess that finds something: a guess that finds nothing changes nothing), the limits those of the last call of no_limits / limits. *)
Theorem C62_history r os : r_inner (rrun r os) = r_inner r /\
  (Forall (fun o => ~ touches_format (r_inner r) o) os -> r_format (rrun r os) = r_format r) /\
  (forall before o after, os = before ++ o :: after -> touches_format (r_inner r) o -> Forall (fun o => ~ touches_format (r_inner r) o) after ->
     r_format (rrun r os) = format_of (r_inner r) o) /\
  (Forall (fun o => ~ touches_limits o) os -> r_limits (rrun r os) = r_limits r) /\
  (forall before o after, os = before ++ o :: after -> touches_limits o -> Forall (fun o => ~ touches_limits o) after -> r_limits (rrun r os) = limits_of o).
Proof.
  split; [apply rrun_inner|]. split; [apply keep_format|]. split; [|split; [apply keep_limits|]].
  - intros before o after -> Ht Ha. rewrite rrun_app. change (rrun (rrun r before) (o :: after)) with (rrun (rstep (rrun r before) o) after).
    rewrite keep_format by (rewrite rstep_inner, rrun_inner; exact Ha). destruct o; cbn [touches_format] in Ht; try contradiction; try reflexivity.
    cbn [rstep format_of]. rewrite wgf. cbn [r_format]. rewrite rrun_inner. fold (remaining (r_inner r)). destruct (guess_format (remaining (r_inner r))); [reflexivity|contradiction].
  - intros before o after -> Ht Ha. rewrite rrun_app. change (rrun (rrun r before) (o :: after)) with (rrun (rstep (rrun r before) o) after).
    rewrite keep_limits by exact Ha. destruct o; cbn [touches_limits] in Ht; try contradiction; reflexivity.
Qed.

(** with_guessed_format never fails, leaves the stream where it was and answers what guess_format answers for all of the remaining bytes,
    although it looks at 16 of them. *)
Theorem C62_guess r : with_guessed_format r = mkReader (r_inner r) (match guess_format (remaining (r_inner r)) with Some f => Some f | None => r_format r end) (r_limits r).
Proof. apply wgf. Qed.

(** without a format, or with one that has no decoder, nothing is attempted *)
Theorem C62_no_format codecs r : r_format r = None \/ (exists f, r_format r = Some f /\ codecs f = None) ->
  decode codecs r = Err EUnsupported /\ into_dimensions codecs r = Err EUnsupported /\ into_decoder codecs r = Err EUnsupported.
Proof. intros [E|(f & E & Ec)]; unfold decode, into_dimensions, into_decoder, require_format, make_decoder; rewrite E; cbn [bind]; [auto|rewrite Ec; auto]. Qed.

(** load reads with the given format whatever the bytes look like and under the default limits: no other
    entry of the codec table matters, and there is no decoding without one for this format *)
Theorem C62_load codecs s f :
  load codecs s f = decode codecs (mkReader s (Some f) limits_default) /\
  (codecs f = None -> load codecs s f = Err EUnsupported) /\
  (forall codecs', codecs' f = codecs f -> load codecs' s f = load codecs s f) /\
  (forall mk e, codecs f = Some mk -> mk s limits_default = Err e -> load codecs s f = Err e).
Proof.
  assert (E : load codecs s f = decode codecs (mkReader s (Some f) limits_default)) by reflexivity.
  split; [exact E|]. split; [|split].
  - intros N. rewrite E. apply (C62_no_format codecs (mkReader s (Some f) limits_default)). right. exists f. split; [reflexivity|exact N].
  - intros codecs' C. unfold load, decode, require_format, make_decoder. cbn [bind r_format r_inner r_limits set_format reader_new]. rewrite C. reflexivity.
  - intros mk e C M. unfold load, decode, require_format, make_decoder. cbn [bind r_format r_inner r_limits set_format reader_new]. rewrite C, M. reflexivity.
Qed.

(** Opening a file by its path: only the extension decides the format, in any letter case, and the content only once guessing is asked for (and
    recognises something); without a known extension nothing is decoded; the whole content is what the decoder is given, under the default limits. *)
Theorem C62_open codecs ext content :
  (forall f e s, ext = Some s -> In e (extensions_str f) -> Forall2 same_letter s (bs e) ->
     r_format (reader_open ext content) = Some f /\
     open_image codecs ext content = load codecs (mkStream content 0) f /\
     forall d mk, codecs f = Some mk -> mk (mkStream content 0) limits_default = Ok d -> dc_set_limits d limits_default = Ok tt ->
       image_dimensions codecs ext content = Ok (dc_w d, dc_h d)) /\
  (r_format (reader_open ext content) = None -> open_image codecs ext content = Err EUnsupported /\ image_dimensions codecs ext content = Err EUnsupported) /\
  (ext = None -> r_format (reader_open ext content) = None) /\
  (forall f, guess_format content = Some f -> decode codecs (with_guessed_format (reader_open ext content)) = load codecs (mkStream content 0) f) /\
  (guess_format content = None -> with_guessed_format (reader_open ext content) = reader_open ext content).
Proof.
  assert (G : with_guessed_format (reader_open ext content) = mkReader (mkStream content 0) (match guess_format content with Some f => Some f | None => r_format (reader_open ext content) end) limits_default)
    by (rewrite C62_guess; reflexivity).
  split; [|split; [|split; [|split]]].
  - intros f e s E I M. assert (F : r_format (reader_open ext content) = Some f) by (rewrite E; apply (ext_all f e s I M)).
    split; [exact F|]. assert (R : reader_open ext content = mkReader (mkStream content 0) (Some f) limits_default) by (rewrite <- F; reflexivity).
    split; [unfold open_image; rewrite R; reflexivity|].
    intros d mk C K S'. unfold image_dimensions, into_dimensions, into_decoder, require_format, make_decoder. rewrite R. cbn [r_format r_inner r_limits bind].
    rewrite C, K. cbn [bind]. rewrite S'. reflexivity.
  - intros N. destruct (C62_no_format codecs (reader_open ext content) (or_introl N)) as (A & B & _). split; [exact A|exact B].
  - intros E. rewrite E. reflexivity.
  - intros f E. rewrite G, E. reflexivity.
  - intros E. rewrite G, E. reflexivity.
Qed.

(** the decoder that decode talks to *)
Definition opens (codecs : codec_table) (r : reader) (d : decoder) : Prop :=
  exists f mk, r_format r = Some f /\ codecs f = Some mk /\ mk (r_inner r) (r_limits r) = Ok d /\ is_u32 (dc_w d) /\ is_u32 (dc_h d).
Definition image_bytes (d : decoder) : Z := dc_w d * dc_h d * ct_bytes (dc_ct d).
(** the memory budget of [l] with [t] bytes taken out of it *)
Definition left_over (l : limits) (t : Z) : limits := mkLimits (max_image_width l) (max_image_height l) (match max_alloc l with Some b => Some (b - t) | None => None end).

(** decode succeeds exactly when the image fits the memory budget (and the address space), the decoder accepts the budget that remains, and its read_image
    succeeds on a zeroed buffer of exactly the image's size; the result then has the decoder's dimensions, colour type and bytes. *)
Theorem C62_decode codecs r d : opens codecs r d -> forall im,
  decode codecs r = Ok im <->
  (forall b, max_alloc (r_limits r) = Some b -> image_bytes d <= b) /\ image_bytes d <= 2 ^ 63 - 1 /\
  dc_set_limits d (left_over (r_limits r) (image_bytes d)) = Ok tt /\
  exists out, dc_read d (left_over (r_limits r) (image_bytes d)) (repeat 0 (Z.to_nat (image_bytes d))) = Ok out /\ im = mkDyn (dc_ct d) (dc_w d) (dc_h d) out.
Proof.
  intros (f & mk & Ef & Ec & Ed & Hw & Hh) im. destruct (decode_eq codecs r f mk d Ef Ec Ed Hw Hh) as [N A]. fold (image_bytes d) in N, A.
  change (2 ^ 63 - 1) with isize_max.
  assert (Sm : image_bytes d <= isize_max -> Z.min u64_max (image_bytes d) = image_bytes d) by (unfold isize_max, u64_max; lia).
  split.
  - intros E. destruct (Z.le_gt_cases (image_bytes d) isize_max) as [L|L].
    + rewrite (Sm L) in *. assert (Af : affordable (r_limits r) (image_bytes d)).
      { intros b Eb. destruct (Z.le_gt_cases (image_bytes d) b) as [H|H]; [exact H|]. rewrite N in E; [discriminate|]. intros C. specialize (C b Eb). lia. }
      split; [exact Af|]. split; [exact L|]. rewrite (A Af) in E. apply bind_ok in E. destruct E as ([] & E1 & E). split; [exact E1|].
      replace (image_bytes d <=? isize_max) with true in E by lia. apply bind_ok in E. destruct E as (out & E2 & E). exists out. split; [exact E2|]. apply Ok_inj in E. auto.
    + exfalso. destruct (match max_alloc (r_limits r) with Some b => b <? Z.min u64_max (image_bytes d) | None => false end) eqn:Eb.
      * rewrite N in E; [discriminate|]. intros C. destruct (max_alloc (r_limits r)) as [b|] eqn:Em; [|discriminate]. specialize (C b Em). lia.
      * assert (Af : affordable (r_limits r) (Z.min u64_max (image_bytes d))). { intros b Em. rewrite Em in Eb. lia. }
        rewrite (A Af) in E. apply bind_ok in E. destruct E as (? & _ & E). replace (image_bytes d <=? isize_max) with false in E by lia. discriminate.
  - intros (Af & L & E1 & out & E2 & ->). rewrite (Sm L) in A. rewrite (A Af). unfold left_over in *. unfold minus. rewrite E1. cbn [bind].
    replace (image_bytes d <=? isize_max) with true by lia. rewrite E2. reflexivity.
Qed.

(** An image larger than the budget is refused before any of its pixels are read, whatever the decoder's read_image would do; so is one that no buffer can hold. *)
Theorem C62_too_large codecs r d : opens codecs r d ->
  (forall b, max_alloc (r_limits r) = Some b -> b < image_bytes d -> b < 2 ^ 64 - 1 -> decode codecs r = Err ELimits) /\
  (2 ^ 63 <= image_bytes d -> (forall l, dc_set_limits d l = Ok tt \/ dc_set_limits d l = Err ELimits) -> decode codecs r = Err ELimits).
Proof.
  intros (f & mk & Ef & Ec & Ed & Hw & Hh). destruct (decode_eq codecs r f mk d Ef Ec Ed Hw Hh) as [N A]. fold (image_bytes d) in N, A. split.
  - intros b Eb H1 H2. apply N. intros C. specialize (C b Eb). change (2 ^ 64 - 1) with u64_max in H2. lia.
  - intros H S. destruct (match max_alloc (r_limits r) with Some b => b <? Z.min u64_max (image_bytes d) | None => false end) eqn:Eb.
    + apply N. intros C. destruct (max_alloc (r_limits r)) as [b|] eqn:Em; [|discriminate]. specialize (C b Em). lia.
    + assert (Af : affordable (r_limits r) (Z.min u64_max (image_bytes d))). { intros b Em. rewrite Em in Eb. lia. }
      rewrite (A Af). destruct (S (minus (r_limits r) (Z.min u64_max (image_bytes d)))) as [E|E]; rewrite E; cbn [bind]; [|reflexivity].
      replace (image_bytes d <=? isize_max) with false by (change (2 ^ 63) with (isize_max + 1) in H; lia). reflexivity.
Qed.

(** Whatever decode returns respects the limits: the pixels take at most max_alloc bytes and, for a decoder whose set_limits checks its dimensions
    as the trait demands, neither side exceeds its maximum.  The bytes are exactly width * height * bytes_per_pixel many. *)
Theorem C62_limits codecs r d im : opens codecs r d -> decode codecs r = Ok im ->
  (forall l buf out, dc_read d l buf = Ok out -> zlen out = zlen buf) ->
  (forall l, dc_set_limits d l = Ok tt -> check_dimensions l (dc_w d) (dc_h d) = Ok tt) ->
  zlen (di_bytes im) = di_w im * di_h im * ct_bytes (di_ct im) /\
  (forall b, max_alloc (r_limits r) = Some b -> zlen (di_bytes im) <= b) /\
  (forall m, max_image_width (r_limits r) = Some m -> di_w im <= m) /\ (forall m, max_image_height (r_limits r) = Some m -> di_h im <= m).
Proof.
  intros O E Hlen Hdim. pose proof O as (f & mk & _ & _ & _ & Hw & Hh). apply (C62_decode codecs r d O) in E. destruct E as (Af & L & E1 & out & E2 & ->). cbn [di_bytes di_w di_h di_ct].
  apply Hlen in E2. rewrite zlen_repeat, Z2Nat.id in E2 by (unfold image_bytes; destruct (sample_size_eq (dc_ct d)) as (_ & ? & ? & ?); unfold is_u32 in *; assert (0 <= dc_w d * dc_h d) by (apply Z.mul_nonneg_nonneg; lia); assert (0 <= ct_bytes (dc_ct d)) by nia; apply Z.mul_nonneg_nonneg; lia).
  split; [exact E2|]. split; [intros b Eb; rewrite E2; apply Af; exact Eb|]. apply Hdim in E1. apply check_dimensions_iff in E1. exact E1.
Qed.

(** into_dimensions answers the dimensions that decode would deliver, without paying for the pixels *)
Theorem C62_dimensions codecs r d : opens codecs r d -> dc_set_limits d (r_limits r) = Ok tt ->
  into_dimensions codecs r = Ok (dc_w d, dc_h d) /\ forall im, decode codecs r = Ok im -> (di_w im, di_h im) = (dc_w d, dc_h d).
Proof.
  intros O E. split.
  - destruct O as (f & mk & Ef & Ec & Ed & _). unfold into_dimensions, into_decoder, require_format, make_decoder. rewrite Ef. cbn [bind]. rewrite Ec, Ed. cbn [bind]. rewrite E. reflexivity.
  - intros im D. apply (C62_decode codecs r d O) in D. destruct D as (_ & _ & _ & out & _ & ->). reflexivity.
Qed.

(** decode panics only if the codec does *)
Theorem C62_total codecs r : (forall f mk, r_format r = Some f -> codecs f = Some mk -> mk (r_inner r) (r_limits r) <> Panic /\
    forall d, mk (r_inner r) (r_limits r) = Ok d -> is_u32 (dc_w d) /\ is_u32 (dc_h d) /\ forall l, dc_set_limits d l <> Panic /\ dc_read d l (repeat 0 (Z.to_nat (image_bytes d))) <> Panic) ->
  decode codecs r <> Panic.
Proof.
  intros H. destruct (r_format r) as [f|] eqn:Ef; [|rewrite (proj1 (C62_no_format codecs r (or_introl Ef))); discriminate].
  destruct (codecs f) as [mk|] eqn:Ec; [|rewrite (proj1 (C62_no_format codecs r (or_intror (ex_intro _ f (conj Ef Ec))))); discriminate].
  destruct (H f mk eq_refl Ec) as [H1 H2]. destruct (mk (r_inner r) (r_limits r)) as [d|e|] eqn:Ed; [|unfold decode, require_format, make_decoder; rewrite Ef; cbn [bind]; rewrite Ec, Ed; discriminate|contradiction].
  destruct (H2 d eq_refl) as (Hw & Hh & Hl). destruct (decode_eq codecs r f mk d Ef Ec Ed Hw Hh) as [N A]. fold (image_bytes d) in N, A.
  destruct (match max_alloc (r_limits r) with Some b => b <? Z.min u64_max (image_bytes d) | None => false end) eqn:Eb.
  - rewrite N; [discriminate|]. intros C. destruct (max_alloc (r_limits r)) as [b|] eqn:Em; [|discriminate]. specialize (C b Em). lia.
  - assert (Af : affordable (r_limits r) (Z.min u64_max (image_bytes d))). { intros b Em. rewrite Em in Eb. lia. }
    rewrite (A Af). destruct (Hl (minus (r_limits r) (Z.min u64_max (image_bytes d)))) as [P1 P2]. destruct (dc_set_limits d _) as [[]|e|]; cbn [bind]; [|discriminate|contradiction].
    destruct (image_bytes d <=? isize_max); [|discriminate]. destruct (dc_read d _ _); cbn [bind]; [discriminate|discriminate|contradiction].
Qed.

(** The farbfeld codec of C35 as an entry of the table (FarbfeldDecoder::new: farbfeld.rs:192-196, default set_limits). *)
Definition ff_codec (big : bool) (s : stream) (l : limits) : res decoder :=
  d <- ff_new (s_bytes s) (s_pos s) ;; Ok (mkDec (ff_w d) (ff_h d) CRgba16 (default_set_limits (ff_w d) (ff_h d)) (fun _ buf => ff_read_image big d (zlen buf))).
Definition ff_table (big : bool) : codec_table := fun f => match f with Farbfeld => Some (ff_codec big) | _ => None end.

(** From the bytes to the image: a farbfeld file anywhere in a stream is recognised and decoded to its samples if they fit the default 512 MiB,
    and refused with a limits error if they do not. *)
Theorem C62_end_to_end big pre w h samples rest : is_u32 w -> is_u32 h -> Forall is_u16 samples -> zlen samples = 4 * (w * h) -> bytes rest ->
  let r := with_guessed_format (reader_new (mkStream (pre ++ farbfeld_file w h samples ++ rest) (zlen pre))) in
  r_format r = Some Farbfeld /\
  (w * h * 8 <= 536870912 -> decode (ff_table big) r = Ok (mkDyn CRgba16 w h (native big samples))) /\
  (536870912 < w * h * 8 <= u64_max -> decode (ff_table big) r = Err ELimits).
Proof.
  intros Hw Hh F L Br r.
  assert (Er : r = mkReader (mkStream (pre ++ farbfeld_file w h samples ++ rest) (zlen pre)) (Some Farbfeld) limits_default).
  { unfold r. rewrite wgf. cbn [reader_new r_inner s_pos s_bytes r_format r_limits]. unfold zlen. rewrite Nat2Z.id. rewrite skipn_app_exact by reflexivity.
    replace (guess_format (farbfeld_file w h samples ++ rest)) with (Some Farbfeld); [reflexivity|]. symmetry.
    rewrite (guess_prefix _ (magic ++ u32_be w)) by reflexivity. apply guess_plain; [repeat constructor; cbv; discriminate|rewrite u32_be_eq by exact Hw; apply be32_bytes|cbn; tauto|discriminate]. }
  split; [rewrite Er; reflexivity|].
  assert (O : w * h * 8 <= u64_max -> opens (ff_table big) r (mkDec w h CRgba16 (default_set_limits w h) (fun _ buf => ff_read_image big (mkFf w h (pre ++ farbfeld_file w h samples ++ rest) (zlen pre + 16) 0 None) (zlen buf)))).
  { intros B. exists Farbfeld, (ff_codec big). rewrite Er. cbn [r_format r_inner r_limits]. split; [reflexivity|]. split; [reflexivity|]. split; [|split; assumption].
    unfold ff_codec. cbn [s_bytes s_pos]. rewrite ff_new_file by auto. reflexivity. }
  split.
  - intros B. assert (B' : w * h * 8 <= u64_max) by (unfold u64_max; lia). apply (C62_decode _ _ _ (O B')). unfold image_bytes. cbn [dc_w dc_h dc_ct dc_set_limits dc_read ct_bytes]. rewrite Er. cbn [r_limits limits_default max_alloc left_over].
    assert (P : 0 <= w * h) by (apply Z.mul_nonneg_nonneg; unfold is_u32 in *; lia).
    split; [intros b Eb; apply Some_inj in Eb; lia|]. split; [lia|]. split; [reflexivity|]. exists (native big samples). split; [|reflexivity].
    rewrite zlen_repeat, Z2Nat.id by lia. unfold ff_read_image. cbn [ff_w ff_h]. rewrite C25_total_bytes by auto. cbn [ct_bytes bind]. replace (w * h * 8 <=? u64_max) with true by lia. rewrite Z.eqb_refl. cbn [negb].
    destruct (ff_read_exact_at big w h (zlen pre + 16) (pre ++ magic ++ u32_be w ++ u32_be h) samples rest (pre_len w h pre) (Z.to_nat (w * h * 8))
      (mkFf w h (pre ++ farbfeld_file w h samples ++ rest) (zlen pre + 16) 0 None) 0 (w * h * 8) (ff_new_at big w h samples pre rest)) as (s' & E & _); [lia|lia|].
    rewrite E. cbn [bind]. f_equal. apply zslice_full. rewrite native_len. lia.
  - intros B. apply (proj1 (C62_too_large _ _ _ (O (proj2 B))) 536870912); [rewrite Er; reflexivity| |reflexivity]. unfold image_bytes. cbn [dc_w dc_h dc_ct ct_bytes]. lia.
Qed.

(** non-vacuity: a file of one pixel behind two other bytes, recognised, decoded, and refused under smaller limits *)
Example C62_ex : let samples := [65281; 65026; 3; 65535] in let r := reader_new (mkStream ([7; 7] ++ farbfeld_file 1 1 samples ++ [9]) 2) in
  r_format (rrun r [RSet Png; RGuess; RNoLimits]) = Some Farbfeld /\ r_format (rrun r [RGuess; RClear]) = None /\
  decode (ff_table false) (rrun r [RGuess]) = Ok (mkDyn CRgba16 1 1 (native false samples)) /\
  decode (ff_table false) (rrun r [RGuess; RLimits (mkLimits None None (Some 8))]) = Ok (mkDyn CRgba16 1 1 (native false samples)) /\
  decode (ff_table false) (rrun r [RGuess; RLimits (mkLimits None None (Some 7))]) = Err ELimits /\
  decode (ff_table false) (rrun r [RGuess; RLimits (mkLimits (Some 0) None None)]) = Err ELimits /\
  into_dimensions (ff_table false) (rrun r [RGuess; RLimits (mkLimits None None (Some 7))]) = Ok (1, 1) /\
  decode (ff_table false) (rrun r [RSet Tiff]) = Err EUnsupported /\ decode (ff_table false) r = Err EUnsupported.
Proof. vm_compute. repeat split. Qed.
(** the same file under the names x.FF and x.tar, and a file whose content is not what its name says *)
Example C62_open_ex : let content := farbfeld_file 1 1 [65281; 65026; 3; 65535] in
  open_image (ff_table false) (Some (bs "FF"%string)) content = Ok (mkDyn CRgba16 1 1 (native false [65281; 65026; 3; 65535])) /\
  image_dimensions (ff_table false) (Some (bs "ff"%string)) content = Ok (1, 1) /\
  open_image (ff_table false) (Some (bs "tar"%string)) content = Err EUnsupported /\
  open_image (ff_table false) (Some (bs "ff"%string)) (bs "GIF89a"%string) = Err EDecoding /\
  r_format (with_guessed_format (reader_open (Some (bs "png"%string)) content)) = Some Farbfeld.
Proof. vm_compute. repeat split. Qed.
(** the farbfeld decoder meets the requirements of C62_limits *)
Example C62_ff_contract big s l d : ff_codec big s l = Ok d -> forall l', dc_set_limits d l' = Ok tt -> check_dimensions l' (dc_w d) (dc_h d) = Ok tt.
Proof. unfold ff_codec. destruct (ff_new _ _) as [x|e|]; cbn [bind]; intros E; try discriminate. apply Ok_inj in E. subst d. auto. Qed.

Definition c62_theorems := (C62_history, C62_guess, C62_no_format, C62_load, C62_open, C62_decode, C62_too_large, C62_limits, C62_dimensions, C62_total, C62_end_to_end).
Print Assumptions c62_theorems.
