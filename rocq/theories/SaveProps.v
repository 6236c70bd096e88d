(** C69: saving. *)
From Coq Require Import String.
From Verif Require Import Base BaseLemmas ListLemmas Limits ColorType Formats Buffer BufferProofs Color Float Dyn DynSpec Gif Reader Farbfeld FarbfeldSpec FarbfeldProofs FarbfeldProps ReaderProps Save SaveSpec SaveProofs.
Local Open Scope Z_scope.

(** The format is read off the part of the file name after its last dot, if something precedes the dot; the directories do not matter. *)
Theorem C69_format : forall p,
  (forall f, from_path p = Ok f <->
     p_name p <> bs ".." /\ exists stem ext, p_name p = stem ++ bs "." ++ ext /\ stem <> [] /\ ~ In 46 ext /\ from_extension ext = Some f) /\
  (from_path p = Err EUnsupported \/ exists f, from_path p = Ok f).
Proof.
  intros p. unfold from_path. split.
  - intros f. split.
    + destruct (extension p) as [e|] eqn:E; [|discriminate]. destruct (from_extension e) as [g|] eqn:G; [|discriminate]. intros H. injection H as ->.
      apply extension_spec in E. destruct E as (N & stem & A & B & C). split; [exact N|]. exists stem, e. auto.
    + intros (N & stem & e & A & B & C & D). assert (E : extension p = Some e) by (apply extension_spec; split; [exact N|]; exists stem; auto).
      rewrite E, D. reflexivity.
  - destruct (extension p) as [e|]; [|auto]. destruct (from_extension e); eauto.
Qed.

(** Saving under a name whose extension says nothing is refused before any file is touched. *)
Theorem C69_unknown_extension : forall creatable calls encs fs p buf w h c, (forall f, from_path p <> Ok f) ->
  save_buffer creatable calls encs fs p buf w h c = (Err EUnsupported, fs).
Proof.
  intros creatable calls encs fs p buf w h c H. unfold save_buffer. destruct (proj2 (C69_format p)) as [E|(f & E)]; [rewrite E; reflexivity|].
  exfalso. apply (H f E).
Qed.

(** No other file changes, whatever the encoder does and whatever happens to the disk or the process; nothing changes if the file cannot be created. *)
Theorem C69_only_this_file : forall creatable calls encs fs p buf w h c f,
  (forall q, q <> p -> snd (save_buffer_with_format creatable calls encs fs p buf w h c f) q = fs q) /\
  (creatable p = false -> save_buffer_with_format creatable calls encs fs p buf w h c f = (Err EEof, fs)) /\
  (forall q, q <> p -> snd (save_buffer creatable calls encs fs p buf w h c) q = fs q).
Proof.
  assert (K : forall creatable calls encs fs p buf w h c f q, q <> p -> snd (save_buffer_with_format creatable calls encs fs p buf w h c f) q = fs q).
  { intros creatable calls encs fs p buf w h c f q H. unfold save_buffer_with_format. destruct (creatable p); [|reflexivity].
    destruct (run _ _ _) as [r s]. cbn [snd]. unfold update. destruct (path_eq q p); [contradiction|reflexivity]. }
  intros creatable calls encs fs p buf w h c f. split; [intros q; apply K|]. split.
  - intros H. unfold save_buffer_with_format. rewrite H. reflexivity.
  - intros q H. unfold save_buffer. destruct (from_path p); [apply K; exact H|reflexivity|reflexivity].
Qed.

(** Each writable format reaches its own encoder, once, with the buffer, dimensions and colour type given; DDS, PCX and formats not compiled in
    are refused without writing. *)
Theorem C69_dispatch : forall encs buf w h c f,
  (forall e, can_write f = true -> encs f = Some e -> write_buffer encs buf w h c f = e buf w h c) /\
  (can_write f = false \/ encs f = None -> write_buffer encs buf w h c f = Ret (Err EUnsupported)).
Proof.
  intros encs buf w h c f. split.
  - intros e C E. destruct f; try discriminate; cbn [write_buffer]; rewrite E; reflexivity.
  - intros [C|E]; [destruct f; try discriminate; reflexivity|]. destruct f; cbn [write_buffer]; try rewrite E; reflexivity.
Qed.

(** Short and interrupted writes, in any order and number, and the buffering change nothing: the result and the file are those of the same encoder
    writing into memory. *)
Theorem C69_transparent : forall creatable calls encs fs p buf w h c f, creatable p = true -> Forall harmless calls ->
  save_buffer_with_format creatable calls encs fs p buf w h c f =
    (fst (in_memory (write_buffer encs buf w h c f)), update fs p (snd (in_memory (write_buffer encs buf w h c f)))).
Proof.
  intros creatable calls encs fs p buf w h c f C H. unfold save_buffer_with_format. rewrite C.
  destruct (run_harmless buf_capacity (write_buffer encs buf w h c f) (mkW [] 0 calls []) H) as (s' & E & Ok' & M). rewrite E.
  rewrite drop_harmless by exact Ok'. unfold in_memory. change (whole (mkW [] 0 calls [])) with (@nil Z) in *. change (wpos (mkW [] 0 calls [])) with O in *.
  f_equal. rewrite M. reflexivity.
Qed.

(** Under every fault: if the encoder reports the errors it is told of and ends with a flush, then success means that the complete output is in
    the file. *)
Theorem C69_success_is_complete : forall creatable calls encs fs p buf w h c f,
  reports (write_buffer encs buf w h c f) -> ends_flushed false (write_buffer encs buf w h c f) ->
  fst (save_buffer_with_format creatable calls encs fs p buf w h c f) = Ok tt ->
  creatable p = true /\ fst (in_memory (write_buffer encs buf w h c f)) = Ok tt /\
  snd (save_buffer_with_format creatable calls encs fs p buf w h c f) p = Some (snd (in_memory (write_buffer encs buf w h c f))).
Proof.
  intros creatable calls encs fs p buf w h c f R E. unfold save_buffer_with_format. destruct (creatable p); [|discriminate].
  destruct (run buf_capacity (write_buffer encs buf w h c f) (mkW [] 0 calls [])) as [r s'] eqn:Er. cbn [fst snd]. intros ->.
  destruct (run_reporting buf_capacity _ false (mkW [] 0 calls []) s' R E (fun _ => eq_refl) Er) as [M B]. split; [reflexivity|].
  change (whole (mkW [] 0 calls [])) with (@nil Z) in *. change (wpos (mkW [] 0 calls [])) with O in *.
  unfold in_memory. rewrite M. cbn [fst snd]. split; [reflexivity|]. unfold update. destruct (path_eq p p); [|contradiction].
  rewrite drop_empty by exact B. unfold whole. rewrite B. reflexivity.
Qed.

(** Without a last flush it does not: every output shorter than the 8 KiB buffer is reported as saved on a full disk, and lost. *)
Theorem C69_success_is_complete_refuted : forall creatable encs fs p buf w h c f out, creatable p = true -> (0 < length out < buf_capacity)%nat ->
  write_buffer encs buf w h c f = Write out (fun ok => Ret (if ok then Ok tt else Err EEof)) ->
  let saved := save_buffer_with_format creatable [Dead] encs fs p buf w h c f in
  reports (write_buffer encs buf w h c f) /\ fst saved = Ok tt /\ snd saved p = Some [] /\ snd (in_memory (write_buffer encs buf w h c f)) = out.
Proof.
  intros creatable encs fs p buf w h c f out C L E saved. unfold saved, save_buffer_with_format. rewrite C, E. cbn [run].
  unfold bw_write_all. cbn [w_buf w_file w_pos w_calls length]. rewrite Nat.sub_0_r.
  replace (length out <? buf_capacity)%nat with true by (symmetry; apply Nat.ltb_lt; lia).
  split; [cbn; split; [exact I|discriminate]|]. cbn [fst snd app]. split; [reflexivity|]. split.
  - unfold update. destruct (path_eq p p); [|contradiction]. unfold bw_drop, flush_buf. cbn [w_calls w_buf w_file w_pos].
    destruct out; [cbn in L; lia|]. reflexivity.
  - unfold in_memory. cbn [run_mem fst snd]. apply (put_end [] out).
Qed.

(** At every moment, after any crash or fault: an encoder that writes from front to back leaves a beginning of its output. *)
Theorem C69_prefix : forall creatable calls encs fs p buf w h c f, creatable p = true ->
  straight (write_buffer encs buf w h c f) ->
  exists content, snd (save_buffer_with_format creatable calls encs fs p buf w h c f) p = Some content /\
    prefix content (snd (in_memory (write_buffer encs buf w h c f))).
Proof.
  intros creatable calls encs fs p buf w h c f C S. unfold save_buffer_with_format. rewrite C.
  assert (P := run_prefix buf_capacity _ (mkW [] 0 calls []) S eq_refl).
  destruct (run buf_capacity (write_buffer encs buf w h c f) (mkW [] 0 calls [])) as [r s']. cbn [snd] in *. unfold update.
  destruct (path_eq p p); [|contradiction]. eexists. split; [reflexivity|]. exact P.
Qed.

(** A save that fails for want of an encoder has already destroyed the file that was there, on a faultless disk. *)
Theorem C69_failure_keeps_file_refuted : forall creatable calls encs fs p buf w h c f, creatable p = true ->
  from_path p = Ok f -> can_write f = false \/ encs f = None ->
  fst (save_buffer creatable calls encs fs p buf w h c) = Err EUnsupported /\
  snd (save_buffer creatable calls encs fs p buf w h c) p = Some [].
Proof.
  intros creatable calls encs fs p buf w h c f C F N. unfold save_buffer. rewrite F. unfold save_buffer_with_format. rewrite C.
  rewrite (proj2 (C69_dispatch encs buf w h c f) N). cbn [run fst snd]. split; [reflexivity|]. unfold update. destruct (path_eq p p); [|contradiction].
  f_equal. unfold bw_drop, flush_buf. cbn [w_calls w_buf w_file w_pos]. destruct calls; reflexivity.
Qed.

(** An ImageBuffer is saved as the bytes of the samples of its pixels, in order, without what its container holds beyond them; a container
    too short to hold them panics before any file is touched. *)
Theorem C69_buffer_save : forall S ch (enc : list S -> list Z) ct creatable calls encs fs (b : ibuf S) p,
  1 <= ch <= 255 -> is_u32 (bw b) -> is_u32 (bh b) -> zlen (data b) <= u64_max ->
  (bw b * bh b * ch <= zlen (data b) ->
   exists samples rest, data b = samples ++ rest /\ zlen samples = bw b * bh b * ch /\
     buffer_save ch enc ct creatable calls encs fs b p = save_buffer creatable calls encs fs p (enc samples) (bw b) (bh b) ct) /\
  (zlen (data b) < bw b * bh b * ch -> buffer_save ch enc ct creatable calls encs fs b p = (Panic, fs)).
Proof.
  intros S ch enc ct creatable calls encs fs b p Hc Hw Hh M. unfold buffer_save, inner_pixels. rewrite image_buffer_len_spec by (assumption || lia).
  assert (P : 0 <= bw b * bh b * ch) by (unfold is_u32 in *; apply Z.mul_nonneg_nonneg; [apply Z.mul_nonneg_nonneg|]; lia).
  set (n := bw b * bh b * ch) in *. split.
  - intros L. replace (n <=? u64_max) with true by lia. unfold slice_range. replace (0 <=? n) with true by lia. replace (n <=? zlen (data b)) with true by lia.
    cbn [andb]. exists (zslice (data b) 0 n), (skipn (Z.to_nat n) (data b)). rewrite Z.sub_0_r. split; [|split].
    + unfold zslice. change (Z.to_nat 0) with O. cbn [skipn]. rewrite firstn_skipn. reflexivity.
    + unfold zslice. change (Z.to_nat 0) with O. cbn [skipn]. unfold zlen in *. rewrite firstn_length. lia.
    + reflexivity.
  - intros L. destruct (n <=? u64_max); [|reflexivity]. unfold slice_range. replace (n <=? zlen (data b)) with false by lia.
    rewrite andb_false_r. reflexivity.
Qed.

(** the bytes of one sample of each depth *)
Definition sample_width (c : ctype) : Z := match depth_of c with D8 => 1 | D16 => 2 | D32F => 4 end.
Lemma flat_map_len : forall {A B} (f : A -> list B) n l, (forall a, In a l -> zlen (f a) = n) -> zlen (flat_map f l) = n * zlen l.
Proof.
  intros A B f n. induction l as [|a l IH]; intros H; [rewrite Z.mul_0_r; reflexivity|]. cbn [flat_map]. rewrite zlen_app, zlen_cons, H by (left; reflexivity).
  rewrite IH by (intros; apply H; right; assumption). lia.
Qed.
Lemma concat_len : forall {A} (l : list (list A)) n, Forall (fun p => zlen p = n) l -> zlen (concat l) = n * zlen l.
Proof. intros A l n H. induction H; [rewrite Z.mul_0_r; reflexivity|]. cbn [concat]. rewrite zlen_app, zlen_cons, H, IHForall. lia. Qed.

(** A DynamicImage is saved through save_buffer with its own dimensions, colour type and samples in memory order: the channels of the pixels of
    the rows one after the other, each as its bytes; there are exactly as many bytes as the encoder expects. *)
Theorem C69_dynimage_save : forall f32_bytes, (forall v, zlen (f32_bytes v) = 4) -> forall d, valid d ->
  (forall creatable calls encs fs p,
     dyn_save f32_bytes creatable calls encs fs d p =
     save_buffer creatable calls encs fs p (dyn_bytes f32_bytes d) (dyn_iw d) (dyn_ih d) (ect_of (dyn_color d)) /\
     forall f, dyn_save_with_format f32_bytes creatable calls encs fs d p f =
     save_buffer_with_format creatable calls encs fs p (dyn_bytes f32_bytes d) (dyn_iw d) (dyn_ih d) (ect_of (dyn_color d)) f) /\
  zlen (dyn_bytes f32_bytes d) = dyn_iw d * dyn_ih d * ct_bytes (dyn_color d) /\
  match open d with
  | Ints U8 _ im => dyn_bytes f32_bytes d = concat (px im)
  | Ints U16 _ im => dyn_bytes f32_bytes d = flat_map le16 (concat (px im))
  | Floats _ im => dyn_bytes f32_bytes d = flat_map f32_bytes (concat (px im))
  end.
Proof.
  intros fb Hf d V. split; [split; reflexivity|].
  assert (I8 : forall im, img_bytes U8 im = concat (px im)).
  { intros im. unfold img_bytes. induction (concat (px im)) as [|a l IH]; [reflexivity|]. cbn [flat_map sample_bytes app]. f_equal. exact IH. }
  assert (L : forall k (im : img (list Z)) t, buffer_of (is_pixel t k) im -> zlen (concat (px im)) = nch k * (iw im * ih im)).
  { intros k im t (W & _ & _ & F). destruct W as (_ & _ & W). rewrite <- W. apply concat_len. eapply Forall_impl; [|exact F]. intros a H. exact (proj1 H). }
  assert (Lf : forall k (im : img (list f32)), buffer_of (is_pixel_f k) im -> zlen (concat (px im)) = nch k * (iw im * ih im)).
  { intros k im (W & _ & _ & F). destruct W as (_ & _ & W). rewrite <- W. apply concat_len. exact F. }
  split.
  - destruct d as [im|im|im|im|im|im|im|im|im|im]; cbn [valid open] in V; unfold dyn_bytes, dyn_as_bytes, dyn_iw, dyn_ih; cbn [dyn_color ct_bytes];
      rewrite ?I8; try (rewrite (L _ _ _ V); cbn [nch]; lia);
      try (unfold img_bytes; rewrite (flat_map_len _ 2) by reflexivity; rewrite (L _ _ _ V); cbn [nch]; lia);
      try (rewrite (flat_map_len _ 4) by auto; rewrite (Lf _ _ V); cbn [nch]; lia).
  - destruct d as [im|im|im|im|im|im|im|im|im|im]; cbn [open]; try exact (I8 im); reflexivity.
Qed.

(** What write_to puts into a memory buffer is what save_with_format puts into the file on a faultless disk, for every format but GIF. *)
Theorem C69_write_to : forall f32_bytes creatable calls encs gif fs d p f, creatable p = true -> Forall harmless calls -> f <> Gif ->
  dyn_save_with_format f32_bytes creatable calls encs fs d p f =
  (fst (in_memory (dyn_write_to f32_bytes encs gif d f)), update fs p (snd (in_memory (dyn_write_to f32_bytes encs gif d f)))).
Proof.
  intros fb creatable calls encs gif fs d p f C H N. unfold dyn_save_with_format. rewrite C69_transparent by assumption.
  destruct f; try reflexivity. contradiction.
Qed.

(** GIF: write_to encodes the RGBA8 conversion of any image; save encodes RGB8 and RGBA8 images as they are and refuses all others, after
    truncating the file. *)
Theorem C69_gif : forall f32_bytes creatable calls encs gif fs d p, creatable p = true -> encs Gif = Some (gif_encode gif) ->
  dyn_iw d <= 65535 -> dyn_ih d <= 65535 ->
  (forall im, to_rgba8 d = Ok im -> iw im = dyn_iw d -> ih im = dyn_ih d ->
     dyn_write_to f32_bytes encs gif d Gif = gif true (dyn_iw d) (dyn_ih d) (concat (px im))) /\
  (dyn_color d <> CRgb8 -> dyn_color d <> CRgba8 ->
     fst (dyn_save_with_format f32_bytes creatable calls encs fs d p Gif) = Err EUnsupported /\
     snd (dyn_save_with_format f32_bytes creatable calls encs fs d p Gif) p = Some []) /\
  (dyn_color d = CRgb8 \/ dyn_color d = CRgba8 -> Forall harmless calls ->
     let e := gif (match dyn_color d with CRgba8 => true | _ => false end) (dyn_iw d) (dyn_ih d) (dyn_bytes f32_bytes d) in
     dyn_save_with_format f32_bytes creatable calls encs fs d p Gif = (fst (in_memory e), update fs p (snd (in_memory e)))).
Proof.
  intros fb creatable calls encs gif fs d p C E Hw Hh.
  assert (D : gif_dimensions (dyn_iw d) (dyn_ih d) = Ok (dyn_iw d, dyn_ih d)).
  { unfold gif_dimensions, u16_max. replace (dyn_iw d <=? 65535) with true by lia. replace (dyn_ih d <=? 65535) with true by lia. reflexivity. }
  assert (I8 : forall im, img_bytes U8 im = concat (px im)).
  { intros im. unfold img_bytes. induction (concat (px im)) as [|a l IH]; [reflexivity|]. cbn [flat_map sample_bytes app]. f_equal. exact IH. }
  split; [|split].
  - intros im T Iw Ih. unfold dyn_write_to. rewrite E, T. unfold gif_encode_frame. rewrite Iw, Ih, D, I8. reflexivity.
  - intros N1 N2. assert (W : write_buffer encs (dyn_bytes fb d) (dyn_iw d) (dyn_ih d) (ect_of (dyn_color d)) Gif = Ret (Err EUnsupported)).
    { cbn [write_buffer]. rewrite E. unfold gif_encode. rewrite D. destruct (dyn_color d); try reflexivity; contradiction. }
    unfold dyn_save_with_format, save_buffer_with_format. rewrite C, W. cbn [run fst snd]. split; [reflexivity|]. unfold update.
    destruct (path_eq p p); [|contradiction]. f_equal. unfold bw_drop, flush_buf. cbn [w_calls w_buf w_file w_pos]. destruct calls; reflexivity.
  - intros N H e. unfold dyn_save_with_format. rewrite C69_transparent by assumption.
    assert (W : write_buffer encs (dyn_bytes fb d) (dyn_iw d) (dyn_ih d) (ect_of (dyn_color d)) Gif = e).
    { cbn [write_buffer]. rewrite E. unfold gif_encode. rewrite D. unfold e. destruct N as [N|N]; rewrite N; reflexivity. }
    rewrite W. reflexivity.
Qed.

(** image::open on a path of the file system *)
Definition open_path (codecs : codec_table) (fs : files) (p : path) : res dynimage :=
  match fs p with Some content => open_image codecs (extension p) content | None => Err EEof end.

(** Saving and opening agree on the format, and the decoder is given exactly what the encoder wrote: an encoding that decodes to im under the
    format of the file name comes back as im. *)
Theorem C69_save_open : forall creatable calls encs codecs fs p buf w h c f im,
  creatable p = true -> Forall harmless calls -> from_path p = Ok f ->
  fst (in_memory (write_buffer encs buf w h c f)) = Ok tt ->
  load codecs (mkStream (snd (in_memory (write_buffer encs buf w h c f))) 0) f = im ->
  fst (save_buffer creatable calls encs fs p buf w h c) = Ok tt /\
  open_path codecs (snd (save_buffer creatable calls encs fs p buf w h c)) p = im.
Proof.
  intros creatable calls encs codecs fs p buf w h c f im C H F E L. unfold save_buffer. rewrite F. rewrite C69_transparent by assumption.
  cbn [fst snd]. split; [exact E|]. unfold open_path, update. destruct (path_eq p p); [|contradiction]. rewrite <- L.
  unfold open_image, load, reader_open. unfold from_path in F. destruct (extension p) as [ex|]; [|discriminate].
  destruct (from_extension ex) as [g|]; [|discriminate]. injection F as ->. reflexivity.
Qed.

(** the farbfeld encoder as an entry of the table: the writes of farbfeld.rs:268-297, each followed by `?` *)
Definition ff_prog (big : bool) (buf : list Z) (w h : Z) (c : ectype) : prog :=
  match ff_write_image big buf w h c with
  | Ok out => Write (firstn 8 out) (fun ok => if ok then Write (skipn 8 out) (fun ok => Ret (if ok then Ok tt else Err EEof)) else Ret (Err EEof))
  | Err e => Ret (Err e)
  | Panic => Ret Panic
  end.

(** The whole way, with the farbfeld encoder of C35 and the decoder of C62: 16-bit RGBA samples saved under a farbfeld name and opened again
    are the same samples. *)
Theorem C69_farbfeld_round_trip : forall big creatable calls encs fs p w h samples,
  creatable p = true -> Forall harmless calls -> from_path p = Ok Farbfeld -> encs Farbfeld = Some (ff_prog big) ->
  is_u32 w -> is_u32 h -> Forall is_u16 samples -> zlen samples = 4 * (w * h) -> w * h * 8 <= 536870912 ->
  fst (save_buffer creatable calls encs fs p (native big samples) w h XRgba16) = Ok tt /\
  open_path (ff_table big) (snd (save_buffer creatable calls encs fs p (native big samples) w h XRgba16)) p =
    Ok (mkDyn CRgba16 w h (native big samples)).
Proof.
  intros big creatable calls encs fs p w h samples C H F E Hw Hh S L B.
  assert (B' : w * h * 8 <= u64_max) by (unfold u64_max; lia).
  destruct (C35_round_trip big w h samples Hw Hh S L B') as [W _].
  assert (M : in_memory (write_buffer encs (native big samples) w h XRgba16 Farbfeld) = (Ok tt, farbfeld_file w h samples)).
  { cbn [write_buffer]. rewrite E. unfold ff_prog. rewrite W. unfold in_memory. cbn [run_mem fst]. rewrite put_put.
    rewrite firstn_skipn. f_equal. apply (put_end [] (farbfeld_file w h samples)). }
  apply (C69_save_open _ _ _ _ _ _ _ _ _ _ Farbfeld); auto; rewrite M; [reflexivity|]. cbn [snd].
  destruct (C62_end_to_end big [] w h samples [] Hw Hh S L (Forall_nil _)) as (G & D & _). rewrite app_nil_r in *. cbn [app] in *.
  rewrite <- (D B). unfold load. f_equal.
Qed.

Definition c69_theorems := (C69_format, C69_unknown_extension, C69_only_this_file, C69_dispatch, C69_transparent, C69_success_is_complete,
  C69_success_is_complete_refuted, C69_prefix, C69_failure_keeps_file_refuted, C69_buffer_save, C69_dynimage_save, C69_write_to, C69_gif,
  C69_save_open, C69_farbfeld_round_trip).
Print Assumptions c69_theorems.

(** non-vacuity: names *)
Definition c69_path (n : string) : path := mkPath [bs "home"; bs "a.png"] (bs n).
Example C69_ex_names :
  from_path (c69_path "x.FF") = Ok Farbfeld /\ from_path (c69_path "a.tar.Jpg") = Ok Jpeg /\ from_path (c69_path ".png") = Err EUnsupported /\
  from_path (c69_path "png") = Err EUnsupported /\ from_path (c69_path "x.png.") = Err EUnsupported /\ from_path (c69_path "..") = Err EUnsupported.
Proof. repeat split; vm_compute; reflexivity. Qed.
(** an image of two pixels saved under short and interrupted writes and opened again *)
Definition c69_encs : encoders := fun f => match f with Farbfeld => Some (ff_prog false) | Gif => Some (gif_encode (fun _ _ _ d => Write d (fun _ => Ret (Ok tt)))) | _ => None end.
Example C69_ex_round_trip :
  let samples := [1; 2; 3; 4; 5; 6; 65535; 256] in
  let calls := [Takes 3; Interrupted; Takes 1; Takes 100] in
  let r := save_buffer (fun _ => true) calls c69_encs (fun _ => None) (c69_path "x.ff") (native false samples) 2 1 XRgba16 in
  Forall harmless calls /\ fst r = Ok tt /\ open_path (ff_table false) (snd r) (c69_path "x.ff") = Ok (mkDyn CRgba16 2 1 (native false samples)).
Proof. split; [repeat constructor; cbn; lia|]. split; vm_compute; reflexivity. Qed.
(** an encoder that flushes, on a good disk and on one that fills up *)
Definition c69_flushing : prog := Write [1; 2; 3] (fun ok => if ok then Flush (fun ok => Ret (if ok then Ok tt else Err EEof)) else Ret (Err EEof)).
Example C69_ex_flush :
  reports c69_flushing /\ ends_flushed false c69_flushing /\ straight c69_flushing /\
  fst (run buf_capacity c69_flushing (mkW [] 0 [Takes 2] [])) = Ok tt /\
  (let '(r, s) := run buf_capacity c69_flushing (mkW [] 0 [Takes 2; Dead] []) in r = Err EEof /\ w_file (bw_drop s) = [1; 2]) /\
  (let '(r, s) := run buf_capacity c69_flushing (mkW [] 0 [Takes 2; Refuses] []) in r = Err EEof /\ w_file (bw_drop s) = [1; 2; 3]).
Proof.
  split; [cbn; repeat split; discriminate|]. split; [cbn; auto|]. split; [cbn; split; [split; [exact I|eexists; reflexivity]|eexists; reflexivity]|].
  vm_compute. auto.
Qed.
(** a one-pixel farbfeld on a full disk; an old file under a DDS name; a grey GIF *)
Example C69_ex_lost :
  let full := save_buffer (fun _ => true) [Dead] c69_encs (fun _ => Some [7]) (c69_path "x.ff") [0; 0; 0; 0; 0; 0; 0; 0] 1 1 XRgba16 in
  fst full = Ok tt /\ snd full (c69_path "x.ff") = Some [] /\ snd full (c69_path "y.ff") = Some [7] /\
  snd (save_buffer (fun _ => true) [] c69_encs (fun _ => Some [7]) (c69_path "x.dds") [0] 1 1 XL8) (c69_path "x.dds") = Some [].
Proof. repeat split; vm_compute; reflexivity. Qed.
Example C69_ex_gif : let d := ImageLuma8 (mkImg 1 1 [[9]]) in valid d /\
  dyn_write_to (fun _ => []) c69_encs (fun a w h d => Write d (fun _ => Ret (if a then Ok tt else Panic))) d Gif = Write [9; 9; 9; 255] (fun _ => Ret (Ok tt)) /\
  fst (dyn_save_with_format (fun _ => []) (fun _ => true) [] c69_encs (fun _ => None) d (c69_path "x") Gif) = Err EUnsupported.
Proof.
  split; [|split; vm_compute; reflexivity]. cbn [valid open]. unfold buffer_of. split; [unfold wf; cbn; lia|]. split; [cbn; unfold is_u32, u32_max; lia|].
  split; [cbn; unfold is_u32, u32_max; lia|]. constructor; [|constructor]. split; [reflexivity|]. constructor; [unfold is_sample, smax, u8_max; lia|constructor].
Qed.
