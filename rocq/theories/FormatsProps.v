(** C26, C27: format tables and magic bytes. *)
From Coq Require Import String.
From Verif Require Import Base Formats FormatsProofs.
Local Open Scope Z_scope.

(** C26.  Every listed extension, in any mixture of upper and lower case, maps to its format. *)
Theorem C26_extensions_recognised : forall f e s,
  In e (extensions_str f) -> Forall2 same_letter s (bs e) -> from_extension s = Some f.
Proof. exact ext_all. Qed.
Print Assumptions C26_extensions_recognised.

Theorem C26_case_insensitive : forall s t,
  Forall2 same_letter s t -> from_extension s = from_extension t.
Proof. exact ext_case_insensitive. Qed.
Print Assumptions C26_case_insensitive.

Theorem C26_extensions_disjoint : forall f g e,
  In e (extensions_str f) -> In e (extensions_str g) -> f = g.
Proof. exact ext_disjoint. Qed.
Print Assumptions C26_extensions_disjoint.

Theorem C26_mime_roundtrip : forall f, f <> Farbfeld -> from_mime_type (to_mime_type f) = Some f.
Proof. exact mime_roundtrip. Qed.
Print Assumptions C26_mime_roundtrip.

Theorem C26_mime_farbfeld : from_mime_type (to_mime_type Farbfeld) = None.
Proof. exact mime_farbfeld. Qed.
Print Assumptions C26_mime_farbfeld.

Theorem C26_all_complete : (forall f, In f all_formats) /\ NoDup all_formats.
Proof. exact (conj all_complete all_nodup). Qed.
Print Assumptions C26_all_complete.

Theorem C26_enabled_implies_possible : forall feat f,
  (reading_enabled feat f = true -> can_read f = true) /\
  (writing_enabled feat f = true -> can_write f = true).
Proof. exact enabled_subset. Qed.
Print Assumptions C26_enabled_implies_possible.

Theorem C26_all_features : forall f,
  reading_enabled (fun _ => true) f = can_read f /\ writing_enabled (fun _ => true) f = can_write f.
Proof. exact enabled_full. Qed.
Print Assumptions C26_all_features.

(** the names users type, listed independently of the code's tables *)
Theorem C26_known_names :
  map from_extension (map bs ["png"; "apng"; "jpg"; "jpeg"; "jfif"; "gif"; "webp"; "tif"; "tiff"; "tga";
     "dds"; "bmp"; "ico"; "hdr"; "exr"; "pbm"; "pam"; "ppm"; "pgm"; "ff"; "avif"; "qoi"; "pcx"]%string)
  = map Some [Png; Png; Jpeg; Jpeg; Jpeg; Gif; WebP; Tiff; Tiff; Tga; Dds; Bmp; Ico; Hdr; OpenExr;
     Pnm; Pnm; Pnm; Pnm; Farbfeld; Avif; Qoi; Pcx].
Proof. reflexivity. Qed.
Print Assumptions C26_known_names.

Example C26_ex : from_extension (bs "JpG"%string) = Some Jpeg /\ Forall2 same_letter (bs "JpG"%string) (bs "jpg"%string).
Proof. split; [reflexivity|]. repeat constructor; unfold same_letter; cbn; lia. Qed.

(** C27.  [matches b sig mask]: every signature byte equals the buffer byte at that position
    after masking. *)
Theorem C27_guess_sound : forall b f, bytes b -> guess_format b = Some f ->
  exists sig mask, In (sig, mask, f) MAGIC_BYTES /\ matches b sig mask.
Proof. exact guess_sound. Qed.
Print Assumptions C27_guess_sound.

(** If an entry matches, its format is the answer; the single exception is an AVIF file that is
    also a valid ICO start. *)
Theorem C27_guess_complete_unique : forall b sig mask f, bytes b ->
  In (sig, mask, f) MAGIC_BYTES -> matches b sig mask ->
  guess_format b = Some f \/ (f = Avif /\ guess_format b = Some Ico).
Proof. exact guess_unique. Qed.
Print Assumptions C27_guess_complete_unique.

(** no buffer is claimed by two different formats, except ICO/AVIF *)
Theorem C27_table_unambiguous : forall b s1 m1 f s2 m2 g,
  In (s1, m1, f) MAGIC_BYTES -> In (s2, m2, g) MAGIC_BYTES ->
  matches b s1 m1 -> matches b s2 m2 ->
  f = g \/ (f = Ico /\ g = Avif) \/ (f = Avif /\ g = Ico).
Proof. exact table_pair. Qed.
Print Assumptions C27_table_unambiguous.

(** the answer depends on the first 12 bytes only *)
Theorem C27_prefix_only : forall b1 b2, firstn 12 b1 = firstn 12 b2 -> guess_format b1 = guess_format b2.
Proof. exact guess_prefix. Qed.
Print Assumptions C27_prefix_only.

(** The published file signatures, listed here independently of the code's table: a file that
    starts with one of them is reported as that format, whatever follows. *)
Definition published_signatures : list (list Z * format) :=
  [ ([137; 80; 78; 71; 13; 10; 26; 10], Png); ([255; 216; 255], Jpeg);
    (bs "GIF89a"%string, Gif); (bs "GIF87a"%string, Gif);
    (bs "MM"%string ++ [0; 42], Tiff); (bs "II"%string ++ [42; 0], Tiff);
    (bs "DDS "%string, Dds); (bs "BM"%string, Bmp); ([0; 0; 1; 0], Ico);
    (bs "#?RADIANCE"%string, Hdr); ([118; 47; 49; 1], OpenExr); (bs "qoif"%string, Qoi);
    (bs "P1"%string, Pnm); (bs "P2"%string, Pnm); (bs "P3"%string, Pnm); (bs "P4"%string, Pnm);
    (bs "P5"%string, Pnm); (bs "P6"%string, Pnm); (bs "P7"%string, Pnm);
    (bs "farbfeld"%string, Farbfeld) ].
Theorem C27_published_signatures : forall sig f rest, In (sig, f) published_signatures ->
  bytes rest -> guess_format (sig ++ rest) = Some f.
Proof.
  intros sig f rest H Hr.
  cbn [published_signatures In] in H.
  repeat (destruct H as [H|H]; [injection H as <- <-; apply guess_plain;
    [repeat constructor; cbv; discriminate|exact Hr|cbn; tauto|discriminate]|]).
  contradiction.
Qed.
Print Assumptions C27_published_signatures.

(** WebP: RIFF <size> WEBP; PCX: 0x0A then a version byte below 8 *)
Theorem C27_webp_pcx : forall a b c d v rest,
  is_u8 a -> is_u8 b -> is_u8 c -> is_u8 d -> 0 <= v < 8 -> bytes rest ->
  guess_format (bs "RIFF"%string ++ [a; b; c; d] ++ bs "WEBP"%string ++ rest) = Some WebP /\
  guess_format (10 :: v :: rest) = Some Pcx.
Proof. exact guess_webp_pcx. Qed.
Print Assumptions C27_webp_pcx.

(** an AVIF file whose first box is 256 bytes long is reported as ICO *)
Theorem C27_avif_detection_refuted : exists b, bytes b /\
  matches b ([0; 0; 0; 0] ++ bs "ftypavif"%string) [255; 255; 0; 0] /\ guess_format b = Some Ico.
Proof.
  exists ([0; 0; 1; 0] ++ bs "ftypavif"%string). split; [|split; [|reflexivity]].
  - repeat constructor; cbv; discriminate.
  - assert (H : bytes ([0; 0; 1; 0] ++ bs "ftypavif"%string)) by (repeat constructor; cbv; discriminate).
    apply (entry_matches_iff _ _ _ H); reflexivity.
Qed.
Print Assumptions C27_avif_detection_refuted.

Example C27_ex : matches (bs "BM1234"%string) (bs "BM"%string) [] /\ guess_format (bs "BM1234"%string) = Some Bmp.
Proof.
  split; [|reflexivity].
  assert (H : bytes (bs "BM1234"%string)) by (repeat constructor; cbv; discriminate).
  apply (entry_matches_iff _ _ _ H); reflexivity.
Qed.
