(** C13: EXIF orientation. *)
From Verif Require Import Base Orient OrientSpec OrientProofs.

Theorem C13_from_exif_to_exif : forall o, from_exif (to_exif o) = Some o.
Proof. exact from_to_exif. Qed.
Print Assumptions C13_from_exif_to_exif.

Theorem C13_to_exif_from_exif : forall v o, from_exif v = Some o -> to_exif o = v /\ 1 <= v <= 8.
Proof. exact to_from_exif. Qed.
Print Assumptions C13_to_exif_from_exif.

Theorem C13_from_exif_rejects : forall v, from_exif v = None <-> ~ (1 <= v <= 8).
Proof. exact from_exif_none. Qed.
Print Assumptions C13_from_exif_rejects.

(** apply_orientation shows the stored picture the way the EXIF standard says: the 0th stored
    row and column end up on the sides listed for the tag value. *)
Theorem C13_apply_orientation : forall (P : Type) (zero : P) (im : img P) o row0 col0, wf im ->
  exif_sides (to_exif o) = Some (row0, col0) ->
  exists out, apply_orientation zero im o = Ok out /\ wf out /\
    iw out = (if exchanges (to_exif o) then ih im else iw im) /\
    ih out = (if exchanges (to_exif o) then iw im else ih im) /\
    forall x y X Y, 0 <= x < iw im -> 0 <= y < ih im ->
      at_side row0 y (iw out) (ih out) X Y -> at_side col0 x (iw out) (ih out) X Y ->
      pixel out X Y = pixel im x y.
Proof. exact (@apply_orientation_exif). Qed.
Print Assumptions C13_apply_orientation.

(** The EXIF chunk parser returns an orientation exactly when the chunk has a TIFF header of
    either byte order, the first IFD contains an orientation entry lying inside the chunk, and
    the first such entry's value is 1..8 (larger values are capped at 255, i.e. rejected). *)
Theorem C13_from_exif_chunk : forall c o, bytes c ->
  from_exif_chunk c = Some o <->
  exists be ifd n k v,
    firstn 4 c = tiff_magic be /\ u32at be c 4 = Some ifd /\ u16at be c ifd = Some n /\
    0 <= k < n /\ entry_present c ifd k /\ is_orientation_entry be c ifd k /\
    (forall j, 0 <= j < k -> ~ is_orientation_entry be c ifd j) /\
    u16at be c (ifd + 2 + 12 * k + 8) = Some v /\ from_exif (Z.min v 255) = Some o.
Proof. exact from_exif_chunk_iff. Qed.
Print Assumptions C13_from_exif_chunk.

(** every tag value has an EXIF meaning; a two-entry chunk is parsed in both byte orders *)
Example C13_sides_defined : forall o, exif_sides (to_exif o) <> None.
Proof. destruct o; discriminate. Qed.
Example C13_chunk_le : from_exif_chunk
  ([73;73;42;0; 8;0;0;0; 2;0] ++ [0;1; 3;0; 1;0;0;0; 9;9; 0;0] ++ [18;1; 3;0; 1;0;0;0; 6;0; 0;0])
  = Some Rotate90.
Proof. reflexivity. Qed.
Example C13_chunk_be : from_exif_chunk
  ([77;77;0;42; 0;0;0;8; 0;1] ++ [1;18; 0;3; 0;0;0;1; 0;8; 0;0]) = Some Rotate270.
Proof. reflexivity. Qed.
