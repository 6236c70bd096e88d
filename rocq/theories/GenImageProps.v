(** C05, C06 (generic implementation), C07, C16. *)
From Verif Require Import Base BaseLemmas GenImage GenImageProofs.
Local Open Scope Z_scope.

(** C05.  copy_from, in debug and release builds, when the requested corner does not overflow u32. *)
Theorem C05_copy_from_fits : forall P m (self other : img P) x y,
  wf self -> wf other -> is_u32 (iw self) -> is_u32 (ih self) -> is_u32 x -> is_u32 y ->
  iw other + x <= iw self -> ih other + y <= ih self ->
  exists r, copy_from m self other x y = Ok (r, inl tt) /\ wf r /\ iw r = iw self /\ ih r = ih self /\
    forall X Y, pixel r X Y =
      match pixel other (X - x) (Y - y) with Some p => Some p | None => pixel self X Y end.
Proof. exact @copy_from_fits. Qed.
Print Assumptions C05_copy_from_fits.

Theorem C05_copy_from_rejects : forall P m (self other : img P) x y,
  wf self -> wf other -> is_u32 x -> is_u32 y ->
  iw other + x <= u32_max -> ih other + y <= u32_max ->
  iw self < iw other + x \/ ih self < ih other + y ->
  copy_from m self other x y = Ok (self, inr EParameter).
Proof. exact @copy_from_rejects. Qed.
Print Assumptions C05_copy_from_rejects.

(** Where other.width() + x exceeds u32::MAX the documented error is not returned: debug and
    release builds both panic. *)
Theorem C05_overflow_refuted : exists (self other : img Z) x y,
  wf self /\ wf other /\ is_u32 x /\ is_u32 y /\ iw self < iw other + x /\
  forall m, copy_from m self other x y = Panic.
Proof.
  exists (mkImg 2 1 [1;2]), (mkImg 1 1 [5]), u32_max, 0.
  repeat split; try (cbv; discriminate). intros []; reflexivity.
Qed.
Print Assumptions C05_overflow_refuted.

Example C05_ex : copy_from Release (mkImg 3 2 [1;2;3;4;5;6]) (mkImg 2 1 [7;8]) 1 1
  = Ok (mkImg 3 2 [1;2;3;4;7;8], inl tt) /\ wf (mkImg 3 2 [1;2;3;4;5;6]).
Proof. repeat split; cbv; discriminate. Qed.

(** C06, generic copy_within.  Inside the asserted corner conditions it is a simultaneous copy,
    whatever the overlap of source and target. *)
Theorem C06_copy_within_simultaneous : forall P (im : img P) sx sy w h dx dy,
  wf im -> 0 <= sx < iw im -> 0 <= dx < iw im -> 0 <= sy < ih im -> 0 <= dy < ih im -> 0 <= w -> 0 <= h ->
  sx + w <= iw im -> dx + w <= iw im -> sy + h <= ih im -> dy + h <= ih im ->
  exists r, copy_within im sx sy w h dx dy = Ok (true, r) /\ wf r /\ iw r = iw im /\ ih r = ih im /\
    forall X Y, pixel r X Y =
      if (dx <=? X) && (X <? dx + w) && (dy <=? Y) && (Y <? dy + h)
      then pixel im (X - dx + sx) (Y - dy + sy) else pixel im X Y.
Proof. exact @copy_within_correct. Qed.
Print Assumptions C06_copy_within_simultaneous.

Theorem C06_copy_within_rejects : forall P (im : img P) sx sy w h dx dy,
  wf im -> 0 <= sx < iw im -> 0 <= dx < iw im -> 0 <= sy < ih im -> 0 <= dy < ih im -> 0 <= w -> 0 <= h ->
  iw im < sx + w \/ iw im < dx + w \/ ih im < sy + h \/ ih im < dy + h ->
  copy_within im sx sy w h dx dy = Ok (false, im).
Proof. exact @copy_within_reject. Qed.
Print Assumptions C06_copy_within_rejects.

(** a corner outside the image panics (assert!) instead of returning false *)
Theorem C06_copy_within_corner_panics : forall P (im : img P) sx sy w h dx dy,
  iw im <= sx \/ iw im <= dx \/ ih im <= sy \/ ih im <= dy ->
  copy_within im sx sy w h dx dy = Panic.
Proof. exact @copy_within_panic. Qed.
Print Assumptions C06_copy_within_corner_panics.

Example C06_ex : copy_within (mkImg 3 2 [1;2;3;4;5;6]) 0 0 2 1 1 0 = Ok (true, mkImg 3 2 [1;1;2;4;5;6]).
Proof. reflexivity. Qed.

(** C07.  Views. *)
Theorem C07_view_construction : forall P (im : img P) x y w h,
  (forall s, view im x y w h = Ok s <-> s = mkSub x y w h /\ x + w <= iw im /\ y + h <= ih im) /\
  (view im x y w h = Panic <-> iw im < x + w \/ ih im < y + h).
Proof. intros. split; [intros; apply view_ok|apply view_panics]. Qed.
Print Assumptions C07_view_construction.

Theorem C07_view_reads : forall P m (im : img P) s x y, wf im -> is_u32 (iw im) -> is_u32 (ih im) ->
  0 <= s_xo s -> 0 <= s_yo s -> s_xo s + s_w s <= iw im -> s_yo s + s_h s <= ih im ->
  0 <= x < s_w s -> 0 <= y < s_h s ->
  exists p, sub_get m im s x y = Ok p /\ pixel im (s_xo s + x) (s_yo s + y) = Some p.
Proof. exact @sub_get_spec. Qed.
Print Assumptions C07_view_reads.

Theorem C07_view_writes : forall P m (im : img P) s x y p, wf im -> is_u32 (iw im) -> is_u32 (ih im) ->
  0 <= s_xo s -> 0 <= s_yo s -> s_xo s + s_w s <= iw im -> s_yo s + s_h s <= ih im ->
  0 <= x < s_w s -> 0 <= y < s_h s ->
  exists im', sub_put m im s x y p = Ok im' /\ wf im' /\ iw im' = iw im /\ ih im' = ih im /\
    forall X Y, pixel im' X Y = if (X =? s_xo s + x) && (Y =? s_yo s + y) then Some p else pixel im X Y.
Proof. exact @sub_put_spec. Qed.
Print Assumptions C07_view_writes.

(** a view of a view is the view of the parent at the summed offset (the saturating addition in
    the code never saturates) *)
Theorem C07_view_of_view : forall P (im : img P) x y w h s x' y' w' h' s',
  is_u32 (iw im) -> is_u32 (ih im) -> 0 <= x -> 0 <= y -> 0 <= x' -> 0 <= y' -> 0 <= w' -> 0 <= h' ->
  view im x y w h = Ok s -> sub_view s x' y' w' h' = Ok s' ->
  view im (x + x') (y + y') w' h' = Ok s' /\ x' + w' <= w /\ y' + h' <= h.
Proof. exact @sub_view_compose. Qed.
Print Assumptions C07_view_of_view.

Theorem C07_view_of_view_panics : forall s x' y' w' h',
  sub_view s x' y' w' h' = Panic <-> s_w s < x' + w' \/ s_h s < y' + h'.
Proof. exact sub_view_panics. Qed.
Print Assumptions C07_view_of_view_panics.

Theorem C07_to_image : forall P m z (im : img P) s, wf im -> is_u32 (iw im) -> is_u32 (ih im) ->
  0 <= s_xo s -> 0 <= s_yo s -> 0 <= s_w s -> 0 <= s_h s ->
  s_xo s + s_w s <= iw im -> s_yo s + s_h s <= ih im ->
  exists r, to_image m z im s = Ok r /\ wf r /\ iw r = s_w s /\ ih r = s_h s /\
    forall x y, 0 <= x < s_w s -> 0 <= y < s_h s -> pixel r x y = pixel im (s_xo s + x) (s_yo s + y).
Proof. exact @to_image_spec. Qed.
Print Assumptions C07_to_image.

(** A view does not check coordinates against its own size: reading outside the view but inside
    the parent returns the parent's pixel instead of the documented panic. *)
Theorem C07_view_bounds_refuted : exists (im : img Z) s x y,
  view im 0 0 1 1 = Ok s /\ s_w s <= x /\ forall m, sub_get m im s x y = Ok 2.
Proof.
  exists (mkImg 2 1 [1;2]), (mkSub 0 0 1 1), 1, 0. split; [reflexivity|]. split; [cbn; lia|].
  intros []; reflexivity.
Qed.
Print Assumptions C07_view_bounds_refuted.

(** C16.  crop selects exactly the coordinates in both the request and the image. *)
Theorem C16_crop_is_intersection : forall P (im : img P) x y w h,
  wf im -> 0 <= x -> 0 <= y -> 0 <= w -> 0 <= h ->
  let s := crop im x y w h in
  0 <= s_w s <= w /\ 0 <= s_h s <= h /\ 0 <= s_xo s /\ 0 <= s_yo s /\
  s_xo s + s_w s <= iw im /\ s_yo s + s_h s <= ih im /\
  forall X Y, (s_xo s <= X < s_xo s + s_w s <-> x <= X < x + w /\ 0 <= X < iw im) /\
              (s_yo s <= Y < s_yo s + s_h s <-> y <= Y < y + h /\ 0 <= Y < ih im).
Proof. exact @crop_spec. Qed.
Print Assumptions C16_crop_is_intersection.

Theorem C16_crop_to_image : forall P m z (im : img P) x y w h,
  wf im -> is_u32 (iw im) -> is_u32 (ih im) -> 0 <= x -> 0 <= y -> 0 <= w -> 0 <= h ->
  exists r, to_image m z im (crop im x y w h) = Ok r /\ wf r /\
    iw r = Z.max 0 (Z.min (x + w) (iw im) - x) /\ ih r = Z.max 0 (Z.min (y + h) (ih im) - y) /\
    forall i j, 0 <= i < iw r -> 0 <= j < ih r -> pixel r i j = pixel im (x + i) (y + j).
Proof. exact @crop_to_image. Qed.
Print Assumptions C16_crop_to_image.

Example C16_ex : to_image Debug 0 (mkImg 3 2 [1;2;3;4;5;6]) (crop (mkImg 3 2 [1;2;3;4;5;6]) 1 0 u32_max 1)
  = Ok (mkImg 2 1 [2;3]).
Proof. reflexivity. Qed.
