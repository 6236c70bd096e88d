(** C14, C15: overlaying, replacing and tiling images. *)
From Verif Require Import Base BaseLemmas Overlay OverlayProofs.
Local Open Scope Z_scope.

(** C14.  overlay_bounds: offset i of the copied range is exactly one that lies in both images. *)
Theorem C14_overlay_bounds_exact : forall bw bh tw th x y rw rh,
  is_u32 bw -> is_u32 bh -> is_u32 tw -> is_u32 th -> is_u32 x -> is_u32 y ->
  overlay_bounds bw bh tw th x y = (rw, rh) ->
  is_u32 rw /\ is_u32 rh /\
  (forall i, 0 <= i < rw <-> 0 <= i < tw /\ 0 <= x + i < bw) /\
  (forall j, 0 <= j < rh <-> 0 <= j < th /\ 0 <= y + j < bh).
Proof. exact overlay_bounds_exact. Qed.
Print Assumptions C14_overlay_bounds_exact.

(** The extended version, for every i64 offset: never panics, all six results are u32, the
    selected rectangle of the bottom image is exactly the set of bottom coordinates (X,Y) for which
    (X-x,Y-y) lies in the top image, and the top rectangle is its translate. *)
Theorem C14_overlay_bounds_ext_exact : forall bw bh tw th x y,
  is_u32 bw -> is_u32 bh -> is_u32 tw -> is_u32 th -> is_i64 x -> is_i64 y ->
  exists obx oby otx oty rw rh,
    overlay_bounds_ext bw bh tw th x y = Ok (obx, oby, otx, oty, rw, rh) /\
    is_u32 obx /\ is_u32 oby /\ is_u32 otx /\ is_u32 oty /\ is_u32 rw /\ is_u32 rh /\
    (forall X Y, (obx <= X < obx + rw /\ oby <= Y < oby + rh) <->
                 (0 <= X < bw /\ 0 <= Y < bh /\ 0 <= X - x < tw /\ 0 <= Y - y < th)) /\
    (0 < rw /\ 0 < rh -> otx - obx = - x /\ oty - oby = - y).
Proof. exact overlay_bounds_ext_exact. Qed.
Print Assumptions C14_overlay_bounds_ext_exact.

Example C14_ex : overlay_bounds_ext 10 10 u32_max 10 (10 - u32_max) 0 = Ok (0, 0, u32_max - 10, 0, 10, 10)
  /\ is_i64 (10 - u32_max).
Proof. split; [reflexivity|cbv; split; discriminate]. Qed.

(** C15.  overlay blends top's pixel at every common coordinate and changes nothing else,
    for every i64 offset and blend function. *)
Theorem C15_overlay : forall P (bl : P -> P -> P) (bottom top : img P) x y,
  wf bottom -> wf top -> is_u32 (iw bottom) -> is_u32 (ih bottom) -> is_u32 (iw top) -> is_u32 (ih top) ->
  is_i64 x -> is_i64 y ->
  exists r, overlay bl bottom top x y = Ok r /\ wf r /\ iw r = iw bottom /\ ih r = ih bottom /\
    forall X Y, pixel r X Y =
      match pixel bottom X Y, pixel top (X - x) (Y - y) with
      | Some q, Some p => Some (bl q p)
      | o, _ => o
      end.
Proof. exact @overlay_correct. Qed.
Print Assumptions C15_overlay.

Theorem C15_replace : forall P (bottom top : img P) x y,
  wf bottom -> wf top -> is_u32 (iw bottom) -> is_u32 (ih bottom) -> is_u32 (iw top) -> is_u32 (ih top) ->
  is_i64 x -> is_i64 y ->
  exists r, replace bottom top x y = Ok r /\ wf r /\ iw r = iw bottom /\ ih r = ih bottom /\
    forall X Y, pixel r X Y =
      match pixel bottom X Y, pixel top (X - x) (Y - y) with
      | Some q, Some p => Some p
      | o, _ => o
      end.
Proof. exact @replace_correct. Qed.
Print Assumptions C15_replace.

(** tile: every pixel of the bottom image is blended exactly once, with the periodic extension
    of top. *)
Theorem C15_tile : forall P (bl : P -> P -> P) (bottom top : img P),
  wf bottom -> wf top -> is_u32 (iw bottom) -> is_u32 (ih bottom) -> is_u32 (iw top) -> is_u32 (ih top) ->
  0 < iw top -> 0 < ih top ->
  exists r, tile bl bottom top = Ok r /\ wf r /\ iw r = iw bottom /\ ih r = ih bottom /\
    forall X Y, 0 <= X < iw bottom -> 0 <= Y < ih bottom ->
      exists q p, pixel bottom X Y = Some q /\ pixel top (X mod iw top) (Y mod ih top) = Some p /\
                  pixel r X Y = Some (bl q p).
Proof. exact @tile_correct. Qed.
Print Assumptions C15_tile.

(** a tile without pixels makes tile panic (step_by(0)) *)
Theorem C15_tile_empty_panics : forall P (bl : P -> P -> P) (bottom top : img P),
  iw top = 0 \/ (0 < iw bottom /\ 0 < iw top /\ ih top = 0) -> tile bl bottom top = Panic.
Proof. exact @tile_panics. Qed.
Print Assumptions C15_tile_empty_panics.

Example C15_ex :
  overlay (fun q p => 10 * q + p) (mkImg 2 2 [1;2;3;4]) (mkImg 2 1 [5;6]) 1 1 = Ok (mkImg 2 2 [1;2;3;45]) /\
  tile (fun q p => 10 * q + p) (mkImg 3 2 [1;2;3;4;5;6]) (mkImg 2 1 [7;8]) = Ok (mkImg 3 2 [17;28;37;47;58;67]) /\
  wf (mkImg 3 2 [1;2;3;4;5;6]).
Proof. repeat split; cbv; discriminate. Qed.
