(** Reference for C33: GIF animation, pixel by pixel. *)
From Verif Require Import Base Gif.
Local Open Scope Z_scope.

Definition gcanvas : Type := Z -> Z -> list Z.
Definition gblank : gcanvas := fun _ _ => [0; 0; 0; 0].
Definition inside (f : gframe) (x y : Z) : bool :=
  (g_left f <=? x) && (x <? g_left f + g_w f) && (g_top f <=? y) && (y <? g_top f + g_h f).
(** the frame's RGBA pixel under screen position (x, y) *)
Definition fpix (f : gframe) (data : list Z) (x y : Z) : list Z :=
  zslice data (((y - g_top f) * g_w f + (x - g_left f)) * 4) 4.
Definition opaque (p : list Z) : bool := match p with [_; _; _; a] => negb (a =? 0) | _ => false end.
(** drawing: the frame's pixels that are not fully transparent replace the canvas *)
Definition gdrawn (c : gcanvas) (f : gframe) (data : list Z) : gcanvas := fun x y =>
  if inside f x y && opaque (fpix f data x y) then fpix f data x y else c x y.
(** disposal, in the frame's rectangle only *)
Definition gdisposed (c shown : gcanvas) (f : gframe) : gcanvas := fun x y =>
  if inside f x y then
    match g_disp f with GAny | GKeep => shown x y | GBackground => [0; 0; 0; 0] | GPrevious => c x y end
  else shown x y.
Fixpoint gif_reference (c : gcanvas) (fs : list (gframe * list Z)) : list gcanvas :=
  match fs with
  | [] => []
  | (f, d) :: fs => let s := gdrawn c f d in s :: gif_reference (gdisposed c s f) fs
  end.
Definition gshows (W H : Z) (im : img (list Z)) (c : gcanvas) : Prop :=
  wf im /\ iw im = W /\ ih im = H /\ forall x y, 0 <= x < W -> 0 <= y < H -> pixel im x y = Some (c x y).
(** any frame the gif crate can deliver: 16-bit fields, no relation to the screen, all bytes of its pixels present *)
Definition gframe_ok (fd : gframe * list Z) : Prop :=
  let f := fst fd in
  is_u16 (g_left f) /\ is_u16 (g_top f) /\ is_u16 (g_w f) /\ is_u16 (g_h f) /\ is_u16 (g_delay f) /\
  zlen (snd fd) = g_w f * g_h f * 4.
