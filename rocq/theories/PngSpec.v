(** Reference for C34: the composition of an APNG animation as the APNG specification describes it, pixel by pixel. *)
From Verif Require Import Base Color Png.
Local Open Scope Z_scope.

(** a canvas gives the RGBA pixel at (x, y) *)
Definition canvas : Type := Z -> Z -> list Z.
Definition blank : canvas := fun _ _ => [0; 0; 0; 0].
Definition in_frame (f : fctl) (x y : Z) : bool :=
  (f_x f <=? x) && (x <? f_x f + f_w f) && (f_y f <=? y) && (y <? f_y f + f_h f).
(** RGBA value of the samples of one pixel *)
Definition rgba_of (p : list Z) : list Z :=
  match p with
  | [l] => [l; l; l; 255]
  | [l; a] => [l; l; l; a]
  | [r; g; b] => [r; g; b; 255]
  | p => p
  end.
(** the RGBA pixel of frame f at its own position (i, j); buf holds the samples row by row *)
Definition frame_px (k : kind) (f : fctl) (buf : list Z) (i j : Z) : list Z :=
  rgba_of (zslice buf ((j * f_w f + i) * nch k) (nch k)).
(** the canvas after rendering frame (f, buf) *)
Definition drawn (bl : list Z -> list Z -> list Z) (k : kind) (c : canvas) (f : fctl) (buf : list Z) : canvas := fun x y =>
  if in_frame f x y then
    let p := frame_px k f buf (x - f_x f) (y - f_y f) in
    match f_blend f with BSource => p | BOver => bl (c x y) p end
  else c x y.
(** the canvas the next frame is rendered onto: before, after rendering *)
Definition disposed (c shown : canvas) (f : fctl) : canvas := fun x y =>
  if in_frame f x y then
    match f_disp f with DNone => shown x y | DBackground => [0; 0; 0; 0] | DPrevious => c x y end
  else shown x y.
(** what the viewer shows for each frame *)
Fixpoint reference (bl : list Z -> list Z -> list Z) (k : kind) (c : canvas) (fs : list (fctl * list Z)) : list canvas :=
  match fs with
  | [] => []
  | (f, buf) :: fs => let s := drawn bl k c f buf in s :: reference bl k (disposed c s f) fs
  end.
(** an image shows a canvas of W x H *)
Definition shows (W H : Z) (im : img (list Z)) (c : canvas) : Prop :=
  wf im /\ iw im = W /\ ih im = H /\ forall x y, 0 <= x < W -> 0 <= y < H -> pixel im x y = Some (c x y).
(** the frames a valid APNG of colour type k and size W x H consists of *)
Definition valid_frame (k : kind) (W H : Z) (fb : fctl * list Z) : Prop :=
  let f := fst fb in
  0 < f_w f /\ 0 < f_h f /\ 0 <= f_x f /\ 0 <= f_y f /\ f_x f + f_w f <= W /\ f_y f + f_h f <= H /\
  is_u16 (f_num f) /\ is_u16 (f_den f) /\ bytes (snd fb) /\ f_w f * f_h f * nch k <= zlen (snd fb).
(** a frame to be disposed to the previous content never directly follows one to be disposed to the background *)
Fixpoint no_bg_prev (fs : list (fctl * list Z)) : bool :=
  match fs with
  | (f, _) :: (((g, _) :: _) as fs') =>
      match f_disp f, f_disp g with DBackground, DPrevious => false | _, _ => no_bg_prev fs' end
  | _ => true
  end.

