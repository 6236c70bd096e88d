(** C10, C11, C12: rotations and flips. *)
From Coq Require Import Permutation.
From Verif Require Import Base Affine AffineProofs AffineProofs2.

(** C10.  A turn by 90 degrees clockwise sends the pixel in column x, row y of a w*h image to
    column h-1-y, row x; so position (X,Y) of the result shows source position (Y, h-1-X). *)
Theorem C10_rotate90 : forall (P : Type) (zero : P) (im : img P), wf im ->
  exists out, rotate90 zero im = Ok out /\ wf out /\ iw out = ih im /\ ih out = iw im /\
    forall X Y, 0 <= X < ih im -> 0 <= Y < iw im -> pixel out X Y = pixel im Y (ih im - 1 - X).
Proof. exact (@rotate90_moved). Qed.
Print Assumptions C10_rotate90.

Theorem C10_rotate180 : forall (P : Type) (zero : P) (im : img P), wf im ->
  exists out, rotate180 zero im = Ok out /\ wf out /\ iw out = iw im /\ ih out = ih im /\
    forall X Y, 0 <= X < iw im -> 0 <= Y < ih im ->
      pixel out X Y = pixel im (iw im - 1 - X) (ih im - 1 - Y).
Proof. exact (@rotate180_moved). Qed.
Print Assumptions C10_rotate180.

Theorem C10_rotate270 : forall (P : Type) (zero : P) (im : img P), wf im ->
  exists out, rotate270 zero im = Ok out /\ wf out /\ iw out = ih im /\ ih out = iw im /\
    forall X Y, 0 <= X < ih im -> 0 <= Y < iw im -> pixel out X Y = pixel im (iw im - 1 - Y) X.
Proof. exact (@rotate270_moved). Qed.
Print Assumptions C10_rotate270.

Theorem C10_flip_horizontal : forall (P : Type) (zero : P) (im : img P), wf im ->
  exists out, flip_horizontal zero im = Ok out /\ wf out /\ iw out = iw im /\ ih out = ih im /\
    forall X Y, 0 <= X < iw im -> 0 <= Y < ih im -> pixel out X Y = pixel im (iw im - 1 - X) Y.
Proof. exact (@flip_horizontal_moved). Qed.
Print Assumptions C10_flip_horizontal.

Theorem C10_flip_vertical : forall (P : Type) (zero : P) (im : img P), wf im ->
  exists out, flip_vertical zero im = Ok out /\ wf out /\ iw out = iw im /\ ih out = ih im /\
    forall X Y, 0 <= X < iw im -> 0 <= Y < ih im -> pixel out X Y = pixel im X (ih im - 1 - Y).
Proof. exact (@flip_vertical_moved). Qed.
Print Assumptions C10_flip_vertical.

(** no pixel is lost or duplicated *)
Theorem C10_affine_permutes_pixels : forall (P : Type) (zero : P) (im : img P) f out, wf im ->
  In f [rotate90 zero; rotate180 zero; rotate270 zero; flip_horizontal zero; flip_vertical zero] ->
  f im = Ok out -> Permutation (px im) (px out).
Proof. exact (@affine_perm). Qed.
Print Assumptions C10_affine_permutes_pixels.

(** the *_in variants: same contents, or an error exactly when the destination has the wrong size *)
Theorem C10_rotate90_in : forall (P : Type) (im dst : img P), wf im -> wf dst ->
  (iw dst = ih im /\ ih dst = iw im ->
   exists out, rotate90_in im dst = Ok out /\ wf out /\ iw out = ih im /\ ih out = iw im /\
    forall X Y, 0 <= X < ih im -> 0 <= Y < iw im -> pixel out X Y = pixel im Y (ih im - 1 - X)) /\
  (~ (iw dst = ih im /\ ih dst = iw im) -> rotate90_in im dst = Err EParameter).
Proof. exact (@rotate90_in_spec). Qed.
Print Assumptions C10_rotate90_in.

Theorem C10_rotate180_in : forall (P : Type) (im dst : img P), wf im -> wf dst ->
  (iw dst = iw im /\ ih dst = ih im ->
   exists out, rotate180_in im dst = Ok out /\ wf out /\ iw out = iw im /\ ih out = ih im /\
    forall X Y, 0 <= X < iw im -> 0 <= Y < ih im ->
      pixel out X Y = pixel im (iw im - 1 - X) (ih im - 1 - Y)) /\
  (~ (iw dst = iw im /\ ih dst = ih im) -> rotate180_in im dst = Err EParameter).
Proof. exact (@rotate180_in_spec). Qed.
Print Assumptions C10_rotate180_in.

Theorem C10_rotate270_in : forall (P : Type) (im dst : img P), wf im -> wf dst ->
  (iw dst = ih im /\ ih dst = iw im ->
   exists out, rotate270_in im dst = Ok out /\ wf out /\ iw out = ih im /\ ih out = iw im /\
    forall X Y, 0 <= X < ih im -> 0 <= Y < iw im -> pixel out X Y = pixel im (iw im - 1 - Y) X) /\
  (~ (iw dst = ih im /\ ih dst = iw im) -> rotate270_in im dst = Err EParameter).
Proof. exact (@rotate270_in_spec). Qed.
Print Assumptions C10_rotate270_in.

Theorem C10_flip_horizontal_in : forall (P : Type) (im dst : img P), wf im -> wf dst ->
  (iw dst = iw im /\ ih dst = ih im ->
   exists out, flip_horizontal_in im dst = Ok out /\ wf out /\ iw out = iw im /\ ih out = ih im /\
    forall X Y, 0 <= X < iw im -> 0 <= Y < ih im -> pixel out X Y = pixel im (iw im - 1 - X) Y) /\
  (~ (iw dst = iw im /\ ih dst = ih im) -> flip_horizontal_in im dst = Err EParameter).
Proof. exact (@flip_horizontal_in_spec). Qed.
Print Assumptions C10_flip_horizontal_in.

Theorem C10_flip_vertical_in : forall (P : Type) (im dst : img P), wf im -> wf dst ->
  (iw dst = iw im /\ ih dst = ih im ->
   exists out, flip_vertical_in im dst = Ok out /\ wf out /\ iw out = iw im /\ ih out = ih im /\
    forall X Y, 0 <= X < iw im -> 0 <= Y < ih im -> pixel out X Y = pixel im X (ih im - 1 - Y)) /\
  (~ (iw dst = iw im /\ ih dst = ih im) -> flip_vertical_in im dst = Err EParameter).
Proof. exact (@flip_vertical_in_spec). Qed.
Print Assumptions C10_flip_vertical_in.

(** C11. *)
Theorem C11_rotate90_four_times : forall (P : Type) (zero : P) (im : img P), wf im ->
  (a <- rotate90 zero im ;; b <- rotate90 zero a ;; c <- rotate90 zero b ;; rotate90 zero c) = Ok im.
Proof. exact (@r90_4). Qed.
Print Assumptions C11_rotate90_four_times.

Theorem C11_rotate90_270_inverse : forall (P : Type) (zero : P) (im : img P), wf im ->
  (a <- rotate90 zero im ;; rotate270 zero a) = Ok im /\
  (a <- rotate270 zero im ;; rotate90 zero a) = Ok im.
Proof. exact (@r90_270). Qed.
Print Assumptions C11_rotate90_270_inverse.

Theorem C11_rotate180_involution : forall (P : Type) (zero : P) (im : img P), wf im ->
  (a <- rotate180 zero im ;; rotate180 zero a) = Ok im.
Proof. exact (@r180_2). Qed.
Print Assumptions C11_rotate180_involution.

Theorem C11_flip_horizontal_involution : forall (P : Type) (zero : P) (im : img P), wf im ->
  (a <- flip_horizontal zero im ;; flip_horizontal zero a) = Ok im.
Proof. exact (@fh_2). Qed.
Print Assumptions C11_flip_horizontal_involution.

Theorem C11_flip_vertical_involution : forall (P : Type) (zero : P) (im : img P), wf im ->
  (a <- flip_vertical zero im ;; flip_vertical zero a) = Ok im.
Proof. exact (@fv_2). Qed.
Print Assumptions C11_flip_vertical_involution.

Theorem C11_rotate180_decompositions : forall (P : Type) (zero : P) (im : img P), wf im ->
  (a <- flip_vertical zero im ;; flip_horizontal zero a) = rotate180 zero im /\
  (a <- flip_horizontal zero im ;; flip_vertical zero a) = rotate180 zero im /\
  (a <- rotate90 zero im ;; rotate90 zero a) = rotate180 zero im.
Proof. exact (@r180_decomp). Qed.
Print Assumptions C11_rotate180_decompositions.

(** C12. *)
Theorem C12_in_place_agree : forall (P : Type) (zero : P) (im : img P), wf im ->
  rotate180_in_place im = rotate180 zero im /\
  flip_horizontal_in_place im = flip_horizontal zero im /\
  flip_vertical_in_place im = flip_vertical zero im.
Proof. exact (@in_place_agree). Qed.
Print Assumptions C12_in_place_agree.

(** A concrete non-square, odd-sized image meets the hypothesis, and the operations move it. *)
Definition ex_im : img Z := mkImg 3 2 [1; 2; 3; 4; 5; 6].
Example ex_im_wf : wf ex_im. Proof. unfold wf; cbn; lia. Qed.
Example ex_rot90 : rotate90 0 ex_im = Ok (mkImg 2 3 [4; 1; 5; 2; 6; 3]). Proof. reflexivity. Qed.
Example ex_rot180 : rotate180_in_place (mkImg 3 3 [1;2;3;4;5;6;7;8;9]) = Ok (mkImg 3 3 [9;8;7;6;5;4;3;2;1]).
Proof. reflexivity. Qed.
Example ex_mismatch : rotate90_in ex_im ex_im = Err EParameter. Proof. reflexivity. Qed.
