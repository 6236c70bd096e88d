(** Model of src/imageops/affine.rs (whole file) and of DynamicImage::apply_orientation.
    Simplification: the generic image/destination are ImageBuffers (img P); [zero] is the
    all-zero pixel with which ImageBuffer::new fills the output.  The u32 subtractions such as
    h0 - y - 1 are exact because y < h0. *)
From Verif Require Import Base.

Section Affine.
Context {P : Type}.

(** rotate90_in: affine.rs:48-71 *)
Definition rotate90_in (im dst : img P) : res (img P) :=
  let w0 := iw im in let h0 := ih im in
  if negb (w0 =? ih dst) || negb (h0 =? iw dst) then Err EParameter else
  for2 w0 h0 (fun dst x y =>
    p <- get_pixel im x y ;; put_pixel dst (h0 - y - 1) x p) dst.

(** rotate180_in: affine.rs:74-97 *)
Definition rotate180_in (im dst : img P) : res (img P) :=
  let w0 := iw im in let h0 := ih im in
  if negb (w0 =? iw dst) || negb (h0 =? ih dst) then Err EParameter else
  for2 w0 h0 (fun dst x y =>
    p <- get_pixel im x y ;; put_pixel dst (w0 - x - 1) (h0 - y - 1) p) dst.

(** rotate270_in: affine.rs:100-123 *)
Definition rotate270_in (im dst : img P) : res (img P) :=
  let w0 := iw im in let h0 := ih im in
  if negb (w0 =? ih dst) || negb (h0 =? iw dst) then Err EParameter else
  for2 w0 h0 (fun dst x y =>
    p <- get_pixel im x y ;; put_pixel dst y (w0 - x - 1) p) dst.

(** flip_horizontal_in: affine.rs:152-175 *)
Definition flip_horizontal_in (im dst : img P) : res (img P) :=
  let w0 := iw im in let h0 := ih im in
  if negb (w0 =? iw dst) || negb (h0 =? ih dst) then Err EParameter else
  for2 w0 h0 (fun dst x y =>
    p <- get_pixel im x y ;; put_pixel dst (w0 - x - 1) y p) dst.

(** flip_vertical_in: affine.rs:178-201 *)
Definition flip_vertical_in (im dst : img P) : res (img P) :=
  let w0 := iw im in let h0 := ih im in
  if negb (w0 =? iw dst) || negb (h0 =? ih dst) then Err EParameter else
  for2 w0 h0 (fun dst x y =>
    p <- get_pixel im x y ;; put_pixel dst x (h0 - 1 - y) p) dst.

(** `let _ = f_in(image, &mut out); out`: an Err is dropped and out returned as is. *)
Definition ignore_err (out : img P) (r : res (img P)) : res (img P) :=
  match r with Ok o => Ok o | Err _ => Ok out | Panic => Panic end.

(** rotate90: affine.rs:9-19; rotate180: 22-32; rotate270: 35-45;
    flip_horizontal: 126-136; flip_vertical: 139-149 *)
Definition rotate90 (zero : P) (im : img P) : res (img P) :=
  let out := new_img (ih im) (iw im) zero in ignore_err out (rotate90_in im out).
Definition rotate180 (zero : P) (im : img P) : res (img P) :=
  let out := new_img (iw im) (ih im) zero in ignore_err out (rotate180_in im out).
Definition rotate270 (zero : P) (im : img P) : res (img P) :=
  let out := new_img (ih im) (iw im) zero in ignore_err out (rotate270_in im out).
Definition flip_horizontal (zero : P) (im : img P) : res (img P) :=
  let out := new_img (iw im) (ih im) zero in ignore_err out (flip_horizontal_in im out).
Definition flip_vertical (zero : P) (im : img P) : res (img P) :=
  let out := new_img (iw im) (ih im) zero in ignore_err out (flip_vertical_in im out).

(** rotate180_in_place: affine.rs:204-232 *)
Definition rotate180_in_place (im : img P) : res (img P) :=
  let width := iw im in let height := ih im in
  im1 <- for2 width (height / 2) (fun im x y =>
    p <- get_pixel im x y ;;
    let x2 := width - x - 1 in let y2 := height - y - 1 in
    p2 <- get_pixel im x2 y2 ;;
    im' <- put_pixel im x y p2 ;;
    put_pixel im' x2 y2 p) im ;;
  if negb (height mod 2 =? 0) then
    let middle := height / 2 in
    foldM (fun im x =>
      p <- get_pixel im x middle ;;
      let x2 := width - x - 1 in
      p2 <- get_pixel im x2 middle ;;
      im' <- put_pixel im x middle p2 ;;
      put_pixel im' x2 middle p) (zrange 0 (width / 2)) im1
  else Ok im1.

(** flip_horizontal_in_place: affine.rs:235-247 *)
Definition flip_horizontal_in_place (im : img P) : res (img P) :=
  let width := iw im in let height := ih im in
  for2 (width / 2) height (fun im x y =>
    let x2 := width - x - 1 in
    p2 <- get_pixel im x2 y ;;
    p <- get_pixel im x y ;;
    im' <- put_pixel im x2 y p ;;
    put_pixel im' x y p2) im.

(** flip_vertical_in_place: affine.rs:250-262 *)
Definition flip_vertical_in_place (im : img P) : res (img P) :=
  let width := iw im in let height := ih im in
  for2 width (height / 2) (fun im x y =>
    let y2 := height - y - 1 in
    p2 <- get_pixel im x y2 ;;
    p <- get_pixel im x y ;;
    im' <- put_pixel im x y2 p ;;
    put_pixel im' x y p2) im.
End Affine.
