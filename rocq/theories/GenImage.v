(** Model of GenericImage::copy_from / copy_within, SubImage (src/image.rs:1026-1330) and
    imageops::crop (src/imageops/mod.rs:41-80), on images of whole pixels. *)
From Verif Require Import Base.

(** u32 `+` : Debug panics on overflow, Release wraps *)
Inductive mode := Debug | Release.
Definition u32_add_m (m : mode) (a b : Z) : res Z :=
  if a + b <=? u32_max then Ok (a + b)
  else match m with Debug => Panic | Release => Ok (wrap_u32 (a + b)) end.

(** copy_from: image.rs:1026-1046.  The second component is the ImageResult<()>; the first is
    the destination afterwards.  The two sums are evaluated left to right with `||` short-circuit. *)
Definition copy_from {P} (m : mode) (self other : img P) (x y : Z) : res (img P * (unit + err)) :=
  ex <- u32_add_m m (iw other) x ;;
  bad <- (if iw self <? ex then Ok true
          else ey <- u32_add_m m (ih other) y ;; Ok (ih self <? ey)) ;;
  if bad : bool then Ok (self, inr EParameter)
  else
    r <- for2 (iw other) (ih other) (fun s i k =>
           p <- get_pixel other i k ;;
           tx <- u32_add_m m i x ;; ty <- u32_add_m m k y ;;
           put_pixel s tx ty p) self ;;
    Ok (r, inl tt).

(** copy_within, generic: image.rs:1054-1091.  (0..n).rev() is [rev (zrange 0 n)]. *)
Definition copy_within {P} (im : img P) (sx sy w h dx dy : Z) : res (bool * img P) :=
  if negb ((sx <? iw im) && (dx <? iw im)) then Panic else
  if negb ((sy <? ih im) && (dy <? ih im)) then Panic else
  if (iw im - Z.max dx sx <? w) || (ih im - Z.max dy sy <? h) then Ok (false, im)
  else
    let xs := if sx <? dx then rev (zrange 0 w) else zrange 0 w in
    let ys := if sy <? dy then rev (zrange 0 h) else zrange 0 h in
    r <- foldM (fun s y => foldM (fun s x =>
           p <- get_pixel s (sx + x) (sy + y) ;; put_pixel s (dx + x) (dy + y) p) xs s) ys im ;;
    Ok (true, r).

(** SubImageInner: image.rs:1138-1144, without the image it refers to *)
Record sub := mkSub { s_xo : Z; s_yo : Z; s_w : Z; s_h : Z }.
(** GenericImageView::view / GenericImage::sub_image: image.rs:950-957, 1097-1104 *)
Definition view {P} (im : img P) (x y w h : Z) : res sub :=
  if x + w <=? iw im then
    if y + h <=? ih im then Ok (mkSub x y w h) else Panic
  else Panic.
(** SubImage::view / sub_image: image.rs:1224-1231, 1247-1259 (saturating_add of the offsets) *)
Definition sub_view (s : sub) (x y w h : Z) : res sub :=
  if x + w <=? s_w s then
    if y + h <=? s_h s then
      Ok (mkSub (Z.min u32_max (s_xo s + x)) (Z.min u32_max (s_yo s + y)) w h)
    else Panic
  else Panic.
(** SubImageInner::get_pixel / put_pixel: image.rs:1299-1301, 1314-1317 (no check against its own size) *)
Definition sub_get {P} (m : mode) (im : img P) (s : sub) (x y : Z) : res P :=
  px <- u32_add_m m x (s_xo s) ;; py <- u32_add_m m y (s_yo s) ;; get_pixel im px py.
Definition sub_put {P} (m : mode) (im : img P) (s : sub) (x y : Z) (p : P) : res (img P) :=
  px <- u32_add_m m x (s_xo s) ;; py <- u32_add_m m y (s_yo s) ;; put_pixel im px py p.
(** to_image: image.rs:1181-1197 *)
Definition to_image {P} (m : mode) (zero : P) (im : img P) (s : sub) : res (img P) :=
  for2 (s_w s) (s_h s) (fun out x y => p <- sub_get m im s x y ;; put_pixel out x y p)
    (new_img (s_w s) (s_h s) zero).

(** crop_dimms: imageops/mod.rs:64-80; crop / crop_imm (41-62) build SubImage::new of it *)
Definition crop_dimms (W H x y w h : Z) : Z * Z * Z * Z :=
  let x := Z.min x W in let y := Z.min y H in
  (x, y, Z.min w (W - x), Z.min h (H - y)).
Definition crop {P} (im : img P) (x y w h : Z) : sub :=
  let '(x, y, w, h) := crop_dimms (iw im) (ih im) x y w h in mkSub x y w h.
