(** Model of the resampling functions of imageops (src/imageops/sample.rs) for images with u8 or u16 samples: the
    kernels, horizontal_sample, vertical_sample, resize, blur and unsharpen.  f32 is Flocq's binary32.  sin and exp of
    the platform's libm are the parameter [libm]; f32::powi(2) and powi(3) are x * x and x * (x * x). *)
From Coq Require Import ZArith Bool.
From Flocq Require Import IEEE754.BinarySingleNaN.
From Verif Require Import Base Color Float ColorF GenImage Thumb.
Local Open Scope Z_scope.

Record libm := mkLibm { sin32 : f32 -> f32; exp32 : f32 -> f32 }.
(** m * 2^e *)
Definition f32_dyadic (m e : Z) : f32 := binary_normalize 24 128 _ _ mode_NE m e false.
Definition f32_half : f32 := f32_dyadic 1 (-1).
(** f32::consts::PI = 0x40490fdb *)
Definition f32_pi : f32 := f32_dyadic 13176795 (-22).
Definition f32_abs (a : f32) : f32 := Babs a.
Definition f32_neg (a : f32) : f32 := Bopp a.
Definition f32_floor (a : f32) : f32 := Bnearbyint mode_DN a.
Definition f32_sqrt (a : f32) : f32 := Bsqrt mode_NE a.
Definition f32_recip (a : f32) : f32 := f32_div f32_one a.
Definition powi2 (a : f32) : f32 := f32_mul a a.
Definition powi3 (a : f32) : f32 := f32_mul a (f32_mul a a).

(** sinc: sample.rs:142-150 *)
Definition sinc (lm : libm) (t : f32) : f32 :=
  let a := f32_mul t f32_pi in if f32_eq t f32_zero then f32_one else f32_div (sin32 lm a) a.
(** lanczos: sample.rs:153-159 *)
Definition lanczos (lm : libm) (x t : f32) : f32 :=
  if f32_lt (f32_abs x) t then f32_mul (sinc lm x) (sinc lm (f32_div x t)) else f32_zero.
(** bc_cubic_spline with b = 0 and c = 0.5 (the only call, catmullrom_kernel): sample.rs:163-180, 201-203.
    12 - 9b - 6c = 9, -18 + 12b + 6c = -15, 6 - 2b = 6, -b - 6c = -3, 6b + 30c = 15, -12b - 48c = -24, 8b + 24c = 12, exactly. *)
Definition catmullrom_kernel (x : f32) : f32 :=
  let a := f32_abs x in
  let k :=
    if f32_lt a f32_one then f32_add (f32_add (f32_mul (f32_of_Z 9) (powi3 a)) (f32_mul (f32_of_Z (-15)) (powi2 a))) (f32_of_Z 6)
    else if f32_lt a (f32_of_Z 2) then
      f32_add (f32_add (f32_add (f32_mul (f32_of_Z (-3)) (powi3 a)) (f32_mul (f32_of_Z 15) (powi2 a))) (f32_mul (f32_of_Z (-24)) a)) (f32_of_Z 12)
    else f32_zero in
  f32_div k (f32_of_Z 6).
(** gaussian: sample.rs:184-186 *)
Definition gaussian (lm : libm) (x r : f32) : f32 :=
  f32_mul (f32_recip (f32_mul (f32_sqrt (f32_mul (f32_of_Z 2) f32_pi)) r))
          (exp32 lm (f32_div (f32_neg (powi2 x)) (f32_mul (f32_of_Z 2) (powi2 r)))).
(** triangle_kernel: sample.rs:207-213; box_kernel: sample.rs:218-220 *)
Definition triangle_kernel (x : f32) : f32 := if f32_lt (f32_abs x) f32_one then f32_sub f32_one (f32_abs x) else f32_zero.
Definition box_kernel (x : f32) : f32 := f32_one.

(** Filter: sample.rs:103-109; FilterType: sample.rs:85-100 *)
Record filter := mkFilter { kernel : f32 -> f32; support : f32 }.
Inductive filter_type := Nearest | Triangle | CatmullRom | Gaussian | Lanczos3.
(** sample.rs:961-982 *)
Definition filter_of (lm : libm) (f : filter_type) : filter :=
  match f with
  | Nearest => mkFilter box_kernel f32_zero
  | Triangle => mkFilter triangle_kernel f32_one
  | CatmullRom => mkFilter catmullrom_kernel (f32_of_Z 2)
  | Gaussian => mkFilter (fun x => gaussian lm x f32_half) (f32_of_Z 3)
  | Lanczos3 => mkFilter (fun x => lanczos lm x (f32_of_Z 3)) (f32_of_Z 3)
  end.

(** utils::clamp at f32: utils/mod.rs:82-93 *)
Definition fclamp (a lo hi : f32) : f32 := if f32_lt a lo then lo else if f32_lt hi a then hi else a.

(** the source columns (or rows) [fst], and their weights, for output column (row) out: sample.rs:251-287 and 499-527 *)
Definition scale (size nsize : Z) : f32 := f32_div (f32_of_Z size) (f32_of_Z nsize).
Definition scale1 (size nsize : Z) : f32 := let r := scale size nsize in if f32_lt r f32_one then f32_one else r.
Definition centre (size nsize out : Z) : f32 := f32_mul (f32_add (f32_of_Z out) f32_half) (scale size nsize).
Definition left_tap (f : filter) (size nsize out : Z) : Z :=
  clamp (f32_as i64_min i64_max (f32_floor (f32_sub (centre size nsize out) (f32_mul (support f) (scale1 size nsize))))) 0 (size - 1).
Definition right_tap (f : filter) (size nsize out : Z) : Z :=
  clamp (f32_as i64_min i64_max (f32_ceil (f32_add (centre size nsize out) (f32_mul (support f) (scale1 size nsize))))) (left_tap f size nsize out + 1) size.
Definition raw_weights (f : filter) (size nsize out : Z) : list f32 :=
  let l := left_tap f size nsize out in
  let c := f32_sub (centre size nsize out) f32_half in
  map (fun i => kernel f (f32_div (f32_sub (f32_of_Z i) c) (scale1 size nsize))) (zrange l (right_tap f size nsize out - l)).
Definition fsum (l : list f32) : f32 := fold_left f32_add l f32_zero.
Definition weights (f : filter) (size nsize out : Z) : list f32 :=
  let raw := raw_weights f size nsize out in map (fun w => f32_div w (fsum raw)) raw.

(** t.i += vec.i * w for the four channels: sample.rs:298-301, 544-547 *)
Definition acc4 (t v : list f32) (w : f32) : list f32 := map (fun '(a, b) => f32_add a (f32_mul b w)) (combine t v).
Definition zero4 : list f32 := [f32_zero; f32_zero; f32_zero; f32_zero].
(** channels4 of an integer pixel, as f32: sample.rs:535-542 *)
Definition floats4 (t : sty) (p : list Z) : list f32 := map f32_of_Z (channels4 t p).

(** vertical_sample: sample.rs:480-559.  The weights depend on the row only and are computed once per row; here per pixel. *)
Definition vertical_pixel (t : sty) (f : filter) (im : img (list Z)) (nh x y : Z) : res (list f32) :=
  foldM (fun s '(i, w) => p <- get_pixel im x (left_tap f (ih im) nh y + i) ;; Ok (acc4 s (floats4 t p) w))
        (combine (zrange 0 (zlen (weights f (ih im) nh y))) (weights f (ih im) nh y)) zero4.
Definition vertical_sample (t : sty) (f : filter) (im : img (list Z)) (nh : Z) : res (img (list f32)) :=
  if negb (negb (ih im =? 0) || (iw im =? 0)) then Panic
  else for2 (iw im) nh (fun o x y => c <- vertical_pixel t f im nh x y ;; put_pixel o x y c) (new_img (iw im) nh zero4).

(** NumCast::from(FloatNearest(clamp(t, min, max))).unwrap(): sample.rs:304-310, with FloatNearest::to_u8 and to_u16 of sample.rs:115-139 *)
Definition quantize (t : sty) (x : f32) : res Z := cast (smax t) (f32_round (fclamp x f32_zero (f32_of_Z (smax t)))).
(** horizontal_sample: sample.rs:229-317.  The loop over the output columns is the outer one. *)
Definition horizontal_pixel (t : sty) (f : filter) (im : img (list f32)) (nw x y : Z) : res (list Z) :=
  s <- foldM (fun s '(i, w) => p <- get_pixel im (left_tap f (iw im) nw x + i) y ;; Ok (acc4 s p w))
        (combine (zrange 0 (zlen (weights f (iw im) nw x))) (weights f (iw im) nw x)) zero4 ;;
  map_res (quantize t) s.
Definition horizontal_sample (t : sty) (k : kind) (f : filter) (im : img (list f32)) (nw : Z) : res (img (list Z)) :=
  if negb (negb (iw im =? 0) || (ih im =? 0)) then Panic
  else for2 (ih im) nw (fun o y x => c <- horizontal_pixel t f im nw x y ;; put_pixel o x y (from_channels k c)) (new_img nw (ih im) (repeat 0 (Z.to_nat (nch k)))).

(** resample: vertical_sample then horizontal_sample, the common end of resize and blur: sample.rs:984-986, 1017-1019 *)
Definition resample (t : sty) (k : kind) (f : filter) (im : img (list Z)) (nw nh : Z) : res (img (list Z)) :=
  tmp <- vertical_sample t f im nh ;; horizontal_sample t k f tmp nw.
(** resize: sample.rs:934-987.  [m]: the u32 additions of copy_from *)
Definition resize (lm : libm) (m : mode) (t : sty) (k : kind) (im : img (list Z)) (nw nh : Z) (ft : filter_type) : res (img (list Z)) :=
  let zero := repeat 0 (Z.to_nat (nch k)) in
  if (iw im =? 0) || (ih im =? 0) then Ok (new_img nw nh zero)
  else if (nw =? iw im) && (nh =? ih im) then
    r <- copy_from m (new_img (iw im) (ih im) zero) im 0 0 ;;
    match r with (o, inl _) => Ok o | (_, inr _) => Panic end
  else resample t k (filter_of lm ft) im nw nh.

(** blur: sample.rs:994-1020 *)
Definition f32_le (a b : f32) : bool := Bleb a b.
Definition blur (lm : libm) (t : sty) (k : kind) (im : img (list Z)) (sigma : f32) : res (img (list Z)) :=
  let sigma := if f32_le sigma f32_zero then f32_one else sigma in
  let f := mkFilter (fun x => gaussian lm x sigma) (f32_mul (f32_of_Z 2) sigma) in
  if (iw im =? 0) || (ih im =? 0) then Ok (new_img (iw im) (ih im) (repeat 0 (Z.to_nat (nch k))))
  else resample t k f im (iw im) (ih im).

(** unsharpen: sample.rs:1027-1064.  Samples of u8 and u16 fit an i32, and so do 2 c - d and diff.abs(). *)
Definition sharpen (mx threshold c d : Z) : Z :=
  let diff := c - d in if Z.abs diff >? threshold then clamp (c + diff) 0 mx else c.
Definition unsharpen (lm : libm) (t : sty) (k : kind) (im : img (list Z)) (sigma : f32) (threshold : Z) : res (img (list Z)) :=
  tmp <- blur lm t k im sigma ;;
  for2 (iw im) (ih im) (fun o x y =>
    a <- get_pixel im x y ;; b <- get_pixel o x y ;;
    put_pixel o x y (map (fun '(c, d) => sharpen (smax t) threshold c d) (combine a b))) tmp.
