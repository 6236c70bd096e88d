(** Model of imageops::thumbnail (src/imageops/sample.rs:561-846) for u8 and u16 samples (Larger = u32 for both,
    src/traits.rs:91-96).  f32 is Flocq's binary32; [m] says whether u32 overflow panics (Debug) or wraps (Release). *)
From Coq Require Import ZArith Bool.
From Flocq Require Import IEEE754.BinarySingleNaN.
From Verif Require Import Base Color Float ColorF GenImage.
Local Open Scope Z_scope.

(** f32::ceil, f32::trunc, f32::fract (core: self - self.trunc()) *)
Definition f32_ceil (a : f32) : f32 := Bnearbyint mode_UP a.
Definition f32_trunc (a : f32) : f32 := Bnearbyint mode_ZR a.
Definition f32_fract (a : f32) : f32 := f32_sub a (f32_trunc a).
(** crate::utils::clamp: utils/mod.rs:82-93 *)
Definition clamp (a lo hi : Z) : Z := if a <? lo then lo else if a >? hi then hi else a.

(** the window of source columns (or rows) for output column x: sample.rs:612-626 *)
Record window := mkWin { lowf : f32; highf : f32; low : Z; high : Z }.
Definition win (size nsize x : Z) : window :=
  let ratio := f32_div (f32_of_Z size) (f32_of_Z nsize) in
  let lf := f32_mul (f32_of_Z x) ratio in
  let hf := f32_add lf ratio in
  let l := clamp (f32_as 0 u32_max (f32_ceil lf)) 0 (size - 1) in
  mkWin lf hf l (clamp (f32_as 0 u32_max (f32_ceil hf)) l size).

(** u32 `*` with overflow *)
Definition u32_mul_m (m : mode) (a b : Z) : res Z :=
  if a * b <=? u32_max then Ok (a * b) else match m with Debug => Panic | Release => Ok (wrap_u32 (a * b)) end.
(** Pixel::channels4: color.rs:287-292 (missing channels are the maximum) *)
Definition channels4 (t : sty) (p : list Z) : list Z := firstn 4 (p ++ repeat (smax t) 4).
(** Pixel::from_channels: color.rs:294-297 *)
Definition from_channels (k : kind) (c : list Z) : list Z := firstn (Z.to_nat (nch k)) c.
(** ThumbnailSum::add_pixel: sample.rs:578-585 *)
Definition add_pixel (t : sty) (m : mode) (sum p : list Z) : res (list Z) :=
  map_res (fun '(a, b) => u32_add_m m a b) (combine sum (channels4 t p)).
Definition zeroed : list Z := [0; 0; 0; 0].
(** the sum over a row-major list of source coordinates: the loops of sample.rs:697-702, 731-737, 772-778 *)
Definition sum_pixels (t : sty) (m : mode) (im : img (list Z)) (cs : list (Z * Z)) : res (list Z) :=
  foldM (fun s '(x, y) => p <- get_pixel im x y ;; add_pixel t m s p) cs zeroed.
(** thumbnail_sample_block: sample.rs:683-712 *)
Definition sample_block (t : sty) (m : mode) (im : img (list Z)) (left right bottom top : Z) : res (list Z) :=
  sum <- sum_pixels t m im (flat_map (fun y => map (fun x => (x, y)) (zrange left (right - left))) (zrange bottom (top - bottom))) ;;
  n <- u32_mul_m m (right - left) (top - bottom) ;;
  if n =? 0 then Panic
  else map_res (fun s => a <- u32_add_m m s (n / 2) ;; Ok (clampz 0 (smax t) (a / n))) sum.
(** the mixing of two sums: sample.rs:739-750, 780-788 *)
Definition mix2 (t : sty) (fract : f32) (n : Z) (a b : list Z) : res (list Z) :=
  let fact_b := f32_div fract (f32_of_Z n) in
  let fact_a := f32_div (f32_sub f32_one fract) (f32_of_Z n) in
  map_res (fun '(x, y) => cast (smax t) (f32_add (f32_mul fact_a (f32_of_Z x)) (f32_mul fact_b (f32_of_Z y)))) (combine a b).
(** thumbnail_sample_fraction_horizontal: sample.rs:715-758.  The two sums run in the same loop; here one after the other. *)
Definition fraction_horizontal (t : sty) (m : mode) (im : img (list Z)) (left : Z) (fract : f32) (bottom top : Z) : res (list Z) :=
  a <- sum_pixels t m im (map (fun y => (left, y)) (zrange bottom (top - bottom))) ;;
  b <- sum_pixels t m im (map (fun y => (left + 1, y)) (zrange bottom (top - bottom))) ;;
  mix2 t fract (top - bottom) a b.
(** thumbnail_sample_fraction_vertical: sample.rs:761-796 *)
Definition fraction_vertical (t : sty) (m : mode) (im : img (list Z)) (left right bottom : Z) (fract : f32) : res (list Z) :=
  a <- sum_pixels t m im (map (fun x => (x, bottom)) (zrange left (right - left))) ;;
  b <- sum_pixels t m im (map (fun x => (x, bottom + 1)) (zrange left (right - left))) ;;
  mix2 t fract (right - left) a b.
(** thumbnail_sample_fraction_both: sample.rs:799-846 *)
Definition fraction_both (t : sty) (im : img (list Z)) (left : Z) (frac_v : f32) (bottom : Z) (frac_h : f32) : res (list Z) :=
  bl <- get_pixel im left bottom ;; tl <- get_pixel im left (bottom + 1) ;;
  br <- get_pixel im (left + 1) bottom ;; tr <- get_pixel im (left + 1) (bottom + 1) ;;
  let fact_tr := f32_mul frac_v frac_h in
  let fact_tl := f32_mul frac_v (f32_sub f32_one frac_h) in
  let fact_br := f32_mul (f32_sub f32_one frac_v) frac_h in
  let fact_bl := f32_mul (f32_sub f32_one frac_v) (f32_sub f32_one frac_h) in
  map_res (fun '(br, (tr, (bl, tl))) => cast (smax t)
      (f32_add (f32_add (f32_add (f32_mul fact_br (f32_of_Z br)) (f32_mul fact_tr (f32_of_Z tr))) (f32_mul fact_bl (f32_of_Z bl))) (f32_mul fact_tl (f32_of_Z tl))))
    (combine (channels4 t br) (combine (channels4 t tr) (combine (channels4 t bl) (channels4 t tl)))).
(** (a.fract() + b.fract()) / 2.: sample.rs:635, 654, 658-659 *)
Definition mid (a b : f32) : f32 := f32_div (f32_add (f32_fract a) (f32_fract b)) (f32_of_Z 2).
(** one output pixel: sample.rs:628-669.  debug_assert! fails only with debug assertions. *)
Definition thumb_pixel (t : sty) (m : mode) (im : img (list Z)) (wx wy : window) : res (list Z) :=
  let left := low wx in let right := high wx in let bottom := low wy in let top := high wy in
  let asserts c := match m with Debug => c | Release => true end in
  if negb (bottom =? top) && negb (left =? right) then sample_block t m im left right bottom top
  else if negb (bottom =? top) then
    if negb (asserts ((0 <? left) && (0 <? right))) then Panic
    else if right =? 0 then Panic
    else fraction_horizontal t m im (right - 1) (mid (lowf wx) (highf wx)) bottom top
  else if negb (left =? right) then
    if negb (asserts ((0 <? bottom) && (0 <? top))) then Panic
    else if top =? 0 then Panic
    else fraction_vertical t m im left right (top - 1) (mid (highf wy) (lowf wy))
  else if (right =? 0) || (top =? 0) then Panic
  else fraction_both t im (right - 1) (mid (highf wy) (lowf wy)) (top - 1) (mid (lowf wx) (highf wx)).
(** thumbnail: sample.rs:600-680.  [right - 1] with right = 0 would panic (Debug) or wrap and then panic on the
    out-of-bounds access (Release): modelled as Panic.  The windows of the rows are computed per pixel. *)
Definition thumbnail (t : sty) (m : mode) (k : kind) (im : img (list Z)) (nw nh : Z) : res (img (list Z)) :=
  let out := new_img nw nh (repeat 0 (Z.to_nat (nch k))) in
  if (ih im =? 0) || (iw im =? 0) then Ok out
  else for2 nw nh (fun o x y => c <- thumb_pixel t m im (win (iw im) nw x) (win (ih im) nh y) ;; put_pixel o x y (from_channels k c)) out.
