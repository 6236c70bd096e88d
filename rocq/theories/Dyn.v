(** Model of DynamicImage (src/dynimage.rs:46-1177): the ten pixel types behind one API.  Integer
    samples are Z, f32 samples are Flocq's binary32 with one NaN.  Not modelled here: the byte view of
    the two f32 types (638-676), blending into Rgba32F (1144-1164, last case), the resizing and
    filtering methods (744-889, see C44, C45, C54-C58, C61) and encoding (981-1037). *)
From Flocq Require Import IEEE754.BinarySingleNaN.
From Verif Require Import Base GenImage Affine Orient Buffer ColorType Color Float ColorF.
Local Open Scope Z_scope.

(** DynamicImage: dynimage.rs:46-80 *)
Inductive dyn :=
| ImageLuma8 (p : img (list Z)) | ImageLumaA8 (p : img (list Z)) | ImageRgb8 (p : img (list Z)) | ImageRgba8 (p : img (list Z))
| ImageLuma16 (p : img (list Z)) | ImageLumaA16 (p : img (list Z)) | ImageRgb16 (p : img (list Z)) | ImageRgba16 (p : img (list Z))
| ImageRgb32F (p : img (list f32)) | ImageRgba32F (p : img (list f32)).

(** *** Colour conversion with f32 on one side *)
(** FromColor: color.rs:543-743, for any sample types; [fp] is FromPrimitive, [mx] the target's
    DEFAULT_MAX_VALUE and [luma] is rgb_to_luma in the source type.  (Color.from_color is this table for
    the integer types: DynProofs.from_color_g_int.) *)
Definition from_color_g {A B} (fp : A -> res B) (mx : B) (luma : list A -> res A) (ks kd : kind) (p : list A) : res (list B) :=
  match ks, kd, p with
  | Luma, Luma, [l] => a <- fp l ;; Ok [a]
  | LumaA, Luma, [l; _] => a <- fp l ;; Ok [a]
  | Rgb, Luma, [_; _; _] => l <- luma p ;; a <- fp l ;; Ok [a]
  | Rgba, Luma, [_; _; _; _] => l <- luma p ;; a <- fp l ;; Ok [a]
  | LumaA, LumaA, [l; al] => a <- fp l ;; b <- fp al ;; Ok [a; b]
  | Rgb, LumaA, [_; _; _] => l <- luma p ;; a <- fp l ;; Ok [a; mx]
  | Rgba, LumaA, [_; _; _; al] => l <- luma p ;; a <- fp l ;; b <- fp al ;; Ok [a; b]
  | Luma, LumaA, [l] => a <- fp l ;; Ok [a; mx]
  | Rgba, Rgba, [r; g; b; al] => r <- fp r ;; g <- fp g ;; b <- fp b ;; a <- fp al ;; Ok [r; g; b; a]
  | Rgb, Rgba, [r; g; b] => r <- fp r ;; g <- fp g ;; b <- fp b ;; Ok [r; g; b; mx]
  | LumaA, Rgba, [l; al] => a <- fp l ;; b <- fp l ;; c <- fp l ;; d <- fp al ;; Ok [a; b; c; d]
  | Luma, Rgba, [l] => a <- fp l ;; b <- fp l ;; c <- fp l ;; Ok [a; b; c; mx]
  | Rgb, Rgb, [r; g; b] => r <- fp r ;; g <- fp g ;; b <- fp b ;; Ok [r; g; b]
  | Rgba, Rgb, [r; g; b; _] => r <- fp r ;; g <- fp g ;; b <- fp b ;; Ok [r; g; b]
  | LumaA, Rgb, [l; _] => a <- fp l ;; b <- fp l ;; c <- fp l ;; Ok [a; b; c]
  | Luma, Rgb, [l] => a <- fp l ;; b <- fp l ;; c <- fp l ;; Ok [a; b; c]
  | _, _, _ => Panic
  end.
(** `as f64` and `as f32` (NumCast between the float types never fails) *)
Definition f64_of_f32 (x : f32) : f64 :=
  match x with
  | B754_zero s => B754_zero s | B754_infinity s => B754_infinity s | B754_nan => B754_nan
  | B754_finite s m e _ => binary_normalize 53 1024 _ _ mode_NE (if s then Z.neg m else Z.pos m) e s
  end.
Definition f32_of_f64 (x : f64) : f32 :=
  match x with
  | B754_zero s => B754_zero s | B754_infinity s => B754_infinity s | B754_nan => B754_nan
  | B754_finite s m e _ => binary_normalize 24 128 _ _ mode_NE (if s then Z.neg m else Z.pos m) e s
  end.
(** Enlargeable::clamp_from for f32: traits.rs:78-86, with f32::max_value() / min_value() of num-traits'
    Bounded, which are f32::MAX and f32::MIN *)
Definition f32_max_value : f32 := binary_normalize 24 128 _ _ mode_NE (2 ^ 24 - 1) 104 false.
Definition f32_min_value : f32 := binary_normalize 24 128 _ _ mode_NE (- (2 ^ 24 - 1)) 104 false.
Definition clamp_from_f (n : f64) : f32 :=
  if Bltb (f64_of_f32 f32_max_value) n then f32_max_value
  else if Bltb n (f64_of_f32 f32_min_value) then f32_min_value else f32_of_f64 n.
(** rgb_to_luma for f32, computed in f64: color.rs:535-541 *)
Definition rgb_to_luma_f (rgb : list f32) : res f32 :=
  match rgb with
  | r :: g :: b :: _ =>
      let c n x := f64_mul (f64_of_Z n) (f64_of_f32 x) in
      let l := f64_add (f64_add (c 2126 r) (c 7152 g)) (c 722 b) in
      Ok (clamp_from_f (f64_div l (f64_of_Z 10000)))
  | _ => Panic
  end.
(** FromColor from f32 to u8/u16, from u8/u16 to f32, and from f32 to f32 (color.rs:429-433, 447-490) *)
Definition from_color_fi (T : sty) (ks kd : kind) (p : list f32) : res (list Z) := from_color_g (f32_to_int T) (smax T) rgb_to_luma_f ks kd p.
Definition from_color_if (t : sty) (ks kd : kind) (p : list Z) : res (list f32) := from_color_g (fun v => Ok (int_to_f32 t v)) f32_one (rgb_to_luma t) ks kd p.
Definition from_color_ff (ks kd : kind) (p : list f32) : res (list f32) := from_color_g (fun v => Ok v) f32_one rgb_to_luma_f ks kd p.
(** ConvertBuffer::convert: buffer.rs:1400-1407 *)
Definition convert_with {A B} (f : A -> res B) (im : img A) : res (img B) :=
  l <- map_res f (px im) ;; Ok (mkImg (iw im) (ih im) l).

(** *** Construction *)
(** ImageBuffer::new: buffer.rs:1272-1281; panics when the length overflows usize (807-811) *)
Definition bnew_img {A} (zero : A) (k : kind) (w h : Z) : res (img (list A)) :=
  if nch k * w * h <=? u64_max then Ok (new_img w h (repeat zero (Z.to_nat (nch k)))) else Panic.
(** DynamicImage::new and new_*: dynimage.rs:142-219 *)
Definition dyn_new (w h : Z) (c : ctype) : res dyn :=
  match c with
  | CL8 => p <- bnew_img 0 Luma w h ;; Ok (ImageLuma8 p)
  | CLa8 => p <- bnew_img 0 LumaA w h ;; Ok (ImageLumaA8 p)
  | CRgb8 => p <- bnew_img 0 Rgb w h ;; Ok (ImageRgb8 p)
  | CRgba8 => p <- bnew_img 0 Rgba w h ;; Ok (ImageRgba8 p)
  | CL16 => p <- bnew_img 0 Luma w h ;; Ok (ImageLuma16 p)
  | CLa16 => p <- bnew_img 0 LumaA w h ;; Ok (ImageLumaA16 p)
  | CRgb16 => p <- bnew_img 0 Rgb w h ;; Ok (ImageRgb16 p)
  | CRgba16 => p <- bnew_img 0 Rgba w h ;; Ok (ImageRgba16 p)
  | CRgb32F => p <- bnew_img f32_zero Rgb w h ;; Ok (ImageRgb32F p)
  | CRgba32F => p <- bnew_img f32_zero Rgba w h ;; Ok (ImageRgba32F p)
  end.
(** Default: dynimage.rs:1172-1176 (an ImageBuffer of size 0x0: buffer.rs:1088-1100) *)
Definition dyn_default : dyn := ImageRgba8 (mkImg 0 0 []).
(** From<ImageBuffer<..>>: dynimage.rs:1041-1110, the two that convert *)
Definition dyn_from_luma32f (im : img (list f32)) : res dyn := p <- convert_with (from_color_ff Luma Rgb) im ;; Ok (ImageRgb32F p).
Definition dyn_from_lumaa32f (im : img (list f32)) : res dyn := p <- convert_with (from_color_ff LumaA Rgba) im ;; Ok (ImageRgba32F p).
(** Clone::clone and ImageBuffer::clone_from: dynimage.rs:116-119, buffer.rs:1161-1165 *)
Definition dyn_clone (d : dyn) : dyn := d.
Definition buf_clone_from {P} (self source : img P) : img P := mkImg (iw source) (ih source) (px source).
(** Clone::clone_from: dynimage.rs:121-135 *)
Definition dyn_clone_from (self source : dyn) : dyn :=
  match self, source with
  | ImageLuma8 p1, ImageLuma8 p2 => ImageLuma8 (buf_clone_from p1 p2)
  | ImageLumaA8 p1, ImageLumaA8 p2 => ImageLumaA8 (buf_clone_from p1 p2)
  | ImageRgb8 p1, ImageRgb8 p2 => ImageRgb8 (buf_clone_from p1 p2)
  | ImageRgba8 p1, ImageRgba8 p2 => ImageRgba8 (buf_clone_from p1 p2)
  | ImageLuma16 p1, ImageLuma16 p2 => ImageLuma16 (buf_clone_from p1 p2)
  | ImageLumaA16 p1, ImageLumaA16 p2 => ImageLumaA16 (buf_clone_from p1 p2)
  | ImageRgb16 p1, ImageRgb16 p2 => ImageRgb16 (buf_clone_from p1 p2)
  | ImageRgba16 p1, ImageRgba16 p2 => ImageRgba16 (buf_clone_from p1 p2)
  | ImageRgb32F p1, ImageRgb32F p2 => ImageRgb32F (buf_clone_from p1 p2)
  | ImageRgba32F p1, ImageRgba32F p2 => ImageRgba32F (buf_clone_from p1 p2)
  | _, s => dyn_clone s
  end.

(** *** Properties of the whole image *)
(** dynamic_map! with an action that does not depend on the pixel type: dynimage.rs:83-114 *)
Definition dyn_iw (d : dyn) : Z :=
  match d with
  | ImageLuma8 p | ImageLumaA8 p | ImageRgb8 p | ImageRgba8 p | ImageLuma16 p | ImageLumaA16 p | ImageRgb16 p | ImageRgba16 p => iw p
  | ImageRgb32F p | ImageRgba32F p => iw p
  end.
Definition dyn_ih (d : dyn) : Z :=
  match d with
  | ImageLuma8 p | ImageLumaA8 p | ImageRgb8 p | ImageRgba8 p | ImageLuma16 p | ImageLumaA16 p | ImageRgb16 p | ImageRgba16 p => ih p
  | ImageRgb32F p | ImageRgba32F p => ih p
  end.
(** width, height, dimensions: dynimage.rs:697-706, 1116-1118 *)
Definition dyn_width := dyn_iw.
Definition dyn_height := dyn_ih.
(** color: dynimage.rs:680-693 *)
Definition dyn_color (d : dyn) : ctype :=
  match d with
  | ImageLuma8 _ => CL8 | ImageLumaA8 _ => CLa8 | ImageRgb8 _ => CRgb8 | ImageRgba8 _ => CRgba8
  | ImageLuma16 _ => CL16 | ImageLumaA16 _ => CLa16 | ImageRgb16 _ => CRgb16 | ImageRgba16 _ => CRgba16
  | ImageRgb32F _ => CRgb32F | ImageRgba32F _ => CRgba32F
  end.

(** *** Conversions: dynimage.rs:227-296 (to_X = dynamic_map!(self, p, p.convert())) *)
Definition to_int (T : sty) (kd : kind) (d : dyn) : res (img (list Z)) :=
  match d with
  | ImageLuma8 p => convert U8 T Luma kd p | ImageLumaA8 p => convert U8 T LumaA kd p
  | ImageRgb8 p => convert U8 T Rgb kd p | ImageRgba8 p => convert U8 T Rgba kd p
  | ImageLuma16 p => convert U16 T Luma kd p | ImageLumaA16 p => convert U16 T LumaA kd p
  | ImageRgb16 p => convert U16 T Rgb kd p | ImageRgba16 p => convert U16 T Rgba kd p
  | ImageRgb32F p => convert_with (from_color_fi T Rgb kd) p | ImageRgba32F p => convert_with (from_color_fi T Rgba kd) p
  end.
Definition to_f32img (kd : kind) (d : dyn) : res (img (list f32)) :=
  match d with
  | ImageLuma8 p => convert_with (from_color_if U8 Luma kd) p | ImageLumaA8 p => convert_with (from_color_if U8 LumaA kd) p
  | ImageRgb8 p => convert_with (from_color_if U8 Rgb kd) p | ImageRgba8 p => convert_with (from_color_if U8 Rgba kd) p
  | ImageLuma16 p => convert_with (from_color_if U16 Luma kd) p | ImageLumaA16 p => convert_with (from_color_if U16 LumaA kd) p
  | ImageRgb16 p => convert_with (from_color_if U16 Rgb kd) p | ImageRgba16 p => convert_with (from_color_if U16 Rgba kd) p
  | ImageRgb32F p => convert_with (from_color_ff Rgb kd) p | ImageRgba32F p => convert_with (from_color_ff Rgba kd) p
  end.
Definition to_rgb8 := to_int U8 Rgb.
Definition to_rgb16 := to_int U16 Rgb.
Definition to_rgb32f := to_f32img Rgb.
Definition to_rgba8 := to_int U8 Rgba.
Definition to_rgba16 := to_int U16 Rgba.
Definition to_rgba32f := to_f32img Rgba.
Definition to_luma8 := to_int U8 Luma.
Definition to_luma16 := to_int U16 Luma.
Definition to_luma32f := to_f32img Luma.
Definition to_luma_alpha8 := to_int U8 LumaA.
Definition to_luma_alpha16 := to_int U16 LumaA.
Definition to_luma_alpha32f := to_f32img LumaA.
(** into_X: dynimage.rs:302-415 *)
Definition into_rgb8 (d : dyn) := match d with ImageRgb8 x => Ok x | x => to_rgb8 x end.
Definition into_rgb16 (d : dyn) := match d with ImageRgb16 x => Ok x | x => to_rgb16 x end.
Definition into_rgb32f (d : dyn) := match d with ImageRgb32F x => Ok x | x => to_rgb32f x end.
Definition into_rgba8 (d : dyn) := match d with ImageRgba8 x => Ok x | x => to_rgba8 x end.
Definition into_rgba16 (d : dyn) := match d with ImageRgba16 x => Ok x | x => to_rgba16 x end.
Definition into_rgba32f (d : dyn) := match d with ImageRgba32F x => Ok x | x => to_rgba32f x end.
Definition into_luma8 (d : dyn) := match d with ImageLuma8 x => Ok x | x => to_luma8 x end.
Definition into_luma16 (d : dyn) := match d with ImageLuma16 x => Ok x | x => to_luma16 x end.
Definition into_luma_alpha8 (d : dyn) := match d with ImageLumaA8 x => Ok x | x => to_luma_alpha8 x end.
Definition into_luma_alpha16 (d : dyn) := match d with ImageLumaA16 x => Ok x | x => to_luma_alpha16 x end.

(** *** Operations that keep the pixel type: dynamic_map! with `=>` (dynimage.rs:84-97) *)
Definition dyn_map (f : forall P, P -> img P -> res (img P)) (d : dyn) : res dyn :=
  let z (k : kind) := repeat 0 (Z.to_nat (nch k)) in
  let zf (k : kind) := repeat f32_zero (Z.to_nat (nch k)) in
  match d with
  | ImageLuma8 p => q <- f _ (z Luma) p ;; Ok (ImageLuma8 q)
  | ImageLumaA8 p => q <- f _ (z LumaA) p ;; Ok (ImageLumaA8 q)
  | ImageRgb8 p => q <- f _ (z Rgb) p ;; Ok (ImageRgb8 q)
  | ImageRgba8 p => q <- f _ (z Rgba) p ;; Ok (ImageRgba8 q)
  | ImageLuma16 p => q <- f _ (z Luma) p ;; Ok (ImageLuma16 q)
  | ImageLumaA16 p => q <- f _ (z LumaA) p ;; Ok (ImageLumaA16 q)
  | ImageRgb16 p => q <- f _ (z Rgb) p ;; Ok (ImageRgb16 q)
  | ImageRgba16 p => q <- f _ (z Rgba) p ;; Ok (ImageRgba16 q)
  | ImageRgb32F p => q <- f _ (zf Rgb) p ;; Ok (ImageRgb32F q)
  | ImageRgba32F p => q <- f _ (zf Rgba) p ;; Ok (ImageRgba32F q)
  end.
(** crop, crop_imm: dynimage.rs:422-430 *)
Definition dyn_crop (m : mode) (x y w h : Z) : dyn -> res dyn :=
  dyn_map (fun P zero im => to_image m zero im (crop im x y w h)).
(** flipv, fliph, rotate90, rotate180, rotate270: dynimage.rs:890-935 *)
Definition dyn_flipv : dyn -> res dyn := dyn_map (fun P zero im => flip_vertical zero im).
Definition dyn_fliph : dyn -> res dyn := dyn_map (fun P zero im => flip_horizontal zero im).
Definition dyn_rotate90 : dyn -> res dyn := dyn_map (fun P zero im => rotate90 zero im).
Definition dyn_rotate180 : dyn -> res dyn := dyn_map (fun P zero im => rotate180 zero im).
Definition dyn_rotate270 : dyn -> res dyn := dyn_map (fun P zero im => rotate270 zero im).
(** apply_orientation: dynimage.rs:957-979; on the image inside it is Orient.apply_orientation *)
Definition dyn_apply_orientation (d : dyn) (o : orientation) : res dyn :=
  dyn_map (fun P zero im => apply_orientation zero im o) d.

(** invert: dynimage.rs:740-742; Invert for f32 pixels: color.rs:868-905 with max = 1.0 *)
Definition invert_px_f (k : kind) (p : list f32) : res (list f32) :=
  let i v := f32_sub f32_one v in
  match k, p with
  | Rgba, [r; g; b; a] => Ok [i r; i g; i b; a]
  | Rgb, [r; g; b] => Ok [i r; i g; i b]
  | _, _ => Panic
  end.
Definition dyn_invert (d : dyn) : res dyn :=
  match d with
  | ImageLuma8 p => q <- invert_img U8 Luma p ;; Ok (ImageLuma8 q)
  | ImageLumaA8 p => q <- invert_img U8 LumaA p ;; Ok (ImageLumaA8 q)
  | ImageRgb8 p => q <- invert_img U8 Rgb p ;; Ok (ImageRgb8 q)
  | ImageRgba8 p => q <- invert_img U8 Rgba p ;; Ok (ImageRgba8 q)
  | ImageLuma16 p => q <- invert_img U16 Luma p ;; Ok (ImageLuma16 q)
  | ImageLumaA16 p => q <- invert_img U16 LumaA p ;; Ok (ImageLumaA16 q)
  | ImageRgb16 p => q <- invert_img U16 Rgb p ;; Ok (ImageRgb16 q)
  | ImageRgba16 p => q <- invert_img U16 Rgba p ;; Ok (ImageRgba16 q)
  | ImageRgb32F p => q <- in_place (invert_px_f Rgb) p ;; Ok (ImageRgb32F q)
  | ImageRgba32F p => q <- in_place (invert_px_f Rgba) p ;; Ok (ImageRgba32F q)
  end.

(** grayscale: dynimage.rs:711-737; imageops::grayscale, grayscale_alpha: colorops.rs:13-26 *)
Definition grayscale_f (k : kind) (im : img (list f32)) : res (img (list f32)) :=
  let kg := match k with Rgba => LumaA | _ => Luma end in
  pixel_loop (repeat f32_zero (Z.to_nat (nch k))) (fun p => l <- from_color_ff k kg p ;; from_color_ff kg k l) im.
Definition dyn_grayscale (d : dyn) : res dyn :=
  match d with
  | ImageLuma8 p => Ok (ImageLuma8 p)
  | ImageLumaA8 p => q <- grayscale_with_type_alpha U8 U8 LumaA LumaA p ;; Ok (ImageLumaA8 q)
  | ImageRgb8 p => q <- grayscale_with_type U8 U8 Rgb Luma p ;; Ok (ImageLuma8 q)
  | ImageRgba8 p => q <- grayscale_with_type_alpha U8 U8 Rgba LumaA p ;; Ok (ImageLumaA8 q)
  | ImageLuma16 p => Ok (ImageLuma16 p)
  | ImageLumaA16 p => q <- grayscale_with_type_alpha U16 U16 LumaA LumaA p ;; Ok (ImageLumaA16 q)
  | ImageRgb16 p => q <- grayscale_with_type U16 U16 Rgb Luma p ;; Ok (ImageLuma16 q)
  | ImageRgba16 p => q <- grayscale_with_type_alpha U16 U16 Rgba LumaA p ;; Ok (ImageLumaA16 q)
  | ImageRgb32F p => q <- grayscale_f Rgb p ;; Ok (ImageRgb32F q)
  | ImageRgba32F p => q <- grayscale_f Rgba p ;; Ok (ImageRgba32F q)
  end.

(** *** Pixel access *)
(** GenericImageView::get_pixel: dynimage.rs:1120-1122, to_rgba() then into_color() to Rgba<u8> *)
Definition get_int (t : sty) (k : kind) (im : img (list Z)) (x y : Z) : res (list Z) :=
  p <- get_pixel im x y ;; q <- from_color t t k Rgba p ;; from_color t U8 Rgba Rgba q.
Definition get_f (k : kind) (im : img (list f32)) (x y : Z) : res (list Z) :=
  p <- get_pixel im x y ;; q <- from_color_ff k Rgba p ;; from_color_fi U8 Rgba Rgba q.
Definition dyn_get (d : dyn) (x y : Z) : res (list Z) :=
  match d with
  | ImageLuma8 p => get_int U8 Luma p x y | ImageLumaA8 p => get_int U8 LumaA p x y
  | ImageRgb8 p => get_int U8 Rgb p x y | ImageRgba8 p => get_int U8 Rgba p x y
  | ImageLuma16 p => get_int U16 Luma p x y | ImageLumaA16 p => get_int U16 LumaA p x y
  | ImageRgb16 p => get_int U16 Rgb p x y | ImageRgba16 p => get_int U16 Rgba p x y
  | ImageRgb32F p => get_f Rgb p x y | ImageRgba32F p => get_f Rgba p x y
  end.
(** GenericImage::put_pixel: dynimage.rs:1127-1142 *)
Definition to_luma := from_color U8 U8 Rgba Luma.
Definition to_luma_alpha := from_color U8 U8 Rgba LumaA.
Definition to_rgb := from_color U8 U8 Rgba Rgb.
Definition dyn_put (d : dyn) (x y : Z) (pixel : list Z) : res dyn :=
  match d with
  | ImageLuma8 p => q <- to_luma pixel ;; p <- put_pixel p x y q ;; Ok (ImageLuma8 p)
  | ImageLumaA8 p => q <- to_luma_alpha pixel ;; p <- put_pixel p x y q ;; Ok (ImageLumaA8 p)
  | ImageRgb8 p => q <- to_rgb pixel ;; p <- put_pixel p x y q ;; Ok (ImageRgb8 p)
  | ImageRgba8 p => p <- put_pixel p x y pixel ;; Ok (ImageRgba8 p)
  | ImageLuma16 p => q <- to_luma pixel ;; q <- from_color U8 U16 Luma Luma q ;; p <- put_pixel p x y q ;; Ok (ImageLuma16 p)
  | ImageLumaA16 p => q <- to_luma_alpha pixel ;; q <- from_color U8 U16 LumaA LumaA q ;; p <- put_pixel p x y q ;; Ok (ImageLumaA16 p)
  | ImageRgb16 p => q <- to_rgb pixel ;; q <- from_color U8 U16 Rgb Rgb q ;; p <- put_pixel p x y q ;; Ok (ImageRgb16 p)
  | ImageRgba16 p => q <- from_color U8 U16 Rgba Rgba pixel ;; p <- put_pixel p x y q ;; Ok (ImageRgba16 p)
  | ImageRgb32F p => q <- to_rgb pixel ;; q <- from_color_if U8 Rgb Rgb q ;; p <- put_pixel p x y q ;; Ok (ImageRgb32F p)
  | ImageRgba32F p => q <- from_color_if U8 Rgba Rgba pixel ;; p <- put_pixel p x y q ;; Ok (ImageRgba32F p)
  end.
(** ImageBuffer::blend_pixel: buffer.rs:1215-1217 (get_pixel_mut(x, y).blend(&p)); GenericImage::blend_pixel:
    dynimage.rs:1144-1164.  The Rgba32F case is left out (it answers an error here). *)
Definition blend_at (t : sty) (k : kind) (im : img (list Z)) (x y : Z) (q : list Z) : res (img (list Z)) :=
  p <- get_pixel im x y ;; r <- blend (smax t) k p q ;; put_pixel im x y r.
Definition dyn_blend (d : dyn) (x y : Z) (pixel : list Z) : res dyn :=
  match d with
  | ImageLuma8 p => q <- to_luma pixel ;; p <- blend_at U8 Luma p x y q ;; Ok (ImageLuma8 p)
  | ImageLumaA8 p => q <- to_luma_alpha pixel ;; p <- blend_at U8 LumaA p x y q ;; Ok (ImageLumaA8 p)
  | ImageRgb8 p => q <- to_rgb pixel ;; p <- blend_at U8 Rgb p x y q ;; Ok (ImageRgb8 p)
  | ImageRgba8 p => p <- blend_at U8 Rgba p x y pixel ;; Ok (ImageRgba8 p)
  | ImageLuma16 p => q <- to_luma pixel ;; q <- from_color U8 U16 Luma Luma q ;; p <- blend_at U16 Luma p x y q ;; Ok (ImageLuma16 p)
  | ImageLumaA16 p => q <- to_luma_alpha pixel ;; q <- from_color U8 U16 LumaA LumaA q ;; p <- blend_at U16 LumaA p x y q ;; Ok (ImageLumaA16 p)
  | ImageRgb16 p => q <- to_rgb pixel ;; q <- from_color U8 U16 Rgb Rgb q ;; p <- blend_at U16 Rgb p x y q ;; Ok (ImageRgb16 p)
  | ImageRgba16 p => q <- from_color U8 U16 Rgba Rgba pixel ;; p <- blend_at U16 Rgba p x y q ;; Ok (ImageRgba16 p)
  | ImageRgb32F p => q <- to_rgb pixel ;; q <- from_color_if U8 Rgb Rgb q ;; _ <- get_pixel p x y ;; p <- put_pixel p x y q ;; Ok (ImageRgb32F p)
  | ImageRgba32F p => Err EUnsupported
  end.

(** *** Typed views: dynimage.rs:434-600 (as_X and as_mut_X) *)
Definition as_rgb8 (d : dyn) := match d with ImageRgb8 p => Some p | _ => None end.
Definition as_rgba8 (d : dyn) := match d with ImageRgba8 p => Some p | _ => None end.
Definition as_luma8 (d : dyn) := match d with ImageLuma8 p => Some p | _ => None end.
Definition as_luma_alpha8 (d : dyn) := match d with ImageLumaA8 p => Some p | _ => None end.
Definition as_rgb16 (d : dyn) := match d with ImageRgb16 p => Some p | _ => None end.
Definition as_rgba16 (d : dyn) := match d with ImageRgba16 p => Some p | _ => None end.
Definition as_luma16 (d : dyn) := match d with ImageLuma16 p => Some p | _ => None end.
Definition as_luma_alpha16 (d : dyn) := match d with ImageLumaA16 p => Some p | _ => None end.
Definition as_rgb32f (d : dyn) := match d with ImageRgb32F p => Some p | _ => None end.
Definition as_rgba32f (d : dyn) := match d with ImageRgba32F p => Some p | _ => None end.
(** as_bytes / into_bytes: dynimage.rs:638-676 on a little-endian machine; the samples in memory order.
    The f32 types are left out. *)
Definition sample_bytes (t : sty) (v : Z) : list Z := match t with U8 => [v] | U16 => le16 v end.
Definition img_bytes (t : sty) (im : img (list Z)) : list Z := flat_map (sample_bytes t) (concat (px im)).
Definition dyn_as_bytes (d : dyn) : option (list Z) :=
  match d with
  | ImageLuma8 p | ImageLumaA8 p | ImageRgb8 p | ImageRgba8 p => Some (img_bytes U8 p)
  | ImageLuma16 p | ImageLumaA16 p | ImageRgb16 p | ImageRgba16 p => Some (img_bytes U16 p)
  | ImageRgb32F _ | ImageRgba32F _ => None
  end.
