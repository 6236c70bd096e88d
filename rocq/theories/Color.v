(** Model of sample depth conversion, colour conversion, inversion and brightening for the integer
    sample types u8 and u16 (src/color.rs:424-905, src/imageops/colorops.rs:14-215,
    src/buffer.rs:1400-1407).  A pixel is the list of its samples.  f32 samples are in FloatColor.v. *)
From Verif Require Import Base GenImage Buffer.

(** Subpixel types and pixel structs (color.rs:411-421) *)
Inductive sty := U8 | U16.
Definition smax (t : sty) : Z := match t with U8 => u8_max | U16 => u16_max end.
Inductive kind := Luma | LumaA | Rgb | Rgba.
Definition nch (k : kind) : Z := match k with Luma => 1 | LumaA => 2 | Rgb => 3 | Rgba => 4 end.
Definition nalpha (k : kind) : Z := match k with Luma | Rgb => 0 | LumaA | Rgba => 1 end.
Definition is_sample (t : sty) (v : Z) : Prop := 0 <= v <= smax t.
Definition is_pixel (t : sty) (k : kind) (p : list Z) : Prop := zlen p = nch k /\ Forall (is_sample t) p.

(** NumCast::from(v).unwrap() into an unsigned type with maximum m *)
Definition numcast (m v : Z) : res Z := if (0 <=? v) && (v <=? m) then Ok v else Panic.
(** checked arithmetic in an unsigned type with maximum m (debug build) *)
Definition add_m (m a b : Z) : res Z := if a + b <=? m then Ok (a + b) else Panic.
Definition mul_m (m a b : Z) : res Z := if a * b <=? m then Ok (a * b) else Panic.
Definition sub_m (a b : Z) : res Z := if b <=? a then Ok (a - b) else Panic.

(** FromPrimitive: color.rs:429-433 (identity), 463-476 (u16 to u8), 492-497 (u8 to u16) *)
Definition from_primitive (S T : sty) (v : Z) : res Z :=
  match S, T with
  | U8, U16 => numcast u16_max (Z.lor (Z.shiftl v 8) v)
  | U16, U8 => s <- add_m u32_max v 128 ;; numcast u8_max (s / 257)
  | _, _ => Ok v
  end.

(** Enlargeable::Larger is u32 for both u8 and u16: traits.rs:93-98 *)
Definition larger_max (t : sty) : Z := u32_max.
(** Enlargeable::clamp_from: traits.rs:78-86 *)
Definition clamp_from (t : sty) (n : Z) : res Z :=
  if smax t <? n then Ok (smax t) else if n <? 0 then Ok 0 else numcast (smax t) n.
(** SRGB_LUMA, SRGB_LUMA_DIV, rgb_to_luma: color.rs:531-541; rgb[i] panics when out of range *)
Definition srgb_luma : list Z := [2126; 7152; 722].
Definition srgb_luma_div : Z := 10000.
Definition rgb_to_luma (t : sty) (rgb : list Z) : res Z :=
  match rgb with
  | r :: g :: b :: _ =>
      l0 <- mul_m (larger_max t) 2126 r ;;
      l1 <- mul_m (larger_max t) 7152 g ;;
      s <- add_m (larger_max t) l0 l1 ;;
      l2 <- mul_m (larger_max t) 722 b ;;
      l <- add_m (larger_max t) s l2 ;;
      clamp_from t (l / srgb_luma_div)
  | _ => Panic
  end.

(** FromColor: color.rs:543-743, one clause per impl, in the order of the file *)
Definition from_color (S T : sty) (ks kd : kind) (p : list Z) : res (list Z) :=
  let fp := from_primitive S T in
  match ks, kd, p with
  | Luma, Luma, [l] => a <- fp l ;; Ok [a]
  | LumaA, Luma, [l; _] => a <- fp l ;; Ok [a]
  | Rgb, Luma, [_; _; _] => l <- rgb_to_luma S p ;; a <- fp l ;; Ok [a]
  | Rgba, Luma, [_; _; _; _] => l <- rgb_to_luma S p ;; a <- fp l ;; Ok [a]
  | LumaA, LumaA, [l; al] => a <- fp l ;; b <- fp al ;; Ok [a; b]
  | Rgb, LumaA, [_; _; _] => l <- rgb_to_luma S p ;; a <- fp l ;; Ok [a; smax T]
  | Rgba, LumaA, [_; _; _; al] => l <- rgb_to_luma S p ;; a <- fp l ;; b <- fp al ;; Ok [a; b]
  | Luma, LumaA, [l] => a <- fp l ;; Ok [a; smax T]
  | Rgba, Rgba, [r; g; b; al] => r <- fp r ;; g <- fp g ;; b <- fp b ;; a <- fp al ;; Ok [r; g; b; a]
  | Rgb, Rgba, [r; g; b] => r <- fp r ;; g <- fp g ;; b <- fp b ;; Ok [r; g; b; smax T]
  | LumaA, Rgba, [l; al] => a <- fp l ;; b <- fp l ;; c <- fp l ;; d <- fp al ;; Ok [a; b; c; d]
  | Luma, Rgba, [l] => a <- fp l ;; b <- fp l ;; c <- fp l ;; Ok [a; b; c; smax T]
  | Rgb, Rgb, [r; g; b] => r <- fp r ;; g <- fp g ;; b <- fp b ;; Ok [r; g; b]
  | Rgba, Rgb, [r; g; b; _] => r <- fp r ;; g <- fp g ;; b <- fp b ;; Ok [r; g; b]
  | LumaA, Rgb, [l; _] => a <- fp l ;; b <- fp l ;; c <- fp l ;; Ok [a; b; c]
  | Luma, Rgb, [l] => a <- fp l ;; b <- fp l ;; c <- fp l ;; Ok [a; b; c]
  | _, _, _ => Panic
  end.

(** Invert: color.rs:868-905 *)
Definition invert_px (t : sty) (k : kind) (p : list Z) : res (list Z) :=
  match k, p with
  | LumaA, [l; a] => l' <- sub_m (smax t) l ;; Ok [l'; a]
  | Luma, [l] => l' <- sub_m (smax t) l ;; Ok [l']
  | Rgba, [r; g; b; a] => r <- sub_m (smax t) r ;; g <- sub_m (smax t) g ;; b <- sub_m (smax t) b ;; Ok [r; g; b; a]
  | Rgb, [r; g; b] => r <- sub_m (smax t) r ;; g <- sub_m (smax t) g ;; b <- sub_m (smax t) b ;; Ok [r; g; b]
  | _, _ => Panic
  end.

(** map_with_alpha / apply_with_alpha: color.rs:343-359.  [f] may panic; g is called on channel
    number CHANNELS - ALPHAS if it exists. *)
Fixpoint map_res {A B} (f : A -> res B) (l : list A) : res (list B) :=
  match l with [] => Ok [] | a :: l' => b <- f a ;; r <- map_res f l' ;; Ok (b :: r) end.
Definition map_with_alpha (k : kind) (f g : Z -> res Z) (p : list Z) : res (list Z) :=
  let al := Z.to_nat (nch k - nalpha k) in
  a <- map_res f (firstn al p) ;;
  match skipn al p with [] => Ok a | v :: r => v' <- g v ;; Ok (a ++ v' :: r) end.

(** utils::clamp: utils/mod.rs:82-93 *)
Definition clampu (a lo hi : Z) : Z := if a <? lo then lo else if hi <? a then hi else a.
(** the closure of brighten: colorops.rs:168-173; i32 `+` panics (debug) or wraps (release) *)
Definition i32_add_m (m : mode) (a b : Z) : res Z :=
  if (i32_min <=? a + b) && (a + b <=? i32_max) then Ok (a + b)
  else match m with Debug => Panic | Release => Ok (wrap_i32 (a + b)) end.
Definition brighten_sample (m : mode) (t : sty) (value b : Z) : res Z :=
  s <- i32_add_m m b value ;; numcast (smax t) (clampu s 0 (smax t)).
Definition brighten_px (m : mode) (t : sty) (k : kind) (value : Z) (p : list Z) : res (list Z) :=
  map_with_alpha k (brighten_sample m t value) (fun a => Ok a) p.

(** The loop `for y in 0..height { for x in 0..width { p = get_pixel; put_pixel(f p) } }` shared by
    invert (colorops.rs:69-81) and brighten_in_place (188-212) *)
Definition in_place {P} (f : P -> res P) (im : img P) : res (img P) :=
  for2 (iw im) (ih im) (fun s x y => p <- get_pixel s x y ;; q <- f p ;; put_pixel s x y q) im.
Definition invert_img (t : sty) (k : kind) (im : img (list Z)) : res (img (list Z)) :=
  in_place (invert_px t k) im.
Definition brighten_in_place (m : mode) (t : sty) (k : kind) (value : Z) (im : img (list Z)) : res (img (list Z)) :=
  in_place (brighten_px m t k value) im.

(** The loop `for (x, y, pixel) in image.pixels() { out.put_pixel(x, y, f pixel) }` over the generic
    pixel iterator (image.rs:840-872), with at most [fuel] calls of next() *)
Fixpoint for_pixels {P Q} (fuel : nat) (im : img P) (f : P -> res Q) (s : Z * Z) (out : img Q) : res (img Q) :=
  match fuel with
  | O => Err EFuel
  | Datatypes.S n =>
      '(o, s') <- gpix_next (get_pixel im) (iw im) (ih im) s ;;
      match o with
      | None => Ok out
      | Some (x, y, p) => q <- f p ;; out' <- put_pixel out x y q ;; for_pixels n im f s' out'
      end
  end.
Definition pixel_loop {P Q} (zero : Q) (f : P -> res Q) (im : img P) : res (img Q) :=
  for_pixels (Z.to_nat (iw im * ih im) + 1) im f (0, 0) (new_img (iw im) (ih im) zero).
(** brighten: colorops.rs:155-180 *)
Definition brighten (m : mode) (t : sty) (k : kind) (value : Z) (im : img (list Z)) : res (img (list Z)) :=
  pixel_loop (repeat 0 (Z.to_nat (nch k))) (brighten_px m t k value) im.
(** grayscale_with_type / grayscale_with_type_alpha: colorops.rs:28-65; to_luma / to_luma_alpha are
    from_color into Luma / LumaA of the same sample type (color.rs:316-326), into_color (516-527)
    another from_color *)
Definition grayscale_with_type (S T : sty) (k kd : kind) (im : img (list Z)) : res (img (list Z)) :=
  pixel_loop (repeat 0 (Z.to_nat (nch kd)))
    (fun p => l <- from_color S S k Luma p ;; from_color S T Luma kd l) im.
Definition grayscale_with_type_alpha (S T : sty) (k kd : kind) (im : img (list Z)) : res (img (list Z)) :=
  pixel_loop (repeat 0 (Z.to_nat (nch kd)))
    (fun p => l <- from_color S S k LumaA p ;; from_color S T LumaA kd l) im.

(** ConvertBuffer::convert: buffer.rs:1400-1407, the zip of two pixel iterators of the same length *)
Definition convert (S T : sty) (ks kd : kind) (im : img (list Z)) : res (img (list Z)) :=
  l <- map_res (from_color S T ks kd) (px im) ;; Ok (mkImg (iw im) (ih im) l).
