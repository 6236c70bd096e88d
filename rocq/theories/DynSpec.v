(** What a DynamicImage is, independently of the functions that handle it. *)
From Verif Require Import Base ColorType Color Float Dyn.
Local Open Scope Z_scope.

(** a buffer of pixels that all satisfy Q, with 32-bit dimensions *)
Definition buffer_of {P} (Q : P -> Prop) (im : img P) : Prop :=
  wf im /\ is_u32 (iw im) /\ is_u32 (ih im) /\ Forall Q (px im).
(** every pixel of a float image has the channels of its kind; the values are arbitrary *)
Definition is_pixel_f (k : kind) (p : list f32) : Prop := zlen p = nch k.

(** the value of a DynamicImage: which of the ten types it is, and its pixels *)
Inductive contents :=
| Ints (t : sty) (k : kind) (im : img (list Z))
| Floats (k : kind) (im : img (list f32)).
Definition open (d : dyn) : contents :=
  match d with
  | ImageLuma8 p => Ints U8 Luma p | ImageLumaA8 p => Ints U8 LumaA p
  | ImageRgb8 p => Ints U8 Rgb p | ImageRgba8 p => Ints U8 Rgba p
  | ImageLuma16 p => Ints U16 Luma p | ImageLumaA16 p => Ints U16 LumaA p
  | ImageRgb16 p => Ints U16 Rgb p | ImageRgba16 p => Ints U16 Rgba p
  | ImageRgb32F p => Floats Rgb p | ImageRgba32F p => Floats Rgba p
  end.
Definition valid (d : dyn) : Prop :=
  match open d with
  | Ints t k im => buffer_of (is_pixel t k) im
  | Floats k im => buffer_of (is_pixel_f k) im
  end.
(** the stored samples of the pixel in column x and row y, None outside the image *)
Definition stored (d : dyn) (x y : Z) : option (list Z + list f32) :=
  match open d with
  | Ints _ _ im => option_map inl (pixel im x y)
  | Floats _ im => option_map inr (pixel im x y)
  end.

(** the colour types: depth and channels *)
Inductive depth := D8 | D16 | D32F.
Definition depth_of (c : ctype) : depth :=
  match c with CL8 | CLa8 | CRgb8 | CRgba8 => D8 | CL16 | CLa16 | CRgb16 | CRgba16 => D16 | CRgb32F | CRgba32F => D32F end.
Definition kind_of (c : ctype) : kind :=
  match c with
  | CL8 | CL16 => Luma | CLa8 | CLa16 => LumaA | CRgb8 | CRgb16 | CRgb32F => Rgb | CRgba8 | CRgba16 | CRgba32F => Rgba
  end.
(** the grey type with the same depth and the same alpha channel; there is none for floats *)
Definition grey_type (c : ctype) : ctype :=
  match c with
  | CL8 | CRgb8 => CL8 | CLa8 | CRgba8 => CLa8 | CL16 | CRgb16 => CL16 | CLa16 | CRgba16 => CLa16
  | CRgb32F => CRgb32F | CRgba32F => CRgba32F
  end.
(** the sRGB luma of 8 or 16-bit samples *)
Definition grey (r g b : Z) : Z := (2126 * r + 7152 * g + 722 * b) / 10000.
(** what is left of an RGBA8 pixel that has been stored as a pixel of kind k: the colour becomes grey
    if k has no colour, and the pixel becomes opaque if k has no alpha *)
Definition kept (k : kind) (p : list Z) : list Z :=
  match p with
  | [r; g; b; a] =>
      let l := grey r g b in
      match k with
      | Luma => [l; l; l; 255] | LumaA => [l; l; l; a] | Rgb => [r; g; b; 255] | Rgba => [r; g; b; a]
      end
  | _ => []
  end.
(** the picture [g] shows, position by position, the picture [d]: pixel (X, Y) of g is pixel src X Y of d *)
Definition rearranged (d g : dyn) (w h : Z) (src : Z -> Z -> Z * Z) : Prop :=
  valid g /\ dyn_color g = dyn_color d /\ dyn_width g = w /\ dyn_height g = h /\
  forall X Y, 0 <= X < w -> 0 <= Y < h -> stored g X Y = stored d (fst (src X Y)) (snd (src X Y)).
(** the grey value of a pixel: its only colour channel, or the luma of three *)
Definition lum (p : list Z) : Z := match p with r :: g :: b :: _ => grey r g b | l :: _ => l | [] => 0 end.
(** the grey version of a pixel of colour type c.  Floats have no grey type: the three channels become
    equal to the luma (whose accuracy is the subject of C66_float_luma). *)
Definition greyed (c : ctype) (p : list Z + list f32) : list Z + list f32 :=
  match kind_of c, p with
  | Luma, inl p => inl p
  | LumaA, inl p => inl p
  | Rgb, inl p => inl [lum p]
  | Rgba, inl [r; g; b; a] => inl [grey r g b; a]
  | Rgb, inr p => match rgb_to_luma_f p with Ok l => inr [l; l; l] | _ => inr [] end
  | Rgba, inr [r; g; b; a] => match rgb_to_luma_f [r; g; b; a] with Ok l => inr [l; l; l; a] | _ => inr [] end
  | _, _ => p
  end.
(** the negative: every colour channel v becomes max - v; alpha stays *)
Definition negated (c : ctype) (p : list Z + list f32) : list Z + list f32 :=
  match p with
  | inl p =>
      let i v := (match depth_of c with D8 => 255 | _ => 65535 end) - v in
      inl (match kind_of c, p with
           | Luma, [l] => [i l] | LumaA, [l; a] => [i l; a]
           | Rgb, [r; g; b] => [i r; i g; i b] | Rgba, [r; g; b; a] => [i r; i g; i b; a]
           | _, _ => [] end)
  | inr p =>
      let i v := f32_sub (f32_of_Z 1) v in
      inr (match p with [r; g; b] => [i r; i g; i b] | [r; g; b; a] => [i r; i g; i b; a] | _ => [] end)
  end.
(** bytes of one stored integer pixel, low byte first *)
Definition pixel_bytes (c : ctype) (p : list Z) : list Z :=
  match depth_of c with D8 => p | _ => flat_map (fun v => [v mod 256; v / 256]) p end.
