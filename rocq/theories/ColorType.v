(** Model of ColorType / ExtendedColorType (src/color.rs:7-260), of the size arithmetic built on them
    (ExtendedColorType::buffer_size, ImageDecoder::total_bytes, utils::check_dimension_overflow,
    decoder_to_vec's allocation).  usize is 64 bits. *)
From Verif Require Import Base Limits.
Local Open Scope Z_scope.

(** enum ColorType: color.rs:10-33 *)
Inductive ctype := CL8 | CLa8 | CRgb8 | CRgba8 | CL16 | CLa16 | CRgb16 | CRgba16 | CRgb32F | CRgba32F.
(** enum ExtendedColorType: color.rs:96-157 *)
Inductive ectype :=
| XA8 | XL1 | XLa1 | XRgb1 | XRgba1 | XL2 | XLa2 | XRgb2 | XRgba2 | XL4 | XLa4 | XRgb4 | XRgba4
| XL8 | XLa8 | XRgb8 | XRgba8 | XL16 | XLa16 | XRgb16 | XRgba16 | XBgr8 | XBgra8 | XRgb32F | XRgba32F
| XCmyk8 | XUnknown (bpp : Z).

(** ColorType::bytes_per_pixel: color.rs:38-49 *)
Definition ct_bytes (c : ctype) : Z :=
  match c with
  | CL8 => 1 | CL16 | CLa8 => 2 | CRgb8 => 3 | CRgba8 | CLa16 => 4 | CRgb16 => 6 | CRgba16 => 8
  | CRgb32F => 12 | CRgba32F => 16
  end.
(** ColorType::bits_per_pixel: color.rs:73-75 *)
Definition ct_bits (c : ctype) : Z := ct_bytes c * 8.
(** has_alpha, has_color: color.rs:53-69 *)
Definition ct_has_alpha (c : ctype) : bool :=
  match c with CL8 | CL16 | CRgb8 | CRgb16 | CRgb32F => false | _ => true end.
Definition ct_has_color (c : ctype) : bool :=
  match c with CL8 | CL16 | CLa8 | CLa16 => false | _ => true end.
(** From<ColorType> for ExtendedColorType: color.rs:238-253 *)
Definition ect_of (c : ctype) : ectype :=
  match c with
  | CL8 => XL8 | CLa8 => XLa8 | CRgb8 => XRgb8 | CRgba8 => XRgba8
  | CL16 => XL16 | CLa16 => XLa16 | CRgb16 => XRgb16 | CRgba16 => XRgba16
  | CRgb32F => XRgb32F | CRgba32F => XRgba32F
  end.
(** ExtendedColorType::channel_count: color.rs:165-195 *)
Definition ect_channels (c : ectype) : Z :=
  match c with
  | XA8 | XL1 | XL2 | XL4 | XL8 | XL16 | XUnknown _ => 1
  | XLa1 | XLa2 | XLa4 | XLa8 | XLa16 => 2
  | XRgb1 | XRgb2 | XRgb4 | XRgb8 | XRgb16 | XRgb32F | XBgr8 => 3
  | XRgba1 | XRgba2 | XRgba4 | XRgba8 | XRgba16 | XRgba32F | XBgra8 | XCmyk8 => 4
  end.
(** ExtendedColorType::bits_per_pixel: color.rs:199-229 *)
Definition ect_bits (c : ectype) : Z :=
  match c with
  | XA8 => 8 | XL1 => 1 | XLa1 => 2 | XRgb1 => 3 | XRgba1 => 4
  | XL2 => 2 | XLa2 => 4 | XRgb2 => 6 | XRgba2 => 8
  | XL4 => 4 | XLa4 => 8 | XRgb4 => 12 | XRgba4 => 16
  | XL8 => 8 | XLa8 => 16 | XRgb8 => 24 | XRgba8 => 32
  | XL16 => 16 | XLa16 => 32 | XRgb16 => 48 | XRgba16 => 64
  | XRgb32F => 96 | XRgba32F => 128
  | XBgr8 => 24 | XBgra8 => 32 | XCmyk8 => 32
  | XUnknown b => b
  end.
(** ColorType::channel_count: color.rs:79-82 *)
Definition ct_channels (c : ctype) : Z := ect_channels (ect_of c).
(** buffer_size: color.rs:232-236; [Panic] if the u64 expression width * bpp + 7 overflowed *)
Definition buffer_size (c : ectype) (w h : Z) : res Z :=
  if w * ect_bits c + 7 <=? u64_max then Ok (sat_mul_u64 ((w * ect_bits c + 7) / 8) h) else Panic.
(** check_dimension_overflow: utils/mod.rs:68-70; [Panic] for a zero divisor or an overflowing product *)
Definition check_dimension_overflow (w h bpp : Z) : res bool :=
  if u64_max <? w * h then Panic else if bpp =? 0 then Panic else Ok (u64_max / bpp <? w * h).
(** ImageDecoder::total_bytes: image.rs:673-678 *)
Definition total_bytes (w h : Z) (c : ctype) : res Z :=
  if u64_max <? w * h then Panic else Ok (sat_mul_u64 (w * h) (ct_bytes c)).
(** the allocation of decoder_to_vec::<T>: image.rs:616-623, [sz] = size_of::<T>() *)
Definition isize_max : Z := 9223372036854775807.
Definition vec_len (w h : Z) (c : ctype) (sz : Z) : res Z :=
  t <- total_bytes w h c ;; if isize_max <? t then Err ELimits else Ok (t / sz).
