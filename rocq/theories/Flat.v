(** Model of src/flat.rs: strided sample layouts, their checks, and the views made from them.
    usize is 64 bits; [Panic] includes arithmetic overflow (debug build).  Buffers are lists of
    samples; Rust's AsRef/AsMut indirection and color_hint are left out. *)
From Verif Require Import Base Buffer.

(** struct SampleLayout: flat.rs:103-121 *)
Record layout := mkLayout {
  l_c : Z; l_cs : Z;     (* channels: u8, channel_stride *)
  l_w : Z; l_ws : Z;     (* width: u32, width_stride *)
  l_h : Z; l_hs : Z      (* height: u32, height_stride *)
}.
(** What the Rust field types guarantee *)
Definition layout_ok (l : layout) : Prop :=
  is_u8 (l_c l) /\ is_u64 (l_cs l) /\ is_u32 (l_w l) /\ is_u64 (l_ws l) /\ is_u32 (l_h l) /\ is_u64 (l_hs l).

(** row_major_packed: flat.rs:145-157 *)
Definition row_major_packed (c w h : Z) : res layout :=
  match us_cmul c w with
  | None => Panic
  | Some hs => Ok (mkLayout c 1 w c h hs)
  end.
(** column_major_packed: flat.rs:176-188 *)
Definition column_major_packed (c w h : Z) : res layout :=
  match us_cmul c h with
  | None => Panic
  | Some ws => Ok (mkLayout c 1 w ws h c)
  end.

Definition us_cadd (a b : Z) : option Z := if a + b <=? u64_max then Some (a + b) else None.

(** in_bounds: flat.rs:397-399 *)
Definition in_bounds (l : layout) (c x y : Z) : bool := (c <? l_c l) && (x <? l_w l) && (y <? l_h l).
(** index_ignoring_bounds: flat.rs:419-432 *)
Definition index_ignoring_bounds (l : layout) (c x y : Z) : option Z :=
  match us_cmul c (l_cs l), us_cmul x (l_ws l), us_cmul y (l_hs l) with
  | Some ic, Some ix, Some iy =>
      match us_cadd 0 ic with
      | Some b => match us_cadd b ix with Some b => us_cadd b iy | None => None end
      | None => None
      end
  | _, _, _ => None
  end.
(** index: flat.rs:405-411 *)
Definition index (l : layout) (c x y : Z) : option Z :=
  if in_bounds l c x y then index_ignoring_bounds l c x y else None.
(** in_bounds_index: flat.rs:443-446 *)
Definition in_bounds_index (l : layout) (c x y : Z) : res Z :=
  a <- us_mul y (l_hs l) ;; b <- us_mul x (l_ws l) ;; s <- us_add a b ;;
  d <- us_mul c (l_cs l) ;; us_add s d.
(** min_length: flat.rs:273-280 *)
Definition min_length (l : layout) : option Z :=
  if (l_w l =? 0) || (l_h l =? 0) || (l_c l =? 0) then Some 0
  else match index l (l_c l - 1) (l_w l - 1) (l_h l - 1) with
       | Some i => us_cadd i 1
       | None => None
       end.
(** fits: flat.rs:284-286 *)
Definition fits (l : layout) (len : Z) : bool :=
  match min_length l with Some m => m <=? len | None => false end.
(** shrink_to: flat.rs:453-457 *)
Definition shrink_to (l : layout) (c w h : Z) : layout :=
  mkLayout (Z.min (l_c l) c) (l_cs l) (Z.min (l_w l) w) (l_ws l) (Z.min (l_h l) h) (l_hs l).

(** Dim(stride, len) with the derived lexicographic Ord: flat.rs:124-125; sort() of a 3-array is
    modelled by insertion sort *)
Definition dim := (Z * Z)%type.
Definition dim_le (a b : dim) : bool := (fst a <? fst b) || ((fst a =? fst b) && (snd a <=? snd b)).
Fixpoint ins (a : dim) (l : list dim) : list dim :=
  match l with [] => [a] | b :: r => if dim_le a b then a :: l else b :: ins a r end.
Definition dsort (l : list dim) : list dim := fold_right ins [] l.
(** increasing_stride_dims: flat.rs:289-303 *)
Definition increasing_stride_dims (l : layout) : dim * dim * dim :=
  match dsort [(l_cs l, l_c l); (l_ws l, l_w l); (l_hs l, l_h l)] with
  | [a; b; c] => (a, b, c)
  | _ => ((0, 0), (0, 0), (0, 0))
  end.
(** Dim::checked_len / len: flat.rs:466-472 *)
Definition checked_len (d : dim) : option Z := us_cmul (fst d) (snd d).
Definition dim_len (d : dim) : Z := fst d * snd d.
(** has_aliased_samples: flat.rs:311-332 *)
Definition has_aliased_samples (l : layout) : bool :=
  let '(mn, md, mx) := increasing_stride_dims l in
  match checked_len mn with
  | None => true
  | Some mn_size =>
      match checked_len md with
      | None => true
      | Some md_size =>
          match checked_len mx with
          | None => true
          | Some _ => (fst md <? mn_size) || (fst mx <? md_size)
          end
      end
  end.

(** enum NormalForm: flat.rs:1056-1088; [form >= other] per PartialOrd, flat.rs:1541-1580 *)
Inductive normal_form := Unaliased | PixelPacked | ImagePacked | RowMajorPacked | ColumnMajorPacked.
Definition nf_ge (a b : normal_form) : bool :=
  match a, b with
  | _, Unaliased => true
  | PixelPacked, PixelPacked => true
  | ImagePacked, ImagePacked => true
  | RowMajorPacked, (PixelPacked | ImagePacked | RowMajorPacked) => true
  | ColumnMajorPacked, (PixelPacked | ImagePacked | ColumnMajorPacked) => true
  | _, _ => false
  end.
(** is_normal: flat.rs:341-390.  [Panic] where width*width_stride would overflow. *)
Definition is_normal (l : layout) (f : normal_form) : res bool :=
  if has_aliased_samples l then Ok false
  else if nf_ge f PixelPacked && negb (l_cs l =? 1) then Ok false
  else
    let '(mn, md, mx) := increasing_stride_dims l in
    if nf_ge f ImagePacked &&
       (negb (1 =? fst mn) || negb (dim_len mn =? fst md) || negb (dim_len md =? fst mx)) then Ok false
    else
      r <- (if nf_ge f RowMajorPacked then
              if negb (l_ws l =? l_c l) then Ok false
              else p <- us_mul (l_w l) (l_ws l) ;; Ok (p =? l_hs l)
            else Ok true) ;;
      if negb r then Ok false
      else if nf_ge f ColumnMajorPacked then
              if negb (l_hs l =? l_c l) then Ok false
              else p <- us_mul (l_h l) (l_hs l) ;; Ok (p =? l_ws l)
           else Ok true.

(** enum flat::Error (flat.rs:1011-1047) *)
Inductive flat_error := NormalFormRequired | ChannelCountMismatch | TooLarge.

Section Views.
Context {S : Type}.
(** [c] = P::CHANNEL_COUNT *)
Variable c : Z.

(** FlatSamples { samples, layout }: flat.rs:83-98.  Also the contents of View / ViewMut. *)
Record flat := mkFlat { samples : list S; lay : layout }.

(** as_view / as_view_with_mut_samples: flat.rs:608-632, 650-675 *)
Definition as_view (f : flat) : flat_error + flat :=
  if negb (l_c (lay f) =? c) then inl ChannelCountMismatch
  else if negb (fits (lay f) (zlen (samples f))) then inl TooLarge
  else inr f.
(** as_view_mut: flat.rs:688-716 *)
Definition as_view_mut (f : flat) : res (flat_error + flat) :=
  n <- is_normal (lay f) PixelPacked ;;
  if negb n then Ok (inl NormalFormRequired)
  else Ok (as_view f).
(** View::try_upgrade: flat.rs:1211-1224 *)
Definition try_upgrade (v : flat) : res (flat_error + flat) :=
  n <- is_normal (lay v) PixelPacked ;;
  if negb n then Ok (inl NormalFormRequired) else Ok (inr v).
(** try_into_buffer: flat.rs:780-806 *)
Definition try_into_buffer (f : flat) : res (flat_error + ibuf S) :=
  n <- is_normal (lay f) RowMajorPacked ;;
  if negb n then Ok (inl NormalFormRequired)
  else if negb (l_c (lay f) =? c) then Ok (inl ChannelCountMismatch)
  else if negb (fits (lay f) (zlen (samples f))) then Ok (inl TooLarge)
  else match from_raw c (l_w (lay f)) (l_h (lay f)) (samples f) with
       | Some b => Ok (inr b)
       | None => Panic
       end.

(** slice indexing *)
Definition at_ (l : list S) (i : Z) : res S := match zget l i with Some v => Ok v | None => Panic end.
(** View::get_pixel / ViewMut::get_pixel: flat.rs:1396-1417, 1430-1451: the loop over the first
    CHANNEL_COUNT entries of a 256-element array *)
Definition view_get_pixel (v : flat) (x y : Z) : res (list S) :=
  if negb (in_bounds (lay v) 0 x y) then Panic
  else base <- in_bounds_index (lay v) 0 x y ;;
       foldM (fun acc ch => o <- us_mul ch (l_cs (lay v)) ;; i <- us_add base o ;;
                            s <- at_ (samples v) i ;; Ok (acc ++ [s])) (zrange 0 c) [].
(** View::get_sample: flat.rs:1123-1131 (None = out of bounds) *)
Definition view_get_sample (v : flat) (ch x y : Z) : res (option S) :=
  if negb (in_bounds (lay v) ch x y) then Ok None
  else i <- in_bounds_index (lay v) ch x y ;; Ok (zget (samples v) i).
(** ViewMut::put_pixel through get_pixel_mut: flat.rs:1456-1471 *)
Definition view_put_pixel (v : flat) (x y : Z) (p : list S) : res flat :=
  if negb (in_bounds (lay v) 0 x y) then Panic
  else base <- in_bounds_index (lay v) 0 x y ;;
       hi <- us_add base c ;;
       _ <- slice_range (samples v) base hi ;;
       Ok (mkFlat (zsplice (samples v) base p) (lay v)).

(** ImageBuffer::into_flat_samples / as_flat_samples: buffer.rs:842-886 with sample_layout,
    buffer.rs:893-896 *)
Definition into_flat_samples (b : ibuf S) : res flat :=
  l <- row_major_packed c (bw b) (bh b) ;; Ok (mkFlat (data b) l).
End Views.
Arguments flat : clear implicits.
Arguments mkFlat {S} samples lay.
Arguments samples {S} f.
Arguments lay {S} f.

(** with_monocolor: flat.rs:954-972 *)
Definition with_monocolor {S} (p : list S) (w h : Z) : flat S :=
  mkFlat p (mkLayout (zlen p) 1 w 0 h 0).
