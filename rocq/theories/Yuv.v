(** AVIF: YUV planes to RGBA.  /repo/src/codecs/avif/yuv.rs and the part of decoder.rs that follows dav1d.
    CHANNELS is 4 in every instantiation and is fixed here. *)
From Coq Require Import ZArith Bool List.
From Verif Require Import Base Float Color ColorF.
Import ListNotations.
Local Open Scope Z_scope.

Inductive yuv_range := Tv | Pc.
Inductive yuv_matrix := Bt601 | Bt709 | Bt2020 | Smpte240 | Bt470_6 | Identity.
Definition is_identity (m : yuv_matrix) : bool := match m with Identity => true | _ => false end.

(** an f32 literal written n/d in decimal: the nearest f32 (both operands are exact) *)
Definition f32_lit (n d : Z) : f32 := f32_div (f32_of_Z n) (f32_of_Z d).
(** get_kr_kb: yuv.rs:213-237; Identity is unreachable!() *)
Definition kr_kb (m : yuv_matrix) : res (f32 * f32) :=
  match m with
  | Bt601 => Ok (f32_lit 299 1000, f32_lit 114 1000)
  | Bt709 => Ok (f32_lit 2126 10000, f32_lit 722 10000)
  | Bt2020 => Ok (f32_lit 2627 10000, f32_lit 593 10000)
  | Smpte240 => Ok (f32_lit 87 1000, f32_lit 212 1000)
  | Bt470_6 => Ok (f32_lit 2220 10000, f32_lit 713 10000)
  | Identity => Panic
  end.
(** YuvChromaRange, get_yuv_range: yuv.rs:164-192 *)
Record chroma_range := mkRange { bias_y : Z; bias_uv : Z; range_y : Z; range_uv : Z }.
Definition get_range (r : yuv_range) (d : Z) : chroma_range :=
  match r with
  | Tv => mkRange (Z.shiftl 16 (d - 8)) (Z.shiftl 1 (d - 1)) (Z.shiftl 219 (d - 8)) (Z.shiftl 224 (d - 8))
  | Pc => mkRange 0 (Z.shiftl 1 (d - 1)) (Z.shiftl 1 d - 1) (Z.shiftl 1 d - 1)
  end.
(** CbCrInverseTransform<i32>, to_integers: yuv.rs:7-33 *)
Record transform := mkTr { yc : Z; crc : Z; cbc : Z; g1 : Z; g2 : Z }.
Definition as_i32 (x : f32) : Z := f32_as (-2147483648) 2147483647 x.
Definition to_integer (prec : Z) (x : f32) : Z := as_i32 (f32_mul x (f32_of_Z (Z.shiftl 1 prec))).
(** get_inverse_transform: yuv.rs:126-150; Panic is the assert_ne! on kg *)
Definition inverse_transform (full ry ruv : Z) (kr kb : f32) (prec : Z) : res transform :=
  let two := f32_of_Z 2 in
  let ruv := f32_div (f32_of_Z full) (f32_of_Z ruv) in
  let y := f32_div (f32_of_Z full) (f32_of_Z ry) in
  let cr := f32_mul (f32_mul two (f32_sub f32_one kr)) ruv in
  let cb := f32_mul (f32_mul two (f32_sub f32_one kb)) ruv in
  let kg := f32_sub (f32_sub f32_one kr) kb in
  if f32_eq kg f32_zero then Panic
  else let c1 := f32_mul (f32_mul two (f32_div (f32_mul (f32_sub f32_one kr) kr) kg)) ruv in
       let c2 := f32_mul (f32_mul two (f32_div (f32_mul (f32_sub f32_one kb) kb) kg)) ruv in
       Ok (mkTr (to_integer prec y) (to_integer prec cr) (to_integer prec cb) (to_integer prec c1) (to_integer prec c2)).
Definition PRECISION : Z := 11.
(** the transform for a matrix, range and bit depth: yuv.rs:398-410, 675-684, 893-904, 1088-1097 *)
Definition transform_of (m : yuv_matrix) (r : yuv_range) (d : Z) : res transform :=
  '(kr, kb) <- kr_kb m ;; let rg := get_range r d in
  inverse_transform (Z.shiftl 1 d - 1) (range_y rg) (range_uv rg) kr kb PRECISION.

(** i32 arithmetic: a result out of range panics (a build with overflow checks) *)
Definition i32c (z : Z) : res Z := if (-2147483648 <=? z) && (z <=? 2147483647) then Ok z else Panic.
(** qrshr: yuv.rs:253-257 *)
Definition qrshr (d v : Z) : res Z := s <- i32c (v + Z.shiftl 1 (PRECISION - 1)) ;; Ok (clampz 0 (Z.shiftl 1 d - 1) (Z.shiftr s PRECISION)).
(** one pixel: yuv.rs:534-552 (the same lines are repeated at 555-572, 588-607, 1124-1144).  The casts to u8/u16 at the end do
    not change a value between 0 and 2^d - 1. *)
Definition yuv_pixel (d : Z) (t : transform) (rg : chroma_range) (y u v : Z) : res (list Z) :=
  a <- i32c (y - bias_y rg) ;; yv <- i32c (a * yc t) ;; cb <- i32c (u - bias_uv rg) ;; cr <- i32c (v - bias_uv rg) ;;
  r1 <- i32c (crc t * cr) ;; r2 <- i32c (yv + r1) ;; r <- qrshr d r2 ;;
  b1 <- i32c (cbc t * cb) ;; b2 <- i32c (yv + b1) ;; b <- qrshr d b2 ;;
  h1 <- i32c (g1 t * cr) ;; h2 <- i32c (yv - h1) ;; h3 <- i32c (g2 t * cb) ;; h4 <- i32c (h2 - h3) ;; g <- qrshr d h4 ;;
  Ok [r; g; b; Z.shiftl 1 d - 1].
(** grey pixels: yuv.rs:385-391 (full range: copied) and 422-429 *)
Definition grey_pixel (d : Z) (r : yuv_range) (t : transform) (rg : chroma_range) (y : Z) : res (list Z) :=
  match r with
  | Pc => Ok [y; y; y; Z.shiftl 1 d - 1]
  | Tv => a <- i32c (y - bias_y rg) ;; yv <- i32c (a * yc t) ;; v <- qrshr d yv ;; Ok [v; v; v; Z.shiftl 1 d - 1]
  end.
(** Identity matrix: yuv.rs:1267-1293 (limited range), 1294-1309 (full range: copied) *)
Definition gbr_coef (d : Z) : Z := as_i32 (f32_mul (f32_div (f32_of_Z (Z.shiftl 1 d - 1)) (f32_of_Z (range_y (get_range Tv d)))) (f32_of_Z (Z.shiftl 1 PRECISION))).
Definition gbr_chan (d c v : Z) : res Z := a <- i32c (v - bias_y (get_range Tv d)) ;; b <- i32c (a * c) ;; qrshr d b.
Definition gbr_pixel (d : Z) (r : yuv_range) (y u v : Z) : res (list Z) :=
  match r with
  | Pc => Ok [v; y; u; Z.shiftl 1 d - 1]
  | Tv => let c := gbr_coef d in rr <- gbr_chan d c v ;; gg <- gbr_chan d c y ;; bb <- gbr_chan d c u ;; Ok [rr; gg; bb; Z.shiftl 1 d - 1]
  end.

(** YuvPlanarImage: yuv.rs:240-249 *)
Record yuv_image := mkYuv { yp : list Z; ys : Z; up : list Z; us : Z; vp : list Z; vs : Z; yw : Z; yh : Z }.
(** check_yuv_plane_preconditions, check_rgb_preconditions: yuv.rs:85-123.  The product is taken in unbounded integers. *)
Definition check_len (l : list Z) (stride h : Z) : res unit := if zlen l =? stride * h then Ok tt else Err EDecoding.
(** slice::chunks_exact: panics for size 0 *)
Definition chunksR (n : Z) (l : list Z) : res (list (list Z)) := if n =? 0 then Panic else Ok (chunks_exact n l).
Definition combine3 {A B C} (a : list A) (b : list B) (c : list C) : list (A * B * C) := combine (combine a b) c.
(** &l[0..n] *)
Definition slice_to (l : list Z) (n : Z) : res (list Z) := if n <=? zlen l then Ok (firstn (Z.to_nat n) l) else Panic.
(** what consecutive writes from the start leave in a buffer *)
Definition overwrite (new old : list Z) : list Z := new ++ skipn (length new) old.

(** one row without chroma subsampling: yuv.rs:1121-1145, 1277-1291, 1296-1308; row without chroma: 383-392, 419-430 *)
Definition row444 (px : Z -> Z -> Z -> res (list Z)) (y u v old : list Z) : res (list Z) :=
  l <- map_res (fun '((a, b), c) => px a b c) (firstn (Z.to_nat (zlen old / 4)) (combine3 y u v)) ;; Ok (overwrite (concat l) old).
Definition row400 (px : Z -> res (list Z)) (y old : list Z) : res (list Z) :=
  l <- map_res px (firstn (Z.to_nat (zlen old / 4)) y) ;; Ok (overwrite (concat l) old).
(** process_halved_chroma_row: yuv.rs:495-611.  The output row has exactly 4*w samples: all are written (w/2 pairs and, for
    an odd width, the last pixel). *)
Definition halved_row (px : Z -> Z -> Z -> res (list Z)) (w : Z) (y u v : list Z) : res (list Z) :=
  y <- slice_to y w ;; u <- slice_to u ((w + 1) / 2) ;; v <- slice_to v ((w + 1) / 2) ;;
  l <- map_res (fun '((a, b), c) => match a with [a0; a1] => p0 <- px a0 b c ;; p1 <- px a1 b c ;; Ok (p0 ++ p1) | _ => Panic end)
         (combine3 (chunks_exact 2 y) u v) ;;
  r <- (if Z.odd w then map_res (fun '((a, b), c) => px a b c) (combine3 (skipn (Z.to_nat (w / 2 * 2)) y) (rev u) (rev v)) else Ok []) ;;
  Ok (concat l ++ concat r).

(** yuv400_to_rgbx_impl: yuv.rs:328-435 *)
Definition yuv400 (d : Z) (im : yuv_image) (rgb : list Z) (r : yuv_range) (m : yuv_matrix) : res (list Z) :=
  if is_identity m then Panic else
  _ <- check_len (yp im) (ys im) (yh im) ;; _ <- check_len rgb (yw im * 4) (yh im) ;;
  t <- (match r with Pc => Ok (mkTr 0 0 0 0 0) | Tv => transform_of m r d end) ;;
  yr <- chunksR (ys im) (yp im) ;; rr <- chunksR (yw im * 4) rgb ;;
  l <- map_res (fun '(y, old) => row400 (grey_pixel d r t (get_range r d)) y old) (combine yr rr) ;; Ok (overwrite (concat l) rgb).
(** yuv444_to_rgbx_impl, gbr_to_rgbx_impl: yuv.rs:1042-1149, 1213-1313; the choice: 970-981, 994-1005, 1018-1029 *)
Definition rows444 (px : Z -> Z -> Z -> res (list Z)) (im : yuv_image) (rgb : list Z) : res (list Z) :=
  yr <- chunksR (ys im) (yp im) ;; rr <- chunksR (yw im * 4) rgb ;; ur <- chunksR (us im) (up im) ;; vr <- chunksR (vs im) (vp im) ;;
  l <- map_res (fun '(((y, u), v), old) => row444 px y u v old) (combine (combine3 yr ur vr) rr) ;; Ok (overwrite (concat l) rgb).
Definition yuv444 (d : Z) (im : yuv_image) (rgb : list Z) (r : yuv_range) (m : yuv_matrix) : res (list Z) :=
  _ <- check_len (yp im) (ys im) (yh im) ;; _ <- check_len (up im) (us im) (yh im) ;; _ <- check_len (vp im) (vs im) (yh im) ;;
  _ <- check_len rgb (yw im * 4) (yh im) ;;
  if is_identity m then rows444 (gbr_pixel d r) im rgb
  else t <- transform_of m r d ;; rows444 (yuv_pixel d t (get_range r d)) im rgb.
(** yuv422_to_rgbx_impl: yuv.rs:845-959 *)
Definition yuv422 (d : Z) (im : yuv_image) (rgb : list Z) (r : yuv_range) (m : yuv_matrix) : res (list Z) :=
  if is_identity m then Panic else
  _ <- check_len (yp im) (ys im) (yh im) ;; _ <- check_len (up im) (us im) (yh im) ;; _ <- check_len (vp im) (vs im) (yh im) ;;
  _ <- check_len rgb (yw im * 4) (yh im) ;; t <- transform_of m r d ;;
  yr <- chunksR (ys im) (yp im) ;; rr <- chunksR (yw im * 4) rgb ;; ur <- chunksR (us im) (up im) ;; vr <- chunksR (vs im) (vp im) ;;
  l <- map_res (fun '(((y, u), v), old) => halved_row (yuv_pixel d t (get_range r d)) (yw im) y u v) (combine (combine3 yr ur vr) rr) ;;
  Ok (overwrite (concat l) rgb).
(** yuv420_to_rgbx: yuv.rs:624-774.  Rows are taken in pairs; the row left over by an odd height is the last one, with the
    last row of chroma *)
Definition yuv420 (d : Z) (im : yuv_image) (rgb : list Z) (r : yuv_range) (m : yuv_matrix) : res (list Z) :=
  if is_identity m then Panic else let ch := (yh im + 1) / 2 in
  _ <- check_len (yp im) (ys im) (yh im) ;; _ <- check_len (up im) (us im) ch ;; _ <- check_len (vp im) (vs im) ch ;;
  _ <- check_len rgb (yw im * 4) (yh im) ;; t <- transform_of m r d ;;
  let row := halved_row (yuv_pixel d t (get_range r d)) (yw im) in let st := yw im * 4 in
  y2 <- chunksR (ys im * 2) (yp im) ;; rr2 <- chunksR (st * 2) rgb ;; ur <- chunksR (us im) (up im) ;; vr <- chunksR (vs im) (vp im) ;;
  l <- map_res (fun '(((y, u), v), old) =>
         a <- chunksR (ys im) y ;; o <- chunksR st old ;;
         q <- map_res (fun '(y1, _) => row y1 u v) (combine a o) ;; Ok (overwrite (concat q) old)) (combine (combine3 y2 ur vr) rr2) ;;
  let rgb := overwrite (concat l) rgb in
  a <- chunksR (ys im) (skipn (Z.to_nat (zlen (yp im) / (ys im * 2) * (ys im * 2))) (yp im)) ;; o <- chunksR st rgb ;;
  foldM (fun rgb '(((y1, u), v), i) => p <- row y1 u v ;; Ok (zsplice rgb (i * st) p))
    (combine (combine3 a (rev ur) (rev vr)) (rev (zrange 0 (zlen o)))) rgb.

(** PixelLayout and the dispatch on it: decoder.rs:374-379, 486-515 *)
Inductive layout := I400 | I420 | I422 | I444.
Definition is_400 (l : layout) : bool := match l with I400 => true | _ => false end.
Definition is_444 (l : layout) : bool := match l with I444 => true | _ => false end.
Definition worker (l : layout) := match l with I400 => yuv400 | I420 => yuv420 | I422 => yuv422 | I444 => yuv444 end.

(** dav1d::pixel::MatrixCoefficients, as listed in get_matrix: decoder.rs:232-305 *)
Inductive coefficients :=
  | MCIdentity | MCBT709 | MCUnspecified | MCReserved | MCBT470M | MCBT470BG | MCST170M | MCST240M | MCYCgCo
  | MCBT2020NCL | MCBT2020CL | MCST2085 | MCChromaCL | MCChromaNCL | MCICtCp.
Definition get_matrix (c : coefficients) : res yuv_matrix :=
  match c with
  | MCIdentity => Ok Identity
  | MCBT709 => Ok Bt709
  | MCUnspecified => Ok Bt709
  | MCBT470M => Ok Bt470_6
  | MCBT470BG => Ok Bt601
  | MCST170M => Ok Smpte240
  | MCST240M => Ok Smpte240
  | MCBT2020NCL => Ok Bt2020
  | MCReserved | MCYCgCo | MCBT2020CL | MCST2085 | MCChromaCL | MCChromaNCL | MCICtCp => Err EUnsupported
  end.

(** a plane as dav1d returns it: its bytes, the distance between rows in bytes, and whether the memory is aligned for u16
    (which decides whether bytemuck::try_cast_slice succeeds) *)
Record plane := mkPlane { data : list Z; stride : Z; aligned : bool }.
(** u16::from_ne_bytes and u16::to_ne_bytes; [big] is the endianness of the machine *)
Definition u16_ne (big : bool) (a b : Z) : Z := if big then a * 256 + b else b * 256 + a.
Definition ne_u16 (big : bool) (v : Z) : list Z := if big then [v / 256; v mod 256] else [v mod 256; v / 256].
(** bytemuck::cast_slice from bytes to u16, and src_row.chunks_exact(2) with from_ne_bytes *)
Definition pairs (big : bool) (l : list Z) : list Z :=
  map (fun c => match c with [a; b] => u16_ne big a b | _ => 0 end) (chunks_exact 2 l).
(** reshape_plane: decoder.rs:115-127 *)
Definition reshape (big : bool) (src : list Z) (st w h : Z) : res (list Z) :=
  let target := repeat 0 (Z.to_nat (w * h)) in
  tr <- chunksR w target ;; sr <- chunksR st src ;;
  Ok (overwrite (concat (map (fun '(dst, row) => overwrite (firstn (Z.to_nat (zlen dst)) (pairs big row)) dst) (combine tr sr))) target).
(** transmute_y_plane16, transmute_chroma_plane16: decoder.rs:143-230; [w] and [h] are the size of the plane in samples *)
Definition view16 (big : bool) (p : plane) (w h : Z) : res (list Z * Z) :=
  if Z.even (stride p) && (aligned p && Z.even (zlen (data p))) then Ok (pairs big (data p), Z.shiftr (stride p) 1)
  else d <- reshape big (data p) (stride p) w h ;; Ok (d, w).
(** the size of a chroma plane: decoder.rs:196-205 *)
Definition chroma_w (l : layout) (w : Z) : Z := match l with I420 | I422 => (w + 1) / 2 | _ => w end.
Definition chroma_h (l : layout) (h : Z) : Z := match l with I420 => (h + 1) / 2 | _ => h end.

(** the alpha plane over the alpha samples: decoder.rs:395-402, 535-542 *)
Definition alpha_row (a old : list Z) : list Z :=
  let l := map (fun '(p, x) => zset p 3 x) (combine (chunks_exact 4 old) a) in overwrite (concat l) old.
Definition put_alpha (w : Z) (pl : list Z) (st : Z) (rgb : list Z) : res (list Z) :=
  rr <- chunksR (w * 4) rgb ;; ar <- chunksR st pl ;;
  Ok (overwrite (concat (map (fun '(old, a) => alpha_row a old) (combine rr ar))) rgb).

(** the pictures dav1d returned: AvifDecoder, decoder.rs:27-32.  The depth of the alpha picture is not looked at. *)
Record picture := mkPic { depth : Z; pw : Z; ph : Z; lay : layout; rng : yuv_range; mc : coefficients;
  py : plane; pu : plane; pv : plane; alpha : option (layout * plane) }.
(** process_16bit_picture: decoder.rs:430-552 *)
Definition expand (d v : Z) : Z := let k := 16 - d in Z.lor (wrap_u16 (Z.shiftl v k)) (Z.shiftr v (16 - k)).
Definition process16 (big : bool) (p : picture) (m : yuv_matrix) (target : list Z) : res (list Z) :=
  '(y, sy) <- view16 big (py p) (pw p) (ph p) ;;
  '(u, su) <- (if is_400 (lay p) then Ok ([], 0) else view16 big (pu p) (chroma_w (lay p) (pw p)) (chroma_h (lay p) (ph p))) ;;
  '(v, sv) <- (if is_400 (lay p) then Ok ([], 0) else view16 big (pv p) (chroma_w (lay p) (pw p)) (chroma_h (lay p) (ph p))) ;;
  rgb <- worker (lay p) (if depth p =? 10 then 10 else 12) (mkYuv y sy u su v sv (pw p) (ph p)) target (rng p) m ;;
  rgb <- (match alpha p with
          | None => Ok rgb
          | Some (l, a) => if is_400 l then '(pl, st) <- view16 big a (pw p) (ph p) ;; put_alpha (pw p) pl st rgb else Err EDecoding
          end) ;;
  Ok (map (expand (depth p)) rgb).
(** read_image: decoder.rs:324-422.  [al] tells whether the caller's buffer is aligned for u16. *)
Definition read_image (big al : bool) (p : picture) (buf : list Z) : res (list Z) :=
  let b := if depth p =? 8 then 1 else 2 in
  if negb (zlen buf =? pw p * ph p * (4 * b)) then Panic
  else if negb ((depth p =? 8) || (depth p =? 10) || (depth p =? 12)) then Panic
  else if (pw p =? 0) || (ph p =? 0) then Err ELimits
  else m <- get_matrix (mc p) ;;
  if is_identity m && negb (is_444 (lay p)) then Err EDecoding
  else if depth p =? 8 then
    let im := mkYuv (data (py p)) (stride (py p)) (data (pu p)) (stride (pu p)) (data (pv p)) (stride (pv p)) (pw p) (ph p) in
    rgb <- worker (lay p) 8 im buf (rng p) m ;;
    match alpha p with
    | None => Ok rgb
    | Some (l, a) => if is_400 l then put_alpha (pw p) (data a) (stride a) rgb else Err EDecoding
    end
  else if al then out <- process16 big p m (pairs big buf) ;; Ok (concat (map (ne_u16 big) out))
  else out <- process16 big p m (repeat 0 (Z.to_nat (zlen buf / 2))) ;; Ok (overwrite (concat (map (ne_u16 big) out)) buf).
