(** Model of ImageBuffer at the level of its flat sample container (src/buffer.rs) and of the
    generic pixel iterator (src/image.rs:840-872).  [c] is P::CHANNEL_COUNT; a pixel is the list
    of its c samples; usize is 64 bits.  [Panic] includes arithmetic overflow (debug build). *)
From Verif Require Import Base.

(** usize / u32 arithmetic with overflow checks *)
Definition us_mul (a b : Z) : res Z := if a * b <=? u64_max then Ok (a * b) else Panic.
Definition us_add (a b : Z) : res Z := if a + b <=? u64_max then Ok (a + b) else Panic.
Definition u32_add (a b : Z) : res Z := if a + b <=? u32_max then Ok (a + b) else Panic.
Definition u32_sub (a b : Z) : res Z := if b <=? a then Ok (a - b) else Panic.
Definition us_cmul (a b : Z) : option Z := if a * b <=? u64_max then Some (a * b) else None.
Definition us_sat_mul (a b : Z) : Z := Z.min u64_max (a * b).
Definition us_sat_add (a b : Z) : Z := Z.min u64_max (a + b).

(** struct ImageBuffer: buffer.rs:655-661 *)
Record ibuf (S : Type) := mkBuf { bw : Z; bh : Z; data : list S }.
Arguments mkBuf {S} bw bh data.
Arguments bw {S} i.
Arguments bh {S} i.
Arguments data {S} i.

Section Buf.
Context {S : Type}.
Variable c : Z.
Notation pix := (list S).

(** image_buffer_len: buffer.rs:807-811 *)
Definition image_buffer_len (w h : Z) : option Z :=
  match us_cmul c w with Some s => us_cmul s h | None => None end.
(** check_image_fits: buffer.rs:802-805 *)
Definition check_image_fits (w h len : Z) : bool :=
  match image_buffer_len w h with Some m => m <=? len | None => false end.
(** from_raw: buffer.rs:674-685 *)
Definition from_raw (w h : Z) (buf : list S) : option (ibuf S) :=
  if check_image_fits w h (zlen buf) then Some (mkBuf w h buf) else None.

(** &data[a..b]: panics unless a <= b <= len *)
Definition slice_range (l : list S) (a b : Z) : res (list S) :=
  if (a <=? b) && (b <=? zlen l) then Ok (zslice l a (b - a)) else Panic.

(** pixel_indices_unchecked: buffer.rs:823-829 *)
Definition pixel_indices_unchecked (b : ibuf S) (x y : Z) : res (Z * Z) :=
  t <- us_mul y (bw b) ;; t <- us_add t x ;; lo <- us_mul t c ;; hi <- us_add lo c ;; Ok (lo, hi).
(** pixel_indices: buffer.rs:814-820 *)
Definition pixel_indices (b : ibuf S) (x y : Z) : res (option (Z * Z)) :=
  if (bw b <=? x) || (bh b <=? y) then Ok None
  else r <- pixel_indices_unchecked b x y ;; Ok (Some r).
(** get_pixel: buffer.rs:769-780 *)
Definition bget (b : ibuf S) (x y : Z) : res pix :=
  r <- pixel_indices b x y ;;
  match r with None => Panic | Some (lo, hi) => slice_range (data b) lo hi end.
(** put_pixel: buffer.rs:982-984 through get_pixel_mut, 947-958 *)
Definition bput (b : ibuf S) (x y : Z) (p : pix) : res (ibuf S) :=
  r <- pixel_indices b x y ;;
  match r with
  | None => Panic
  | Some (lo, hi) => _ <- slice_range (data b) lo hi ;;
                     Ok (mkBuf (bw b) (bh b) (zsplice (data b) lo p))
  end.
(** get_pixel_checked: buffer.rs:782-796; slice::get(a..b) is None when out of range *)
Definition bget_checked (b : ibuf S) (x y : Z) : option pix :=
  if bw b <=? x then None
  else
    let i := us_sat_mul (us_sat_add (us_sat_mul y (bw b)) x) c in
    if i + c <=? u64_max
    then (if (i + c <=? zlen (data b)) then Some (zslice (data b) i c) else None)
    else None.

(** inner_pixels: buffer.rs:709-712 *)
Definition inner_pixels (b : ibuf S) : res (list S) :=
  match image_buffer_len (bw b) (bh b) with
  | None => Panic
  | Some len => slice_range (data b) 0 len
  end.

(** core::slice::ChunksExact: the state is the not yet visited part, cut to a multiple of n *)
Definition ce_new (n : Z) (l : list S) : res (list S) :=
  if n =? 0 then Panic else Ok (firstn (Z.to_nat (zlen l / n * n)) l).
Definition ce_next (n : Z) (v : list S) : option (list S) * list S :=
  if zlen v <? n then (None, v) else (Some (zslice v 0 n), skipn (Z.to_nat n) v).
Definition ce_next_back (n : Z) (v : list S) : option (list S) * list S :=
  if zlen v <? n then (None, v)
  else (Some (zslice v (zlen v - n) n), firstn (Z.to_nat (zlen v - n)) v).
Definition ce_len (n : Z) (v : list S) : Z := zlen v / n.

(** Pixels: buffer.rs:20-62; pixels(): 716-722.  Item = one chunk. *)
Definition pixels (b : ibuf S) : res (list S) := l <- inner_pixels b ;; ce_new c l.
Definition pixels_next := ce_next c.
Definition pixels_next_back := ce_next_back c.
Definition pixels_len := ce_len c.

(** Rows::with_image: buffer.rs:157-174; rows(): 729-731.  State: (row length, chunks) *)
Definition rows (b : ibuf S) : res (Z * list S) :=
  row_len <- us_mul (bw b) c ;;
  if row_len =? 0 then v <- ce_new 1 [] ;; Ok (1, v)
  else n <- us_mul row_len (bh b) ;;
       if n <=? zlen (data b) then v <- ce_new row_len (zslice (data b) 0 n) ;; Ok (row_len, v)
       else Panic.
(** Rows::next / next_back: buffer.rs:183-190, 211-217; each row is a Pixels iterator *)
Definition rows_next (s : Z * list S) : res (option (list S) * (Z * list S)) :=
  match ce_next (fst s) (snd s) with
  | (None, v) => Ok (None, (fst s, v))
  | (Some row, v) => p <- ce_new c row ;; Ok (Some p, (fst s, v))
  end.
Definition rows_next_back (s : Z * list S) : res (option (list S) * (Z * list S)) :=
  match ce_next_back (fst s) (snd s) with
  | (None, v) => Ok (None, (fst s, v))
  | (Some row, v) => p <- ce_new c row ;; Ok (Some p, (fst s, v))
  end.
Definition rows_len (s : Z * list S) : Z := ce_len (fst s) (snd s).

(** EnumeratePixels: buffer.rs:330-368; enumerate_pixels(): 738-745 *)
Record enumst := mkEnum { e_px : list S; e_x : Z; e_y : Z; e_w : Z }.
Definition enumerate_pixels (b : ibuf S) : res enumst :=
  p <- pixels b ;; Ok (mkEnum p 0 0 (bw b)).
Definition enum_next (s : enumst) : res (option (Z * Z * pix) * enumst) :=
  xy <- (if e_w s <=? e_x s then y <- u32_add (e_y s) 1 ;; Ok (0, y) else Ok (e_x s, e_y s)) ;;
  let (x, y) := xy : Z * Z in
  x' <- u32_add x 1 ;;
  let (o, v) := pixels_next (e_px s) in
  Ok (match o with Some p => Some (x, y, p) | None => None end, mkEnum v x' y (e_w s)).
Definition enum_len (s : enumst) : Z := pixels_len (e_px s).

(** EnumerateRows: buffer.rs:395-433; enumerate_rows(): 750-756 *)
Definition enum_rows_next (w : Z) (s : (Z * list S) * Z) : res (option (Z * enumst) * ((Z * list S) * Z)) :=
  let (r, y) := s in
  y' <- u32_add y 1 ;;
  '(o, r') <- rows_next r ;;
  Ok (match o with Some p => Some (y, mkEnum p 0 y w) | None => None end, (r', y')).

(** new: buffer.rs:1272-1281 *)
Definition bnew (zero : S) (w h : Z) : res (ibuf S) :=
  match image_buffer_len w h with
  | None => Panic
  | Some n => Ok (mkBuf w h (repeat zero (Z.to_nat n)))
  end.

(** A `for p in pixels_mut()` loop that overwrites every item; [g] is the loop body, threading
    the closure's state.  [todo] is what ChunksExactMut has not handed out yet. *)
Fixpoint mut_loop {St} (fuel : nat) (g : St -> pix * St) (done todo : list S) (st : St) : list S * St :=
  match fuel with
  | O => (done ++ todo, st)
  | Datatypes.S f =>
      if zlen todo <? c then (done ++ todo, st)
      else let (p, st') := g st in mut_loop f g (done ++ p) (skipn (Z.to_nat c) todo) st'
  end.
(** from_pixel: buffer.rs:1288-1294 *)
Definition from_pixel (zero : S) (w h : Z) (p : pix) : res (ibuf S) :=
  b <- bnew zero w h ;;
  l <- inner_pixels b ;;
  if c =? 0 then Panic else
  let (d, _) := mut_loop (length l) (fun _ : unit => (p, tt)) [] l tt in
  Ok (mkBuf w h d).
(** EnumeratePixelsMut::next (buffer.rs:480-489) inside from_fn (1303-1312): the coordinate state is
    threaded with the state of the user's closure f *)
Definition enum_step {F} (w : Z) (f : F -> Z -> Z -> pix * F) (st : Z * Z * F) : pix * (Z * Z * F) :=
  let '(x, y, fs) := st in
  let (x, y) := if w <=? x then (0, y + 1) else (x, y) in
  let (p, fs') := f fs x y in (p, (x + 1, y, fs')).
Definition from_fn {F} (zero : S) (w h : Z) (f : F -> Z -> Z -> pix * F) (fs : F) : res (ibuf S * F) :=
  b <- bnew zero w h ;;
  l <- inner_pixels b ;;
  if c =? 0 then Panic else
  let '(d, (_, _, fs')) := mut_loop (length l) (enum_step w f) [] l (0, 0, fs) in
  Ok (mkBuf w h d, fs').

(** slice::copy_within(start..end, dst): panics if the range or the destination exceeds the slice *)
Definition slice_copy_within (l : list S) (a b dst : Z) : res (list S) :=
  if (a <=? b) && (b <=? zlen l) && (dst <=? zlen l - (b - a))
  then Ok (zsplice l dst (zslice l a (b - a))) else Panic.
(** one iteration of the loops of ImageBuffer::copy_within: buffer.rs:1233-1240 / 1243-1250 *)
Definition bcopy_row (w sx sy dx dy : Z) (b : ibuf S) (y : Z) : res (ibuf S) :=
  sy <- u32_add sy y ;; dy <- u32_add dy y ;;
  r1 <- pixel_indices_unchecked b sx sy ;;
  e <- u32_add sx w ;; e <- u32_sub e 1 ;;
  r2 <- pixel_indices_unchecked b e sy ;;
  r3 <- pixel_indices_unchecked b dx dy ;;
  d <- slice_copy_within (data b) (fst r1) (snd r2) (fst r3) ;;
  Ok (mkBuf (bw b) (bh b) d).
(** ImageBuffer::copy_within: buffer.rs:1219-1253 *)
Definition bcopy_within (b : ibuf S) (sx sy w h dx dy : Z) : res (bool * ibuf S) :=
  if negb ((sx <? bw b) && (dx <? bw b)) then Panic else
  if negb ((sy <? bh b) && (dy <? bh b)) then Panic else
  if (bw b - Z.max dx sx <? w) || (bh b - Z.max dy sy <? h) then Ok (false, b)
  else
    b' <- foldM (bcopy_row w sx sy dx dy) (if sy <? dy then rev (zrange 0 h) else zrange 0 h) b ;;
    Ok (true, b').
End Buf.

(** GenericImageView::pixels(): image.rs:840-872, 932-943, over any get_pixel.
    State: (x, y). *)
Definition gpix_next {P} (get : Z -> Z -> res P) (w h : Z) (s : Z * Z)
  : res (option (Z * Z * P) * (Z * Z)) :=
  xy <- (if w <=? fst s then y <- u32_add (snd s) 1 ;; Ok (0, y) else Ok s) ;;
  let (x, y) := xy : Z * Z in
  if h <=? y then Ok (None, (x, y))
  else p <- get x y ;; x' <- u32_add x 1 ;; Ok (Some (x, y, p), (x', y)).

(** the abstraction: an ImageBuffer as an image of pixels (lists of c samples) *)
Definition to_img {S} (c : Z) (b : ibuf S) : img (list S) :=
  mkImg (bw b) (bh b) (chunks_exact c (zslice (data b) 0 (bw b * bh b * c))).
