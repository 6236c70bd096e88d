(** Model of imageops::fast_blur (src/imageops/fast_blur.rs) for images with u8 or u16 samples.  An image is its width, its
    height and its raw samples, [n] to a pixel; usize and isize are 64 bits; f32 is Flocq's binary32.
    The products width * height and channel_size * channel_num do not overflow: the image's samples are that many. *)
From Coq Require Import ZArith Bool.
From Flocq Require Import IEEE754.BinarySingleNaN.
From Verif Require Import Base Color Float ColorF GenImage Buffer Thumb Sample Filter3.
Local Open Scope Z_scope.

(** v as isize, v an usize *)
Definition as_isize (v : Z) : Z := if v <=? i64_max then v else v - 2 ^ 64.
(** usize a - b: a panic in a debug build, wraps in a release build *)
Definition us_sub_m (m : mode) (a b : Z) : res Z :=
  if b <=? a then Ok (a - b) else match m with Debug => Panic | Release => Ok (a - b + 2 ^ 64) end.
(** l[i] and l[i] = v *)
Definition at_idx (l : list Z) (i : Z) : res Z := match zget l i with Some v => Ok v | None => Panic end.
Definition set_idx (l : list Z) (i v : Z) : res (list Z) := match zget l i with Some _ => Ok (zset l i v) | None => Panic end.

(** a % 2.0 == 0.0: a is finite and an even integer *)
Definition f32_even (a : f32) : bool := is_finite a && f32_eq (f32_trunc a) a && Z.even (Btrunc a).
(** boxes_for_gauss for n = 3: fast_blur.rs:43-59.  f32::powi(2) is x * x. *)
Definition box_low (sigma : f32) : f32 :=
  let ideal := f32_sqrt (f32_add (f32_div (f32_mul (f32_of_Z 12) (powi2 sigma)) (f32_of_Z 3)) f32_one) in
  let w := f32_floor ideal in if f32_even w then f32_sub w f32_one else w.
Definition box_count (sigma : f32) : Z :=
  let w := box_low sigma in
  let ideal := f32_sub (f32_mul (f32_mul (f32_dyadic 1 (-2)) (f32_of_Z 3)) (f32_add w (f32_of_Z 3)))
                       (f32_mul (f32_mul (f32_of_Z 3) (powi2 sigma)) (f32_recip (f32_add w f32_one))) in
  f32_as 0 u64_max (f32_round ideal).
Definition boxes_for_gauss (sigma : f32) : list Z :=
  map (fun i => if i <? box_count sigma then f32_as 0 u64_max (box_low sigma) else f32_as 0 u64_max (f32_add (box_low sigma) (f32_of_Z 2))) (zrange 0 3).

(** channel_idx: fast_blur.rs:61-63 *)
Definition channel_idx (channel idx n : Z) : Z := n * idx + channel.
(** extended_f: fast_blur.rs:140-153 *)
Definition extended_f (s : list Z) (w h x y channel n : Z) : res Z :=
  let x := clamp x 0 (w - 1) in let y := clamp y 0 (h - 1) in at_idx s (channel_idx channel (y * w + x) n).
(** the sum at the start of a row: fast_blur.rs:81-96 *)
Definition first_sum (s : list Z) (w h r n row channel : Z) : res f32 :=
  foldM (fun a x => v <- extended_f s w h x row channel n ;; Ok (f32_add a (f32_of_Z v))) (zrange (- r) (as_isize (r + 1) + r)) f32_zero.
(** the body of the innermost loop, for one channel whose running sum is v: fast_blur.rs:100-133.
    [cut]: num_traits::clamp and P::from(..).unwrap() *)
Definition blur_step (t : sty) (s : list Z) (w h r n row column : Z) (st : list Z * list f32) (cv : Z * f32) : res (list Z * list f32) :=
  let '(out, vals) := st in let '(channel, v) := cv in
  z <- cut t (f32_div v (f32_add (f32_mul (f32_of_Z 2) (f32_of_Z r)) f32_one)) ;;
  out <- set_idx out (channel_idx channel (row + column * h) n) z ;;
  a <- extended_f s w h (column - r) row channel n ;;
  b <- extended_f s w h (as_isize (column + r + 1)) row channel n ;;
  Ok (out, vals ++ [f32_add (f32_sub v (f32_of_Z a)) (f32_of_Z b)]).
(** one row: fast_blur.rs:80-135 *)
Definition blur_row (t : sty) (s : list Z) (w h r n : Z) (out : list Z) (row : Z) : res (list Z) :=
  vals <- map_res (first_sum s w h r n row) (zrange 0 n) ;;
  st <- foldM (fun st column => foldM (blur_step t s w h r n row column) (combine (zrange 0 n) (snd st)) (fst st, [])) (zrange 0 w) (out, vals) ;;
  Ok (fst st).
(** horizontal_fast_blur_half: fast_blur.rs:65-138 *)
Definition half (t : sty) (s : list Z) (w h r n : Z) : res (list Z) :=
  foldM (blur_row t s w h r n) (zrange 0 h) (repeat 0 (Z.to_nat (w * h * n))).
(** the passes: fast_blur.rs:19-39.  [m]: the subtraction *radius - 1 *)
Definition passes (m : mode) (t : sty) (n w h : Z) (widths s : list Z) : res (list Z) :=
  foldM (fun s width => d <- us_sub_m m width 1 ;; a <- half t s w h (d / 2) n ;; half t a h w (d / 2) n) widths s.
(** fast_blur: fast_blur.rs:10-41 *)
Definition fast_blur (m : mode) (t : sty) (n : Z) (b : ibuf Z) (sigma : f32) : res (ibuf Z) :=
  if (bw b =? 0) || (bh b =? 0) then Ok b
  else s <- passes m t n (bw b) (bh b) (boxes_for_gauss sigma) (data b) ;;
       match from_raw n (bw b) (bh b) s with Some o => Ok o | None => Panic end.
