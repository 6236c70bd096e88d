(** Model of imageops::{overlay_bounds, overlay_bounds_ext, overlay, replace, tile}
    (src/imageops/mod.rs:138-266, 335-354).  Pixel blending is an arbitrary function [bl]
    (bottom pixel, top pixel); colour blending itself is in Blend.v. *)
From Verif Require Import Base.

Definition sat_add_u32 (a b : Z) : Z := Z.min u32_max (a + b).
Definition sat_sub_u32 (a b : Z) : Z := Z.max 0 (a - b).
Definition sat_i64 (z : Z) : Z := clampz i64_min i64_max z.
(** i64::clamp(lo, hi) *)
Definition clamp_i64 (lo hi z : Z) : Z := if z <? lo then lo else if hi <? z then hi else z.
(** `as u32` *)
Definition as_u32 (z : Z) : Z := wrap_u32 z.
Definition u32_subp (a b : Z) : res Z := if b <=? a then Ok (a - b) else Panic.

(** overlay_bounds: imageops/mod.rs:139-154 *)
Definition overlay_bounds (bw bh tw th x y : Z) : Z * Z :=
  (sat_sub_u32 (Z.min (sat_add_u32 tw x) bw) x, sat_sub_u32 (Z.min (sat_add_u32 th y) bh) y).

(** overlay_bounds_ext: imageops/mod.rs:172-217; the result tuple is
    (origin_bottom_x, origin_bottom_y, origin_top_x, origin_top_y, x_range, y_range) *)
Definition overlay_bounds_ext (bw bh tw th x y : Z) : res (Z * Z * Z * Z * Z * Z) :=
  if (bw <? x) || (bh <? y) || (sat_i64 (x + tw) <=? 0) || (sat_i64 (y + th) <=? 0)
  then Ok (0, 0, 0, 0, 0, 0)
  else
    let max_x := sat_i64 (x + tw) in
    let max_y := sat_i64 (y + th) in
    let max_inbounds_x := as_u32 (clamp_i64 0 bw max_x) in
    let max_inbounds_y := as_u32 (clamp_i64 0 bh max_y) in
    let origin_bottom_x := as_u32 (clamp_i64 0 bw x) in
    let origin_bottom_y := as_u32 (clamp_i64 0 bh y) in
    x_range <- u32_subp max_inbounds_x origin_bottom_x ;;
    y_range <- u32_subp max_inbounds_y origin_bottom_y ;;
    let origin_top_x := as_u32 (clamp_i64 0 tw (sat_i64 (x * -1))) in
    let origin_top_y := as_u32 (clamp_i64 0 th (sat_i64 (y * -1))) in
    Ok (origin_bottom_x, origin_bottom_y, origin_top_x, origin_top_y, x_range, y_range).

(** overlay: imageops/mod.rs:221-241 *)
Definition overlay {P} (bl : P -> P -> P) (bottom top : img P) (x y : Z) : res (img P) :=
  '(obx, oby, otx, oty, rw, rh) <- overlay_bounds_ext (iw bottom) (ih bottom) (iw top) (ih top) x y ;;
  for2 rw rh (fun s x y =>
    p <- get_pixel top (otx + x) (oty + y) ;;
    q <- get_pixel s (obx + x) (oby + y) ;;
    put_pixel s (obx + x) (oby + y) (bl q p)) bottom.

(** replace: imageops/mod.rs:335-354 *)
Definition replace {P} (bottom top : img P) (x y : Z) : res (img P) :=
  '(obx, oby, otx, oty, rw, rh) <- overlay_bounds_ext (iw bottom) (ih bottom) (iw top) (ih top) x y ;;
  for2 rw rh (fun s x y =>
    p <- get_pixel top (otx + x) (oty + y) ;;
    put_pixel s (obx + x) (oby + y) p) bottom.

(** (0..n).step_by(s): panics for s = 0 *)
Definition step_by (n s : Z) : res (list Z) :=
  if s =? 0 then Panic else Ok (map (fun k => k * s) (zrange 0 ((n + s - 1) / s))).
(** tile: imageops/mod.rs:256-266 *)
Definition tile {P} (bl : P -> P -> P) (bottom top : img P) : res (img P) :=
  xs <- step_by (iw bottom) (iw top) ;;
  foldM (fun s x =>
    ys <- step_by (ih bottom) (ih top) ;;
    foldM (fun s y => overlay bl s top x y) ys s) xs bottom.
