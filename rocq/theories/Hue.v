(** Model of huerotate and huerotate_in_place (src/imageops/colorops.rs:221-348) on images with 8- or 16-bit samples, in f64 arithmetic.
    [cosd v] and [sind v] are what angle.to_radians().cos() and .sin() give for the angle v in degrees (std, the platform's libm). *)
From Coq Require Import ZArith Bool.
From Flocq Require Import IEEE754.BinarySingleNaN.
From Verif Require Import Base GenImage Color Float Thumb.
Local Open Scope Z_scope.

(** a literal of three decimals *)
Definition lit (n : Z) : f64 := f64_div (f64_of_Z n) (f64_of_Z 1000).
Definition f64_lt (a b : f64) : bool := Bltb a b.
(** clamp: utils/mod.rs:82-93 *)
Definition dclamp (a lo hi : f64) : f64 := if f64_lt a lo then lo else if f64_lt hi a then hi else a.
(** matrix: colorops.rs:234-247 and 298-311, by rows *)
Definition hue_matrix (c s : f64) : list (f64 * f64 * f64) :=
  [ (f64_sub (f64_add (lit 213) (f64_mul c (lit 787))) (f64_mul s (lit 213)),
     f64_sub (f64_sub (lit 715) (f64_mul c (lit 715))) (f64_mul s (lit 715)),
     f64_add (f64_sub (lit 72) (f64_mul c (lit 72))) (f64_mul s (lit 928)));
    (f64_add (f64_sub (lit 213) (f64_mul c (lit 213))) (f64_mul s (lit 143)),
     f64_add (f64_add (lit 715) (f64_mul c (lit 285))) (f64_mul s (lit 140)),
     f64_sub (f64_sub (lit 72) (f64_mul c (lit 72))) (f64_mul s (lit 283)));
    (f64_sub (f64_sub (lit 213) (f64_mul c (lit 213))) (f64_mul s (lit 787)),
     f64_add (f64_sub (lit 715) (f64_mul c (lit 715))) (f64_mul s (lit 715)),
     f64_add (f64_add (lit 72) (f64_mul c (lit 928))) (f64_mul s (lit 72))) ].
(** new_r, new_g, new_b: 264-266 *)
Definition hue_row (m : f64 * f64 * f64) (r g b : f64) : f64 :=
  let '(m0, m1, m2) := m in f64_add (f64_add (f64_mul m0 r) (f64_mul m1 g)) (f64_mul m2 b).
(** NumCast::from(clamp(v, 0.0, max)).unwrap(): 271-274 *)
Definition hue_cast (t : sty) (v : f64) : res Z :=
  match float_cast 53 1024 0 (smax t) (dclamp v (f64_of_Z 0) (f64_of_Z 255)) with Some z => Ok z | None => Panic end.
(** the body of the loop: 252-276 *)
Definition hue_pixel (t : sty) (k : kind) (c s : f64) (p : list Z) : res (list Z) :=
  match channels4 t p with
  | [k1; k2; k3; k4] =>
    let r := f64_of_Z k1 in let g := f64_of_Z k2 in let b := f64_of_Z k3 in
    rgb <- map_res (fun m => hue_cast t (hue_row m r g b)) (hue_matrix c s) ;;
    a <- hue_cast t (f64_of_Z k4) ;;
    Ok (from_channels k (rgb ++ [a]))
  | _ => Panic
  end.
Section Hue.
Variables cosd sind : Z -> f64.
(** huerotate: 221-279; the buffer `out` is filled in order *)
Definition huerotate (t : sty) (k : kind) (im : img (list Z)) (value : Z) : res (img (list Z)) :=
  for2 (iw im) (ih im) (fun out x y => p <- get_pixel im x y ;; q <- hue_pixel t k (cosd value) (sind value) p ;; put_pixel out x y q)
    (new_img (iw im) (ih im) (repeat 0 (Z.to_nat (nch k)))).
(** huerotate_in_place: 288-348 *)
Definition huerotate_in_place (t : sty) (k : kind) (im : img (list Z)) (value : Z) : res (img (list Z)) :=
  for2 (iw im) (ih im) (fun im x y => p <- get_pixel im x y ;; q <- hue_pixel t k (cosd value) (sind value) p ;; put_pixel im x y q) im.
End Hue.
