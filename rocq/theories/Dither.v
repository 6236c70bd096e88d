(** Model of Floyd-Steinberg dithering, index_colors and BiLevel (src/imageops/colorops.rs:351-545).
    A pixel is the list of its 1 to 4 u8 channels; a colour map is its [map_color] and [index_of] functions. *)
From Coq Require Import ZArith Bool.
From Verif Require Import Base.
Local Open Scope Z_scope.

(** BiLevel::index_of: colorops.rs:406-414 *)
Definition bilevel_index (p : list Z) : Z := if nth 0 p 0 >? 127 then 1 else 0.
(** BiLevel::lookup: colorops.rs:416-423 *)
Definition bilevel_lookup (i : Z) : option (list Z) := if i =? 0 then Some [0] else if i =? 1 then Some [255] else None.
(** BiLevel::map_color: colorops.rs:430-435 *)
Definition bilevel_map (p : list Z) : list Z := [255 * bilevel_index p].

(** diffuse_err: colorops.rs:464-472.  [err] has three entries, so only the first three channels change; `/` on i16 rounds
    towards zero.  With |error| <= 255 and factor <= 7 the i16 arithmetic cannot overflow. *)
Fixpoint diffuse (p err : list Z) (factor : Z) : list Z :=
  match p, err with
  | c :: p', e :: err' => let val := c + Z.quot (e * factor) 16 in (if val <? 0 then 0 else if val >? 255 then 255 else val) :: diffuse p' err' factor
  | _, _ => p
  end.
(** the new error array in do_dithering!: colorops.rs:480-485; entries past the pixel's channels keep their value *)
Fixpoint new_err (err old new : list Z) : list Z :=
  match err, old, new with
  | _ :: err', o :: old', n :: new' => (o - n) :: new_err err' old' new'
  | _, _, _ => err
  end.
Section dither.
  Variable map_color : list Z -> list Z.
  (** do_dithering!: colorops.rs:474-488 *)
  Definition do_dithering (s : img (list Z) * list Z) (x y : Z) : res (img (list Z) * list Z) :=
    let '(im, err) := s in
    old <- get_pixel im x y ;;
    im <- put_pixel im x y (map_color old) ;;
    Ok (im, new_err err old (map_color old)).
  (** diffuse_err(image.get_pixel_mut(x, y), err, factor) *)
  Definition spread (x y factor : Z) (s : img (list Z) * list Z) : res (img (list Z) * list Z) :=
    let '(im, err) := s in
    p <- get_pixel im x y ;;
    im <- put_pixel im x y (diffuse p err factor) ;;
    Ok (im, err).
  (** one row but the last: colorops.rs:500-517 *)
  Definition dither_row (width y : Z) (s : img (list Z) * list Z) : res (img (list Z) * list Z) :=
    s <- do_dithering s 0 y ;;
    s <- spread 1 y 7 s ;;
    s <- spread 0 (y + 1) 5 s ;;
    s <- spread 1 (y + 1) 1 s ;;
    s <- foldM (fun s x => s <- do_dithering s x y ;;
                           s <- spread (x + 1) y 7 s ;;
                           s <- spread (x - 1) (y + 1) 3 s ;;
                           s <- spread x (y + 1) 5 s ;;
                           spread (x + 1) (y + 1) 1 s) (zrange 1 (width - 2)) s ;;
    s <- do_dithering s (width - 1) y ;;
    s <- spread (width - 2) (y + 1) 3 s ;;
    spread (width - 1) (y + 1) 5 s.
  (** the last row: colorops.rs:519-528 *)
  Definition dither_last (width y : Z) (s : img (list Z) * list Z) : res (img (list Z) * list Z) :=
    s <- do_dithering s 0 y ;;
    s <- spread 1 y 7 s ;;
    s <- foldM (fun s x => s <- do_dithering s x y ;; spread (x + 1) y 7 s) (zrange 1 (width - 2)) s ;;
    do_dithering s (width - 1) y.
  (** dither: colorops.rs:492-529.  `height - 1` with height 0 panics with overflow checks, and without them the loop panics at its
      first access. *)
  Definition dither (im : img (list Z)) : res (img (list Z)) :=
    if ih im =? 0 then Panic
    else
      s <- foldM (fun s y => dither_row (iw im) y s) (zrange 0 (ih im - 1)) (im, [0; 0; 0]) ;;
      s <- dither_last (iw im) (ih im - 1) s ;;
      Ok (fst s).
End dither.
(** index_colors: colorops.rs:531-545; `as u8` wraps *)
Definition index_colors (index_of : list Z -> Z) (im : img (list Z)) : img (list Z) :=
  mkImg (iw im) (ih im) (map (fun p => [wrap_u8 (index_of p)]) (px im)).
