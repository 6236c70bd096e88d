(** Floyd-Steinberg error diffusion, as a recursive equation *)
From Coq Require Import ZArith Bool.
From Verif Require Import Base.
Local Open Scope Z_scope.

(** [p] with factor/16 of the error [old - new] added to each of its (at most three first) channels, kept in 0..255 *)
Definition add_error (factor : Z) (old new p : list Z) : list Z :=
  map (fun '(c, (o, n)) => clampz 0 255 (c + Z.quot ((o - n) * factor) 16)) (combine (firstn 3 p) (combine old new)) ++ skipn 3 p.
(** the pixels whose errors reach (x, y), in the order they are visited, with their factors *)
Definition sources (w : Z) (x y : Z) : list (Z * Z * Z) :=
  filter (fun '(x', y', _) => (0 <=? x') && (x' <? w) && (0 <=? y')) [(x - 1, y - 1, 1); (x, y - 1, 5); (x + 1, y - 1, 3); (x - 1, y, 7)].
(** [seen x y] is the value of (x, y) when it is visited, if the image was [orig] and a colour c becomes [map_color c] *)
Definition diffused (w h : Z) (map_color : list Z -> list Z) (orig seen : Z -> Z -> list Z) : Prop :=
  forall x y, 0 <= x < w -> 0 <= y < h ->
    seen x y = fold_left (fun p '(x', y', f) => add_error f (seen x' y') (map_color (seen x' y')) p) (sources w x y) (orig x y).
