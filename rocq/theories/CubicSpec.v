(** The Catmull-Rom kernel, in real numbers *)
From Coq Require Import ZArith Reals.
From Verif Require Import Base.
Local Open Scope R_scope.

(** the cubic convolution kernel with a = -1/2 (Keys; the cubic of Mitchell and Netravali with B = 0, C = 1/2): 1 at 0, 0 at the other integers *)
Definition cubic (x : R) : R :=
  let a := Rabs x in
  if Rlt_dec a 1 then (3 * a * a * a - 5 * a * a + 2) / 2
  else if Rlt_dec a 2 then (- a * a * a + 5 * a * a - 8 * a + 4) / 2
  else 0.
(** centred at c and stretched by s: the weight of source column i *)
Definition cubic_at (c s : R) (i : Z) : R := cubic ((IZR i + / 2 - c) / s).
