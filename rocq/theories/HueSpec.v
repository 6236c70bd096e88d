(** Specification for C72: the hue rotation matrix of the CSS / SVG filter "hueRotate", over the reals. *)
From Coq Require Import ZArith Reals.
From Verif Require Import Base.
Local Open Scope R_scope.

(** channel i of the colour (r, g, b) rotated by the angle with cosine c and sine s *)
Definition rotated (i : nat) (c s r g b : R) : R :=
  match i with
  | O => ((213 / 1000) + c * (787 / 1000) - s * (213 / 1000)) * r + ((715 / 1000) - c * (715 / 1000) - s * (715 / 1000)) * g + ((72 / 1000) - c * (72 / 1000) + s * (928 / 1000)) * b
  | S O => ((213 / 1000) - c * (213 / 1000) + s * (143 / 1000)) * r + ((715 / 1000) + c * (285 / 1000) + s * (140 / 1000)) * g + ((72 / 1000) - c * (72 / 1000) - s * (283 / 1000)) * b
  | _ => ((213 / 1000) - c * (213 / 1000) - s * (787 / 1000)) * r + ((715 / 1000) - c * (715 / 1000) + s * (715 / 1000)) * g + ((72 / 1000) + c * (928 / 1000) + s * (72 / 1000)) * b
  end.
