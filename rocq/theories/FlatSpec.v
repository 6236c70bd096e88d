(** Specification vocabulary for C08/C09: where a layout says sample (ch,x,y) lives. *)
From Verif Require Import Base Flat.
Local Open Scope Z_scope.

(** position of a sample, in unbounded arithmetic *)
Definition addr (l : layout) (ch x y : Z) : Z := ch * l_cs l + x * l_ws l + y * l_hs l.
Definition inside (l : layout) (ch x y : Z) : Prop :=
  0 <= ch < l_c l /\ 0 <= x < l_w l /\ 0 <= y < l_h l.
(** distinct samples live at distinct positions *)
Definition unaliased (l : layout) : Prop :=
  forall ch x y ch' x' y', inside l ch x y -> inside l ch' x' y' ->
    addr l ch x y = addr l ch' x' y' -> ch = ch' /\ x = x' /\ y = y'.
(** every dimension with more than one element has a nonzero stride *)
Definition no_zero_stride (l : layout) : Prop :=
  (1 < l_c l -> 0 < l_cs l) /\ (1 < l_w l -> 0 < l_ws l) /\ (1 < l_h l -> 0 < l_hs l).
