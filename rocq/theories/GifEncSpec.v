(** Specification vocabulary for C71: what a caller of GifEncoder asks for, call by call, and what the finished log shows. *)
From Verif Require Import Base GenImage ColorType Delay Gif GifEnc.
Local Open Scope Z_scope.

Section Spec.
Context {X : Type}.
Variable quant : bool -> Z -> Z -> Z -> list Z -> X.

(** a GIF stores delays in hundredths of a second in 16 bits *)
Definition hundredths (d : ratio) : Z := Z.min 65535 (numer d / (10 * denom d)).
(** the picture a call adds: at the origin, cleared to the background afterwards *)
Definition asked (speed : Z) (c : call) : list (op X) :=
  match c with
  | CRepeat _ => []
  | CEncode data w h XRgb8 => [Picture (mkG 0 0 w h GBackground 0) (quant false 1 w h data)]
  | CEncode data w h XRgba8 => [Picture (mkG 0 0 w h GBackground 0) (quant true 1 w h data)]
  | CEncode _ _ _ _ => []
  | CFrame a => [Picture (mkG 0 0 (iw (a_image a)) (ih (a_image a)) GBackground (hundredths (a_delay a)))
                   (quant true speed (iw (a_image a)) (ih (a_image a)) (concat (Base.px (a_image a))))]
  end.
(** a picture call: dimensions in 16 bits, RGB8 or RGBA8, data of the right length *)
Definition drawable (c : call) : Prop :=
  match c with
  | CRepeat _ => False
  | CEncode data w h XRgb8 => w <= 65535 /\ h <= 65535 /\ zlen data = w * h * 3
  | CEncode data w h XRgba8 => w <= 65535 /\ h <= 65535 /\ zlen data = w * h * 4
  | CEncode _ _ _ _ => False
  | CFrame a => iw (a_image a) <= 65535 /\ ih (a_image a) <= 65535 /\ zlen (concat (Base.px (a_image a))) = iw (a_image a) * ih (a_image a) * 4 /\
                0 <= numer (a_delay a) /\ 0 < denom (a_delay a)
  end.
Definition size_of (c : call) : Z * Z :=
  match c with
  | CRepeat _ => (0, 0)
  | CEncode _ w h _ => (w, h)
  | CFrame a => (iw (a_image a), ih (a_image a))
  end.
(** the types of the caller's arguments: the data has the length that the dimensions and the colour call for, a delay is a ratio of
    unsigned numbers with a denominator *)
Definition honest (c : call) : Prop :=
  match c with
  | CRepeat _ => True
  | CEncode data w h XRgb8 => zlen data = w * h * 3
  | CEncode data w h XRgba8 => zlen data = w * h * 4
  | CEncode _ _ _ _ => True
  | CFrame a => zlen (concat (Base.px (a_image a))) = iw (a_image a) * ih (a_image a) * 4 /\ 0 <= numer (a_delay a) /\ 0 < denom (a_delay a)
  end.

Definition is_picture (o : op X) : bool := match o with Picture _ _ => true | _ => false end.
Definition is_header (o : op X) : bool := match o with Header _ _ => true | _ => false end.
(** the operations that succeeded *)
Definition done (l : oplog X) : list (op X) := map fst (filter (fun p => match snd p with None => true | Some _ => false end) l).
Definition pictures (l : oplog X) : list (op X) := filter is_picture (done l).
(** calls that returned Ok *)
Definition accepted (cs : list call) (rs : list (res unit)) : list call :=
  map fst (filter (fun p => match snd p with Ok _ => true | _ => false end) (combine cs rs)).
(** the last repetition count set in a sequence of calls *)
Definition last_repeat (cs : list call) : list (op X) :=
  match rev (flat_map (fun c => match c with CRepeat r => [r] | _ => [] end) cs) with r :: _ => [Repetitions r] | [] => [] end.
Definition shown (speed : Z) (c : call) : list (op X) := match c with CRepeat r => [Repetitions r] | _ => asked speed c end.
End Spec.
