(** Model of Limits (src/image_reader/mod.rs:40-175). *)
From Verif Require Import Base.

Record limits : Type := mkLimits {
  max_image_width : option Z;
  max_image_height : option Z;
  max_alloc : option Z }.

(** Default: mod.rs:52-59 *)
Definition limits_default : limits := mkLimits None None (Some (512 * 1024 * 1024)).
(** no_limits: mod.rs:64-70 *)
Definition no_limits : limits := mkLimits None None None.

(** check_dimensions: mod.rs:79-97 *)
Definition check_dimensions (l : limits) (w h : Z) : res unit :=
  match max_image_width l with
  | Some mw => if mw <? w then Err ELimits else
      match max_image_height l with
      | Some mh => if mh <? h then Err ELimits else Ok tt
      | None => Ok tt end
  | None =>
      match max_image_height l with
      | Some mh => if mh <? h then Err ELimits else Ok tt
      | None => Ok tt end
  end.

(** A method with `&mut self` returning a Result: new state and result. *)
(** reserve: mod.rs:101-113 *)
Definition reserve (l : limits) (amount : Z) : limits * res unit :=
  match max_alloc l with
  | Some m => if m <? amount then (l, Err ELimits)
              else (mkLimits (max_image_width l) (max_image_height l) (Some (m - amount)), Ok tt)
  | None => (l, Ok tt)
  end.

(** reserve_usize: mod.rs:118-129; u64::try_from(usize) fails only for a usize wider than 64
    bits (kept: the second and third arms). *)
Definition reserve_usize (l : limits) (amount : Z) : limits * res unit :=
  if amount <=? u64_max then reserve l amount
  else match max_alloc l with
       | Some _ => (l, Err ELimits)
       | None => (l, Ok tt)
       end.

Definition sat_mul_u64 (a b : Z) : Z := Z.min u64_max (a * b).
Definition sat_add_u64 (a b : Z) : Z := Z.min u64_max (a + b).

(** reserve_buffer: mod.rs:136-148; [bpp] = color_type.bytes_per_pixel() *)
Definition reserve_buffer (l : limits) (w h bpp : Z) : limits * res unit :=
  match check_dimensions l w h with
  | Ok _ => reserve l (sat_mul_u64 (sat_mul_u64 w h) bpp)
  | Err e => (l, Err e)
  | Panic => (l, Panic)
  end.

(** free: mod.rs:154-158 *)
Definition free (l : limits) (amount : Z) : limits :=
  match max_alloc l with
  | Some m => mkLimits (max_image_width l) (max_image_height l) (Some (sat_add_u64 m amount))
  | None => l
  end.

(** free_usize: mod.rs:163-173 *)
Definition free_usize (l : limits) (amount : Z) : res limits :=
  if amount <=? u64_max then Ok (free l amount)
  else match max_alloc l with Some _ => Panic | None => Ok l end.

(** one call on a Limits value, and a history of calls *)
Inductive lop : Type :=
| OReserve (n : Z)
| OReserveBuffer (w h bpp : Z)
| OFree (n : Z).
Definition lstep (l : limits) (o : lop) : limits * res unit :=
  match o with
  | OReserve n => reserve l n
  | OReserveBuffer w h b => reserve_buffer l w h b
  | OFree n => (free l n, Ok tt)
  end.
Fixpoint lrun (l : limits) (os : list lop) : limits * list (lop * res unit) :=
  match os with
  | [] => (l, [])
  | o :: os' => let '(l1, r) := lstep l o in
                let '(l2, tr) := lrun l1 os' in (l2, (o, r) :: tr)
  end.
