(** Shared vocabulary of the model: results with explicit panics, lists indexed by Z,
    ranges, and little/big endian integers.  No definition here models a particular
    function of /repo except where a comment says so. *)
From Coq Require Export List ZArith Lia Bool.
From Coq Require Export ZifyBool ZifyNat ZifyN.
Export ListNotations.
Global Open Scope Z_scope.

(** ** Results.  [Panic] is a Rust panic (failed assert!, slice index out of range,
    unwrap on None, debug-build arithmetic overflow). *)
Inductive err : Type :=
| EEof            (* std::io::ErrorKind::UnexpectedEof from read_exact *)
| EDecoding       (* ImageError::Decoding *)
| EEncoding       (* ImageError::Encoding *)
| EParameter      (* ImageError::Parameter *)
| ELimits         (* ImageError::Limits *)
| EUnsupported    (* ImageError::Unsupported *)
| EFuel.          (* model only: recursion fuel exhausted; excluded by the theorems *)

Inductive res (A : Type) : Type :=
| Ok (a : A)
| Err (e : err)
| Panic.
Arguments Ok {A} a.
Arguments Err {A} e.
Arguments Panic {A}.

Definition bind {A B} (r : res A) (f : A -> res B) : res B :=
  match r with Ok a => f a | Err e => Err e | Panic => Panic end.
Notation "x <- e ;; k" := (bind e (fun x => k))
  (at level 61, e at next level, right associativity).
Notation "' p <- e ;; k" := (bind e (fun p => k))
  (at level 61, p pattern, e at next level, right associativity).

Fixpoint foldM {S A} (f : S -> A -> res S) (l : list A) (s : S) : res S :=
  match l with
  | [] => Ok s
  | a :: l' => s' <- f s a ;; foldM f l' s'
  end.

(** ** Lists indexed by Z *)
Definition zlen {A} (l : list A) : Z := Z.of_nat (length l).
Definition zget {A} (l : list A) (i : Z) : option A :=
  if i <? 0 then None else nth_error l (Z.to_nat i).
Fixpoint set_nat {A} (l : list A) (i : nat) (v : A) : list A :=
  match l, i with
  | [], _ => []
  | _ :: t, O => v :: t
  | h :: t, S j => h :: set_nat t j v
  end.
Definition zset {A} (l : list A) (i : Z) (v : A) : list A :=
  if i <? 0 then l else set_nat l (Z.to_nat i) v.
Definition zslice {A} (l : list A) (off n : Z) : list A :=
  firstn (Z.to_nat n) (skipn (Z.to_nat off) l).
(** dest[off..off+new.len()].copy_from_slice(new) *)
Definition zsplice {A} (l : list A) (off : Z) (new : list A) : list A :=
  firstn (Z.to_nat off) l ++ new ++ skipn (Z.to_nat off + length new) l.
(** the Rust range a..a+n *)
Definition zrange (a n : Z) : list Z :=
  map (fun k => a + Z.of_nat k) (seq 0 (Z.to_nat n)).

(** ** Machine integers *)
Definition u8_max : Z := 255.
Definition u16_max : Z := 65535.
Definition u32_max : Z := 4294967295.
Definition u64_max : Z := 18446744073709551615.
Definition i32_max : Z := 2147483647.
Definition i32_min : Z := -2147483648.
Definition i64_max : Z := 9223372036854775807.
Definition i64_min : Z := -9223372036854775808.
Definition is_u8 (z : Z) : Prop := 0 <= z <= u8_max.
Definition is_u16 (z : Z) : Prop := 0 <= z <= u16_max.
Definition is_u32 (z : Z) : Prop := 0 <= z <= u32_max.
Definition is_u64 (z : Z) : Prop := 0 <= z <= u64_max.
Definition is_i32 (z : Z) : Prop := i32_min <= z <= i32_max.
Definition is_i64 (z : Z) : Prop := i64_min <= z <= i64_max.
Definition wrap_u8 (z : Z) : Z := z mod 256.
Definition wrap_u16 (z : Z) : Z := z mod 65536.
Definition wrap_u32 (z : Z) : Z := z mod 4294967296.
Definition wrap_u64 (z : Z) : Z := z mod 18446744073709551616.
Definition wrap_i32 (z : Z) : Z := (z + 2147483648) mod 4294967296 - 2147483648.
Definition clampz (lo hi z : Z) : Z := Z.max lo (Z.min hi z).
Definition byte (z : Z) : bool := (0 <=? z) && (z <=? 255).
Definition bytes (l : list Z) : Prop := Forall is_u8 l.

(** ** Endianness: u16/u32 to bytes and back *)
Definition le16 (v : Z) : list Z := [v mod 256; (v / 256) mod 256].
Definition be16 (v : Z) : list Z := [(v / 256) mod 256; v mod 256].
Definition le32 (v : Z) : list Z :=
  [v mod 256; (v / 256) mod 256; (v / 65536) mod 256; (v / 16777216) mod 256].
Definition be32 (v : Z) : list Z :=
  [(v / 16777216) mod 256; (v / 65536) mod 256; (v / 256) mod 256; v mod 256].

(** Readers: a stream is the list of remaining bytes; [read_exact] fails with
    UnexpectedEof when too few are left (byteorder's read_u8/u16/u32 use it). *)
Definition reader := list Z.
Definition read_exact (n : Z) (r : reader) : res (list Z * reader) :=
  if zlen r <? n then Err EEof
  else Ok (firstn (Z.to_nat n) r, skipn (Z.to_nat n) r).
Definition read_u8 (r : reader) : res (Z * reader) :=
  match r with a :: r' => Ok (a, r') | _ => Err EEof end.
Definition read_u16le (r : reader) : res (Z * reader) :=
  match r with a :: b :: r' => Ok (a + 256 * b, r') | _ => Err EEof end.
Definition read_u16be (r : reader) : res (Z * reader) :=
  match r with a :: b :: r' => Ok (256 * a + b, r') | _ => Err EEof end.
Definition read_u32le (r : reader) : res (Z * reader) :=
  match r with
  | a :: b :: c :: d :: r' => Ok (a + 256 * b + 65536 * c + 16777216 * d, r')
  | _ => Err EEof end.
Definition read_u32be (r : reader) : res (Z * reader) :=
  match r with
  | a :: b :: c :: d :: r' => Ok (16777216 * a + 65536 * b + 256 * c + d, r')
  | _ => Err EEof end.

(** chunks_exact(n): the list of consecutive n-element chunks (remainder dropped);
    fuel is the list itself. *)
Fixpoint chunks_aux {A} (fuel : nat) (n : nat) (l : list A) : list (list A) :=
  match fuel with
  | O => []
  | S f => if (length l <? n)%nat then []
           else firstn n l :: chunks_aux f n (skipn n l)
  end.
Definition chunks_exact {A} (n : Z) (l : list A) : list (list A) :=
  chunks_aux (length l) (Z.to_nat n) l.

(** Row-major coordinates of a w*h image: for y in 0..h { for x in 0..w {..} } *)
Definition coords (w h : Z) : list (Z * Z) :=
  flat_map (fun y => map (fun x => (x, y)) (zrange 0 w)) (zrange 0 h).

(** ** Images as row-major pixel lists.  Models ImageBuffer<P, Vec<_>> at the level of
    whole pixels (src/buffer.rs:655-661); the flat sample storage underneath is
    modelled in Buffer.v, which proves the two levels agree. *)
Record img (P : Type) : Type := mkImg { iw : Z; ih : Z; px : list P }.
Arguments mkImg {P} iw ih px.
Arguments iw {P} i.
Arguments ih {P} i.
Arguments px {P} i.

Definition wf {P} (im : img P) : Prop :=
  0 <= iw im /\ 0 <= ih im /\ zlen (px im) = iw im * ih im.
Definition inb {P} (im : img P) (x y : Z) : bool :=
  (0 <=? x) && (x <? iw im) && (0 <=? y) && (y <? ih im).
(** total view of the contents, used by specifications: None = outside *)
Definition pixel {P} (im : img P) (x y : Z) : option P :=
  if inb im x y then zget (px im) (y * iw im + x) else None.
(** get_pixel / put_pixel panic when out of bounds (src/buffer.rs:769-780, 814-821, 982-984) *)
Definition get_pixel {P} (im : img P) (x y : Z) : res P :=
  match pixel im x y with Some p => Ok p | None => Panic end.
Definition put_pixel {P} (im : img P) (x y : Z) (p : P) : res (img P) :=
  if inb im x y
  then Ok (mkImg (iw im) (ih im) (zset (px im) (y * iw im + x) p))
  else Panic.
(** ImageBuffer::new: zero-filled (src/buffer.rs:1272-1286) *)
Definition new_img {P} (w h : Z) (zero : P) : img P :=
  mkImg w h (repeat zero (Z.to_nat (w * h))).

(** for y in 0..h { for x in 0..w { body } } *)
Definition for2 {S} (w h : Z) (body : S -> Z -> Z -> res S) (s : S) : res S :=
  foldM (fun s y => foldM (fun s x => body s x y) (zrange 0 w) s) (zrange 0 h) s.

(** equality of byte strings (Rust slice/array ==) *)
Fixpoint leqb (a b : list Z) : bool :=
  match a, b with
  | [], [] => true
  | x :: a', y :: b' => (x =? y) && leqb a' b'
  | _, _ => false
  end.

(** Rust's unbounded `loop`: at most 2^k iterations of [step] (inl = continue, inr = break with
    a value).  The theorems show that the fuel is never exhausted (result inr). *)
Fixpoint loopk {S R} (k : nat) (step : S -> S + R) (s : S) : S + R :=
  match k with
  | O => step s
  | Datatypes.S k' => match loopk k' step s with
            | inl s' => loopk k' step s'
            | inr r => inr r
            end
  end.
