(** Model of src/buffer_par.rs.  rayon is an external crate; what is used of it is modelled by its contract: a producer is split at indices
    inside it, any number of times; the parts are consumed by different threads, each part front to back; the threads are interleaved arbitrarily.
    [c] is P::CHANNEL_COUNT; a producer of chunks is a range of samples of the buffer's container, so that writes through it are seen. *)
From Verif Require Import Base Buffer Color.
Local Open Scope Z_scope.

(** rayon's ChunksExact(Mut) producer under Enumerate: the samples [pd_lo, pd_hi) in chunks of c, the first of which has index pd_base *)
Record prod := mkProd { pd_lo : Z; pd_hi : Z; pd_base : Z }.
(** how the work is divided *)
Inductive plan := Whole | Halves (i : Z) (l r : plan).

Section Par.
Context {S : Type}.
Variable c : Z.
Notation pix := (list S).

(** par_pixels, par_pixels_mut: buffer_par.rs:324-330, 354-360, over inner_pixels (buffer.rs:713-716, 892-895); par_chunks_exact requires a
    positive size and leaves out the remainder *)
Definition par_pixels (b : ibuf S) : res prod :=
  match image_buffer_len c (bw b) (bh b) with
  | None => Panic
  | Some len => if len <=? zlen (data b) then if c =? 0 then Panic else Ok (mkProd 0 (len - len mod c) 0) else Panic
  end.
(** len: buffer_par.rs:52-54, 116-118, 196-198, 283-285 *)
Definition par_len (p : prod) : Z := (pd_hi p - pd_lo p) / c.
(** Producer::split_at *)
Definition split_at (p : prod) (i : Z) : res (prod * prod) :=
  if (0 <=? i) && (i <=? par_len p)
  then Ok (mkProd (pd_lo p) (pd_lo p + i * c) (pd_base p), mkProd (pd_lo p + i * c) (pd_hi p) (pd_base p + i)) else Panic.
Fixpoint divide (pl : plan) (p : prod) : res (list prod) :=
  match pl with
  | Whole => Ok [p]
  | Halves i l r => '(a, b) <- split_at p i ;; x <- divide l a ;; y <- divide r b ;; Ok (x ++ y)
  end.
(** the chunks of a part, front to back: index and offset *)
Definition part_items (p : prod) : list (Z * Z) := map (fun k => (pd_base p + k, pd_lo p + k * c)) (zrange 0 (par_len p)).
(** the coordinates given to the i-th pixel: buffer_par.rs:163-169, 186-192, 203-209, 250-256, 273-279, 290-296 *)
Definition par_coord (w i : Z) : res (Z * Z) := if w =? 0 then Panic else Ok (wrap_u32 (i mod w), wrap_u32 (i / w)).

(** par_pixels and par_enumerate_pixels (buffer_par.rs:336-341) of an image that is not written to: what each part yields *)
Definition par_pixels_items (pl : plan) (b : ibuf S) : res (list (list pix)) :=
  p <- par_pixels b ;; ps <- divide pl p ;; Ok (map (fun q => map (fun it => zslice (data b) (snd it) c) (part_items q)) ps).
Definition par_enumerate_items (pl : plan) (b : ibuf S) : res (list (list (Z * Z * pix))) :=
  p <- par_pixels b ;; ps <- divide pl p ;;
  map_res (fun q => map_res (fun it => xy <- par_coord (bw b) (fst it) ;; Ok (xy, zslice (data b) (snd it) c)) (part_items q)) ps.

(** What for_each over par_enumerate_pixels_mut (buffer_par.rs:366-372) leaves to be done: one thread per part, one task per item.  The
    closure's body is any sequence of operations on its local variables [L] and on its own pixel. *)
Context {L : Type}.
Notation op := (L * pix -> L * pix).
Record task := mkTask { t_off : Z; t_local : L; t_ops : list op }.
Definition par_tasks (pl : plan) (b : ibuf S) (l0 : L) (body : Z -> Z -> list op) : res (list (list task)) :=
  p <- par_pixels b ;; ps <- divide pl p ;;
  map_res (fun q => map_res (fun it => xy <- par_coord (bw b) (fst it) ;; Ok (mkTask (snd it) l0 (body (fst xy) (snd xy)))) (part_items q)) ps.
(** one step of one thread: the next operation of its current task, or the end of that task.  The threads share the memory. *)
Inductive step : list (list task) * list S -> list (list task) * list S -> Prop :=
| step_op a off l o ops rest z m l' p' : o (l, zslice m off c) = (l', p') ->
    step (a ++ (mkTask off l (o :: ops) :: rest) :: z, m) (a ++ (mkTask off l' ops :: rest) :: z, zsplice m off p')
| step_end a off l rest z m : step (a ++ (mkTask off l [] :: rest) :: z, m) (a ++ rest :: z, m).
(** n steps in some order *)
Inductive steps : nat -> list (list task) * list S -> list (list task) * list S -> Prop :=
| steps_0 s : steps 0 s s
| steps_n n s t u : step s t -> steps n t u -> steps (Datatypes.S n) s u.
(** no thread has anything left *)
Definition finished (ts : list (list task)) : Prop := Forall (fun t => t = []) ts.
End Par.
Arguments task S L : clear implicits.

(** from_par_fn: buffer_par.rs:388-398; the new buffer and the threads started on it; the closure has no local variables *)
Definition from_par_fn {S} (c : Z) (zero : S) (w h : Z) (pl : plan) (f : Z -> Z -> list S) : res (ibuf S * list (list (task S unit))) :=
  b <- bnew c zero w h ;; ts <- par_tasks c pl b tt (fun x y => [fun lp => (fst lp, f x y)]) ;; Ok (b, ts).
