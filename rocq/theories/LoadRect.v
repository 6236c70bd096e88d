(** Model of load_rect and ImageReadBuffer (src/image.rs:397-608).  usize is 64 bits.  A decoder is an
    arbitrary state [D] with the two callbacks load_rect is given. *)
From Verif Require Import Base.
Local Open Scope Z_scope.

Section LoadRect.
Context {D : Type}.
(** seek_scanline(decoder, n); read_scanline(decoder, buf) returns the new contents of buf *)
Variable seek : D -> Z -> res D.
Variable read : D -> list Z -> res (list Z * D).

(** the captured variables of the closure read_image_range: image.rs:515-517 *)
Record lstate := mkL { l_d : D; l_cur : Z; l_tmp : list Z; l_tmps : option Z }.

(** output.write_all(&src): appends to what was written, panics when the slice is too short *)
Definition write_all (acc out src : list Z) : res (list Z * list Z) :=
  if zlen out <? zlen src then Panic else Ok (acc ++ src, skipn (length src) out).
(** tmp[offset..][..len] *)
Definition sub_slice (l : list Z) (off len : Z) : res (list Z) :=
  if (zlen l <? off) || (zlen l - off <? len) then Panic else Ok (zslice l off len).

(** the while loop: image.rs:550-572; fuel is spent once per scanline *)
Fixpoint range_loop (fuel : nat) (sb start end_ pos : Z) (s : lstate) (acc out : list Z) : res (lstate * list Z) :=
  if pos <? end_ then
    match fuel with
    | O => Err EFuel
    | S f =>
        '(s, acc, out) <-
          (if (start <=? pos) && (sb <=? end_ - pos) then
             if zlen out <? sb then Panic else
             '(b, d) <- read (l_d s) (firstn (Z.to_nat sb) out) ;;
             Ok (mkL d (l_cur s) (l_tmp s) (l_tmps s), acc ++ b, skipn (Z.to_nat sb) out)
           else
             (* tmp.resize(scanline_bytes, 0) *)
             let tmp := firstn (Z.to_nat sb) (l_tmp s ++ repeat 0 (Z.to_nat sb)) in
             '(tmp, d) <- read (l_d s) tmp ;;
             let offset := Z.max 0 (start - pos) in
             let len := Z.min (Z.min (end_ - start) (sb - offset)) (end_ - pos) in
             src <- sub_slice tmp offset len ;;
             '(acc, out) <- write_all acc out src ;;
             Ok (mkL d (l_cur s) tmp (Some (l_cur s)), acc, out)) ;;
        if u64_max <? pos + sb then Panic else
        range_loop f sb start end_ (pos + sb) (mkL (l_d s) (l_cur s + 1) (l_tmp s) (l_tmps s)) acc out
    end
  else Ok (s, acc ++ out).

(** read_image_range: image.rs:522-574; returns the new contents of the output slice *)
Definition read_image_range (sb start end_ : Z) (s : lstate) (output : list Z) : res (lstate * list Z) :=
  if sb =? 0 then Panic else
  let target := start / sb in
  let hit := match l_tmps s with Some t => t =? target | None => false end in
  '(start, acc, out, stop) <-
    (if hit then
       let position := target * sb in
       let offset := Z.max 0 (start - position) in
       let len := Z.min (Z.min (end_ - start) (sb - offset)) (end_ - position) in
       src <- sub_slice (l_tmp s) offset len ;;
       '(acc, out) <- write_all [] output src ;;
       Ok (start + len, acc, out, start + len =? end_)
     else Ok (start, [], output, false)) ;;
  if stop then Ok (s, acc ++ out)
  else
    let target := start / sb in
    s <- (if negb (target =? l_cur s) then
            d <- seek (l_d s) target ;; Ok (mkL d target (l_tmp s) (l_tmps s))
          else Ok s) ;;
    range_loop (S (Z.to_nat (end_ - l_cur s * sb))) sb start end_ (l_cur s * sb) s acc out.

(** load_rect: image.rs:476-608.  [dw], [dh]: decoder.dimensions(); [bpp]: bytes per pixel *)
Definition load_rect (dw dh bpp x y width height : Z) (buf : list Z) (row_pitch sb : Z) (d : D) : res (list Z * D) :=
  let row_bytes := bpp * dw in
  let total_bytes := width * height * bpp in
  if u64_max <? total_bytes then Panic (* arithmetic overflow *)
  else if zlen buf <? total_bytes then Panic (* assert! *)
  else if (dw <? x + width) || (dh <? y + height) || (width =? 0) || (height =? 0) then Err EParameter
  else
    let s := mkL d 0 [] None in
    '(s, buf) <-
      (if (x =? 0) && (width =? dw) && (row_pitch =? row_bytes) then
         let start := x * bpp + y * row_bytes in
         let end_ := (x + width) * bpp + (y + height - 1) * row_bytes in
         read_image_range sb start end_ s buf
       else if row_pitch =? 0 then Panic (* chunks_mut(0) *)
       else
         let nchunks := (zlen buf + row_pitch - 1) / row_pitch in
         foldM (fun '(s, buf) j =>
           let row := y + j in
           let start := x * bpp + row * row_bytes in
           let end_ := (x + width) * bpp + row * row_bytes in
           '(s, o) <- read_image_range sb start end_ s (zslice buf (j * row_pitch) row_pitch) ;;
           Ok (s, zsplice buf (j * row_pitch) o)) (zrange 0 (Z.min height nchunks)) (s, buf)) ;;
    d <- seek (l_d s) 0 ;;
    Ok (buf, d).
End LoadRect.
Arguments mkL {D} l_d l_cur l_tmp l_tmps.

(** ** ImageReadBuffer: image.rs:401-470 *)
Record rbuf := mkRb { rb_sb : Z; rb_buffer : list Z; rb_consumed : Z; rb_total : Z; rb_offset : Z }.
Definition rb_new (sb total : Z) : rbuf := mkRb sb [] 0 total 0.
(** "Finally, copy bytes into output buffer": image.rs:459-468; [n] = buf.len() *)
Definition rb_deliver {Src} (n : Z) (s : rbuf) (src : Src) : res (list Z * rbuf * Src) :=
  let avail := zlen (rb_buffer s) - rb_consumed s in
  if n <? avail then
    Ok (zslice (rb_buffer s) (rb_consumed s) n, mkRb (rb_sb s) (rb_buffer s) (rb_consumed s + n) (rb_total s) (rb_offset s), src)
  else
    Ok (zslice (rb_buffer s) (rb_consumed s) avail, mkRb (rb_sb s) (rb_buffer s) (zlen (rb_buffer s)) (rb_total s) (rb_offset s), src).
(** read: image.rs:430-469; [rd src n] = read_scanline into a slice of n bytes: (bytes read, new source);
    result: the bytes delivered to the caller *)
Definition rb_read {Src} (rd : Src -> Z -> res (list Z * Src)) (s : rbuf) (src : Src) (n : Z) : res (list Z * rbuf * Src) :=
  if zlen (rb_buffer s) =? rb_consumed s then
    if rb_offset s =? rb_total s then Ok ([], s, src)
    else if rb_sb s <=? n then
      '(b, src) <- rd src (rb_sb s) ;;
      Ok (b, mkRb (rb_sb s) (rb_buffer s) (rb_consumed s) (rb_total s) (rb_offset s + zlen b), src)
    else
      let cap := if zlen (rb_buffer s) =? 0 then rb_sb s else zlen (rb_buffer s) in
      '(b, src) <- rd src cap ;;
      let off := rb_offset s + zlen b in
      if (zlen b =? rb_sb s) || (off =? rb_total s) then rb_deliver n (mkRb (rb_sb s) b 0 (rb_total s) off) src
      else Panic
  else rb_deliver n s src.

(** a history of calls of read with buffers of the given sizes; the bytes each call delivered *)
Fixpoint rb_run {Src} (rd : Src -> Z -> res (list Z * Src)) (s : rbuf) (src : Src) (sizes : list Z) : res (list (list Z)) :=
  match sizes with
  | [] => Ok []
  | n :: sizes => '(b, s, src) <- rb_read rd s src n ;; bs <- rb_run rd s src sizes ;; Ok (b :: bs)
  end.
