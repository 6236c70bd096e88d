(** The ICO directory and the AND mask, independently of the model. *)
From Verif Require Import Base.
Local Open Scope Z_scope.

(** entry i of the directory occupies bytes 6 + 16 i .. 6 + 16 i + 16 *)
Definition byte_at (file : list Z) (o : Z) : Z := match zget file o with Some b => b | None => 0 end.
Definition num16 (file : list Z) (o : Z) : Z := byte_at file o + 256 * byte_at file (o + 1).
Definition num32 (file : list Z) (o : Z) : Z := num16 file o + 65536 * num16 file (o + 2).
(** a size byte of 0 means 256 *)
Definition size_of (b : Z) : Z := if b =? 0 then 256 else b.
Record icon := mkIcon { ic_w : Z; ic_h : Z; ic_bpp : Z; ic_len : Z; ic_off : Z }.
Definition icon_at (file : list Z) (i : Z) : icon :=
  let o := 6 + 16 * i in
  mkIcon (size_of (byte_at file o)) (size_of (byte_at file (o + 1))) (num16 file (o + 6)) (num32 file (o + 8)) (num32 file (o + 12)).
(** a is at least as good as b: deeper, or equally deep and at least as large *)
Definition as_good (a b : icon) : Prop := ic_bpp b < ic_bpp a \/ ic_bpp a = ic_bpp b /\ ic_w b * ic_h b <= ic_w a * ic_h a.
(** bit of the AND mask for pixel (x, y), y counted from the top: rows are bottom-up, padded to 32 bits, most significant bit first *)
Definition mask_bit (mask : list Z) (w h x y : Z) : bool :=
  Z.testbit (byte_at mask ((h - 1 - y) * ((w + 31) / 32 * 4) + x / 8)) (7 - x mod 8).
