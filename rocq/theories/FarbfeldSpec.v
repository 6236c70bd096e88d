(** The farbfeld file format, stated independently of the model.
    https://tools.suckless.org/farbfeld/ : "farbfeld", width and height as 32-bit big-endian, then four 16-bit
    big-endian channels per pixel, row-major. *)
From Verif Require Import Base.
Local Open Scope Z_scope.

Definition u16_be (v : Z) : list Z := [v / 256; v mod 256].
Definition u32_be (v : Z) : list Z := [v / 16777216; v / 65536 mod 256; v / 256 mod 256; v mod 256].
(** the file for an image of w x h pixels with the given samples (4 per pixel, row-major) *)
Definition farbfeld_file (w h : Z) (samples : list Z) : list Z :=
  [102; 97; 114; 98; 102; 101; 108; 100] (* "farbfeld" *) ++ u32_be w ++ u32_be h ++ flat_map u16_be samples.
(** the image crate's representation of 16-bit samples: bytes in the machine's order *)
Definition native16 (big : bool) (v : Z) : list Z := if big then [v / 256; v mod 256] else [v mod 256; v / 256].
Definition native (big : bool) (samples : list Z) : list Z := flat_map (native16 big) samples.
