(** Model of ImageFormat's tables (src/image.rs:28-395) and of the magic-byte detection
    (src/image_reader/free_functions.rs:128-188).  A &str / &OsStr is its list of bytes. *)
From Coq Require Import String Ascii.
From Verif Require Import Base.

(** b"..." *)
Fixpoint bs (s : string) : list Z :=
  match s with
  | EmptyString => []
  | String c s' => Z.of_N (N_of_ascii c) :: bs s'
  end.

(** image.rs:28-76 *)
Inductive format : Type :=
| Png | Jpeg | Gif | WebP | Pnm | Tiff | Tga | Dds | Bmp | Ico | Hdr | OpenExr | Farbfeld
| Avif | Qoi | Pcx.

(** str::to_ascii_lowercase *)
Definition lower1 (c : Z) : Z := if (65 <=? c) && (c <=? 90) then c + 32 else c.
Definition to_lower (s : list Z) : list Z := map lower1 s.

(** a `match s { "a" | "b" => x, ... }` as a table scanned in order *)
Fixpoint lookup {A} (s : list Z) (t : list (list string * A)) : option A :=
  match t with
  | [] => None
  | (ks, a) :: t' => if existsb (fun k => leqb s (bs k)) ks then Some a else lookup s t'
  end.

Local Open Scope string_scope.
(** from_extension: image.rs:90-120; a non-UTF-8 OsStr gives None and equals no key anyway *)
Definition from_extension (ext : list Z) : option format :=
  lookup (to_lower ext)
    [ (["avif"], Avif); (["jpg"; "jpeg"; "jfif"], Jpeg); (["png"; "apng"], Png); (["gif"], Gif);
      (["webp"], WebP); (["tif"; "tiff"], Tiff); (["tga"], Tga); (["dds"], Dds); (["bmp"], Bmp);
      (["ico"], Ico); (["hdr"], Hdr); (["exr"], OpenExr); (["pbm"; "pam"; "ppm"; "pgm"], Pnm);
      (["ff"], Farbfeld); (["qoi"], Qoi); (["pcx"], Pcx) ].

(** from_mime_type: image.rs:166-193 *)
Definition from_mime_type (m : list Z) : option format :=
  lookup m
    [ (["image/avif"], Avif); (["image/jpeg"], Jpeg); (["image/png"], Png); (["image/gif"], Gif);
      (["image/webp"], WebP); (["image/tiff"], Tiff); (["image/x-targa"; "image/x-tga"], Tga);
      (["image/vnd-ms.dds"], Dds); (["image/bmp"], Bmp);
      (["image/x-icon"; "image/vnd.microsoft.icon"], Ico); (["image/vnd.radiance"], Hdr);
      (["image/x-exr"], OpenExr);
      (["image/x-portable-bitmap"; "image/x-portable-graymap"; "image/x-portable-pixmap";
        "image/x-portable-anymap"], Pnm);
      (["image/x-qoi"], Qoi); (["image/vnd.zbrush.pcx"; "image/x-pcx"], Pcx) ].

(** to_mime_type: image.rs:216-240 *)
Definition to_mime_type (f : format) : list Z :=
  bs match f with
     | Avif => "image/avif" | Jpeg => "image/jpeg" | Png => "image/png" | Gif => "image/gif"
     | WebP => "image/webp" | Tiff => "image/tiff" | Tga => "image/x-targa"
     | Dds => "image/vnd-ms.dds" | Bmp => "image/bmp" | Ico => "image/x-icon"
     | Hdr => "image/vnd.radiance" | OpenExr => "image/x-exr" | Pnm => "image/x-portable-anymap"
     | Qoi => "image/x-qoi" | Farbfeld => "application/octet-stream"
     | Pcx => "image/vnd.zbrush.pcx"
     end.

(** can_read: image.rs:245-265; can_write: 270-290 *)
Definition can_read (f : format) : bool := match f with Dds => false | _ => true end.
Definition can_write (f : format) : bool := match f with Dds | Pcx => false | _ => true end.

(** extensions_str: image.rs:302-322 *)
Definition extensions_str (f : format) : list string :=
  match f with
  | Png => ["png"] | Jpeg => ["jpg"; "jpeg"] | Gif => ["gif"] | WebP => ["webp"]
  | Pnm => ["pbm"; "pam"; "ppm"; "pgm"] | Tiff => ["tiff"; "tif"] | Tga => ["tga"]
  | Dds => ["dds"] | Bmp => ["bmp"] | Ico => ["ico"] | Hdr => ["hdr"] | OpenExr => ["exr"]
  | Farbfeld => ["ff"] | Avif => ["avif"] | Qoi => ["qoi"] | Pcx => ["pcx"]
  end.

(** reading_enabled: image.rs:327-346; writing_enabled: 351-370; [feat] = enabled features *)
Definition feature_of (f : format) : string :=
  match f with
  | Png => "png" | Gif => "gif" | Jpeg => "jpeg" | WebP => "webp" | Tiff => "tiff" | Tga => "tga"
  | Bmp => "bmp" | Ico => "ico" | Hdr => "hdr" | OpenExr => "exr" | Pnm => "pnm"
  | Farbfeld => "ff" | Avif => "avif" | Qoi => "qoi" | Pcx => "pcx" | Dds => "dds"
  end.
Definition reading_enabled (feat : string -> bool) (f : format) : bool :=
  match f with Dds => false | _ => feat (feature_of f) end.
Definition writing_enabled (feat : string -> bool) (f : format) : bool :=
  match f with Pcx | Dds => false | _ => feat (feature_of f) end.

(** all: image.rs:373-394 *)
Definition all_formats : list format :=
  [Gif; Ico; Jpeg; Png; Bmp; Tiff; Tga; Pnm; Farbfeld; Avif; WebP; OpenExr; Qoi; Dds; Hdr; Pcx].

(** MAGIC_BYTES: free_functions.rs:128-156, (signature, mask, format) *)
Definition MAGIC_BYTES : list (list Z * list Z * format) :=
  [ ([137; 80; 78; 71; 13; 10; 26; 10], [], Png);
    ([255; 216; 255], [], Jpeg);
    (bs "GIF89a", [], Gif);
    (bs "GIF87a", [], Gif);
    ((bs "RIFF" ++ [0; 0; 0; 0] ++ bs "WEBP")%list, [255; 255; 255; 255; 0; 0; 0; 0], WebP);
    ([77; 77; 0; 42], [], Tiff);
    ([73; 73; 42; 0], [], Tiff);
    (bs "DDS ", [], Dds);
    (bs "BM", [], Bmp);
    ([0; 0; 1; 0], [], Ico);
    (bs "#?RADIANCE", [], Hdr);
    (([0; 0; 0; 0] ++ bs "ftypavif")%list, [255; 255; 0; 0], Avif);
    ([118; 47; 49; 1], [], OpenExr);
    (bs "qoif", [], Qoi);
    (bs "P1", [], Pnm); (bs "P2", [], Pnm); (bs "P3", [], Pnm); (bs "P4", [], Pnm);
    (bs "P5", [], Pnm); (bs "P6", [], Pnm); (bs "P7", [], Pnm);
    (bs "farbfeld", [], Farbfeld);
    ([10; 0], [255; 248], Pcx) ].

Local Close Scope string_scope.
(** slice::starts_with *)
Fixpoint starts_with (b sig : list Z) : bool :=
  match sig, b with
  | [], _ => true
  | s :: sig', x :: b' => (x =? s) && starts_with b' sig'
  | _, [] => false
  end.
(** buffer.iter().zip(signature).zip(mask.chain(repeat(0xFF))).all(|..| byte & mask == sig) *)
Fixpoint masked_all (b sig mask : list Z) : bool :=
  match b, sig with
  | x :: b', s :: sig' =>
      let m := match mask with m :: _ => m | [] => 255 end in
      (Z.land x m =? s) && masked_all b' sig' (tl mask)
  | _, _ => true
  end.
(** guess_format_impl: free_functions.rs:170-188 *)
Definition entry_matches (b sig mask : list Z) : bool :=
  match mask with
  | [] => starts_with b sig
  | _ => (zlen sig <=? zlen b) && masked_all b sig mask
  end.
Fixpoint guess_in (t : list (list Z * list Z * format)) (b : list Z) : option format :=
  match t with
  | [] => None
  | (sig, mask, f) :: t' => if entry_matches b sig mask then Some f else guess_in t' b
  end.
Definition guess_format (b : list Z) : option format := guess_in MAGIC_BYTES b.
