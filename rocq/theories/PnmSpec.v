(** Specification of the PNM file formats (P1-P7), written from the format description and independent of the
    decoder's and encoder's control flow.  Text helpers [dec] (decimal digits), [is_ws], [is_digit], [split_ws] (the
    words of a text) are those of Text.v; the header values [hdr] are the public header structs of the crate. *)
From Coq Require Import String.
From Verif Require Import Base ColorType Text Pnm FarbfeldSpec.
Local Open Scope Z_scope.

(** white space and comments ('#' up to the end of the line) between the numbers of a header *)
Inductive gap : list Z -> Prop :=
| gap_nil : gap []
| gap_ws b g : is_ws b = true -> gap g -> gap (b :: g)
| gap_comment t nl g : Forall (fun b => b <> 10 /\ b <> 13) t -> nl = 10 \/ nl = 13 -> gap g ->
    gap (35 :: t ++ nl :: g).

(** the number written by a string of decimal digits *)
Definition value (t : list Z) : Z := fold_left (fun a b => 10 * a + (b - 48)) t 0.
Definition numeral (t : list Z) (v : Z) : Prop := t <> [] /\ Forall (fun b => is_digit b = true) t /\ value t = v.

(** the numbers of a P1-P6 header: each preceded by a gap and followed by one white space character *)
Inductive numbers : list Z -> list Z -> Prop :=
| nums_nil : numbers [] []
| nums_cons v vs g t s rest : gap g -> numeral t v -> v <= u32_max -> is_ws s = true -> numbers vs rest ->
    numbers (v :: vs) (g ++ t ++ s :: rest).

(** a line of a P7 header *)
Inductive item := Comment (t : list Z) | Width (v : Z) | Height (v : Z) | Depth (v : Z) | Maxval (v : Z) | Type_ (t : list Z).
(** key, at least one blank, number, blanks *)
Definition field_line (key : list Z) (v : Z) (l : list Z) : Prop :=
  exists s t e, l = key ++ s ++ t ++ e /\ s <> [] /\ Forall (fun b => is_ws b = true /\ b <> 10) (s ++ e) /\
    numeral t v /\ v <= u32_max.
(** a tuple type name: printable ASCII, no blank at either end *)
Definition name_ok (t : list Z) : Prop :=
  t <> [] /\ Forall (fun b => 0 <= b < 128 /\ b <> 10) t /\
  (forall b r, t = b :: r -> is_ws b = false) /\ (forall b r, t = r ++ [b] -> is_ws b = false).
Definition item_line (i : item) (l : list Z) : Prop :=
  match i with
  | Comment t => l = 35 :: t /\ Forall (fun b => 0 <= b < 128 /\ b <> 10) t
  | Width v => field_line (txt "WIDTH") v l
  | Height v => field_line (txt "HEIGHT") v l
  | Depth v => field_line (txt "DEPTH") v l
  | Maxval v => field_line (txt "MAXVAL") v l
  | Type_ t => exists s e, l = txt "TUPLTYPE" ++ s ++ t ++ e /\ s <> [] /\
      Forall (fun b => is_ws b = true /\ b <> 10) (s ++ e) /\ name_ok t
  end.
(** the lines, each ended by a newline, then ENDHDR *)
Inductive pam_text : list item -> list Z -> Prop :=
| pam_end : pam_text [] (txt "ENDHDR" ++ [10])
| pam_item i is l rest : item_line i l -> pam_text is rest -> pam_text (i :: is) (l ++ [10] ++ rest).
Definition widths (l : list item) := flat_map (fun i => match i with Width v => [v] | _ => [] end) l.
Definition heights (l : list item) := flat_map (fun i => match i with Height v => [v] | _ => [] end) l.
Definition depths (l : list item) := flat_map (fun i => match i with Depth v => [v] | _ => [] end) l.
Definition maxvals (l : list item) := flat_map (fun i => match i with Maxval v => [v] | _ => [] end) l.
Definition types (l : list item) := flat_map (fun i => match i with Type_ t => [t] | _ => [] end) l.

(** [t] is the text of the header [h]: magic, then the numbers / the lines in any order.  A P7 header has at most one
    TUPLTYPE line here. *)
Definition header_text (h : hdr) (t : list Z) : Prop :=
  match h with
  | HBit e w hh => exists n, t = txt (match e with SAsc => "P1" | SBin => "P4" end) ++ n /\ numbers [w; hh] n
  | HGray e w hh m => exists n, t = txt (match e with SAsc => "P2" | SBin => "P5" end) ++ n /\ numbers [w; hh; m] n
  | HPix e w hh m => exists n, t = txt (match e with SAsc => "P3" | SBin => "P6" end) ++ n /\ numbers [w; hh; m] n
  | HArb w hh d m ty => exists is n, t = txt "P7" ++ [10] ++ n /\ pam_text is n /\
      widths is = [w] /\ heights is = [hh] /\ depths is = [d] /\ maxvals is = [m] /\
      types is = (match ty with
                  | None => []
                  | Some TBW => [txt "BLACKANDWHITE"] | Some TBWA => [txt "BLACKANDWHITE_ALPHA"]
                  | Some TGray => [txt "GRAYSCALE"] | Some TGrayA => [txt "GRAYSCALE_ALPHA"]
                  | Some TRgb => [txt "RGB"] | Some TRgbA => [txt "RGB_ALPHA"] | Some (TCustom s) => [s]
                  end)
  end.

(** what a header with a sample range says: encoding, color type, channels, the top of the decoded range (255 for
    8-bit, 65535 for 16-bit samples), the header's maximum *)
Inductive sampled : hdr -> senc -> ctype -> Z -> Z -> Z -> Prop :=
| sp_g8 e w h m : 1 <= m <= 255 -> sampled (HGray e w h m) e CL8 1 255 m
| sp_g16 e w h m : 256 <= m <= 65535 -> sampled (HGray e w h m) e CL16 1 65535 m
| sp_p8 e w h m : 1 <= m <= 255 -> sampled (HPix e w h m) e CRgb8 3 255 m
| sp_p16 e w h m : 256 <= m <= 65535 -> sampled (HPix e w h m) e CRgb16 3 65535 m
| sp_bw w h : sampled (HArb w h 1 1 (Some TBW)) SBin CL8 1 255 1
| sp_ag8 w h m : 1 <= m <= 255 -> sampled (HArb w h 1 m (Some TGray)) SBin CL8 1 255 m
| sp_ag16 w h m : 256 <= m <= 65535 -> sampled (HArb w h 1 m (Some TGray)) SBin CL16 1 65535 m
| sp_ap8 w h m : 1 <= m <= 255 -> sampled (HArb w h 3 m (Some TRgb)) SBin CRgb8 3 255 m
| sp_ap16 w h m : 256 <= m <= 65535 -> sampled (HArb w h 3 m (Some TRgb)) SBin CRgb16 3 65535 m
| sp_an1 w h m : 1 <= m <= 255 -> sampled (HArb w h 1 m None) SBin CL8 1 255 m
| sp_an3 w h m : 1 <= m <= 255 -> sampled (HArb w h 3 m None) SBin CRgb8 3 255 m.

(** [raster] begins with the samples: raw bytes, big-endian pairs, or words of decimal digits *)
Definition stores (e : senc) (T : Z) (samples raster : list Z) : Prop :=
  match e with
  | SBin => exists extra, raster = (if T =? 255 then samples else flat_map u16_be samples) ++ extra
  | SAsc => exists words more, split_ws raster = words ++ more /\ Forall2 numeral words samples
  end.
(** the decoded buffer: one byte per sample, or two in the machine's byte order *)
Definition layout (big : bool) (T : Z) (samples : list Z) : list Z := if T =? 255 then samples else native big samples.

(** [out] is [v] (of the range 0..m) in the range 0..T: a nearest value for 8 bits; within 33/64 for 16 bits *)
Definition rescaled (T m v out : Z) : Prop :=
  0 <= out <= T /\ Z.abs (out * m - v * T) * 64 <= (if T =? 255 then 32 else 33) * m.

(** a P4 raster: rows of ceil(w/8) bytes, most significant bit first, a 1 is black *)
Definition pbm_black (raster : list Z) (w x y : Z) : bool :=
  match zget raster (y * ((w + 7) / 8) + x / 8) with Some b => Z.testbit b (7 - x mod 8) | None => false end.
(** the pixels of an image given by a function, row by row *)
Definition picture (w h : Z) (f : Z -> Z -> Z) : list Z := map (fun c => f (fst c) (snd c)) (coords w h).

(** the lines of a text *)
Fixpoint lines_aux (l cur : list Z) : list (list Z) :=
  match l with [] => [cur] | b :: r => if b =? 10 then cur :: lines_aux r [] else lines_aux r (cur ++ [b]) end.
Definition lines (l : list Z) : list (list Z) := lines_aux l [].
