(** C01-C04 for ImageBuffer over its flat sample container, the generic pixel iterator, and the
    specialised ImageBuffer::copy_within of C06.  [c] is the number of channels; [valid c b] says
    that the dimensions are u32 values and that the container (at most usize::MAX samples) holds at
    least width*height*c samples.  [deque_run l ds]: what a double-ended exact-size iterator over
    [l] must return, call by call, with the len() it must report after each call. *)
From Verif Require Import Base BaseLemmas ListLemmas GenImage GenImageProofs Buffer BufferProofs.
Local Open Scope Z_scope.

(** ** C01 *)
Theorem C01_from_raw_iff : forall S c, 1 <= c <= 255 -> forall w h (l : list S),
  is_u32 w -> is_u32 h -> zlen l <= u64_max ->
  (w * h * c <= zlen l -> from_raw c w h l = Some (mkBuf w h l) /\ valid c (mkBuf w h l)) /\
  (zlen l < w * h * c -> from_raw c w h l = None).
Proof. exact @from_raw_iff. Qed.
Print Assumptions C01_from_raw_iff.

Theorem C01_get : forall S c, 1 <= c <= 255 -> forall (b : ibuf S) x y, valid c b -> 0 <= x -> 0 <= y ->
  (x < bw b /\ y < bh b -> bget c b x y = Ok (zslice (data b) ((y * bw b + x) * c) c) /\
                           zlen (zslice (data b) ((y * bw b + x) * c) c) = c) /\
  (bw b <= x \/ bh b <= y -> bget c b x y = Panic).
Proof.
  intros S c Hc b x y V Hx Hy. split; [intros [A B]|apply bget_out].
  split; [apply bget_in; auto; lia|]. destruct (idx_c c Hc (bw b) (bh b) x y); try lia.
  destruct V as (_ & _ & V & _). apply zlen_zslice; lia.
Qed.
Print Assumptions C01_get.

Theorem C01_put : forall S c, 1 <= c <= 255 -> forall (b : ibuf S) x y p,
  valid c b -> 0 <= x -> 0 <= y -> zlen p = c ->
  (bw b <= x \/ bh b <= y -> bput c b x y p = Panic) /\
  (x < bw b /\ y < bh b ->
   exists b', bput c b x y p = Ok b' /\ valid c b' /\ bw b' = bw b /\ bh b' = bh b /\
     zlen (data b') = zlen (data b) /\
     (forall i, bw b * bh b * c <= i -> zget (data b') i = zget (data b) i) /\
     bget c b' x y = Ok p /\
     (forall x' y', 0 <= x' < bw b -> 0 <= y' < bh b -> (x', y') <> (x, y) -> bget c b' x' y' = bget c b x' y')).
Proof.
  intros S c Hc b x y p V Hx Hy Hp. split; [apply bput_out|]. intros [A B].
  destruct (bput_in c Hc b x y p V ltac:(lia) ltac:(lia) Hp) as (b' & E & V' & Ew & Eh & El & Hg).
  exists b'. do 5 (split; [assumption|]). split; [|split].
  - intros i Hi. rewrite Hg. destruct (idx_c c Hc (bw b) (bh b) x y); try lia.
    match goal with |- (if ?e then _ else _) = _ => replace e with false by lia end. reflexivity.
  - rewrite (bput_get c Hc b x y p b' x y) by (auto; lia). rewrite !Z.eqb_refl. reflexivity.
  - intros x' y' H1 H2 HN. rewrite (bput_get c Hc b x y p b' x' y') by (auto; lia).
    destruct ((x' =? x) && (y' =? y)) eqn:Ee; [|reflexivity].
    exfalso. apply HN. f_equal; lia.
Qed.
Print Assumptions C01_put.

(** the container model refines the image-of-pixels model used for the other properties *)
Theorem C01_refines : forall S c, 1 <= c <= 255 -> forall (b : ibuf S), valid c b ->
  wf (to_img c b) /\
  (forall x y, 0 <= x -> 0 <= y -> bget c b x y = get_pixel (to_img c b) x y) /\
  (forall x y p, 0 <= x < bw b -> 0 <= y < bh b -> zlen p = c ->
     exists b', bput c b x y p = Ok b' /\ put_pixel (to_img c b) x y p = Ok (to_img c b')).
Proof.
  intros S c Hc b V. split; [apply to_img_wf; auto|]. split; [intros; apply to_img_get; auto|].
  intros x y p Hx Hy Hp. destruct (to_img_put c Hc b x y p V Hx Hy Hp) as (b' & im & E1 & E2 & <-). eauto.
Qed.
Print Assumptions C01_refines.

Example C01_ex :
  from_raw 2 2 2 [1;2;3;4;5;6;7;8;99] = Some (mkBuf 2 2 [1;2;3;4;5;6;7;8;99]) /\
  from_raw 2 2 2 [1;2;3;4;5;6;7] = None /\
  bget 2 (mkBuf 2 2 [1;2;3;4;5;6;7;8;99]) 1 1 = Ok [7;8] /\
  bput 2 (mkBuf 2 2 [1;2;3;4;5;6;7;8;99]) 0 1 [50;60] = Ok (mkBuf 2 2 [1;2;3;4;50;60;7;8;99]).
Proof. repeat split. Qed.

(** ** C02 *)
Theorem C02_checked_exact_container : forall S c, 1 <= c <= 255 -> forall (b : ibuf S) x y,
  valid c b -> zlen (data b) = bw b * bh b * c -> is_u32 x -> is_u32 y ->
  (x < bw b /\ y < bh b -> exists p, bget_checked c b x y = Some p /\ bget c b x y = Ok p) /\
  (bw b <= x \/ bh b <= y -> bget_checked c b x y = None).
Proof.
  intros S c Hc b x y V Hd Hx Hy. rewrite (bget_checked_exact c Hc b x y V Hd Hx Hy). unfold is_u32 in *.
  split; intros H.
  - replace ((x <? bw b) && (y <? bh b)) with true by lia. eexists; split; [reflexivity|].
    apply bget_in; auto; lia.
  - replace ((x <? bw b) && (y <? bh b)) with false by lia. reflexivity.
Qed.
Print Assumptions C02_checked_exact_container.

(** For a container longer than the image (which from_raw accepts) Some is returned outside. *)
Theorem C02_checked_refuted : exists (b : ibuf Z) x y,
  from_raw 1 (bw b) (bh b) (data b) = Some b /\ bh b <= y /\
  bget_checked 1 b x y <> None /\ bget 1 b x y = Panic.
Proof. exists (mkBuf 2 1 [1;2;3;4]), 0, 1. repeat split; cbv; discriminate. Qed.
Print Assumptions C02_checked_refuted.

Example C02_ex : bget_checked 1 (mkBuf 2 2 [1;2;3;4]) 1 1 = Some [4] /\
  bget_checked 1 (mkBuf 2 2 [1;2;3;4]) 1 2 = None /\ valid 1 (mkBuf 2 2 [1;2;3;4]).
Proof. repeat split; cbv; discriminate. Qed.

(** ** C03 *)
(** pixels(): any mixture of next and next_back *)
Theorem C03_pixels : forall S c, 1 <= c <= 255 -> forall (b : ibuf S), valid c b ->
  exists v, pixels c b = Ok v /\ pixels_len c v = bw b * bh b /\
    forall ds, ce_run c v ds = deque_run (all_pixels c b) ds.
Proof. exact @pixels_deque. Qed.
Print Assumptions C03_pixels.

(** [all_pixels] is the row-major list of what get_pixel returns *)
Theorem C03_all_pixels_meaning : forall S c, 1 <= c <= 255 -> forall (b : ibuf S), valid c b ->
  zlen (all_pixels c b) = bw b * bh b /\
  forall i, 0 <= i < bw b * bh b ->
    exists p, zget (all_pixels c b) i = Some p /\ bget c b (i mod bw b) (i / bw b) = Ok p.
Proof.
  intros S c Hc b V. pose proof V as (V1 & V2 & _). unfold is_u32 in *. split.
  - unfold all_pixels. rewrite zlen_map. apply zlen_coords; lia.
  - intros i Hi. assert (0 < bw b) by nia.
    pose proof (Z.mod_pos_bound i (bw b) ltac:(lia)). pose proof (Z.div_mod i (bw b) ltac:(lia)).
    assert (0 <= i / bw b < bh b) by (split; [apply Z.div_pos; lia|apply Z.div_lt_upper_bound; nia]).
    unfold all_pixels. rewrite zget_map, zget_coords by lia. cbn [option_map fst snd].
    eexists; split; [reflexivity|]. apply bget_in; auto; lia.
Qed.
Print Assumptions C03_all_pixels_meaning.

(** rows(): any mixture of next and next_back; each row is itself a pixel iterator.  (A zero-width
    image has no rows whatever its height.) *)
Theorem C03_rows : forall S c, 1 <= c <= 255 -> forall (b : ibuf S), valid c b ->
  exists s, rows c b = Ok s /\ rows_len s = (if bw b =? 0 then 0 else bh b) /\
    forall ds, rows_run c s ds =
      Ok (deque_run (if bw b =? 0 then [] else map (row_state c b) (zrange 0 (bh b))) ds).
Proof. exact @rows_deque. Qed.
Print Assumptions C03_rows.
Theorem C03_row : forall S c, 1 <= c <= 255 -> forall (b : ibuf S) y, valid c b -> 0 <= y < bh b ->
  forall ds, ce_run c (row_state c b y) ds = deque_run (row_pixels c b y) ds.
Proof. exact @row_deque. Qed.
Print Assumptions C03_row.

(** enumerate_pixels(): n+1 calls of next with the len() after each; then None *)
Theorem C03_enumerate_pixels : forall S c, 1 <= c <= 255 -> forall (b : ibuf S), valid c b ->
  exists s, enumerate_pixels c b = Ok s /\
    enum_run c (Z.to_nat (bw b * bh b) + 1) s =
    Ok (enum_items (map (fun xy => (fst xy, snd xy, pixel_samples c b (fst xy) (snd xy))) (coords (bw b) (bh b)))).
Proof. exact @enumerate_pixels_spec. Qed.
Print Assumptions C03_enumerate_pixels.

(** enumerate_rows(), and each of its rows *)
Theorem C03_enumerate_rows : forall S c, 1 <= c <= 255 -> forall (b : ibuf S),
  valid c b -> 0 < bw b -> bh b < u32_max ->
  exists s, rows c b = Ok s /\
    enum_rows_run c (bw b) (Z.to_nat (bh b) + 1) (s, 0) =
    Ok (map (fun y => Some (y, mkEnum (row_state c b y) 0 y (bw b))) (zrange 0 (bh b)) ++ [None]).
Proof. exact @enumerate_rows_spec. Qed.
Print Assumptions C03_enumerate_rows.
Theorem C03_enumerate_row : forall S c, 1 <= c <= 255 -> forall (b : ibuf S) y,
  valid c b -> 0 <= y < bh b -> 0 < bw b ->
  enum_run c (Z.to_nat (bw b) + 1) (mkEnum (row_state c b y) 0 y (bw b)) =
  Ok (enum_items (map (fun x => (x, y, pixel_samples c b x y)) (zrange 0 (bw b)))).
Proof. exact @enumerate_row_spec. Qed.
Print Assumptions C03_enumerate_row.

(** GenericImageView::pixels() *)
Theorem C03_generic_pixels : forall P (im : img P), wf im -> is_u32 (iw im) -> is_u32 (ih im) -> 0 < iw im ->
  exists ps, gpix_run (get_pixel im) (iw im) (ih im) (Z.to_nat (iw im * ih im) + 1) (0, 0) = Ok (map Some ps ++ [None]) /\
    map (fun p => (fst (fst p), snd (fst p))) ps = coords (iw im) (ih im) /\
    Forall (fun p => pixel im (fst (fst p)) (snd (fst p)) = Some (snd p)) ps.
Proof. exact @gpix_correct. Qed.
Print Assumptions C03_generic_pixels.

(** A zero-width image of height at least 2 has no pixels, yet the first next() panics. *)
Theorem C03_generic_zero_width_refuted : forall P (im : img P), wf im -> iw im = 0 -> 2 <= ih im ->
  zlen (px im) = 0 /\ gpix_next (get_pixel im) (iw im) (ih im) (0, 0) = Panic.
Proof.
  intros P im (_ & _ & W) E H. rewrite E in *. split; [lia|].
  unfold gpix_next. cbn [fst snd]. replace (0 <=? 0) with true by lia. unfold u32_add, u32_max. cbn [bind].
  replace (0 + 1 <=? 4294967295) with true by lia. cbn [bind].
  destruct (Z.leb_spec (ih im) (0 + 1)); [lia|]. unfold get_pixel. rewrite pixel_out by lia. reflexivity.
Qed.
Print Assumptions C03_generic_zero_width_refuted.

(** enumerate_rows() on an image of height u32::MAX: the call after the last row overflows. *)
Theorem C03_enumerate_rows_overflow_refuted : forall S c w (r : Z * list S),
  enum_rows_next c w (r, u32_max) = Panic.
Proof. intros. unfold enum_rows_next, u32_add. replace (u32_max + 1 <=? u32_max) with false by (unfold u32_max; lia). reflexivity. Qed.
Print Assumptions C03_enumerate_rows_overflow_refuted.

Example C03_ex : exists v, pixels 2 (mkBuf 2 1 [1;2;3;4]) = Ok v /\
  ce_run 2 v [Back; Front; Front] = [(Some [3;4], 1); (Some [1;2], 0); (None, 0)] /\ valid 2 (mkBuf 2 1 [1;2;3;4]).
Proof. eexists; repeat split; cbv; discriminate. Qed.
Example C03_ex2 : gpix_run (get_pixel (mkImg 2 2 [5;6;7;8])) 2 2 5 (0, 0)
  = Ok [Some (0,0,5); Some (1,0,6); Some (0,1,7); Some (1,1,8); None].
Proof. reflexivity. Qed.

(** ** C04 *)
(** [run_calls f l s]: call f on the coordinates of l in order, threading the closure's state *)
Theorem C04_from_fn : forall S c, 1 <= c <= 255 -> forall F (zero : S) w h (f : F -> Z -> Z -> list S * F) fs,
  is_u32 w -> is_u32 h -> w * h * c <= u64_max -> (forall fs x y, zlen (fst (f fs x y)) = c) ->
  exists b, from_fn c zero w h f fs = Ok (b, snd (run_calls f (coords w h) fs)) /\ valid c b /\
    bw b = w /\ bh b = h /\ data b = concat (fst (run_calls f (coords w h) fs)) /\
    px (to_img c b) = fst (run_calls f (coords w h) fs).
Proof. exact @from_fn_spec. Qed.
Print Assumptions C04_from_fn.
Theorem C04_from_fn_pure : forall S c, 1 <= c <= 255 -> forall (zero : S) w h (g : Z -> Z -> list S),
  is_u32 w -> is_u32 h -> w * h * c <= u64_max -> (forall x y, zlen (g x y) = c) ->
  exists b, from_fn c zero w h (fun (_ : unit) x y => (g x y, tt)) tt = Ok (b, tt) /\ valid c b /\ bw b = w /\ bh b = h /\
    forall x y, 0 <= x < w -> 0 <= y < h -> bget c b x y = Ok (g x y).
Proof. exact @from_fn_pure. Qed.
Print Assumptions C04_from_fn_pure.
Theorem C04_from_pixel : forall S c, 1 <= c <= 255 -> forall (zero : S) w h p,
  is_u32 w -> is_u32 h -> w * h * c <= u64_max -> zlen p = c ->
  exists b, from_pixel c zero w h p = Ok b /\ valid c b /\ bw b = w /\ bh b = h /\
    forall x y, 0 <= x < w -> 0 <= y < h -> bget c b x y = Ok p.
Proof. exact @from_pixel_spec. Qed.
Print Assumptions C04_from_pixel.
Theorem C04_too_large_panics : forall S c, 1 <= c <= 255 -> forall (zero : S) w h,
  is_u32 w -> is_u32 h -> u64_max < w * h * c -> bnew c zero w h = Panic.
Proof. exact @bnew_panics. Qed.
Print Assumptions C04_too_large_panics.
Example C04_ex : from_fn 1 0 2 2 (fun n x y => ([10 * y + x + 100 * n], n + 1)) 0
  = Ok (mkBuf 2 2 [0; 101; 210; 311], 4).
Proof. reflexivity. Qed.

(** ** C06, specialised implementation: same verdict and same pixels as the generic one, the
    samples past the image untouched.  The hypothesis 0 < sx + w \/ h = 0 excludes the empty source
    rectangle at column 0, see below. *)
Theorem C06_buffer_agrees : forall S c, 1 <= c <= 255 -> forall (b : ibuf S) sx sy w h dx dy, valid c b ->
  0 <= sx < bw b -> 0 <= dx < bw b -> 0 <= sy < bh b -> 0 <= dy < bh b -> 0 <= w -> 0 <= h ->
  (0 < sx + w \/ h = 0) ->
  exists ok b', bcopy_within c b sx sy w h dx dy = Ok (ok, b') /\ valid c b' /\
    (forall i, bw b * bh b * c <= i -> zget (data b') i = zget (data b) i) /\
    copy_within (to_img c b) sx sy w h dx dy = Ok (ok, to_img c b').
Proof. exact @bcopy_within_agrees. Qed.
Print Assumptions C06_buffer_agrees.

(** An empty source rectangle at column 0: the generic implementation succeeds, the specialised one
    computes sx + w - 1 and panics. *)
Theorem C06_buffer_empty_refuted : exists (b : ibuf Z) sx sy w h dx dy,
  valid 1 b /\ bcopy_within 1 b sx sy w h dx dy = Panic /\
  exists im, copy_within (to_img 1 b) sx sy w h dx dy = Ok (true, im).
Proof. exists (mkBuf 2 1 [1;2]), 0, 0, 0, 1, 1, 0. repeat split; try (cbv; discriminate). eexists; reflexivity. Qed.
Print Assumptions C06_buffer_empty_refuted.
Example C06_buffer_ex : bcopy_within 1 (mkBuf 3 2 [1;2;3;4;5;6;9]) 0 0 2 2 1 0 = Ok (true, mkBuf 3 2 [1;1;2;4;4;5;9]).
Proof. reflexivity. Qed.
