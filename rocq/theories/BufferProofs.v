From Coq Require Import Sorting.Sorted.
From Verif Require Import Base BaseLemmas ListLemmas GenImage GenImageProofs Buffer.
Local Open Scope Z_scope.

(** ** the deque discipline a double-ended exact-size iterator must follow: what each call returns
    and the len() reported afterwards *)
Inductive dir := Front | Back.
Fixpoint deque_run {A} (l : list A) (ds : list dir) : list (option A * Z) :=
  match ds with
  | [] => []
  | Front :: ds' => match l with
                    | [] => (None, 0) :: deque_run [] ds'
                    | a :: l' => (Some a, zlen l') :: deque_run l' ds'
                    end
  | Back :: ds' => match rev l with
                   | [] => (None, 0) :: deque_run [] ds'
                   | a :: r => (Some a, zlen r) :: deque_run (rev r) ds'
                   end
  end.

Section B.
Context {S : Type}.
Variable c : Z.
Hypothesis Hc : 1 <= c <= 255.

(** the invariant every constructor establishes *)
Definition valid (b : ibuf S) : Prop :=
  is_u32 (bw b) /\ is_u32 (bh b) /\ bw b * bh b * c <= zlen (data b) /\ zlen (data b) <= u64_max.

Lemma image_buffer_len_spec w h : is_u32 w -> is_u32 h ->
  image_buffer_len c w h = if w * h * c <=? u64_max then Some (w * h * c) else None.
Proof using Hc.
  unfold is_u32, u32_max. intros Hw Hh. unfold image_buffer_len, us_cmul, u64_max.
  destruct (Z.leb_spec (c * w) 18446744073709551615); [|nia].
  replace (c * w * h) with (w * h * c) by lia. reflexivity.
Qed.
Lemma from_raw_iff w h (l : list S) : is_u32 w -> is_u32 h -> zlen l <= u64_max ->
  (w * h * c <= zlen l -> from_raw c w h l = Some (mkBuf w h l) /\ valid (mkBuf w h l)) /\
  (zlen l < w * h * c -> from_raw c w h l = None).
Proof using Hc.
  intros Hw Hh Hl. unfold from_raw, check_image_fits. rewrite image_buffer_len_spec by auto.
  split; intros H.
  - destruct (Z.leb_spec (w * h * c) u64_max); [|lia]. destruct (Z.leb_spec (w * h * c) (zlen l)); [|lia].
    split; [reflexivity|]. unfold valid; cbn; auto.
  - destruct (Z.leb_spec (w * h * c) u64_max); [|reflexivity]. destruct (Z.leb_spec (w * h * c) (zlen l)); [lia|reflexivity].
Qed.

Lemma idx_c W H x y : 0 <= x < W -> 0 <= y < H -> 0 <= (y * W + x) * c /\ (y * W + x) * c + c <= W * H * c.
Proof using Hc. intros. pose proof (idx_range W H x y). nia. Qed.

Lemma indices_ok b x y : valid b -> 0 <= x < bw b -> 0 <= y < bh b ->
  pixel_indices_unchecked c b x y = Ok ((y * bw b + x) * c, (y * bw b + x) * c + c).
Proof using Hc.
  intros (Hw & Hh & Hl & Hm) Hx Hy. unfold pixel_indices_unchecked, us_mul, us_add.
  destruct (idx_c (bw b) (bh b) x y Hx Hy) as [A1 A2]. unfold is_u32 in *.
  assert (0 <= y * bw b) by nia. assert (y * bw b + x <= (y * bw b + x) * c) by nia.
  destruct (Z.leb_spec (y * bw b) u64_max); [|lia]. cbn [bind].
  destruct (Z.leb_spec (y * bw b + x) u64_max); [|lia]. cbn [bind].
  destruct (Z.leb_spec ((y * bw b + x) * c) u64_max); [|lia]. cbn [bind].
  destruct (Z.leb_spec ((y * bw b + x) * c + c) u64_max); [|lia]. reflexivity.
Qed.
Lemma bget_in b x y : valid b -> 0 <= x < bw b -> 0 <= y < bh b ->
  bget c b x y = Ok (zslice (data b) ((y * bw b + x) * c) c).
Proof using Hc.
  intros V Hx Hy. unfold bget, pixel_indices.
  replace ((bw b <=? x) || (bh b <=? y)) with false by lia. rewrite indices_ok by auto. cbn [bind].
  destruct (idx_c (bw b) (bh b) x y Hx Hy) as [A1 A2]. destruct V as (_ & _ & Hl & _).
  unfold slice_range. match goal with |- (if ?e then _ else _) = _ => replace e with true by lia end.
  f_equal. f_equal. lia.
Qed.
Lemma bget_out (b : ibuf S) x y : bw b <= x \/ bh b <= y -> bget c b x y = Panic.
Proof. intros H. unfold bget, pixel_indices. replace ((bw b <=? x) || (bh b <=? y)) with true by lia. reflexivity. Qed.

Lemma bput_in b x y p : valid b -> 0 <= x < bw b -> 0 <= y < bh b -> zlen p = c ->
  exists b', bput c b x y p = Ok b' /\ valid b' /\ bw b' = bw b /\ bh b' = bh b /\
    zlen (data b') = zlen (data b) /\
    forall i, zget (data b') i =
      if ((y * bw b + x) * c <=? i) && (i <? (y * bw b + x) * c + c)
      then zget p (i - (y * bw b + x) * c) else zget (data b) i.
Proof using Hc.
  intros V Hx Hy Hp. unfold bput, pixel_indices.
  replace ((bw b <=? x) || (bh b <=? y)) with false by lia. rewrite indices_ok by auto. cbn [bind].
  destruct (idx_c (bw b) (bh b) x y Hx Hy) as [A1 A2]. destruct V as (V1 & V2 & Hl & V4).
  unfold slice_range. match goal with |- context [if ?e then Ok _ else Panic] => replace e with true by lia end.
  cbn [bind]. eexists; split; [reflexivity|]. unfold valid. cbn [bw bh data].
  rewrite zlen_zsplice by lia. repeat split; auto; try apply V1; try apply V2.
  intros i. rewrite zget_zsplice by lia. rewrite Hp. reflexivity.
Qed.
Lemma bput_out (b : ibuf S) x y p : bw b <= x \/ bh b <= y -> bput c b x y p = Panic.
Proof. intros H. unfold bput, pixel_indices. replace ((bw b <=? x) || (bh b <=? y)) with true by lia. reflexivity. Qed.

Lemma bput_get b x y p b' x' y' : valid b -> 0 <= x < bw b -> 0 <= y < bh b -> zlen p = c ->
  0 <= x' < bw b -> 0 <= y' < bh b -> bput c b x y p = Ok b' ->
  bget c b' x' y' = if (x' =? x) && (y' =? y) then Ok p else bget c b x' y'.
Proof using Hc.
  intros V Hx Hy Hp Hx' Hy' E.
  destruct (bput_in b x y p V Hx Hy Hp) as (b1 & E1 & V1 & Ew & Eh & El & Hg).
  rewrite E in E1. apply Ok_inj in E1. subst b1.
  rewrite bget_in by (auto; lia). rewrite (bget_in b) by auto. rewrite Ew.
  pose proof (idx_inj (bw b) x y x' y') as Hinj.
  destruct (idx_c (bw b) (bh b) x y Hx Hy) as [A1 A2]. destruct (idx_c (bw b) (bh b) x' y' Hx' Hy') as [A3 A4].
  destruct V as (_ & _ & Hl & _).
  assert (Hsl : forall q, zlen q = c ->
     (forall i, 0 <= i < c -> zget (data b') ((y' * bw b + x') * c + i) = zget q i) ->
     zslice (data b') ((y' * bw b + x') * c) c = q).
  { intros q Hq H. apply zget_ext; [rewrite zlen_zslice; lia|]. intros i Hi. rewrite zlen_zslice in Hi by lia.
    rewrite zget_zslice by lia. auto. }
  destruct (Z.eqb_spec x' x) as [->|Nx]; [destruct (Z.eqb_spec y' y) as [->|Ny]|]; cbn [andb].
  - f_equal. apply Hsl; [auto|]. intros i Hi. rewrite Hg.
    match goal with |- (if ?e then _ else _) = _ => replace e with true by lia end. f_equal. lia.
  - f_equal. apply Hsl; [apply zlen_zslice; lia|]. intros i Hi. rewrite Hg, zget_zslice by lia.
    assert ((y' * bw b + x) <> (y * bw b + x)) by nia.
    match goal with |- (if ?e then _ else _) = _ => replace e with false by nia end. reflexivity.
  - f_equal. apply Hsl; [apply zlen_zslice; lia|]. intros i Hi. rewrite Hg, zget_zslice by lia.
    assert ((y' * bw b + x') <> (y * bw b + x)).
    { intros Heq. destruct (idx_inj (bw b) x' y' x y) as [? ?]; lia. }
    match goal with |- (if ?e then _ else _) = _ => replace e with false by nia end. reflexivity.
Qed.

(** ** the abstraction *)
Lemma to_img_px b : valid b ->
  px (to_img c b) = map (fun k => zslice (data b) (k * c) c) (zrange 0 (bw b * bh b)).
Proof using Hc.
  intros (V1 & V2 & V3 & V4). unfold is_u32 in *. unfold to_img. cbn [px].
  rewrite chunks_exact_slices by nia. apply map_ext. intros; f_equal; lia.
Qed.
Lemma to_img_wf b : valid b -> wf (to_img c b).
Proof using Hc.
  intros V. pose proof (to_img_px b V) as E. destruct V as (V1 & V2 & V3 & V4). unfold is_u32 in *.
  unfold wf. rewrite E, zlen_map, zlen_zrange. cbn [iw ih to_img]. nia.
Qed.
Lemma to_img_pixel b x y : valid b -> 0 <= x < bw b -> 0 <= y < bh b ->
  pixel (to_img c b) x y = Some (zslice (data b) ((y * bw b + x) * c) c).
Proof using Hc.
  intros V Hx Hy. unfold pixel.
  replace (inb (to_img c b) x y) with true by (symmetry; apply inb_iff; cbn; lia).
  rewrite to_img_px by auto. cbn [iw to_img]. rewrite zget_map, zget_zrange by (apply idx_range; auto).
  cbn [option_map]. do 2 f_equal; try lia.
Qed.
Lemma to_img_get b x y : valid b -> 0 <= x -> 0 <= y -> bget c b x y = get_pixel (to_img c b) x y.
Proof using Hc.
  intros V Hx Hy. unfold get_pixel. destruct (Z_lt_ge_dec x (bw b)), (Z_lt_ge_dec y (bh b)).
  1: rewrite bget_in, to_img_pixel by (auto; lia); reflexivity.
  all: rewrite bget_out by lia; rewrite pixel_out; [reflexivity|cbn; lia].
Qed.
Lemma to_img_put b x y p : valid b -> 0 <= x < bw b -> 0 <= y < bh b -> zlen p = c ->
  exists b' im', bput c b x y p = Ok b' /\ put_pixel (to_img c b) x y p = Ok im' /\ to_img c b' = im'.
Proof using Hc.
  intros V Hx Hy Hp.
  destruct (bput_in b x y p V Hx Hy Hp) as (b' & E & V' & Ew & Eh & El & Hg).
  destruct (put_pixel_spec (to_img c b) x y p (to_img_wf b V) Hx Hy) as (im' & E2 & W2 & Ew2 & Eh2 & Hp2).
  exists b', im'. split; [auto|]. split; [auto|].
  apply img_ext; auto; [apply to_img_wf; auto|cbn in *; congruence|cbn in *; congruence|].
  cbn [iw ih to_img]. rewrite Ew, Eh. intros x' y' Hx' Hy'. rewrite Hp2.
  pose proof (bput_get b x y p b' x' y' V Hx Hy Hp Hx' Hy' E) as G.
  rewrite !to_img_get in G by (auto; lia). unfold get_pixel in G.
  destruct (pixel_in (to_img c b') x' y' (to_img_wf b' V') ltac:(cbn; lia) ltac:(cbn; lia)) as [q Hq]. rewrite Hq in *.
  destruct ((x' =? x) && (y' =? y)); [congruence|].
  destruct (pixel (to_img c b) x' y'); congruence.
Qed.

(** ** checked access *)
Lemma bget_checked_exact b x y : valid b -> zlen (data b) = bw b * bh b * c -> is_u32 x -> is_u32 y ->
  bget_checked c b x y =
    if (x <? bw b) && (y <? bh b) then Some (zslice (data b) ((y * bw b + x) * c) c) else None.
Proof using Hc.
  intros (V1 & V2 & V3 & V4) Hd Hx Hy. unfold is_u32, u32_max in *. unfold bget_checked.
  destruct (Z.leb_spec (bw b) x); [replace (x <? bw b) with false by lia; reflexivity|].
  replace (x <? bw b) with true by lia. cbn [andb].
  assert (E1 : us_sat_mul y (bw b) = y * bw b) by (unfold us_sat_mul, u64_max; nia).
  rewrite E1. assert (E2 : us_sat_add (y * bw b) x = y * bw b + x) by (unfold us_sat_add, u64_max; nia).
  rewrite E2. cbv zeta.
  destruct (Z.ltb_spec y (bh b)).
  - destruct (idx_c (bw b) (bh b) x y) as [A1 A2]; try lia.
    unfold us_sat_mul. rewrite Z.min_r by lia.
    destruct (Z.leb_spec ((y * bw b + x) * c + c) u64_max); [|lia].
    destruct (Z.leb_spec ((y * bw b + x) * c + c) (zlen (data b))); [|lia]. reflexivity.
  - destruct (Z.leb_spec (us_sat_mul (y * bw b + x) c + c) u64_max); [|reflexivity].
    destruct (Z.leb_spec (us_sat_mul (y * bw b + x) c + c) (zlen (data b))); [|reflexivity].
    exfalso. assert (Q1 : bh b * bw b <= y * bw b) by (apply Z.mul_le_mono_nonneg_r; lia).
    assert (Q2 : bw b * bh b * c <= (y * bw b + x) * c) by (apply Z.mul_le_mono_nonneg_r; lia).
    unfold us_sat_mul in *. lia.
Qed.

(** ** chunk iterators *)
Fixpoint ce_run (n : Z) (v : list S) (ds : list dir) : list (option (list S) * Z) :=
  match ds with
  | [] => []
  | Front :: ds' => let (o, v') := ce_next n v in (o, ce_len n v') :: ce_run n v' ds'
  | Back :: ds' => let (o, v') := ce_next_back n v in (o, ce_len n v') :: ce_run n v' ds'
  end.
Lemma ce_len_concat n (ls : list (list S)) : 0 < n -> Forall (fun l => zlen l = n) ls -> ce_len n (concat ls) = zlen ls.
Proof. intros Hn HF. unfold ce_len. rewrite (zlen_concat n) by auto. apply Z.div_mul. lia. Qed.
Lemma ce_run_deque n (ls : list (list S)) ds : 0 < n -> Forall (fun l => zlen l = n) ls ->
  ce_run n (concat ls) ds = deque_run ls ds.
Proof.
  intros Hn. revert ls; induction ds as [|[] ds IH]; intros ls HF; cbn [ce_run deque_run]; [reflexivity| |].
  - destruct ls as [|a ls]; cbn [concat].
    + unfold ce_next. change (zlen (@nil S)) with 0. replace (0 <? n) with true by lia. unfold ce_len. change (zlen (@nil S)) with 0. change (zlen (@nil (list S))) with 0. rewrite Z.div_0_l by lia.
      f_equal. apply (IH [] HF).
    + inversion HF; subst. unfold ce_next. rewrite zlen_app. pose proof (zlen_nonneg (concat ls)).
      replace (zlen a + zlen (concat ls) <? zlen a) with false by lia.
      rewrite zslice_app_l by auto.
      replace (skipn (Z.to_nat (zlen a)) (a ++ concat ls)) with (concat ls).
      2:{ unfold zlen. rewrite Nat2Z.id, skipn_app, skipn_all, Nat.sub_diag. reflexivity. }
      rewrite ce_len_concat by auto. f_equal. auto.
  - destruct (rev ls) as [|a r] eqn:Er.
    + assert (ls = []) by (rewrite <- (rev_involutive ls), Er; reflexivity). subst ls. cbn [concat].
      unfold ce_next_back. change (zlen (@nil S)) with 0. replace (0 <? n) with true by lia. unfold ce_len. change (zlen (@nil S)) with 0. change (zlen (@nil (list S))) with 0. rewrite Z.div_0_l by lia.
      f_equal. apply (IH [] HF).
    + assert (El : ls = rev r ++ [a]) by (rewrite <- (rev_involutive ls), Er; reflexivity). subst ls.
      apply Forall_app in HF as [HF1 HF2]. inversion HF2; subst. rewrite concat_app. cbn [concat]. rewrite app_nil_r.
      unfold ce_next_back. rewrite zlen_app. pose proof (zlen_nonneg (concat (rev r))).
      replace (zlen (concat (rev r)) + zlen a <? zlen a) with false by lia.
      replace (zlen (concat (rev r)) + zlen a - zlen a) with (zlen (concat (rev r))) by lia.
      rewrite zslice_app2 by lia. rewrite Z.sub_diag, zslice_all.
      replace (firstn (Z.to_nat (zlen (concat (rev r)))) (concat (rev r) ++ a)) with (concat (rev r)).
      2:{ unfold zlen. rewrite Nat2Z.id, firstn_app, Nat.sub_diag, firstn_all. cbn. rewrite app_nil_r. reflexivity. }
      rewrite ce_len_concat by auto. rewrite zlen_rev. f_equal. auto.
Qed.
Lemma ce_new_concat n (ls : list (list S)) : 0 < n -> Forall (fun l => zlen l = n) ls ->
  ce_new n (concat ls) = Ok (concat ls).
Proof.
  intros Hn HF. unfold ce_new. destruct (Z.eqb_spec n 0); [lia|]. f_equal. apply firstn_all2.
  pose proof (zlen_concat n ls HF) as E. rewrite E, Z.div_mul by lia. rewrite <- E. unfold zlen. lia.
Qed.

(** the samples of every pixel in row-major order, and of one row *)
Definition pixel_samples (b : ibuf S) (x y : Z) : list S := zslice (data b) ((y * bw b + x) * c) c.
Definition all_pixels (b : ibuf S) : list (list S) :=
  map (fun xy => pixel_samples b (fst xy) (snd xy)) (coords (bw b) (bh b)).
Definition row_pixels (b : ibuf S) (y : Z) : list (list S) :=
  map (fun x => pixel_samples b x y) (zrange 0 (bw b)).

Lemma all_pixels_eq b : valid b -> all_pixels b = map (fun k => zslice (data b) (k * c) c) (zrange 0 (bw b * bh b)).
Proof.
  intros (V1 & V2 & _). unfold all_pixels, pixel_samples. rewrite <- (coords_idx (bw b) (bh b)) by apply V1 || apply V2.
  rewrite map_map. reflexivity.
Qed.
Lemma inner_pixels_eq b : valid b -> inner_pixels c b = Ok (concat (all_pixels b)).
Proof using Hc.
  intros V. rewrite all_pixels_eq by auto. destruct V as (V1 & V2 & V3 & V4). unfold inner_pixels.
  rewrite image_buffer_len_spec by auto. destruct (Z.leb_spec (bw b * bh b * c) u64_max); [|lia].
  unfold is_u32 in *. unfold slice_range.
  match goal with |- (if ?e then _ else _) = _ => replace e with true by nia end.
  f_equal. rewrite Z.sub_0_r. rewrite <- (concat_slices c (data b) 0 (bw b * bh b)) by nia.
  f_equal; try (apply map_ext; intros; f_equal; lia).
Qed.
Lemma all_pixels_len b : valid b -> Forall (fun l => zlen l = c) (all_pixels b).
Proof using Hc.
  intros V. rewrite all_pixels_eq by auto. destruct V as (V1 & V2 & V3 & V4).
  apply Forall_map_iff, Forall_forall. intros k Hk. apply In_zrange in Hk.
  assert ((k + 1) * c <= bw b * bh b * c) by (apply Z.mul_le_mono_nonneg_r; lia).
  apply zlen_zslice; nia.
Qed.
Lemma pixels_deque b : valid b ->
  exists v, pixels c b = Ok v /\ pixels_len c v = bw b * bh b /\ forall ds, ce_run c v ds = deque_run (all_pixels b) ds.
Proof using Hc.
  intros V. exists (concat (all_pixels b)). unfold pixels. rewrite inner_pixels_eq by auto. cbn [bind].
  pose proof (all_pixels_len b V). rewrite ce_new_concat by (auto; lia). split; [reflexivity|]. split.
  - unfold pixels_len. rewrite ce_len_concat by (auto; lia). unfold all_pixels. rewrite zlen_map.
    destruct V as (V1 & V2 & _). apply zlen_coords; [apply V1|apply V2].
  - intros ds. apply ce_run_deque; auto; lia.
Qed.

(** ** rows *)
Fixpoint rows_run (s : Z * list S) (ds : list dir) : res (list (option (list S) * Z)) :=
  match ds with
  | [] => Ok []
  | Front :: ds' => '(o, s') <- rows_next c s ;; t <- rows_run s' ds' ;; Ok ((o, rows_len s') :: t)
  | Back :: ds' => '(o, s') <- rows_next_back c s ;; t <- rows_run s' ds' ;; Ok ((o, rows_len s') :: t)
  end.
Lemma rows_run_ce n ls ds : 0 < n -> Forall (fun l => zlen l = n) ls ->
  (forall l, zlen l = n -> In l ls -> ce_new c l = Ok l) ->
  rows_run (n, concat ls) ds = Ok (deque_run ls ds).
Proof.
  intros Hn. revert ls; induction ds as [|[] ds IH]; intros ls HF Hr; cbn [rows_run deque_run]; [reflexivity| |].
  - pose proof (ce_run_deque n ls [Front] Hn HF) as E. cbn [ce_run deque_run] in E.
    unfold rows_next. cbn [fst snd].
    destruct ls as [|a ls]; cbn [concat] in *.
    + unfold ce_next in *. rewrite zlen_nil in *. replace (0 <? n) with true in * by lia. cbn [bind].
      pose proof (IH [] HF) as IH0; cbn [concat] in IH0; rewrite IH0 by (intros ? ? []). unfold rows_len, ce_len. cbn [fst snd bind]. change (zlen (@nil S)) with 0; change (zlen (@nil (list S))) with 0. rewrite Z.div_0_l by lia. reflexivity.
    + inversion HF; subst. unfold ce_next in *. rewrite zlen_app in *. pose proof (zlen_nonneg (concat ls)).
      replace (zlen a + zlen (concat ls) <? zlen a) with false in * by lia.
      rewrite zslice_app_l in * by auto. rewrite Hr by (cbn; auto). cbn [bind].
      replace (skipn (Z.to_nat (zlen a)) (a ++ concat ls)) with (concat ls).
      2:{ unfold zlen. rewrite Nat2Z.id, skipn_app, skipn_all, Nat.sub_diag. reflexivity. }
      rewrite IH by (auto; intros; apply Hr; cbn; auto). cbn [bind]. unfold rows_len. cbn [fst snd].
      rewrite ce_len_concat by auto. reflexivity.
  - unfold rows_next_back. cbn [fst snd]. destruct (rev ls) as [|a r] eqn:Er.
    + assert (ls = []) by (rewrite <- (rev_involutive ls), Er; reflexivity). subst ls. cbn [concat].
      unfold ce_next_back. rewrite zlen_nil. replace (0 <? n) with true by lia. cbn [bind].
      pose proof (IH [] HF) as IH0; cbn [concat] in IH0; rewrite IH0 by (intros ? ? []). unfold rows_len, ce_len. cbn [fst snd bind]. change (zlen (@nil S)) with 0; change (zlen (@nil (list S))) with 0. rewrite Z.div_0_l by lia. reflexivity.
    + assert (El : ls = rev r ++ [a]) by (rewrite <- (rev_involutive ls), Er; reflexivity). subst ls.
      apply Forall_app in HF as [HF1 HF2]. inversion HF2; subst. rewrite concat_app. cbn [concat]. rewrite app_nil_r.
      unfold ce_next_back. rewrite zlen_app. pose proof (zlen_nonneg (concat (rev r))).
      replace (zlen (concat (rev r)) + zlen a <? zlen a) with false by lia.
      replace (zlen (concat (rev r)) + zlen a - zlen a) with (zlen (concat (rev r))) by lia.
      rewrite zslice_app2 by lia. rewrite Z.sub_diag, zslice_all.
      rewrite Hr by (auto; apply in_or_app; cbn; auto). cbn [bind].
      replace (firstn (Z.to_nat (zlen (concat (rev r)))) (concat (rev r) ++ a)) with (concat (rev r)).
      2:{ unfold zlen. rewrite Nat2Z.id, firstn_app, Nat.sub_diag, firstn_all. cbn. rewrite app_nil_r. reflexivity. }
      rewrite IH by (auto; intros; apply Hr; auto; apply in_or_app; auto). cbn [bind].
      unfold rows_len. cbn [fst snd]. rewrite ce_len_concat by auto. rewrite zlen_rev. reflexivity.
Qed.
Definition row_state (b : ibuf S) (y : Z) : list S := concat (row_pixels b y).
Lemma row_pixels_len b y : valid b -> 0 <= y < bh b -> Forall (fun l => zlen l = c) (row_pixels b y).
Proof using Hc.
  intros (V1 & V2 & V3 & V4) Hy. unfold row_pixels, pixel_samples.
  apply Forall_map_iff, Forall_forall. intros x Hx. apply In_zrange in Hx.
  destruct (idx_c (bw b) (bh b) x y) as [A1 A2]; try lia. apply zlen_zslice; lia.
Qed.
Lemma row_state_eq b y : valid b -> 0 <= y < bh b -> row_state b y = zslice (data b) (y * (bw b * c)) (bw b * c).
Proof using Hc.
  intros (V1 & V2 & V3 & V4) Hy. unfold is_u32 in *. unfold row_state, row_pixels, pixel_samples.
  rewrite <- (concat_slices c (data b) (y * (bw b * c)) (bw b)) by nia.
  f_equal. apply map_ext. intros x. f_equal. lia.
Qed.
Lemma rows_deque b : valid b ->
  exists s, rows c b = Ok s /\
    rows_len s = (if bw b =? 0 then 0 else bh b) /\
    forall ds, rows_run s ds = Ok (deque_run (if bw b =? 0 then [] else map (row_state b) (zrange 0 (bh b))) ds).
Proof using Hc.
  intros V. pose proof V as (V1 & V2 & V3 & V4). unfold is_u32, u32_max in *. unfold rows, us_mul.
  destruct (Z.leb_spec (bw b * c) u64_max) as [_|H]; [|unfold u64_max in H; nia]. cbn [bind].
  destruct (Z.eqb_spec (bw b) 0) as [E0|N0].
  - rewrite E0. cbn [Z.mul Z.eqb bind ce_new]. eexists; split; [reflexivity|].
    change (firstn (Z.to_nat (zlen (@nil S) / 1 * 1)) (@nil S)) with (concat (@nil (list S))).
    split; [reflexivity|]. intros ds. apply rows_run_ce; [lia|constructor|intros ? ? []].
  - destruct (Z.eqb_spec (bw b * c) 0); [nia|].
    replace (bw b * c * bh b) with (bw b * bh b * c) by lia.
    destruct (Z.leb_spec (bw b * bh b * c) u64_max); [|lia]. cbn [bind].
    destruct (Z.leb_spec (bw b * bh b * c) (zlen (data b))); [|lia].
    assert (Es : zslice (data b) 0 (bw b * bh b * c) = concat (map (row_state b) (zrange 0 (bh b)))).
    { replace (bw b * bh b * c) with (bh b * (bw b * c)) by lia.
      rewrite <- (concat_slices (bw b * c) (data b) 0 (bh b)) by nia. f_equal. apply map_ext_in.
      intros y Hy. apply In_zrange in Hy. rewrite row_state_eq by (auto; lia). f_equal; lia. }
    assert (HF : Forall (fun l => zlen l = bw b * c) (map (row_state b) (zrange 0 (bh b)))).
    { apply Forall_map_iff, Forall_forall. intros y Hy. apply In_zrange in Hy.
      rewrite row_state_eq by (auto; lia). apply zlen_zslice; nia. }
    rewrite Es, ce_new_concat by (auto; nia). cbn [bind]. eexists; split; [reflexivity|]. split.
    + unfold rows_len. cbn [fst snd]. rewrite ce_len_concat by (auto; nia). rewrite zlen_map, zlen_zrange. lia.
    + intros ds. apply rows_run_ce; [nia|auto|]. intros l _ Hin. apply in_map_iff in Hin as (y & <- & Hy).
      apply In_zrange in Hy. unfold row_state. apply ce_new_concat; [lia|]. apply row_pixels_len; auto; lia.
Qed.
Lemma row_deque b y : valid b -> 0 <= y < bh b ->
  forall ds, ce_run c (row_state b y) ds = deque_run (row_pixels b y) ds.
Proof using Hc. intros V Hy ds. apply ce_run_deque; [lia|]. apply row_pixels_len; auto. Qed.

(** ** enumeration *)
Fixpoint enum_run (n : nat) (s : enumst) : res (list (option (Z * Z * list S) * Z)) :=
  match n with
  | O => Ok []
  | Datatypes.S n' => '(o, s') <- enum_next c s ;; t <- enum_run n' s' ;; Ok ((o, enum_len c s') :: t)
  end.
(** what a for loop sees: every item, then None *)
Definition enum_items {A} (its : list A) : list (option A * Z) :=
  map (fun k => (zget its k, Z.max 0 (zlen its - 1 - k))) (zrange 0 (zlen its + 1)).
Lemma enum_items_cons {A} (a : A) its : enum_items (a :: its) = (Some a, zlen its) :: enum_items its.
Proof.
  unfold enum_items. rewrite zlen_cons. pose proof (zlen_nonneg its).
  rewrite (zrange_cons 0 (1 + zlen its + 1)) by lia. cbn [map]. f_equal.
  - rewrite zget_cons. cbn [Z.eqb]. f_equal. lia.
  - rewrite map_zrange_shift. replace (1 + zlen its + 1 - 1) with (zlen its + 1) by lia.
    apply map_ext_in. intros k Hk. apply In_zrange in Hk. rewrite zget_cons.
    destruct (Z.eqb_spec (0 + 1 + k) 0); [lia|]. f_equal; [f_equal; lia|lia].
Qed.
Lemma enum_run_spec (ls : list (list S)) w x y i H :
  0 < w <= u32_max -> Forall (fun l => zlen l = c) ls ->
  y * w + x = i -> 0 <= x <= w -> 0 <= y -> H <= u32_max -> i + zlen ls <= w * H ->
  enum_run (length ls + 1) (mkEnum (concat ls) x y w) =
  Ok (enum_items (map (fun kp => (fst kp mod w, fst kp / w, snd kp)) (combine (zrange i (zlen ls)) ls))).
Proof using Hc.
  intros Hw HF. revert x y i. induction HF as [|a ls Ha HF IH]; intros x y i Hi Hx Hy HH Hb.
  - cbn [length Nat.add enum_run]. unfold enum_next. cbn [e_w e_x e_y e_px concat].
    rewrite zlen_nil in Hb.
    assert (E : exists x1 y1, (if w <=? x then y0 <- u32_add y 1;; Ok (0, y0) else Ok (x, y)) = Ok (x1, y1) /\ 0 <= x1 < w).
    { destruct (Z.leb_spec w x).
      - unfold u32_add. destruct (Z.leb_spec (y + 1) u32_max); [|nia]. cbn [bind]. exists 0, (y + 1). split; [auto|lia].
      - exists x, y. split; [auto|lia]. }
    destruct E as (x1 & y1 & -> & Hx1). cbn [bind]. unfold u32_add.
    destruct (Z.leb_spec (x1 + 1) u32_max); [|lia]. cbn [bind].
    unfold pixels_next, ce_next. rewrite zlen_nil. replace (0 <? c) with true by lia. cbn [bind].
    unfold enum_len, pixels_len, ce_len. cbn [e_px]. change (zlen (@nil S)) with 0; rewrite Z.div_0_l by lia. reflexivity.
  - rewrite zlen_cons in Hb. cbn [length Nat.add enum_run]. unfold enum_next at 1. cbn [e_w e_x e_y e_px].
    pose proof (zlen_nonneg ls) as Hnn.
    assert (E : (if w <=? x then y0 <- u32_add y 1;; Ok (0, y0) else Ok (x, y)) = Ok (i mod w, i / w)).
    { destruct (Z.leb_spec w x).
      - unfold u32_add. destruct (Z.leb_spec (y + 1) u32_max); [|nia]. cbn [bind].
        assert (Ei : i = (y + 1) * w) by nia. rewrite Ei, Z.mod_mul, Z.div_mul by lia. reflexivity.
      - assert (i mod w = x) by (symmetry; apply (Z.mod_unique i w y x); [left; lia|lia]).
        assert (i / w = y) by (symmetry; apply (Z.div_unique i w y x); [left; lia|lia]). congruence. }
    rewrite E. cbn [bind]. pose proof (Z.mod_pos_bound i w ltac:(lia)). pose proof (Z.div_mod i w ltac:(lia)).
    unfold u32_add. destruct (Z.leb_spec (i mod w + 1) u32_max); [|lia]. cbn [bind].
    unfold pixels_next, ce_next. cbn [concat]. rewrite zlen_app. pose proof (zlen_nonneg (concat ls)).
    rewrite Ha. replace (c + zlen (concat ls) <? c) with false by lia.
    rewrite zslice_app_l by auto.
    replace (skipn (Z.to_nat c) (a ++ concat ls)) with (concat ls).
    2:{ rewrite <- Ha. unfold zlen. rewrite Nat2Z.id, skipn_app, skipn_all, Nat.sub_diag. reflexivity. }
    cbn [bind]. rewrite (IH (i mod w + 1) (i / w) (i + 1)); [|lia|lia|apply Z.div_pos; nia|auto|lia].
    cbn [bind]. unfold enum_len, pixels_len. cbn [e_px]. rewrite ce_len_concat by (auto; lia).
    rewrite zlen_cons. rewrite (zrange_cons i) by lia. cbn [combine map fst snd]. rewrite enum_items_cons.
    replace (1 + zlen ls - 1) with (zlen ls) by lia. do 3 f_equal.
    rewrite zlen_map. unfold zlen at 2. rewrite combine_length. 
    pose proof (zlen_zrange (i + 1) (zlen ls)). unfold zlen in *. lia.
Qed.
Lemma combine_map_same {A B C} (f : A -> B) (g : A -> C) l : combine (map f l) (map g l) = map (fun a => (f a, g a)) l.
Proof. induction l; cbn; congruence. Qed.
Lemma enumerate_pixels_spec b : valid b ->
  exists s, enumerate_pixels c b = Ok s /\
    enum_run (Z.to_nat (bw b * bh b) + 1) s =
    Ok (enum_items (map (fun xy => (fst xy, snd xy, pixel_samples b (fst xy) (snd xy))) (coords (bw b) (bh b)))).
Proof using Hc.
  intros V. pose proof V as (V1 & V2 & V3 & V4). unfold is_u32 in *. unfold enumerate_pixels, pixels.
  rewrite inner_pixels_eq by auto. cbn [bind]. pose proof (all_pixels_len b V) as HL.
  rewrite ce_new_concat by (auto; lia). cbn [bind]. eexists; split; [reflexivity|].
  assert (Hn : zlen (all_pixels b) = bw b * bh b) by (unfold all_pixels; rewrite zlen_map; apply zlen_coords; lia).
  destruct (Z.eq_dec (bw b) 0) as [E0|N0].
  - unfold all_pixels. rewrite E0, coords_0. cbn [map concat Z.mul Z.to_nat Nat.add enum_run].
    unfold enum_next. cbn [e_w e_x e_y e_px]. cbn [Z.leb Z.compare]. unfold u32_add, u32_max. cbn [Z.add Z.leb Z.compare bind].
    cbn. unfold pixels_next, ce_next. rewrite zlen_nil. replace (0 <? c) with true by lia. cbn [bind].
    unfold enum_len, pixels_len, ce_len. cbn [e_px]. change (zlen (@nil S)) with 0; rewrite Z.div_0_l by lia. reflexivity.
  - replace (Z.to_nat (bw b * bh b)) with (length (all_pixels b)) by (unfold zlen in Hn; lia).
    rewrite (enum_run_spec (all_pixels b) (bw b) 0 0 0 (bh b)); try lia; auto.
    rewrite Hn. do 2 f_equal. unfold all_pixels. rewrite <- (coords_idx (bw b) (bh b)) by lia.
    rewrite combine_map_same, map_map. apply map_ext_in. intros [x y] Hin. apply In_coords in Hin. cbn [fst snd].
    assert ((y * bw b + x) mod bw b = x) by (symmetry; apply (Z.mod_unique _ (bw b) y x); [left; lia|lia]).
    assert ((y * bw b + x) / bw b = y) by (symmetry; apply (Z.div_unique _ (bw b) y x); [left; lia|lia]).
    congruence.
Qed.
(** one item of enumerate_rows: its inner iterator yields that row's pixels with coordinates *)
Lemma enumerate_row_spec b y : valid b -> 0 <= y < bh b -> 0 < bw b ->
  enum_run (Z.to_nat (bw b) + 1) (mkEnum (row_state b y) 0 y (bw b)) =
  Ok (enum_items (map (fun x => (x, y, pixel_samples b x y)) (zrange 0 (bw b)))).
Proof using Hc.
  intros V Hy Hw. pose proof V as (V1 & V2 & V3 & V4). unfold is_u32 in *. unfold row_state.
  assert (Hn : zlen (row_pixels b y) = bw b) by (unfold row_pixels; rewrite zlen_map, zlen_zrange; lia).
  replace (Z.to_nat (bw b)) with (length (row_pixels b y)) by (unfold zlen in Hn; lia).
  rewrite (enum_run_spec (row_pixels b y) (bw b) 0 y (y * bw b) (bh b)); try lia; try nia.
  - rewrite Hn. do 2 f_equal. unfold row_pixels.
    replace (zrange (y * bw b) (bw b)) with (map (fun x => y * bw b + x) (zrange 0 (bw b)))
      by (rewrite <- (map_zrange_shift (fun x => x)), map_id; reflexivity).
    rewrite combine_map_same, map_map. apply map_ext_in. intros x Hx. apply In_zrange in Hx. cbn [fst snd].
    assert ((y * bw b + x) mod bw b = x) by (symmetry; apply (Z.mod_unique _ (bw b) y x); [left; lia|lia]).
    assert ((y * bw b + x) / bw b = y) by (symmetry; apply (Z.div_unique _ (bw b) y x); [left; lia|lia]).
    congruence.
  - apply row_pixels_len; auto.
Qed.
Fixpoint enum_rows_run (w : Z) (n : nat) (s : (Z * list S) * Z) : res (list (option (Z * @enumst S))) :=
  match n with
  | O => Ok []
  | Datatypes.S n' => '(o, s') <- enum_rows_next c w s ;; t <- enum_rows_run w n' s' ;; Ok (o :: t)
  end.
Lemma enum_rows_run_spec w n ls y : 0 < n -> Forall (fun l => zlen l = n) ls ->
  (forall l, In l ls -> ce_new c l = Ok l) -> 0 <= y -> y + zlen ls < u32_max ->
  enum_rows_run w (length ls + 1) ((n, concat ls), y) =
  Ok (map (fun kp => Some (fst kp, mkEnum (snd kp) 0 (fst kp) w)) (combine (zrange y (zlen ls)) ls) ++ [None]).
Proof.
  intros Hn HF. revert y. induction HF as [|a ls Ha HF IH]; intros y Hr Hy Hb.
  - cbn [length Nat.add enum_rows_run]. unfold enum_rows_next. rewrite zlen_nil in Hb.
    unfold u32_add. destruct (Z.leb_spec (y + 1) u32_max); [|lia]. cbn [bind].
    unfold rows_next. cbn [fst snd concat]. unfold ce_next. rewrite zlen_nil. replace (0 <? n) with true by lia.
    reflexivity.
  - rewrite zlen_cons in *. pose proof (zlen_nonneg ls). cbn [length Nat.add enum_rows_run].
    unfold enum_rows_next at 1. unfold u32_add. destruct (Z.leb_spec (y + 1) u32_max); [|lia]. cbn [bind].
    unfold rows_next. cbn [fst snd concat]. unfold ce_next. rewrite zlen_app, Ha. pose proof (zlen_nonneg (concat ls)).
    replace (n + zlen (concat ls) <? n) with false by lia. rewrite zslice_app_l by auto.
    rewrite Hr by (left; auto). cbn [bind].
    replace (skipn (Z.to_nat n) (a ++ concat ls)) with (concat ls).
    2:{ rewrite <- Ha. unfold zlen. rewrite Nat2Z.id, skipn_app, skipn_all, Nat.sub_diag. reflexivity. }
    rewrite IH by (auto; try lia; intros; apply Hr; right; auto). cbn [bind].
    rewrite (zrange_cons y) by lia. replace (1 + zlen ls - 1) with (zlen ls) by lia. reflexivity.
Qed.
Lemma enumerate_rows_spec b : valid b -> 0 < bw b -> bh b < u32_max ->
  exists s, rows c b = Ok s /\
    enum_rows_run (bw b) (Z.to_nat (bh b) + 1) (s, 0) =
    Ok (map (fun y => Some (y, mkEnum (row_state b y) 0 y (bw b))) (zrange 0 (bh b)) ++ [None]).
Proof using Hc.
  intros V Hw Hh. pose proof V as (V1 & V2 & V3 & V4). unfold is_u32, u32_max in *.
  unfold rows, us_mul. destruct (Z.leb_spec (bw b * c) u64_max) as [_|H]; [|unfold u64_max in H; nia]. cbn [bind].
  destruct (Z.eqb_spec (bw b * c) 0); [nia|].
  replace (bw b * c * bh b) with (bw b * bh b * c) by lia.
  destruct (Z.leb_spec (bw b * bh b * c) u64_max); [|lia]. cbn [bind].
  destruct (Z.leb_spec (bw b * bh b * c) (zlen (data b))); [|lia].
  assert (Es : zslice (data b) 0 (bw b * bh b * c) = concat (map (row_state b) (zrange 0 (bh b)))).
  { replace (bw b * bh b * c) with (bh b * (bw b * c)) by lia.
    rewrite <- (concat_slices (bw b * c) (data b) 0 (bh b)) by nia. f_equal. apply map_ext_in.
    intros y Hy. apply In_zrange in Hy. rewrite row_state_eq by (auto; lia). f_equal; lia. }
  assert (HF : Forall (fun l => zlen l = bw b * c) (map (row_state b) (zrange 0 (bh b)))).
  { apply Forall_map_iff, Forall_forall. intros y Hy. apply In_zrange in Hy.
    rewrite row_state_eq by (auto; lia). apply zlen_zslice; nia. }
  rewrite Es, ce_new_concat by (auto; nia). cbn [bind]. eexists; split; [reflexivity|].
  assert (Hn : zlen (map (row_state b) (zrange 0 (bh b))) = bh b) by (rewrite zlen_map, zlen_zrange; lia).
  replace (Z.to_nat (bh b)) with (length (map (row_state b) (zrange 0 (bh b)))) at 1 by (unfold zlen in Hn; lia).
  rewrite enum_rows_run_spec; auto; try nia.
  - rewrite Hn. do 2 f_equal. rewrite <- (map_id (zrange 0 (bh b))) at 1. rewrite combine_map_same, map_map.
    reflexivity.
  - intros l Hin. apply in_map_iff in Hin as (y & <- & Hy).
    apply In_zrange in Hy. unfold row_state. apply ce_new_concat; [lia|]. apply row_pixels_len; auto; lia.
  - rewrite Hn. unfold u32_max. lia.
Qed.

(** ** construction *)
Lemma bnew_spec zero w h : is_u32 w -> is_u32 h -> w * h * c <= u64_max ->
  exists b, bnew c zero w h = Ok b /\ valid b /\ bw b = w /\ bh b = h /\ data b = repeat zero (Z.to_nat (w * h * c)).
Proof using Hc.
  intros Hw Hh Hm. unfold bnew. rewrite image_buffer_len_spec by auto.
  destruct (Z.leb_spec (w * h * c) u64_max); [|lia]. eexists; split; [reflexivity|].
  unfold valid. cbn [bw bh data]. rewrite zlen_repeat. unfold is_u32 in *.
  rewrite Z2Nat.id by nia. repeat split; auto; lia.
Qed.
Lemma bnew_panics (zero : S) w h : is_u32 w -> is_u32 h -> u64_max < w * h * c -> bnew c zero w h = Panic.
Proof using Hc.
  intros Hw Hh Hm. unfold bnew. rewrite image_buffer_len_spec by auto.
  destruct (Z.leb_spec (w * h * c) u64_max); [lia|reflexivity].
Qed.

(** results and final state of calling g n times *)
Fixpoint iter_calls {St} (g : St -> list S * St) (n : nat) (st : St) : list (list S) * St :=
  match n with
  | O => ([], st)
  | Datatypes.S n' => let (p, st1) := g st in let (ps, st2) := iter_calls g n' st1 in (p :: ps, st2)
  end.
Lemma mut_loop_spec {St} (g : St -> list S * St) ls : Forall (fun l => zlen l = c) ls ->
  forall fuel done st, (length ls <= fuel)%nat ->
  mut_loop c fuel g done (concat ls) st =
  (done ++ concat (fst (iter_calls g (length ls) st)), snd (iter_calls g (length ls) st)).
Proof using Hc.
  induction 1 as [|a ls Ha HF IH]; intros fuel done st Hf; cbn [length iter_calls fst snd concat].
  - destruct fuel; cbn [mut_loop]; [reflexivity|]. rewrite zlen_nil. replace (0 <? c) with true by lia. reflexivity.
  - cbn [length] in Hf. destruct fuel as [|fuel]; [lia|]. cbn [mut_loop]. rewrite zlen_app, Ha.
    pose proof (zlen_nonneg (concat ls)). replace (c + zlen (concat ls) <? c) with false by lia.
    destruct (g st) as [p st1].
    replace (skipn (Z.to_nat c) (a ++ concat ls)) with (concat ls).
    2:{ rewrite <- Ha. unfold zlen. rewrite Nat2Z.id, skipn_app, skipn_all, Nat.sub_diag. reflexivity. }
    rewrite IH by lia. destruct (iter_calls g (length ls) st1) as [ps st2]. cbn [fst snd concat].
    rewrite app_assoc. reflexivity.
Qed.

(** the calls of a user closure with state, in the order of a list of coordinates *)
Fixpoint run_calls {F} (f : F -> Z -> Z -> list S * F) (l : list (Z * Z)) (fs : F) : list (list S) * F :=
  match l with
  | [] => ([], fs)
  | (x, y) :: l' => let (p, fs1) := f fs x y in let (ps, fs2) := run_calls f l' fs1 in (p :: ps, fs2)
  end.
Lemma iter_enum_step {F} w (f : F -> Z -> Z -> list S * F) n : 0 < w -> forall x y i fs,
  y * w + x = i -> 0 <= x <= w -> 0 <= y ->
  exists x' y', iter_calls (enum_step w f) n (x, y, fs) =
    (fst (run_calls f (map (fun k => (k mod w, k / w)) (zrange i (Z.of_nat n))) fs),
     (x', y', snd (run_calls f (map (fun k => (k mod w, k / w)) (zrange i (Z.of_nat n))) fs))).
Proof.
  intros Hw. induction n as [|n IH]; intros x y i fs Hi Hx Hy.
  - exists x, y. reflexivity.
  - rewrite (zrange_cons i) by lia. cbn [map run_calls iter_calls].
    replace (Z.of_nat (Datatypes.S n) - 1) with (Z.of_nat n) by lia.
    assert (E : (if w <=? x then (0, y + 1) else (x, y)) = (i mod w, i / w)).
    { destruct (Z.leb_spec w x).
      - assert (Ei : i = (y + 1) * w) by nia. rewrite Ei, Z.mod_mul, Z.div_mul by lia. reflexivity.
      - assert (i mod w = x) by (symmetry; apply (Z.mod_unique i w y x); [left; lia|lia]).
        assert (i / w = y) by (symmetry; apply (Z.div_unique i w y x); [left; lia|lia]). congruence. }
    replace (enum_step w f (x, y, fs)) with (let (p, fs') := f fs (i mod w) (i / w) in (p, (i mod w + 1, i / w, fs'))).
    2:{ unfold enum_step. rewrite E. reflexivity. }
    destruct (f fs (i mod w) (i / w)) as [p fs1] eqn:Ef.
    pose proof (Z.mod_pos_bound i w Hw). pose proof (Z.div_mod i w ltac:(lia)).
    destruct (IH (i mod w + 1) (i / w) (i + 1) fs1) as (x' & y' & E2); [lia|lia|apply Z.div_pos; nia|].
    exists x', y'. rewrite E2.
    destruct (run_calls f (map (fun k => (k mod w, k / w)) (zrange (i + 1) (Z.of_nat n))) fs1). reflexivity.
Qed.
Lemma run_calls_len {F} (f : F -> Z -> Z -> list S * F) l fs :
  (forall fs x y, zlen (fst (f fs x y)) = c) ->
  Forall (fun p => zlen p = c) (fst (run_calls f l fs)) /\ length (fst (run_calls f l fs)) = length l.
Proof.
  intros Hf. revert fs; induction l as [|[x y] l IH]; intros fs; cbn [run_calls]; [split; [constructor|reflexivity]|].
  destruct (f fs x y) as [p fs1] eqn:E. specialize (IH fs1). destruct (run_calls f l fs1) as [ps fs2].
  cbn [fst length] in *. destruct IH. split; [constructor; auto|congruence].
  specialize (Hf fs x y). rewrite E in Hf. exact Hf.
Qed.
Lemma from_fn_spec {F} zero w h (f : F -> Z -> Z -> list S * F) fs :
  is_u32 w -> is_u32 h -> w * h * c <= u64_max ->
  (forall fs x y, zlen (fst (f fs x y)) = c) ->
  exists b, from_fn c zero w h f fs = Ok (b, snd (run_calls f (coords w h) fs)) /\ valid b /\
    bw b = w /\ bh b = h /\ data b = concat (fst (run_calls f (coords w h) fs)) /\
    px (to_img c b) = fst (run_calls f (coords w h) fs).
Proof using Hc.
  intros Hw Hh Hm Hf. destruct (bnew_spec zero w h Hw Hh Hm) as (b0 & E0 & V0 & Ew & Eh & _).
  unfold from_fn. rewrite E0. cbn [bind]. rewrite inner_pixels_eq by auto. cbn [bind].
  destruct (Z.eqb_spec c 0); [lia|].
  pose proof (all_pixels_len b0 V0) as HL.
  assert (Hlen : length (all_pixels b0) = Z.to_nat (w * h)).
  { assert (zlen (all_pixels b0) = w * h) by (unfold all_pixels; rewrite zlen_map, Ew, Eh; apply zlen_coords; [apply Hw|apply Hh]).
    unfold zlen in *. lia. }
  rewrite mut_loop_spec; [|auto|].
  2:{ pose proof (zlen_concat c _ HL) as Hz. unfold zlen in Hz. nia. }
  rewrite Hlen. unfold is_u32 in *.
  assert (Hrun : exists x' y', iter_calls (enum_step w f) (Z.to_nat (w * h)) (0, 0, fs) =
     (fst (run_calls f (coords w h) fs), (x', y', snd (run_calls f (coords w h) fs)))).
  { destruct (Z.eq_dec w 0) as [->|Nw].
    - rewrite coords_0. cbn. exists 0, 0. reflexivity.
    - rewrite coords_map by lia. replace (zrange 0 (w * h)) with (zrange 0 (Z.of_nat (Z.to_nat (w * h)))) by (f_equal; nia).
      apply iter_enum_step; lia. }
  destruct Hrun as (x' & y' & ->). cbn [fst snd app].
  destruct (run_calls_len f (coords w h) fs Hf) as [HF HlenR].
  eexists; split; [reflexivity|]. cbn [bw bh data].
  assert (HzR : zlen (fst (run_calls f (coords w h) fs)) = w * h).
  { unfold zlen. rewrite HlenR. pose proof (zlen_coords w h). unfold zlen in *. lia. }
  assert (Hz : zlen (concat (fst (run_calls f (coords w h) fs))) = w * h * c) by (rewrite (zlen_concat c) by auto; lia).
  split; [unfold valid; cbn [bw bh data]; unfold is_u32; lia|].
  repeat split; auto. unfold to_img. cbn [px bw bh data]. rewrite <- Hz, zslice_all.
  apply chunks_exact_concat; auto. lia.
Qed.
Lemma run_calls_pure (g : Z -> Z -> list S) l : fst (run_calls (fun (_ : unit) x y => (g x y, tt)) l tt) = map (fun xy => g (fst xy) (snd xy)) l.
Proof.
  induction l as [|[x y] l IH]; cbn [run_calls map fst snd]; [reflexivity|].
  destruct (run_calls _ l tt). cbn [fst] in *. congruence.
Qed.
Lemma from_fn_pure zero w h (g : Z -> Z -> list S) :
  is_u32 w -> is_u32 h -> w * h * c <= u64_max -> (forall x y, zlen (g x y) = c) ->
  exists b, from_fn c zero w h (fun (_ : unit) x y => (g x y, tt)) tt = Ok (b, tt) /\ valid b /\ bw b = w /\ bh b = h /\
    forall x y, 0 <= x < w -> 0 <= y < h -> bget c b x y = Ok (g x y).
Proof using Hc.
  intros Hw Hh Hm Hg.
  destruct (from_fn_spec zero w h (fun (_ : unit) x y => (g x y, tt)) tt Hw Hh Hm) as (b & E & V & Ew & Eh & _ & Hpx); auto.
  exists b. rewrite E. destruct (snd _). repeat split; auto; try apply V.
  intros x y Hx Hy. rewrite to_img_get by (auto; lia). unfold get_pixel, pixel.
  replace (inb (to_img c b) x y) with true by (symmetry; apply inb_iff; cbn; lia).
  rewrite Hpx, run_calls_pure, zget_map. cbn [iw to_img]. rewrite Ew.
  pose proof (idx_range w h x y Hx Hy). rewrite zget_coords by lia. cbn [option_map fst snd].
  assert ((y * w + x) mod w = x) by (symmetry; apply (Z.mod_unique _ w y x); [left; lia|lia]).
  assert ((y * w + x) / w = y) by (symmetry; apply (Z.div_unique _ w y x); [left; lia|lia]). congruence.
Qed.
Lemma from_pixel_spec zero w h p :
  is_u32 w -> is_u32 h -> w * h * c <= u64_max -> zlen p = c ->
  exists b, from_pixel c zero w h p = Ok b /\ valid b /\ bw b = w /\ bh b = h /\
    forall x y, 0 <= x < w -> 0 <= y < h -> bget c b x y = Ok p.
Proof using Hc.
  intros Hw Hh Hm Hp. destruct (bnew_spec zero w h Hw Hh Hm) as (b0 & E0 & V0 & Ew & Eh & _).
  unfold from_pixel. rewrite E0. cbn [bind]. rewrite inner_pixels_eq by auto. cbn [bind].
  destruct (Z.eqb_spec c 0); [lia|].
  pose proof (all_pixels_len b0 V0) as HL. unfold is_u32 in *.
  assert (Hlen : length (all_pixels b0) = Z.to_nat (w * h)).
  { assert (zlen (all_pixels b0) = w * h) by (unfold all_pixels; rewrite zlen_map, Ew, Eh; apply zlen_coords; lia).
    unfold zlen in *. lia. }
  rewrite mut_loop_spec; [|auto|].
  2:{ pose proof (zlen_concat c _ HL) as Hz. unfold zlen in Hz. nia. }
  rewrite Hlen. cbn [app].
  assert (Hit : forall m, fst (iter_calls (fun _ : unit => (p, tt)) m tt) = repeat p m).
  { induction m as [|m IH]; cbn [iter_calls repeat]; [reflexivity|].
    destruct (iter_calls (fun _ : unit => (p, tt)) m tt). cbn [fst] in *. congruence. }
  rewrite Hit. eexists; split; [reflexivity|].
  assert (HF : Forall (fun l => zlen l = c) (repeat p (Z.to_nat (w * h)))).
  { apply Forall_forall. intros l Hl. apply repeat_spec in Hl. congruence. }
  assert (Hz : zlen (concat (repeat p (Z.to_nat (w * h)))) = w * h * c) by (rewrite (zlen_concat c) by auto; rewrite zlen_repeat; nia).
  assert (V : valid (mkBuf w h (concat (repeat p (Z.to_nat (w * h)))))).
  { unfold valid. cbn [bw bh data]. unfold is_u32. lia. }
  split; [auto|]. split; [reflexivity|]. split; [reflexivity|].
  intros x y Hx Hy. rewrite bget_in by (auto; cbn; lia). cbn [data bw]. f_equal.
  apply zslice_concat with (n := c); [lia|auto|]. apply zget_repeat. pose proof (idx_range w h x y). lia.
Qed.

(** ** copy_within on the sample container *)
Definition bpix (b : ibuf S) x y := pixel (to_img c b) x y.
Lemma bcopy_row_spec b w sx sy dx dy y : valid b -> 0 <= w -> 0 <= sx -> 0 <= sy -> 0 <= dx -> 0 <= dy -> 0 <= y ->
  sx < bw b -> dx < bw b -> sx + w <= bw b -> dx + w <= bw b -> sy + y < bh b -> dy + y < bh b -> 0 < sx + w ->
  exists b', bcopy_row c w sx sy dx dy b y = Ok b' /\ valid b' /\ bw b' = bw b /\ bh b' = bh b /\
    zlen (data b') = zlen (data b) /\
    (forall i, bw b * bh b * c <= i -> zget (data b') i = zget (data b) i) /\
    forall X Y, bpix b' X Y =
      if (Y =? dy + y) && (dx <=? X) && (X <? dx + w) then bpix b (X - dx + sx) (sy + y) else bpix b X Y.
Proof using Hc.
  intros V Hw Hsx Hsy Hdx Hdy Hy L1 L2 L3 L4 L5 L6 Hpos. pose proof V as (V1 & V2 & V3 & V4). unfold is_u32 in *.
  unfold bcopy_row, u32_add, u32_sub.
  destruct (Z.leb_spec (sy + y) u32_max); [|lia]. cbn [bind].
  destruct (Z.leb_spec (dy + y) u32_max); [|lia]. cbn [bind].
  rewrite (indices_ok b sx (sy + y)) by (auto; lia). cbn [bind].
  destruct (Z.leb_spec (sx + w) u32_max); [|lia]. cbn [bind].
  destruct (Z.leb_spec 1 (sx + w)); [|lia]. cbn [bind].
  rewrite (indices_ok b (sx + w - 1) (sy + y)) by (auto; lia). cbn [bind].
  rewrite (indices_ok b dx (dy + y)) by (auto; lia). cbn [bind fst snd].
  set (A := ((sy + y) * bw b + sx) * c). set (D := ((dy + y) * bw b + dx) * c).
  assert (HB : ((sy + y) * bw b + (sx + w - 1)) * c + c = A + w * c) by (unfold A; lia). rewrite HB.
  assert (HA : 0 <= A /\ A + w * c <= bw b * bh b * c).
  { unfold A. destruct (idx_c (bw b) (bh b) sx (sy + y)) as [? _]; try lia.
    destruct (idx_c (bw b) (bh b) (sx + w - 1) (sy + y)) as [_ ?]; try lia. }
  assert (HD : 0 <= D /\ D + w * c <= bw b * bh b * c).
  { unfold D. destruct (idx_c (bw b) (bh b) dx (dy + y)) as [? ?]; try lia.
    destruct (Z.eq_dec w 0) as [->|]; [lia|].
    destruct (idx_c (bw b) (bh b) (dx + w - 1) (dy + y)) as [_ ?]; try lia. }
  unfold slice_copy_within.
  match goal with |- context [if ?e then Ok _ else Panic] => replace e with true by nia end.
  cbn [bind]. replace (A + w * c - A) with (w * c) by lia.
  assert (Hl1 : zlen (zslice (data b) A (w * c)) = w * c) by (apply zlen_zslice; nia).
  set (b' := mkBuf (bw b) (bh b) (zsplice (data b) D (zslice (data b) A (w * c)))).
  assert (Hz : zlen (data b') = zlen (data b)) by (unfold b'; cbn [data]; rewrite zlen_zsplice; lia).
  assert (Hg : forall i, zget (data b') i = if (D <=? i) && (i <? D + w * c) then zget (data b) (A + (i - D)) else zget (data b) i).
  { intros i. unfold b'. cbn [data]. rewrite zget_zsplice by lia. rewrite Hl1.
    destruct ((D <=? i) && (i <? D + w * c)) eqn:E; [|reflexivity]. apply zget_zslice; lia. }
  assert (Vb : valid b') by (unfold valid; rewrite Hz; cbn [b' bw bh]; unfold is_u32; auto).
  exists b'. split; [reflexivity|]. split; [auto|]. split; [reflexivity|]. split; [reflexivity|]. split; [auto|]. split.
  { intros i Hi. rewrite Hg. replace ((D <=? i) && (i <? D + w * c)) with false by lia. reflexivity. }
  intros X Y. unfold bpix.
  destruct ((0 <=? X) && (X <? bw b) && (0 <=? Y) && (Y <? bh b)) eqn:Ein.
  2:{ rewrite (pixel_out (to_img c b') X Y) by (cbn; lia).
      destruct ((Y =? dy + y) && (dx <=? X) && (X <? dx + w)) eqn:E; [lia|]. symmetry; apply pixel_out. cbn; lia. }
  rewrite (to_img_pixel b') by (auto; cbn; lia). cbn [bw b'].
  destruct (idx_c (bw b) (bh b) X Y) as [B1 B2]; try lia.
  destruct ((Y =? dy + y) && (dx <=? X) && (X <? dx + w)) eqn:E.
  - rewrite to_img_pixel by (auto; lia). f_equal.
    destruct (idx_c (bw b) (bh b) (X - dx + sx) (sy + y)) as [B3 B4]; try lia.
    apply zget_ext; [rewrite !zlen_zslice; lia|]. intros i Hi. rewrite zlen_zslice in Hi by lia.
    rewrite !zget_zslice by lia. rewrite Hg. assert (HY : Y = dy + y) by lia.
    assert (HI : D <= (Y * bw b + X) * c + i < D + w * c).
    { subst Y. unfold D. replace (((dy + y) * bw b + X) * c + i) with (((dy + y) * bw b + dx) * c + ((X - dx) * c + i)) by ring.
      assert (0 <= (X - dx) * c) by (apply Z.mul_nonneg_nonneg; lia).
      assert ((X - dx + 1) * c <= w * c) by (apply Z.mul_le_mono_nonneg_r; lia). lia. }
    match goal with |- (if ?e then _ else _) = _ => replace e with true by lia end.
    f_equal. unfold A, D. subst Y. ring.
  - rewrite to_img_pixel by (auto; lia). f_equal.
    apply zget_ext; [rewrite !zlen_zslice; lia|]. intros i Hi. rewrite zlen_zslice in Hi by lia.
    rewrite !zget_zslice by lia. rewrite Hg.
    assert (HN : (Y * bw b + X) + 1 <= (dy + y) * bw b + dx \/ (dy + y) * bw b + dx + w <= Y * bw b + X).
    { destruct (Z.lt_trichotomy Y (dy + y)) as [Hlt|[Heq|Hgt]].
      - left. assert ((Y + 1) * bw b <= (dy + y) * bw b) by (apply Z.mul_le_mono_nonneg_r; lia). lia.
      - subst Y. lia.
      - right. assert ((dy + y + 1) * bw b <= Y * bw b) by (apply Z.mul_le_mono_nonneg_r; lia). lia. }
    assert (HN2 : (Y * bw b + X) * c + c <= D \/ D + w * c <= (Y * bw b + X) * c).
    { clear - HN Hc. unfold D. destruct HN as [HN|HN]; [left|right].
      - replace ((Y * bw b + X) * c + c) with ((Y * bw b + X + 1) * c) by ring. apply Z.mul_le_mono_nonneg_r; lia.
      - replace (((dy + y) * bw b + dx) * c + w * c) with (((dy + y) * bw b + dx + w) * c) by ring.
        apply Z.mul_le_mono_nonneg_r; lia. }
    match goal with |- (if ?e then _ else _) = _ => replace e with false by lia end. reflexivity.
Qed.

Lemma bcopy_loop w sx sy dx dy ys b : valid b -> 0 <= w -> 0 <= sx -> 0 <= sy -> 0 <= dx -> 0 <= dy ->
  sx < bw b -> dx < bw b -> sx + w <= bw b -> dx + w <= bw b -> 0 < sx + w ->
  (forall y, In y ys -> 0 <= y /\ sy + y < bh b /\ dy + y < bh b) ->
  StronglySorted (fun a a' => a <> a' /\ (dy + a <> sy + a')) ys ->
  exists b', foldM (bcopy_row c w sx sy dx dy) ys b = Ok b' /\ valid b' /\ bw b' = bw b /\ bh b' = bh b /\
    (forall i, bw b * bh b * c <= i -> zget (data b') i = zget (data b) i) /\
    (forall X Y, (forall y, In y ys -> Y <> dy + y) \/ ~ (dx <= X < dx + w) -> bpix b' X Y = bpix b X Y) /\
    (forall y X, In y ys -> dx <= X < dx + w -> bpix b' X (dy + y) = bpix b (X - dx + sx) (sy + y)).
Proof using Hc.
  intros V Hw Hsx Hsy Hdx Hdy L1 L2 L3 L4 Hpos. revert b V L1 L2 L3 L4.
  induction ys as [|y ys IH]; intros b V L1 L2 L3 L4 Hys HS.
  - exists b. cbn [foldM]. repeat split; auto; try apply V. intros ? ? [].
  - destruct (Hys y (or_introl eq_refl)) as (Y1 & Y2 & Y3).
    destruct (bcopy_row_spec b w sx sy dx dy y V) as (b1 & E1 & V1 & Ew & Eh & _ & Ht1 & Hp1); auto.
    inversion HS as [|? ? HS' HF]; subst. rewrite Forall_forall in HF.
    destruct (IH b1 V1) as (b2 & E2 & V2 & Ew2 & Eh2 & Ht2 & Hout & Hins); try lia; auto.
    { intros y' Hy'. rewrite Eh. apply Hys; right; auto. }
    exists b2. cbn [foldM]. rewrite E1. cbn [bind]. split; [auto|]. split; [auto|]. split; [congruence|]. split; [congruence|].
    split; [intros i Hi; rewrite Ht2 by (rewrite Ew, Eh; auto); auto|]. split.
    + intros X Y HN. rewrite Hout.
      * rewrite Hp1. destruct ((Y =? dy + y) && (dx <=? X) && (X <? dx + w)) eqn:E; [|reflexivity].
        destruct HN as [HN|HN]; [specialize (HN y (or_introl eq_refl)); lia|lia].
      * destruct HN as [HN|HN]; [left; intros; apply HN; right; auto|auto].
    + intros y' X [<-|Hy'] HX.
      * rewrite Hout; [|left; intros y2 Hy2; destruct (HF y2 Hy2); lia]. rewrite Hp1.
        replace ((dy + y =? dy + y) && (dx <=? X) && (X <? dx + w)) with true by lia. reflexivity.
      * rewrite Hins by auto. rewrite Hp1. destruct (HF y' Hy') as [_ Hne].
        destruct (Z.eqb_spec (sy + y') (dy + y)); [lia|]. reflexivity.
Qed.
(** the specialised copy_within agrees with the generic one, and keeps the samples past the image *)
Lemma bcopy_within_agrees b sx sy w h dx dy : valid b ->
  0 <= sx < bw b -> 0 <= dx < bw b -> 0 <= sy < bh b -> 0 <= dy < bh b -> 0 <= w -> 0 <= h ->
  (0 < sx + w \/ h = 0) ->
  exists ok b', bcopy_within c b sx sy w h dx dy = Ok (ok, b') /\ valid b' /\
    (forall i, bw b * bh b * c <= i -> zget (data b') i = zget (data b) i) /\
    copy_within (to_img c b) sx sy w h dx dy = Ok (ok, to_img c b').
Proof using Hc.
  intros V H1 H2 H3 H4 Hw Hh Hpos. pose proof (to_img_wf b V) as W.
  destruct (Z_le_gt_dec (sx + w) (bw b)) as [F1|F1]; [destruct (Z_le_gt_dec (dx + w) (bw b)) as [F2|F2];
    [destruct (Z_le_gt_dec (sy + h) (bh b)) as [F3|F3]; [destruct (Z_le_gt_dec (dy + h) (bh b)) as [F4|F4]|]|]|].
  2-5: exists false, b; unfold bcopy_within;
    replace ((sx <? bw b) && (dx <? bw b)) with true by lia;
    replace ((sy <? bh b) && (dy <? bh b)) with true by lia; cbn [negb];
    replace ((bw b - Z.max dx sx <? w) || (bh b - Z.max dy sy <? h)) with true by lia;
    (split; [reflexivity|]); (split; [auto|]); (split; [auto|]);
    apply copy_within_reject; auto; cbn; lia.
  destruct (copy_within_correct (to_img c b) sx sy w h dx dy W) as (r & Er & Wr & Ewr & Ehr & Hpr); try (cbn; lia).
  unfold bcopy_within.
  replace ((sx <? bw b) && (dx <? bw b)) with true by lia.
  replace ((sy <? bh b) && (dy <? bh b)) with true by lia. cbn [negb].
  replace ((bw b - Z.max dx sx <? w) || (bh b - Z.max dy sy <? h)) with false by lia.
  destruct Hpos as [Hpos| ->].
  - destruct (bcopy_loop w sx sy dx dy (if sy <? dy then rev (zrange 0 h) else zrange 0 h) b V)
      as (b' & E & V' & Ew & Eh & Ht & Hout & Hins); auto; try lia.
    { intros y Hy. apply In_rev_if in Hy. lia. }
    { destruct (Z.ltb_spec sy dy).
      - apply SS_rev. eapply SS_impl; [|apply SS_zrange]. intros; cbn; lia.
      - eapply SS_impl; [|apply SS_zrange]. intros; cbn; lia. }
    rewrite E. cbn [bind]. exists true, b'. split; [reflexivity|]. split; [auto|]. split; [auto|].
    rewrite Er. do 2 f_equal. symmetry. apply img_ext; auto; [apply to_img_wf; auto|cbn in *; congruence|cbn in *; congruence|].
    intros X Y HX HY. rewrite Hpr. unfold moved_rect. fold (bpix b' X Y).
    destruct ((dx <=? X) && (X <? dx + w) && (dy <=? Y) && (Y <? dy + h)) eqn:EC.
    + replace Y with (dy + (Y - dy)) at 1 by lia. rewrite Hins; [unfold bpix; f_equal; lia|apply In_rev_if; lia|lia].
    + rewrite Hout; [reflexivity|].
      destruct ((dx <=? X) && (X <? dx + w)) eqn:EX; [|right; lia]. left. intros y Hy. apply In_rev_if in Hy. lia.
  - exists true, b. replace (if sy <? dy then rev (zrange 0 0) else zrange 0 0) with (@nil Z) by (destruct (sy <? dy); reflexivity).
    cbn [foldM bind]. split; [reflexivity|]. split; [auto|]. split; [auto|]. rewrite Er. do 2 f_equal.
    apply img_ext; auto. intros X Y HX HY. rewrite Hpr. unfold moved_rect.
    replace ((dx <=? X) && (X <? dx + w) && (dy <=? Y) && (Y <? dy + 0)) with false by lia. reflexivity.
Qed.
End B.

(** ** the generic iterator *)
Fixpoint gpix_run {P} (get : Z -> Z -> res P) (w h : Z) (n : nat) (s : Z * Z) : res (list (option (Z * Z * P))) :=
  match n with
  | O => Ok []
  | Datatypes.S n' => '(o, s') <- gpix_next get w h s ;; t <- gpix_run get w h n' s' ;; Ok (o :: t)
  end.
Lemma gpix_run_spec {P} (im : img P) n : wf im -> 0 < iw im <= u32_max -> ih im <= u32_max -> forall x y i,
  y * iw im + x = i -> 0 <= x <= iw im -> 0 <= y -> i + Z.of_nat n = iw im * ih im ->
  exists ps, gpix_run (get_pixel im) (iw im) (ih im) (n + 1) (x, y) = Ok (map Some ps ++ [None]) /\
    map (fun p => (fst (fst p), snd (fst p))) ps = map (fun k => (k mod iw im, k / iw im)) (zrange i (Z.of_nat n)) /\
    Forall (fun p => pixel im (fst (fst p)) (snd (fst p)) = Some (snd p)) ps.
Proof.
  intros Hwf Hw Hh. induction n as [|n IH]; intros x y i Hi Hx Hy Hn.
  - exists []. cbn [Nat.add gpix_run]. split; [|split; [reflexivity|constructor]].
    unfold gpix_next. cbn [fst snd].
    assert (Hc2 : (x = iw im /\ y + 1 = ih im) \/ (x = 0 /\ y = ih im)).
    { destruct (Z.eq_dec x (iw im)); [left; split; [auto|]|right].
      - apply (Z.mul_cancel_r _ _ (iw im)); lia.
      - assert (HD : ih im - y = 0).
        { assert (HX : x = (ih im - y) * iw im) by lia. destruct (Z.lt_trichotomy (ih im - y) 0) as [HL|[HL|HL]]; auto; exfalso.
          - assert ((ih im - y) * iw im <= -1 * iw im) by (apply Z.mul_le_mono_nonneg_r; lia). lia.
          - assert (1 * iw im <= (ih im - y) * iw im) by (apply Z.mul_le_mono_nonneg_r; lia). lia. }
        assert (y = ih im) by lia. subst y. split; lia. }
    destruct Hc2 as [[-> E]|[-> ->]].
    + rewrite Z.leb_refl. unfold u32_add. destruct (Z.leb_spec (y + 1) u32_max); [|lia]. cbn [bind].
      replace (ih im <=? y + 1) with true by lia. reflexivity.
    + replace (iw im <=? 0) with false by lia. cbn [bind]. rewrite Z.leb_refl. reflexivity.
  - cbn [Nat.add gpix_run]. unfold gpix_next at 1. cbn [fst snd].
    pose proof (Z.mod_pos_bound i (iw im) ltac:(lia)). pose proof (Z.div_mod i (iw im) ltac:(lia)).
    assert (Hd : 0 <= i / iw im < ih im) by (split; [apply Z.div_pos; nia|apply Z.div_lt_upper_bound; nia]).
    assert (E : (if iw im <=? x then y0 <- u32_add y 1;; Ok (0, y0) else Ok (x, y)) = Ok (i mod iw im, i / iw im)).
    { destruct (Z.leb_spec (iw im) x).
      - assert (Ei : i = (y + 1) * iw im) by nia.
        assert (i / iw im = y + 1) by (rewrite Ei, Z.div_mul; lia).
        unfold u32_add. destruct (Z.leb_spec (y + 1) u32_max); [|lia]. cbn [bind].
        rewrite Ei, Z.mod_mul, Z.div_mul by lia. reflexivity.
      - assert (i mod iw im = x) by (symmetry; apply (Z.mod_unique i (iw im) y x); [left; lia|lia]).
        assert (i / iw im = y) by (symmetry; apply (Z.div_unique i (iw im) y x); [left; lia|lia]). congruence. }
    rewrite E. cbn [bind]. replace (ih im <=? i / iw im) with false by lia.
    destruct (pixel_in im (i mod iw im) (i / iw im) Hwf) as [p Hp]; try lia.
    unfold get_pixel at 1. rewrite Hp. cbn [bind]. unfold u32_add.
    destruct (Z.leb_spec (i mod iw im + 1) u32_max); [|lia]. cbn [bind].
    destruct (IH (i mod iw im + 1) (i / iw im) (i + 1)) as (ps & E2 & Hm & HF); try lia.
    exists ((i mod iw im, i / iw im, p) :: ps). rewrite E2. cbn [bind map app fst snd]. split; [reflexivity|]. split.
    + rewrite (zrange_cons i) by lia. cbn [map]. rewrite Hm. do 3 f_equal. lia.
    + constructor; auto.
Qed.
Lemma gpix_correct {P} (im : img P) : wf im -> is_u32 (iw im) -> is_u32 (ih im) -> 0 < iw im ->
  exists ps, gpix_run (get_pixel im) (iw im) (ih im) (Z.to_nat (iw im * ih im) + 1) (0, 0) = Ok (map Some ps ++ [None]) /\
    map (fun p => (fst (fst p), snd (fst p))) ps = coords (iw im) (ih im) /\
    Forall (fun p => pixel im (fst (fst p)) (snd (fst p)) = Some (snd p)) ps.
Proof.
  unfold is_u32. intros Hwf Hw Hh Hp.
  destruct (gpix_run_spec im (Z.to_nat (iw im * ih im)) Hwf ltac:(lia) ltac:(lia) 0 0 0) as (ps & E & Hm & HF); try nia.
  exists ps. split; [auto|]. split; [|auto]. rewrite Hm, coords_map by lia. do 2 f_equal. nia.
Qed.
