(** C58: filter3x3 *)
From Coq Require Import ZArith Bool Reals Lia Lra.
From Flocq Require Import Core IEEE754.BinarySingleNaN.
From Verif Require Import Base BaseLemmas Color Float FloatProofs ColorF ColorFProofs GenImage Resize Thumb ThumbSpec ThumbProofs3 Sample SampleProofs InterpSpec Filter3 Filter3Spec Filter3Proofs.
Local Open Scope Z_scope.

(** entry j of the kernel *)
Definition entry (kern : list f32) (j : nat) : R := B2R (nth j kern f32_zero).
Definition filterable (im : img (list Z)) : Prop := 1 <= iw im <= u32_max /\ 1 <= ih im <= u32_max.
Definition blank (k : kind) : list Z := repeat 0 (Z.to_nat (nch k)).

(** With nine finite entries, not astronomically large, the filter does not panic; the result has the size of the image, its rim is zero, and inside it is
    the weighted sum of the 3x3 neighbourhood divided by the sum of the kernel (by 1 if that sum is 0), limited to the range of a sample and rounded down,
    up to the rounding errors of f32: 12 units in the last place of the sum of the absolute values. *)
Theorem C58_filter m t k im kern : img_ok t k im -> filterable im -> length kern = 9%nat -> Forall (within (- IZR (2 ^ 70)) (IZR (2 ^ 70))) kern ->
  exists r D, dyn_filter3x3 m t k im kern = Ok r /\ iw r = iw im /\ ih r = ih im /\ img_ok t k r /\ divisor_of (entry kern) D /\
    (forall x y, inside im (x, y) -> ~ interior im x y -> pixel r x y = Some (blank k)) /\
    (forall x y, interior im x y -> exists p, pixel r x y = Some p /\ is_pixel t k p /\ forall i, (i < Z.to_nat (nch k))%nat ->
      let E := (12 / 16777216 * conv_abs (entry kern) t im i x y / Rabs D)%R in
      (- E <= limited 0 (IZR (smax t)) (conv (entry kern) t im i x y / D) - IZR (nth i p 0%Z) < 1 + E)%R).
Proof.
  intros HI (HW & HH) L9 FK. assert (HK : fwithin kern) by (split; assumption). destruct (sum_ok kern HK) as (D & ID & HD). assert (ND : D <> 0%R) by apply HD. assert (UE : uu = (/ 16777216)%R) by (unfold uu; change (2 ^ 24) with 16777216; reflexivity).
  destruct (filter_loop m t k im kern (fun x y i z => filtered t im kern D i x y z) HI HW HH) as (r & E & E1 & E2 & W & B & I). { intros x y N. apply (filter_pixel_ok t k); assumption. }
  exists r, D. split; [unfold dyn_filter3x3, zlen; rewrite L9; exact E|]. split; [exact E1|]. split; [exact E2|]. split; [exact W|]. split.
  - unfold divisor in HD. cbv zeta in HD. rewrite UE in HD. unfold divisor_of, entry, Rdiv. exact HD.
  - split; [intros x y (HX & HY) N; apply B; assumption|]. intros x y N. destruct (I x y N) as (p & EP & K & F). exists p. split; [exact EP|]. split; [exact K|]. intros i Hi. specialize (F i Hi). unfold filtered in F. cbv zeta in F |- *. rewrite UE in F. unfold entry. unfold Rdiv in F |- *. exact F.
Qed.

(** An integer kernel gives the exact value, as long as the weighted sums stay below 2^24. *)
Theorem C58_integer m t k im ks : img_ok t k im -> filterable im -> length ks = 9%nat -> zsum9 (fun j => Z.abs (nth j ks 0)) * smax t < 2 ^ 24 ->
  let s := zsum9 (fun j => nth j ks 0) in let D := if s =? 0 then 1 else s in
  exists r, dyn_filter3x3 m t k im (map f32_of_Z ks) = Ok r /\ iw r = iw im /\ ih r = ih im /\
    (forall x y, inside im (x, y) -> ~ interior im x y -> pixel r x y = Some (blank k)) /\
    (forall x y, interior im x y -> exists p, pixel r x y = Some p /\ is_pixel t k p /\ forall i, (i < Z.to_nat (nch k))%nat ->
      nth i p 0 = clampz 0 (smax t) (zsum9 (fun j => nth j ks 0 * neighbour t im i x y j) / D)).
Proof.
  intros HI (HW & HH) L9 HB s D. destruct (filter_loop m t k im (map f32_of_Z ks) (fun x y i z => z = clampz 0 (smax t) (zsum9 (fun j => nth j ks 0 * neighbour t im i x y j) / D)) HI HW HH) as (r & E & E1 & E2 & W & B & I). { intros x y N. apply (filter_pixel_int t k); assumption. }
  exists r. split; [unfold dyn_filter3x3, zlen; rewrite map_length, L9; exact E|]. split; [exact E1|]. split; [exact E2|]. split; [intros x y (HX & HY) N; apply B; assumption|exact I].
Qed.

(** A kernel without negative entries averages: every channel stays at most one below the least and never above the greatest of the nine. *)
Theorem C58_range m t k im kern : img_ok t k im -> filterable im -> length kern = 9%nat -> Forall (within 0 (IZR (2 ^ 70))) kern -> (exists j, (j < 9)%nat /\ entry kern j <> 0%R) ->
  exists r, dyn_filter3x3 m t k im kern = Ok r /\ forall x y i lo hi, interior im x y -> (i < Z.to_nat (nch k))%nat -> (forall j, (j < 9)%nat -> lo <= neighbour t im i x y j <= hi) -> lo - 1 <= chan_at t r i (x, y) <= hi.
Proof.
  intros HI (HW & HH) L9 FK (j0 & J0 & JN). assert (KP : forall j, (j < 9)%nat -> (0 <= entry kern j)%R) by (intros j Hj; apply (proj1 (Forall_forall _ _) FK (nth j kern f32_zero)); apply nth_In; lia).
  assert (FK' : Forall (within (- IZR (2 ^ 70)) (IZR (2 ^ 70))) kern) by (eapply Forall_impl; [|exact FK]; intros a (A & B); split; [exact A|]; assert (0 <= IZR (2 ^ 70))%R by (apply IZR_le; lia); lra).
  assert (HK : fwithin kern) by (split; assumption). destruct (sum_ok kern HK) as (D & ID & HD). assert (ND : D <> 0%R) by apply HD.
  destruct (filter_loop m t k im kern (fun x y i z => filtered t im kern D i x y z) HI HW HH) as (r & E & E1 & E2 & W & B & I). { intros x y N. apply (filter_pixel_ok t k); assumption. }
  exists r. split; [unfold dyn_filter3x3, zlen; rewrite L9; exact E|]. intros x y i lo hi N Hi HN. destruct (I x y N) as (p & EP & K & F). specialize (F i Hi). unfold chan_at. cbn [fst snd]. rewrite EP. rewrite (nth_indep p (smax t) 0) by (destruct K as (K & _); unfold zlen in K; lia).
  assert (SP : (0 < sum9 (entry kern))%R). { unfold sum9. pose proof (KP j0 J0) as A. assert (0 < entry kern j0)%R by lra. pose proof (KP 0%nat ltac:(lia)). pose proof (KP 1%nat ltac:(lia)). pose proof (KP 2%nat ltac:(lia)). pose proof (KP 3%nat ltac:(lia)). pose proof (KP 4%nat ltac:(lia)). pose proof (KP 5%nat ltac:(lia)). pose proof (KP 6%nat ltac:(lia)). pose proof (KP 7%nat ltac:(lia)). pose proof (KP 8%nat ltac:(lia)). do 9 (destruct j0 as [|j0]; [lra|]). lia. }
  assert (SN : forall j, (j < 9)%nat -> 0 <= neighbour t im i x y j <= smax t) by (intros j Hj; exact (neighbour_sample t k im i x y j HI N Hj)).
  assert (lo - 1 <= Z.max lo 0 - 1) by lia. assert (R : Z.max lo 0 - 1 <= nth i p 0 <= Z.min hi (smax t)); [|lia]. apply (filtered_range t im kern D i x y); [exact KP|exact SP|exact HD|lia|lia| |exact F]. intros j Hj. specialize (HN j Hj). specialize (SN j Hj). lia.
Qed.

(** The kernel of nine ninths does not keep constant images: results are rounded down, not to nearest, so 255 becomes 254. *)
Theorem C58_constant_refuted m : let ninth := f32_div f32_one (f32_of_Z 9) in let im := new_img 3 3 [255] in
  img_ok U8 Luma im /\ exists r, dyn_filter3x3 m U8 Luma im (repeat ninth 9) = Ok r /\ pixel r 1 1 = Some [254].
Proof.
  cbv zeta. split; [split; [apply wf_new_img; lia|repeat (constructor; [split; [reflexivity|constructor; [change (0 <= 255 <= 255); lia|constructor]]|]); constructor]|].
  exists (mkImg 3 3 [[0]; [0]; [0]; [0]; [254]; [0]; [0]; [0]; [0]]). split; [destruct m; vm_compute; reflexivity|reflexivity].
Qed.
(** Images without pixels make it panic: with no rows, unless a release build sees one or two columns; with no columns, if there are three rows or more. *)
Theorem C58_empty_refuted m t k im kern : length kern = 9%nat -> 0 <= iw im <= u32_max -> 0 <= ih im <= u32_max ->
  (ih im = 0 -> m = Debug \/ iw im = 0 \/ 3 <= iw im -> dyn_filter3x3 m t k im kern = Panic) /\ (iw im = 0 -> 3 <= ih im -> dyn_filter3x3 m t k im kern = Panic).
Proof.
  intros L9 HW HH. assert (GP : iw im = 0 \/ ih im = 0 -> forall x y, get_pixel im x y = Panic) by (intros Z x y; unfold get_pixel, pixel; replace (inb im x y) with false by (unfold inb; lia); reflexivity).
  assert (FP : iw im = 0 \/ ih im = 0 -> forall x y, filter_pixel t im kern x y = Panic). { intros Z x y. destruct kern as [|k0 kern]; [discriminate L9|]. unfold filter_pixel, taps3. cbn [combine foldM]. rewrite (GP Z). reflexivity. }
  assert (RW : forall n a (f : img (list Z) -> Z -> res (img (list Z))) o, 1 <= n -> f o a = Panic -> foldM f (zrange a n) o = Panic) by (intros n a f o Hn Hf; rewrite (zrange_cons a n) by lia; cbn [foldM]; rewrite Hf; reflexivity).
  assert (W1 : wrap_u32 (0 - 1) = 4294967295) by reflexivity.
  assert (INNER : iw im = 0 \/ ih im = 0 -> iw im = 0 \/ 3 <= iw im -> forall o y, (w1 <- u32_sub_m m (iw im) 1 ;; foldM (fun o x => c <- filter_pixel t im kern x y ;; put_pixel o x y (from_channels k c)) (zrange 1 (w1 - 1)) o) = Panic).
  { intros Z C o y. unfold u32_sub_m. destruct (Z.leb_spec 1 (iw im)) as [L|L].
    - cbn [bind]. apply RW; [lia|]. rewrite (FP Z). reflexivity.
    - replace (iw im) with 0 by lia. destruct m; [reflexivity|]. rewrite W1. cbn [bind]. apply RW; [lia|]. rewrite (FP Z). reflexivity. }
  unfold dyn_filter3x3, zlen. rewrite L9. change (negb (Z.of_nat 9 =? 9)) with false. cbv iota. unfold filter3x3. split.
  - intros E C. rewrite E. unfold u32_sub_m at 1. change (1 <=? 0) with false. cbv iota. destruct m; [reflexivity|]. rewrite W1. cbn [bind]. apply RW; [lia|]. apply INNER; [right; exact E|]. destruct C as [C|C]; [discriminate C|exact C].
  - intros E HH3. unfold u32_sub_m at 1. replace (1 <=? ih im) with true by lia. cbn [bind]. apply RW; [lia|]. apply INNER; left; exact E.
Qed.
(** NaN in the kernel makes it panic as soon as there is an inner pixel. *)
Theorem C58_nan_refuted m : dyn_filter3x3 m U8 Luma (new_img 3 3 [7]) (B754_nan :: repeat f32_one 8) = Panic /\ dyn_filter3x3 m U8 Luma (new_img 3 3 [7]) (repeat f32_one 8) = Panic.
Proof. destruct m; split; vm_compute; reflexivity. Qed.

(** a sharpening kernel on an image with an edge *)
Example C58_nonvacuous : let im := mkImg 4 3 [[10]; [10]; [20]; [20]; [10]; [10]; [20]; [20]; [10]; [10]; [20]; [20]] in let ks := [0; -1; 0; -1; 5; -1; 0; -1; 0] in
  img_ok U8 Luma im /\ filterable im /\ zsum9 (fun j => Z.abs (nth j ks 0)) * smax U8 < 2 ^ 24 /\ Forall (within (- IZR (2 ^ 70)) (IZR (2 ^ 70))) (map f32_of_Z ks) /\ interior im 1 1 /\
  dyn_filter3x3 Debug U8 Luma im (map f32_of_Z ks) = Ok (mkImg 4 3 [[0]; [0]; [0]; [0]; [0]; [0]; [30]; [0]; [0]; [0]; [0]; [0]]).
Proof.
  cbv zeta. assert (PX : forall v, 0 <= v <= 255 -> is_pixel U8 Luma [v]) by (intros v Hv; split; [reflexivity|constructor; [change (0 <= v <= 255); exact Hv|constructor]]). split; [split; [unfold wf; cbn [iw ih px]; split; [lia|split; [lia|reflexivity]]|cbn [px]; repeat (constructor; [apply PX; lia|]); constructor]|]. split; [split; (split; [vm_compute; discriminate|vm_compute; discriminate])|]. split; [vm_compute; reflexivity|]. split; [|split; [unfold interior; cbn [iw ih]; lia|vm_compute; reflexivity]].
  cbn [map]. assert (G : forall z, Z.abs z < 10 -> within (- IZR (2 ^ 70)) (IZR (2 ^ 70)) (f32_of_Z z)) by (intros z Hz; destruct (of_Z_signed z ltac:(lia)) as (A & B); split; [exact B|rewrite A, <- opp_IZR; split; apply IZR_le; lia]). repeat (constructor; [apply G; lia|]). constructor.
Qed.
Example C58_range_nonvacuous : let kern := map f32_of_Z [1; 2; 1; 2; 4; 2; 1; 2; 1] in length kern = 9%nat /\ Forall (within 0 (IZR (2 ^ 70))) kern /\ entry kern 4 <> 0%R.
Proof.
  cbv zeta. split; [reflexivity|]. split; [|unfold entry; cbn [map nth]; rewrite (proj1 (of_Z_signed 4 ltac:(lia))); lra]. cbn [map]. assert (G : forall z, 0 <= z < 10 -> within 0 (IZR (2 ^ 70)) (f32_of_Z z)) by (intros z Hz; destruct (of_Z_signed z ltac:(lia)) as (A & B); split; [exact B|rewrite A; split; apply IZR_le; lia]). repeat (constructor; [apply G; lia|]). constructor.
Qed.
Definition c58_theorems := (C58_filter, C58_integer, C58_range, C58_constant_refuted, C58_empty_refuted, C58_nan_refuted).
Print Assumptions c58_theorems.
