From Verif Require Import Base BaseLemmas Affine AffineProofs Orient OrientSpec.

Lemma from_to_exif o : from_exif (to_exif o) = Some o.
Proof. destruct o; reflexivity. Qed.
Lemma to_from_exif v o : from_exif v = Some o -> to_exif o = v /\ 1 <= v <= 8.
Proof.
  unfold from_exif. intros H.
  repeat match type of H with (if ?a =? ?b then _ else _) = _ =>
    destruct (Z.eqb_spec a b); [inversion H; subst; simpl; lia|] end.
  discriminate.
Qed.
Lemma from_exif_none v : from_exif v = None <-> ~ (1 <= v <= 8).
Proof.
  split.
  - intros H Hv. unfold from_exif in H.
    repeat match type of H with (if ?a =? ?b then _ else _) = _ =>
      destruct (Z.eqb_spec a b); [discriminate|] end. lia.
  - intros H. destruct (from_exif v) eqn:E; [|reflexivity]. apply to_from_exif in E. lia.
Qed.

Lemma moved_trans {P} (a b c : img P) w h w2 h2 f g :
  moved a b w h f -> moved b c w2 h2 g ->
  (forall x y, 0 <= x < w2 -> 0 <= y < h2 -> 0 <= fst (g x y) < w /\ 0 <= snd (g x y) < h) ->
  moved a c w2 h2 (fun x y => f (fst (g x y)) (snd (g x y))).
Proof.
  intros (H1 & H2 & H3 & H4) (K1 & K2 & K3 & K4) Hg.
  split; [auto|]. split; [auto|]. split; [auto|]. intros x y Hx Hy.
  rewrite K4 by auto. destruct (Hg x y Hx Hy). apply H4; auto.
Qed.

Definition orient_map (o : orientation) (w h x y : Z) : Z * Z :=
  match o with
  | NoTransforms => (x, y)
  | Rotate90 => (y, h - 1 - x)
  | Rotate180 => (w - 1 - x, h - 1 - y)
  | Rotate270 => (w - 1 - y, x)
  | FlipHorizontal => (w - 1 - x, y)
  | FlipVertical => (x, h - 1 - y)
  | Rotate90FlipH => (y, x)
  | Rotate270FlipH => (w - 1 - y, h - 1 - x)
  end.
Lemma apply_orientation_moved {P} (z : P) (im : img P) o : wf im ->
  exists out, apply_orientation z im o = Ok out /\
    moved im out (if exchanges (to_exif o) then ih im else iw im)
                 (if exchanges (to_exif o) then iw im else ih im)
                 (orient_map o (iw im) (ih im)).
Proof.
  intros H. destruct o; cbn [to_exif exchanges Z.leb Z.compare Pos.compare Pos.compare_cont];
    unfold apply_orientation.
  - exists im. split; [reflexivity|]. apply moved_id; auto.
  - apply rotate90_moved; auto.
  - apply rotate180_in_place_moved; auto.
  - apply rotate270_moved; auto.
  - apply flip_h_in_place_moved; auto.
  - apply flip_v_in_place_moved; auto.
  - destruct (rotate90_moved z im H) as (b & E & M). rewrite E. cbn [bind].
    pose proof M as (Wb & Ew & Eh & _).
    destruct (flip_h_in_place_moved b Wb) as (c & E2 & M2). exists c. split; [exact E2|].
    rewrite Ew, Eh in M2. eapply moved_ext; [|eapply moved_trans; [exact M|exact M2|]].
    + intros x y Hx Hy. cbn. f_equal; lia.
    + intros x y Hx Hy. cbn. lia.
  - destruct (rotate270_moved z im H) as (b & E & M). rewrite E. cbn [bind].
    pose proof M as (Wb & Ew & Eh & _).
    destruct (flip_h_in_place_moved b Wb) as (c & E2 & M2). exists c. split; [exact E2|].
    rewrite Ew, Eh in M2. eapply moved_ext; [|eapply moved_trans; [exact M|exact M2|]].
    + intros x y Hx Hy. cbn. f_equal; lia.
    + intros x y Hx Hy. cbn. lia.
Qed.
Lemma apply_orientation_exif {P} (z : P) (im : img P) o row0 col0 : wf im ->
  exif_sides (to_exif o) = Some (row0, col0) ->
  exists out, apply_orientation z im o = Ok out /\ wf out /\
    iw out = (if exchanges (to_exif o) then ih im else iw im) /\
    ih out = (if exchanges (to_exif o) then iw im else ih im) /\
    forall x y X Y, 0 <= x < iw im -> 0 <= y < ih im ->
      at_side row0 y (iw out) (ih out) X Y -> at_side col0 x (iw out) (ih out) X Y ->
      pixel out X Y = pixel im x y.
Proof.
  intros H Hs. destruct (apply_orientation_moved z im o H) as (out & E & W & Ew & Eh & Hp).
  exists out. split; [exact E|]. split; [exact W|]. split; [exact Ew|]. split; [exact Eh|].
  intros x y X Y Hx Hy H1 H2. rewrite Ew, Eh in *.
  destruct o; cbn in *; inversion Hs; subst row0 col0; cbn in H1, H2; rewrite Hp by lia;
    cbn; f_equal; lia.
Qed.

(** ** parser *)
Lemma cur_read_eq c p n : 0 <= p -> 0 <= n ->
  cur_read c p n = if p + n <=? zlen c then Some (zslice c p n, p + n) else None.
Proof. intros. unfold cur_read. destruct (Z.ltb_spec (zlen c) (p + n)), (Z.leb_spec (p + n) (zlen c)); auto; lia. Qed.
Lemma zslice_cons {A} (c : list A) p n a : 0 <= p -> 0 < n -> zget c p = Some a ->
  zslice c p n = a :: zslice c (p + 1) (n - 1).
Proof.
  intros Hp Hn Ha. unfold zslice.
  replace (Z.to_nat n) with (S (Z.to_nat (n - 1))) by lia.
  replace (Z.to_nat (p + 1)) with (S (Z.to_nat p)) by lia.
  rewrite zget_nth in Ha by lia. revert Ha. generalize (Z.to_nat p) as k. clear Hp Hn.
  intros k; revert c; induction k as [|k IH]; intros c Ha; destruct c as [|b c]; try discriminate.
  - cbn in Ha. inversion Ha; subst. reflexivity.
  - cbn [skipn nth_error] in *. rewrite (IH c Ha). reflexivity.
Qed.
Lemma zslice_0 {A} (c : list A) p n : n <= 0 -> zslice c p n = [].
Proof. intros. unfold zslice. replace (Z.to_nat n) with O by lia. reflexivity. Qed.
Lemma cur_u16_eq be c p : 0 <= p ->
  cur_u16 be c p = match u16at be c p with Some v => Some (v, p + 2) | None => None end.
Proof.
  intros Hp. unfold cur_u16, u16at. rewrite cur_read_eq by lia.
  destruct (Z.leb_spec (p + 2) (zlen c)).
  - destruct (zget_some c p) as [a Ha]; [lia|]. destruct (zget_some c (p + 1)) as [b Hb]; [lia|].
    rewrite Ha, Hb. rewrite (zslice_cons _ _ _ a), (zslice_cons _ _ _ b) by (auto; lia).
    rewrite zslice_0 by lia. reflexivity.
  - cbn [obind]. destruct (zget c p); [|reflexivity]. rewrite (zget_none c (p + 1)) by lia. reflexivity.
Qed.
Lemma cur_u32_eq be c p : 0 <= p ->
  cur_u32 be c p = match u32at be c p with Some v => Some (v, p + 4) | None => None end.
Proof.
  intros Hp. unfold cur_u32, u32at, u16at. rewrite cur_read_eq by lia.
  replace (p + 2 + 1) with (p + 3) by lia.
  destruct (Z.leb_spec (p + 4) (zlen c)).
  - destruct (zget_some c p) as [a Ha]; [lia|]. destruct (zget_some c (p + 1)) as [b Hb]; [lia|].
    destruct (zget_some c (p + 2)) as [d Hd]; [lia|]. destruct (zget_some c (p + 3)) as [e He]; [lia|].
    rewrite Ha, Hb, Hd, He. rewrite (zslice_cons _ _ _ a), (zslice_cons _ _ _ b) by (auto; lia).
    replace (p + 1 + 1) with (p + 2) by lia.
    rewrite (zslice_cons _ _ _ d) by (auto; lia). replace (p + 2 + 1) with (p + 3) by lia.
    rewrite (zslice_cons _ _ _ e) by (auto; lia). rewrite zslice_0 by lia.
    cbn [obind u32_of]. destruct be; do 2 f_equal; lia.
  - cbn [obind]. rewrite (zget_none c (p + 3)) by lia.
    destruct (zget c p), (zget c (p + 1)), (zget c (p + 2)); reflexivity.
Qed.
Lemma u16at_in be c p : 0 <= p -> p + 2 <= zlen c -> exists v, u16at be c p = Some v.
Proof.
  intros. unfold u16at. destruct (zget_some c p) as [a Ha]; [lia|].
  destruct (zget_some c (p + 1)) as [b Hb]; [lia|]. rewrite Ha, Hb. eauto.
Qed.
Lemma u16at_out be c p : zlen c < p + 2 -> u16at be c p = None.
Proof.
  intros. unfold u16at. rewrite (zget_none c (p + 1)) by lia. destruct (zget c p); reflexivity.
Qed.
Lemma u16at_len be c p v : u16at be c p = Some v -> p + 2 <= zlen c.
Proof. intros H. destruct (Z_le_gt_dec (p + 2) (zlen c)); [auto|]. rewrite u16at_out in H by lia. discriminate. Qed.
Lemma u32at_in be c p : 0 <= p -> p + 4 <= zlen c -> exists v, u32at be c p = Some v.
Proof.
  intros. unfold u32at. destruct (u16at_in be c p) as [a Ha]; [lia|lia|].
  destruct (u16at_in be c (p + 2)) as [b Hb]; [lia|lia|]. rewrite Ha, Hb. eauto.
Qed.

Lemma exif_entries_iff be c n p o : 0 <= p ->
  exif_entries be c n p = Some o <->
  exists k v, 0 <= k < Z.of_nat n /\ p + 12 * k + 12 <= zlen c /\
    u16at be c (p + 12 * k) = Some 274 /\ u16at be c (p + 12 * k + 2) = Some 3 /\
    u32at be c (p + 12 * k + 4) = Some 1 /\
    u16at be c (p + 12 * k + 8) = Some v /\ from_exif (Z.min v 255) = Some o /\
    forall j, 0 <= j < k -> ~ (u16at be c (p + 12 * j) = Some 274 /\
      u16at be c (p + 12 * j + 2) = Some 3 /\ u32at be c (p + 12 * j + 4) = Some 1).
Proof.
  revert p; induction n as [|n IH]; intros p Hp; cbn [exif_entries].
  - split; [discriminate|]. intros (k & v & Hk & _). lia.
  - destruct (Z_le_gt_dec (p + 12) (zlen c)) as [Hin|Hout].
    + destruct (u16at_in be c p) as [tag Htag]; [lia|lia|].
      destruct (u16at_in be c (p + 2)) as [fmt Hfmt]; [lia|lia|].
      destruct (u32at_in be c (p + 4)) as [cnt Hcnt]; [lia|lia|].
      destruct (u16at_in be c (p + 8)) as [val Hval]; [lia|lia|].
      destruct (u16at_in be c (p + 10)) as [pad Hpad]; [lia|lia|].
      rewrite cur_u16_eq by lia. rewrite Htag. cbn [obind].
      rewrite cur_u16_eq by lia. rewrite Hfmt. cbn [obind].
      replace (p + 2 + 2) with (p + 4) by lia.
      rewrite cur_u32_eq by lia. rewrite Hcnt. cbn [obind].
      replace (p + 4 + 4) with (p + 8) by lia.
      rewrite cur_u16_eq by lia. rewrite Hval. cbn [obind].
      replace (p + 8 + 2) with (p + 10) by lia.
      rewrite cur_u16_eq by lia. rewrite Hpad. cbn [obind].
      replace (p + 10 + 2) with (p + 12) by lia.
      destruct ((tag =? 274) && (fmt =? 3) && (cnt =? 1)) eqn:Eb.
      * assert (tag = 274 /\ fmt = 3 /\ cnt = 1) as (-> & -> & ->) by lia. split.
        -- intros H. exists 0, val. replace (p + 12 * 0) with p by lia.
           repeat split; auto; try lia. 
        -- intros (k & v & Hk & Hl & E1 & E2 & E3 & E4 & E5 & Hj).
           destruct (Z.eq_dec k 0) as [->|Hnz].
           ++ replace (p + 12 * 0) with p in * by lia. congruence.
           ++ exfalso. apply (Hj 0); [lia|]. replace (p + 12 * 0) with p by lia. auto.
      * rewrite IH by lia. split.
        -- intros (k & v & Hk & Hl & E1 & E2 & E3 & E4 & E5 & Hj).
           exists (k + 1), v. replace (p + 12 * (k + 1)) with (p + 12 + 12 * k) by lia.
           repeat split; auto; try lia. intros j Hjj.
           destruct (Z.eq_dec j 0) as [->|].
           ++ replace (p + 12 * 0) with p by lia. rewrite Htag, Hfmt, Hcnt.
              intros (A & B & C). inversion A; inversion B; inversion C; subst. discriminate.
           ++ replace (p + 12 * j) with (p + 12 + 12 * (j - 1)) by lia. apply Hj. lia.
        -- intros (k & v & Hk & Hl & E1 & E2 & E3 & E4 & E5 & Hj).
           destruct (Z.eq_dec k 0) as [->|Hnz].
           ++ exfalso. replace (p + 12 * 0) with p in * by lia.
              rewrite Htag in E1; rewrite Hfmt in E2; rewrite Hcnt in E3.
              inversion E1; inversion E2; inversion E3; subst. discriminate.
           ++ exists (k - 1), v. replace (p + 12 + 12 * (k - 1)) with (p + 12 * k) by lia.
              repeat split; auto; try lia. intros j Hjj.
              replace (p + 12 + 12 * j) with (p + 12 * (j + 1)) by lia. apply Hj. lia.
    + split; [|intros (k & v & Hk & Hl & _); lia]. intros H. exfalso.
      rewrite cur_u16_eq in H by lia. destruct (u16at be c p); cbn [obind] in H; [|discriminate].
      rewrite cur_u16_eq in H by lia. destruct (u16at be c (p + 2)); cbn [obind] in H; [|discriminate].
      rewrite cur_u32_eq in H by lia. destruct (u32at be c (p + 2 + 2)); cbn [obind] in H; [|discriminate].
      rewrite cur_u16_eq in H by lia. destruct (u16at be c (p + 2 + 2 + 4)); cbn [obind] in H; [|discriminate].
      rewrite cur_u16_eq in H by lia. rewrite u16at_out in H by lia. discriminate.
Qed.

Lemma u32at_nonneg be c p v : bytes c -> u32at be c p = Some v -> 0 <= v.
Proof.
  intros Hb. unfold u32at, u16at.
  assert (Hg : forall i a, zget c i = Some a -> 0 <= a <= 255).
  { intros i a Ha. apply zget_In in Ha. unfold bytes in Hb. rewrite Forall_forall in Hb.
    apply Hb in Ha. unfold is_u8, u8_max in Ha. lia. }
  destruct (zget c p) eqn:E1; [|discriminate]. destruct (zget c (p + 1)) eqn:E2; [|discriminate].
  destruct (zget c (p + 2)) eqn:E3; [|discriminate]. destruct (zget c (p + 2 + 1)) eqn:E4; [|discriminate].
  apply Hg in E1, E2, E3, E4. intros H; apply Some_inj in H; destruct be; lia.
Qed.
Lemma u16at_nonneg be c p v : bytes c -> u16at be c p = Some v -> 0 <= v.
Proof.
  intros Hb. unfold u16at.
  assert (Hg : forall i a, zget c i = Some a -> 0 <= a <= 255).
  { intros i a Ha. apply zget_In in Ha. unfold bytes in Hb. rewrite Forall_forall in Hb.
    apply Hb in Ha. unfold is_u8, u8_max in Ha. lia. }
  destruct (zget c p) eqn:E1; [|discriminate]. destruct (zget c (p + 1)) eqn:E2; [|discriminate].
  apply Hg in E1, E2. intros H; apply Some_inj in H; destruct be; lia.
Qed.

Lemma from_exif_chunk_iff c o : bytes c ->
  from_exif_chunk c = Some o <->
  exists be ifd n k v,
    firstn 4 c = tiff_magic be /\ u32at be c 4 = Some ifd /\ u16at be c ifd = Some n /\
    0 <= k < n /\ entry_present c ifd k /\ is_orientation_entry be c ifd k /\
    (forall j, 0 <= j < k -> ~ is_orientation_entry be c ifd j) /\
    u16at be c (ifd + 2 + 12 * k + 8) = Some v /\ from_exif (Z.min v 255) = Some o.
Proof.
  intros Hb. unfold from_exif_chunk. rewrite cur_read_eq by lia.
  assert (Harm : forall be,
    obind (cur_u32 be c 4) (fun '(ifd_offset, _) =>
      obind (cur_u16 be c ifd_offset) (fun '(entries, pos) =>
        exif_entries be c (Z.to_nat entries) pos)) = Some o <->
    exists ifd n k v, u32at be c 4 = Some ifd /\ u16at be c ifd = Some n /\
      0 <= k < n /\ entry_present c ifd k /\ is_orientation_entry be c ifd k /\
      (forall j, 0 <= j < k -> ~ is_orientation_entry be c ifd j) /\
      u16at be c (ifd + 2 + 12 * k + 8) = Some v /\ from_exif (Z.min v 255) = Some o).
  { intros be. rewrite cur_u32_eq by lia. destruct (u32at be c 4) as [ifd|] eqn:Ei; cbn [obind].
    2:{ split; [discriminate|]. intros (ifd & n & k & v & H & _). discriminate. }
    pose proof (u32at_nonneg _ _ _ _ Hb Ei).
    rewrite cur_u16_eq by lia. destruct (u16at be c ifd) as [n|] eqn:En; cbn [obind].
    2:{ split; [discriminate|]. intros (ifd' & n & k & v & H1 & H2 & _). congruence. }
    pose proof (u16at_nonneg _ _ _ _ Hb En).
    rewrite exif_entries_iff by lia. unfold entry_present, is_orientation_entry. split.
    - intros (k & v & Hk & Hl & E1 & E2 & E3 & E4 & E5 & Hj). exists ifd, n, k, v.
      repeat split; auto; try lia.
    - intros (ifd' & n' & k & v & H1 & H2 & Hk & Hl & (E1 & E2 & E3) & Hj & E4 & E5).
      inversion H1; subst ifd'. rewrite En in H2; inversion H2; subst n'.
      exists k, v. repeat split; auto; try lia. }
  destruct (Z.leb_spec (0 + 4) (zlen c)) as [Hl|Hl]; cbn [obind].
  - unfold zslice. change (Z.to_nat 0) with O. cbn [skipn]. change (Z.to_nat 4) with 4%nat.
    change (0 + 4) with 4.
    set (arm := fun be => obind (cur_u32 be c 4) (fun '(ifd_offset, _) =>
            obind (cur_u16 be c ifd_offset) (fun '(entries, pos) =>
              exif_entries be c (Z.to_nat entries) pos))) in *.
    fold (arm false). fold (arm true).
    assert (Hx : forall be, firstn 4 c = tiff_magic be ->
       (if leqb (firstn 4 c) [73; 73; 42; 0] then arm false
        else if leqb (firstn 4 c) [77; 77; 0; 42] then arm true else None) = arm be).
    { intros be ->. destruct be; reflexivity. }
    split.
    + intros H.
      assert (Hm : exists be, firstn 4 c = tiff_magic be).
      { destruct (leqb (firstn 4 c) [73; 73; 42; 0]) eqn:E1.
        - exists false. apply leqb_eq in E1. exact E1.
        - destruct (leqb (firstn 4 c) [77; 77; 0; 42]) eqn:E2; [|discriminate].
          exists true. apply leqb_eq in E2. exact E2. }
      destruct Hm as [be Hm]. rewrite (Hx be Hm) in H. apply Harm in H.
      destruct H as (ifd & n & k & v & H). exists be, ifd, n, k, v. split; auto.
    + intros (be & ifd & n & k & v & Hm & H). rewrite (Hx be Hm). apply Harm.
      exists ifd, n, k, v. exact H.
  - split; [discriminate|]. intros (be & ifd & n & k & v & Hm & _).
    assert (Hz : zlen (firstn 4 c) = 4) by (rewrite Hm; destruct be; reflexivity).
    rewrite zlen_firstn in Hz. lia.
Qed.
