From Coq Require Import String Ascii.
From Verif Require Import Base BaseLemmas Formats.
Local Open Scope Z_scope.

(** ** name tables *)
Lemma ext_table f e : In e (extensions_str f) -> from_extension (bs e) = Some f.
Proof. destruct f; cbn [extensions_str In]; intros H; repeat destruct H as [<-|H]; try contradiction; reflexivity. Qed.
Lemma lower_ext f e : In e (extensions_str f) -> to_lower (bs e) = bs e.
Proof. destruct f; cbn [extensions_str In]; intros H; repeat destruct H as [<-|H]; try contradiction; reflexivity. Qed.
Lemma lower1_idem c : lower1 (lower1 c) = lower1 c.
Proof. unfold lower1. destruct ((65 <=? c) && (c <=? 90)) eqn:E; [|rewrite E; reflexivity].
  destruct ((65 <=? c + 32) && (c + 32 <=? 90)) eqn:E2; lia. Qed.
Lemma to_lower_idem s : to_lower (to_lower s) = to_lower s.
Proof. unfold to_lower. rewrite map_map. apply map_ext. apply lower1_idem. Qed.
Lemma from_extension_lower s : from_extension s = from_extension (to_lower s).
Proof. unfold from_extension. rewrite to_lower_idem. reflexivity. Qed.
Lemma ext_any_case f e s : In e (extensions_str f) -> to_lower s = bs e -> from_extension s = Some f.
Proof. intros H E. rewrite from_extension_lower, E. apply ext_table; auto. Qed.
Lemma ext_disjoint f g e : In e (extensions_str f) -> In e (extensions_str g) -> f = g.
Proof. intros H1 H2. apply ext_table in H1, H2. congruence. Qed.

(** letters equal up to ASCII case *)
Definition same_letter (a b : Z) : Prop :=
  a = b \/ (65 <= a <= 90 /\ b = a + 32) \/ (65 <= b <= 90 /\ a = b + 32).
Lemma same_letter_lower a b : same_letter a b -> lower1 a = lower1 b.
Proof. unfold same_letter, lower1. intros [->|[[H ->]|[H ->]]]; [reflexivity| |].
  - replace ((65 <=? a) && (a <=? 90)) with true by lia.
    replace ((65 <=? a + 32) && (a + 32 <=? 90)) with false by lia. reflexivity.
  - replace ((65 <=? b) && (b <=? 90)) with true by lia.
    replace ((65 <=? b + 32) && (b + 32 <=? 90)) with false by lia. reflexivity.
Qed.
Lemma same_letters_lower s t : Forall2 same_letter s t -> to_lower s = to_lower t.
Proof. induction 1; cbn; [reflexivity|]. f_equal; auto. apply same_letter_lower; auto. Qed.
Lemma ext_case_insensitive s t : Forall2 same_letter s t -> from_extension s = from_extension t.
Proof. intros H. rewrite from_extension_lower, (from_extension_lower t), (same_letters_lower s t H). reflexivity. Qed.
Lemma ext_all f e s : In e (extensions_str f) -> Forall2 same_letter s (bs e) -> from_extension s = Some f.
Proof. intros H H2. rewrite (ext_case_insensitive _ _ H2). apply ext_table; auto. Qed.

Lemma mime_roundtrip f : f <> Farbfeld -> from_mime_type (to_mime_type f) = Some f.
Proof. destruct f; intros H; try reflexivity. congruence. Qed.
Lemma mime_farbfeld : from_mime_type (to_mime_type Farbfeld) = None.
Proof. reflexivity. Qed.
Lemma all_complete f : In f all_formats.
Proof. destruct f; cbn; auto 20. Qed.
Lemma all_nodup : NoDup all_formats.
Proof. unfold all_formats. repeat constructor; cbn; intuition discriminate. Qed.
Lemma enabled_subset feat f :
  (reading_enabled feat f = true -> can_read f = true) /\
  (writing_enabled feat f = true -> can_write f = true).
Proof. destruct f; cbn; auto. Qed.
Lemma enabled_full f :
  reading_enabled (fun _ => true) f = can_read f /\ writing_enabled (fun _ => true) f = can_write f.
Proof. destruct f; split; reflexivity. Qed.

(** ** magic bytes: declarative matching *)
(** byte i of the buffer, masked, equals signature byte i, for every signature position *)
Definition mask_at (mask : list Z) (i : Z) : Z :=
  match zget mask i with Some m => m | None => 255 end.
Definition matches (b sig mask : list Z) : Prop :=
  forall i s, zget sig i = Some s -> exists x, zget b i = Some x /\ Z.land x (mask_at mask i) = s.

Lemma land255 x : is_u8 x -> Z.land x 255 = x.
Proof. unfold is_u8, u8_max. intros H. change 255 with (Z.ones 8). rewrite Z.land_ones by lia.
  apply Z.mod_small. cbn. lia. Qed.
Lemma zget_bytes b i x : bytes b -> zget b i = Some x -> is_u8 x.
Proof. intros Hb H. apply zget_In in H. unfold bytes in Hb. rewrite Forall_forall in Hb. auto. Qed.

Lemma matches_cons b sig mask x s :
  matches (x :: b) (s :: sig) mask <->
  Z.land x (match mask with m :: _ => m | [] => 255 end) = s /\ matches b sig (tl mask).
Proof.
  assert (Hm : forall i, 0 <= i -> mask_at (tl mask) i = mask_at mask (i + 1)).
  { intros i Hi. unfold mask_at. destruct mask as [|m mask]; cbn [tl].
    - rewrite !zget_nil. reflexivity.
    - rewrite zget_cons. destruct (Z.eqb_spec (i + 1) 0); [lia|].
      replace (i + 1 - 1) with i by lia. reflexivity. }
  unfold matches. split.
  - intros H. split.
    + destruct (H 0 s) as (y & Hy & E); [rewrite zget_cons; reflexivity|].
      rewrite zget_cons in Hy. cbn in Hy. injection Hy as <-. unfold mask_at in E.
      destruct mask; [exact E|]. rewrite zget_cons in E. exact E.
    + intros i t Ht. pose proof (zget_range _ _ _ Ht).
      destruct (H (i + 1) t) as (y & Hy & E).
      { rewrite zget_cons. destruct (Z.eqb_spec (i + 1) 0); [lia|].
        replace (i + 1 - 1) with i by lia. auto. }
      rewrite zget_cons in Hy. destruct (Z.eqb_spec (i + 1) 0); [lia|].
      replace (i + 1 - 1) with i in Hy by lia. exists y. rewrite Hm by lia. auto.
  - intros [E H] i t Ht. pose proof (zget_range _ _ _ Ht). rewrite zget_cons in Ht.
    destruct (Z.eqb_spec i 0) as [->|Hn].
    + injection Ht as <-. exists x. split; [rewrite zget_cons; reflexivity|].
      unfold mask_at. destruct mask; [exact E|]. rewrite zget_cons. exact E.
    + destruct (H (i - 1) t Ht) as (y & Hy & E2). exists y. rewrite zget_cons.
      destruct (Z.eqb_spec i 0); [lia|]. split; [auto|]. rewrite Hm in E2 by lia.
      replace (i - 1 + 1) with i in E2 by lia. exact E2.
Qed.
Lemma matches_nil b mask : matches b [] mask.
Proof. intros i s H. rewrite zget_nil in H. discriminate. Qed.
Lemma matches_empty s sig mask : ~ matches [] (s :: sig) mask.
Proof. intros H. destruct (H 0 s) as (x & Hx & _); [rewrite zget_cons; reflexivity|].
  rewrite zget_nil in Hx. discriminate. Qed.

Lemma entry_matches_iff b sig mask : bytes b -> entry_matches b sig mask = true <-> matches b sig mask.
Proof.
  intros Hb. assert (H1 : starts_with b sig = true <-> matches b sig []).
  { revert b Hb; induction sig as [|s sig IH]; intros b Hb; cbn [starts_with].
    - destruct b; (split; [intros _; apply matches_nil|reflexivity]).
    - destruct b as [|x b]; [split; [discriminate|intros H; apply matches_empty in H; contradiction]|].
      inversion Hb; subst. rewrite matches_cons. cbn [tl starts_with]. rewrite andb_true_iff, IH by auto.
      rewrite land255 by auto. rewrite Z.eqb_eq. reflexivity. }
  assert (H2 : forall mk b, bytes b ->
    ((zlen sig <=? zlen b) && masked_all b sig mk = true <-> matches b sig mk)).
  { clear b Hb H1. induction sig as [|s sig IH]; intros mk b Hb.
    - replace (zlen [] <=? zlen b) with true by (pose proof (zlen_nonneg b); unfold zlen; cbn; lia).
      destruct b; cbn; split; auto; intros; apply matches_nil.
    - destruct b as [|x b].
      + rewrite zlen_cons, zlen_nil. pose proof (zlen_nonneg sig).
        replace (1 + zlen sig <=? 0) with false by lia. split; [discriminate|].
        intros H'; apply matches_empty in H'; contradiction.
      + inversion Hb; subst. rewrite matches_cons, !zlen_cons. cbn [masked_all].
        rewrite <- IH by auto.
        replace (1 + zlen sig <=? 1 + zlen b) with (zlen sig <=? zlen b) by lia.
        rewrite !andb_true_iff, Z.eqb_eq. tauto. }
  unfold entry_matches. destruct mask; [exact H1|]. apply H2; auto.
Qed.

Lemma guess_in_some t b f : guess_in t b = Some f ->
  exists sig mask, In (sig, mask, f) t /\ entry_matches b sig mask = true.
Proof.
  induction t as [|[[sig mask] g] t IH]; cbn [guess_in]; [discriminate|].
  destruct (entry_matches b sig mask) eqn:E.
  - intros H; injection H as <-. exists sig, mask. split; [left; reflexivity|auto].
  - intros H. destruct (IH H) as (s & m & Hi & Hm). exists s, m. split; [right; auto|auto].
Qed.
Lemma guess_in_none t b : guess_in t b = None <->
  forall sig mask f, In (sig, mask, f) t -> entry_matches b sig mask = false.
Proof.
  induction t as [|[[sig mask] g] t IH]; cbn [guess_in In].
  - split; auto. intros _ ? ? ? [].
  - destruct (entry_matches b sig mask) eqn:E.
    + split; [discriminate|]. intros H. specialize (H sig mask g (or_introl eq_refl)). congruence.
    + rewrite IH. split.
      * intros H s m f [Ei|Hi]; [inversion Ei; subst; auto|eauto].
      * intros H s m f Hi. eapply H; right; eauto.
Qed.

(** two entries contradict each other at some position *)
Fixpoint incompat (s1 m1 s2 m2 : list Z) : bool :=
  match s1, s2 with
  | a :: s1', c :: s2' =>
      let x := match m1 with m :: _ => m | [] => 255 end in
      let y := match m2 with m :: _ => m | [] => 255 end in
      negb (Z.land a y =? Z.land c x) || incompat s1' (tl m1) s2' (tl m2)
  | _, _ => false
  end.
Lemma incompat_sound s1 m1 s2 m2 b :
  incompat s1 m1 s2 m2 = true -> matches b s1 m1 -> matches b s2 m2 -> False.
Proof.
  revert m1 s2 m2 b; induction s1 as [|a s1 IH]; intros m1 s2 m2 b; cbn [incompat]; [discriminate|].
  destruct s2 as [|c s2]; [discriminate|]. intros H H1 H2.
  destruct b as [|x b]; [apply matches_empty in H1; contradiction|].
  apply matches_cons in H1 as [E1 H1], H2 as [E2 H2].
  apply orb_true_iff in H as [H|H].
  - apply negb_true_iff, Z.eqb_neq in H. apply H. rewrite <- E1, <- E2.
    rewrite <- !Z.land_assoc. f_equal. apply Z.land_comm.
  - eapply IH; eauto.
Qed.
Definition fmt_eqb (f g : format) : bool :=
  match f, g with
  | Png, Png | Jpeg, Jpeg | Gif, Gif | WebP, WebP | Pnm, Pnm | Tiff, Tiff | Tga, Tga | Dds, Dds
  | Bmp, Bmp | Ico, Ico | Hdr, Hdr | OpenExr, OpenExr | Farbfeld, Farbfeld | Avif, Avif
  | Qoi, Qoi | Pcx, Pcx => true
  | _, _ => false end.
Lemma fmt_eqb_eq f g : fmt_eqb f g = true -> f = g.
Proof. destruct f, g; cbn; congruence. Qed.
Lemma table_unambiguous :
  forallb (fun '(s1, m1, f) => forallb (fun '(s2, m2, g) =>
    incompat s1 m1 s2 m2 || fmt_eqb f g ||
    (fmt_eqb f Ico && fmt_eqb g Avif) || (fmt_eqb f Avif && fmt_eqb g Ico)) MAGIC_BYTES) MAGIC_BYTES = true.
Proof. vm_compute. reflexivity. Qed.
Lemma table_pair b s1 m1 f s2 m2 g :
  In (s1, m1, f) MAGIC_BYTES -> In (s2, m2, g) MAGIC_BYTES ->
  matches b s1 m1 -> matches b s2 m2 ->
  f = g \/ (f = Ico /\ g = Avif) \/ (f = Avif /\ g = Ico).
Proof.
  intros H1 H2 M1 M2. pose proof table_unambiguous as T.
  rewrite forallb_forall in T. specialize (T _ H1). cbn beta iota in T.
  rewrite forallb_forall in T. specialize (T _ H2). cbn beta iota in T.
  rewrite !orb_true_iff, !andb_true_iff in T.
  destruct T as [[[T|T]|[T1 T2]]|[T1 T2]].
  - exfalso. eapply incompat_sound; eauto.
  - left. apply fmt_eqb_eq; auto.
  - right; left. split; apply fmt_eqb_eq; auto.
  - right; right. split; apply fmt_eqb_eq; auto.
Qed.

Lemma guess_unique b sig mask f : bytes b -> In (sig, mask, f) MAGIC_BYTES -> matches b sig mask ->
  guess_format b = Some f \/ (f = Avif /\ guess_format b = Some Ico).
Proof.
  intros Hb Hi Hm. unfold guess_format. destruct (guess_in MAGIC_BYTES b) as [g|] eqn:E.
  - destruct (guess_in_some _ _ _ E) as (s2 & m2 & Hi2 & Hm2).
    apply entry_matches_iff in Hm2; auto.
    destruct (table_pair b sig mask f s2 m2 g Hi Hi2 Hm Hm2) as [->|[[-> ->]|[-> ->]]]; auto.
    (* f = Ico matched but Avif returned: impossible, the Ico entry precedes *)
    exfalso. assert (Hico : sig = [0; 0; 1; 0] /\ mask = []).
    { cbn [MAGIC_BYTES In] in Hi. repeat destruct Hi as [Hi|Hi]; try contradiction;
        inversion Hi; auto. }
    destruct Hico as [-> ->]. apply (entry_matches_iff b _ _ Hb) in Hm.
    cbn [entry_matches] in Hm. destruct b as [|b0 [|b1 [|b2 [|b3 b]]]]; cbn in Hm; try discriminate;
      rewrite ?andb_false_r in Hm; try discriminate.
    assert (b0 = 0 /\ b1 = 0 /\ b2 = 1 /\ b3 = 0) as (-> & -> & -> & ->) by lia.
    cbn -[zlen] in E. rewrite ?andb_false_r in E. replace (starts_with b []) with true in E by (destruct b; reflexivity). discriminate.
  - exfalso. rewrite guess_in_none in E. specialize (E _ _ _ Hi).
    apply entry_matches_iff in Hm; auto. congruence.
Qed.
Lemma guess_sound b f : bytes b -> guess_format b = Some f ->
  exists sig mask, In (sig, mask, f) MAGIC_BYTES /\ matches b sig mask.
Proof.
  intros Hb H. destruct (guess_in_some _ _ _ H) as (s & m & Hi & Hm).
  apply entry_matches_iff in Hm; eauto.
Qed.
Lemma guess_not_avif b sig mask f : bytes b -> In (sig, mask, f) MAGIC_BYTES -> f <> Avif ->
  matches b sig mask -> guess_format b = Some f.
Proof. intros Hb Hi Hn Hm. destruct (guess_unique b sig mask f Hb Hi Hm) as [H|[-> _]]; [auto|congruence]. Qed.

Lemma matches_firstn b sig mask : matches (firstn (List.length sig) b) sig mask <-> matches b sig mask.
Proof.
  unfold matches. split; intros H i s Hs; destruct (H i s Hs) as (x & Hx & E); exists x;
    (split; [|exact E]); pose proof (zget_range _ _ _ Hs) as Hr.
  - rewrite zget_firstn in Hx. destruct (_ <? _); [auto|discriminate].
  - rewrite zget_firstn. unfold zlen in Hr. destruct (Z.ltb_spec i (Z.of_nat (List.length sig))); [auto|lia].
Qed.
Lemma starts_with_ext b1 b2 sig n : (List.length sig <= n)%nat -> firstn n b1 = firstn n b2 ->
  starts_with b1 sig = starts_with b2 sig.
Proof.
  revert b1 b2 n; induction sig as [|s sig IH]; intros b1 b2 n Hl E; cbn [starts_with]; [destruct b1, b2; reflexivity|].
  cbn in Hl. destruct n as [|n]; [lia|].
  destruct b1, b2; cbn [firstn] in E; try discriminate; auto.
  injection E as -> E. cbn [starts_with]; f_equal. apply (IH _ _ n); [lia|auto].
Qed.
Lemma masked_ext b1 b2 sig mask n : (List.length sig <= n)%nat -> firstn n b1 = firstn n b2 ->
  (zlen sig <=? zlen b1) && masked_all b1 sig mask = (zlen sig <=? zlen b2) && masked_all b2 sig mask.
Proof.
  revert b1 b2 mask n; induction sig as [|s sig IH]; intros b1 b2 mask n Hl E.
  - rewrite zlen_nil. pose proof (zlen_nonneg b1). pose proof (zlen_nonneg b2).
    replace (0 <=? zlen b1) with true by lia. replace (0 <=? zlen b2) with true by lia.
    destruct b1, b2; reflexivity.
  - cbn in Hl. destruct n as [|n]; [lia|].
    destruct b1 as [|x b1], b2 as [|y b2]; cbn [firstn] in E; try discriminate; auto.
    injection E as -> E. cbn [masked_all]. rewrite !zlen_cons.
    specialize (IH b1 b2 (tl mask) n ltac:(lia) E).
    replace (1 + zlen sig <=? 1 + zlen b1) with (zlen sig <=? zlen b1) by lia.
    replace (1 + zlen sig <=? 1 + zlen b2) with (zlen sig <=? zlen b2) by lia.
    destruct (zlen sig <=? zlen b1), (zlen sig <=? zlen b2), (masked_all b1 sig (tl mask)),
      (masked_all b2 sig (tl mask)), (Z.land y match mask with [] => 255 | m :: _ => m end =? s);
      cbn in *; congruence.
Qed.
Lemma guess_prefix b1 b2 : firstn 12 b1 = firstn 12 b2 -> guess_format b1 = guess_format b2.
Proof.
  intros E. unfold guess_format.
  assert (Hl : forall s m f, In (s, m, f) MAGIC_BYTES -> (List.length s <= 12)%nat).
  { intros s m f H. assert (T : forallb (fun '(s, _, _) => (List.length s <=? 12)%nat) MAGIC_BYTES = true)
      by reflexivity. rewrite forallb_forall in T. specialize (T _ H). cbn in T. lia. }
  induction MAGIC_BYTES as [|[[s m] f] t IH]; [reflexivity|]. cbn [guess_in].
  assert (Em : entry_matches b1 s m = entry_matches b2 s m).
  { specialize (Hl s m f (or_introl eq_refl)). unfold entry_matches. destruct m.
    - eapply starts_with_ext; eauto.
    - eapply masked_ext; eauto. }
  rewrite Em. destruct (entry_matches b2 s m); [reflexivity|].
  apply IH. intros; eapply Hl; right; eauto.
Qed.

(** published signatures: a file that starts with one is reported as that format *)
Lemma matches_app sig rest : bytes sig -> matches (sig ++ rest) sig [].
Proof.
  intros Hb i s Hs. exists s. pose proof (zget_range _ _ _ Hs). split.
  - rewrite zget_app. destruct (Z.ltb_spec i (zlen sig)); [auto|lia].
  - unfold mask_at. rewrite zget_nil. apply land255. eapply zget_bytes; eauto.
Qed.
Lemma guess_plain sig f rest : bytes sig -> bytes rest -> In (sig, [], f) MAGIC_BYTES -> f <> Avif ->
  guess_format (sig ++ rest) = Some f.
Proof.
  intros Hs Hr Hi Hn. eapply guess_not_avif; eauto.
  - unfold bytes in *. rewrite Forall_app; auto.
  - apply matches_app; auto.
Qed.

Lemma guess_webp_pcx a b c d v rest :
  is_u8 a -> is_u8 b -> is_u8 c -> is_u8 d -> 0 <= v < 8 -> bytes rest ->
  guess_format (bs "RIFF"%string ++ [a; b; c; d] ++ bs "WEBP"%string ++ rest) = Some WebP /\
  guess_format (10 :: v :: rest) = Some Pcx.
Proof.
  intros Ha Hb Hc Hd Hv Hr.
  assert (B : bytes (bs "RIFF"%string ++ [a; b; c; d] ++ bs "WEBP"%string ++ rest)).
  { repeat (constructor; [first [assumption|cbv; split; discriminate]|]). exact Hr. }
  split.
  - eapply guess_not_avif with (sig := bs "RIFF"%string ++ [0;0;0;0] ++ bs "WEBP"%string)
      (mask := [255;255;255;255;0;0;0;0]); [exact B|cbn; tauto|discriminate|].
    cbn -[matches]. repeat (apply matches_cons; split; [first [reflexivity|apply Z.land_0_r]|cbn -[matches]]).
    apply matches_nil.
  - assert (B2 : bytes (10 :: v :: rest)).
    { constructor; [cbv; split; discriminate|]. constructor; [unfold is_u8, u8_max; lia|auto]. }
    eapply guess_not_avif with (sig := [10; 0]) (mask := [255; 248]); [exact B2|cbn; tauto|discriminate|].
    repeat (apply matches_cons; split).
    + reflexivity.
    + assert (v = 0 \/ v = 1 \/ v = 2 \/ v = 3 \/ v = 4 \/ v = 5 \/ v = 6 \/ v = 7) as H by lia.
      repeat destruct H as [->|H]; subst; reflexivity.
    + apply matches_nil.
Qed.
