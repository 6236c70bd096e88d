(** Proofs about bitmaps (P1, P4) and about the encoder's output. *)
From Coq Require Import String.
From Verif Require Import Base BaseLemmas ListLemmas ListMore ColorType Limits Text GenImage Bits BitsProofs BitLemmas Farbfeld FarbfeldSpec FarbfeldProofs BmpProofs4 Pnm PnmSpec PnmScale PnmProofs PnmProofs2.
Local Open Scope Z_scope.

(** ** P4 decoding *)
Lemma decode_pbm md big w h text raster : header_text (HBit SBin w h) text -> 1 <= w -> w + 7 <= u32_max -> is_u32 h -> bytes raster ->
  (w + 7) / 8 * h <= u32_max -> (w + 7) / 8 * h <= zlen raster ->
  pnm_decode md big (text ++ raster) = Ok (w, h, CL8, picture w h (fun x y => if pbm_black raster w x y then 0 else 255)).
Proof.
  intros HT Hw Hw7 Hh B SZ LR. destruct (header_read _ text raster HT I) as (mg & r0 & R1 & R2 & R3).
  assert (Hw' : is_u32 w) by (unfold is_u32; lia). set (st := (w + 7) / 8) in *. assert (ST : w <= st * 8 /\ 1 <= st) by (unfold st; zdm).
  assert (SH : 0 <= st * h) by (apply Z.mul_nonneg_nonneg; unfold is_u32 in *; lia).
  destruct (checks_ok w h CL8 Hw' Hh) as (C1 & C2). { cbn [ct_bytes]. unfold is_u32, isize_max, u32_max in *. nia. }
  change (ct_bytes CL8) with 1 in *. rewrite Z.mul_1_r in C2.
  unfold pnm_decode, pnm_new. rewrite R1. cbn [bind]. rewrite R2. cbn [bind]. rewrite R3. cbn [bind tuple_type h_width h_height color_of]. change (ct_bytes CL8) with 1. rewrite C1. cbn [bind d_hdr d_tuple h_width h_height color_of]. rewrite C2. cbn [bind].
  replace (isize_max <? w * h) with false by (unfold is_u32, isize_max, u32_max in *; nia).
  unfold read_image. cbn [d_hdr d_tuple h_width h_height color_of]. rewrite C2. cbn [bind]. rewrite Z.eqb_refl. unfold read_samples. cbn [d_hdr d_tuple d_reader h_subtype sample_encoding h_width h_height bytelen components].
  rewrite mul_ok_u32 by (unfold is_u32 in *; lia). cbn [bind]. rewrite Z.mul_1_r. replace (w / 8 + (if w mod 8 =? 0 then 0 else 1)) with st by (unfold st; destruct (Z.eqb_spec (w mod 8) 0); zdm).
  rewrite mul_ok_u32 by lia. cbn [bind]. set (b := firstn (Z.to_nat (st * h)) raster). assert (LB : zlen b = st * h) by (unfold b, zlen in *; rewrite firstn_length; lia).
  rewrite LB, Z.eqb_refl. cbn [negb from_bytes]. assert (BB : bytes b) by (unfold b; apply Forall_firstn'; exact B).
  rewrite (expand_bits_rows 1 w h b) by (first [left; reflexivity | exact BB | unfold is_u32 in *; lia | rewrite LB; rewrite Z.mul_1_r; fold st; ring]). cbn [bind].
  unfold copy_into. rewrite !zlen_map, zlen_coords by (unfold is_u32 in *; lia). rewrite Z.eqb_refl. cbn [bind]. f_equal. f_equal.
  unfold scale_buf. cbn [sample_size]. change (1 =? 1) with true. cbv iota. change (maximal_sample (HBit SBin w h) =? 255) with false. cbv iota. change (maximal_sample (HBit SBin w h)) with 1.
  rewrite !map_map. unfold picture. apply map_ext_in. intros (x & y) Hc. apply In_coords in Hc; [|unfold is_u32 in *; lia..]. cbn [fst snd].
  assert (F : field 1 b (y * row_len 1 w + x) = if pbm_black raster w x y then 1 else 0).
  { rewrite row_len_eq by (first [left; reflexivity|lia]). rewrite Z.mul_1_r. fold st. change (8 / 1) with 8. unfold field, pbm_black. fold st. rewrite !Z.mul_1_r.
    replace ((y * (st * 8) + x) / 8) with (y * st + x / 8) by (replace (y * (st * 8) + x) with (y * st * 8 + x) by ring; rewrite Z.div_add_l by lia; reflexivity).
    replace ((y * (st * 8) + x) mod 8) with (x mod 8) by (replace (y * (st * 8) + x) with (x + y * st * 8) by ring; rewrite Z.mod_add by lia; reflexivity).
    assert (R : 0 <= y * st + x / 8 < st * h). { assert (0 <= x / 8 < st) by (unfold st in *; split; zdm). nia. }
    replace (zget b (y * st + x / 8)) with (zget raster (y * st + x / 8)) by (unfold b; change (firstn (Z.to_nat (st * h)) raster) with (zslice raster 0 (st * h)); rewrite zget_zslice_gen by lia; replace (_ && _) with true by lia; reflexivity).
    destruct (zget_some raster (y * st + x / 8)) as (v & ->); [lia|].
    change (8 - 1) with 7. change (2 ^ 1) with 2. rewrite <- Z.testbit_spec' by (pose proof (Z.mod_pos_bound x 8); lia). destruct (Z.testbit v (7 - x mod 8)); reflexivity. }
  rewrite F. change (255 / (2 ^ 1 - 1)) with 255. destruct (pbm_black raster w x y); [change (255 - 1 * 255) with 0; apply scale_255_1|change (255 - 0 * 255) with 255; apply scale_255_1].
Qed.

(** ** P1 decoding *)
Lemma read_bits_ok raster bits more : filter (fun b => negb (is_ws b)) raster = map (fun v : bool => if v then 49 else 48) bits ++ more ->
  read_pbm_ascii (length bits) raster = Ok (map (fun v : bool => if v then 0 else 255) bits).
Proof.
  revert bits. induction raster as [|b r IH]; intros bits E; cbn [filter] in E.
  - destruct bits; [reflexivity|discriminate E].
  - destruct bits as [|v bits]; [reflexivity|]. cbn [length map read_pbm_ascii]. destruct (is_ws b) eqn:B; cbn [negb] in E.
    + exact (IH (v :: bits) E).
    + cbn [map app] in E. injection E as Eb Er. rewrite (IH bits Er). destruct v; subst b; reflexivity.
Qed.
Lemma decode_pbm_ascii md big w h text raster bits more : header_text (HBit SAsc w h) text -> is_u32 w -> is_u32 h -> w * h <= isize_max -> zlen bits = w * h ->
  filter (fun b => negb (is_ws b)) raster = map (fun v : bool => if v then 49 else 48) bits ++ more ->
  pnm_decode md big (text ++ raster) = Ok (w, h, CL8, map (fun v : bool => if v then 0 else 255) bits).
Proof.
  intros HT Hw Hh SZ L E. destruct (header_read _ text raster HT I) as (mg & r0 & R1 & R2 & R3).
  destruct (checks_ok w h CL8 Hw Hh ltac:(cbn [ct_bytes]; lia)) as (C1 & C2). change (ct_bytes CL8) with 1 in *. rewrite Z.mul_1_r in C2.
  unfold pnm_decode, pnm_new. rewrite R1. cbn [bind]. rewrite R2. cbn [bind]. rewrite R3. cbn [bind tuple_type h_width h_height color_of]. change (ct_bytes CL8) with 1. rewrite C1. cbn [bind d_hdr d_tuple h_width h_height color_of]. rewrite C2. cbn [bind].
  replace (isize_max <? w * h) with false by lia.
  unfold read_image. cbn [d_hdr d_tuple h_width h_height color_of]. rewrite C2. cbn [bind]. rewrite Z.eqb_refl. unfold read_samples. cbn [d_hdr d_tuple d_reader h_subtype sample_encoding from_ascii].
  rewrite <- L. unfold zlen at 1. rewrite Nat2Z.id. rewrite (read_bits_ok raster bits more E). cbn [bind]. f_equal. f_equal.
  unfold scale_buf. cbn [sample_size]. change (1 =? 1) with true. cbv iota. change (maximal_sample (HBit SAsc w h) =? 255) with false. cbv iota. change (maximal_sample (HBit SAsc w h)) with 1.
  rewrite map_map. apply map_ext. intros []; apply scale_255_1.
Qed.

(** ** the encoder's headers *)
Lemma numbers_of l : Forall is_u32 l -> forall s, is_ws s = true -> numbers l (flat_map (fun v => dec v ++ [s]) l).
Proof.
  intros H s S. induction H as [|v l Hv _ IH]; [constructor|]. cbn [flat_map]. rewrite <- app_assoc. cbn [app]. change (dec v ++ s :: flat_map (fun v => dec v ++ [s]) l) with ([] ++ dec v ++ s :: flat_map (fun v => dec v ++ [s]) l).
  constructor; [constructor|apply numeral_dec; unfold is_u32, u32_max in Hv; lia|unfold is_u32 in Hv; lia|exact S|exact IH].
Qed.
Lemma nums1 v s vs rest g : gap g -> is_u32 v -> is_ws s = true -> numbers vs rest -> numbers (v :: vs) (g ++ dec v ++ s :: rest).
Proof. intros G Hv S N. constructor; [exact G|apply numeral_dec; unfold is_u32, u32_max in Hv; lia|unfold is_u32 in Hv; lia|exact S|exact N]. Qed.
Definition hdr_ok (h : hdr) : Prop :=
  is_u32 (h_width h) /\ is_u32 (h_height h) /\ is_u32 (maximal_sample h) /\
  match h with HArb _ _ d _ t => is_u32 d /\ match t with Some (TCustom s) => name_ok s /\ tupl_of s = TCustom s | _ => True end | _ => True end.
Lemma field_dec key v : is_u32 v -> field_line key v (key ++ [32] ++ dec v).
Proof.
  intros Hv. exists [32], (dec v), []. split; [rewrite !app_nil_r; reflexivity|]. split; [discriminate|]. split; [constructor; [split; [reflexivity|lia]|constructor]|]. split; [apply numeral_dec; unfold is_u32, u32_max in Hv; lia|unfold is_u32 in Hv; lia].
Qed.
Lemma std_names t : (forall s, t <> TCustom s) -> name_ok (tupl_name t).
Proof.
  intros N. assert (G : forall k, forallb (fun b => negb (is_ws b) && (0 <=? b) && (b <? 128)) k = true -> zlen k <> 0 -> name_ok k).
  { intros k F L. assert (F' : Forall (fun b => is_ws b = false /\ 0 <= b < 128) k). { apply Forall_forall. intros b Hb. rewrite forallb_forall in F. specialize (F b Hb). destruct (is_ws b); [discriminate F|]. split; [reflexivity|]. cbn [negb andb] in F. lia. }
    split; [intros ->; apply L; reflexivity|]. split; [eapply Forall_impl; [|exact F']; cbv beta; unfold is_ws; intros; lia|]. split; intros b r ->; [inversion F' as [|? ? (X & _) _]; exact X|apply Forall_app in F' as (_ & F'); inversion F' as [|? ? (X & _) _]; exact X]. }
  destruct t; try (apply G; [reflexivity|vm_compute; discriminate]). exfalso. apply (N s). reflexivity.
Qed.
Lemma pam_item' i is l r : item_line i l -> pam_text is r -> pam_text (i :: is) (l ++ [10] ++ r).
Proof. apply pam_item. Qed.
Lemma write_header_text h : hdr_ok h -> header_text h (write_header h).
Proof.
  intros (W & H & M & X). destruct h as [e w hh|e w hh m|e w hh m|w hh d m t]; cbn [h_width h_height maximal_sample] in *.
  - exists ([10] ++ dec w ++ [32] ++ dec hh ++ [10]). split; [destruct e; reflexivity|]. change ([32] ++ dec hh ++ [10]) with (32 :: [] ++ dec hh ++ 10 :: []). apply nums1; [apply gap_ws; [reflexivity|constructor]|exact W|reflexivity|]. apply nums1; [constructor|exact H|reflexivity|constructor].
  - exists ([10] ++ dec w ++ [32] ++ dec hh ++ [32] ++ dec m ++ [10]). split; [destruct e; reflexivity|]. change ([32] ++ dec hh ++ [32] ++ dec m ++ [10]) with (32 :: [] ++ dec hh ++ 32 :: [] ++ dec m ++ 10 :: []). apply nums1; [apply gap_ws; [reflexivity|constructor]|exact W|reflexivity|]. apply nums1; [constructor|exact H|reflexivity|]. apply nums1; [constructor|exact M|reflexivity|constructor].
  - exists ([10] ++ dec w ++ [32] ++ dec hh ++ [32] ++ dec m ++ [10]). split; [destruct e; reflexivity|]. change ([32] ++ dec hh ++ [32] ++ dec m ++ [10]) with (32 :: [] ++ dec hh ++ 32 :: [] ++ dec m ++ 10 :: []). apply nums1; [apply gap_ws; [reflexivity|constructor]|exact W|reflexivity|]. apply nums1; [constructor|exact H|reflexivity|]. apply nums1; [constructor|exact M|reflexivity|constructor].
  - destruct X as (D & X). cbn [header_text].
    exists ([Width w; Height hh; Depth d; Maxval m] ++ match t with Some t => [Type_ (tupl_name t)] | None => [] end).
    exists ((txt "WIDTH" ++ [32] ++ dec w) ++ [10] ++ (txt "HEIGHT" ++ [32] ++ dec hh) ++ [10] ++ (txt "DEPTH" ++ [32] ++ dec d) ++ [10] ++ (txt "MAXVAL" ++ [32] ++ dec m) ++ [10] ++ match t with Some t => (txt "TUPLTYPE" ++ [32] ++ tupl_name t) ++ [10] | None => [] end ++ txt "ENDHDR" ++ [10]).
    split; [|split].
    + unfold write_header. cbn [h_subtype magic_constant].
      change (txt "WIDTH ") with (txt "WIDTH" ++ [32]). change (txt "HEIGHT ") with (txt "HEIGHT" ++ [32]). change (txt "DEPTH ") with (txt "DEPTH" ++ [32]). change (txt "MAXVAL ") with (txt "MAXVAL" ++ [32]). change (txt "TUPLTYPE ") with (txt "TUPLTYPE" ++ [32]).
      destruct t as [t|]; rewrite <- !app_assoc; reflexivity.
    + cbn [app]. apply pam_item'; [apply field_dec; exact W|]. apply pam_item'; [apply field_dec; exact H|]. apply pam_item'; [apply field_dec; exact D|]. apply pam_item'; [apply field_dec; exact M|].
      destruct t as [t|]; [|apply pam_end]. rewrite <- app_assoc. apply pam_item'; [|apply pam_end]. cbn [item_line]. exists [32], []. split; [rewrite !app_nil_r; reflexivity|]. split; [discriminate|]. split; [constructor; [split; [reflexivity|lia]|constructor]|].
      destruct t; try (apply std_names; intros ?; discriminate). apply X.
    + destruct t as [[]|]; repeat split; reflexivity.
Qed.

(** ** AutoBreak *)
Lemma ab_full cap s b : exists o, (o = [] \/ o = [10]) /\ ab_flush (ab_write cap s b) = ab_flush s ++ o ++ b.
Proof.
  destruct s as (out & line). unfold ab_write, ab_flush. destruct (_ && _); cbn [fst snd].
  - exists [10]. split; [right; reflexivity|]. rewrite <- !app_assoc. cbn [app]. reflexivity.
  - exists []. split; [left; reflexivity|]. rewrite <- app_assoc. reflexivity.
Qed.
Definition ends_ws (a : list Z) : Prop := a = [] \/ exists a' s, a = a' ++ [s] /\ is_ws s = true.
Lemma split_aux_app a' s b : is_ws s = true -> forall cur, split_ws_aux ((a' ++ [s]) ++ b) cur = split_ws_aux (a' ++ [s]) cur ++ split_ws_aux b [].
Proof.
  intros S. induction a' as [|c a' IH]; intros cur.
  - cbn [app split_ws_aux]. rewrite S. destruct cur; reflexivity.
  - cbn [app split_ws_aux]. destruct (is_ws c); [|apply IH]. destruct cur; [apply IH|]. cbn [app]. f_equal. apply IH.
Qed.
Lemma split_app a b : ends_ws a -> split_ws (a ++ b) = split_ws a ++ split_ws b.
Proof. intros [->|(a' & s & -> & S)]; [reflexivity|]. apply (split_aux_app a' s b S []). Qed.
Lemma ends_app a s : is_ws s = true -> ends_ws (a ++ [s]).
Proof. intros S. right. exists a, s. auto. Qed.
Lemma ascii_words l : Forall (fun v => 0 <= v < 10 ^ 21) l -> split_ws (write_samples_ascii l) = map dec l /\ ends_ws (write_samples_ascii l).
Proof.
  unfold write_samples_ascii. intros H. revert H. pattern l. apply rev_ind; clear l; [intros _; split; [reflexivity|left; reflexivity]|].
  intros v l IH H. apply Forall_app in H as (Hl & Hv). inversion Hv as [|? ? V _]; subst. destruct (IH Hl) as (E & N). rewrite fold_left_app. cbn [fold_left]. set (s := fold_left _ l _) in *. clearbody s.
  destruct (ab_full 70 (ab_write 70 s (dec v)) [32]) as (o2 & O2 & E2). destruct (ab_full 70 s (dec v)) as (o1 & O1 & E1). rewrite E2, E1. rewrite <- !app_assoc.
  assert (N1 : ends_ws (ab_flush s ++ o1)) by (destruct O1 as [->| ->]; [rewrite app_nil_r; exact N|apply ends_app; reflexivity]).
  assert (T1 : split_ws (ab_flush s ++ o1) = map dec l) by (destruct O1 as [->| ->]; [rewrite app_nil_r; exact E|rewrite split_app by exact N; rewrite E; change (split_ws [10]) with (@nil (list Z)); apply app_nil_r]).
  destruct (dec_no_ws v V) as (D1 & D2). split.
  - rewrite app_assoc. rewrite split_app by exact N1. rewrite T1, map_app. f_equal. cbn [map]. destruct O2 as [->| ->]; cbn [app]; rewrite split_ws_word by (first [exact D1|exact D2|reflexivity]); reflexivity.
  - right. exists (ab_flush s ++ o1 ++ dec v ++ o2), 32. split; [rewrite <- !app_assoc; reflexivity|reflexivity].
Qed.
Lemma dec_aux_len f n acc : zlen (dec_aux f n acc) <= Z.of_nat f + 1 + zlen acc.
Proof.
  revert n acc. induction f as [|f IH]; intros n acc; cbn [dec_aux]; destruct (n <? 10); try (rewrite zlen_cons; lia). specialize (IH (n / 10) ((48 + n mod 10) :: acc)). rewrite zlen_cons in IH. lia.
Qed.
Lemma dec_len n : zlen (dec n) <= 21.
Proof. unfold dec. pose proof (dec_aux_len 20 n []) as H. change (zlen (@nil Z)) with 0 in H. lia. Qed.
Definition ne10 (b : Z) : Prop := b <> 10.
Definition broken (s : autobreak) : Prop :=
  exists ls, fst s = flat_map (fun ln => ln ++ [10]) ls /\ Forall (fun ln => zlen ln <= 70 /\ Forall ne10 ln) (ls ++ [snd s]).
Lemma ab_broken s b : broken s -> zlen b <= 70 -> Forall ne10 b -> broken (ab_write 70 s b).
Proof.
  destruct s as (out & line). intros (ls & E & F) L N. cbn [fst snd] in *. unfold ab_write. apply Forall_app in F as (F1 & F2). inversion F2 as [|? ? (L2 & N2) _]; subst.
  destruct (negb (zlen line =? 0) && (70 <? zlen line + zlen b)) eqn:C.
  - exists (ls ++ [line]). cbn [fst snd app]. rewrite flat_map_app. cbn [flat_map]. rewrite app_nil_r. split; [reflexivity|]. apply Forall_app. split; [apply Forall_app; split; [exact F1|constructor; [split; assumption|constructor]]|constructor; [split; assumption|constructor]].
  - exists ls. cbn [fst snd]. split; [reflexivity|]. apply Forall_app. split; [exact F1|]. constructor; [|constructor]. split; [|apply Forall_app; split; assumption].
    rewrite zlen_app. destruct (Z.eqb_spec (zlen line) 0); cbn [negb andb] in C; lia.
Qed.
Lemma dec_ne10 v : 0 <= v < 10 ^ 21 -> Forall ne10 (dec v).
Proof. intros H. eapply Forall_impl; [|exact (dec_bytes v H)]. cbv beta. unfold ne10. intros; lia. Qed.
Lemma ascii_broken l : Forall (fun v => 0 <= v < 10 ^ 21) l -> forall s, broken s -> broken (fold_left (fun s v => ab_write 70 (ab_write 70 s (dec v)) [32]) l s).
Proof.
  induction 1 as [|v l V _ IH]; intros s B; cbn [fold_left]; [exact B|]. apply IH. apply ab_broken; [apply ab_broken; [exact B|pose proof (dec_len v); lia|apply dec_ne10; exact V]|change (zlen [32]) with 1; lia|constructor; [unfold ne10; lia|constructor]].
Qed.
Lemma lines_aux_nl a b cur : Forall ne10 a -> lines_aux (a ++ 10 :: b) cur = (cur ++ a) :: lines_aux b [].
Proof. revert cur. induction a as [|c a IH]; intros cur H; cbn [app lines_aux]; [rewrite app_nil_r; reflexivity|]. inversion H as [|? ? C H']; subst. unfold ne10 in C. replace (c =? 10) with false by lia. rewrite IH by exact H'. rewrite <- app_assoc. reflexivity. Qed.
Lemma lines_aux_last a cur : Forall ne10 a -> lines_aux a cur = [cur ++ a].
Proof. revert cur. induction a as [|c a IH]; intros cur H; cbn [lines_aux]; [rewrite app_nil_r; reflexivity|]. inversion H as [|? ? C H']; subst. unfold ne10 in C. replace (c =? 10) with false by lia. rewrite IH by exact H'. rewrite <- app_assoc. reflexivity. Qed.
Lemma lines_flat ls last : Forall (Forall ne10) (ls ++ [last]) -> lines (flat_map (fun ln => ln ++ [10]) ls ++ last) = ls ++ [last].
Proof.
  unfold lines. induction ls as [|a ls IH]; intros H; cbn [flat_map app] in *.
  - inversion H; subst. apply lines_aux_last. assumption.
  - inversion H as [|? ? Ha Hl]; subst. rewrite <- !app_assoc. cbn [app]. rewrite lines_aux_nl by exact Ha. cbn [app]. f_equal. apply IH. exact Hl.
Qed.
(** all lines of header lines followed by an AutoBreak text *)
Lemma ascii_lines hl l : Forall (fun ln => zlen ln <= 70 /\ Forall ne10 ln) hl -> Forall (fun v => 0 <= v < 10 ^ 21) l ->
  Forall (fun ln => zlen ln <= 70) (lines (flat_map (fun ln => ln ++ [10]) hl ++ write_samples_ascii l)).
Proof.
  intros HL H. destruct (ascii_broken l H ([], [])) as (ls & E & F). { exists []. split; [reflexivity|]. constructor; [split; [discriminate|constructor]|constructor]. }
  unfold write_samples_ascii, ab_flush. set (s := fold_left _ l _) in *. rewrite E, app_assoc, <- flat_map_app.
  assert (G : Forall (fun ln => zlen ln <= 70 /\ Forall ne10 ln) ((hl ++ ls) ++ [snd s])) by (rewrite <- app_assoc; apply Forall_app; split; assumption).
  rewrite lines_flat; [eapply Forall_impl; [|exact G]; cbv beta; tauto|eapply Forall_impl; [|exact G]; cbv beta; tauto].
Qed.

(** ** bit packing *)
Lemma chunks_fuel_map n : 0 < n -> forall f l, (length l <= f)%nat -> chunks_fuel f n l = map (fun i => zslice l (i * n) n) (zrange 0 ((zlen l + n - 1) / n)).
Proof.
  intros Hn. induction f as [|f IH]; intros l Hl.
  - destruct l; [|cbn in Hl; lia]. change (zlen (@nil Z)) with 0. rewrite Z.div_small by lia. reflexivity.
  - destruct l as [|b l].
    + change (zlen (@nil Z)) with 0. rewrite (Z.div_small (0 + n - 1) n) by lia. reflexivity.
    + cbn [chunks_fuel]. set (L := b :: l) in *. assert (LN : 1 <= zlen L) by (unfold L; rewrite zlen_cons; pose proof (zlen_nonneg l); lia).
      rewrite IH by (rewrite skipn_length; unfold L in *; cbn [length] in *; lia).
      assert (ZS : zlen (skipn (Z.to_nat n) L) = Z.max 0 (zlen L - n)) by (unfold zlen; rewrite skipn_length; lia).
      assert (CE : (zlen L + n - 1) / n = 1 + (zlen (skipn (Z.to_nat n) L) + n - 1) / n).
      { rewrite ZS. destruct (Z.max_spec 0 (zlen L - n)) as [(X & ->)|(X & ->)].
        - replace (zlen L + n - 1) with (zlen L - n + n - 1 + 1 * n) by ring. rewrite Z.div_add by lia. lia.
        - rewrite (Z.div_small (0 + n - 1)) by lia. symmetry. apply (Z.div_unique _ _ _ (zlen L - 1)); lia. }
      rewrite CE. set (k := (zlen (skipn (Z.to_nat n) L) + n - 1) / n). assert (K : 0 <= k) by (unfold k; apply Z.div_pos; [rewrite ZS; lia|lia]).
      rewrite (zrange_cons 0 (1 + k)) by lia. replace (1 + k - 1) with k by lia. cbn [map]. f_equal.
      rewrite (map_zrange_shift _ (0 + 1) k). apply map_ext_in. intros i Hi. apply In_zrange in Hi. unfold zslice. rewrite skipn_skipn. f_equal. f_equal. lia.
Qed.
Lemma chunks_map n l : 0 < n -> chunks n l = map (fun i => zslice l (i * n) n) (zrange 0 ((zlen l + n - 1) / n)).
Proof. intros H. apply chunks_fuel_map; [exact H|apply le_n]. Qed.

Lemma byte_bits b0 b1 b2 b3 b4 b5 b6 b7 :
  let f := fun (b : bool) i byte => if b then Z.lor byte (Z.shiftl 1 (7 - i)) else byte in
  let byte := f b7 7 (f b6 6 (f b5 5 (f b4 4 (f b3 3 (f b2 2 (f b1 1 (f b0 0 0))))))) in
  0 <= byte <= 255 /\ map (fun i => Z.testbit byte (7 - i)) [0; 1; 2; 3; 4; 5; 6; 7] = [b0; b1; b2; b3; b4; b5; b6; b7].
Proof. destruct b0, b1, b2, b3, b4, b5, b6, b7; (split; [split; discriminate|reflexivity]). Qed.
Definition is0 (o : option Z) : bool := match o with Some v => v =? 0 | None => false end.
Lemma pbm_byte_ok bits : is_u8 (pbm_byte bits) /\ forall i, 0 <= i < 8 -> Z.testbit (pbm_byte bits) (7 - i) = is0 (zget bits i).
Proof.
  assert (E : pbm_byte bits = let f := fun (b : bool) i byte => if b then Z.lor byte (Z.shiftl 1 (7 - i)) else byte in
     f (is0 (zget bits 7)) 7 (f (is0 (zget bits 6)) 6 (f (is0 (zget bits 5)) 5 (f (is0 (zget bits 4)) 4 (f (is0 (zget bits 3)) 3 (f (is0 (zget bits 2)) 2 (f (is0 (zget bits 1)) 1 (f (is0 (zget bits 0)) 0 0)))))))).
  { unfold pbm_byte. change (zrange 0 8) with [0; 1; 2; 3; 4; 5; 6; 7]. cbn [fold_left]. unfold is0. cbv zeta beta. repeat match goal with |- context [zget bits ?k] => destruct (zget bits k) end; reflexivity. }
  rewrite E. destruct (byte_bits (is0 (zget bits 0)) (is0 (zget bits 1)) (is0 (zget bits 2)) (is0 (zget bits 3)) (is0 (zget bits 4)) (is0 (zget bits 5)) (is0 (zget bits 6)) (is0 (zget bits 7))) as (R & M).
  cbv zeta in *. split; [exact R|]. intros i Hi. apply (f_equal (fun l => zget l i)) in M. rewrite zget_map in M.
  assert (I : i = 0 \/ i = 1 \/ i = 2 \/ i = 3 \/ i = 4 \/ i = 5 \/ i = 6 \/ i = 7) by lia.
  destruct I as [-> |[-> |[-> |[-> |[-> |[-> |[-> | ->]]]]]]]; apply Some_inj in M; exact M.
Qed.
Lemma pbm_body_ok l w h : 1 <= w -> 0 <= h -> zlen l = w * h ->
  exists body, write_pbm_bits l w = Ok body /\ bytes body /\ zlen body = (w + 7) / 8 * h /\
    forall x y, 0 <= x < w -> 0 <= y < h -> pbm_black body w x y = is0 (zget l (y * w + x)).
Proof.
  intros Hw Hh L. unfold write_pbm_bits. replace (w =? 0) with false by lia. eexists. split; [reflexivity|]. set (st := (w + 7) / 8). assert (ST : w <= st * 8 < w + 8) by (unfold st; zdm).
  rewrite (chunks_map w l) by lia. assert (N : (zlen l + w - 1) / w = h) by (rewrite L; symmetry; apply (Z.div_unique _ _ _ (w - 1)); lia). rewrite N.
  set (f := fun line : list Z => map pbm_byte (chunks 8 line)). set (ls := map (fun i => zslice l (i * w) w) (zrange 0 h)).
  assert (LL : Forall (fun line => zlen line = w) ls). { apply Forall_forall. intros c Hc. apply in_map_iff in Hc as (i & <- & Hi). apply In_zrange in Hi. rewrite zlen_zslice_gen by nia. nia. }
  assert (LF : Forall (fun line => zlen (f line) = st) ls). { eapply Forall_impl; [|exact LL]. cbv beta. intros line Hl. unfold f. rewrite zlen_map, chunks_map, zlen_map, zlen_zrange by lia. rewrite Hl. replace (w + 8 - 1) with (w + 7) by ring. fold st. lia. }
  assert (ZL : zlen ls = h) by (unfold ls; rewrite zlen_map, zlen_zrange; lia).
  destruct (zget_flat_map f st ls ltac:(lia) LF) as (FL & FG). rewrite ZL in FL, FG. split; [|split; [rewrite FL; reflexivity|]].
  - apply Forall_forall. intros b Hb. apply in_flat_map in Hb as (line & _ & Hb). unfold f in Hb. apply in_map_iff in Hb as (c & <- & _). apply pbm_byte_ok.
  - intros x y Hx Hy. unfold pbm_black. fold st. assert (X8 : 0 <= x / 8 < st) by (split; [zdm|apply Z.div_lt_upper_bound; lia]). assert (R : 0 <= y * st + x / 8 < st * h) by nia.
    destruct (FG _ R) as (line & G1 & G2). rewrite G2. replace ((y * st + x / 8) / st) with y in G1 by (rewrite Z.div_add_l by lia; rewrite (Z.div_small (x / 8)) by lia; lia).
    replace ((y * st + x / 8) mod st) with (x / 8) by (rewrite Z.add_comm, Z.mod_add by lia; rewrite Z.mod_small by lia; reflexivity).
    unfold ls in G1. rewrite zget_map, zget_zrange in G1 by lia. cbn [option_map] in G1. apply Some_inj in G1. subst line.
    unfold f. rewrite zget_map, chunks_map by lia. rewrite zget_map. assert (LZ : zlen (zslice l ((0 + y) * w) w) = w) by (rewrite zlen_zslice_gen; nia). rewrite LZ. rewrite zget_zrange.
    2:{ split; [lia|]. replace (w + 8 - 1) with (w + 7) by ring. fold st. lia. }
    cbn [option_map]. pose proof (Z.mod_pos_bound x 8 ltac:(lia)) as MB. pose proof (Z.div_mod x 8 ltac:(lia)) as DM.
    destruct (pbm_byte_ok (zslice (zslice l ((0 + y) * w) w) ((0 + x / 8) * 8) 8)) as (_ & T). rewrite T by lia. f_equal.
    rewrite zget_zslice_gen by lia. replace ((0 <=? x mod 8) && (x mod 8 <? 8)) with true by lia. rewrite zget_zslice_gen by nia. replace (_ && _) with true by lia. f_equal. lia.
Qed.
Lemma picture_list l w h (f : option Z -> Z) (g : Z -> Z) : 1 <= w -> 0 <= h -> zlen l = w * h -> (forall v, f (Some v) = g v) ->
  picture w h (fun x y => f (zget l (y * w + x))) = map g l.
Proof.
  intros Hw Hh L E. unfold picture. assert (0 <= w * h) by (apply Z.mul_nonneg_nonneg; lia).
  transitivity (map (fun k => f (zget l k)) (map (fun c => snd c * w + fst c) (coords w h))); [rewrite map_map; reflexivity|].
  rewrite coords_idx by lia. apply zget_ext; [rewrite !zlen_map, zlen_zrange; lia|]. intros i Hi. rewrite zlen_map, zlen_zrange in Hi. rewrite !zget_map, zget_zrange by lia. cbn [option_map].
  rewrite Z.add_0_l. destruct (zget_some l i) as (v & ->); [lia|]. cbn [option_map]. rewrite E. reflexivity.
Qed.
