(** Palettized BMP rows, the palette and the headers, by file offsets. *)
From Verif Require Import Base BaseLemmas ListLemmas ListMore BitLemmas BmpBits BmpBitsProps Bmp DxtProofs2 IcoSpec IcoProofs BmpSpec Post BmpProofs BmpProofs2 TgaProofs2 BmpProofs3.
Local Open Scope Z_scope.

Lemma zget_flat_map {A B} (f : A -> list B) n (l : list A) : 0 < n -> Forall (fun a => zlen (f a) = n) l ->
  zlen (flat_map f l) = n * zlen l /\
  forall k, 0 <= k < n * zlen l -> exists a, zget l (k / n) = Some a /\ zget (flat_map f l) k = zget (f a) (k mod n).
Proof.
  intros Hn F. induction F as [|a l La Hl [IH1 IH2]]; cbn [flat_map].
  - change (zlen (@nil A)) with 0. change (zlen (@nil B)) with 0. split; [lia|]. intros; lia.
  - rewrite zlen_app, zlen_cons, IH1, La. split; [lia|]. intros k Hk. rewrite zget_app by lia. rewrite La. destruct (Z.ltb_spec k n).
    + exists a. rewrite Z.div_small, Z.mod_small by lia. split; reflexivity.
    + destruct (IH2 (k - n) ltac:(lia)) as (a' & E1 & E2). exists a'. rewrite E2.
      replace (k mod n) with ((k - n) mod n) by (replace k with ((k - n) + 1 * n) at 2 by lia; rewrite Z.mod_add by lia; reflexivity). split; [|reflexivity].
      replace (k / n) with (1 + (k - n) / n) by (replace k with ((k - n) + 1 * n) at 2 by lia; rewrite Z.div_add by lia; lia).
      assert (0 <= (k - n) / n) by (apply Z.div_pos; lia). change (a :: l) with ([a] ++ l). rewrite zget_app by lia. change (zlen [a]) with 1. replace (1 + (k - n) / n <? 1) with false by lia. rewrite <- E1. f_equal. lia.
Qed.
Definition split_of (bits b : Z) : list Z := if bits =? 1 then split1 b else if bits =? 2 then split2 b else if bits =? 4 then split4 b else [b].
Definition bits_ok (bits : Z) : Prop := bits = 1 \/ bits = 2 \/ bits = 4 \/ bits = 8.
Lemma split_bits bits b : bits_ok bits -> is_u8 b -> zlen (split_of bits b) = 8 / bits /\
  Forall (fun i => 0 <= i < 256) (split_of bits b) /\
  forall j, 0 <= j < 8 / bits -> zget (split_of bits b) j = Some (b / 2 ^ (8 - bits - j * bits) mod 2 ^ bits).
Proof.
  intros Hb Hu.
  assert (K : forallb (fun bits => forallb (fun b => (zlen (split_of bits b) =? 8 / bits) && forallb (fun j => match zget (split_of bits b) j with Some v => v =? b / 2 ^ (8 - bits - j * bits) mod 2 ^ bits | None => false end) (zrange 0 (8 / bits))) (zrange 0 256)) [1; 2; 4; 8] = true) by (vm_compute; reflexivity).
  rewrite forallb_forall in K. specialize (K bits ltac:(unfold bits_ok in Hb; cbn; tauto || (destruct Hb as [->|[->|[->| ->]]]; tauto))). rewrite forallb_forall in K. specialize (K b ltac:(apply In_zrange; unfold is_u8, u8_max in Hu; lia)).
  apply andb_prop in K as [K1 K2]. split; [lia|]. split.
  - unfold split_of. destruct (split_range b Hu) as (S4 & S2 & S1). destruct (bits =? 1); [exact S1|]. destruct (bits =? 2); [exact S2|]. destruct (bits =? 4); [exact S4|]. constructor; [unfold is_u8, u8_max in Hu; lia|constructor].
  - rewrite forallb_forall in K2. intros j Hj. specialize (K2 j ltac:(apply In_zrange; lia)). cbv beta in K2. destruct (zget (split_of bits b) j); [|discriminate]. f_equal. lia.
Qed.
Lemma split_flat bits l : bits_ok bits -> bytes l -> zlen (flat_map (split_of bits) l) = 8 / bits * zlen l /\ Forall (fun i => 0 <= i < 256) (flat_map (split_of bits) l) /\
  forall k, 0 <= k < 8 / bits * zlen l -> zget (flat_map (split_of bits) l) k = Some (index_at l bits 0 k).
Proof.
  intros Hb B. assert (F : Forall (fun a => zlen (split_of bits a) = 8 / bits) l) by (eapply Forall_impl; [|exact B]; intros a Ha; apply split_bits; assumption).
  assert (P : 0 < 8 / bits) by (destruct Hb as [->|[->|[->| ->]]]; cbn; lia).
  destruct (zget_flat_map (split_of bits) (8 / bits) l P F) as (L & G). split; [exact L|]. split; [apply flat_range; [exact B|]; intros b Hu; apply split_bits; assumption|].
  intros k Hk. destruct (G k Hk) as (a & E1 & ->). assert (Ha : is_u8 a) by (unfold bytes in B; rewrite Forall_forall in B; apply B; eapply zget_In; eassumption).
  pose proof (Z.mod_pos_bound k (8 / bits) P). destruct (split_bits bits a Hb Ha) as (_ & _ & S). rewrite S by lia. f_equal. unfold index_at, byte_at.
  assert (Q : k * bits / 8 = k / (8 / bits) /\ k * bits mod 8 = k mod (8 / bits) * bits).
  { destruct Hb as [->|[->|[->| ->]]]; cbn [Z.div]; [change (8 / 1) with 8|change (8 / 2) with 4|change (8 / 4) with 2|change (8 / 8) with 1]; clear; zdm. }
  destruct Q as [-> ->]. rewrite Z.add_0_l, E1. reflexivity.
Qed.
Definition pal_pixel (pal : list (list Z)) (ch i : Z) : list Z := colour_of pal i ++ (if ch =? 4 then [255] else []).
Definition tailok (ch : Z) (p : list Z) : Prop := zlen p = ch /\ (ch = 3 \/ (ch = 4 /\ zget p 3 = Some 255)).
Lemma set3_tail pal ch i p : pal_ok pal -> 0 <= i < 256 -> tailok ch p -> exists rgb, zget pal i = Some rgb /\ set3 p rgb = Ok (pal_pixel pal ch i).
Proof.
  intros [P1 P2] Hi [L T]. destruct (zget_some pal i ltac:(lia)) as (rgb & E). exists rgb. split; [exact E|]. unfold pal_pixel, colour_of. rewrite E.
  assert (L3 : zlen rgb = 3) by (rewrite Forall_forall in P2; apply (P2 rgb); eapply zget_In; eassumption). destruct (list3 rgb L3) as (a & b & c & ->).
  destruct T as [->|[-> T]].
  - destruct (list3 p L) as (x & y & z & ->). reflexivity.
  - destruct (list4 p L) as (x & y & z & t & ->). cbn in T. apply Some_inj in T. subst t. reflexivity.
Qed.
Lemma set_run_fill pal ch idxs : pal_ok pal -> Forall (fun i => 0 <= i < 256) idxs -> forall pixels, Forall (tailok ch) pixels -> zlen pixels <= zlen idxs ->
  exists ok, set_run pal idxs pixels = Ok (map (pal_pixel pal ch) (firstn (length pixels) idxs), [], ok).
Proof.
  intros P F. induction F as [|i idxs Hi Hl IH]; intros pixels T L.
  - destruct pixels; [|rewrite zlen_cons in L; change (zlen (@nil Z)) with 0 in L; pose proof (zlen_nonneg pixels); lia]. exists true. reflexivity.
  - destruct pixels as [|p pixels]; [exists false; reflexivity|]. apply Forall_cons_iff in T as [T1 T2]. rewrite !zlen_cons in L.
    destruct (IH pixels T2 ltac:(lia)) as (ok & E). cbn [set_run length firstn map]. destruct (set3_tail pal ch i p P Hi T1) as (rgb & -> & ->). cbn [bind]. rewrite E. cbn [bind]. exists ok. reflexivity.
Qed.
Lemma run_of_bits (d : bmp) pal indices pixels : bits_ok (b_bits d) -> zlen pixels = b_w d -> exists k,
  (if b_bits d =? 1 then set_1bit_run pal indices pixels
   else if b_bits d =? 2 then set_2bit_run pal indices (b_w d) pixels
   else if b_bits d =? 4 then set_4bit_run pal indices (b_w d) pixels
   else if b_bits d =? 8 then set_8bit_run pal indices (b_w d) pixels
   else Panic) = set_run pal (firstn k (flat_map (split_of (b_bits d)) indices)) pixels /\ (length pixels <= k)%nat.
Proof.
  intros Hb L. unfold split_of. assert (LN : length pixels = Z.to_nat (b_w d)) by (unfold zlen in L; lia).
  destruct Hb as [->|[->|[->| ->]]]; cbn [Z.eqb Pos.eqb]; unfold set_1bit_run, set_2bit_run, set_4bit_run, set_8bit_run.
  - exists (length (flat_map split1 indices) + length pixels)%nat. split; [|lia]. rewrite firstn_all2; [reflexivity|apply Nat.le_add_r].
  - exists (Z.to_nat (b_w d)). split; [reflexivity|lia].
  - exists (Z.to_nat (b_w d)). split; [reflexivity|lia].
  - exists (Z.to_nat (b_w d)). split; [|lia]. do 2 f_equal. clear. induction indices; cbn; [reflexivity|]. f_equal. assumption.
Qed.
(** one row of palette indices *)
Definition pal_row (pal : list (list Z)) (bits ch w : Z) (r : list Z) (o : Z) : list Z :=
  concat (map (fun x => pal_pixel pal ch (index_at r bits o x)) (zrange 0 w)).
Lemma shifts_index bits x : 0 <= x -> bits_ok bits -> shifts (fun r o => index_at r bits o x).
Proof.
  intros Hx Hb r o i Ho Hi. unfold index_at. assert (0 <= x * bits / 8) by (apply Z.div_pos; [apply Z.mul_nonneg_nonneg; [lia|destruct Hb as [->|[->|[->| ->]]]; lia]|lia]).
  rewrite byte_at_skipn by lia. rewrite Z.add_assoc. reflexivity.
Qed.
Lemma shifts_pal_row pal bits ch w : bits_ok bits -> shifts (pal_row pal bits ch w).
Proof. intros Hb r o i Ho Hi. unfold pal_row. f_equal. apply map_ext_in. intros x Hx. apply In_zrange in Hx. rewrite (shifts_index bits x ltac:(lia) Hb r o i Ho Hi). reflexivity. Qed.
Lemma index_firstn bits r n x : bits_ok bits -> 0 <= x -> x * bits < 8 * n -> n <= zlen r -> index_at (firstn (Z.to_nat n) r) bits 0 x = index_at r bits 0 x.
Proof.
  intros Hb Hx H L. unfold index_at. f_equal. f_equal. unfold byte_at. assert (0 <= x * bits) by (apply Z.mul_nonneg_nonneg; [lia|destruct Hb as [->|[->|[->| ->]]]; lia]).
  assert (0 <= x * bits / 8 < n) by (split; [apply Z.div_pos; lia|apply Z.div_lt_upper_bound; lia]). rewrite firstn_zslice, zget_zslice_gen by lia.
  match goal with |- context [if ?c then _ else _] => replace c with true by lia end. rewrite !Z.add_0_l. reflexivity.
Qed.
Lemma read_exact_if n r : 0 <= n -> read_exact n r = if n <=? zlen r then Ok (firstn (Z.to_nat n) r, skipn (Z.to_nat n) r) else Err EEof.
Proof. intros Hn. unfold read_exact. destruct (Z.ltb_spec (zlen r) n), (Z.leb_spec n (zlen r)); try lia; reflexivity. Qed.
Lemma set_alpha_tail buf n : 0 <= n -> zlen buf = 4 * n -> Forall (tailok 4) (chunks_exact 4 (set_alpha_ff buf)).
Proof.
  intros Hn L. unfold set_alpha_ff. destruct (chunks_exact_id 4 buf n ltac:(lia) ltac:(lia)) as (C1 & C2).
  assert (F : Forall (tailok 4) (map (fun c => zset c 3 255) (chunks_exact 4 buf))).
  { apply Forall_map_iff. eapply Forall_impl; [|apply (chunks_len 4 buf); lia]. intros c Lc. cbv beta in Lc. destruct (list4 c Lc) as (x & y & z & t & ->). split; [reflexivity|]. right. split; reflexivity. }
  rewrite skipn_all2 by (unfold zlen in *; lia). rewrite app_nil_r. rewrite chunks_exact_concat; [exact F|lia|]. eapply Forall_impl; [|exact F]. intros c [Lc _]. exact Lc.
Qed.
Lemma chunks_nested {A} (a b : Z) (l : list A) n : 0 < a -> 0 < b -> 0 <= n -> zlen l = a * b * n ->
  concat (map (chunks_exact a) (chunks_exact (a * b) l)) = chunks_exact a l.
Proof.
  intros Ha Hb Hn L. destruct (chunks_exact_id (a * b) l n ltac:(nia) ltac:(lia)) as (C1 & C2).
  rewrite <- C1 at 2. pose proof (chunks_len (a * b) l ltac:(nia)) as F. clear C1 C2 L. induction F as [|c cs Lc Fc IH]; cbn [map concat]; [reflexivity|].
  rewrite IH. destruct (chunks_exact_id a c b ltac:(lia) ltac:(lia)) as (D1 & _). rewrite <- D1 at 2. pose proof (chunks_len a c ltac:(lia)) as Fa. clear - Fa Ha.
  induction Fa as [|x xs Lx Fx IHx]; cbn [concat app]; [reflexivity|]. rewrite <- app_assoc. rewrite (chunks_exact_cons a x) by (auto; lia). rewrite IHx. reflexivity.
Qed.
Lemma read_palettized_meaning d pal buf r : good d -> b_type d = TPalette -> b_pal d = Some pal -> bytes r -> zlen buf = num_channels d * b_w d * b_h d ->
  read_palettized d buf r =
    if b_h d * row_byte_length (b_bits d) (b_w d) <=? zlen r
    then Ok (out_rows (pal_row pal (b_bits d) (num_channels d) (b_w d)) (b_top_down d) (row_byte_length (b_bits d) (b_w d)) (b_h d) r, skipn (Z.to_nat (b_h d * row_byte_length (b_bits d) (b_w d))) r)
    else Err EEof.
Proof.
  intros G T EP Br L. destruct G as (G1 & G2 & G3 & G4 & G5 & G6 & _). destruct (G5 (or_introl T)) as (pal' & EP' & OK). rewrite EP in EP'. apply Some_inj in EP'. subst pal'. specialize (G6 T).
  assert (Hb : bits_ok (b_bits d)) by exact G6. unfold read_palettized. rewrite EP, G4. cbv zeta. replace (i32_max <? b_bits d * b_w d + 31) with false by (unfold i32_max; destruct G6 as [->|[->|[->| ->]]]; lia).
  assert (Hc : num_channels d = 3 \/ num_channels d = 4) by (destruct (num_channels_cases d G4) as [[C _]|[C _]]; auto). set (ch := num_channels d) in *.
  set (rbl := row_byte_length (b_bits d) (b_w d)). assert (Hr : 0 <= rbl /\ b_w d * b_bits d <= 8 * rbl) by (unfold rbl, row_byte_length; destruct Hb as [->|[->|[->| ->]]]; clear - G1; zdm).
  set (buf' := if ch =? 4 then set_alpha_ff buf else buf).
  assert (NN : 0 <= b_w d * b_h d) by (apply Z.mul_nonneg_nonneg; lia).
  assert (TB : zlen buf' = ch * b_w d * b_h d /\ Forall (tailok ch) (chunks_exact ch buf')).
  { unfold buf'. destruct Hc as [->| ->]; cbn [Z.eqb Pos.eqb].
    - split; [exact L|]. eapply Forall_impl; [|apply chunks_len; lia]. intros c Lc. split; [exact Lc|auto].
    - split; [|apply (set_alpha_tail buf (b_w d * b_h d)); lia]. unfold set_alpha_ff. destruct (chunks_exact_id 4 buf (b_w d * b_h d) ltac:(lia) ltac:(lia)) as (C1 & C2).
      rewrite skipn_all2 by (unfold zlen in *; lia). rewrite app_nil_r. rewrite (zlen_concat 4); [rewrite zlen_map, C2; lia|]. apply Forall_map_iff. eapply Forall_impl; [|apply chunks_len; lia]. intros c Lc. cbv beta in Lc. rewrite zlen_zset. exact Lc. }
  destruct TB as [LB TB]. assert (1 * 1 <= ch * b_w d) by (apply Z.mul_le_mono_nonneg; lia).
  apply with_rows_consume_b; auto; [lia|lia| |apply shifts_pal_row; exact Hb].
  intros row r0 Hrow B0. assert (Lr : zlen row = ch * b_w d) by (pose proof (chunks_len (ch * b_w d) buf' ltac:(lia)) as F'; rewrite Forall_forall in F'; apply F'; exact Hrow).
  rewrite read_exact_if by lia. destruct (Z.leb_spec rbl (zlen r0)); cbn [bind]; [|reflexivity].
  destruct (chunks_exact_id ch row (b_w d) ltac:(lia) ltac:(lia)) as (C1 & C2).
  assert (TR : Forall (tailok ch) (chunks_exact ch row)).
  { rewrite <- (chunks_nested ch (b_w d) buf' (b_h d)) in TB by lia. rewrite Forall_forall in TB |- *. intros p Hp. apply TB. apply in_concat. exists (chunks_exact ch row). split; [|exact Hp]. apply in_map. exact Hrow. }
  destruct (run_of_bits d pal (firstn (Z.to_nat rbl) r0) (chunks_exact ch row) Hb C2) as (k & -> & Hk).
  assert (Bf : bytes (firstn (Z.to_nat rbl) r0)) by (apply Forall_firstn'; exact B0).
  destruct (split_flat (b_bits d) (firstn (Z.to_nat rbl) r0) Hb Bf) as (S1 & S2 & S3).
  assert (LF : zlen (firstn (Z.to_nat rbl) r0) = rbl) by (rewrite zlen_firstn; lia). rewrite LF in S1, S3.
  assert (WB : b_w d <= 8 / b_bits d * rbl) by (destruct Hb as [E|[E|[E|E]]]; rewrite E in *; [change (8 / 1) with 8|change (8 / 2) with 4|change (8 / 4) with 2|change (8 / 8) with 1]; lia).
  destruct (set_run_fill pal ch (firstn k (flat_map (split_of (b_bits d)) (firstn (Z.to_nat rbl) r0))) OK ltac:(apply Forall_firstn'; exact S2) (chunks_exact ch row) TR) as (ok & E).
  { unfold zlen in *. rewrite firstn_length. lia. }
  rewrite E. cbn [bind]. rewrite app_nil_r. f_equal. f_equal. unfold pal_row. f_equal. apply zget_ext.
  { rewrite !zlen_map. rewrite firstn_firstn. rewrite zlen_zrange. unfold zlen in *. rewrite firstn_length. lia. }
  intros x Hx. rewrite zlen_map in Hx. rewrite firstn_firstn in *. replace (Nat.min (length (chunks_exact ch row)) k) with (Z.to_nat (b_w d)) in * by (unfold zlen in C2; lia).
  assert (x < b_w d) by (unfold zlen in Hx; rewrite firstn_length in Hx; lia).
  rewrite !zget_map, zget_zrange by lia. cbn [option_map]. rewrite firstn_zslice, zget_zslice_gen by lia. match goal with |- context [if ?c then _ else _] => replace c with true by lia end.
  rewrite !Z.add_0_l. rewrite S3 by lia. cbn [option_map]. f_equal. f_equal. apply index_firstn; auto; [lia|]. destruct Hb as [E'|[E'|[E'|E']]]; rewrite E' in *; lia.
Qed.
