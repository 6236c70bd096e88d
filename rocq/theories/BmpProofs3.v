(** What the uncompressed BMP formats decode to, by file offsets. *)
From Verif Require Import Base BaseLemmas ListLemmas ListMore BitLemmas BmpBits BmpBitsProps Bmp IcoSpec BmpSpec Post BmpProofs BmpProofs2 TgaProofs2.
Local Open Scope Z_scope.

Lemma byte_at_skipn r o i : 0 <= o -> 0 <= i -> byte_at (skipn (Z.to_nat o) r) i = byte_at r (o + i).
Proof. intros Ho Hi. unfold byte_at. rewrite zget_skipn by lia. rewrite Z2Nat.id by lia. reflexivity. Qed.
Definition shifts {A} (G : list Z -> Z -> A) : Prop := forall r o i, 0 <= o -> 0 <= i -> G (skipn (Z.to_nat o) r) i = G r (o + i).
Lemma fold_consume {A} (f : A -> reader -> res (list Z * reader)) (G : list Z -> Z -> list Z) k ls : 0 <= k ->
  (forall a r, In a ls -> f a r = if k <=? zlen r then Ok (G r 0, skipn (Z.to_nat k) r) else Err EEof) -> shifts G ->
  forall r, foldM (fun '(dn, r) a => '(q, r) <- f a r ;; Ok (dn ++ [q], r)) ls ([], r) =
    if zlen ls * k <=? zlen r then Ok (map (fun i => G r (i * k)) (zrange 0 (zlen ls)), skipn (Z.to_nat (zlen ls * k)) r) else Err EEof.
Proof.
  intros Hk Hf HG.
  assert (K : forall dn r, foldM (fun '(dn, r) a => '(q, r) <- f a r ;; Ok (dn ++ [q], r)) ls (dn, r) =
    if zlen ls * k <=? zlen r then Ok (dn ++ map (fun i => G r (i * k)) (zrange 0 (zlen ls)), skipn (Z.to_nat (zlen ls * k)) r) else Err EEof).
  { induction ls as [|a ls IH]; intros dn r; cbn [foldM].
    - change (zlen (@nil A)) with 0. pose proof (zlen_nonneg r). replace (0 * k <=? zlen r) with true by lia. cbn [zrange Z.to_nat seq map]. rewrite app_nil_r. reflexivity.
    - rewrite Hf by (left; reflexivity). rewrite zlen_cons. pose proof (zlen_nonneg ls). assert (0 <= zlen ls * k) by (apply Z.mul_nonneg_nonneg; lia).
      destruct (Z.leb_spec k (zlen r)); cbn [bind].
      + rewrite IH by (intros; apply Hf; right; assumption). rewrite zlen_skipn, Z2Nat.id by lia.
        destruct (Z.leb_spec (zlen ls * k) (Z.max 0 (zlen r - k))), (Z.leb_spec ((1 + zlen ls) * k) (zlen r)); try lia; [|reflexivity]. f_equal. f_equal.
        * rewrite <- app_assoc. f_equal. rewrite zrange_app, map_app by lia. cbn [app]. change (map (fun i => G r (i * k)) (zrange 0 1)) with [G r 0]. cbn [app]. f_equal.
          rewrite (map_zrange_shift _ (0 + 1)). apply map_ext_in. intros i Hi. apply In_zrange in Hi. rewrite HG by (try lia; apply Z.mul_nonneg_nonneg; lia). f_equal. lia.
        * rewrite skipn_skipn. f_equal. lia.
      + destruct (Z.leb_spec ((1 + zlen ls) * k) (zlen r)); [lia|reflexivity]. }
  intros r. apply (K [] r).
Qed.
Lemma each_pixel_consume f G k ch w row r : 0 <= k -> 1 <= ch -> 0 <= w -> zlen row = ch * w ->
  (forall p r, zlen p = ch -> f p r = if k <=? zlen r then Ok (G r 0, skipn (Z.to_nat k) r) else Err EEof) -> shifts G ->
  each_pixel f ch row r = if w * k <=? zlen r then Ok (concat (map (fun i => G r (i * k)) (zrange 0 w)), skipn (Z.to_nat (w * k)) r) else Err EEof.
Proof.
  intros Hk Hc Hw L Hf HG. unfold each_pixel. destruct (chunks_exact_id ch row w ltac:(lia) ltac:(lia)) as (C1 & C2).
  rewrite (fold_consume f G k) by (auto; intros a r0 Ha; apply Hf; pose proof (chunks_len ch row ltac:(lia)) as F; rewrite Forall_forall in F; apply F; exact Ha).
  rewrite C2. destruct (_ <=? _); reflexivity.
Qed.
Definition row_fn (G : list Z -> Z -> list Z) (k w : Z) (r : list Z) (o : Z) : list Z := concat (map (fun i => G r (o + i * k)) (zrange 0 w)).
Lemma shifts_row G k w : shifts G -> 0 <= k -> shifts (row_fn G k w).
Proof.
  intros HG Hk r o i Ho Hi. unfold row_fn. f_equal. apply map_ext_in. intros j Hj. apply In_zrange in Hj. assert (0 <= j * k) by (apply Z.mul_nonneg_nonneg; lia). rewrite HG by lia. f_equal. lia.
Qed.
(** the rows of the output *)
Definition out_rows (G : list Z -> Z -> list Z) (td : bool) (stride h : Z) (r : list Z) : list Z :=
  concat (map (fun y => G r ((if td then y else h - 1 - y) * stride)) (zrange 0 h)).
Lemma rev_zrange_map {A} (f : Z -> A) n : rev (map f (zrange 0 n)) = map (fun i => f (n - 1 - i)) (zrange 0 n).
Proof.
  destruct (Z_le_dec 0 n).
  2:{ replace n with (Z.of_nat 0 + n) by lia. unfold zrange. replace (Z.to_nat (Z.of_nat 0 + n)) with 0%nat by lia. reflexivity. }
  apply zget_ext.
  - unfold zlen. rewrite rev_length, !map_length. reflexivity.
  - intros i Hi. assert (L : zlen (rev (map f (zrange 0 n))) = n) by (unfold zlen; rewrite rev_length, map_length; pose proof (zlen_zrange 0 n) as Z0; unfold zlen in Z0; lia).
    rewrite L in Hi. assert (ZR : forall k, 0 <= k < n -> zget (map f (zrange 0 n)) k = Some (f k)) by (intros k Hk; rewrite zget_map, zget_zrange by lia; cbn; reflexivity || (f_equal; f_equal; lia)).
    unfold zget at 1. replace (i <? 0) with false by lia. rewrite nth_error_rev || idtac.
    rewrite zget_map, zget_zrange by lia. cbn [option_map]. 
    assert (NE : nth_error (rev (map f (zrange 0 n))) (Z.to_nat i) = nth_error (map f (zrange 0 n)) (Z.to_nat (n - 1 - i))).
    { assert (LL : length (map f (zrange 0 n)) = Z.to_nat n) by (rewrite map_length; pose proof (zlen_zrange 0 n) as Z0; unfold zlen in Z0; lia).
      rewrite (nth_error_nth' (rev (map f (zrange 0 n))) (f 0)) by (rewrite rev_length; lia). rewrite (nth_error_nth' (map f (zrange 0 n)) (f 0)) by lia.
      rewrite rev_nth by lia. do 2 f_equal. lia. }
    rewrite NE. specialize (ZR (n - 1 - i) ltac:(lia)). unfold zget in ZR. replace (n - 1 - i <? 0) with false in ZR by lia. rewrite ZR. reflexivity.
Qed.
Lemma with_rows_consume (f : list Z -> reader -> res (list Z * reader)) G stride ch w h td buf r : 0 <= stride -> 1 <= ch <= 4 -> 1 <= w <= 65535 -> 0 <= h <= 2147483647 -> zlen buf = ch * w * h ->
  (forall row r, In row (chunks_exact (ch * w) buf) -> f row r = if stride <=? zlen r then Ok (G r 0, skipn (Z.to_nat stride) r) else Err EEof) -> shifts G ->
  with_rows buf w h ch td f r = if h * stride <=? zlen r then Ok (out_rows G td stride h r, skipn (Z.to_nat (h * stride)) r) else Err EEof.
Proof.
  intros Hs Hc Hw Hh L Hf HG. unfold with_rows.
  assert (ch * w <= 4 * 65535) by (apply Z.mul_le_mono_nonneg; lia). assert (1 * 1 <= ch * w) by (apply Z.mul_le_mono_nonneg; lia).
  assert (ch * w * h <= (4 * 65535) * 2147483647) by (apply Z.mul_le_mono_nonneg; lia).
  replace (u64_max <? ch * w) with false by (unfold u64_max; lia). replace (u64_max <? ch * w * h) with false by (unfold u64_max; lia). cbn [orb].
  replace (zlen buf =? ch * w * h) with true by lia. cbn [negb]. replace (ch * w =? 0) with false by lia. cbv zeta.
  destruct (chunks_exact_id (ch * w) buf h ltac:(lia) ltac:(lia)) as (C1 & C2). set (rows := chunks_exact (ch * w) buf) in *.
  assert (LR : zlen (if td then rows else rev rows) = h) by (destruct td; [exact C2|unfold zlen in *; rewrite rev_length; exact C2]).
  rewrite (fold_consume f G stride); [|exact Hs| |exact HG].
  2:{ intros row r0 Hr. apply Hf. destruct td; [exact Hr|]. apply in_rev. exact Hr. }
  rewrite LR. destruct (h * stride <=? zlen r); [|reflexivity]. cbn [bind]. f_equal. f_equal. unfold out_rows. f_equal. destruct td; [reflexivity|]. apply rev_zrange_map.
Qed.

(** *** whole bytes *)
Definition full_k (fmt : fullfmt) : Z := match fmt with FRGB24 => 3 | _ => 4 end.
Definition full_at (fmt : fullfmt) (ch : Z) (r : list Z) (o : Z) : list Z :=
  let o' := match fmt with F888 => o + 1 | _ => o end in
  [byte_at r (o' + 2); byte_at r (o' + 1); byte_at r o'] ++
  match fmt with FRGBA32 => [byte_at r (o + 3)] | _ => if ch =? 4 then [255] else [] end.
Lemma shifts_full fmt ch : shifts (full_at fmt ch).
Proof.
  intros r o i Ho Hi. unfold full_at. destruct fmt; cbv zeta; rewrite !byte_at_skipn by lia; rewrite ?Z.add_assoc; reflexivity.
Qed.
Lemma list4 {A} (l : list A) : zlen l = 4 -> exists a b c d, l = [a; b; c; d].
Proof. unfold zlen. intros H. destruct l as [|a [|b [|c [|d [|]]]]]; cbn in H; try lia. exists a, b, c, d. reflexivity. Qed.
Lemma full_consume fmt ch p r : ch = 3 \/ ch = 4 -> (fmt = FRGBA32 -> ch = 4) -> zlen p = ch ->
  full_byte_pixel fmt ch p r = if full_k fmt <=? zlen r then Ok (full_at fmt ch r 0, skipn (Z.to_nat (full_k fmt)) r) else Err EEof.
Proof.
  intros Hc Hf L.
  assert (P : exists p0 p1 p2 t, p = p0 :: p1 :: p2 :: t /\ ((ch = 3 /\ t = []) \/ (ch = 4 /\ exists a, t = [a]))).
  { destruct Hc as [-> | ->]; [destruct (list3 p L) as (a & b & c & ->)|destruct (list4 p L) as (a & b & c & d & ->)]; eexists _, _, _, _; (split; [reflexivity|]); eauto. }
  destruct P as (p0 & p1 & p2 & t & -> & T).
  clear Hc L. destruct T as [[-> ->]|[-> (a & ->)]]; destruct fmt; try (specialize (Hf eq_refl); discriminate Hf); clear Hf; destruct r as [|r0 [|r1 [|r2 [|r3 r]]]]; try reflexivity;
    unfold full_byte_pixel; cbn [read_u8 bind]; unfold read_exact; rewrite !zlen_cons; pose proof (zlen_nonneg r) as NN;
    repeat match goal with
    | |- context [?a <? ?b] => replace (a <? b) with false by (change (zlen (@nil Z)) with 0; lia)
    | |- context [?a <=? ?b] => replace (a <=? b) with true by (cbn [full_k]; lia)
    end; cbn; reflexivity.
Qed.
Definition full_stride (fmt : fullfmt) (w : Z) : Z := w * full_k fmt + row_padding fmt w.
Lemma row_padding_range fmt w : 0 <= row_padding fmt w <= 3.
Proof. unfold row_padding. destruct fmt; lia. Qed.
Lemma read_full_meaning d fmt buf r : good d -> (fmt = FRGBA32 -> b_alpha d = true) -> zlen buf = num_channels d * b_w d * b_h d ->
  read_full_byte d fmt buf r =
    if b_h d * full_stride fmt (b_w d) <=? zlen r
    then Ok (out_rows (row_fn (full_at fmt (num_channels d)) (full_k fmt) (b_w d)) (b_top_down d) (full_stride fmt (b_w d)) (b_h d) r,
             skipn (Z.to_nat (b_h d * full_stride fmt (b_w d))) r)
    else Err EEof.
Proof.
  intros G F L. destruct G as (G1 & G2 & G3 & G4 & _). pose proof (row_padding_range fmt (b_w d)) as RP. assert (K : 3 <= full_k fmt <= 4) by (destruct fmt; cbn; lia).
  unfold read_full_byte. cbv zeta. assert (C : (num_channels d = 3 \/ num_channels d = 4) /\ (fmt = FRGBA32 -> num_channels d = 4)).
  { destruct (num_channels_cases d G4) as [[C A]|[C A]]; split; auto. intros Q. rewrite F in A by exact Q. discriminate. }
  destruct C as (C & C'). set (ch := num_channels d) in *. assert (0 <= b_w d * full_k fmt) by (apply Z.mul_nonneg_nonneg; lia).
  apply with_rows_consume; auto; [unfold full_stride; lia|lia| |apply shifts_row; [apply shifts_full|lia]].
  intros row r0 Hr. assert (Lr : zlen row = ch * b_w d) by (pose proof (chunks_len (ch * b_w d) buf ltac:(nia)) as F'; rewrite Forall_forall in F'; apply F'; exact Hr).
  rewrite (each_pixel_consume _ (full_at fmt ch) (full_k fmt) ch (b_w d)); auto; [|lia|lia|lia|intros; apply full_consume; auto|apply shifts_full].
  unfold full_stride. destruct (Z.leb_spec (b_w d * full_k fmt) (zlen r0)); cbn [bind]; [|replace (b_w d * full_k fmt + row_padding fmt (b_w d) <=? zlen r0) with false by lia; reflexivity].
  unfold read_exact. rewrite zlen_skipn, Z2Nat.id by lia. destruct (Z.ltb_spec (Z.max 0 (zlen r0 - b_w d * full_k fmt)) (row_padding fmt (b_w d))), (Z.leb_spec (b_w d * full_k fmt + row_padding fmt (b_w d)) (zlen r0)); try lia; [reflexivity|].
  cbn [bind]. rewrite skipn_skipn. unfold row_fn. do 2 f_equal. f_equal. lia.
Qed.
(** *** bit fields *)
Lemma bf_read_channel f data : readable f -> 0 <= data <= u32_max -> bf_read f data = Ok (channel f data).
Proof.
  intros [R1 R2] Hd. destruct (C37_scaling f data R1 R2 Hd) as (q & -> & Hq & N). f_equal. unfold channel, nearest, field_of in *. cbv zeta.
  set (v := data / 2 ^ bf_shift f mod 2 ^ bf_len f) in *.
  assert (M : exists k, 2 ^ bf_len f - 1 = 2 * k + 1 /\ 0 <= k).
  { exists (2 ^ (bf_len f - 1) - 1). replace (2 ^ bf_len f) with (2 * 2 ^ (bf_len f - 1)) by (rewrite <- Z.pow_succ_r by lia; f_equal; lia). assert (0 < 2 ^ (bf_len f - 1)) by (apply Z.pow_pos_nonneg; lia). lia. }
  destruct M as (k & EM & Hk). rewrite EM in N. rewrite EM. apply Z.div_unique with (r := 2 * 255 * v + (2 * k + 1) - 2 * (2 * k + 1) * q); [left|ring].
  replace (q * (2 * k + 1) - v * 255) with (q * (2 * k + 1) - v * 255) in N by ring. set (t := q * (2 * k + 1) - v * 255) in *.
  replace (2 * 255 * v + (2 * k + 1) - 2 * (2 * k + 1) * q) with ((2 * k + 1) - 2 * t) by (unfold t; ring). clearbody t. clear - N Hk. lia.
Qed.
Lemma field_pixel_ok f alpha data p : fields_ok f -> 0 <= data <= u32_max -> zlen p = (if alpha : bool then 4 else 3) ->
  field_pixel f (if alpha then 4 else 3) data p = Ok (fields_pixel f alpha data).
Proof.
  intros (F1 & F2 & F3 & F4) Hd L. unfold field_pixel, fields_pixel. rewrite !bf_read_channel by assumption. cbn [bind].
  destruct alpha.
  - destruct (list4 p L) as (a & b & c & d & ->). cbn [set3 bind]. change (4 =? 4) with true. cbn [negb]. destruct (Z.eqb_spec (bf_len (bf_a f)) 0); cbn [negb bind]; [reflexivity|].
    rewrite bf_read_channel by tauto. reflexivity.
  - destruct (list3 p L) as (a & b & c & ->). reflexivity.
Qed.
Lemma u16_of r : read_u16le r = if 2 <=? zlen r then Ok (num16 r 0, skipn (Z.to_nat 2) r) else Err EEof.
Proof. destruct r as [|a [|b r]]; [reflexivity|reflexivity|]. rewrite !zlen_cons. pose proof (zlen_nonneg r). replace (2 <=? 1 + (1 + zlen r)) with true by lia. reflexivity. Qed.
Lemma u32_of r : read_u32le r = if 4 <=? zlen r then Ok (num32 r 0, skipn (Z.to_nat 4) r) else Err EEof.
Proof.
  destruct r as [|a [|b [|c [|d r]]]]; try reflexivity. rewrite !zlen_cons. pose proof (zlen_nonneg r). replace (4 <=? 1 + (1 + (1 + (1 + zlen r)))) with true by lia.
  unfold read_u32le. do 2 f_equal. unfold num32, num16. cbn [byte_at]. change (byte_at (a :: b :: c :: d :: r) 0) with a. change (byte_at (a :: b :: c :: d :: r) (0 + 1)) with b. change (byte_at (a :: b :: c :: d :: r) (0 + 2)) with c. change (byte_at (a :: b :: c :: d :: r) (0 + 2 + 1)) with d. lia.
Qed.
Lemma byte_at_range r i : bytes r -> 0 <= byte_at r i <= 255.
Proof. intros B. unfold byte_at. destruct (zget r i) eqn:E; [|lia]. unfold bytes in B. rewrite Forall_forall in B. assert (is_u8 z) by (apply B; eapply zget_In; eassumption). unfold is_u8, u8_max in *. lia. Qed.
Lemma num16_shift : shifts num16.
Proof. intros r o i Ho Hi. unfold num16. rewrite !byte_at_skipn by lia. rewrite Z.add_assoc. reflexivity. Qed.
Lemma num32_shift : shifts num32.
Proof. intros r o i Ho Hi. unfold num32. rewrite !num16_shift by lia. rewrite Z.add_assoc. reflexivity. Qed.
Lemma num16_u r i : bytes r -> 0 <= num16 r i <= 65535.
Proof. intros B. unfold num16. pose proof (byte_at_range r i B). pose proof (byte_at_range r (i + 1) B). lia. Qed.
Lemma num32_u r i : bytes r -> 0 <= num32 r i <= u32_max.
Proof. intros B. unfold num32, u32_max. pose proof (num16_u r i B). pose proof (num16_u r (i + 2) B). lia. Qed.
(** the byte lists the decoder reads are suffixes of the file, so restrict the consume lemmas to byte streams *)
Lemma fold_same_b {A} (f f' : A -> reader -> res (list Z * reader)) ls :
  (forall a r, In a ls -> bytes r -> f a r = f' a r) -> (forall a r q r', In a ls -> bytes r -> f' a r = Ok (q, r') -> bytes r') ->
  forall r, bytes r -> forall dn, foldM (fun '(dn, r) a => '(q, r) <- f a r ;; Ok (dn ++ [q], r)) ls (dn, r) = foldM (fun '(dn, r) a => '(q, r) <- f' a r ;; Ok (dn ++ [q], r)) ls (dn, r).
Proof.
  induction ls as [|a ls IH]; intros H1 H2 r B dn; cbn [foldM]; [reflexivity|]. rewrite H1 by (auto; left; reflexivity).
  destruct (f' a r) as [[q r']| |] eqn:E; cbn [bind]; [|reflexivity|reflexivity]. apply IH; [intros; apply H1; auto; right; assumption|intros; eapply H2; eauto; right; assumption|].
  eapply H2; [left; reflexivity|exact B|exact E].
Qed.
Lemma fold_consume_b {A} (f : A -> reader -> res (list Z * reader)) (G : list Z -> Z -> list Z) k ls : 0 <= k ->
  (forall a r, In a ls -> bytes r -> f a r = if k <=? zlen r then Ok (G r 0, skipn (Z.to_nat k) r) else Err EEof) -> shifts G ->
  forall r, bytes r -> foldM (fun '(dn, r) a => '(q, r) <- f a r ;; Ok (dn ++ [q], r)) ls ([], r) =
    if zlen ls * k <=? zlen r then Ok (map (fun i => G r (i * k)) (zrange 0 (zlen ls)), skipn (Z.to_nat (zlen ls * k)) r) else Err EEof.
Proof.
  intros Hk Hf HG r B.
  set (f' := fun (a : A) (r : reader) => if k <=? zlen r then Ok (G r 0, skipn (Z.to_nat k) r) else Err EEof).
  rewrite <- (fold_consume f' G k ls Hk (fun _ _ _ => eq_refl) HG r). apply (fold_same_b f f'). { intros a r0 Ha Br. rewrite Hf by assumption. reflexivity. }
  2: exact B. intros a r0 q r1 Ha Br E. unfold f' in E. destruct (k <=? zlen r0); [|discriminate]. apply Ok_inj in E. inversion E; subst. apply Forall_skipn'. exact Br.
Qed.
Lemma each_pixel_consume_b f G k ch w row r : bytes r -> 0 <= k -> 1 <= ch -> 0 <= w -> zlen row = ch * w ->
  (forall p r, zlen p = ch -> bytes r -> f p r = if k <=? zlen r then Ok (G r 0, skipn (Z.to_nat k) r) else Err EEof) -> shifts G ->
  each_pixel f ch row r = if w * k <=? zlen r then Ok (concat (map (fun i => G r (i * k)) (zrange 0 w)), skipn (Z.to_nat (w * k)) r) else Err EEof.
Proof.
  intros B Hk Hc Hw L Hf HG. unfold each_pixel. destruct (chunks_exact_id ch row w ltac:(lia) ltac:(lia)) as (C1 & C2).
  rewrite (fold_consume_b f G k); auto; [|intros a r0 Ha Br; apply Hf; auto; pose proof (chunks_len ch row ltac:(lia)) as F; rewrite Forall_forall in F; apply F; exact Ha].
  rewrite C2. destruct (_ <=? _); reflexivity.
Qed.
Lemma with_rows_consume_b (f : list Z -> reader -> res (list Z * reader)) G stride ch w h td buf r : bytes r -> 0 <= stride -> 1 <= ch <= 4 -> 1 <= w <= 65535 -> 0 <= h <= 2147483647 -> zlen buf = ch * w * h ->
  (forall row r, In row (chunks_exact (ch * w) buf) -> bytes r -> f row r = if stride <=? zlen r then Ok (G r 0, skipn (Z.to_nat stride) r) else Err EEof) -> shifts G ->
  with_rows buf w h ch td f r = if h * stride <=? zlen r then Ok (out_rows G td stride h r, skipn (Z.to_nat (h * stride)) r) else Err EEof.
Proof.
  intros B Hs Hc Hw Hh L Hf HG.
  set (f' := fun (a : list Z) (r : reader) => if stride <=? zlen r then Ok (G r 0, skipn (Z.to_nat stride) r) else Err EEof).
  rewrite <- (with_rows_consume f' G stride ch w h td buf r) by (auto; intros; reflexivity). unfold with_rows.
  destruct (_ || _); [reflexivity|]. destruct (negb _); [reflexivity|]. destruct (_ =? 0); [reflexivity|]. cbv zeta.
  assert (H : forall l, (forall a, In a l -> In a (chunks_exact (ch * w) buf)) -> foldM (fun '(done, r1) row => '(row', r2) <- f row r1;; Ok (done ++ [row'], r2)) l ([], r) = foldM (fun '(done, r1) row => '(row', r2) <- f' row r1;; Ok (done ++ [row'], r2)) l ([], r)).
  { intros l Hl. apply (fold_same_b f f'); [intros a r0 Ha Br; rewrite Hf by (auto); reflexivity| |exact B].
    intros a r0 q r1 Ha Br E. unfold f' in E. destruct (stride <=? zlen r0); [|discriminate]. apply Ok_inj in E. inversion E; subst. apply Forall_skipn'. exact Br. }
  rewrite H; [reflexivity|]. intros a Ha. destruct td; [exact Ha|apply in_rev; exact Ha].
Qed.
Definition f16_at (f : bitfields) (alpha : bool) (r : list Z) (o : Z) : list Z := fields_pixel f alpha (num16 r o).
Definition f32_at (f : bitfields) (alpha : bool) (r : list Z) (o : Z) : list Z := fields_pixel f alpha (num32 r o).
Lemma shifts_f16 f a : shifts (f16_at f a).
Proof. intros r o i Ho Hi. unfold f16_at. rewrite num16_shift by lia. reflexivity. Qed.
Lemma shifts_f32 f a : shifts (f32_at f a).
Proof. intros r o i Ho Hi. unfold f32_at. rewrite num32_shift by lia. reflexivity. Qed.
Lemma channels_alpha d : b_indexed d = false -> num_channels d = if b_alpha d then 4 else 3.
Proof. intros E. unfold num_channels. rewrite E. reflexivity. Qed.
Lemma read_16_meaning d f buf r : good d -> fields_ok f -> bytes r -> zlen buf = num_channels d * b_w d * b_h d ->
  read_16_bit d f buf r =
    if b_h d * (b_w d * 2 + b_w d mod 2 * 2) <=? zlen r
    then Ok (out_rows (row_fn (f16_at f (b_alpha d)) 2 (b_w d)) (b_top_down d) (b_w d * 2 + b_w d mod 2 * 2) (b_h d) r, skipn (Z.to_nat (b_h d * (b_w d * 2 + b_w d mod 2 * 2))) r)
    else Err EEof.
Proof.
  intros G F B L. destruct G as (G1 & G2 & G3 & G4 & _). unfold read_16_bit. cbv zeta. rewrite (channels_alpha d G4) in *. set (ch := if b_alpha d then 4 else 3) in *. assert (Hc : 3 <= ch <= 4) by (subst ch; destruct (b_alpha d); lia).
  pose proof (Z.mod_pos_bound (b_w d) 2 ltac:(lia)).
  apply with_rows_consume_b; auto; [lia|lia| |apply shifts_row; [apply shifts_f16|lia]].
  intros row r0 Hr B0. assert (Lr : zlen row = ch * b_w d) by (pose proof (chunks_len (ch * b_w d) buf ltac:(nia)) as F'; rewrite Forall_forall in F'; apply F'; exact Hr).
  rewrite (each_pixel_consume_b _ (f16_at f (b_alpha d)) 2 ch (b_w d)); auto; [|lia|lia|lia| |apply shifts_f16].
  2:{ intros p r1 Lp B1. rewrite u16_of. destruct (2 <=? zlen r1); cbn [bind]; [|reflexivity]. unfold ch at 1. rewrite field_pixel_ok; auto. pose proof (num16_u r1 0 B1). unfold u32_max. lia. }
  destruct (Z.leb_spec (b_w d * 2) (zlen r0)); cbn [bind]; [|replace (b_w d * 2 + b_w d mod 2 * 2 <=? zlen r0) with false by lia; reflexivity].
  unfold read_exact. rewrite zlen_skipn, Z2Nat.id by lia. destruct (Z.ltb_spec (Z.max 0 (zlen r0 - b_w d * 2)) (b_w d mod 2 * 2)), (Z.leb_spec (b_w d * 2 + b_w d mod 2 * 2) (zlen r0)); try lia; [reflexivity|].
  cbn [bind]. rewrite skipn_skipn. unfold row_fn. do 2 f_equal. f_equal. lia.
Qed.
Lemma read_32_meaning d f buf r : good d -> fields_ok f -> bytes r -> zlen buf = num_channels d * b_w d * b_h d ->
  read_32_bit d f buf r =
    if b_h d * (b_w d * 4) <=? zlen r
    then Ok (out_rows (row_fn (f32_at f (b_alpha d)) 4 (b_w d)) (b_top_down d) (b_w d * 4) (b_h d) r, skipn (Z.to_nat (b_h d * (b_w d * 4))) r)
    else Err EEof.
Proof.
  intros G F B L. destruct G as (G1 & G2 & G3 & G4 & _). unfold read_32_bit. cbv zeta. rewrite (channels_alpha d G4) in *. set (ch := if b_alpha d then 4 else 3) in *. assert (Hc : 3 <= ch <= 4) by (subst ch; destruct (b_alpha d); lia).
  apply with_rows_consume_b; auto; [lia|lia| |apply shifts_row; [apply shifts_f32|lia]].
  intros row r0 Hr B0. assert (Lr : zlen row = ch * b_w d) by (pose proof (chunks_len (ch * b_w d) buf ltac:(nia)) as F'; rewrite Forall_forall in F'; apply F'; exact Hr).
  rewrite (each_pixel_consume_b _ (f32_at f (b_alpha d)) 4 ch (b_w d)); auto; [lia|lia|lia| |apply shifts_f32].
  intros p r1 Lp B1. rewrite u32_of. destruct (4 <=? zlen r1); cbn [bind]; [|reflexivity]. unfold ch at 1. rewrite field_pixel_ok; auto. apply num32_u. exact B1.
Qed.
