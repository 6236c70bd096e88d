(** Proofs about PNM rasters and the whole decoder on well-formed files. *)
From Coq Require Import String.
From Verif Require Import Base BaseLemmas ListLemmas ListMore ColorType Limits Text GenImage Bits BitsProofs BitLemmas Farbfeld FarbfeldSpec FarbfeldProofs Pnm PnmSpec PnmScale PnmProofs.
Local Open Scope Z_scope.

(** ** words of decimal digits *)
Lemma split_aux_inv l cur w ws : cur <> [] -> split_ws_aux l cur = w :: ws ->
  exists u r0, l = u ++ r0 /\ w = cur ++ u /\ Forall (fun b => is_ws b = false) u /\
    ((r0 = [] /\ ws = []) \/ exists s r1, r0 = s :: r1 /\ is_ws s = true /\ split_ws r1 = ws).
Proof.
  revert cur. induction l as [|b l IH]; intros cur N E; cbn [split_ws_aux] in E.
  - exists [], []. destruct cur as [|c cur]; [congruence|]. injection E as <- <-. split; [reflexivity|]. split; [rewrite app_nil_r; reflexivity|]. split; [constructor|]. left. split; reflexivity.
  - destruct (is_ws b) eqn:B.
    + destruct cur as [|c cur]; [congruence|]. injection E as <- <-. exists [], (b :: l). split; [reflexivity|]. split; [rewrite app_nil_r; reflexivity|]. split; [constructor|]. right. exists b, l. repeat split; auto.
    + destruct (IH (cur ++ [b])) as (u & r0 & E1 & E2 & F & T); [destruct cur; discriminate|exact E|]. exists (b :: u), r0. subst. split; [reflexivity|]. split; [rewrite <- app_assoc; reflexivity|]. split; [constructor; assumption|exact T].
Qed.
Lemma split_inv l w ws : split_ws l = w :: ws ->
  exists g r0, l = g ++ w ++ r0 /\ Forall (fun b => is_ws b = true) g /\ w <> [] /\ Forall (fun b => is_ws b = false) w /\
    ((r0 = [] /\ ws = []) \/ exists s r1, r0 = s :: r1 /\ is_ws s = true /\ split_ws r1 = ws).
Proof.
  unfold split_ws at 1. induction l as [|b l IH]; intros E; cbn [split_ws_aux] in E; [discriminate E|]. destruct (is_ws b) eqn:B.
  - destruct (IH E) as (g & r0 & -> & G & R). exists (b :: g), r0. split; [reflexivity|]. split; [constructor; assumption|exact R].
  - destruct (split_aux_inv l ([] ++ [b]) w ws) as (u & r0 & -> & -> & U & T); [discriminate|exact E|]. exists [], r0. split; [reflexivity|]. split; [constructor|]. split; [discriminate|]. split; [constructor; assumption|exact T].
Qed.
Lemma sep_digits_run t r0 v : Forall (fun b => is_digit b = true) t -> 0 <= v ->
  fold_left (fun a b => 10 * a + (b - 48)) t v <= 65535 -> (r0 = [] \/ exists s r1, r0 = s :: r1 /\ is_ws s = true) ->
  sep_digits v (t ++ r0) = Ok (fold_left (fun a b => 10 * a + (b - 48)) t v, match r0 with [] => [] | _ :: r1 => r1 end).
Proof.
  revert v. induction t as [|b t IH]; intros v D V M R.
  - cbn [app fold_left]. destruct R as [->|(s & r1 & -> & S)]; [reflexivity|]. cbn [sep_digits]. rewrite S. reflexivity.
  - inversion D as [|? ? B D']; subst. cbn [app sep_digits fold_left] in *. unfold is_digit in B.
    destruct (value_from 65535 t (10 * v + (b - 48)) ltac:(lia) D') as (X & _).
    replace (is_ws b) with false by (unfold is_ws; lia). unfold is_digit. rewrite B. cbn [negb]. replace (v * 10 + (b - 48)) with (10 * v + (b - 48)) by ring.
    replace (10 * v + (b - 48) <=? 65535) with true by lia. apply IH; auto; lia.
Qed.
Lemma word_read max r w v ws : max <= 65535 -> split_ws r = w :: ws -> numeral w v -> v <= max ->
  exists r', read_separated_ascii max r = Ok (v, r') /\ split_ws r' = ws.
Proof.
  intros HM E N V. destruct (split_inv r w ws E) as (g & r0 & -> & G & Wn & Wf & T). destruct N as (N1 & N2 & N3). unfold value in N3.
  unfold read_separated_ascii. rewrite trim_start_ws by exact G. rewrite trim_start_id by (destruct w as [|b w]; [congruence|]; intros c q X; injection X as -> _; inversion Wf; assumption).
  rewrite sep_digits_run; [|exact N2|lia|lia|destruct T as [(-> & _)|(s & r1 & -> & S & _)]; [left; reflexivity|right; exists s, r1; auto]].
  rewrite N3. cbn [bind]. replace (v <=? max) with true by lia. eexists. split; [reflexivity|]. destruct T as [(-> & ->)|(s & r1 & -> & S & Q)]; [reflexivity|exact Q].
Qed.
Lemma words_read max samples : max <= 65535 -> forall r words more, split_ws r = words ++ more -> Forall2 numeral words samples -> Forall (fun v => v <= max) samples ->
  read_ascii_samples (length samples) max r = Ok samples.
Proof.
  intros HM. induction samples as [|v samples IH]; intros r words more E N M; [reflexivity|]. inversion N as [|w ? ws ? Nw Ns]; subst. inversion M as [|? ? Mv Ms]; subst. cbn [app] in E.
  destruct (word_read max r w v (ws ++ more) HM E Nw Mv) as (r' & R & Q). cbn [length read_ascii_samples]. rewrite R. cbn [bind]. rewrite (IH r' ws more Q Ns Ms). reflexivity.
Qed.

(** ** 16-bit buffers *)
Lemma pairs_chunks (f : Z -> list Z) l : (forall v, zlen (f v) = 2) -> chunks_exact 2 (flat_map f l) = map f l.
Proof. intros H. rewrite flat_map_concat_map. apply chunks_exact_concat; [lia|]. apply Forall_forall. intros c Hc. apply in_map_iff in Hc as (v & <- & _). apply H. Qed.
Lemma ne_bytes_native big v : ne_bytes big v = native16 big v.
Proof. unfold ne_bytes, ne_pair, native16. destruct big; reflexivity. Qed.
Lemma ne_val_native big v : ne_val big (native16 big v) = v.
Proof. unfold ne_val, native16. pose proof (Z.div_mod v 256 ltac:(lia)). destruct big; lia. Qed.
Lemma ne_val_be v : ne_val true (u16_be v) = v.
Proof. unfold ne_val, u16_be. pose proof (Z.div_mod v 256 ltac:(lia)). lia. Qed.
Lemma len2_native big v : zlen (native16 big v) = 2.
Proof. destruct big; reflexivity. Qed.
Lemma be_to_native big l : flat_map (fun c => ne_bytes big (ne_val true c)) (chunks_exact 2 (flat_map u16_be l)) = native big l.
Proof.
  rewrite pairs_chunks by reflexivity. rewrite flat_map_concat_map, map_map. unfold native. rewrite flat_map_concat_map. f_equal. apply map_ext. intros v. rewrite ne_val_be. apply ne_bytes_native.
Qed.
Lemma native_scale big l f : flat_map (fun c => ne_bytes big (f (ne_val big c))) (chunks_exact 2 (native big l)) = native big (map f l).
Proof.
  unfold native. rewrite pairs_chunks by (intros; apply len2_native). rewrite !flat_map_concat_map, !map_map. f_equal. apply map_ext. intros v. rewrite ne_val_native. apply ne_bytes_native.
Qed.
Lemma ne_flat big l : flat_map (ne_bytes big) l = native big l.
Proof. unfold native. induction l as [|v l IH]; [reflexivity|]. cbn [flat_map]. rewrite IH, ne_bytes_native. reflexivity. Qed.

(** ** the sizes *)
Definition size_ok (e : senc) (n : Z) : Prop := match e with SBin => n <= u32_max | SAsc => n <= isize_max end.
Lemma size_isize e n : size_ok e n -> n <= isize_max.
Proof. unfold size_ok, isize_max, u32_max. destruct e; lia. Qed.
Lemma mul_ok_u32 m a b : 0 <= a * b <= u32_max -> mul_u32 m a b = Ok (a * b).
Proof. intros H. unfold mul_u32. replace (a * b <=? u32_max) with true by lia. reflexivity. Qed.
Lemma checks_ok w h c : is_u32 w -> is_u32 h -> w * h * ct_bytes c <= isize_max ->
  check_dimension_overflow w h (ct_bytes c) = Ok false /\ total_bytes w h c = Ok (w * h * ct_bytes c).
Proof.
  unfold is_u32. intros Hw Hh B. assert (P : 0 <= w * h <= u32_max * u32_max) by (split; [apply Z.mul_nonneg_nonneg; lia|apply Z.mul_le_mono_nonneg; lia]).
  assert (C : 1 <= ct_bytes c <= 16) by (destruct c; cbn; lia). assert (L : u32_max * u32_max <= u64_max) by (vm_compute; discriminate).
  split.
  - unfold check_dimension_overflow. replace (u64_max <? w * h) with false by lia. replace (ct_bytes c =? 0) with false by lia. f_equal.
    apply Z.ltb_ge. apply Z.div_le_lower_bound; [lia|]. unfold isize_max in B. unfold u64_max. lia.
  - unfold total_bytes, sat_mul_u64. replace (u64_max <? w * h) with false by lia. unfold isize_max in B. unfold u64_max. f_equal. lia.
Qed.
Lemma sampled_type hd e c ch T m : sampled hd e c ch T m ->
  exists t, tuple_type hd = Ok t /\ color_of t = c /\ components t = ch /\ maximal_sample hd = m /\ sample_encoding (h_subtype hd) = e /\ std_type hd /\
    ct_bytes c = ch * sample_size t /\ (1 <= m <= T /\ 1 <= ch) /\
    ((sample_size t = 1 /\ T = 255 /\ (t = GrayU8 \/ t = RGBU8 \/ (t = BWBit /\ m = 1 /\ e = SBin))) \/ (sample_size t = 2 /\ T = 65535 /\ (t = GrayU16 \/ t = RGBU16))).
Proof.
  destruct 1 as [e w h m M|e w h m M|e w h m M|e w h m M|w h|w h m M|w h m M|w h m M|w h m M|w h m M|w h m M]; cbn [tuple_type];
  repeat (match goal with |- context [?a =? ?b] => let X := fresh in destruct (Z.eqb_spec a b) as [X|X]; try lia | |- context [?a <=? ?b] => let X := fresh in destruct (Z.leb_spec a b) as [X|X]; try lia end; cbn [andb]);
  (eexists; split; [reflexivity|]; split; [reflexivity|]; split; [reflexivity|]; split; [reflexivity|]; split; [reflexivity|]; split; [exact I|]; split; [reflexivity|]; split; [lia|];
   first [left; split; [reflexivity|]; split; [reflexivity|]; first [left; reflexivity|right; left; reflexivity|right; right; repeat split; reflexivity] | right; split; [reflexivity|]; split; [reflexivity|]; first [left; reflexivity|right; reflexivity]]).
Qed.

(** the whole decoder on a well-formed file with a sample range *)
Lemma decode_sampled md big hd text raster e c ch T m samples :
  header_text hd text -> sampled hd e c ch T m -> is_u32 (h_width hd) -> is_u32 (h_height hd) ->
  zlen samples = h_width hd * h_height hd * ch -> Forall (fun v => 0 <= v <= m) samples -> stores e T samples raster ->
  size_ok e (h_width hd * h_height hd * ct_bytes c) ->
  pnm_decode md big (text ++ raster) = Ok (h_width hd, h_height hd, c, layout big T (if m =? T then samples else map (scale T m) samples)).
Proof.
  intros HT SP Hw Hh L V ST SZ. destruct (sampled_type _ _ _ _ _ _ SP) as (t & TT & CT & CO & MS & SE & STD & CB & (RM & RC) & K).
  destruct (header_read hd text raster HT STD) as (mg & r0 & R1 & R2 & R3). set (w := h_width hd) in *. set (h := h_height hd) in *.
  destruct (checks_ok w h c Hw Hh (size_isize _ _ SZ)) as (C1 & C2).
  unfold pnm_decode, pnm_new. rewrite R1. cbn [bind]. rewrite R2. cbn [bind]. rewrite R3. cbn [bind]. rewrite TT. cbn [bind]. fold w h. rewrite CT, C1. cbn [bind d_hdr d_tuple]. fold w h. rewrite CT, C2. cbn [bind].
  replace (isize_max <? w * h * ct_bytes c) with false by (pose proof (size_isize _ _ SZ); lia).
  unfold read_image. cbn [d_hdr d_tuple]. fold w h. rewrite CT, C2. cbn [bind]. rewrite Z.eqb_refl. unfold read_samples. cbn [d_hdr d_tuple d_reader]. rewrite SE, MS. fold w h.
  assert (W0 : 0 <= w * h) by (apply Z.mul_nonneg_nonneg; unfold is_u32 in *; lia).
  set (B := match e with SBin => _ | SAsc => _ end).
  assert (EB : B = Ok (layout big T samples)).
  { unfold B. clear B. destruct e.
    - cbn [size_ok] in SZ. cbn [stores] in ST. destruct ST as (extra & ->). set (raw := if T =? 255 then samples else flat_map u16_be samples).
      assert (LR : zlen raw = w * h * ct_bytes c).
      { unfold raw. rewrite CB. destruct K as [(K1 & K2 & _)|(K1 & K2 & _)]; rewrite K1, K2.
        - change (255 =? 255) with true. cbv iota. rewrite L. ring.
        - change (65535 =? 255) with false. cbv iota. rewrite zlen_flat2 by reflexivity. rewrite L. ring. }
      assert (BL : bytelen md t w h = Ok (w * h * ct_bytes c)).
      { rewrite CB in SZ |- *. assert (WC : w * h * ch <= u32_max).
        { assert (0 <= w * h * ch) by (apply Z.mul_nonneg_nonneg; lia). destruct K as [(K1 & _)|(K1 & _)]; rewrite K1 in SZ; nia. }
        assert (WH : w * h <= u32_max) by nia.
        assert (E : bytelen md t w h = (a <- mul_u32 md w h ;; b <- mul_u32 md a (components t) ;; mul_u32 md b (sample_size t))) by (destruct K as [(_ & _ & [-> |[-> |(-> & _)]])|(_ & _ & [-> | ->])]; reflexivity).
        rewrite E, mul_ok_u32 by lia. cbn [bind]. rewrite CO. rewrite mul_ok_u32 by (split; [apply Z.mul_nonneg_nonneg; lia|lia]). cbn [bind]. rewrite mul_ok_u32; [f_equal; ring|]. split; [apply Z.mul_nonneg_nonneg; [apply Z.mul_nonneg_nonneg; lia|destruct K as [(-> & _)|(-> & _)]; lia]|lia]. }
      rewrite BL. cbn [bind]. rewrite <- LR. rewrite firstn_app_exact by (unfold zlen; lia). rewrite Z.eqb_refl. cbn [negb].
      unfold from_bytes, copy_into. rewrite Z.eqb_refl. cbn [bind]. unfold raw, layout.
      destruct K as [(K1 & -> & [-> |[-> |(-> & -> & _)]])|(K1 & -> & [-> | ->])]; try reflexivity.
      + change (255 =? 255) with true. cbv iota. destruct (existsb (fun v => 1 <? v) samples) eqn:X; [|reflexivity]. apply existsb_exists in X as (x & Hx & Gx). rewrite Forall_forall in V. specialize (V x Hx). lia.
      + change (65535 =? 255) with false. cbv iota. rewrite be_to_native. reflexivity.
      + change (65535 =? 255) with false. cbv iota. rewrite be_to_native. reflexivity.
    - cbn [stores] in ST. destruct ST as (words & more & E & N). unfold from_ascii, layout.
      assert (VT : forall X, T <= X -> Forall (fun v => v <= X) samples) by (intros X HX; eapply Forall_impl; [|exact V]; cbv beta; intros; lia).
      destruct K as [(K1 & KT & [-> |[-> |(_ & _ & D)]])|(K1 & KT & [-> | ->])]; subst T; try discriminate D.
      + rewrite CB, K1, Z.mul_1_r, <- L. unfold zlen at 1. rewrite Nat2Z.id. rewrite (words_read 255 samples ltac:(lia) raster words more E N (VT 255 ltac:(lia))). reflexivity.
      + rewrite CB, K1, Z.mul_1_r, <- L. unfold zlen at 1. rewrite Nat2Z.id. rewrite (words_read 255 samples ltac:(lia) raster words more E N (VT 255 ltac:(lia))). reflexivity.
      + rewrite CB, K1, Z.mul_assoc, <- L. rewrite Z.div_mul by lia. unfold zlen at 1. rewrite Nat2Z.id. rewrite (words_read 65535 samples ltac:(lia) raster words more E N (VT 65535 ltac:(lia))). cbn [bind]. rewrite ne_flat. reflexivity.
      + rewrite CB, K1, Z.mul_assoc, <- L. rewrite Z.div_mul by lia. unfold zlen at 1. rewrite Nat2Z.id. rewrite (words_read 65535 samples ltac:(lia) raster words more E N (VT 65535 ltac:(lia))). cbn [bind]. rewrite ne_flat. reflexivity. }
  rewrite EB. cbn [bind]. f_equal. f_equal. unfold scale_buf, layout. destruct K as [(K1 & -> & _)|(K1 & -> & _)]; rewrite K1.
  - change (1 =? 1) with true. change (255 =? 255) with true. cbv iota. destruct (m =? 255); reflexivity.
  - change (2 =? 1) with false. change (65535 =? 255) with false. cbv iota. destruct (m =? 65535); [reflexivity|]. apply native_scale.
Qed.
Lemma scale_rescaled T m samples hd e c ch : sampled hd e c ch T m -> Forall (fun v => 0 <= v <= m) samples ->
  Forall2 (rescaled T m) samples (if m =? T then samples else map (scale T m) samples).
Proof.
  intros SP V. destruct (sampled_type _ _ _ _ _ _ SP) as (t & _ & _ & _ & _ & _ & _ & _ & (RM & _) & K). assert (KT : T = 255 \/ T = 65535) by (destruct K as [(_ & -> & _)|(_ & -> & _)]; auto). clear K.
  destruct (Z.eqb_spec m T) as [->|NE].
  - induction V as [|v l Hv _ IH]; constructor; [|exact IH]. split; [exact Hv|]. replace (v * T - v * T) with 0 by ring. change (Z.abs 0 * 64) with 0. destruct (T =? 255); lia.
  - induction V as [|v l Hv _ IH]; [constructor|]. cbn [map]. constructor; [|exact IH]. unfold rescaled. destruct KT as [-> | ->].
    + change (255 =? 255) with true. cbv iota. destruct (scale_near8 m v ltac:(lia) Hv) as (A & B). split; [exact A|]. lia.
    + change (65535 =? 255) with false. cbv iota. destruct (scale_near16 m v ltac:(lia) Hv) as (A & B). split; [exact A|]. lia.
Qed.
Lemma scale_sorted T m samples hd e c ch i j v v' o o' : sampled hd e c ch T m -> Forall (fun v => 0 <= v <= m) samples ->
  let out := if m =? T then samples else map (scale T m) samples in
  zget samples i = Some v -> zget samples j = Some v' -> zget out i = Some o -> zget out j = Some o' -> v <= v' -> o <= o'.
Proof.
  intros SP V out G1 G2 G3 G4 LE. destruct (sampled_type _ _ _ _ _ _ SP) as (t & _ & _ & _ & _ & _ & _ & _ & (RM & _) & K). assert (KT : T = 255 \/ T = 65535) by (destruct K as [(_ & -> & _)|(_ & -> & _)]; auto). clear K.
  unfold out in *. destruct (m =? T); [congruence|]. rewrite zget_map, G1 in G3. rewrite zget_map, G2 in G4. cbn [option_map] in *. apply Some_inj in G3, G4. subst. rewrite Forall_forall in V. pose proof (V v (zget_In _ _ _ G1)). pose proof (V v' (zget_In _ _ _ G2)). apply scale_mono; lia.
Qed.
