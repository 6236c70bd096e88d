(** The PNM encoder's acceptance, its body, and totality of the PNM decoder. *)
From Coq Require Import String.
From Verif Require Import Base BaseLemmas ListLemmas ListMore ColorType Limits Text GenImage Bits BitsProofs BitLemmas Farbfeld FarbfeldSpec FarbfeldProofs Post HdrProofs3 BmpProofs4 Pnm PnmSpec PnmScale PnmProofs PnmProofs2 PnmProofs3.
Local Open Scope Z_scope.

(** ** the encoder *)
Lemma accept hd s w h c M body : h_width hd = w -> h_height hd = h -> check_header_color hd c = Ok tt -> zlen (vals s) = ect_channels c * w * h -> zlen (vals s) <= u64_max ->
  max_sample c = Ok M -> M <= maximal_sample hd \/ Exists (fun v => maximal_sample hd < v) (vals s) -> write_body hd s = Ok body -> write_with_header hd s w h c = Ok (write_header hd ++ body).
Proof.
  intros W H C L LU MS R B. unfold write_with_header, check_header_dimensions. rewrite W, H, !Z.eqb_refl. cbn [negb orb bind]. rewrite C. cbn [bind]. unfold check_sample_values. rewrite MS. cbn [bind].
  replace ((maximal_sample hd <? M) && negb (all_smaller s (maximal_sample hd))) with false.
  2:{ symmetry. destruct R as [R|R]; [replace (maximal_sample hd <? M) with false by lia; reflexivity|]. apply andb_false_intro2. unfold all_smaller. apply negb_false_iff. apply existsb_exists. apply Exists_exists in R as (v & I & V). exists v. split; [exact I|lia]. }
  unfold check_buffer. rewrite <- L. replace (zlen (vals s) <=? u64_max) with true by lia. rewrite Z.eqb_refl. cbn [andb bind]. rewrite B. reflexivity.
Qed.
Lemma accepted hd s w h c file : write_with_header hd s w h c = Ok file ->
  h_width hd = w /\ h_height hd = h /\ check_header_color hd c = Ok tt /\ zlen (vals s) = ect_channels c * w * h /\ zlen (vals s) <= u64_max /\
  (exists M, max_sample c = Ok M /\ (M <= maximal_sample hd \/ Exists (fun v => maximal_sample hd < v) (vals s))) /\
  exists body, write_body hd s = Ok body /\ file = write_header hd ++ body.
Proof.
  unfold write_with_header. intros E. apply bind_ok in E as ([] & E1 & E). apply bind_ok in E as ([] & E2 & E). apply bind_ok in E as ([] & E3 & E). apply bind_ok in E as (body & E4 & E). apply Ok_inj in E. subst file.
  unfold check_header_dimensions in E1. destruct (negb (h_width hd =? w) || negb (h_height hd =? h)) eqn:D; [discriminate E1|]. clear E1. apply orb_false_iff in D as (D1 & D2). apply negb_false_iff, Z.eqb_eq in D1. apply negb_false_iff, Z.eqb_eq in D2.
  unfold check_sample_values in E3. apply bind_ok in E3 as (M & MS & E3). destruct (_ && _) eqn:A in E3; [discriminate E3|]. unfold check_buffer in E3. destruct (_ && _) eqn:Bf in E3; [|discriminate E3]. clear E3.
  apply andb_true_iff in Bf as (B1 & B2). apply Z.eqb_eq in B2. apply Z.leb_le in B1.
  split; [exact D1|]. split; [exact D2|]. split; [exact E2|]. split; [exact B2|]. split; [lia|]. split; [|exists body; split; [exact E4|reflexivity]].
  exists M. split; [exact MS|]. apply andb_false_iff in A as [A|A]; [left; apply Z.ltb_ge in A; lia|right]. apply negb_false_iff in A. unfold all_smaller in A. apply existsb_exists in A as (v & I & V). apply Exists_exists. exists v. split; [exact I|lia].
Qed.
Lemma be16s l : Forall is_u16 l -> flat_map be16 l = flat_map u16_be l.
Proof. induction 1 as [|v l V _ IH]; [reflexivity|]. cbn [flat_map]. rewrite IH. f_equal. unfold be16, u16_be. unfold is_u16, u16_max in V. rewrite (Z.mod_small (v / 256) 256); [reflexivity|]. split; [apply Z.div_pos; lia|apply Z.div_lt_upper_bound; lia]. Qed.
Definition width_ok (e : senc) (T : Z) (s : samples) : Prop := match e with SAsc => True | SBin => match s with S8 _ => T = 255 | S16 _ => T = 65535 end end.
Lemma small_dec l : Forall is_u16 l -> Forall (fun v => 0 <= v < 10 ^ 21) l.
Proof. intros H. eapply Forall_impl; [|exact H]. cbv beta. unfold is_u16, u16_max. lia. Qed.
Lemma numerals l : Forall (fun v => 0 <= v < 10 ^ 21) l -> Forall2 numeral (map dec l) l.
Proof. induction 1 as [|v l V _ IH]; [constructor|]. cbn [map]. constructor; [apply numeral_dec; exact V|exact IH]. Qed.
Lemma body_stores hd e c ch T m s : sampled hd e c ch T m -> width_ok e T s -> Forall is_u16 (vals s) -> exists body, write_body hd s = Ok body /\ stores e T (vals s) body.
Proof.
  intros SP W U.
  assert (A : stores SAsc T (vals s) (write_samples_ascii (vals s))). { destruct (ascii_words (vals s) (small_dec _ U)) as (E & _). exists (map dec (vals s)), []. rewrite app_nil_r. split; [exact E|apply numerals, small_dec, U]. }
  assert (B : width_ok SBin T s -> stores SBin T (vals s) (match s with S8 l => l | S16 l => flat_map be16 l end)).
  { intros W'. exists []. rewrite app_nil_r. destruct s as [l|l]; cbn [width_ok vals] in *; subst T; [reflexivity|]. change (65535 =? 255) with false. cbv iota. apply be16s. exact U. }
  destruct SP; try destruct e; cbn [write_body]; eexists; (split; [reflexivity|]); first [exact A|apply B; exact W].
Qed.
Lemma colors_ok hd e ct ch T m c : sampled hd e ct ch T m -> check_header_color hd c = Ok tt -> ect_channels c = ch.
Proof.
  intros SP C. destruct SP; cbn [check_header_color] in C; try (destruct c; first [discriminate C|reflexivity]).
  all: match type of C with (if ?b then _ else _) = _ => destruct b eqn:Q; [apply Z.eqb_eq in Q; lia|discriminate C] end.
Qed.
Lemma sampled_hdr_ok hd e c ch T m : sampled hd e c ch T m -> is_u32 (h_width hd) -> is_u32 (h_height hd) -> hdr_ok hd.
Proof. intros SP W H. split; [exact W|]. split; [exact H|]. destruct SP; cbn [maximal_sample]; unfold is_u32, u32_max; try (split; [lia|exact I]); (split; [lia|split; [lia|exact I]]). Qed.
Lemma chosen_round md big hd s w h c file e ct ch T m : sampled hd e ct ch T m -> write_with_header hd s w h c = Ok file -> is_u32 w -> is_u32 h ->
  width_ok e T s -> Forall (fun v => 0 <= v <= m) (vals s) -> size_ok e (w * h * ct_bytes ct) ->
  pnm_decode md big file = Ok (w, h, ct, layout big T (if m =? T then vals s else map (scale T m) (vals s))).
Proof.
  intros SP E Hw Hh WO V SZ. destruct (accepted _ _ _ _ _ _ E) as (W & H & C & L & _ & _ & body & B & ->). rewrite <- W in Hw. rewrite <- H in Hh.
  assert (U : Forall is_u16 (vals s)). { eapply Forall_impl; [|exact V]. cbv beta. intros v Hv. destruct (sampled_type _ _ _ _ _ _ SP) as (t & _ & _ & _ & _ & _ & _ & _ & (RM & _) & K). unfold is_u16, u16_max. destruct K as [(_ & -> & _)|(_ & -> & _)]; lia. }
  destruct (body_stores _ _ _ _ _ _ _ SP WO U) as (body' & B' & ST). rewrite B in B'. apply Ok_inj in B'. subst body'. rewrite <- W, <- H.
  eapply decode_sampled; [apply write_header_text; eapply sampled_hdr_ok; eassumption|exact SP|exact Hw|exact Hh| |exact V|exact ST|rewrite W, H; exact SZ].
  rewrite L, (colors_ok _ _ _ _ _ _ _ SP C), W, H. ring.
Qed.

(** ** ASCII bitmaps *)
Lemma filter_split_aux l cur : Forall (fun b => is_ws b = false) cur -> concat (split_ws_aux l cur) = cur ++ filter (fun b => negb (is_ws b)) l.
Proof.
  revert cur. induction l as [|b l IH]; intros cur F; cbn [split_ws_aux filter].
  - destruct cur; [reflexivity|]. cbn [concat]. reflexivity.
  - destruct (is_ws b) eqn:B; cbn [negb].
    + destruct cur; [apply IH; constructor|]. cbn [concat]. rewrite (IH [] (Forall_nil _)). reflexivity.
    + rewrite IH by (apply Forall_app; split; [exact F|constructor; [exact B|constructor]]). rewrite <- app_assoc. reflexivity.
Qed.
Lemma filter_split l : filter (fun b => negb (is_ws b)) l = concat (split_ws l).
Proof. symmetry. apply (filter_split_aux l []). constructor. Qed.
Lemma bits_text l : Forall (fun v => v = 0 \/ v = 1) l -> filter (fun b => negb (is_ws b)) (write_samples_ascii l) = map (fun v : bool => if v then 49 else 48) (map (fun v => v =? 1) l).
Proof.
  intros H. rewrite filter_split. destruct (ascii_words l) as (-> & _). { eapply Forall_impl; [|exact H]. cbv beta. lia. }
  induction H as [|v l V _ IH]; [reflexivity|]. cbn [map concat]. rewrite IH. destruct V as [-> | ->]; reflexivity.
Qed.

(** ** totality of the decoder *)
Lemma rns_total on acc r : post (read_next_string on acc r) (fun _ => True).
Proof.
  revert on acc. induction r as [|b r IH]; intros on acc; cbn [read_next_string]; [destruct acc; cbn; [discriminate|exact I]|]. cbv zeta.
  destruct (negb _); [apply IH|]. destruct (is_ws b); [destruct acc; [apply IH|exact I]|]. destruct (128 <=? b); [discriminate|apply IH].
Qed.
Lemma rnu_total r : post (read_next_u32 r) (fun p => is_u32 (fst p)).
Proof.
  unfold read_next_u32. eapply post_bind; [apply rns_total|]. intros (s & r') _. destruct (parse_u32 s) eqn:P; [cbn; apply (parse_u32_range s); exact P|discriminate].
Qed.
Definition oku (o : option Z) : Prop := match o with Some v => is_u32 v | None => True end.
Definition pam_ok (p : pam) : Prop := oku (p_h p) /\ oku (p_w p) /\ oku (p_d p) /\ oku (p_m p).
Lemma parse_line_total o r : post (parse_line o r) oku.
Proof. unfold parse_line. destruct o; [discriminate|]. destruct (parse_u32 (trim r)) eqn:P; [apply (parse_u32_range _ _ P)|discriminate]. Qed.
Lemma find_ws_len l : (find_ws l <= length (trim_start l))%nat.
Proof.
  assert (F : forall l, (find_ws l <= length l)%nat) by (intros k; induction k as [|b k IH]; cbn [find_ws length]; [lia|]; destruct (is_ws b); lia).
  destruct l as [|b l]; [apply Nat.le_0_l|]. destruct (is_ws b) eqn:B; cbn [find_ws]; rewrite B; [apply Nat.le_0_l|]. rewrite (trim_start_id (b :: l)); [cbn [length]; specialize (F l); lia|]. intros c q X. injection X as -> _. exact B.
Qed.
Lemma pam_line_total line p : pam_ok p -> post (pam_line line p) (fun o => match o with Some p' => pam_ok p' | None => True end).
Proof.
  intros (H1 & H2 & H3 & H4). unfold pam_line. destruct (negb (utf8 line)); [discriminate|]. destruct line as [|b l]; [discriminate|]. destruct (b =? 35); [split; auto|]. destruct (negb _); [discriminate|]. cbv zeta.
  destruct (Nat.ltb_spec (length (trim_start (b :: l))) (find_ws (b :: l))) as [X|_]; [pose proof (find_ws_len (b :: l)); lia|].
  destruct (leqb _ (txt "ENDHDR")); [exact I|].
  destruct (leqb _ (txt "HEIGHT")); [eapply post_bind; [apply parse_line_total|]; intros v Hv; split; auto|].
  destruct (leqb _ (txt "WIDTH")); [eapply post_bind; [apply parse_line_total|]; intros v Hv; split; auto|].
  destruct (leqb _ (txt "DEPTH")); [eapply post_bind; [apply parse_line_total|]; intros v Hv; split; auto|].
  destruct (leqb _ (txt "MAXVAL")); [eapply post_bind; [apply parse_line_total|]; intros v Hv; split; auto|].
  destruct (leqb _ (txt "TUPLTYPE")); [split; auto|discriminate].
Qed.
Lemma pam_lines_total r : forall cur p, pam_ok p -> post (pam_lines cur p r) (fun q => pam_ok (fst q)).
Proof.
  induction r as [|b r IH]; intros cur p H; cbn [pam_lines].
  - eapply post_bind; [apply pam_line_total; exact H|]. intros [p'|] Hp; [discriminate|exact H].
  - destruct (b =? 10); [|apply IH; exact H]. eapply post_bind; [apply pam_line_total; exact H|]. intros [p'|] Hp; [apply IH; exact Hp|exact H].
Qed.
Definition dims_ok (hd : hdr) : Prop := is_u32 (h_width hd) /\ is_u32 (h_height hd) /\ is_u32 (maximal_sample hd).
Lemma one_u32 : is_u32 1.
Proof. unfold is_u32, u32_max. lia. Qed.
Lemma read_header_total st r : post (read_header st r) (fun p => dims_ok (fst p)).
Proof.
  destruct st; cbn [read_header].
  - eapply post_bind; [apply rnu_total|]. intros (w & r1) Hw. eapply post_bind; [apply rnu_total|]. intros (h & r2) Hh. split; [exact Hw|split; [exact Hh|apply one_u32]].
  - eapply post_bind; [apply rnu_total|]. intros (w & r1) Hw. eapply post_bind; [apply rnu_total|]. intros (h & r2) Hh. eapply post_bind; [apply rnu_total|]. intros (m & r3) Hm. split; [exact Hw|split; [exact Hh|exact Hm]].
  - eapply post_bind; [apply rnu_total|]. intros (w & r1) Hw. eapply post_bind; [apply rnu_total|]. intros (h & r2) Hh. eapply post_bind; [apply rnu_total|]. intros (m & r3) Hm. split; [exact Hw|split; [exact Hh|exact Hm]].
  - unfold read_arbitrary_header. destruct r as [|c r]; [discriminate|]. cbn [read_u8 bind]. destruct (negb (c =? 10)); [discriminate|]. eapply post_bind; [apply pam_lines_total; split; [exact I|split; [exact I|split; exact I]]|].
    intros (p & r1) (H1 & H2 & H3 & H4). cbn [fst] in *. destruct (p_h p) as [h|], (p_w p) as [w|], (p_d p) as [d|], (p_m p) as [m|]; try discriminate. split; [exact H2|split; [exact H1|exact H4]].
Qed.
Lemma tuple_type_total hd : post (tuple_type hd) (fun t => t = BWBit -> sample_encoding (h_subtype hd) = SBin).
Proof.
  destruct hd as [e w h|e w h m|e w h m|w h d m t]; cbn [tuple_type]; [discriminate| | |];
  repeat match goal with |- post (if ?b then _ else _) _ => destruct b | |- post (match ?o with Some _ => _ | None => _ end) _ => destruct o | |- post (match ?o with TBW => _ | _ => _ end) _ => destruct o end; cbn; try discriminate; reflexivity.
Qed.
Lemma u32_prod a b : is_u32 a -> is_u32 b -> 0 <= a * b <= u64_max.
Proof. unfold is_u32. intros A B. split; [apply Z.mul_nonneg_nonneg; lia|]. apply Z.le_trans with (u32_max * u32_max); [apply Z.mul_le_mono_nonneg; lia|vm_compute; discriminate]. Qed.
(** what the decoder made by PnmDecoder::new satisfies *)
Definition dec_ok (d : decoder) : Prop :=
  dims_ok (d_hdr d) /\ tuple_type (d_hdr d) = Ok (d_tuple d) /\ bytes (d_reader d) /\ (d_tuple d = BWBit -> sample_encoding (h_subtype (d_hdr d)) = SBin).
Definition suff (r l : list Z) : Prop := exists a, l = a ++ r.
Lemma rns_suff on acc r : post (read_next_string on acc r) (fun p => bytes r -> bytes (snd p)).
Proof.
  revert on acc. induction r as [|b r IH]; intros on acc; cbn [read_next_string]; [destruct acc; cbn; [discriminate|auto]|]. cbv zeta.
  assert (X : forall on' acc', post (read_next_string on' acc' r) (fun p => bytes (b :: r) -> bytes (snd p))). { intros on' acc'. eapply post_imp; [apply IH|]. cbv beta. intros p H B. apply H. inversion B; assumption. }
  destruct (negb _); [apply X|]. destruct (is_ws b); [destruct acc; [apply X|cbn; intros B; inversion B; assumption]|]. destruct (128 <=? b); [discriminate|apply X].
Qed.
Lemma rnu_suff r : post (read_next_u32 r) (fun p => bytes r -> bytes (snd p)).
Proof. unfold read_next_u32. eapply post_bind; [apply rns_suff|]. intros (s & r') H. destruct (parse_u32 s); [exact H|discriminate]. Qed.
Lemma pam_lines_suff r : forall cur p, pam_ok p -> post (pam_lines cur p r) (fun q => bytes r -> bytes (snd q)).
Proof.
  induction r as [|b r IH]; intros cur p H; cbn [pam_lines].
  - eapply post_bind; [apply pam_line_total; exact H|]. intros [p'|] Hp; [discriminate|cbn; auto].
  - assert (X : forall cur' p', pam_ok p' -> post (pam_lines cur' p' r) (fun q => bytes (b :: r) -> bytes (snd q))). { intros cur' p' Hp. eapply post_imp; [apply IH; exact Hp|]. cbv beta. intros q Hq B. apply Hq. inversion B; assumption. }
    destruct (b =? 10); [|apply X; exact H]. eapply post_bind; [apply pam_line_total; exact H|]. intros [p'|] Hp; [apply X; exact Hp|cbn; intros B; inversion B; assumption].
Qed.
Lemma read_header_suff st r : bytes r -> post (read_header st r) (fun p => bytes (snd p)).
Proof.
  intros B. destruct st; cbn [read_header].
  - eapply post_bind; [apply rnu_suff|]. intros (w & r1) B1. specialize (B1 B). eapply post_bind; [apply rnu_suff|]. intros (h & r2) B2. exact (B2 B1).
  - eapply post_bind; [apply rnu_suff|]. intros (w & r1) B1. specialize (B1 B). eapply post_bind; [apply rnu_suff|]. intros (h & r2) B2. specialize (B2 B1). eapply post_bind; [apply rnu_suff|]. intros (m & r3) B3. exact (B3 B2).
  - eapply post_bind; [apply rnu_suff|]. intros (w & r1) B1. specialize (B1 B). eapply post_bind; [apply rnu_suff|]. intros (h & r2) B2. specialize (B2 B1). eapply post_bind; [apply rnu_suff|]. intros (m & r3) B3. exact (B3 B2).
  - unfold read_arbitrary_header. destruct r as [|c r]; [discriminate|]. cbn [read_u8 bind]. destruct (negb (c =? 10)); [discriminate|]. eapply post_bind; [apply pam_lines_suff; split; [exact I|split; [exact I|split; exact I]]|].
    intros (p & r1) H. cbn [snd] in H. inversion B; subst. destruct (p_h p), (p_w p), (p_d p), (p_m p); try discriminate. cbn. auto.
Qed.
Lemma post_and {A} (r : res A) P Q : post r P -> post r Q -> post r (fun a => P a /\ Q a).
Proof. destruct r; cbn; auto. Qed.
Lemma post_eq {A} (r : res A) Q : post r Q -> post r (fun a => r = Ok a /\ Q a).
Proof. destruct r; cbn; auto. Qed.
Lemma pnm_new_total file : bytes file -> post (pnm_new file) dec_ok.
Proof.
  intros B. unfold pnm_new. pex. assert (ST : post (subtype_of v) (fun _ => True)) by (unfold subtype_of; repeat match goal with |- post (if ?b then _ else _) _ => destruct b end; first [exact I|discriminate]).
  eapply post_bind; [exact ST|]. intros st _. eapply post_bind; [apply post_and; [apply read_header_total|apply read_header_suff; assumption]|]. intros (hd & r1) (D & BR). cbn [fst snd] in *.
  eapply post_bind; [apply post_eq, tuple_type_total|]. intros t (TT & T). destruct D as (D1 & D2 & D3). unfold check_dimension_overflow. pose proof (u32_prod _ _ D1 D2) as P. replace (u64_max <? h_width hd * h_height hd) with false by lia.
  replace (ct_bytes (color_of t) =? 0) with false by (destruct t; reflexivity). cbn [bind]. destruct (_ <? _); [discriminate|]. split; [split; [exact D1|split; [exact D2|exact D3]]|]. split; [exact TT|]. split; [exact BR|exact T].
Qed.
Lemma ascii_total n max : 0 <= max -> forall r, post (read_ascii_samples n max r) (fun l => length l = n /\ Forall (fun v => 0 <= v <= max) l).
Proof.
  intros HM. assert (D : forall r v, 0 <= v -> post (sep_digits v r) (fun p => 0 <= fst p)).
  { induction r as [|b r IH]; intros v Hv; cbn [sep_digits]; [exact Hv|]. destruct (is_ws b); [exact Hv|]. destruct (is_digit b) eqn:DG; cbn [negb]; [|discriminate]. destruct (_ <=? 65535); [|discriminate]. apply IH. unfold is_digit in DG. lia. }
  induction n as [|n IH]; intros r; cbn [read_ascii_samples]; [split; [reflexivity|constructor]|]. unfold read_separated_ascii. eapply post_bind with (Q := fun p => 0 <= fst p <= max).
  - eapply post_bind; [apply D; lia|]. intros (v & r') Hv. cbn [fst] in *. destruct (v <=? max) eqn:E; [cbn; lia|discriminate].
  - intros (v & r') Hv. cbn [fst] in Hv. eapply post_bind; [apply IH|]. intros l (Ll & Fl). split; [cbn [length]; lia|constructor; assumption].
Qed.
Lemma pbm_ascii_total r : forall n, post (read_pbm_ascii n r) (fun l => length l = n /\ bytes l).
Proof.
  induction r as [|b r IH]; intros [|n]; cbn [read_pbm_ascii]; try discriminate; try (split; [reflexivity|constructor]).
  destruct (is_ws b); [apply IH|]. destruct (b =? 48); [|destruct (b =? 49); [|discriminate]]; (eapply post_bind; [apply IH|]; intros l (Ll & Bl); split; [cbn [length]; lia|constructor; [unfold is_u8, u8_max; lia|exact Bl]]).
Qed.
Lemma bytes_native big l : Forall is_u16 l -> bytes (native big l).
Proof.
  intros H. unfold native. apply Forall_forall. intros b Hb. apply in_flat_map in Hb as (v & Hv & Hb). rewrite Forall_forall in H. specialize (H v Hv). unfold is_u16, u16_max in H.
  assert (0 <= v / 256 < 256) by (split; [apply Z.div_pos; lia|apply Z.div_lt_upper_bound; lia]). pose proof (Z.mod_pos_bound v 256 ltac:(lia)). unfold native16 in Hb. unfold is_u8, u8_max. destruct big; destruct Hb as [<-|[<-|[]]]; lia.
Qed.
Lemma zlen_native big l : zlen (native big l) = 2 * zlen l.
Proof. apply native_len. Qed.
Lemma words_of big l : bytes l -> forall k, zlen l = 2 * k -> exists s, Forall is_u16 s /\ zlen s = k /\ l = native big s.
Proof.
  intros B k L. destruct (u16s_of_bytes l k B L) as (s & Us & Ls & ->). exists (map (fun v => if big then v else 256 * (v mod 256) + v / 256) s).
  split; [apply Forall_forall; intros x Hx; apply in_map_iff in Hx as (v & <- & Hv); rewrite Forall_forall in Us; specialize (Us v Hv); unfold is_u16, u16_max in *; assert (0 <= v / 256 < 256) by (split; [apply Z.div_pos; lia|apply Z.div_lt_upper_bound; lia]); pose proof (Z.mod_pos_bound v 256 ltac:(lia)); destruct big; lia|].
  split; [rewrite zlen_map; exact Ls|]. unfold native. rewrite !flat_map_concat_map, map_map. f_equal. apply map_ext_in. intros v Hv. rewrite Forall_forall in Us. specialize (Us v Hv). unfold is_u16, u16_max in Us. unfold native16, u16_be.
  assert (0 <= v / 256 < 256) by (split; [apply Z.div_pos; lia|apply Z.div_lt_upper_bound; lia]). pose proof (Z.mod_pos_bound v 256 ltac:(lia)). destruct big; [reflexivity|].
  replace ((256 * (v mod 256) + v / 256) mod 256) with (v / 256) by (rewrite Z.add_comm, Z.mul_comm, Z.mod_add by lia; rewrite Z.mod_small by lia; reflexivity).
  replace ((256 * (v mod 256) + v / 256) / 256) with (v mod 256) by (rewrite Z.mul_comm, Z.div_add_l by lia; rewrite (Z.div_small (v / 256)) by lia; lia). reflexivity.
Qed.
Lemma scale_buf_total big t cur buf k : bytes buf -> zlen buf = sample_size t * k -> zlen (scale_buf big t cur buf) = sample_size t * k /\ bytes (scale_buf big t cur buf).
Proof.
  intros B L. unfold scale_buf. cbv zeta. destruct (cur =? _); [split; assumption|]. assert (SS : sample_size t = 1 \/ sample_size t = 2) by (destruct t; auto). destruct SS as [S1|S2].
  - rewrite S1 in *. change (1 =? 1) with true. cbv iota. rewrite zlen_map. split; [exact L|]. apply Forall_map_iff. apply Forall_forall. intros v _. exact (scale_range 255 cur v ltac:(lia)).
  - rewrite S2 in *. change (2 =? 1) with false. cbv iota. destruct (words_of big buf B k L) as (s & Us & Ls & ->). rewrite native_scale. rewrite zlen_native, zlen_map. split; [lia|]. apply bytes_native. apply Forall_map_iff. apply Forall_forall. intros v _. exact (scale_range 65535 cur v ltac:(lia)).
Qed.
Lemma expand_empty w : 0 <= w -> w + 7 <= u32_max -> expand_bits 1 w [] = Ok [].
Proof.
  intros Hw H7. unfold expand_bits. change ((1 <=? 0) || (8 <=? 1)) with false. cbv iota zeta. rewrite Z.mul_1_r. replace (u32_max <? w) with false by lia. rewrite Z.div_1_r.
  pose proof (Z.mod_pos_bound w 8 ltac:(lia)). destruct (w mod 8 =? 0) eqn:Q; [replace (u32_max <? w + 0) with false by lia|replace (u32_max <? w + (8 - w mod 8)) with false by lia]; reflexivity.
Qed.
(** the binary reader: with sizes that fit in 32 bits it fails only for lack of data (or a sample above 1) *)
Lemma bytelen_plain md t w h : is_u32 w -> is_u32 h -> t <> PbmBit -> w * h * ct_bytes (color_of t) <= u32_max -> bytelen md t w h = Ok (w * h * ct_bytes (color_of t)).
Proof.
  unfold is_u32. intros Hw Hh NP SZ. assert (P : 0 <= w * h) by (apply Z.mul_nonneg_nonneg; lia). assert (C : ct_bytes (color_of t) = components t * sample_size t) by (destruct t; reflexivity).
  assert (CR : 1 <= components t <= 3 /\ 1 <= sample_size t <= 2) by (destruct t; cbn; lia). rewrite C in *. assert (X : w * h * components t <= w * h * (components t * sample_size t)) by nia. assert (Y : w * h <= w * h * components t) by nia.
  replace (bytelen md t w h) with (a <- mul_u32 md w h ;; b <- mul_u32 md a (components t) ;; mul_u32 md b (sample_size t)) by (destruct t; [congruence|reflexivity..]).
  rewrite mul_ok_u32 by lia. cbn [bind]. rewrite mul_ok_u32 by nia. cbn [bind]. rewrite mul_ok_u32 by nia. f_equal. ring.
Qed.
Lemma from_bytes_total md big t w h : is_u32 w -> is_u32 h -> w + 7 <= u32_max -> w * h * ct_bytes (color_of t) <= u32_max ->
  exists bc, bytelen md t w h = Ok bc /\ forall b, bytes b -> zlen b = bc ->
  post (from_bytes big t (w * components t) (w * h * ct_bytes (color_of t)) b) (fun o => zlen o = w * h * ct_bytes (color_of t) /\ bytes o).
Proof.
  intros Hw Hh H7 SZ. assert (P : 0 <= w * h) by (apply Z.mul_nonneg_nonneg; unfold is_u32 in *; lia).
  assert (D : t = PbmBit \/ t <> PbmBit) by (destruct t; (left; reflexivity) || (right; discriminate)). destruct D as [->|NP].
  - unfold is_u32 in *. cbn [color_of ct_bytes components sample_size bytelen from_bytes] in *. rewrite !Z.mul_1_r in *. rewrite mul_ok_u32 by lia. cbn [bind]. rewrite Z.mul_1_r.
    set (st := w / 8 + (if w mod 8 =? 0 then 0 else 1)) in *. assert (ST : st = (w + 7) / 8) by (unfold st; destruct (Z.eqb_spec (w mod 8) 0); zdm).
    assert (S0 : 0 <= st <= w) by (rewrite ST; zdm). rewrite mul_ok_u32 by nia. eexists. split; [reflexivity|]. intros b B L.
    destruct (Z.eqb_spec w 0) as [W0|W0].
    + assert (b = []) as -> by (apply zlen_0_nil; rewrite L, ST, W0; reflexivity). rewrite W0. rewrite (expand_empty 0) by (unfold u32_max; lia). cbn [bind map]. unfold copy_into. change (zlen (@nil Z)) with 0. rewrite Z.mul_0_l. split; [reflexivity|constructor].
    + rewrite (expand_bits_rows 1 w h b) by (first [left; reflexivity|exact B|lia|rewrite L, ST, Z.mul_1_r; ring]). cbn [bind]. unfold copy_into. rewrite !zlen_map, zlen_coords by lia. rewrite Z.eqb_refl. split; [rewrite !zlen_map, zlen_coords by lia; reflexivity|].
      rewrite map_map. apply Forall_map_iff. apply Forall_forall. intros (x & y) _. cbn [fst snd]. unfold field. change (2 ^ 1) with 2. change (255 / (2 - 1)) with 255. destruct (zget b _); [|unfold is_u8, u8_max; lia]. match goal with |- is_u8 (255 - ?q mod 2 * 255) => pose proof (Z.mod_pos_bound q 2 ltac:(lia)) end. unfold is_u8, u8_max. lia.
  - rewrite (bytelen_plain md t w h Hw Hh NP SZ). eexists. split; [reflexivity|]. intros b B L. 
    destruct t; [congruence| | | | |]; cbn [from_bytes]; unfold copy_into; rewrite L, Z.eqb_refl; cbn [bind].
    + destruct (existsb _ b); [discriminate|]. split; [exact L|exact B].
    + split; [exact L|exact B].
    + cbn [color_of ct_bytes] in *. assert (L2 : zlen b = 2 * (w * h)) by lia. destruct (u16s_of_bytes b _ B L2) as (s & Us & Ls & ->). rewrite be_to_native. split; [rewrite zlen_native; lia|apply bytes_native; exact Us].
    + split; [exact L|exact B].
    + cbn [color_of ct_bytes] in *. assert (L2 : zlen b = 2 * (w * h * 3)) by lia. destruct (u16s_of_bytes b _ B L2) as (s & Us & Ls & ->). rewrite be_to_native. split; [rewrite zlen_native; lia|apply bytes_native; exact Us].
Qed.
Lemma from_ascii_total big t w h r : is_u32 w -> is_u32 h -> t <> BWBit ->
  post (from_ascii big t (w * h * ct_bytes (color_of t)) r) (fun o => zlen o = w * h * ct_bytes (color_of t) /\ bytes o).
Proof.
  intros Hw Hh NB. assert (P : 0 <= w * h) by (apply Z.mul_nonneg_nonneg; unfold is_u32 in *; lia).
  assert (X8 : forall n, 0 <= n -> post (read_ascii_samples (Z.to_nat n) 255 r) (fun o => zlen o = n /\ bytes o)). { intros n Hn. eapply post_imp; [apply ascii_total; lia|]. cbv beta. intros l (L & F). split; [unfold zlen; lia|exact F]. }
  assert (X16 : forall n, 0 <= n -> post (l <- read_ascii_samples (Z.to_nat (n / 2)) 65535 r ;; Ok (flat_map (ne_bytes big) l)) (fun o => zlen o = 2 * (n / 2) /\ bytes o)).
  { intros n Hn. eapply post_bind; [apply ascii_total; lia|]. cbv beta. intros l (L & F). cbn [post]. rewrite ne_flat. assert (0 <= n / 2) by (apply Z.div_pos; lia). split; [rewrite zlen_native; unfold zlen; lia|apply bytes_native; exact F]. }
  destruct t; [|congruence| | | |]; cbn [from_ascii color_of ct_bytes] in *.
  - eapply post_imp; [apply pbm_ascii_total|]. cbv beta. intros l (L & F). split; [unfold zlen; lia|exact F].
  - apply X8. lia.
  - specialize (X16 (w * h * 2) ltac:(lia)). rewrite Z.div_mul in X16 by lia. rewrite Z.div_mul by lia. eapply post_imp; [exact X16|]. cbv beta. intros o (L & F). split; [lia|exact F].
  - apply X8. lia.
  - specialize (X16 (w * h * 6) ltac:(lia)). assert (E : w * h * 6 / 2 = w * h * 3) by (replace (w * h * 6) with (w * h * 3 * 2) by ring; apply Z.div_mul; lia). rewrite E in *. eapply post_imp; [exact X16|]. cbv beta. intros o (L & F). split; [lia|exact F].
Qed.
(** a whole decoding, when the announced size fits *)
Lemma pnm_decode_total md big file : bytes file ->
  (forall d, pnm_new file = Ok d -> h_width (d_hdr d) + 7 <= u32_max /\ h_width (d_hdr d) * h_height (d_hdr d) * ct_bytes (color_of (d_tuple d)) <= u32_max) ->
  post (pnm_decode md big file) (fun '(w, h, c, buf) => is_u32 w /\ is_u32 h /\ zlen buf = w * h * ct_bytes c /\ bytes buf).
Proof.
  intros B F. unfold pnm_decode. eapply post_bind; [apply post_eq, pnm_new_total; exact B|]. intros d (EN & ((Hw & Hh & _) & _ & BR & NB)). destruct (F d EN) as (H7 & SZ). clear F EN.
  set (w := h_width (d_hdr d)) in *. set (h := h_height (d_hdr d)) in *. set (t := d_tuple d) in *. 
  destruct (checks_ok w h (color_of t) Hw Hh) as (_ & C2). { unfold isize_max, u32_max in *. lia. }
  rewrite C2. cbn [bind]. destruct (_ <? _); [discriminate|]. eapply post_bind with (Q := fun buf => zlen buf = w * h * ct_bytes (color_of t) /\ bytes buf).
  - unfold read_image. fold w h t. rewrite C2. cbn [bind]. rewrite Z.eqb_refl. unfold read_samples. fold w h t. cbv zeta.
    eapply post_bind with (Q := fun buf => zlen buf = w * h * ct_bytes (color_of t) /\ bytes buf).
    + destruct (sample_encoding (h_subtype (d_hdr d))) eqn:SE.
      * destruct (from_bytes_total md big t w h Hw Hh H7 SZ) as (bc & -> & FB). cbn [bind]. destruct (negb _) eqn:Q; [discriminate|]. apply negb_false_iff, Z.eqb_eq in Q. apply FB; [apply Forall_firstn'; exact BR|exact Q].
      * apply from_ascii_total; [exact Hw|exact Hh|]. intros X. specialize (NB X). discriminate NB.
    + intros buf (L & BB). cbn [post]. assert (CK : exists k, w * h * ct_bytes (color_of t) = sample_size t * k) by (exists (w * h * components t); replace (ct_bytes (color_of t)) with (components t * sample_size t) by (destruct t; reflexivity); ring).
      destruct CK as (k & CK). rewrite CK in *. apply (scale_buf_total big t (maximal_sample (d_hdr d)) buf k BB L).
  - intros buf (L & BB). cbn [post]. auto.
Qed.
