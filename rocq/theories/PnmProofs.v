(** Proofs about the PNM headers: the decoder reads back every header text of the specification. *)
From Coq Require Import String.
From Verif Require Import Base BaseLemmas ListLemmas ListMore ColorType Text Pnm PnmSpec FarbfeldSpec.
Local Open Scope Z_scope.

(** ** numbers *)
Lemma value_from max t acc : 0 <= acc -> Forall (fun b => is_digit b = true) t ->
  acc <= fold_left (fun a b => 10 * a + (b - 48)) t acc /\
  (fold_left (fun a b => 10 * a + (b - 48)) t acc <= max -> digits_val max t acc = Some (fold_left (fun a b => 10 * a + (b - 48)) t acc)).
Proof.
  revert acc. induction t as [|b t IH]; intros acc Ha H; cbn [fold_left digits_val]; [split; [lia|reflexivity]|].
  inversion H as [|? ? Hb Ht]; subst. unfold is_digit in Hb. destruct (IH (10 * acc + (b - 48)) ltac:(lia) Ht) as (L & E). split; [lia|]. intros M.
  unfold is_digit. rewrite Hb. replace (acc * 10 + (b - 48)) with (10 * acc + (b - 48)) by ring. replace (10 * acc + (b - 48) <=? max) with true by lia. apply E. exact M.
Qed.
Lemma numeral_digits max t v : numeral t v -> v <= max -> digits_val max t 0 = Some v.
Proof. intros (N & D & E) M. unfold value in E. destruct (value_from max t 0 ltac:(lia) D) as (_ & X). rewrite E in X. apply X. exact M. Qed.
Lemma numeral_nonneg t v : numeral t v -> 0 <= v.
Proof. intros (N & D & E). destruct (value_from 0 t 0 ltac:(lia) D) as (X & _). unfold value in E. lia. Qed.
Lemma numeral_parse t v : numeral t v -> v <= u32_max -> parse_u32 t = Some v.
Proof.
  intros N M. pose proof (numeral_digits u32_max t v N M) as E. destruct N as (N & D & _). unfold parse_u32, parse_uint. destruct t as [|b r]; [congruence|].
  inversion D as [|? ? Hb _]; subst. unfold is_digit in Hb. replace (b =? 43) with false by lia. exact E.
Qed.
Lemma numeral_dec v : 0 <= v < 10 ^ 21 -> numeral (dec v) v.
Proof.
  intros H. destruct (dec_spec v H) as (D & N & E). split; [exact N|]. split; [exact D|]. destruct (value_from (10 ^ 30 + v + value (dec v)) (dec v) 0 ltac:(lia) D) as (X & Y).
  unfold value in *. specialize (E (10 ^ 30 + v + fold_left (fun a b => 10 * a + (b - 48)) (dec v) 0)). rewrite E in Y by lia. specialize (Y ltac:(lia)). congruence.
Qed.

(** ** P1-P6 headers *)
Lemma comment_run t nl r acc : Forall (fun b => b <> 10 /\ b <> 13) t -> nl = 10 \/ nl = 13 ->
  read_next_string false acc (t ++ nl :: r) = read_next_string true acc r.
Proof.
  intros H N. induction t as [|b t IH]; cbn [app read_next_string].
  - rewrite andb_false_l. cbn [negb orb]. replace ((nl =? 13) || (nl =? 10)) with true by lia. reflexivity.
  - inversion H as [|? ? (B1 & B2) Ht]; subst. rewrite andb_false_l. cbn [negb orb]. replace ((b =? 13) || (b =? 10)) with false by lia. apply IH. exact Ht.
Qed.
Lemma gap_run g r : gap g -> read_next_string true [] (g ++ r) = read_next_string true [] r.
Proof.
  induction 1 as [|b g B G IH|t nl g Ht Hn G IH]; [reflexivity| |].
  - cbn [app read_next_string]. unfold is_ws in B. replace (b =? 35) with false by lia. cbn [negb andb orb]. unfold is_ws. rewrite B. exact IH.
  - cbn [app read_next_string]. change (35 =? 35) with true. cbn [negb andb orb]. change ((35 =? 13) || (35 =? 10)) with false. rewrite <- app_assoc. cbn [app]. rewrite comment_run by assumption. exact IH.
Qed.
Lemma token_run t s r acc : Forall (fun b => is_digit b = true) t -> acc ++ t <> [] -> is_ws s = true ->
  read_next_string true acc (t ++ s :: r) = Ok (acc ++ t, r).
Proof.
  revert acc. induction t as [|b t IH]; intros acc H N S; cbn [app read_next_string].
  - unfold is_ws in S. replace (s =? 35) with false by lia. cbn [negb andb orb]. unfold is_ws. rewrite S. rewrite app_nil_r in *. destruct acc; [congruence|reflexivity].
  - inversion H as [|? ? Hb Ht]; subst. unfold is_digit in Hb. replace (b =? 35) with false by lia. cbn [negb andb orb]. replace (is_ws b) with false by (unfold is_ws; lia). replace (128 <=? b) with false by lia.
    rewrite IH; [rewrite <- app_assoc; reflexivity|exact Ht| |exact S]. rewrite <- app_assoc. exact N.
Qed.
Lemma number_read g t s v r : gap g -> numeral t v -> v <= u32_max -> is_ws s = true ->
  read_next_u32 (g ++ t ++ s :: r) = Ok (v, r).
Proof.
  intros G N M S. unfold read_next_u32. rewrite gap_run by exact G. rewrite token_run; [|apply N|apply N|exact S]. cbn [bind app]. rewrite (numeral_parse t v N M). reflexivity.
Qed.
Lemma numbers_cons v vs n rest : numbers (v :: vs) n -> exists n', read_next_u32 (n ++ rest) = Ok (v, n' ++ rest) /\ numbers vs n'.
Proof.
  intros H. inversion H as [|? ? g t s r G N M S NS]; subst. exists r. split; [|exact NS]. rewrite <- !app_assoc. cbn [app]. apply number_read; assumption.
Qed.
Lemma numbers_nil n : numbers [] n -> n = [].
Proof. inversion 1. reflexivity. Qed.
Lemma numbers_range vs n : numbers vs n -> Forall (fun v => is_u32 v) vs.
Proof. induction 1 as [|v vs g t s rest G N M S NS IH]; constructor; [|exact IH]. pose proof (numeral_nonneg t v N). unfold is_u32. lia. Qed.

(** ** P7 headers *)
Lemma trim_start_ws s r : Forall (fun b => is_ws b = true) s -> trim_start (s ++ r) = trim_start r.
Proof. induction s as [|b s IH]; intros H; [reflexivity|]. inversion H as [|? ? B Hs]; subst. cbn [app trim_start]. rewrite B. apply IH. exact Hs. Qed.
Lemma trim_start_id r : (forall b q, r = b :: q -> is_ws b = false) -> trim_start r = r.
Proof. destruct r as [|b q]; [reflexivity|]. intros H. cbn [trim_start]. rewrite (H b q eq_refl). reflexivity. Qed.
Lemma trim_core s t e : Forall (fun b => is_ws b = true) (s ++ e) -> t <> [] ->
  (forall b r, t = b :: r -> is_ws b = false) -> (forall b r, t = r ++ [b] -> is_ws b = false) -> trim (s ++ t ++ e) = t.
Proof.
  intros H N F L. apply Forall_app in H as (Hs & He). unfold trim. rewrite trim_start_ws by exact Hs. rewrite (trim_start_id (t ++ e)).
  - rewrite rev_app_distr. rewrite trim_start_ws by (apply Forall_rev; exact He). rewrite trim_start_id; [apply rev_involutive|].
    intros b q E. apply (f_equal (@rev Z)) in E. rewrite rev_involutive in E. cbn [rev] in E. exact (L b _ E).
  - destruct t as [|b t]; [congruence|]. intros c q E. cbn [app] in E. injection E as -> _. exact (F c t eq_refl).
Qed.
Lemma digits_ends t : Forall (fun b => is_digit b = true) t -> (forall b r, t = b :: r -> is_ws b = false) /\ (forall b r, t = r ++ [b] -> is_ws b = false).
Proof.
  intros H. split; intros b r ->; [inversion H as [|? ? B _]; subst|apply Forall_app in H as (_ & H); inversion H as [|? ? B _]; subst]; unfold is_digit in B; unfold is_ws; lia.
Qed.
Lemma utf8_ascii l : Forall (fun b => b < 128) l -> utf8 l = true.
Proof. induction 1 as [|b l B _ IH]; [reflexivity|]. cbn [utf8]. replace (b <? 128) with true by lia. exact IH. Qed.
Lemma find_ws_key k s r : Forall (fun b => is_ws b = false) k -> is_ws s = true -> find_ws (k ++ s :: r) = length k.
Proof. intros H S. induction H as [|b k B _ IH]; cbn [app find_ws length]; [rewrite S; reflexivity|]. rewrite B, IH. reflexivity. Qed.
(** a key line: the key, then blanks, a body, blanks *)
Definition key_ok (k : list Z) : Prop := k <> [] /\ Forall (fun b => is_ws b = false /\ 65 <= b < 128) k.
Lemma pam_key k s t e p : key_ok k -> s <> [] -> Forall (fun b => is_ws b = true /\ b <> 10) (s ++ e) ->
  t <> [] -> Forall (fun b => 0 <= b < 128 /\ b <> 10) t ->
  (forall b r, t = b :: r -> is_ws b = false) -> (forall b r, t = r ++ [b] -> is_ws b = false) ->
  let line := k ++ s ++ t ++ e in
  pam_line line p =
    (let rest := s ++ t ++ e in
     if leqb k (txt "ENDHDR") then Ok None
     else if leqb k (txt "HEIGHT") then v <- parse_line (p_h p) rest ;; Ok (Some (mkPam v (p_w p) (p_d p) (p_m p) (p_t p)))
     else if leqb k (txt "WIDTH") then v <- parse_line (p_w p) rest ;; Ok (Some (mkPam (p_h p) v (p_d p) (p_m p) (p_t p)))
     else if leqb k (txt "DEPTH") then v <- parse_line (p_d p) rest ;; Ok (Some (mkPam (p_h p) (p_w p) v (p_m p) (p_t p)))
     else if leqb k (txt "MAXVAL") then v <- parse_line (p_m p) rest ;; Ok (Some (mkPam (p_h p) (p_w p) (p_d p) v (p_t p)))
     else if leqb k (txt "TUPLTYPE") then
       Ok (Some (mkPam (p_h p) (p_w p) (p_d p) (p_m p) (Some (match p_t p with Some o => o ++ [32] ++ trim rest | None => trim rest end))))
     else Err EDecoding) /\ trim (s ++ t ++ e) = t /\ Forall (fun b => b <> 10) line.
Proof.
  intros (Kn & K) Sn SE Tn T F L. cbv zeta. assert (SE' : Forall (fun b => is_ws b = true) (s ++ e)) by (eapply Forall_impl; [|exact SE]; cbv beta; tauto).
  assert (A : Forall (fun b => b < 128) (k ++ s ++ t ++ e)).
  { apply Forall_app in SE' as (Hs & He). repeat (apply Forall_app; split); [| | |].
    - eapply Forall_impl; [|exact K]; cbv beta; intros; lia.
    - eapply Forall_impl; [|exact Hs]. cbv beta. unfold is_ws. intros; lia.
    - eapply Forall_impl; [|exact T]. cbv beta. intros; lia.
    - eapply Forall_impl; [|exact He]. cbv beta. unfold is_ws. intros; lia. }
  split; [|split].
  - unfold pam_line. rewrite utf8_ascii by exact A. cbn [negb]. destruct k as [|b k]; [congruence|]. cbn [app]. inversion K as [|? ? (B1 & B2) K']; subst.
    replace (b =? 35) with false by lia. rewrite (proj2 (forallb_forall (fun b => b <? 128) (b :: k ++ s ++ t ++ e))) by (intros x Hx; rewrite Forall_forall in A; specialize (A x Hx); lia).
    cbn [negb]. rewrite trim_start_id by (intros c q E; injection E as -> _; exact B1).
    destruct s as [|s0 s]; [congruence|]. assert (FW : find_ws (b :: k ++ (s0 :: s) ++ t ++ e) = length (b :: k)).
    { change (b :: k ++ (s0 :: s) ++ t ++ e) with ((b :: k) ++ s0 :: (s ++ t ++ e)). apply find_ws_key; [|inversion SE as [|? ? (S0 & _) _]; exact S0]. eapply Forall_impl; [|exact K]. cbv beta. tauto. }
    rewrite FW. set (line := b :: k ++ (s0 :: s) ++ t ++ e). assert (EL : line = (b :: k) ++ ((s0 :: s) ++ t ++ e)) by reflexivity.
    assert (NL : Nat.ltb (length line) (length (b :: k)) = false) by (rewrite EL; rewrite app_length; apply Nat.ltb_ge; lia). rewrite NL. rewrite EL.
    rewrite firstn_app_exact by reflexivity. rewrite skipn_app_exact by reflexivity. reflexivity.
  - apply trim_core; assumption.
  - apply Forall_app in SE as (Hs & He). repeat (apply Forall_app; split).
    + eapply Forall_impl; [|exact K]; cbv beta; intros; lia.
    + eapply Forall_impl; [|exact Hs]; cbv beta; tauto.
    + eapply Forall_impl; [|exact T]; cbv beta; tauto.
    + eapply Forall_impl; [|exact He]; cbv beta; tauto.
Qed.
Lemma pam_lines_line l r p cur : Forall (fun b => b <> 10) l ->
  pam_lines cur p (l ++ 10 :: r) =
  (o <- pam_line (cur ++ l) p ;; match o with None => Ok (p, r) | Some p' => pam_lines [] p' r end).
Proof.
  revert cur. induction l as [|b l IH]; intros cur H; cbn [app pam_lines].
  - rewrite app_nil_r. reflexivity.
  - inversion H as [|? ? B Hl]; subst. replace (b =? 10) with false by lia. rewrite IH by exact Hl. rewrite <- app_assoc. reflexivity.
Qed.
Definition upd {A} (o : option A) (l : list A) : option A := match o with Some v => Some v | None => hd_error l end.
Definition fits {A} (o : option A) (l : list A) : Prop := match o with Some _ => l = [] | None => (length l <= 1)%nat end.
Lemma key_lit k : forallb (fun b => negb (is_ws b) && (65 <=? b) && (b <? 128)) k = true -> zlen k <> 0 -> key_ok k.
Proof. intros H N. split; [intros ->; apply N; reflexivity|]. apply Forall_forall. intros b Hb. rewrite forallb_forall in H. specialize (H b Hb). destruct (is_ws b); [discriminate H|]. lia. Qed.
Lemma ne10_lit k : forallb (fun b => negb (b =? 10)) k = true -> Forall (fun b => b <> 10) k.
Proof. intros H. apply Forall_forall. intros b Hb. rewrite forallb_forall in H. specialize (H b Hb). lia. Qed.
Ltac lit_key := apply key_lit; [reflexivity|vm_compute; discriminate].
Lemma field_key k v l : key_ok k -> field_line k v l ->
  exists s t e, l = k ++ s ++ t ++ e /\ s <> [] /\ Forall (fun b => is_ws b = true /\ b <> 10) (s ++ e) /\ numeral t v /\ v <= u32_max /\ t <> [] /\ Forall (fun b => 0 <= b < 128 /\ b <> 10) t /\
  (forall b r, t = b :: r -> is_ws b = false) /\ (forall b r, t = r ++ [b] -> is_ws b = false).
Proof.
  intros K (s & t & e & E & S & F & N & M). destruct N as (N1 & N2 & N3). destruct (digits_ends t N2) as (D1 & D2). exists s, t, e. repeat (split; [first [assumption | split; [|split]; assumption]|]).
  split; [|split; assumption]. eapply Forall_impl; [|exact N2]. cbv beta. unfold is_digit. intros; lia.
Qed.
Lemma pam_field k v l p : key_ok k -> field_line k v l -> exists rest, parse_u32 (trim rest) = Some v /\ Forall (fun b => b <> 10) l /\
  pam_line l p =
    (if leqb k (txt "ENDHDR") then Ok None
     else if leqb k (txt "HEIGHT") then v <- parse_line (p_h p) rest ;; Ok (Some (mkPam v (p_w p) (p_d p) (p_m p) (p_t p)))
     else if leqb k (txt "WIDTH") then v <- parse_line (p_w p) rest ;; Ok (Some (mkPam (p_h p) v (p_d p) (p_m p) (p_t p)))
     else if leqb k (txt "DEPTH") then v <- parse_line (p_d p) rest ;; Ok (Some (mkPam (p_h p) (p_w p) v (p_m p) (p_t p)))
     else if leqb k (txt "MAXVAL") then v <- parse_line (p_m p) rest ;; Ok (Some (mkPam (p_h p) (p_w p) (p_d p) v (p_t p)))
     else if leqb k (txt "TUPLTYPE") then
       Ok (Some (mkPam (p_h p) (p_w p) (p_d p) (p_m p) (Some (match p_t p with Some o => o ++ [32] ++ trim rest | None => trim rest end))))
     else Err EDecoding).
Proof.
  intros K H. destruct (field_key k v l K H) as (s & t & e & -> & S & F & N & M & Tn & T & D1 & D2).
  destruct (pam_key k s t e p K S F Tn T D1 D2) as (E & Tr & NL). exists (s ++ t ++ e). split; [rewrite Tr; apply numeral_parse; assumption|]. split; [exact NL|]. exact E.
Qed.
Lemma parse_line_fresh o rest v vs : parse_u32 (trim rest) = Some v -> fits o (v :: vs) -> o = None /\ vs = [] /\ parse_line o rest = Ok (Some v).
Proof. intros E F. destruct o as [x|]; cbn in F; [discriminate F|]. split; [reflexivity|]. split; [destruct vs; [reflexivity|cbn in F; lia]|]. unfold parse_line. rewrite E. reflexivity. Qed.

Lemma pam_run is n rest p : pam_text is n ->
  fits (p_w p) (widths is) -> fits (p_h p) (heights is) -> fits (p_d p) (depths is) -> fits (p_m p) (maxvals is) -> fits (p_t p) (types is) ->
  exists p', pam_lines [] p (n ++ rest) = Ok (p', rest) /\ p_w p' = upd (p_w p) (widths is) /\ p_h p' = upd (p_h p) (heights is) /\
    p_d p' = upd (p_d p) (depths is) /\ p_m p' = upd (p_m p) (maxvals is) /\ p_t p' = upd (p_t p) (types is).
Proof.
  intros H. revert p. induction H as [|i is l n IL PT IH]; intros p Fw Fh Fd Fm Ft.
  - exists p. rewrite <- app_assoc. change ([10] ++ rest) with (10 :: rest). rewrite pam_lines_line by (apply ne10_lit; reflexivity).
    change ([] ++ txt "ENDHDR") with (txt "ENDHDR"). change (pam_line (txt "ENDHDR") p) with (Ok (None : option pam)). cbn [bind]. split; [reflexivity|].
    unfold upd. destruct (p_w p), (p_h p), (p_d p), (p_m p), (p_t p); repeat split; reflexivity.
  - rewrite <- !app_assoc. change ([10] ++ n ++ rest) with (10 :: (n ++ rest)).
    destruct i as [t|v|v|v|v|t]; cbn [item_line] in IL.
    + destruct IL as (-> & T). rewrite pam_lines_line by (apply Forall_cons; [lia|eapply Forall_impl; [|exact T]; cbv beta; tauto]).
      change ([] ++ 35 :: t) with (35 :: t). unfold pam_line at 1. rewrite utf8_ascii by (apply Forall_cons; [lia|eapply Forall_impl; [|exact T]; cbv beta; intros; lia]).
      change (35 =? 35) with true. cbn [negb bind]. exact (IH p Fw Fh Fd Fm Ft).
    + assert (K : key_ok (txt "WIDTH")) by lit_key. destruct (pam_field _ _ _ p K IL) as (rs & P & NL & E). rewrite pam_lines_line by exact NL. rewrite app_nil_l, E.
      change (leqb (txt "WIDTH") (txt "ENDHDR")) with false. change (leqb (txt "WIDTH") (txt "HEIGHT")) with false. change (leqb (txt "WIDTH") (txt "WIDTH")) with true. cbv iota.
      change (widths (Width v :: is)) with (v :: widths is) in *. destruct (parse_line_fresh _ _ _ _ P Fw) as (O & V & Q). rewrite Q. cbn [bind].
      destruct (IH (mkPam (p_h p) (Some v) (p_d p) (p_m p) (p_t p))) as (p' & R); cbn [p_h p_w p_d p_m p_t] in *; [rewrite V; reflexivity|assumption..|]. exists p'. rewrite O. rewrite V in R. exact R.
    + assert (K : key_ok (txt "HEIGHT")) by lit_key. destruct (pam_field _ _ _ p K IL) as (rs & P & NL & E). rewrite pam_lines_line by exact NL. rewrite app_nil_l, E.
      change (leqb (txt "HEIGHT") (txt "ENDHDR")) with false. change (leqb (txt "HEIGHT") (txt "HEIGHT")) with true. cbv iota.
      change (heights (Height v :: is)) with (v :: heights is) in *. destruct (parse_line_fresh _ _ _ _ P Fh) as (O & V & Q). rewrite Q. cbn [bind].
      destruct (IH (mkPam (Some v) (p_w p) (p_d p) (p_m p) (p_t p))) as (p' & R); cbn [p_h p_w p_d p_m p_t] in *; [assumption|rewrite V; reflexivity|assumption..|]. exists p'. rewrite O. rewrite V in R. exact R.
    + assert (K : key_ok (txt "DEPTH")) by lit_key. destruct (pam_field _ _ _ p K IL) as (rs & P & NL & E). rewrite pam_lines_line by exact NL. rewrite app_nil_l, E.
      change (leqb (txt "DEPTH") (txt "ENDHDR")) with false. change (leqb (txt "DEPTH") (txt "HEIGHT")) with false. change (leqb (txt "DEPTH") (txt "WIDTH")) with false. change (leqb (txt "DEPTH") (txt "DEPTH")) with true. cbv iota.
      change (depths (Depth v :: is)) with (v :: depths is) in *. destruct (parse_line_fresh _ _ _ _ P Fd) as (O & V & Q). rewrite Q. cbn [bind].
      destruct (IH (mkPam (p_h p) (p_w p) (Some v) (p_m p) (p_t p))) as (p' & R); cbn [p_h p_w p_d p_m p_t] in *; [assumption|assumption|rewrite V; reflexivity|assumption..|]. exists p'. rewrite O. rewrite V in R. exact R.
    + assert (K : key_ok (txt "MAXVAL")) by lit_key. destruct (pam_field _ _ _ p K IL) as (rs & P & NL & E). rewrite pam_lines_line by exact NL. rewrite app_nil_l, E.
      change (leqb (txt "MAXVAL") (txt "ENDHDR")) with false. change (leqb (txt "MAXVAL") (txt "HEIGHT")) with false. change (leqb (txt "MAXVAL") (txt "WIDTH")) with false. change (leqb (txt "MAXVAL") (txt "DEPTH")) with false. change (leqb (txt "MAXVAL") (txt "MAXVAL")) with true. cbv iota.
      change (maxvals (Maxval v :: is)) with (v :: maxvals is) in *. destruct (parse_line_fresh _ _ _ _ P Fm) as (O & V & Q). rewrite Q. cbn [bind].
      destruct (IH (mkPam (p_h p) (p_w p) (p_d p) (Some v) (p_t p))) as (p' & R); cbn [p_h p_w p_d p_m p_t] in *; [assumption|assumption|assumption|rewrite V; reflexivity|assumption..|]. exists p'. rewrite O. rewrite V in R. exact R.
    + assert (K : key_ok (txt "TUPLTYPE")) by lit_key. destruct IL as (s & e & -> & S & F & Tn & T & D1 & D2). destruct (pam_key _ s t e p K S F Tn T D1 D2) as (E & Tr & NL). rewrite pam_lines_line by exact NL. rewrite app_nil_l, E. cbv zeta.
      change (leqb (txt "TUPLTYPE") (txt "ENDHDR")) with false. change (leqb (txt "TUPLTYPE") (txt "HEIGHT")) with false. change (leqb (txt "TUPLTYPE") (txt "WIDTH")) with false. change (leqb (txt "TUPLTYPE") (txt "DEPTH")) with false. change (leqb (txt "TUPLTYPE") (txt "MAXVAL")) with false. change (leqb (txt "TUPLTYPE") (txt "TUPLTYPE")) with true. cbv iota. rewrite Tr.
      change (types (Type_ t :: is)) with (t :: types is) in *. assert (OV : p_t p = None /\ types is = []). { destruct (p_t p); cbn in Ft; [discriminate Ft|]. split; [reflexivity|]. destruct (types is); [reflexivity|cbn in Ft; lia]. } destruct OV as (O & V). rewrite O. cbn [bind].
      destruct (IH (mkPam (p_h p) (p_w p) (p_d p) (p_m p) (Some t))) as (p' & R); cbn [p_h p_w p_d p_m p_t] in *; [assumption..|rewrite V; reflexivity|]. exists p'. rewrite V in R. exact R.
Qed.
Lemma tupl_of_name t : (forall s, t = TCustom s -> tupl_of s = TCustom s) -> tupl_of (tupl_name t) = t.
Proof. destruct t; intros H; try reflexivity. cbn [tupl_name]. apply H. reflexivity. Qed.

(** ** all headers *)
Definition std_type (h : hdr) : Prop := match h with HArb _ _ _ _ (Some (TCustom s)) => tupl_of s = TCustom s | _ => True end.
Lemma header_read h t rest : header_text h t -> std_type h ->
  exists m r0, read_exact 2 (t ++ rest) = Ok (m, r0) /\ subtype_of m = Ok (h_subtype h) /\ read_header (h_subtype h) r0 = Ok (h, rest).
Proof.
  intros H ST. destruct h as [e w hh|e w hh m|e w hh m|w hh d m ty]; cbn [header_text] in H.
  - destruct H as (n & -> & N). destruct (numbers_cons _ _ _ rest N) as (n1 & R1 & N1). destruct (numbers_cons _ _ _ rest N1) as (n2 & R2 & N2). apply numbers_nil in N2. subst n2.
    exists (txt (match e with SAsc => "P1" | SBin => "P4" end)), (n ++ rest). split; [rewrite <- app_assoc; apply read_exact_app; destruct e; reflexivity|]. split; [destruct e; reflexivity|].
    cbn [h_subtype read_header]. rewrite R1. cbn [bind]. rewrite R2. reflexivity.
  - destruct H as (n & -> & N). destruct (numbers_cons _ _ _ rest N) as (n1 & R1 & N1). destruct (numbers_cons _ _ _ rest N1) as (n2 & R2 & N2). destruct (numbers_cons _ _ _ rest N2) as (n3 & R3 & N3). apply numbers_nil in N3. subst n3.
    exists (txt (match e with SAsc => "P2" | SBin => "P5" end)), (n ++ rest). split; [rewrite <- app_assoc; apply read_exact_app; destruct e; reflexivity|]. split; [destruct e; reflexivity|].
    cbn [h_subtype read_header]. rewrite R1. cbn [bind]. rewrite R2. cbn [bind]. rewrite R3. reflexivity.
  - destruct H as (n & -> & N). destruct (numbers_cons _ _ _ rest N) as (n1 & R1 & N1). destruct (numbers_cons _ _ _ rest N1) as (n2 & R2 & N2). destruct (numbers_cons _ _ _ rest N2) as (n3 & R3 & N3). apply numbers_nil in N3. subst n3.
    exists (txt (match e with SAsc => "P3" | SBin => "P6" end)), (n ++ rest). split; [rewrite <- app_assoc; apply read_exact_app; destruct e; reflexivity|]. split; [destruct e; reflexivity|].
    cbn [h_subtype read_header]. rewrite R1. cbn [bind]. rewrite R2. cbn [bind]. rewrite R3. reflexivity.
  - destruct H as (is & n & -> & PT & W & H & D & M & T). exists (txt "P7"), (10 :: n ++ rest). split; [rewrite <- !app_assoc; apply read_exact_app; reflexivity|]. split; [reflexivity|].
    cbn [h_subtype read_header]. unfold read_arbitrary_header. cbn [read_u8 bind]. change (10 =? 10) with true. cbn [negb].
    destruct (pam_run is n rest (mkPam None None None None None) PT) as (p' & R & Pw & Ph & Pd & Pm & Pt); cbn [p_h p_w p_d p_m p_t fits]; [rewrite W; cbn; lia|rewrite H; cbn; lia|rewrite D; cbn; lia|rewrite M; cbn; lia|rewrite T; destruct ty as [[]|]; cbn; lia|].
    rewrite R. cbn [bind]. rewrite Pw, Ph, Pd, Pm, Pt. cbn [p_h p_w p_d p_m p_t upd]. rewrite W, H, D, M, T. cbn [hd_error]. f_equal. f_equal. f_equal.
    destruct ty as [[]|]; try reflexivity. cbn [hd_error option_map]. cbn [std_type] in ST. rewrite ST. reflexivity.
Qed.
