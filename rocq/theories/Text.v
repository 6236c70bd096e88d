(** ASCII text helpers of the Rust standard library used by the codecs: format!("{}") of unsigned
    integers, str::parse::<u32>, split_whitespace, trim.  Text is a list of byte values; only ASCII
    whitespace (9-13, 32) is recognised (char::is_whitespace also has non-ASCII members). *)
From Verif Require Import Base BaseLemmas.
Local Open Scope Z_scope.

(** format!("{n}") for an unsigned integer below 10^20 *)
Fixpoint dec_aux (fuel : nat) (n : Z) (acc : list Z) : list Z :=
  let acc' := (48 + n mod 10) :: acc in
  if n <? 10 then acc'
  else match fuel with O => acc' | S f => dec_aux f (n / 10) acc' end.
Definition dec (n : Z) : list Z := dec_aux 20 n [].

Definition is_digit (b : Z) : bool := (48 <=? b) && (b <=? 57).
Definition is_ws (b : Z) : bool := ((9 <=? b) && (b <=? 13)) || (b =? 32).

(** str::parse::<u32>() / from_str_radix(10): optional '+', at least one digit, checked *10 and + *)
Fixpoint digits_val (max : Z) (l : list Z) (acc : Z) : option Z :=
  match l with
  | [] => Some acc
  | b :: r => if is_digit b then
                if acc * 10 + (b - 48) <=? max then digits_val max r (acc * 10 + (b - 48)) else None
              else None
  end.
Definition parse_uint (max : Z) (l : list Z) : option Z :=
  match l with
  | [] => None
  | b :: r => if b =? 43 then (match r with [] => None | _ => digits_val max r 0 end)
              else digits_val max l 0
  end.
Definition parse_u32 := parse_uint u32_max.

(** split_whitespace: maximal runs of non-whitespace *)
Fixpoint split_ws_aux (l cur : list Z) : list (list Z) :=
  match l with
  | [] => match cur with [] => [] | _ => [cur] end
  | b :: r => if is_ws b then (match cur with [] => split_ws_aux r [] | _ => cur :: split_ws_aux r [] end)
              else split_ws_aux r (cur ++ [b])
  end.
Definition split_ws (l : list Z) : list (list Z) := split_ws_aux l [].

(** str::trim *)
Fixpoint trim_start (l : list Z) : list Z :=
  match l with [] => [] | b :: r => if is_ws b then trim_start r else l end.
Definition trim (l : list Z) : list Z := rev (trim_start (rev (trim_start l))).

(** ** lemmas *)
Lemma digits_val_app max a b acc :
  digits_val max (a ++ b) acc = match digits_val max a acc with Some v => digits_val max b v | None => None end.
Proof.
  revert acc. induction a as [|d a IH]; intros acc; cbn; auto.
  destruct (is_digit d); auto. destruct (_ <=? max); auto.
Qed.

Lemma dec_aux_spec fuel n acc : 0 <= n < 10 ^ (Z.of_nat fuel + 1) ->
  exists ds, dec_aux fuel n acc = ds ++ acc /\ Forall (fun b => is_digit b = true) ds /\ ds <> [] /\
    forall max, n <= max -> digits_val max ds 0 = Some n.
Proof.
  revert n acc. induction fuel as [|f IH]; intros n acc H.
  - cbn [dec_aux]. change (10 ^ (Z.of_nat 0 + 1)) with 10 in H.
    rewrite (proj2 (Z.ltb_lt n 10)) by lia. rewrite Z.mod_small by lia.
    exists [48 + n]. split; [reflexivity|]. split; [constructor; [unfold is_digit; lia|constructor]|].
    split; [discriminate|]. intros max Hm. cbn [digits_val]. unfold is_digit.
    replace (_ && _) with true by lia. replace (_ <=? max) with true by lia. f_equal. lia.
  - cbn [dec_aux]. destruct (Z.ltb_spec n 10) as [L|L].
    + rewrite Z.mod_small by lia.
      exists [48 + n]. split; [reflexivity|]. split; [constructor; [unfold is_digit; lia|constructor]|].
      split; [discriminate|]. intros max Hm. cbn [digits_val]. unfold is_digit.
      replace (_ && _) with true by lia. replace (_ <=? max) with true by lia. f_equal. lia.
    + pose proof (Z.mod_pos_bound n 10 ltac:(lia)) as Hr. pose proof (Z.div_mod n 10 ltac:(lia)) as Hd.
      assert (Hp : 10 ^ (Z.of_nat (S f) + 1) = 10 * 10 ^ (Z.of_nat f + 1)).
      { replace (Z.of_nat (S f) + 1) with (1 + (Z.of_nat f + 1)) by lia. rewrite Z.pow_add_r by lia. reflexivity. }
      destruct (IH (n / 10) ((48 + n mod 10) :: acc)) as (ds & E1 & E2 & E3 & E4).
      { split; [apply Z.div_pos; lia|]. apply Z.div_lt_upper_bound; lia. }
      exists (ds ++ [48 + n mod 10]). split; [rewrite E1, <- app_assoc; reflexivity|].
      split; [apply Forall_app; split; [exact E2|constructor; [unfold is_digit; lia|constructor]]|].
      split; [destruct ds; discriminate|].
      intros max Hm. rewrite digits_val_app.
      assert (n / 10 <= max) by lia. rewrite (E4 max) by lia. cbn [digits_val]. unfold is_digit.
      replace (_ && _) with true by lia. replace (_ <=? max) with true by lia. f_equal. lia.
Qed.

Lemma dec_spec n : 0 <= n < 10 ^ 21 ->
  Forall (fun b => is_digit b = true) (dec n) /\ dec n <> [] /\
  forall max, n <= max -> digits_val max (dec n) 0 = Some n.
Proof.
  intros H. destruct (dec_aux_spec 20 n [] H) as (ds & E1 & E2 & E3 & E4). unfold dec.
  rewrite E1, app_nil_r. split; [auto|]. split; [auto|]. exact E4.
Qed.

Lemma parse_dec max n : 0 <= n <= max -> n < 10 ^ 21 -> parse_uint max (dec n) = Some n.
Proof.
  intros H H2. destruct (dec_spec n ltac:(lia)) as (E2 & E3 & E4). unfold parse_uint.
  destruct (dec n) as [|b r] eqn:E; [congruence|].
  inversion E2 as [|? ? B _]; subst. unfold is_digit in B. replace (b =? 43) with false by lia.
  apply E4. lia.
Qed.

Lemma digits_no_ws l : Forall (fun b => is_digit b = true) l -> Forall (fun b => is_ws b = false) l.
Proof. apply Forall_impl. intros a. unfold is_digit, is_ws. lia. Qed.

Lemma split_ws_aux_word w r cur : Forall (fun b => is_ws b = false) w ->
  split_ws_aux (w ++ r) cur = split_ws_aux r (cur ++ w).
Proof.
  revert cur. induction w as [|b w IH]; intros cur H; cbn [app split_ws_aux]; [rewrite app_nil_r; reflexivity|].
  inversion H as [|? ? Hb Hw]; subst. rewrite Hb. rewrite IH by auto. rewrite <- app_assoc. reflexivity.
Qed.
Lemma split_ws_word w b r : Forall (fun b => is_ws b = false) w -> w <> [] -> is_ws b = true ->
  split_ws (w ++ b :: r) = w :: split_ws r.
Proof.
  intros H N B. unfold split_ws. rewrite split_ws_aux_word by auto. cbn [app split_ws_aux]. rewrite B.
  destruct w; [congruence|reflexivity].
Qed.
Lemma split_ws_last w : Forall (fun b => is_ws b = false) w -> w <> [] -> split_ws w = [w].
Proof.
  intros H N. unfold split_ws. rewrite <- (app_nil_r w) at 1. rewrite split_ws_aux_word by auto.
  cbn. destruct w; [congruence|reflexivity].
Qed.
Lemma dec_no_ws n : 0 <= n < 10 ^ 21 -> Forall (fun b => is_ws b = false) (dec n) /\ dec n <> [].
Proof. intros H. destruct (dec_spec n H) as (A & B & _). split; auto. apply digits_no_ws; auto. Qed.
Lemma dec_bytes n : 0 <= n < 10 ^ 21 -> Forall (fun b => 48 <= b <= 57) (dec n).
Proof. intros H. destruct (dec_spec n H) as (A & _). eapply Forall_impl; [|exact A]. intros a. unfold is_digit. lia. Qed.
