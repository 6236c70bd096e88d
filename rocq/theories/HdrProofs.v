From Verif Require Import Base BaseLemmas ListLemmas ListMore GenImage Text Hdr.
Local Open Scope Z_scope.

(** ** the run iterators *)
Definition item_bytes (data : list Z) (it : rnr) : list Z :=
  match it with Run c n => repeat c (Z.to_nat n) | Norun i n => zslice data i n end.

Lemma run_count_spec n cv l : let k := run_count n cv l in
  0 <= k <= Z.of_nat n /\ k <= zlen l /\ firstn (Z.to_nat k) l = repeat cv (Z.to_nat k).
Proof.
  cbn zeta. revert l. induction n as [|n IH]; intros l; cbn [run_count].
  - pose proof (zlen_nonneg l). repeat split; try lia.
  - destruct l as [|v l]; [repeat split; cbn; lia|].
    destruct (Z.eqb_spec v cv) as [->|]; [|pose proof (zlen_nonneg (v :: l)); repeat split; try lia].
    destruct (IH l) as (A & B & C). rewrite zlen_cons. repeat split; try lia.
    replace (Z.to_nat (1 + run_count n cv l)) with (S (Z.to_nat (run_count n cv l))) by lia.
    cbn. f_equal. exact C.
Qed.

Lemma run_next_ok data cur : 0 <= cur < zlen data ->
  exists it cur', run_next data cur = Ok (Some it, cur') /\ cur < cur' <= zlen data /\
    item_bytes data it = zslice data cur (cur' - cur) /\
    ((exists c, it = Run c (cur' - cur) /\ 3 <= cur' - cur <= 127) \/
     (it = Norun cur (cur' - cur) /\ 1 <= cur' - cur <= 2)).
Proof.
  intros H. unfold run_next. replace (cur =? zlen data) with false by lia.
  destruct (zget_some data cur H) as [cv E]. rewrite E.
  destruct (run_count_spec (Z.to_nat RUN_MAX_LEN) cv (skipn (Z.to_nat cur) data)) as (A & B & C).
  set (k := run_count _ _ _) in *. change (Z.of_nat (Z.to_nat RUN_MAX_LEN)) with 127 in A.
  assert (K : 1 <= k).
  { unfold k. change (Z.to_nat RUN_MAX_LEN) with (S 126). generalize 126%nat as m. intros m. rewrite zget_nth in E by lia.
    destruct (skipn (Z.to_nat cur) data) as [|v l] eqn:Es.
    - pose proof (zlen_skipn (Z.to_nat cur) data) as Q. rewrite Es in Q. change (zlen (@nil Z)) with 0 in Q. lia.
    - assert (v = cv). { pose proof (zget_skipn data (Z.to_nat cur) 0) as Q. rewrite Es in Q.
        unfold zget in Q. cbn in Q. specialize (Q ltac:(lia)).
        replace (Z.of_nat (Z.to_nat cur) + 0) with cur in Q by lia. 
        replace (cur <? 0) with false in Q by lia. rewrite E in Q. congruence. }
      subst v. cbn [run_count]. rewrite Z.eqb_refl.
      destruct (run_count_spec m cv l) as (? & _). lia. }
  rewrite zlen_skipn in B.
  exists (if 2 <? k then Run cv k else Norun cur k), (cur + k). split; [reflexivity|]. split; [lia|].
  replace (cur + k - cur) with k by lia. destruct (Z.ltb_spec 2 k).
  - split; [|left; exists cv; split; [reflexivity|lia]].
    cbn [item_bytes]. rewrite <- C. reflexivity.
  - split; [reflexivity|right; split; [reflexivity|lia]].
Qed.
Lemma run_next_end data : run_next data (zlen data) = Ok (None, zlen data).
Proof. unfold run_next. rewrite Z.eqb_refl. reflexivity. Qed.

Definition start (st : Z * option rnr) : Z :=
  match snd st with None => fst st | Some (Run _ n) => fst st - n | Some (Norun i _) => i end.
Definition CInv (data : list Z) (st : Z * option rnr) : Prop :=
  0 <= fst st <= zlen data /\ 0 <= start st /\
  match snd st with
  | None => True
  | Some (Run c n) => 3 <= n <= 127 /\ repeat c (Z.to_nat n) = zslice data (fst st - n) n
  | Some (Norun i n) => i + n = fst st /\ 1 <= n <= 127
  end.
Definition good_item (data : list Z) (it : rnr) : Prop :=
  match it with Run c n => 1 <= n <= 127 | Norun i n => 1 <= n <= 128 /\ 0 <= i /\ i + n <= zlen data end.
Definition CPost (data : list Z) (s : Z) (r : res (option rnr * (Z * option rnr))) : Prop :=
  exists o st', r = Ok (o, st') /\ CInv data st' /\
    match o with
    | None => s = zlen data
    | Some it => s < start st' /\ good_item data it /\ item_bytes data it = zslice data s (start st' - s)
    end.

Lemma combine_step_ok data s st : CInv data st /\ start st = s ->
  let mu st := match snd st with None => 200 | Some (Norun _ n) => 130 - n | Some (Run _ _) => 0 end in
  match combine_step data st with
  | inl st' => (CInv data st' /\ start st' = s) /\ 0 <= mu st' < mu st
  | inr r => CPost data s r
  end.
Proof.
  intros [(I1 & I2 & I3) Hs] mu. destruct st as [cur prev]. unfold start in *. cbn [fst snd] in *.
  unfold combine_step. destruct prev as [[c n|i n]|].
  - exists (Some (Run c n)), (cur, None). split; [reflexivity|]. unfold CInv, start. cbn [fst snd item_bytes good_item].
    destruct I3 as [I3 I4]. repeat split; try lia. rewrite I4. subst s. f_equal. lia.
  - destruct I3 as [I3 I4]. destruct (Z.eq_dec cur (zlen data)) as [->|].
    + rewrite run_next_end. exists (Some (Norun i n)), (zlen data, None). split; [reflexivity|].
      unfold CInv, start; cbn [fst snd item_bytes good_item]. repeat split; try lia. subst s. f_equal. lia.
    + destruct (run_next_ok data cur ltac:(lia)) as (it & cur' & E & Hc & HB & [(c & -> & Hn)|[-> Hn]]); rewrite E.
      * exists (Some (Norun i n)), (cur', Some (Run c (cur' - cur))). split; [reflexivity|].
        unfold CInv, start; cbn [fst snd item_bytes good_item]. cbn in HB. repeat split; try lia.
        -- rewrite HB. f_equal. lia.
        -- f_equal; lia.
      * unfold NORUN_MAX_LEN. destruct (Z.eqb_spec (n + (cur' - cur)) 128) as [E1|E1].
        -- exists (Some (Norun i (n + (cur' - cur)))), (cur', None). split; [reflexivity|].
           unfold CInv, start; cbn [fst snd item_bytes good_item]. repeat split; try lia. f_equal; lia.
        -- destruct (Z.ltb_spec 128 (n + (cur' - cur))).
           ++ exists (Some (Norun i 128)), (cur', Some (Norun (i + 128) (n + (cur' - cur) - 128))).
              split; [reflexivity|]. unfold CInv, start; cbn [fst snd item_bytes good_item]. repeat split; try lia. f_equal; lia.
           ++ unfold CInv, start, mu; cbn [fst snd item_bytes good_item]. repeat split; try lia.
  - destruct (Z.eq_dec cur (zlen data)) as [->|].
    + rewrite run_next_end. exists None, (zlen data, None). split; [reflexivity|].
      unfold CInv, start; cbn [fst snd item_bytes good_item]. repeat split; try lia.
    + destruct (run_next_ok data cur ltac:(lia)) as (it & cur' & E & Hc & HB & [(c & -> & Hn)|[-> Hn]]); rewrite E.
      * exists (Some (Run c (cur' - cur))), (cur', None). split; [reflexivity|].
        unfold CInv, start; cbn [fst snd item_bytes good_item]. cbn in HB. repeat split; try lia. subst s. exact HB.
      * unfold CInv, start, mu; cbn [fst snd item_bytes good_item]. repeat split; try lia.
Qed.

Lemma combine_next_ok data st : CInv data st -> CPost data (start st) (combine_next data st).
Proof.
  intros HI. unfold combine_next.
  destruct (loopk_total (combine_step data) (fun x => CInv data x /\ start x = start st) (CPost data (start st))
    (fun st => match snd st with None => 200 | Some (Norun _ n) => 130 - n | Some (Run _ _) => 0 end)
    (fun s H => combine_step_ok data (start st) s H) 8 st) as (r & E & HP).
  - auto.
  - change (2 ^ Z.of_nat 8) with 256. destruct HI as (_ & _ & H3). destruct (snd st) as [[]|]; lia.
  - rewrite E. exact HP.
Qed.

(** ** decoding one component *)
Definition D (k : comp) (w pos : Z) (buf : list rgbe) (r : reader) :=
  decode_component_loop (S (length r)) k w pos buf r.

Lemma loop_fuel k w : forall f1 f2 pos buf r, (length r < f1)%nat -> (length r < f2)%nat ->
  decode_component_loop f1 k w pos buf r = decode_component_loop f2 k w pos buf r.
Proof.
  induction f1 as [|f1 IH]; intros f2 pos buf r H1 H2; [lia|]. destruct f2 as [|f2]; [lia|].
  cbn [decode_component_loop]. destruct (pos <? w); [|reflexivity].
  destruct r as [|rl r1]; [reflexivity|]. cbn [read_u8 bind]. cbn [length] in *.
  destruct (rl <=? 128).
  - destruct (w <? pos + rl); [reflexivity|]. unfold read_exact. destruct (zlen r1 <? rl); [reflexivity|].
    cbn [bind]. destruct (set_run k buf pos (firstn (Z.to_nat rl) r1)); cbn [bind]; try reflexivity.
    apply IH; rewrite skipn_length; lia.
  - destruct (w <? pos + (rl - 128)); [reflexivity|]. destruct r1 as [|v r2]; [reflexivity|]. cbn [read_u8 bind].
    destruct (set_run _ _ _ _); cbn [bind]; try reflexivity. cbn [length] in *. apply IH; lia.
Qed.

Lemma D_end k w buf r : D k w w buf r = Ok (buf, r).
Proof. unfold D. cbn [decode_component_loop]. rewrite Z.ltb_irrefl, Z.eqb_refl. reflexivity. Qed.

Lemma D_step k w pos buf r : pos < w -> D k w pos buf r =
  ('(rl, r1) <- read_u8 r ;;
   if rl <=? 128 then
     if w <? pos + rl then Err EDecoding
     else '(vs, r2) <- read_exact rl r1 ;; b <- set_run k buf pos vs ;; D k w (pos + rl) b r2
   else
     if w <? pos + (rl - 128) then Err EDecoding
     else '(v, r2) <- read_u8 r1 ;; b <- set_run k buf pos (repeat v (Z.to_nat (rl - 128))) ;;
          D k w (pos + (rl - 128)) b r2).
Proof.
  intros H. unfold D at 1. cbn [decode_component_loop]. replace (pos <? w) with true by lia.
  destruct r as [|rl r1]; [reflexivity|]. cbn [read_u8 bind]. cbn [length] in *.
  destruct (rl <=? 128).
  - destruct (w <? pos + rl); [reflexivity|]. unfold read_exact. destruct (zlen r1 <? rl); [reflexivity|].
    cbn [bind]. destruct (set_run k buf pos (firstn (Z.to_nat rl) r1)); cbn [bind]; try reflexivity.
    apply loop_fuel; rewrite skipn_length; lia.
  - destruct (w <? pos + (rl - 128)); [reflexivity|]. destruct r1 as [|v r2]; [reflexivity|]. cbn [read_u8 bind].
    destruct (set_run _ _ _ _); cbn [bind]; try reflexivity. cbn [length] in *. apply loop_fuel; lia.
Qed.

Lemma D_lit k w pos buf vs r : zlen vs <= 128 -> pos < w -> pos + zlen vs <= w ->
  D k w pos buf ((zlen vs :: vs) ++ r) = (b <- set_run k buf pos vs ;; D k w (pos + zlen vs) b r).
Proof.
  intros H1 H2 H3. rewrite D_step by auto. cbn [app read_u8 bind].
  replace (zlen vs <=? 128) with true by lia. replace (w <? pos + zlen vs) with false by lia.
  rewrite read_exact_app by reflexivity. reflexivity.
Qed.
Lemma D_run k w pos buf v n r : 1 <= n <= 127 -> pos < w -> pos + n <= w ->
  D k w pos buf (128 + n :: v :: r) = (b <- set_run k buf pos (repeat v (Z.to_nat n)) ;; D k w (pos + n) b r).
Proof.
  intros H1 H2 H3. rewrite D_step by auto. cbn [app read_u8 bind].
  replace (128 + n <=? 128) with false by lia. replace (128 + n - 128) with n by lia.
  replace (w <? pos + n) with false by lia. reflexivity.
Qed.

Lemma set_run_app k a b : forall buf pos,
  set_run k buf pos (a ++ b) = (x <- set_run k buf pos a ;; set_run k x (pos + zlen a) b).
Proof.
  induction a as [|v a IH]; intros buf pos; cbn [app set_run].
  - rewrite zlen_nil. cbn [bind]. f_equal. lia.
  - destruct (set_component k buf pos v); cbn [bind]; auto. rewrite IH. rewrite zlen_cons.
    destruct (set_run k a0 (pos + 1) a); cbn [bind]; auto. f_equal. lia.
Qed.
Lemma set_run_len k vs : forall buf pos, 0 <= pos -> pos + zlen vs <= zlen buf ->
  exists b, set_run k buf pos vs = Ok b /\ zlen b = zlen buf.
Proof.
  induction vs as [|v vs IH]; intros buf pos H1 H2; cbn [set_run]; [eauto|].
  rewrite zlen_cons in H2. pose proof (zlen_nonneg vs).
  unfold set_component. destruct (zget_some buf pos ltac:(lia)) as [p ->]. cbn [bind].
  destruct (IH (zset buf pos (setc k p v)) (pos + 1)) as (b & E & L); rewrite ?zlen_zset in *; try lia.
  exists b. auto.
Qed.
Definition zipset (k : comp) (buf : list rgbe) (vs : list Z) : list rgbe :=
  map (fun x => setc k (fst x) (snd x)) (combine buf vs).
Lemma set_run_zip k : forall vs a buf, length vs = length buf ->
  set_run k (a ++ buf) (zlen a) vs = Ok (a ++ zipset k buf vs).
Proof.
  induction vs as [|v vs IH]; intros a buf H; destruct buf as [|p buf]; try discriminate; cbn [set_run].
  - reflexivity.
  - unfold set_component. rewrite zget_app_mid. cbn [bind]. rewrite zset_app.
    cbn in H. replace (a ++ setc k p v :: buf) with ((a ++ [setc k p v]) ++ buf) by (rewrite <- app_assoc; reflexivity).
    replace (zlen a + 1) with (zlen (a ++ [setc k p v])) by (rewrite zlen_app; reflexivity).
    rewrite IH by lia. rewrite <- app_assoc. reflexivity.
Qed.
Lemma set_run_all k buf vs : zlen vs = zlen buf -> set_run k buf 0 vs = Ok (zipset k buf vs).
Proof. intros H. apply (set_run_zip k vs [] buf). unfold zlen in H. lia. Qed.

(** ** rle_compress is inverted by decode_component *)
Lemma rle_loop_ok data : forall fuel st out, CInv data st -> zlen data - start st < Z.of_nat fuel -> start st <= zlen data ->
  exists enc, rle_loop fuel data st out = Ok (out ++ enc) /\
    (bytes data -> bytes enc) /\
    forall k buf r, D k (zlen data) (start st) buf (enc ++ r)
                    = (b <- set_run k buf (start st) (skipn (Z.to_nat (start st)) data) ;; Ok (b, r)).
Proof.
  induction fuel as [|f IH]; intros st out HI Hf Hle; [lia|]. cbn [rle_loop].
  destruct (combine_next_ok data st HI) as (o & st' & E & HI' & HP). rewrite E. cbn [bind].
  destruct o as [it|].
  - destruct HP as (Hlt & Hg & HB).
    assert (Hle' : start st' <= zlen data).
    { destruct HI' as (J1 & J2 & J3). unfold start in *. destruct (snd st') as [[]|]; lia. }
    assert (HS : 0 <= start st) by apply HI.
    destruct (IH st' (out ++ match it with Run c n => [128 + n; c] | Norun i n => n :: zslice data i n end)) as (enc & E2 & E4 & E3); auto; [lia|].
    exists (match it with Run c n => [128 + n; c] | Norun i n => n :: zslice data i n end ++ enc).
    assert (HL : zlen (item_bytes data it) = start st' - start st).
    { rewrite HB. apply zlen_zslice; lia. }
    split; [|split].
    + destruct it as [c n|i n]; cbn [rle_item]; cbn in Hg.
      * replace (n <=? 127) with true by lia. replace (128 + n <=? 255) with true by lia. cbn [bind].
        rewrite E2, <- app_assoc. reflexivity.
      * replace (n <=? 128) with true by lia. replace (i + n <=? zlen data) with true by lia. cbn [bind].
        rewrite E2, <- app_assoc. reflexivity.
    + intros HBy. apply Forall_app. split; [|apply E4; auto].
      destruct it as [c n|i n]; cbn in Hg, HB.
      * constructor; [unfold is_u8, u8_max; lia|]. constructor; [|constructor].
        assert (In c (repeat c (Z.to_nat n))) as H. { destruct (Z.to_nat n) eqn:En; [lia|left; reflexivity]. }
        rewrite HB in H. pose proof (Forall_zslice _ _ (start st) (start st' - start st) HBy) as Q.
        rewrite Forall_forall in Q. apply Q, H.
      * constructor; [unfold is_u8, u8_max; lia|]. apply Forall_zslice, HBy.
    + intros k buf r. rewrite (skipn_split_at data (start st) (start st')) by lia. rewrite <- HB, set_run_app, HL.
      replace (start st + (start st' - start st)) with (start st') by lia.
      assert (Q : forall X, D k (zlen data) (start st) buf
        (match it with Run c n => [128 + n; c] | Norun i n => n :: zslice data i n end ++ X)
        = (b <- set_run k buf (start st) (item_bytes data it) ;; D k (zlen data) (start st') b X)).
      { intros X. destruct it as [c n|i n]; cbn in Hg, HL.
        - rewrite zlen_repeat in HL. cbn [app]. rewrite D_run by lia.
          replace (start st + n) with (start st') by lia. reflexivity.
        - rewrite zlen_zslice in HL by lia. 
          assert (Hn : n = zlen (zslice data i n)) by (rewrite zlen_zslice; lia).
          rewrite Hn at 1. rewrite D_lit by lia. rewrite <- Hn.
          replace (start st + n) with (start st') by lia. reflexivity. }
      rewrite <- app_assoc, Q. destruct (set_run k buf (start st) (item_bytes data it)); cbn [bind]; auto.
  - exists []. split; [rewrite app_nil_r; reflexivity|]. split; [constructor|].
    intros k buf r. cbn [app]. rewrite HP at 1. rewrite D_end.
    rewrite HP, skipn_all2; [reflexivity|]. unfold zlen. lia.
Qed.

Lemma rle_compress_ok data : data <> [] ->
  exists enc, rle_compress data = Ok enc /\ (bytes data -> bytes enc) /\
    forall k buf r, decode_component k (zlen data) buf (enc ++ r) = (b <- set_run k buf 0 data ;; Ok (b, r)).
Proof.
  intros H. unfold rle_compress. destruct data as [|x l] eqn:E; [congruence|]. rewrite <- E in *.
  destruct (rle_loop_ok data (S (length data)) (0, None) []) as (enc & E1 & E2 & E3).
  - pose proof (zlen_nonneg data). unfold CInv, start. cbn. lia.
  - unfold start, zlen. cbn. lia.
  - pose proof (zlen_nonneg data). unfold start; cbn; lia.
  - exists enc. rewrite E1. split; [reflexivity|]. split; [exact E2|]. intros k buf r. apply E3.
Qed.
