From Verif Require Import Base BaseLemmas ListLemmas ListMore BitsProofs Buffer BufferProofs Color Par.
Local Open Scope Z_scope.

Section P.
Context {S : Type}.
Variable c : Z.
Hypothesis Hc : 1 <= c <= 255.

Lemma map_res_map {A B} (f : A -> B) (l : list A) : map_res (fun a => Ok (f a)) l = Ok (map f l).
Proof using. induction l as [|a l IH]; [reflexivity|]. cbn [map_res bind]. rewrite IH. reflexivity. Qed.
Lemma map_res_ext {A B} (f g : A -> res B) (l : list A) : (forall a, In a l -> f a = g a) -> map_res f l = map_res g l.
Proof using.
  induction l as [|a l IH]; intros H; [reflexivity|]. cbn [map_res]. rewrite (H a) by (left; reflexivity). rewrite IH; [reflexivity|]. intros x Hx. apply H. right. exact Hx.
Qed.

(** a part: aligned on pixels *)
Definition part_ok (n : Z) (q : prod) : Prop := pd_lo q = pd_base q * c /\ 0 <= pd_base q /\ exists k, 0 <= k /\ pd_hi q = (pd_base q + k) * c /\ pd_base q + k <= n.
Lemma part_len n q k : part_ok n q -> pd_hi q = (pd_base q + k) * c -> par_len c q = k.
Proof using Hc. intros (E & _) H. unfold par_len. rewrite E, H. replace ((pd_base q + k) * c - pd_base q * c) with (k * c) by lia. apply Z.div_mul. lia. Qed.
Lemma divide_ok n pl : forall q ps, part_ok n q -> divide c pl q = Ok ps -> Forall (part_ok n) ps /\ concat (map (part_items c) ps) = part_items c q.
Proof using Hc.
  induction pl as [|i l IHl r IHr]; intros q ps Q D; cbn [divide] in D.
  - apply Ok_inj in D. subst ps. split; [constructor; [exact Q|constructor]|]. cbn [map concat]. apply app_nil_r.
  - apply bind_ok in D as ((a & b) & Sp & D). apply bind_ok in D as (x & Dx & D). apply bind_ok in D as (y & Dy & D). apply Ok_inj in D. subst ps.
    unfold split_at in Sp. destruct Q as (E & B0 & k & K0 & Hk & Kn).
    assert (Q : part_ok n q) by (split; [exact E|]; split; [exact B0|]; exists k; auto).
    pose proof (part_len n q k Q Hk) as Len. rewrite Len in Sp.
    destruct ((0 <=? i) && (i <=? k)) eqn:EB; [|discriminate]. apply andb_true_iff in EB as (I0 & I1). apply Z.leb_le in I0, I1.
    apply Ok_inj in Sp. assert (Ea := f_equal fst Sp). assert (Eb := f_equal snd Sp). cbn [fst snd] in Ea, Eb. clear Sp.
    assert (Qa : part_ok n a) by (subst a; cbn; split; [exact E|]; split; [exact B0|]; exists i; cbn; split; [lia|]; split; [rewrite E; lia|lia]).
    assert (Qb : part_ok n b) by (subst b; cbn; split; [cbn; rewrite E; lia|]; split; [cbn; lia|]; exists (k - i); cbn; split; [lia|]; split; [rewrite Hk; lia|lia]).
    destruct (IHl a x Qa Dx) as (Fx & Cx). destruct (IHr b y Qb Dy) as (Fy & Cy). split; [apply Forall_app; auto|].
    rewrite map_app, concat_app, Cx, Cy. unfold part_items.
    rewrite (part_len n a i Qa) by (subst a; cbn; rewrite E; lia). rewrite (part_len n b (k - i) Qb) by (subst b; cbn; rewrite Hk; lia). rewrite Len.
    replace (zrange 0 k) with (zrange 0 i ++ zrange (0 + i) (k - i)) by (rewrite <- zrange_app by lia; f_equal; lia).
    rewrite map_app. subst a b. cbn [pd_lo pd_base]. f_equal.
    replace (zrange (0 + i) (k - i)) with (map (fun z => i + z) (zrange 0 (k - i))).
    + rewrite map_map. apply map_ext. intros z. f_equal; lia.
    + apply zget_ext; [rewrite zlen_map, !zlen_zrange; lia|]. intros j Hj. rewrite zlen_map, zlen_zrange in Hj. rewrite zget_map, !zget_zrange by lia. reflexivity.
Qed.

Lemma par_pixels_ok (b : ibuf S) : valid c b -> par_pixels c b = Ok (mkProd 0 (bw b * bh b * c) 0).
Proof using Hc.
  intros (V1 & V2 & V3 & V4). unfold par_pixels. rewrite (image_buffer_len_spec c Hc) by assumption.
  destruct (Z.leb_spec (bw b * bh b * c) u64_max); [|lia]. destruct (Z.leb_spec (bw b * bh b * c) (zlen (data b))); [|lia].
  destruct (Z.eqb_spec c 0); [lia|]. rewrite Z.mod_mul by lia. do 2 f_equal. lia.
Qed.
Lemma start_ok (b : ibuf S) : valid c b -> part_ok (bw b * bh b) (mkProd 0 (bw b * bh b * c) 0) /\ part_items c (mkProd 0 (bw b * bh b * c) 0) = map (fun k => (k, k * c)) (zrange 0 (bw b * bh b)).
Proof using Hc.
  intros (V1 & V2 & _). unfold is_u32 in *. assert (Q : part_ok (bw b * bh b) (mkProd 0 (bw b * bh b * c) 0)) by (split; [reflexivity|]; split; [cbn; lia|]; exists (bw b * bh b); cbn; split; [nia|]; split; lia).
  split; [exact Q|]. unfold part_items. rewrite (part_len _ _ (bw b * bh b) Q) by (cbn; lia). apply map_ext. intros k. cbn. f_equal.
Qed.
(** every item of every part is a pixel of the image *)
Lemma items_in (b : ibuf S) ps q it : valid c b -> Forall (part_ok (bw b * bh b)) ps -> In q ps -> In it (part_items c q) -> 0 <= fst it < bw b * bh b /\ snd it = fst it * c.
Proof using Hc.
  intros V F Q I. rewrite Forall_forall in F. pose proof (F q Q) as (E & B0 & k & K0 & Hk & Kn). unfold part_items in I.
  rewrite (part_len _ q k (F q Q) Hk) in I. apply in_map_iff in I as (j & <- & J). apply In_zrange in J. cbn [fst snd]. rewrite E. lia.
Qed.
Lemma par_coord_ok (b : ibuf S) i : valid c b -> 0 <= i < bw b * bh b -> par_coord (bw b) i = Ok (i mod bw b, i / bw b) /\ 0 <= i mod bw b < bw b /\ 0 <= i / bw b < bh b.
Proof using Hc.
  intros (V1 & V2 & _) Hi. unfold is_u32 in *. unfold par_coord. destruct (Z.eqb_spec (bw b) 0) as [E|E]; [rewrite E in Hi; lia|].
  pose proof (Z.mod_pos_bound i (bw b) ltac:(lia)). assert (0 <= i / bw b) by (apply Z.div_pos; lia). assert (i / bw b < bh b) by (apply Z.div_lt_upper_bound; lia).
  unfold wrap_u32. unfold u32_max in *. rewrite (Z.mod_small (i mod bw b)) by lia. rewrite (Z.mod_small (i / bw b)) by lia. split; [reflexivity|]. split; [assumption|]. split; assumption.
Qed.

(** the tasks of the whole image, in row-major order *)
Section T.
Context {L : Type}.
Variables (l0 : L) (body : Z -> Z -> list (L * list S -> L * list S)).
Definition task_of (b : ibuf S) (i : Z) : task S L := mkTask (i * c) l0 (body (i mod bw b) (i / bw b)).
Lemma par_tasks_ok pl b ts : valid c b -> par_tasks c pl b l0 body = Ok ts -> concat ts = map (task_of b) (zrange 0 (bw b * bh b)).
Proof using Hc.
  intros V H. unfold par_tasks in H. rewrite par_pixels_ok in H by exact V. cbn [bind] in H. apply bind_ok in H as (ps & D & H).
  destruct (start_ok b V) as (Q & I). destruct (divide_ok _ _ _ _ Q D) as (F & C).
  rewrite (map_res_ext _ (fun q => Ok (map (fun it => task_of b (fst it)) (part_items c q)))) in H.
  - rewrite map_res_map in H. apply Ok_inj in H. subst ts. rewrite <- (map_map (part_items c) (map (fun it => task_of b (fst it)))). rewrite <- concat_map.
    rewrite C, I, map_map. reflexivity.
  - intros q Hq. rewrite <- map_res_map. apply map_res_ext. intros it Hit. destruct (items_in b ps q it V F Hq Hit) as (R & E).
    destruct (par_coord_ok b (fst it) V R) as (-> & _). cbn [bind fst snd]. rewrite E. reflexivity.
Qed.
End T.

Section R.
Context {L : Type}.
(** what is still to be done, as one list *)
Notation mem := (list S).
Definition after (ops : list (L * list S -> L * list S)) (l : L) (p : list S) : list S := snd (fold_left (fun s o => o s) ops (l, p)).
Definition keeps (o : L * list S -> L * list S) : Prop := forall s, zlen (snd s) = c -> zlen (snd (o s)) = c.
Record Inv (n : Z) (m0 : mem) (target : Z -> list S) (flat : list (task S L)) (m : mem) : Prop := mkInv {
  i_nodup : NoDup (map (@t_off S L) flat);
  i_pos : Forall (fun t => exists i, 0 <= i < n /\ t_off t = i * c) flat;
  i_keeps : Forall (fun t => Forall keeps (t_ops t)) flat;
  i_len : zlen m = zlen m0;
  i_fit : n * c <= zlen m;
  i_past : forall j, n * c <= j -> zget m j = zget m0 j;
  i_todo : Forall (fun t => after (t_ops t) (t_local t) (zslice m (t_off t) c) = target (t_off t)) flat;
  i_done : forall i, 0 <= i < n -> ~ In (i * c) (map (@t_off S L) flat) -> zslice m (i * c) c = target (i * c) }.

Lemma concat_mid {A} (a : list (list A)) (t : A) rest z : concat (a ++ (t :: rest) :: z) = concat a ++ t :: (rest ++ concat z).
Proof using. rewrite concat_app. cbn [concat]. reflexivity. Qed.

Lemma apart i j : i <> j -> i * c + c <= j * c \/ j * c + c <= i * c.
Proof using Hc. intros. destruct (Z.lt_ge_cases i j); [left|right]; nia. Qed.

Lemma step_inv n m0 target s t : Inv n m0 target (concat (fst s)) (snd s) -> step c s t -> Inv n m0 target (concat (fst t)) (snd t).
Proof using Hc.
  intros I St. destruct St as [a off l o ops rest z m l' p' E|a off l rest z m]; cbn [fst snd] in *; rewrite ?concat_mid in *.
  - destruct I as [N P K Ln Fi Pa To Do]. set (A := concat a) in *. set (B := rest ++ concat z) in *.
    rewrite map_app in *. cbn [map t_off] in *.
    apply Forall_app in P as (PA & P). inversion P as [|? ? (i & Ri & Ei) PB]; subst. cbn [t_off] in Ei.
    apply Forall_app in K as (KA & K). inversion K as [|? ? Ko KB]; subst. cbn [t_ops] in Ko. inversion Ko as [|? ? Ko1 Ko2]; subst.
    apply Forall_app in To as (TA & T). inversion T as [|? ? Tt TB]; subst. cbn [t_ops t_local t_off] in Tt.
    assert (Bnd : 0 <= i * c /\ i * c + c <= zlen m) by (split; nia).
    assert (Lp : zlen p' = c). { replace p' with (snd (o (l, zslice m (i * c) c))) by (rewrite E; reflexivity). apply Ko1. cbn [snd]. apply zlen_zslice; lia. }
    assert (Same : zslice (zsplice m (i * c) p') (i * c) c = p') by (pose proof (zslice_zsplice_same m (i * c) p') as ZZ; rewrite Lp in ZZ; apply ZZ; lia).
    assert (Other : forall j, 0 <= j -> j <> i -> zslice (zsplice m (i * c) p') (j * c) c = zslice m (j * c) c).
    { intros j J0 J. apply zslice_zsplice_other; [lia|lia|nia|]. rewrite Lp. apply apart. exact J. }
    assert (NI : ~ In (i * c) (map (@t_off S L) A ++ map (@t_off S L) B)) by (apply NoDup_remove_2; exact N).
    assert (Oth : forall u, In u (A ++ B) -> after (t_ops u) (t_local u) (zslice m (t_off u) c) = target (t_off u) -> after (t_ops u) (t_local u) (zslice (zsplice m (i * c) p') (t_off u) c) = target (t_off u)).
    { intros u U H. assert (PU : exists j, 0 <= j < n /\ t_off u = j * c) by (assert (PAB : Forall (fun t => exists j, 0 <= j < n /\ t_off t = j * c) (A ++ B)) by (apply Forall_app; auto); rewrite Forall_forall in PAB; auto).
      destruct PU as (j & Rj & Ej). rewrite Ej in *. rewrite Other; [exact H|lia|]. intros ->. apply NI. rewrite <- map_app. rewrite <- Ej. apply in_map. exact U. }
    constructor.
    + rewrite map_app. cbn [map t_off]. exact N.
    + apply Forall_app; split; [exact PA|]. constructor; [exists i; auto|exact PB].
    + apply Forall_app; split; [exact KA|]. constructor; [exact Ko2|exact KB].
    + rewrite zlen_zsplice by lia. exact Ln.
    + rewrite zlen_zsplice by lia. exact Fi.
    + intros j Hj. rewrite zget_zsplice_out; [apply Pa; exact Hj|lia|lia|]. right. rewrite Lp. nia.
    + apply Forall_app; split; [|constructor].
      * rewrite Forall_forall in *. intros u U. apply Oth; [apply in_or_app; left; exact U|apply TA; exact U].
      * cbn [t_ops t_local t_off]. rewrite Same. rewrite <- Tt. unfold after. cbn [fold_left]. rewrite E. reflexivity.
      * rewrite Forall_forall in *. intros u U. apply Oth; [apply in_or_app; right; exact U|apply TB; exact U].
    + intros j Rj Hj. rewrite map_app in Hj. cbn [map t_off] in Hj. assert (j <> i) by (intros ->; apply Hj, in_or_app; right; left; reflexivity).
      rewrite Other by lia. apply Do; assumption.
  - destruct I as [N P K Ln Fi Pa To Do]. set (A := concat a) in *. rewrite concat_app. cbn [concat]. fold A. set (B := rest ++ concat z) in *.
    rewrite map_app in *. cbn [map t_off] in *.
    apply Forall_app in P as (PA & P). inversion P as [|? ? (i & Ri & Ei) PB]; subst. cbn [t_off] in Ei.
    apply Forall_app in K as (KA & K). inversion K as [|? ? Ko KB]; subst.
    apply Forall_app in To as (TA & T). inversion T as [|? ? Tt TB]; subst. cbn [t_ops t_local t_off] in Tt. unfold after in Tt. cbn [fold_left snd] in Tt.
    constructor; try assumption.
    + rewrite map_app. apply NoDup_remove_1 in N. exact N.
    + apply Forall_app; split; assumption.
    + apply Forall_app; split; assumption.
    + apply Forall_app; split; assumption.
    + intros j Rj Hj. destruct (Z.eq_dec j i) as [->|J]; [exact Tt|]. apply Do; [exact Rj|]. rewrite in_app_iff in *. rewrite map_app, in_app_iff in Hj. cbn [In]. intros [H|[H|H]]; [auto| |auto].
      apply J. nia.
Qed.

(** steps left *)
Definition work (ts : list (list (task S L))) : nat := list_sum (map (fun t => Datatypes.S (length (t_ops t))) (concat ts)).
Lemma step_work s t : step c s t -> work (fst s) = Datatypes.S (work (fst t)).
Proof using.
  intros [a off l o ops rest z m l' p' E|a off l rest z m]; unfold work; cbn [fst]; rewrite ?concat_mid, ?concat_app; cbn [concat]; rewrite ?map_app, ?list_sum_app; cbn [map list_sum fold_right t_ops length]; rewrite ?map_app, ?list_sum_app; unfold list_sum; cbn [map fold_right t_ops length]; rewrite ?map_app; fold (list_sum) ; lia.
Qed.
Lemma steps_inv n m0 target k s t : steps c k s t -> Inv n m0 target (concat (fst s)) (snd s) -> Inv n m0 target (concat (fst t)) (snd t) /\ work (fst s) = (k + work (fst t))%nat.
Proof using Hc.
  induction 1 as [s|k s t u St Ss IH]; intros I; [auto|]. destruct (IH (step_inv _ _ _ _ _ I St)) as (I' & W). split; [exact I'|]. rewrite (step_work _ _ St), W. reflexivity.
Qed.
Lemma finished_work (ts : list (list (task S L))) : finished ts <-> work ts = 0%nat.
Proof using.
  unfold finished, work. split.
  - intros H. induction H as [|t ts -> _ IH]; [reflexivity|exact IH].
  - induction ts as [|t ts IH]; intros H; [constructor|]. cbn [concat] in H. rewrite map_app, list_sum_app in H. destruct t as [|t r]; [|cbn in H; lia].
    constructor; [reflexivity|]. apply IH. exact H.
Qed.
Lemma can_step (ts : list (list (task S L))) (m : mem) : finished ts \/ exists t, step c (ts, m) t.
Proof using.
  induction ts as [|t ts IH]; [left; constructor|]. destruct t as [|t r].
  - destruct IH as [F|((ts' & m') & St)]; [left; constructor; [reflexivity|exact F]|]. right. exists ([] :: ts', m').
    inversion St as [a off l o ops rest z m1 l' p' E|a off l rest z m1]; subst.
    + exact (step_op c ([] :: a) off l o ops rest z m l' p' E).
    + exact (step_end c ([] :: a) off l rest z m').
  - right. destruct t as [off l ops]. destruct ops as [|o ops].
    + eexists. exact (step_end c [] off l r ts m).
    + destruct (o (l, zslice m off c)) as (l', p') eqn:E. eexists. exact (step_op c [] off l o ops r ts m l' p' E).
Qed.
Lemma finish (ts : list (list (task S L))) : forall m : mem, exists k t, steps c k (ts, m) t /\ finished (fst t).
Proof using.
  remember (work ts) as w eqn:E. revert ts E. induction w as [|w IH]; intros ts E m.
  - exists 0%nat, (ts, m). split; [constructor|]. apply finished_work. auto.
  - destruct (can_step ts m) as [F|((ts' & m') & St)]; [apply finished_work in F; congruence|].
    pose proof (step_work _ _ St) as W. cbn [fst] in W. rewrite <- E in W. destruct (IH ts' ltac:(congruence) m') as (k & t & Ss & F).
    exists (Datatypes.S k), t. split; [econstructor; eassumption|exact F].
Qed.
End R.
End P.
