(** C67: the rayon iterators over an ImageBuffer.  [plan] is a way to divide the work, [steps] any interleaving of the threads. *)
From Coq Require FinFun.
From Verif Require Import Base BaseLemmas ListLemmas ListMore BitsProofs Buffer BufferProofs Color Par ParProofs.
Local Open Scope Z_scope.

(** a plan that divides only where there is something to divide: rayon's side of the contract *)
Fixpoint fits (n : Z) (pl : plan) : Prop :=
  match pl with Whole => True | Halves i l r => 0 <= i <= n /\ fits i l /\ fits (n - i) r end.
(** the pixel after a sequence of operations on it and on local variables *)
Definition outcome {S L} (ops : list (L * list S -> L * list S)) (l : L) (p : list S) : list S := snd (fold_left (fun s o => o s) ops (l, p)).
(** operations keep a pixel a pixel: in Rust, its type *)
Definition on_pixels {S L} (c : Z) (o : L * list S -> L * list S) : Prop := forall s, zlen (snd s) = c -> zlen (snd (o s)) = c.

Lemma divide_fits c pl : 1 <= c <= 255 -> forall n q k, part_ok c n q -> pd_hi q = (pd_base q + k) * c -> fits k pl -> exists ps, divide c pl q = Ok ps.
Proof.
  intros Hc. induction pl as [|i l IHl r IHr]; intros n q k Q Hk F; [exists [q]; reflexivity|].
  cbn [fits] in F. destruct F as (Fi & Fl & Fr). cbn [divide]. unfold split_at. rewrite (part_len c Hc n q k Q Hk).
  replace ((0 <=? i) && (i <=? k)) with true by (symmetry; apply andb_true_iff; split; apply Z.leb_le; lia). cbn [bind].
  destruct Q as (E & B0 & k' & K0 & Hk' & Kn). assert (k' = k) by nia. subst k'.
  destruct (IHl n (mkProd (pd_lo q) (pd_lo q + i * c) (pd_base q)) i) as (x & ->); [split; [exact E|]; split; [exact B0|]; exists i; cbn; split; [lia|]; split; [rewrite E; lia|lia]|cbn; rewrite E; lia|exact Fl|].
  cbn [bind].
  destruct (IHr n (mkProd (pd_lo q + i * c) (pd_hi q) (pd_base q + i)) (k - i)) as (y & ->); [split; [cbn; rewrite E; lia|]; split; [cbn; lia|]; exists (k - i); cbn; split; [lia|]; split; [rewrite Hk; lia|lia]|cbn; rewrite Hk; lia|exact Fr|].
  cbn [bind]. eauto.
Qed.

(** However the work is divided, the parts together yield every pixel once, in row-major order ... *)
Theorem C67_par_pixels : forall S c, 1 <= c <= 255 -> forall (b : ibuf S) pl, valid c b ->
  (forall its, par_pixels_items c pl b = Ok its -> concat its = map (fun xy => pixel_samples c b (fst xy) (snd xy)) (coords (bw b) (bh b))) /\
  (fits (bw b * bh b) pl -> exists its, par_pixels_items c pl b = Ok its) /\
  (exists p, par_pixels c b = Ok p /\ par_len c p = bw b * bh b).
Proof.
  intros S c Hc b pl V. unfold par_pixels_items. rewrite (par_pixels_ok c Hc b V). cbn [bind]. destruct (start_ok c Hc b V) as (Q & I).
  assert (Len : par_len c (mkProd 0 (bw b * bh b * c) 0) = bw b * bh b) by (apply (part_len c Hc _ _ _ Q); reflexivity).
  split; [|split].
  - intros its H. apply bind_ok in H as (ps & D & H). apply Ok_inj in H. subst its. destruct (divide_ok c Hc _ _ _ _ Q D) as (F & C).
    rewrite <- (map_map (part_items c) (map (fun it => zslice (data b) (snd it) c))), <- concat_map, C, I, map_map. cbn [snd].
    change (map (fun xy => pixel_samples c b (fst xy) (snd xy)) (coords (bw b) (bh b))) with (all_pixels c b). rewrite (all_pixels_eq c b V). reflexivity.
  - intros F. destruct (divide_fits c pl Hc _ _ (bw b * bh b) Q) as (ps & ->); [reflexivity|exact F|]. cbn [bind]. eauto.
  - eexists. split; [reflexivity|exact Len].
Qed.
(** ... and with its coordinates *)
Theorem C67_par_enumerate_pixels : forall S c, 1 <= c <= 255 -> forall (b : ibuf S) pl, valid c b ->
  (forall its, par_enumerate_items c pl b = Ok its -> concat its = map (fun xy => (xy, pixel_samples c b (fst xy) (snd xy))) (coords (bw b) (bh b))) /\
  (fits (bw b * bh b) pl -> exists its, par_enumerate_items c pl b = Ok its).
Proof.
  intros S c Hc b pl V. unfold par_enumerate_items. rewrite (par_pixels_ok c Hc b V). cbn [bind]. destruct (start_ok c Hc b V) as (Q & I).
  set (g i := ((i mod bw b, i / bw b), zslice (data b) (i * c) c)).
  assert (MR : forall ps, divide c pl (mkProd 0 (bw b * bh b * c) 0) = Ok ps ->
    map_res (fun q => map_res (fun it => xy <- par_coord (bw b) (fst it) ;; Ok (xy, zslice (data b) (snd it) c)) (part_items c q)) ps = Ok (map (fun q => map (fun it => g (fst it)) (part_items c q)) ps)).
  { intros ps D. destruct (divide_ok c Hc _ _ _ _ Q D) as (F & _). rewrite <- map_res_map. apply map_res_ext. intros q Hq. rewrite <- map_res_map. apply map_res_ext. intros it Hit.
    destruct (items_in c Hc b ps q it V F Hq Hit) as (R & E). destruct (par_coord_ok c Hc b (fst it) V R) as (-> & _). cbn [bind]. rewrite E. reflexivity. }
  split.
  - intros its H. apply bind_ok in H as (ps & D & H). rewrite (MR ps D) in H. apply Ok_inj in H. subst its. destruct (divide_ok c Hc _ _ _ _ Q D) as (_ & C).
    rewrite <- (map_map (part_items c) (map (fun it => g (fst it)))), <- concat_map, C, I, map_map. cbn [fst].
    destruct V as (V1 & V2 & _). unfold is_u32 in *. rewrite <- (coords_idx (bw b) (bh b)) by lia. rewrite map_map. apply map_ext_in. intros (x & y) Hxy. apply In_coords in Hxy. cbn [fst snd].
    unfold g, pixel_samples. cbn [fst snd].
    replace ((y * bw b + x) mod bw b) with x by (apply (Z.mod_unique _ (bw b) y x); [left; lia|lia]). replace ((y * bw b + x) / bw b) with y by (apply (Z.div_unique _ (bw b) y x); [left; lia|lia]). reflexivity.
  - intros F. destruct (divide_fits c pl Hc _ _ (bw b * bh b) Q) as (ps & D); [reflexivity|exact F|]. rewrite D. cbn [bind]. rewrite (MR ps D). eauto.
Qed.

(** the tasks of par_enumerate_pixels_mut exist for every fitting plan, and no two of them share a sample *)
Theorem C67_no_race : forall S L c, 1 <= c <= 255 -> forall (b : ibuf S) pl (l0 : L) body, valid c b ->
  (fits (bw b * bh b) pl -> exists ts, par_tasks c pl b l0 body = Ok ts) /\
  (forall ts, par_tasks c pl b l0 body = Ok ts -> zlen (concat ts) = bw b * bh b /\
    forall i j t u, i <> j -> zget (concat ts) i = Some t -> zget (concat ts) j = Some u ->
      0 <= t_off t /\ t_off t + c <= bw b * bh b * c /\ (t_off t + c <= t_off u \/ t_off u + c <= t_off t)).
Proof.
  intros S L c Hc b pl l0 body V. split.
  - intros F. unfold par_tasks. rewrite (par_pixels_ok c Hc b V). cbn [bind]. destruct (start_ok c Hc b V) as (Q & I).
    destruct (divide_fits c pl Hc _ _ (bw b * bh b) Q) as (ps & D); [reflexivity|exact F|]. rewrite D. cbn [bind]. destruct (divide_ok c Hc _ _ _ _ Q D) as (FF & _).
    rewrite (map_res_ext _ (fun q => Ok (map (fun it => task_of c l0 body b (fst it)) (part_items c q)))); [rewrite map_res_map; eauto|].
    intros q Hq. rewrite <- map_res_map. apply map_res_ext. intros it Hit. destruct (items_in c Hc b ps q it V FF Hq Hit) as (R & E).
    destruct (par_coord_ok c Hc b (fst it) V R) as (-> & _). cbn [bind fst snd]. rewrite E. reflexivity.
  - intros ts H. rewrite (par_tasks_ok c Hc l0 body pl b ts V H). assert (N0 : 0 <= bw b * bh b) by (destruct V as (V1 & V2 & _); unfold is_u32 in *; nia).
    split; [rewrite zlen_map, zlen_zrange; lia|]. intros i j t u D Ht Hu. rewrite zget_map in Ht, Hu.
    assert (Ri : 0 <= i < bw b * bh b) by (destruct (Z_lt_dec i 0); [rewrite zget_neg in Ht by lia; discriminate|]; destruct (Z_lt_dec i (bw b * bh b)); [lia|rewrite zget_none in Ht by (rewrite zlen_zrange; lia); discriminate]).
    assert (Rj : 0 <= j < bw b * bh b) by (destruct (Z_lt_dec j 0); [rewrite zget_neg in Hu by lia; discriminate|]; destruct (Z_lt_dec j (bw b * bh b)); [lia|rewrite zget_none in Hu by (rewrite zlen_zrange; lia); discriminate]).
    rewrite zget_zrange in Ht, Hu by assumption. cbn [option_map] in Ht, Hu. apply Some_inj in Ht, Hu. subst t u. cbn [t_off task_of]. replace (0 + i) with i by lia. replace (0 + j) with j by lia.
    split; [nia|]. split; [nia|]. apply (apart c Hc). exact D.
Qed.

(** Every schedule: for_each over par_enumerate_pixels_mut never gets stuck, takes the same number N of steps in every order, and leaves in each
    pixel what the body alone makes of it; samples behind the image are untouched. *)
Theorem C67_schedules : forall S L c, 1 <= c <= 255 -> forall (b : ibuf S) pl (l0 : L) body ts, valid c b ->
  (forall x y, Forall (on_pixels c) (body x y)) -> par_tasks c pl b l0 body = Ok ts ->
  exists N, forall k ts' m, steps c k (ts, data b) (ts', m) ->
    (k <= N)%nat /\ (k = N <-> finished ts') /\
    (~ finished ts' -> exists next, step c (ts', m) next) /\ (exists k' last, steps c k' (ts', m) last /\ finished (fst last)) /\
    (finished ts' -> let b' := mkBuf (bw b) (bh b) m in valid c b' /\ zlen m = zlen (data b) /\
      (forall x y, 0 <= x < bw b -> 0 <= y < bh b -> pixel_samples c b' x y = outcome (body x y) l0 (pixel_samples c b x y)) /\
      (forall i, bw b * bh b * c <= i -> zget m i = zget (data b) i)).
Proof.
  intros S L c Hc b pl l0 body ts V HB H. exists (work ts). intros k ts' m St.
  pose proof V as (V1 & V2 & V3 & V4). unfold is_u32 in V1, V2. assert (W0 : 0 <= bw b * bh b) by nia.
  set (target := fun off => outcome (body (off / c mod bw b) (off / c / bw b)) l0 (zslice (data b) off c)).
  assert (Tg : forall i, target (i * c) = outcome (body (i mod bw b) (i / bw b)) l0 (zslice (data b) (i * c) c)) by (intros i; unfold target; rewrite Z.div_mul by lia; reflexivity).
  pose proof (par_tasks_ok c Hc l0 body pl b ts V H) as C.
  assert (I0 : Inv c (bw b * bh b) (data b) target (concat ts) (data b)).
  { rewrite C. constructor.
    - rewrite map_map. cbn [t_off task_of]. unfold zrange. rewrite map_map. apply FinFun.Injective_map_NoDup; [intros i j E; nia|apply seq_NoDup].
    - rewrite Forall_forall. intros t Ht. apply in_map_iff in Ht as (i & <- & Hi). apply In_zrange in Hi. exists i. cbn [t_off task_of]. split; [lia|reflexivity].
    - rewrite Forall_forall. intros t Ht. apply in_map_iff in Ht as (i & <- & Hi). cbn [t_ops task_of]. apply HB.
    - reflexivity.
    - exact V3.
    - reflexivity.
    - rewrite Forall_forall. intros t Ht. apply in_map_iff in Ht as (i & <- & Hi). cbn [t_ops t_off t_local task_of]. rewrite Tg. reflexivity.
    - intros i Ri NI. exfalso. apply NI. rewrite map_map. cbn [t_off task_of]. apply in_map_iff. exists i. split; [reflexivity|]. apply In_zrange. lia. }
  destruct (steps_inv c Hc _ _ _ _ _ _ St I0) as (I' & Wk). cbn [fst snd] in I', Wk.
  split; [lia|]. split; [rewrite finished_work; lia|]. split; [|split].
  - intros NF. destruct (can_step c ts' m) as [F|X]; [contradiction|exact X].
  - apply finish.
  - intros F. destruct I' as [N P K Ln Fi Pa To Do]. assert (E : concat ts' = []) by (clear - F; induction F as [|t ts -> _ IH]; [reflexivity|exact IH]). rewrite E in *.
    cbv zeta. split; [|split; [exact Ln|split]].
    + split; [exact V1|]. split; [exact V2|]. cbn [bw bh data]. rewrite Ln. split; assumption.
    + intros x y Hx Hy. unfold pixel_samples. cbn [bw data]. rewrite Do; [|nia|intros []]. rewrite Tg.
      replace ((y * bw b + x) mod bw b) with x by (apply (Z.mod_unique _ (bw b) y x); [left; lia|lia]). replace ((y * bw b + x) / bw b) with y by (apply (Z.div_unique _ (bw b) y x); [left; lia|lia]). reflexivity.
    + exact Pa.
Qed.

(** from_par_fn builds, under every plan and schedule, the buffer that from_fn builds *)
Theorem C67_from_par_fn : forall S c, 1 <= c <= 255 -> forall (zero : S) w h pl f, is_u32 w -> is_u32 h -> (forall x y, zlen (f x y) = c) ->
  (w * h * c <= u64_max -> fits (w * h) pl ->
   exists b ts seq, from_par_fn c zero w h pl f = Ok (b, ts) /\ from_fn c zero w h (fun (_ : unit) x y => (f x y, tt)) tt = Ok (seq, tt) /\
     (exists k last, steps c k (ts, data b) last /\ finished (fst last)) /\
     (forall k ts' m, steps c k (ts, data b) (ts', m) -> finished ts' -> mkBuf w h m = seq /\ forall x y, 0 <= x < w -> 0 <= y < h -> bget c (mkBuf w h m) x y = Ok (f x y))) /\
  (u64_max < w * h * c -> from_par_fn c zero w h pl f = Panic).
Proof.
  intros S c Hc zero w h pl f Hw Hh Hf. split.
  - intros Fit F. destruct (bnew_spec c Hc zero w h Hw Hh Fit) as (b & EB & V & Ew & Eh & _).
    destruct (C67_no_race S unit c Hc b pl tt (fun x y => [fun lp => (fst lp, f x y)]) V) as (Ex & _). rewrite Ew, Eh in Ex. destruct (Ex F) as (ts & ET).
    assert (HB : forall x y, Forall (on_pixels c) [fun lp : unit * list S => (fst lp, f x y)]) by (intros x y; constructor; [intros s _; apply Hf|constructor]).
    destruct (C67_schedules S unit c Hc b pl tt _ ts V HB ET) as (N & Sch).
    destruct (from_fn_spec c Hc zero w h (fun (_ : unit) x y => (f x y, tt)) tt Hw Hh Fit (fun _ => Hf)) as (sq & E & Vs & Sw & Sh & Sd & Spx).
    destruct (from_fn_pure c Hc zero w h f Hw Hh Fit Hf) as (sq' & E' & _ & _ & _ & G).
    rewrite E in E'. assert (EQ : sq = sq') by (apply Ok_inj in E'; apply (f_equal fst) in E'; exact E'). subst sq'.
    exists b, ts, sq. split; [unfold from_par_fn; rewrite EB; cbn [bind]; rewrite ET; reflexivity|]. split; [rewrite E; destruct (snd _); reflexivity|].
    split; [apply (Sch 0%nat ts (data b)); constructor|].
    intros k ts' m St Fin. destruct (Sch k ts' m St) as (_ & _ & _ & _ & R). destruct (R Fin) as (V' & Ln & Px & _). rewrite Ew, Eh in *.
    assert (D : m = data sq).
    { rewrite Sd. rewrite <- (zslice_all m). assert (Lm : zlen m = w * h * c).
      { rewrite Ln. unfold bnew in EB. rewrite (image_buffer_len_spec c Hc) in EB by assumption. destruct (Z.leb_spec (w * h * c) u64_max); [|lia]. apply Ok_inj in EB. subst b. cbn [data]. rewrite zlen_repeat. unfold is_u32 in *. nia. }
      rewrite Lm. pose proof (all_pixels_eq c (mkBuf w h m) V') as A. cbn [bw bh data] in A. unfold is_u32 in *.
      rewrite <- (concat_slices c m 0 (w * h)) by nia. rewrite run_calls_pure. f_equal.
      transitivity (all_pixels c (mkBuf w h m)); [rewrite A; apply map_ext; intros; f_equal; lia|].
      unfold all_pixels. cbn [bw bh]. apply map_ext_in. intros (x & y) Hxy. apply In_coords in Hxy. cbn [fst snd]. rewrite Px by lia. reflexivity. }
    assert (EQ : mkBuf w h m = sq) by (destruct sq; cbn in *; congruence).
    split; [exact EQ|]. intros x y Hx Hy. rewrite EQ. apply G; assumption.
  - intros Big. unfold from_par_fn. rewrite (bnew_panics c Hc) by assumption. reflexivity.
Qed.

(** ** the hypotheses are met *)
(** a 3x2 image with one sample too many in its container, divided twice: three threads *)
Definition ex_par : ibuf Z := mkBuf 3 2 [10; 11; 12; 13; 14; 15; 99].
Definition ex_plan : plan := Halves 4 (Halves 1 Whole Whole) Whole.
Example C67_ex_valid : valid 1 ex_par /\ fits (3 * 2) ex_plan.
Proof. unfold valid, is_u32, u32_max, u64_max, zlen. cbn. lia. Qed.
Example C67_ex_items : par_enumerate_items 1 ex_plan ex_par =
  Ok [[((0, 0), [10])]; [((1, 0), [11]); ((2, 0), [12]); ((0, 1), [13])]; [((1, 1), [14]); ((2, 1), [15])]].
Proof. reflexivity. Qed.
(** two threads on a 2x1 image; the second is finished before the first begins *)
Example C67_ex_schedule : let f x y := [10 * x + y + 5] in
  exists b ts last, from_par_fn 1 0 2 1 (Halves 1 Whole Whole) f = Ok (b, ts) /\ length ts = 2%nat /\
    steps 1 4 (ts, data b) last /\ finished (fst last) /\ snd last = [5; 15].
Proof.
  cbv zeta. eexists _, _, ([[]; []], [5; 15]). split; [reflexivity|]. split; [reflexivity|]. split; [|split; [repeat constructor|reflexivity]].
  eapply steps_n; [apply (step_op 1 [[_]] _ _ _ [] [] []); reflexivity|]. eapply steps_n; [apply (step_end 1 [[_]] _ _ [] [])|].
  eapply steps_n; [apply (step_op 1 [] _ _ _ [] [] [[]]); reflexivity|]. eapply steps_n; [apply (step_end 1 [] _ _ [] [[]])|]. constructor.
Qed.

Definition all_C67 := (C67_par_pixels, C67_par_enumerate_pixels, C67_no_race, C67_schedules, C67_from_par_fn).
Print Assumptions all_C67.
