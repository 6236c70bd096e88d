(** The forward DCT neither overflows nor leaves the range of the baseline Huffman tables: evaluation of its expressions
    over affine forms of the 64 samples with error intervals. *)
From Verif Require Import Base BaseLemmas ListLemmas ListMore GenImage Color Jpeg.
Local Open Scope Z_scope.

(** [af k c lo hi] stands for the values v with 2^k v = c . x + e, lo <= e <= hi *)
Record aff := af { a_k : Z; a_c : list Z; a_lo : Z; a_hi : Z }.
Fixpoint dot (c x : list Z) : Z := match c, x with a :: c, b :: x => a * b + dot c x | _, _ => 0 end.
Definition means (x : list Z) (a : aff) (v : Z) : Prop := 0 <= a_k a /\ exists e, a_lo a <= e <= a_hi a /\ v * 2 ^ a_k a = dot (a_c a) x + e.
Fixpoint addl (f g : Z) (c d : list Z) : list Z :=
  match c, d with
  | a :: c, b :: d => f * a + g * b :: addl f g c d
  | [], d => map (Z.mul g) d
  | c, [] => map (Z.mul f) c
  end.
Lemma dot_map f c : forall x, dot (map (Z.mul f) c) x = f * dot c x.
Proof. induction c as [|a c IH]; intros [|b x]; cbn [map dot]; try rewrite IH; ring. Qed.
Lemma dot_addl f g c : forall d x, dot (addl f g c d) x = f * dot c x + g * dot d x.
Proof.
  induction c as [|a c IH]; intros [|b d] x; cbn [addl].
  - cbn [dot map]. lia.
  - rewrite dot_map. cbn [dot]. destruct x; lia.
  - rewrite dot_map. cbn [dot]. destruct x; lia.
  - destruct x as [|y x]; cbn [dot]; [lia|]. rewrite IH. ring.
Qed.
Fixpoint min_dot (c : list Z) : Z := match c with [] => 0 | a :: c => (if a <? 0 then 255 * a else 0) + min_dot c end.
Fixpoint max_dot (c : list Z) : Z := match c with [] => 0 | a :: c => (if a <? 0 then 0 else 255 * a) + max_dot c end.
Lemma dot_range c : forall x, Forall (fun v => 0 <= v <= 255) x -> min_dot c <= dot c x <= max_dot c.
Proof.
  induction c as [|a c IH]; intros x F; cbn [min_dot max_dot dot]; [lia|]. destruct x as [|b x].
  - specialize (IH [] F). destruct c as [|a' c']; cbn [dot] in *; destruct (Z.ltb_spec a 0); lia.
  - inversion F; subst. specialize (IH x H2). destruct (Z.ltb_spec a 0); nia.
Qed.
Definition lo_of (a : aff) : Z := min_dot (a_c a) + a_lo a.
Definition hi_of (a : aff) : Z := max_dot (a_c a) + a_hi a.
Definition within (lo hi : Z) (a : aff) : bool := (lo * 2 ^ a_k a - 2 ^ a_k a <? lo_of a) && (hi_of a <? hi * 2 ^ a_k a + 2 ^ a_k a).
Lemma within_ok lo hi a x v : Forall (fun v => 0 <= v <= 255) x -> within lo hi a = true -> means x a v -> lo <= v <= hi.
Proof.
  intros F W (K0 & e & He & E). unfold within, lo_of, hi_of in W. rewrite andb_true_iff, !Z.ltb_lt in W. pose proof (dot_range (a_c a) x F). assert (P : 0 < 2 ^ a_k a) by (apply Z.pow_pos_nonneg; lia).
  assert (L : lo * 2 ^ a_k a - 2 ^ a_k a < v * 2 ^ a_k a < hi * 2 ^ a_k a + 2 ^ a_k a) by lia. clear - L P. set (p := 2 ^ a_k a) in *. clearbody p. nia.
Qed.
Definition chk (a : aff) : option aff := if within i32_min i32_max a then Some a else None.
Definition lin (f g : Z) (a b : aff) : aff :=   (* f, g in {1, -1} *)
  let k := Z.max (a_k a) (a_k b) in
  let p := f * 2 ^ (k - a_k a) in
  let q := g * 2 ^ (k - a_k b) in
  let m c u w := if c <? 0 then c * w else c * u in
  af k (addl p q (a_c a) (a_c b)) (m p (a_lo a) (a_hi a) + m q (a_lo b) (a_hi b)) (m p (a_hi a) (a_lo a) + m q (a_hi b) (a_lo b)).
Definition scale (f : Z) (a : aff) : aff :=
  af (a_k a) (map (Z.mul f) (a_c a)) (if f <? 0 then f * a_hi a else f * a_lo a) (if f <? 0 then f * a_lo a else f * a_hi a).
Definition shr (k : Z) (a : aff) : aff := af (a_k a + k) (a_c a) (a_lo a - 2 ^ a_k a * (2 ^ k - 1)) (a_hi a).
Definition obnd {A B} (o : option A) (f : A -> option B) : option B := match o with Some a => f a | None => None end.
Fixpoint ab (env : list aff) (e : expr) : option aff :=
  match e with
  | V i => nth_error env i
  | K c => chk (af 0 [] c c)
  | Add a b => obnd (ab env a) (fun x => obnd (ab env b) (fun y => chk (lin 1 1 x y)))
  | Sub a b => obnd (ab env a) (fun x => obnd (ab env b) (fun y => chk (lin 1 (-1) x y)))
  | Mul a c => obnd (ab env a) (fun x => chk (scale c x))
  | Shl a k => if 0 <=? k then obnd (ab env a) (fun x => chk (scale (2 ^ k) x)) else None
  | Shr a k => if 0 <=? k then obnd (ab env a) (fun x => Some (shr k x)) else None
  end.
Lemma chk_ok x a v b : Forall (fun v => 0 <= v <= 255) x -> chk a = Some b -> means x a v -> i32_chk v = Ok v /\ means x b v.
Proof.
  unfold chk. intros F E M. destruct (within _ _ a) eqn:W; [|discriminate]. injection E as <-. pose proof (within_ok _ _ _ _ _ F W M). unfold i32_chk.
  replace ((i32_min <=? v) && (v <=? i32_max)) with true by (symmetry; rewrite andb_true_iff, !Z.leb_le; lia). auto.
Qed.
Lemma m_bound c u w e : u <= e <= w -> (if c <? 0 then c * w else c * u) <= c * e <= (if c <? 0 then c * u else c * w).
Proof. intros H. destruct (Z.ltb_spec c 0); nia. Qed.
Lemma lin_ok x f g a b u v : means x a u -> means x b v -> means x (lin f g a b) (f * u + g * v).
Proof.
  intros (K1 & e1 & H1 & E1) (K2 & e2 & H2 & E2). unfold lin, means. cbn [a_k a_c a_lo a_hi]. split; [lia|].
  set (p := f * 2 ^ (Z.max (a_k a) (a_k b) - a_k a)). set (q := g * 2 ^ (Z.max (a_k a) (a_k b) - a_k b)). exists (p * e1 + q * e2). split; [pose proof (m_bound p _ _ _ H1); pose proof (m_bound q _ _ _ H2); lia|].
  rewrite dot_addl. assert (P1 : 2 ^ Z.max (a_k a) (a_k b) = 2 ^ (Z.max (a_k a) (a_k b) - a_k a) * 2 ^ a_k a) by (rewrite <- Z.pow_add_r by lia; f_equal; lia).
  assert (P2 : 2 ^ Z.max (a_k a) (a_k b) = 2 ^ (Z.max (a_k a) (a_k b) - a_k b) * 2 ^ a_k b) by (rewrite <- Z.pow_add_r by lia; f_equal; lia).
  rewrite Z.mul_add_distr_r. rewrite P1 at 1. rewrite P2 at 1. unfold p, q.
  transitivity (f * 2 ^ (Z.max (a_k a) (a_k b) - a_k a) * (u * 2 ^ a_k a) + g * 2 ^ (Z.max (a_k a) (a_k b) - a_k b) * (v * 2 ^ a_k b)); [ring|]. rewrite E1, E2. ring.
Qed.
Lemma scale_ok x f a u : means x a u -> means x (scale f a) (u * f).
Proof.
  intros (K1 & e1 & H1 & E1). unfold scale, means. cbn [a_k a_c a_lo a_hi]. split; [lia|]. exists (f * e1). split; [exact (m_bound f _ _ _ H1)|]. rewrite dot_map. transitivity (f * (u * 2 ^ a_k a)); [ring|]. rewrite E1. ring.
Qed.
Lemma shr_ok x k a u : 0 <= k -> means x a u -> means x (shr k a) (Z.shiftr u k).
Proof.
  intros Hk (K1 & e1 & H1 & E1). unfold shr, means. cbn [a_k a_c a_lo a_hi]. split; [lia|]. rewrite Z.shiftr_div_pow2 by lia. assert (P : 0 < 2 ^ k) by (apply Z.pow_pos_nonneg; lia). assert (Q : 0 < 2 ^ a_k a) by (apply Z.pow_pos_nonneg; lia).
  pose proof (Z.div_mod u (2 ^ k) ltac:(lia)) as DM. pose proof (Z.mod_pos_bound u (2 ^ k) P) as MB. exists (e1 - 2 ^ a_k a * (u mod 2 ^ k)). split; [nia|]. rewrite Z.pow_add_r by lia.
  transitivity (2 ^ a_k a * (2 ^ k * (u / 2 ^ k))); [ring|]. replace (2 ^ k * (u / 2 ^ k)) with (u - u mod 2 ^ k) by lia. rewrite Z.mul_sub_distr_l. rewrite (Z.mul_comm (2 ^ a_k a) u), E1. ring.
Qed.
Lemma ab_ok x aenv env : Forall (fun v => 0 <= v <= 255) x -> Forall2 (means x) aenv env -> forall e a, ab aenv e = Some a -> exists v, ev env e = Ok v /\ means x a v.
Proof.
  intros F FE. induction e as [i|c|e1 IH1 e2 IH2|e1 IH1 e2 IH2|e1 IH1 c|e1 IH1 k|e1 IH1 k]; intros a E; cbn [ab ev] in *.
  - clear - E FE. revert i E. induction FE as [|a' v' la lv M FE IH]; intros [|i] E; cbn [nth_error] in *; try discriminate; [injection E as <-; eauto|apply IH; exact E].
  - exists c. apply (chk_ok x _ c _ F E). split; [cbn; lia|]. exists c. cbn [a_lo a_hi a_k a_c dot]. split; [lia|]. change (2 ^ 0) with 1. lia.
  - destruct (ab aenv e1) as [a1|]; [|discriminate]. destruct (ab aenv e2) as [a2|]; [|discriminate]. cbn [obnd] in E. destruct (IH1 _ eq_refl) as (v1 & -> & M1). destruct (IH2 _ eq_refl) as (v2 & -> & M2). cbn [bind]. exists (v1 + v2).
    apply (chk_ok x _ _ _ F E). replace (v1 + v2) with (1 * v1 + 1 * v2) by ring. apply lin_ok; assumption.
  - destruct (ab aenv e1) as [a1|]; [|discriminate]. destruct (ab aenv e2) as [a2|]; [|discriminate]. cbn [obnd] in E. destruct (IH1 _ eq_refl) as (v1 & -> & M1). destruct (IH2 _ eq_refl) as (v2 & -> & M2). cbn [bind]. exists (v1 - v2).
    apply (chk_ok x _ _ _ F E). replace (v1 - v2) with (1 * v1 + (-1) * v2) by ring. apply lin_ok; assumption.
  - destruct (ab aenv e1) as [a1|]; [|discriminate]. cbn [obnd] in E. destruct (IH1 _ eq_refl) as (v1 & -> & M1). cbn [bind]. exists (v1 * c). apply (chk_ok x _ _ _ F E). apply scale_ok; assumption.
  - destruct (0 <=? k); [|discriminate]. destruct (ab aenv e1) as [a1|]; [|discriminate]. cbn [obnd] in E. destruct (IH1 _ eq_refl) as (v1 & -> & M1). cbn [bind]. exists (v1 * 2 ^ k). apply (chk_ok x _ _ _ F E). apply scale_ok; assumption.
  - destruct (Z.leb_spec 0 k); [|discriminate]. destruct (ab aenv e1) as [a1|]; [|discriminate]. cbn [obnd] in E. destruct (IH1 _ eq_refl) as (v1 & -> & M1). cbn [bind]. exists (Z.shiftr v1 k). split; [reflexivity|]. injection E as <-. apply shr_ok; assumption.
Qed.
Fixpoint all_opt {A B} (f : A -> option B) (l : list A) : option (list B) := match l with [] => Some [] | a :: l => obnd (f a) (fun b => obnd (all_opt f l) (fun r => Some (b :: r))) end.
Lemma map_res_rel {A B C D} (R : A -> B -> Prop) (Q : C -> D -> Prop) (f : A -> res C) (g : B -> option D) : (forall a b d, R a b -> g b = Some d -> exists c, f a = Ok c /\ Q c d) ->
  forall la lb ld, Forall2 R la lb -> all_opt g lb = Some ld -> exists lc, map_res f la = Ok lc /\ Forall2 Q lc ld.
Proof.
  intros H la lb ld F. revert ld. induction F as [|a b la lb Rab F IH]; intros ld E; cbn [all_opt map_res] in *; [injection E as <-; eauto|].
  destruct (g b) as [d|] eqn:Eg; [|discriminate]. cbn [obnd] in E. destruct (all_opt g lb) as [ld'|]; [|discriminate]. cbn [obnd] in E. injection E as <-. destruct (H a b d Rab Eg) as (c & -> & Qc). destruct (IH _ eq_refl) as (lc & -> & Q'). cbn [bind]. eauto.
Qed.
Lemma Forall2_refl_eq {A} (l : list A) : Forall2 eq l l.
Proof. induction l; constructor; auto. Qed.
Definition ab_pass (es : list expr) (line : list aff) : option (list aff) := all_opt (ab line) es.
Lemma pass_ok x es line aline al : Forall (fun v => 0 <= v <= 255) x -> Forall2 (means x) aline line -> ab_pass es aline = Some al -> exists l, pass es line = Ok l /\ Forall2 (fun v a => means x a v) l al.
Proof.
  intros F M E. unfold pass, ab_pass in *. eapply (map_res_rel eq (fun v a => means x a v)); [|apply Forall2_refl_eq|exact E]. intros a b d <- E'. exact (ab_ok x aline line F M a d E').
Qed.
(** the affine forms of the 64 results *)
Definition unit_form (i : Z) : aff := af 0 (repeat 0 (Z.to_nat i) ++ [1]) 0 0.
Definition forms_of (er ec : list expr) : option (list aff) :=
  obnd (all_opt (fun y => ab_pass er (map (fun i => unit_form (8 * y + i)) (zrange 0 8))) (zrange 0 8)) (fun rows =>
  obnd (all_opt (fun x => ab_pass ec (column rows x)) (zrange 0 8)) (fun cols =>
  Some (flat_map (fun y => column cols y) (zrange 0 8)))).
Definition fdct_of (er ec : list expr) (samples : list Z) : res (list Z) :=
  rows <- map_res (fun y => pass er (zslice samples (8 * y) 8)) (zrange 0 8) ;;
  cols <- map_res (fun x => pass ec (column rows x)) (zrange 0 8) ;;
  Ok (flat_map (fun y => column cols y) (zrange 0 8)).
Lemma dot_unit i : forall x v, zget x (Z.of_nat i) = Some v -> dot (repeat 0 i ++ [1]) x = v.
Proof.
  induction i as [|i IH]; intros [|b x] v E; cbn [repeat app dot]; try (apply zget_range in E; unfold zlen in E; cbn [length] in E; lia).
  - cbn in E. injection E as <-. destruct x; lia.
  - rewrite (IH x v); [lia|]. unfold zget in *. replace (Z.of_nat (S i) <? 0) with false in E by lia. replace (Z.of_nat i <? 0) with false by lia. rewrite Nat2Z.id in *. exact E.
Qed.
Lemma Forall2_app_inv_len {A B} (R : A -> B -> Prop) a b c d : Forall2 R a c -> Forall2 R b d -> Forall2 R (a ++ b) (c ++ d).
Proof. apply Forall2_app. Qed.
Lemma column_rel {A B} (R : A -> B -> Prop) la lb x : Forall2 (Forall2 R) la lb -> Forall2 R (column la x) (column lb x).
Proof.
  intros F. unfold column. induction F as [|a b la lb Rab F IH]; [constructor|]. cbn [flat_map]. apply Forall2_app; [|exact IH]. unfold zslice.
  assert (G : forall n, Forall2 R (skipn n a) (skipn n b)). { intros n. revert n. clear IH F la lb. induction Rab as [|u v a b Ruv Rab IHab]; intros [|n]; cbn [skipn]; try constructor; auto. }
  specialize (G (Z.to_nat x)). destruct G as [|u v a' b' Ruv G]; cbn; [constructor|]. repeat constructor. assumption.
Qed.
Lemma Forall2_flip {A B} (R : A -> B -> Prop) a b : Forall2 R a b -> Forall2 (fun y x => R x y) b a.
Proof. induction 1; constructor; auto. Qed.
Lemma Forall2_zget {A B} (R : A -> B -> Prop) la : forall lb, zlen la = zlen lb -> (forall i u v, zget la i = Some u -> zget lb i = Some v -> R u v) -> Forall2 R la lb.
Proof.
  induction la as [|a la IH]; intros [|b lb] L H; try (unfold zlen in L; cbn [length] in L; lia); constructor.
  - apply (H 0); reflexivity.
  - apply IH; [unfold zlen in *; cbn [length] in L; lia|]. intros i u v Hu Hv. apply (H (i + 1)).
    + unfold zget in *. destruct (Z.ltb_spec i 0); [discriminate|]. replace (i + 1 <? 0) with false by lia. replace (Z.to_nat (i + 1)) with (S (Z.to_nat i)) by lia. exact Hu.
    + unfold zget in *. destruct (Z.ltb_spec i 0); [discriminate|]. replace (i + 1 <? 0) with false by lia. replace (Z.to_nat (i + 1)) with (S (Z.to_nat i)) by lia. exact Hv.
Qed.
Lemma fdct_ok er ec samples forms : zlen samples = 64 -> Forall (fun v => 0 <= v <= 255) samples -> forms_of er ec = Some forms -> exists d, fdct_of er ec samples = Ok d /\ Forall2 (fun v a => means samples a v) d forms.
Proof.
  intros L F E. unfold forms_of in E. destruct (all_opt (fun y => ab_pass er _) (zrange 0 8)) as [rows|] eqn:ER; [|discriminate]. cbn [obnd] in E. destruct (all_opt (fun x => ab_pass ec _) (zrange 0 8)) as [cols|] eqn:EC; [|discriminate]. cbn [obnd] in E. apply Some_inj in E. subst forms.
  unfold fdct_of.
  assert (RNG : Forall2 (fun a b => a = b /\ 0 <= a < 8) (zrange 0 8) (zrange 0 8)) by (cbn; repeat constructor; lia).
  destruct (map_res_rel (fun a b => a = b /\ 0 <= a < 8) (Forall2 (fun v a => means samples a v)) (fun y => pass er (zslice samples (8 * y) 8)) (fun y => ab_pass er (map (fun i => unit_form (8 * y + i)) (zrange 0 8)))) with (la := zrange 0 8) (lb := zrange 0 8) (ld := rows) as (r & -> & RR); [|exact RNG|exact ER|].
  - intros a b d [<- Ha] E'. apply (pass_ok samples er (zslice samples (8 * a) 8) _ d F) in E'; [exact E'|]. apply Forall2_zget.
    + rewrite zlen_map, zlen_zslice_gen, zlen_zrange. lia.
    + intros i u v Hu Hv. rewrite zget_map in Hu. pose proof (zget_range _ _ _ Hv) as Hi. rewrite zlen_zslice_gen in Hi. rewrite zget_zrange in Hu by lia. cbn [option_map] in Hu. apply Some_inj in Hu; subst u. rewrite zget_zslice_gen in Hv by lia. replace ((0 <=? i) && (i <? 8)) with true in Hv by lia.
      split; [cbn; lia|]. exists 0. cbn [unit_form a_lo a_hi a_k a_c]. split; [lia|]. change (2 ^ 0) with 1. rewrite (dot_unit _ samples v); [lia|]. rewrite Z2Nat.id by lia. rewrite <- Hv. f_equal; lia.
  - cbn [bind]. destruct (map_res_rel eq (Forall2 (fun v a => means samples a v)) (fun x => pass ec (column r x)) (fun x => ab_pass ec (column rows x))) with (la := zrange 0 8) (lb := zrange 0 8) (ld := cols) as (c & -> & CC); [|apply Forall2_refl_eq|exact EC|].
    + intros a b d <- E'. apply (pass_ok samples ec (column r a) _ d F) in E'; [exact E'|]. apply Forall2_flip. apply column_rel. exact RR.
    + cbn [bind]. eexists. split; [reflexivity|]. generalize (zrange 0 8). intros ys. induction ys as [|y ys IH]; [constructor|]. cbn [flat_map]. apply Forall2_app; [|exact IH]. apply column_rel. exact CC.
Qed.
(** DC within -8192 .. 8128, every other coefficient within -8191 .. 8191 *)
Definition range_check (o : option (list aff)) : bool :=
  match o with
  | Some (dc :: acs) => within (-8192) 8128 dc && forallb (within (-8191) 8191) acs && (Z.of_nat (length acs) =? 63)
  | _ => false
  end.
Lemma forms_range_ok : range_check (forms_of row_pass col_pass) = true.
Proof. vm_compute. reflexivity. Qed.
Lemma fdct_range_of er ec samples : range_check (forms_of er ec) = true -> zlen samples = 64 -> Forall (fun v => 0 <= v <= 255) samples -> exists dc acs, fdct_of er ec samples = Ok (dc :: acs) /\ zlen acs = 63 /\ -8192 <= dc <= 8128 /\ Forall (fun v => -8191 <= v <= 8191) acs.
Proof.
  intros R L F. unfold range_check in R. destruct (forms_of er ec) as [[|fdc facs]|] eqn:E; try discriminate. rewrite !andb_true_iff in R. destruct R as ((R1 & R2) & R3). apply Z.eqb_eq in R3.
  destruct (fdct_ok er ec samples _ L F E) as (d & ED & FD). inversion FD as [|dc a acs facs' M1 M2]; subst. exists dc, acs. split; [exact ED|]. split; [pose proof (zlen_Forall2 _ _ _ M2) as Q; rewrite Q; exact R3|]. split; [exact (within_ok _ _ _ _ _ F R1 M1)|].
  clear - F R2 M2. induction M2 as [|v a acs facs M M2 IH]; constructor.
  - cbn [forallb] in R2. apply andb_true_iff in R2. exact (within_ok _ _ _ _ _ F (proj1 R2) M).
  - apply IH. cbn [forallb] in R2. apply andb_true_iff in R2. apply R2.
Qed.

Lemma fdct_range samples : zlen samples = 64 -> Forall (fun v => 0 <= v <= 255) samples -> exists dc acs, fdct samples = Ok (dc :: acs) /\ zlen acs = 63 /\ -8192 <= dc <= 8128 /\ Forall (fun v => -8191 <= v <= 8191) acs.
Proof. exact (fdct_range_of row_pass col_pass samples forms_range_ok). Qed.
