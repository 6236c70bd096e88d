From Coq Require Import QArith.
From Verif Require Import Base BaseLemmas Delay.
Local Open Scope Z_scope.

Lemma mul_u64_ok a b : 0 <= a <= u32_max + 1 -> 0 <= b <= u32_max -> mul_u64 a b = Ok (a * b).
Proof.
  unfold mul_u64, u32_max, u64_max. intros Ha Hb.
  destruct (Z.leb_spec (a * b) 18446744073709551615); [reflexivity|nia].
Qed.
Lemma mul_u64_small a b : 0 <= a -> 0 <= b -> a * b <= u64_max -> mul_u64 a b = Ok (a * b).
Proof. intros. unfold mul_u64. destruct (Z.leb_spec (a * b) u64_max); [reflexivity|lia]. Qed.

Lemma frac_cmp x u y v : 0 <= x -> 0 <= y -> 0 < u -> 0 < v ->
  (match (x / u) ?= (y / v) with
   | Lt => true | Gt => false
   | Eq => match ((x mod u) * v) ?= ((y mod v) * u) with Lt => true | _ => false end
   end) = (x * v <? y * u).
Proof.
  intros Hx Hy Hu Hv.
  pose proof (Z.div_mod x u ltac:(lia)) as Ex. pose proof (Z.mod_pos_bound x u Hu) as Rx.
  pose proof (Z.div_mod y v ltac:(lia)) as Ey. pose proof (Z.mod_pos_bound y v Hv) as Ry.
  set (k := x / u) in *. set (r := x mod u) in *. set (l := y / v) in *. set (s := y mod v) in *.
  destruct (Z.compare_spec k l) as [E|E|E].
  - rewrite E in *. destruct (Z.compare_spec (r * v) (s * u)); symmetry;
      [apply Z.ltb_ge|apply Z.ltb_lt|apply Z.ltb_ge]; nia.
  - symmetry. apply Z.ltb_lt. assert (u * k + r < u * l) by nia. nia.
  - symmetry. apply Z.ltb_ge. assert (v * l + s < v * k) by nia. nia.
Qed.

Section Farey.
Variables (B n d : Z).
Hypothesis HB : 1 <= B <= u32_max.
Hypothesis Hd : 0 < d <= u32_max.
Hypothesis Hn : 0 <= n < d.

Definition FInv (s : farey) : Prop :=
  let '(a, b) := lower s in let '(c, e) := upper s in let '(g, q) := guess s in
  0 <= a /\ 0 <= c <= e /\ 1 <= b <= B /\ 1 <= e <= B /\ c * b - a * e = 1 /\
  a * d <= n * b /\ n * e < c * d /\
  0 <= g <= q /\ 1 <= q <= B /\ (g < q \/ q = 1) /\
  Z.abs (g * d - n * q) * b <= Z.abs (a * d - n * b) * q /\
  Z.abs (g * d - n * q) * e <= Z.abs (c * d - n * e) * q.
Definition FPost (r : res (Z * Z)) : Prop :=
  exists g q, r = Ok (g, q) /\ 0 <= g <= q /\ 1 <= q <= B /\ (g < q \/ q = 1) /\
    forall p r, 1 <= r <= B -> Z.abs (g * d - n * q) * r <= Z.abs (p * d - n * r) * q.

Lemma best_of_neighbours a b c e g q p r :
  1 <= b -> 1 <= e -> c * b - a * e = 1 -> a * d <= n * b -> n * e < c * d ->
  Z.abs (g * d - n * q) * b <= Z.abs (a * d - n * b) * q ->
  Z.abs (g * d - n * q) * e <= Z.abs (c * d - n * e) * q ->
  1 <= q -> 1 <= r -> r < b + e ->
  Z.abs (g * d - n * q) * r <= Z.abs (p * d - n * r) * q.
Proof.
  intros Hb He Hdet Hlo Hup Hg1 Hg2 Hq Hr Hre.
  set (D := Z.abs (g * d - n * q)) in *. assert (0 <= D) by (unfold D; lia).
  rewrite (Z.abs_neq (a * d - n * b)) in Hg1 by lia.
  rewrite (Z.abs_eq (c * d - n * e)) in Hg2 by lia.
  destruct (Z_le_gt_dec (p * b) (a * r)) as [Hl|Hl].
  - (* p/r <= a/b *)
    assert (H1 : b * (n * r - p * d) >= r * (n * b - a * d)) by nia.
    assert (H2 : D * b * r <= (n * b - a * d) * q * r) by nia.
    assert (H3 : b * (D * r) <= b * ((n * r - p * d) * q)) by nia.
    assert (H4 : D * r <= (n * r - p * d) * q) by (apply Z.mul_le_mono_pos_l in H3; lia).
    assert (n * r - p * d <= Z.abs (p * d - n * r)) by lia. nia.
  - destruct (Z_le_gt_dec (c * r) (p * e)) as [Hu|Hu].
    + assert (H1 : e * (p * d - n * r) >= r * (c * d - n * e)) by nia.
      assert (H2 : D * e * r <= (c * d - n * e) * q * r) by nia.
      assert (H3 : e * (D * r) <= e * ((p * d - n * r) * q)) by nia.
      assert (H4 : D * r <= (p * d - n * r) * q) by (apply Z.mul_le_mono_pos_l in H3; lia).
      assert (p * d - n * r <= Z.abs (p * d - n * r)) by lia. nia.
    + exfalso. assert (r = b * (c * r - p * e) + e * (p * b - a * r)).
      { transitivity (r * (c * b - a * e)); [rewrite Hdet; lia|ring]. }
      nia.
Qed.

Lemma abs_diff_ok g q : 0 <= g <= u32_max -> 0 <= q <= u32_max ->
  abs_diff_nom (g, q) (n, d) = Ok (Z.abs (g * d - n * q)).
Proof.
  intros. unfold abs_diff_nom. cbn [fst snd]. rewrite !mul_u64_ok by lia. cbn [bind].
  unfold sub_u64. destruct (Z.leb_spec (Z.min (g * d) (q * n)) (Z.max (g * d) (q * n))); [|lia].
  f_equal. lia.
Qed.
Lemma cmp_ok a b c e : 0 <= a <= u32_max -> 0 <= b <= u32_max -> 0 <= c <= u32_max -> 0 <= e <= u32_max ->
  compare_fraction (a, b) (c, e) = Ok (a * e ?= c * b).
Proof. intros. unfold compare_fraction. cbn [fst snd]. rewrite !mul_u64_ok by lia. reflexivity. Qed.

Definition fmu (s : farey) : Z := 2 * B - snd (lower s) - snd (upper s).


Lemma farey_next_ok a b c e g q :
  0 <= a < b -> 0 <= c <= e -> 1 <= b <= B -> 1 <= e <= B -> b + e <= B ->
  0 <= g <= q -> 1 <= q <= B ->
  farey_next (n, d) (mkFarey (a, b) (c, e) (g, q)) =
  Ok (mkFarey (if n * (b + e) <? (a + c) * d then (a, b) else (a + c, b + e))
              (if n * (b + e) <? (a + c) * d then (a + c, b + e) else (c, e))
              (if Z.abs ((a + c) * d - n * (b + e)) * q <? Z.abs (g * d - n * q) * (b + e)
               then (a + c, b + e) else (g, q))).
Proof.
  intros Ha Hc Hb He Hbe Hg Hq. unfold farey_next. cbn [lower upper guess fst snd].
  unfold add_u64.
  destruct (Z.leb_spec (a + c) u64_max) as [_|?]; [|unfold u64_max, u32_max in *; lia]; cbn [bind].
  destruct (Z.leb_spec (b + e) u64_max) as [_|?]; [|unfold u64_max, u32_max in *; lia]; cbn [bind].
  rewrite cmp_ok by lia. cbn [bind].
  rewrite abs_diff_ok by lia. cbn [bind].
  rewrite abs_diff_ok by lia. cbn [bind fst snd].
  rewrite <- (frac_cmp (Z.abs ((a + c) * d - n * (b + e))) (b + e) (Z.abs (g * d - n * q)) q) by lia.
  set (N := Z.abs ((a + c) * d - n * (b + e))). set (G := Z.abs (g * d - n * q)).
  assert (0 <= N mod (b + e) < b + e) by (apply Z.mod_pos_bound; lia).
  assert (0 <= G mod q < q) by (apply Z.mod_pos_bound; lia).
  assert (Elt : match n * (b + e) ?= (a + c) * d with Lt => true | _ => false end
                = (n * (b + e) <? (a + c) * d)) by reflexivity.
  rewrite <- Elt.
  destruct (n * (b + e) ?= (a + c) * d); destruct (N / (b + e) ?= G / q); cbn [bind];
    try reflexivity; rewrite cmp_ok by lia; cbn [bind]; reflexivity.
Qed.

Lemma closer_trans G N A b q m : 0 <= b -> 0 < q -> 0 < m ->
  N * q < G * m -> G * b <= A * q -> N * b <= A * m.
Proof.
  intros Hb Hq Hm H1 H2.
  assert (H3 : N * q * b <= G * m * b) by (apply Z.mul_le_mono_nonneg_r; lia).
  assert (H4 : G * b * m <= A * q * m) by (apply Z.mul_le_mono_nonneg_r; lia).
  assert (H5 : q * (N * b) <= q * (A * m)) by lia.
  apply Z.mul_le_mono_pos_l in H5; lia.
Qed.

Lemma farey_step_ok s : FInv s ->
  match farey_step B (n, d) s with
  | inl s' => FInv s' /\ 0 <= fmu s' < fmu s
  | inr r => FPost r
  end.
Proof.
  destruct s as [[a b] [c e] [g q]]. unfold FInv. cbn [lower upper guess].
  intros (Ha & Hc & Hb & He & Hdet & Hlo & Hup & Hg & Hq & Hgq & Hg1 & Hg2).
  assert (Hab : a < b) by nia.
  unfold farey_step, farey_body. cbn [lower upper guess fst snd].
  rewrite cmp_ok by lia. cbn [bind].
  destruct (match g * d ?= n * q with Eq => true | _ => false end) eqn:Ec.
  { assert (E : g * d = n * q) by (apply Z.compare_eq; destruct (g * d ?= n * q); congruence).
    exists g, q. split; [reflexivity|]. repeat split; auto; try lia.
    intros p r Hr. rewrite E, Z.sub_diag. cbn. nia. }
  unfold sub_u64 at 1. destruct (Z.leb_spec b B); [|lia]. cbn [bind].
  destruct (Z.ltb_spec (B - b) e) as [Hroom|Hroom].
  { exists g, q; split; [reflexivity|]; repeat split; auto; try lia.
    intros p r Hr; eapply (best_of_neighbours a b c e); eauto; lia. }
  rewrite farey_next_ok by lia. cbn [bind].
  unfold fmu. cbn [lower upper guess fst snd].
  assert (HD1 : (a + c) * d - n * (b + e) = (a * d - n * b) + (c * d - n * e)) by ring.
  set (N := Z.abs ((a + c) * d - n * (b + e))). set (G := Z.abs (g * d - n * q)) in *.
  set (A := Z.abs (a * d - n * b)) in *. set (C := Z.abs (c * d - n * e)) in *.
  assert (Hdet2 : (a + c) * b - a * (b + e) = 1) by (rewrite <- Hdet; ring).
  assert (Hdet3 : c * (b + e) - (a + c) * e = 1) by (rewrite <- Hdet; ring).
  destruct (Z.ltb_spec (n * (b + e)) ((a + c) * d)) as [E|E]; cbn [snd];
    (split; [|lia]);
    destruct (Z.ltb_spec (N * q) (G * (b + e))) as [Hlt|Hge].
  - pose proof (closer_trans G N A b q (b + e) ltac:(lia) ltac:(lia) ltac:(lia) Hlt Hg1).
    repeat split; try assumption; try lia.
  - repeat split; try assumption; try lia.
  - pose proof (closer_trans G N C e q (b + e) ltac:(lia) ltac:(lia) ltac:(lia) Hlt Hg2).
    repeat split; try assumption; try lia.
  - repeat split; try assumption; try lia.
Qed.

Lemma closest_ok :
  2 * d <= u32_max ->
  exists g q, closest_bounded_fraction B n d = Ok (g, q) /\ 0 <= g <= q /\ 1 <= q <= B /\ (g < q \/ q = 1) /\ (forall p r, 1 <= r <= B -> Z.abs (g * d - n * q) * r <= Z.abs (p * d - n * r) * q) /\ (B = 1 -> g = if d <? n * 2 then 1 else 0).
Proof.
  intros Hd2. unfold closest_bounded_fraction.
  replace (negb (0 <? d) || negb (0 <? B) || negb (n <? d)) with false by lia.
  unfold mul_u32. destruct (Z.leb_spec (n * 2) u32_max); [|lia]. cbn [bind].
  set (s0 := mkFarey (0, 1) (1, 1) ((if d <? n * 2 then 1 else 0), 1)).
  assert (HI : FInv s0).
  { unfold FInv, s0. cbn [lower upper guess]. destruct (Z.ltb_spec d (n * 2)); repeat split; lia. }
  destruct (loopk_total (farey_step B (n, d)) FInv FPost fmu farey_step_ok 33 s0 HI)
    as (r & Er & g & q & -> & Hg & Hq & Hgq & Hbest).
  { unfold fmu, s0. cbn [lower upper snd]. change (2 ^ Z.of_nat 33) with 8589934592.
    unfold u32_max in *. lia. }
  rewrite Er. cbn [bind fst snd]. exists g, q.
  assert (Hw : forall z, 0 <= z <= u32_max -> wrap_u32 z = z).
  { intros z Hz. unfold wrap_u32. apply Z.mod_small. unfold u32_max in Hz. lia. }
  split; [rewrite !Hw by lia; reflexivity|]. split; [lia|]. split; [lia|]. split; [lia|].
  split; [exact Hbest|]. intros HB1. assert (q = 1) by lia. subst q.
  pose proof (Hbest 0 1 ltac:(lia)) as H0. pose proof (Hbest 1 1 ltac:(lia)) as H1'.
  destruct (Z.ltb_spec d (n * 2)); assert (g = 0 \/ g = 1) as [->| ->] by lia; try lia.
  (* tie: 2n = d, only the initial guess can be returned *)
  exfalso. assert (Ht : n * 2 = d) by lia.
  assert (HP : forall k, loopk k (farey_step B (n, d)) s0 = inr (Ok (0, 1))).
  { assert (Hs : farey_step B (n, d) s0 = inr (Ok (0, 1))).
    { unfold farey_step, farey_body, s0. cbn [lower upper guess fst snd].
      destruct (Z.ltb_spec d (n * 2)); [lia|]. rewrite cmp_ok by lia. cbn [bind].
      destruct (match 0 * d ?= n * 1 with Eq => true | _ => false end); [reflexivity|].
      unfold sub_u64. destruct (Z.leb_spec 1 B); [|lia]. cbn [bind].
      destruct (Z.ltb_spec (B - 1) 1); [reflexivity|lia]. }
    induction k as [|k IH]; cbn [loopk]; [exact Hs|]. rewrite IH. reflexivity. }
  rewrite HP in Er. discriminate.
Qed.
End Farey.

Definition M := 1000000.

(** exact value of the delay as a rational: numer/denom ms vs nanos/10^6 ms *)
Lemma from_saturating_duration_ok N :
  0 <= N -> ~ (u32_max <= N / M /\ M < 2 * (N mod M)) ->
  exists r, from_saturating_duration N = Ok r /\ is_u32 (numer r) /\ 1 <= denom r <= u32_max /\ (u32_max <= N / M -> r = mkRatio u32_max 1) /\ (N / M < u32_max ->
     let B := if N / M =? 0 then u32_max else (u32_max + 1) / (N / M + 1) in
     denom r <= B /\  forall p q, 1 <= q <= B ->
       Z.abs (numer r * M - N * denom r) * q <= Z.abs (p * M - N * q) * denom r).
Proof.
  intros HN Hbad. unfold from_saturating_duration. fold M.
  set (ms := Z.min (N / M) u32_max). set (sub := N mod M).
  assert (HM : M = 1000000) by reflexivity.
  assert (Hsub : 0 <= sub < M) by (unfold sub; apply Z.mod_pos_bound; lia).
  assert (Hdiv : 0 <= N / M) by (apply Z.div_pos; lia).
  assert (Hms : 0 <= ms <= u32_max) by (unfold ms, u32_max in *; lia).
  set (mb := if 0 <? ms then (u32_max + 1) / (ms + 1) else u32_max).
  assert (Hmb : 1 <= mb <= u32_max /\ (mb * (ms + 1) <= u32_max + 1)).
  { unfold mb. destruct (Z.ltb_spec 0 ms).
    - assert ((u32_max + 1) / (ms + 1) * (ms + 1) <= u32_max + 1)
        by (rewrite Z.mul_comm; apply Z.mul_div_le; lia).
      split; [split|auto].
      + apply Z.div_le_lower_bound; lia.
      + apply Z.div_le_upper_bound; [lia|]. unfold u32_max in *. nia.
    - assert (ms = 0) by lia. unfold u32_max. lia. }
  destruct Hmb as [Hmb Hmb2].
  assert (Hw : wrap_u32 mb = mb) by (unfold wrap_u32; apply Z.mod_small; unfold u32_max in Hmb; lia).
  rewrite Hw.
  destruct (closest_ok mb sub M) as (g & q & E & Hg & Hq & Hgq & Hbest & Hone);
    [lia|unfold u32_max in *; lia|lia|unfold u32_max; lia|].
  rewrite E. cbn [bind].
  assert (Hlim : g + q * ms <= u32_max).
  { destruct (Z_lt_ge_dec g q).
    { assert (0 <= ms + 1) by lia. assert (q * (ms + 1) <= mb * (ms + 1)) by (apply Z.mul_le_mono_nonneg_r; lia). lia. }
    assert (q = 1) by lia. assert (g = 1) by lia. subst g q.
    destruct (Z.eq_dec ms u32_max) as [Em|]; [|lia].
    assert (mb = 1) by (unfold u32_max in *; nia).
    specialize (Hone H). exfalso. apply Hbad. split; [unfold ms in Em; lia|].
    fold sub. destruct (Z.ltb_spec M (sub * 2)); lia. }
  unfold mul_u32. destruct (Z.leb_spec (q * ms) u32_max); [|clear - Hlim Hg H; lia]. cbn [bind].
  unfold add_u32. destruct (Z.leb_spec (g + q * ms) u32_max); [|lia]. cbn [bind].
  unfold from_numer_denom_ms, ratio_new. destruct (Z.eqb_spec q 0); [lia|].
  eexists; split; [reflexivity|]. cbn [numer denom]. split; [assert (0 <= q * ms) by (apply Z.mul_nonneg_nonneg; lia); unfold is_u32; lia|].
  split; [lia|]. split.
  - intros Hbig. assert (Em : ms = u32_max) by (unfold ms; lia).
    assert (mb = 1) by (unfold u32_max in *; nia).
    assert (q = 1) by lia. subst q. specialize (Hone H1).
    destruct (Z.ltb_spec M (sub * 2)).
    + exfalso; apply Hbad; split; [auto|fold sub; lia].
    + subst g. rewrite Em. reflexivity.
  - intros Hsmall. assert (Em : ms = N / M) by (unfold ms; lia).
    assert (EN : N = M * ms + sub) by (rewrite Em; apply Z.div_mod; lia).
    replace (if N / M =? 0 then u32_max else (u32_max + 1) / (N / M + 1)) with mb.
    2:{ unfold mb. rewrite Em. destruct (Z.ltb_spec 0 (N / M)), (Z.eqb_spec (N / M) 0); try lia; reflexivity. }
    cbv zeta. split; [lia|]. intros p r Hr. specialize (Hbest (p - r * ms) r Hr).
    replace ((g + q * ms) * M - N * q) with (g * M - sub * q) by (rewrite EN; ring).
    replace (p * M - N * r) with ((p - r * ms) * M - sub * r) by (rewrite EN; ring).
    exact Hbest.
Qed.

Lemma from_saturating_duration_panics N :
  u32_max <= N / M -> M < 2 * (N mod M) -> from_saturating_duration N = Panic.
Proof.
  intros Hbig Hhalf. unfold from_saturating_duration. fold M.
  assert (HM : M = 1000000) by reflexivity.
  set (sub := N mod M) in *.
  assert (Hsub : 0 <= sub < M) by (unfold sub; apply Z.mod_pos_bound; lia).
  replace (Z.min (N / M) u32_max) with u32_max by lia.
  change (0 <? u32_max) with true. cbv iota.
  change (wrap_u32 ((u32_max + 1) / (u32_max + 1))) with 1.
  destruct (closest_ok 1 sub M) as (g & q & E & Hg & Hq & Hgq & Hbest & Hone);
    [unfold u32_max; lia|unfold u32_max in *; lia|lia|unfold u32_max; lia|].
  rewrite E. cbn [bind]. assert (q = 1) by lia. subst q. rewrite (Hone eq_refl).
  destruct (Z.ltb_spec M (sub * 2)); [|lia]. reflexivity.
Qed.

Lemma exact_when_representable N r p q :
  0 <= N -> N / M < u32_max -> from_saturating_duration N = Ok r ->
  1 <= q <= (if N / M =? 0 then u32_max else (u32_max + 1) / (N / M + 1)) ->
  p * M = N * q -> numer r * M = N * denom r.
Proof.
  intros HN Hs E Hq Hp.
  destruct (from_saturating_duration_ok N HN) as (r' & E' & H1 & H2 & _ & H3); [lia|].
  rewrite E in E'. injection E' as <-. destruct (H3 Hs) as [_ Hb].
  specialize (Hb p q Hq). rewrite Hp, Z.sub_diag in Hb. cbn [Z.abs] in Hb. nia.
Qed.

Lemma duration_of_delay_floor r : is_u32 (numer r) -> 1 <= denom r <= u32_max ->
  duration_of_delay r = Ok (numer r * M / denom r).
Proof.
  intros Hn Hd. unfold duration_of_delay, M.
  assert (0 <= numer r mod denom r < denom r) by (apply Z.mod_pos_bound; lia).
  rewrite mul_u64_small; [|lia|lia|unfold is_u32, u32_max, u64_max in *; lia]. cbn [bind].
  f_equal. rewrite (Z.div_mod (numer r) (denom r)) at 3 by lia.
  rewrite Z.mul_add_distr_r.
  replace (denom r * (numer r / denom r) * 1000000 + numer r mod denom r * 1000000)
    with ((numer r mod denom r * 1000000) + (numer r / denom r * 1000000) * denom r) by ring.
  rewrite Z.div_add by lia. lia.
Qed.

Lemma whole_ms_roundtrip m : 0 <= m <= u32_max ->
  exists r, from_saturating_duration (m * M) = Ok r /\ r = mkRatio m 1 /\         duration_of_delay r = Ok (m * M).
Proof.
  intros Hm. exists (mkRatio m 1).
  assert (E1 : m * M / M = m) by (apply Z.div_mul; discriminate).
  assert (E2 : (m * M) mod M = 0) by (apply Z.mod_mul; discriminate).
  split; [|split; [reflexivity|]].
  - unfold from_saturating_duration. fold M. rewrite E1, E2.
    replace (Z.min m u32_max) with m by lia.
    set (mb := if 0 <? m then (u32_max + 1) / (m + 1) else u32_max).
    assert (Hmb : 1 <= mb <= u32_max).
    { unfold mb. destruct (Z.ltb_spec 0 m); [|unfold u32_max; lia]. split.
      - apply Z.div_le_lower_bound; lia.
      - apply Z.div_le_upper_bound; [lia|]. unfold u32_max in *. nia. }
    assert (Hw : wrap_u32 mb = mb) by (unfold wrap_u32; apply Z.mod_small; unfold u32_max in Hmb; lia).
    rewrite Hw.
    destruct (closest_ok mb 0 M) as (g & q & E & Hg & Hq & Hgq & Hbest & _);
      [lia|unfold M, u32_max; lia|unfold M; lia|unfold M, u32_max; lia|].
    assert (E0 : closest_bounded_fraction mb 0 M = Ok (0, 1)).
    { unfold closest_bounded_fraction.
      replace (negb (0 <? M) || negb (0 <? mb) || negb (0 <? M)) with false by (unfold M; lia).
      cbn [bind mul_u32 Z.mul Z.leb]. change (mul_u32 0 2) with (@Ok Z 0). cbn [bind].
      change (M <? 0) with false. cbv iota.
      assert (Hs : forall k, loopk k (farey_step mb (0, M)) (mkFarey (0, 1) (1, 1) (0, 1)) = inr (Ok (0, 1))).
      { induction k as [|k IH]; cbn [loopk]; [reflexivity|]. rewrite IH. reflexivity. }
      rewrite Hs. reflexivity. }
    rewrite E0. cbn [bind]. unfold mul_u32. rewrite Z.mul_1_l.
    destruct (Z.leb_spec m u32_max); [|lia]. cbn [bind]. unfold add_u32. rewrite Z.add_0_l.
    destruct (Z.leb_spec m u32_max); [|lia]. reflexivity.
  - rewrite duration_of_delay_floor; cbn [numer denom]; [|unfold is_u32; lia|unfold u32_max; lia].
    rewrite Z.div_1_r. reflexivity.
Qed.

(** ordering *)
Definition ratio_ok (r : ratio) : Prop := is_u32 (numer r) /\ 1 <= denom r <= u32_max.
Lemma ratio_cmp_ok x y : ratio_ok x -> ratio_ok y ->
  ratio_cmp x y = Ok (numer x * denom y ?= numer y * denom x).
Proof.
  intros [Hx Hx'] [Hy Hy']. unfold ratio_cmp. unfold is_u32 in *.
  rewrite !mul_u64_ok by lia. reflexivity.
Qed.

(** the rational number numer/denom *)
Definition qval (r : ratio) : Q := (numer r # Z.to_pos (denom r))%Q.
Lemma ratio_cmp_Q x y : ratio_ok x -> ratio_ok y ->
  ratio_cmp x y = Ok (Qcompare (qval x) (qval y)).
Proof.
  intros Hx Hy. rewrite ratio_cmp_ok by auto. unfold qval, Qcompare. cbn [Qnum Qden].
  destruct Hx as [_ Hx], Hy as [_ Hy]. rewrite !Z2Pos.id by lia. reflexivity.
Qed.
Lemma ratio_order_laws x y z : ratio_ok x -> ratio_ok y -> ratio_ok z ->
  ratio_cmp x x = Ok Eq /\
  (forall c, ratio_cmp x y = Ok c -> ratio_cmp y x = Ok (CompOpp c)) /\
  (ratio_cmp x y <> Ok Gt -> ratio_cmp y z <> Ok Gt -> ratio_cmp x z <> Ok Gt) /\
  (ratio_eq x y = Ok true <-> Qeq (qval x) (qval y)).
Proof.
  intros Hx Hy Hz. unfold ratio_eq. rewrite !ratio_cmp_Q by auto. cbn [bind].
  split; [f_equal; apply Qeq_alt; reflexivity|]. split; [|split].
  - intros c E. injection E as <-. f_equal. symmetry. apply Qcompare_antisym.
  - intros H1 H2.
    assert (A : (qval x <= qval y)%Q) by (apply Qle_alt; congruence).
    assert (B : (qval y <= qval z)%Q) by (apply Qle_alt; congruence).
    intros E. injection E as E. apply Qgt_alt in E. apply (Qlt_irrefl (qval x)).
    eapply Qle_lt_trans; [eapply Qle_trans; [exact A|exact B]|exact E].
  - rewrite Qeq_alt. destruct (qval x ?= qval y)%Q; split; congruence.
Qed.
