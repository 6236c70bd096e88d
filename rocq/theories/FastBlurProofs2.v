(** fast_blur: the passes, and what box blurs preserve *)
From Coq Require Import ZArith Bool Reals Psatz.
From Verif Require Import Base BaseLemmas ListLemmas ListMore Color ColorFProofs GenImage Buffer ThumbSpec FastBlur FastBlurSpec FastBlurProofs.
Local Open Scope Z_scope.

Definition agree (w h : Z) (f g : Z -> Z -> Z) : Prop := forall x y, 0 <= x < w -> 0 <= y < h -> f x y = g x y.
Lemma clampz_in w x : 1 <= w -> 0 <= clampz 0 (w - 1) x < w. Proof. unfold clampz. lia. Qed.
Lemma hbox_ext w h r f g : 1 <= w -> agree w h f g -> agree w h (hbox w r f) (hbox w r g).
Proof. intros W A x y X Y. unfold hbox. do 2 f_equal. apply map_ext. intros d. apply A; [apply clampz_in; exact W|exact Y]. Qed.
Lemma vbox_ext w h r f g : 1 <= h -> agree w h f g -> agree w h (vbox h r f) (vbox h r g).
Proof. intros W A x y X Y. unfold vbox. do 2 f_equal. apply map_ext. intros d. apply A; [exact X|apply clampz_in; exact W]. Qed.
Lemma boxes_ext w h rs : 1 <= w -> 1 <= h -> forall f g, agree w h f g -> agree w h (boxes w h rs f) (boxes w h rs g).
Proof. intros W H. induction rs as [|r rs IH]; intros f g A; [exact A|]. cbn [boxes fold_left]. apply IH. apply vbox_ext; [exact H|]. apply hbox_ext; assumption. Qed.

Definition radius (b : Z) : Z := (b - 1) / 2.
Definition fits (t : sty) (b : Z) : Prop := 1 <= b /\ smax t * b < 2 ^ 24.
Lemma radius_ok t b : fits t b -> 0 <= radius b /\ smax t * (2 * radius b + 1) < 2 ^ 24.
Proof. intros (A & B). unfold radius. pose proof (smax_range t). pose proof (Z.div_mod (b - 1) 2 ltac:(lia)) as D. pose proof (Z.mod_pos_bound (b - 1) 2 ltac:(lia)). split; [lia|]. apply Z.le_lt_trans with (smax t * b); [|exact B]. apply Z.mul_le_mono_nonneg_l; lia. Qed.
Lemma pass_ok t n w h s r : 1 <= w <= u32_max -> 1 <= h <= u32_max -> 1 <= n -> 0 <= r -> smax t * (2 * r + 1) < 2 ^ 24 -> n * (w * h) <= zlen s -> Forall (is_sample t) s ->
  exists a o, half t s w h r n = Ok a /\ half t a h w r n = Ok o /\ zlen o = n * (w * h) /\ Forall (is_sample t) o /\ forall c, 0 <= c < n -> agree w h (sample n w o c) (vbox h r (hbox w r (sample n w s c))).
Proof.
  intros W H N R B L F. destruct (half_sample t s w h r n W H N R B L F) as (a & Ea & La & Fa & Ga). destruct (half_sample t a h w r n H W N R B) as (o & Eo & Lo & Fo & Go); [lia|exact Fa|].
  exists a, o. repeat (split; [assumption|]). intros c C x y X Y. rewrite (Go c y x C Y X). unfold hbox at 1, vbox. do 2 f_equal. apply map_ext. intros d. apply Ga; [exact C|exact X|apply clampz_in; lia].
Qed.
Lemma passes_ok m t n w h ws : 1 <= w <= u32_max -> 1 <= h <= u32_max -> 1 <= n -> Forall (fits t) ws -> ws <> [] -> forall s, n * (w * h) <= zlen s -> Forall (is_sample t) s ->
  exists o, passes m t n w h ws s = Ok o /\ zlen o = n * (w * h) /\ Forall (is_sample t) o /\ forall c, 0 <= c < n -> agree w h (sample n w o c) (boxes w h (map radius ws) (sample n w s c)).
Proof.
  intros W H N F NE. induction F as [|b ws Hb F IH]; [contradiction|]. intros s L FS. destruct (radius_ok t b Hb) as (R & B). destruct (pass_ok t n w h s (radius b) W H N R B L FS) as (a & o & Ea & Eo & Lo & Fo & Go).
  unfold passes. cbn [foldM]. unfold us_sub_m at 1. destruct Hb as (Hb & _). destruct (1 <=? b) eqn:X; [|lia]. cbn [bind]. fold (radius b). rewrite Ea. cbn [bind]. rewrite Eo. cbn [bind].
  destruct ws as [|b' ws]. { exists o. split; [reflexivity|]. split; [exact Lo|]. split; [exact Fo|exact Go]. }
  destruct IH with (s := o) as (o' & E' & L' & F' & G'); [discriminate|lia|exact Fo|]. exists o'. split; [exact E'|]. split; [exact L'|]. split; [exact F'|]. intros c C x y Hx Hy. rewrite (G' c C x y Hx Hy). change (map radius (b :: b' :: ws)) with (radius b :: map radius (b' :: ws)). cbn [boxes fold_left]. apply boxes_ext; [lia|lia|exact (Go c C)|exact Hx|exact Hy].
Qed.

(** ** box blurs: range, order, offset, mirror image *)
Definition bounded (w h lo hi : Z) (f : Z -> Z -> Z) : Prop := forall x y, 0 <= x < w -> 0 <= y < h -> lo <= f x y <= hi.
Lemma len_offsets {A} r (g : Z -> A) : 0 <= r -> zlen (map g (offsets r)) = 2 * r + 1.
Proof. intros R. rewrite zlen_map. unfold offsets. apply zlen_zr. lia. Qed.
Lemma mean_bounds r g lo hi : 0 <= r -> (forall d, lo <= g d <= hi) -> lo <= zsum (map g (offsets r)) / (2 * r + 1) <= hi.
Proof.
  intros R B. assert (Z0 : lo * (2 * r + 1) <= zsum (map g (offsets r)) <= hi * (2 * r + 1)). { rewrite <- (len_offsets r g R). apply zsum_bounds. apply Forall_map_iff, Forall_forall. intros d _. apply B. }
  split; [apply Z.div_le_lower_bound; lia|apply Z.div_le_upper_bound; lia].
Qed.
Lemma boxes_bounded w h rs lo hi : 1 <= w -> 1 <= h -> Forall (fun r => 0 <= r) rs -> forall f, bounded w h lo hi f -> bounded w h lo hi (boxes w h rs f).
Proof.
  intros W H. induction 1 as [|r rs R F IH]; intros f B; [exact B|]. cbn [boxes fold_left]. apply IH. intros x y X Y. apply mean_bounds; [exact R|]. intros d. apply mean_bounds; [exact R|]. intros e. apply B; apply clampz_in; assumption.
Qed.
Definition below (w h : Z) (f g : Z -> Z -> Z) : Prop := forall x y, 0 <= x < w -> 0 <= y < h -> f x y <= g x y.
Lemma mean_mono r g g' : 0 <= r -> (forall d, g d <= g' d) -> zsum (map g (offsets r)) / (2 * r + 1) <= zsum (map g' (offsets r)) / (2 * r + 1).
Proof. intros R B. apply Z.div_le_mono; [lia|]. induction (offsets r) as [|d l IH]; cbn; [lia|]. fold (zsum (map g l)) (zsum (map g' l)). specialize (B d). lia. Qed.
Lemma boxes_mono w h rs : 1 <= w -> 1 <= h -> Forall (fun r => 0 <= r) rs -> forall f g, below w h f g -> below w h (boxes w h rs f) (boxes w h rs g).
Proof.
  intros W H. induction 1 as [|r rs R F IH]; intros f g B; [exact B|]. cbn [boxes fold_left]. apply IH. intros x y X Y. apply mean_mono; [exact R|]. intros d. apply mean_mono; [exact R|]. intros e. apply B; apply clampz_in; assumption.
Qed.
Lemma mean_shift r g k : 0 <= r -> zsum (map (fun d => g d + k) (offsets r)) / (2 * r + 1) = zsum (map g (offsets r)) / (2 * r + 1) + k.
Proof.
  intros R. rewrite <- Z.div_add by lia. f_equal. rewrite <- (len_offsets r g R). generalize (offsets r). intros l. induction l as [|d l IH]; [cbn; lia|]. cbn [map]. rewrite zlen_cons. cbn [zsum fold_right]. fold (zsum (map g l)) (zsum (map (fun d => g d + k) l)). lia.
Qed.
Lemma boxes_shift w h rs k : 1 <= w -> 1 <= h -> Forall (fun r => 0 <= r) rs -> forall f g, agree w h g (fun x y => f x y + k) -> agree w h (boxes w h rs g) (fun x y => boxes w h rs f x y + k).
Proof.
  intros W H. induction 1 as [|r rs R F IH]; intros f g A; [exact A|]. cbn [boxes fold_left]. apply IH. intros x y X Y. rewrite (vbox_ext w h r (hbox w r g) (fun x y => hbox w r f x y + k) H) by (assumption || (intros x' y' X' Y'; rewrite (hbox_ext w h r g (fun x y => f x y + k) W A x' y' X' Y'); unfold hbox; rewrite mean_shift by exact R; reflexivity)). unfold vbox. rewrite mean_shift by exact R. reflexivity.
Qed.
Lemma wsum_opp g k : 0 <= k -> forall a, wsum (fun d => g (- d)) a k = wsum g (1 - a - k) k.
Proof.
  intros K. pattern k. apply natlike_ind; [reflexivity| |exact K]. intros j J IH a. change (Z.succ j) with (j + 1). rewrite wsum_snoc, wsum_cons by exact J. rewrite IH. replace (1 - a - (j + 1)) with (- (a + j)) by lia. replace (- (a + j) + 1) with (1 - a - j) by lia. lia.
Qed.
Lemma offsets_opp r g : 0 <= r -> zsum (map (fun d => g (- d)) (offsets r)) = zsum (map g (offsets r)).
Proof. intros R. pose proof (wsum_opp g (2 * r + 1) ltac:(lia) (- r)) as E. unfold wsum in E. unfold offsets. rewrite E. do 3 f_equal. lia. Qed.
Lemma clampz_mirror w x d : 1 <= w -> w - 1 - clampz 0 (w - 1) (x + d) = clampz 0 (w - 1) (w - 1 - x - d). Proof. unfold clampz. lia. Qed.
Lemma boxes_mirror_h w h rs : 1 <= w -> 1 <= h -> Forall (fun r => 0 <= r) rs -> forall f g, agree w h g (fun x y => f (w - 1 - x) y) -> agree w h (boxes w h rs g) (fun x y => boxes w h rs f (w - 1 - x) y).
Proof.
  intros W H. induction 1 as [|r rs R F IH]; intros f g A; [exact A|]. cbn [boxes fold_left]. apply IH. intros x y X Y.
  rewrite (vbox_ext w h r (hbox w r g) (fun x y => hbox w r f (w - 1 - x) y) H); [reflexivity| |exact X|exact Y]. intros x' y' X' Y'. rewrite (hbox_ext w h r g _ W A x' y' X' Y'). unfold hbox. f_equal. rewrite <- (offsets_opp r (fun d => f (clampz 0 (w - 1) (w - 1 - x' + d)) y') R). f_equal. apply map_ext. intros d. rewrite clampz_mirror by exact W. do 2 f_equal; lia.
Qed.
Lemma boxes_mirror_v w h rs : 1 <= w -> 1 <= h -> Forall (fun r => 0 <= r) rs -> forall f g, agree w h g (fun x y => f x (h - 1 - y)) -> agree w h (boxes w h rs g) (fun x y => boxes w h rs f x (h - 1 - y)).
Proof.
  intros W H. induction 1 as [|r rs R F IH]; intros f g A; [exact A|]. cbn [boxes fold_left]. apply IH. intros x y X Y.
  rewrite (vbox_ext w h r (hbox w r g) (hbox w r (fun x y => f x (h - 1 - y))) H); [|apply hbox_ext; assumption|exact X|exact Y]. unfold vbox. f_equal. rewrite <- (offsets_opp r (fun d => hbox w r f x (clampz 0 (h - 1) (h - 1 - y + d))) R). f_equal. apply map_ext. intros d. unfold hbox. rewrite clampz_mirror by exact H. reflexivity.
Qed.

(** ** against the means without rounding *)
Definition lags (w h : Z) (e : R) (F : Z -> Z -> R) (f : Z -> Z -> Z) : Prop := forall x y, 0 <= x < w -> 0 <= y < h -> (0 <= F x y - IZR (f x y) <= e)%R.
Lemma lag_step r (G : Z -> R) g e : 0 <= r -> (forall d, 0 <= G d - IZR (g d) <= e)%R -> (0 <= rsum (map G (offsets r)) / IZR (2 * r + 1) - IZR (zsum (map g (offsets r)) / (2 * r + 1)) < e + 1)%R.
Proof.
  intros R B. set (k := 2 * r + 1). assert (K : 1 <= k) by (unfold k; lia). assert (KR : (1 <= IZR k)%R) by (apply IZR_le; exact K). set (s := zsum (map g (offsets r))).
  assert (Z0 : (0 <= rsum (map G (offsets r)) - IZR s <= e * IZR k)%R). { unfold s, k. rewrite <- (len_offsets r g R). generalize (offsets r). intros l. induction l as [|d l IH]; [cbn; lra|]. cbn [map]. rewrite zlen_cons. cbn [rsum zsum fold_right]. fold (zsum (map g l)) (rsum (map G l)). rewrite !plus_IZR, Rmult_plus_distr_l. specialize (B d). lra. }
  pose proof (Z.div_mod s k ltac:(lia)) as D. pose proof (Z.mod_pos_bound s k ltac:(lia)) as M. set (q := s / k) in *. set (m := s mod k) in *. clearbody q m. set (T := rsum (map G (offsets r))) in *. clearbody T. rewrite D, plus_IZR, mult_IZR in Z0. assert (M1 : (0 <= IZR m)%R) by (apply IZR_le; lia). assert (M2 : (IZR m <= IZR k - 1)%R) by (rewrite <- minus_IZR; apply IZR_le; lia).
  assert (I : (0 < / IZR k)%R) by (apply Rinv_0_lt_compat; lra). assert (E : (T / IZR k - IZR q = (T - IZR k * IZR q) * / IZR k)%R) by (field; lra). rewrite E. split; [apply Rmult_le_pos; lra|]. apply Rmult_lt_reg_r with (IZR k); [lra|]. rewrite Rmult_assoc, Rinv_l, Rmult_1_r by lra. lra.
Qed.
Lemma pass_lag w h r e F f : 1 <= w -> 1 <= h -> 0 <= r -> lags w h e F f -> forall x y, 0 <= x < w -> 0 <= y < h -> (0 <= vmean h r (hmean w r F) x y - IZR (vbox h r (hbox w r f) x y) < e + 2)%R.
Proof.
  intros W H R L x y X Y. unfold vmean, vbox. pose proof (lag_step r (fun d => hmean w r F x (clampz 0 (h - 1) (y + d))) (fun d => hbox w r f x (clampz 0 (h - 1) (y + d))) (e + 1) R) as Q. replace (e + 2)%R with (e + 1 + 1)%R by ring. apply Q. intros d. unfold hmean, hbox. pose proof (lag_step r (fun d0 => F (clampz 0 (w - 1) (x + d0)) (clampz 0 (h - 1) (y + d))) (fun d0 => f (clampz 0 (w - 1) (x + d0)) (clampz 0 (h - 1) (y + d))) e R) as Q2.
  assert (Q3 := Q2 (fun d0 => L _ _ (clampz_in w _ W) (clampz_in h _ H))). lra.
Qed.
Lemma boxes_lag w h a b c f : 1 <= w -> 1 <= h -> 0 <= a -> 0 <= b -> 0 <= c -> forall x y, 0 <= x < w -> 0 <= y < h -> (0 <= means w h [a; b; c] (fun x y => IZR (f x y)) x y - IZR (boxes w h [a; b; c] f x y) < 6)%R.
Proof.
  intros W H A B C x y X Y. cbn [boxes means fold_left]. replace 6%R with (4 + 2)%R by ring. apply (pass_lag w h c); try assumption. intros x1 y1 X1 Y1. replace 4%R with (2 + 2)%R by ring. enough (0 <= vmean h b (hmean w b (vmean h a (hmean w a (fun x y => IZR (f x y))))) x1 y1 - IZR (vbox h b (hbox w b (vbox h a (hbox w a f))) x1 y1) < 2 + 2)%R by lra. apply (pass_lag w h b); try assumption.
  intros x2 y2 X2 Y2. replace 2%R with (0 + 2)%R by ring. enough (0 <= vmean h a (hmean w a (fun x y => IZR (f x y))) x2 y2 - IZR (vbox h a (hbox w a f) x2 y2) < 0 + 2)%R by lra. apply (pass_lag w h a); try assumption. intros x3 y3 _ _. lra.
Qed.
