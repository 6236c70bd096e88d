(** Accuracy of one AVIF pixel. *)
From Coq Require Import ZArith Reals Lra Lia List Bool.
From Verif Require Import Base BaseLemmas Float Color ColorF Yuv YuvSpec.
Import ListNotations.
Local Open Scope Z_scope.

Lemma Rabs_le_inv x b : (Rabs x <= b -> - b <= x <= b)%R.
Proof. unfold Rabs. destruct (Rcase_abs x); intros; lra. Qed.
(** clamping does not spread values *)
Lemma limit_lip d a b : (0 <= white d -> Rabs (limit d a - limit d b) <= Rabs (a - b))%R.
Proof.
  intros H. unfold limit, Rmax, Rmin. repeat destruct (Rle_dec _ _); unfold Rabs; repeat destruct (Rcase_abs _); lra.
Qed.
Lemma limit_clamp d n : 0 <= d -> IZR (clampz 0 (2 ^ d - 1) n) = limit d (IZR n).
Proof.
  intros H. assert (0 < 2 ^ d) by (apply Z.pow_pos_nonneg; lia). unfold clampz, limit, white, Rmax, Rmin.
  repeat destruct (Rle_dec _ _); repeat match goal with H : (_ <= _)%R |- _ => apply le_IZR in H | H : ~ (_ <= _)%R |- _ => apply Rnot_le_lt, lt_IZR in H end;
    f_equal; lia.
Qed.
Lemma shift_near n : (Rabs (IZR (Z.shiftr (n + 1024) 11) - IZR n / 2048) <= 1 / 2)%R.
Proof.
  rewrite Z.shiftr_div_pow2 by lia. change (2 ^ 11) with 2048. pose proof (Z.div_mod (n + 1024) 2048 ltac:(lia)) as E.
  pose proof (Z.mod_pos_bound (n + 1024) 2048 ltac:(lia)) as B. set (q := (n + 1024) / 2048) in *. set (m := (n + 1024) mod 2048) in *.
  assert (N : (IZR n = 2048 * IZR q + IZR m - 1024)%R) by (rewrite <- mult_IZR, <- plus_IZR, <- minus_IZR; f_equal; lia).
  destruct B as [B1 B2]. apply IZR_le in B1. apply IZR_lt in B2. rewrite N. unfold Rabs. destruct (Rcase_abs _); lra.
Qed.
Lemma white_pos d : 0 <= d -> (0 <= white d)%R.
Proof. intros. assert (0 < 2 ^ d) by (apply Z.pow_pos_nonneg; lia). unfold white. apply IZR_le. lia. Qed.
Lemma chan d n x : 0 <= d -> (Rabs (IZR n - 2048 * x) <= 2 * IZR (2 ^ d))%R ->
  close d (clampz 0 (2 ^ d - 1) (Z.shiftr (n + 1024) 11)) x.
Proof.
  intros Hd H. unfold close, tol. rewrite limit_clamp by assumption.
  eapply Rle_trans; [apply limit_lip, white_pos; assumption|]. pose proof (shift_near n) as N.
  replace (IZR (Z.shiftr (n + 1024) 11) - x)%R with ((IZR (Z.shiftr (n + 1024) 11) - IZR n / 2048) + (IZR n - 2048 * x) / 2048)%R by field.
  eapply Rle_trans; [apply Rabs_triang|]. apply Rplus_le_compat; [exact N|].
  unfold Rdiv at 1. rewrite Rabs_mult, (Rabs_right (/ 2048)) by lra. lra.
Qed.

(** the coefficients kept to 1/2048 *)
Definition depth_ok (d : Z) : Prop := d = 8 \/ d = 10 \/ d = 12.
Definition ls (d : Z) (r : yuv_range) : R := match r with Pc => 1 | Tv => (white d / (219 * IZR (2 ^ (d - 8))))%R end.
Definition cs (d : Z) (r : yuv_range) : R := match r with Pc => 1 | Tv => (white d / (224 * IZR (2 ^ (d - 8))))%R end.
Definition kr_of (m : yuv_matrix) : R :=
  match m with Bt601 => 0.299 | Bt709 => 0.2126 | Bt2020 => 0.2627 | Smpte240 => 0.087 | Bt470_6 => 0.2220 | Identity => 0 end%R.
Definition kb_of (m : yuv_matrix) : R :=
  match m with Bt601 => 0.114 | Bt709 => 0.0722 | Bt2020 => 0.0593 | Smpte240 => 0.212 | Bt470_6 => 0.0713 | Identity => 0 end%R.
Definition near1 (n : Z) (x : R) : Prop := (Rabs (IZR n - 2048 * x) <= 1)%R.
Definition small (n : Z) : Prop := 0 <= n <= 8192.
Definition tr_ok (m : yuv_matrix) (r : yuv_range) (d : Z) (t : transform) : Prop :=
  let kr := kr_of m in let kb := kb_of m in
  (near1 (yc t) (ls d r) /\ near1 (crc t) (2 * (1 - kr) * cs d r) /\ near1 (cbc t) (2 * (1 - kb) * cs d r) /\
   near1 (g1 t) (2 * (1 - kr) * kr / (1 - kr - kb) * cs d r) /\ near1 (g2 t) (2 * (1 - kb) * kb / (1 - kr - kb) * cs d r))%R /\
  (small (yc t) /\ small (crc t) /\ small (cbc t) /\ small (g1 t) /\ small (g2 t)) /\ (r = Pc -> yc t = 2048).
Lemma inv_601 : (/ (1 - 0.299 - 0.114) = 1000 / 587)%R. Proof. apply Rmult_eq_reg_l with (1 - 0.299 - 0.114)%R; [rewrite Rinv_r by lra; lra|lra]. Qed.
Lemma inv_709 : (/ (1 - 0.2126 - 0.0722) = 10000 / 7152)%R. Proof. apply Rmult_eq_reg_l with (1 - 0.2126 - 0.0722)%R; [rewrite Rinv_r by lra; lra|lra]. Qed.
Lemma inv_2020 : (/ (1 - 0.2627 - 0.0593) = 10000 / 6780)%R. Proof. apply Rmult_eq_reg_l with (1 - 0.2627 - 0.0593)%R; [rewrite Rinv_r by lra; lra|lra]. Qed.
Lemma inv_240 : (/ (1 - 0.087 - 0.212) = 1000 / 701)%R. Proof. apply Rmult_eq_reg_l with (1 - 0.087 - 0.212)%R; [rewrite Rinv_r by lra; lra|lra]. Qed.
Lemma inv_470 : (/ (1 - 0.2220 - 0.0713) = 10000 / 7067)%R. Proof. apply Rmult_eq_reg_l with (1 - 0.2220 - 0.0713)%R; [rewrite Rinv_r by lra; lra|lra]. Qed.
Ltac consts := repeat match goal with |- context [IZR ?z] => let v := eval vm_compute in z in progress change z with v end.
Lemma ls_val : (ls 8 Tv = 255 / 219 /\ ls 10 Tv = 1023 / 876 /\ ls 12 Tv = 4095 / 3504)%R.
Proof. unfold ls, white. consts. repeat split; field. Qed.
Lemma cs_val : (cs 8 Tv = 255 / 224 /\ cs 10 Tv = 1023 / 896 /\ cs 12 Tv = 4095 / 3584)%R.
Proof. unfold cs, white. consts. repeat split; field. Qed.
Lemma transform_ok m r d : is_identity m = false -> depth_ok d -> exists t, transform_of m r d = Ok t /\ tr_ok m r d t.
Proof.
  destruct ls_val as (L1 & L2 & L3). destruct cs_val as (C1 & C2 & C3).
  intros Hm [-> |[-> | ->]]; destruct r, m; try discriminate Hm;
  (eexists; split; [vm_compute; reflexivity|]);
  (split; [|split; [unfold small; cbn [yc crc cbc g1 g2]; lia|intros E; try discriminate E; reflexivity]]);
  unfold near1; cbn [yc crc cbc g1 g2]; rewrite ?L1, ?L2, ?L3, ?C1, ?C2, ?C3; unfold kr_of, kb_of, ls, cs;
  unfold Rdiv at 1 2; rewrite ?inv_601, ?inv_709, ?inv_2020, ?inv_240, ?inv_470;
  repeat split; apply Rabs_le; lra.
Qed.

(** one pixel *)
Definition qq (d n : Z) : Z := clampz 0 (2 ^ d - 1) (Z.shiftr (n + 1024) 11).
Lemma i32c_ok z : Z.abs z <= 2147483647 -> i32c z = Ok z.
Proof. intros H. unfold i32c. destruct ((-2147483648 <=? z) && (z <=? 2147483647)) eqn:E; [reflexivity|]. lia. Qed.
Lemma qrshr_ok d n : 0 <= d -> Z.abs n <= 2000000000 -> qrshr d n = Ok (qq d n).
Proof.
  intros Hd H. unfold qrshr, qq, PRECISION. change (Z.shiftl 1 (11 - 1)) with 1024. rewrite i32c_ok by lia. cbn [bind].
  rewrite Z.shiftl_1_l. reflexivity.
Qed.
Lemma mul_small a n M : Z.abs a <= M -> small n -> Z.abs (a * n) <= M * 8192.
Proof. intros H [H1 H2]. rewrite Z.abs_mul, (Z.abs_eq n) by lia. nia. Qed.
Lemma mul_small' a n M : Z.abs a <= M -> small n -> Z.abs (n * a) <= M * 8192.
Proof. intros. rewrite Z.mul_comm. apply mul_small; assumption. Qed.
Definition u16s (v : Z) : Prop := 0 <= v <= 65535.
Lemma bias_ok r d : depth_ok d -> 0 <= bias_y (get_range r d) <= 256 /\ bias_uv (get_range r d) = 2 ^ (d - 1) /\ 0 <= 2 ^ (d - 1) <= 2048 /\
  bias_y (get_range r d) = match r with Pc => 0 | Tv => 16 * 2 ^ (d - 8) end.
Proof. intros [-> |[-> | ->]]; destruct r; vm_compute; intuition congruence. Qed.
Lemma max_ok d : depth_ok d -> Z.shiftl 1 d - 1 = 2 ^ d - 1 /\ 256 <= 2 ^ d <= 4096 /\ 2 ^ d = 2 * 2 ^ (d - 1) /\ 0 <= d.
Proof. intros [-> |[-> | ->]]; vm_compute; intuition congruence. Qed.
Definition yv_of t rg y := (y - bias_y rg) * yc t.
Definition pixv (d : Z) (t : transform) (rg : chroma_range) (y u v : Z) : list Z :=
  let cb := u - bias_uv rg in let cr := v - bias_uv rg in
  [qq d (yv_of t rg y + crc t * cr); qq d (yv_of t rg y - g1 t * cr - g2 t * cb); qq d (yv_of t rg y + cbc t * cb); 2 ^ d - 1].
Lemma yuv_pixel_ok m r d t y u v : depth_ok d -> tr_ok m r d t -> u16s y -> u16s u -> u16s v ->
  yuv_pixel d t (get_range r d) y u v = Ok (pixv d t (get_range r d) y u v).
Proof.
  intros Hd (_ & (S1 & S2 & S3 & S4 & S5) & _) Hy Hu Hv. unfold u16s in *. destruct (bias_ok r d Hd) as (B1 & B2 & B3 & _). destruct (max_ok d Hd) as (M1 & M2 & M3 & M4).
  assert (Ay : Z.abs (y - bias_y (get_range r d)) <= 65536) by lia.
  assert (Au : Z.abs (u - bias_uv (get_range r d)) <= 65536) by (rewrite B2; lia).
  assert (Av : Z.abs (v - bias_uv (get_range r d)) <= 65536) by (rewrite B2; lia).
  pose proof (mul_small _ _ _ Ay S1) as P1. pose proof (mul_small' _ _ _ Av S2) as P2. pose proof (mul_small' _ _ _ Au S3) as P3.
  pose proof (mul_small' _ _ _ Av S4) as P4. pose proof (mul_small' _ _ _ Au S5) as P5.
  unfold yuv_pixel, pixv, yv_of. cbv zeta.
  set (yy := (y - bias_y (get_range r d)) * yc t) in *. set (cr := v - bias_uv (get_range r d)) in *. set (cb := u - bias_uv (get_range r d)) in *.
  rewrite (i32c_ok (y - bias_y (get_range r d))) by lia. cbn [bind]. fold yy. rewrite (i32c_ok yy) by lia. cbn [bind].
  rewrite (i32c_ok cb) by lia. cbn [bind]. rewrite (i32c_ok cr) by lia. cbn [bind].
  rewrite (i32c_ok (crc t * cr)) by lia. cbn [bind]. rewrite (i32c_ok (yy + crc t * cr)) by lia. cbn [bind]. rewrite qrshr_ok by lia. cbn [bind].
  rewrite (i32c_ok (cbc t * cb)) by lia. cbn [bind]. rewrite (i32c_ok (yy + cbc t * cb)) by lia. cbn [bind]. rewrite qrshr_ok by lia. cbn [bind].
  rewrite (i32c_ok (g1 t * cr)) by lia. cbn [bind]. rewrite (i32c_ok (yy - g1 t * cr)) by lia. cbn [bind].
  rewrite (i32c_ok (g2 t * cb)) by lia. cbn [bind]. rewrite (i32c_ok (yy - g1 t * cr - g2 t * cb)) by lia. cbn [bind]. rewrite qrshr_ok by lia. cbn [bind].
  rewrite M1. reflexivity.
Qed.
Lemma near_mul a n x : near1 n x -> (Rabs (IZR (a * n) - 2048 * (x * IZR a)) <= Rabs (IZR a))%R.
Proof.
  intros H. unfold near1 in H. rewrite mult_IZR. replace (IZR a * IZR n - 2048 * (x * IZR a))%R with (IZR a * (IZR n - 2048 * x))%R by ring.
  rewrite Rabs_mult. rewrite <- (Rmult_1_r (Rabs (IZR a))) at 2. apply Rmult_le_compat_l; [apply Rabs_pos|exact H].
Qed.
Lemma abs_IZR a M : Z.abs a <= M -> (Rabs (IZR a) <= IZR M)%R.
Proof. intros. rewrite <- abs_IZR. apply IZR_le. assumption. Qed.
Lemma luma_scale d r y : depth_ok d -> luma d r y = (ls d r * IZR (y - bias_y (get_range r d)))%R.
Proof.
  intros Hd. destruct (bias_ok r d Hd) as (_ & _ & _ & ->). unfold luma, ls. rewrite minus_IZR. destruct r; [|ring].
  rewrite mult_IZR. field. apply IZR_neq. destruct Hd as [-> |[-> | ->]]; discriminate.
Qed.
Lemma chroma_scale d r y : depth_ok d -> chroma d r y = (cs d r * IZR (y - bias_uv (get_range r d)))%R.
Proof.
  intros Hd. destruct (bias_ok r d Hd) as (_ & -> & _). unfold chroma, cs. rewrite minus_IZR. destruct r; [|ring].
  field. apply IZR_neq. destruct Hd as [-> |[-> | ->]]; discriminate.
Qed.
Lemma bias_small r d y : depth_ok d -> 0 <= y < 2 ^ d -> Z.abs (y - bias_y (get_range r d)) <= 2 ^ d.
Proof. intros Hd H. destruct (bias_ok r d Hd) as (B1 & _). destruct (max_ok d Hd) as (_ & M & _). lia. Qed.
Lemma bias_uv_small r d y : depth_ok d -> 0 <= y < 2 ^ d -> Z.abs (y - bias_uv (get_range r d)) <= 2 ^ (d - 1).
Proof. intros Hd H. destruct (bias_ok r d Hd) as (_ & -> & B & _). destruct (max_ok d Hd) as (_ & _ & M & _). lia. Qed.
Lemma luma_near m r d t y : depth_ok d -> tr_ok m r d t -> 0 <= y < 2 ^ d ->
  (Rabs (IZR (yv_of t (get_range r d) y) - 2048 * luma d r y) <= IZR (2 ^ d))%R.
Proof.
  intros Hd ((N & _) & _) Hy. unfold yv_of. rewrite luma_scale by assumption. eapply Rle_trans; [apply near_mul, N|].
  apply abs_IZR, bias_small; assumption.
Qed.
Lemma chroma_near d r n x c : depth_ok d -> near1 n (x * cs d r) -> 0 <= c < 2 ^ d ->
  (Rabs (IZR (n * (c - bias_uv (get_range r d))) - 2048 * (x * chroma d r c)) <= IZR (2 ^ (d - 1)))%R.
Proof.
  intros Hd N Hc. rewrite chroma_scale by assumption. rewrite (Z.mul_comm n).
  replace (x * (cs d r * IZR (c - bias_uv (get_range r d))))%R with (x * cs d r * IZR (c - bias_uv (get_range r d)))%R by ring.
  eapply Rle_trans; [apply near_mul, N|]. apply abs_IZR, bias_uv_small; assumption.
Qed.
Lemma pow_half d : depth_ok d -> (IZR (2 ^ d) = 2 * IZR (2 ^ (d - 1)) /\ 0 <= IZR (2 ^ (d - 1)))%R.
Proof. intros Hd. destruct (max_ok d Hd) as (_ & M2 & M3 & _). rewrite M3, mult_IZR. split; [reflexivity|]. apply IZR_le. lia. Qed.
Lemma pixv_close m r d t y u v : depth_ok d -> tr_ok m r d t -> 0 <= y < 2 ^ d -> 0 <= u < 2 ^ d -> 0 <= v < 2 ^ d ->
  exists R G B, pixv d t (get_range r d) y u v = [R; G; B; 2 ^ d - 1] /\
    let kr := kr_of m in let kb := kb_of m in let Y := luma d r y in let Cb := chroma d r u in let Cr := chroma d r v in
    close d R (red kr kb Y Cb Cr) /\ close d G (green kr kb Y Cb Cr) /\ close d B (blue kr kb Y Cb Cr) /\
    (u = 2 ^ (d - 1) -> v = 2 ^ (d - 1) -> G = R /\ B = R /\ (r = Pc -> R = y)).
Proof.
  intros Hd T Hy Hu Hv. pose proof (luma_near m r d t y Hd T Hy) as LN. destruct T as ((N1 & N2 & N3 & N4 & N5) & _ & YC).
  pose proof (chroma_near d r _ _ v Hd N2 Hv) as C2. pose proof (chroma_near d r _ _ u Hd N3 Hu) as C3.
  pose proof (chroma_near d r _ _ v Hd N4 Hv) as C4. pose proof (chroma_near d r _ _ u Hd N5 Hu) as C5.
  destruct (max_ok d Hd) as (_ & _ & _ & M4). destruct (pow_half d Hd) as [Ph1 Ph2].
  assert (NEU : u = 2 ^ (d - 1) -> v = 2 ^ (d - 1) -> let yv := yv_of t (get_range r d) y in let cr := v - bias_uv (get_range r d) in let cb := u - bias_uv (get_range r d) in
    qq d (yv - g1 t * cr - g2 t * cb) = qq d (yv + crc t * cr) /\ qq d (yv + cbc t * cb) = qq d (yv + crc t * cr) /\ (r = Pc -> qq d (yv + crc t * cr) = y)).
  { intros -> ->. cbv zeta. destruct (bias_ok r d Hd) as (_ & -> & _ & BY). rewrite Z.sub_diag, !Z.mul_0_r, !Z.sub_0_r, !Z.add_0_r. split; [reflexivity|]. split; [reflexivity|].
    intros E. unfold yv_of. rewrite BY, (YC E), E. unfold qq. rewrite Z.sub_0_r, Z.shiftr_div_pow2 by lia. change (2 ^ 11) with 2048.
    replace ((y * 2048 + 1024) / 2048) with y by (Z.div_mod_to_equations; lia). unfold clampz. lia. }
  unfold pixv. do 3 eexists. split; [reflexivity|]. cbv zeta in *. unfold qq in *.
  set (kr := kr_of m) in *. set (kb := kb_of m) in *. set (Y := luma d r y) in *. set (Cb := chroma d r u) in *. set (Cr := chroma d r v) in *.
  set (yv := yv_of t (get_range r d) y) in *. set (cr := crc t * (v - bias_uv (get_range r d))) in *. set (cb := cbc t * (u - bias_uv (get_range r d))) in *.
  set (h1 := g1 t * (v - bias_uv (get_range r d))) in *. set (h2 := g2 t * (u - bias_uv (get_range r d))) in *. set (P := IZR (2 ^ (d - 1))) in *.
  rewrite Ph1 in LN. clearbody P.
  split; [|split; [|split; [|exact NEU]]]; apply chan; try assumption; rewrite Ph1.
  - unfold red. rewrite plus_IZR. apply Rabs_le. apply Rabs_le_inv in LN. apply Rabs_le_inv in C2. lra.
  - unfold green. rewrite !minus_IZR. apply Rabs_le. apply Rabs_le_inv in LN. apply Rabs_le_inv in C4. apply Rabs_le_inv in C5.
    replace ((2 * (1 - kr) * kr * Cr + 2 * (1 - kb) * kb * Cb) / (1 - kr - kb))%R
      with (2 * (1 - kr) * kr / (1 - kr - kb) * Cr + 2 * (1 - kb) * kb / (1 - kr - kb) * Cb)%R by (unfold Rdiv; ring).
    set (a := (2 * (1 - kr) * kr / (1 - kr - kb) * Cr)%R) in *. set (b := (2 * (1 - kb) * kb / (1 - kr - kb) * Cb)%R) in *. lra.
  - unfold blue. rewrite plus_IZR. apply Rabs_le. apply Rabs_le_inv in LN. apply Rabs_le_inv in C3. lra.
Qed.

(** without chroma, and for the identity matrix *)
Definition grey_val (d : Z) (r : yuv_range) (t : transform) (y : Z) : Z :=
  match r with Pc => y | Tv => qq d (yv_of t (get_range r d) y) end.
Lemma grey_pixel_ok m r d t y : depth_ok d -> (r = Tv -> tr_ok m r d t) -> u16s y ->
  grey_pixel d r t (get_range r d) y = Ok (let v := grey_val d r t y in [v; v; v; 2 ^ d - 1]).
Proof.
  intros Hd T Hy. unfold u16s in Hy. destruct (bias_ok r d Hd) as (B1 & B2 & B3 & _). destruct (max_ok d Hd) as (M1 & M2 & M3 & M4).
  unfold grey_pixel, grey_val. rewrite M1. destruct r; [|reflexivity]. destruct (T eq_refl) as (_ & (S1 & _) & _).
  assert (Ay : Z.abs (y - bias_y (get_range Tv d)) <= 65536) by lia. pose proof (mul_small _ _ _ Ay S1) as P1.
  rewrite (i32c_ok (y - bias_y (get_range Tv d))) by lia. cbn [bind]. unfold yv_of. set (yy := (y - bias_y (get_range Tv d)) * yc t) in *.
  rewrite (i32c_ok yy) by lia. cbn [bind]. rewrite qrshr_ok by lia. reflexivity.
Qed.
Lemma close_self d y : depth_ok d -> 0 <= y < 2 ^ d -> close d y (IZR y).
Proof.
  intros Hd Hy. destruct (max_ok d Hd) as (_ & M2 & _ & M4). unfold close. rewrite <- limit_clamp by assumption.
  replace (clampz 0 (2 ^ d - 1) y) with y by (unfold clampz; lia).
  rewrite Rminus_eq_0, Rabs_R0. unfold tol. destruct (pow_half d Hd). assert (0 <= IZR (2 ^ d))%R by lra. lra.
Qed.
Lemma grey_close m r d t y : depth_ok d -> (r = Tv -> tr_ok m r d t) -> 0 <= y < 2 ^ d ->
  close d (grey_val d r t y) (luma d r y).
Proof.
  intros Hd T Hy. unfold grey_val. destruct r.
  - specialize (T eq_refl). pose proof (luma_near _ _ _ _ y Hd T Hy) as LN. destruct (max_ok d Hd) as (_ & _ & _ & M4). destruct (pow_half d Hd).
    unfold qq. apply chan; [assumption|]. lra.
  - cbn [luma]. apply close_self; assumption.
Qed.
Lemma gbr_coef_ok d : depth_ok d -> near1 (gbr_coef d) (ls d Tv) /\ small (gbr_coef d).
Proof.
  destruct ls_val as (L1 & L2 & L3). intros [-> |[-> | ->]]; (match goal with |- context [gbr_coef ?k] => let v := eval vm_compute in (gbr_coef k) in replace (gbr_coef k) with v by (vm_compute; reflexivity) end);
  (split; [|unfold small; lia]); unfold near1; rewrite ?L1, ?L2, ?L3; apply Rabs_le; lra.
Qed.
Definition gbr_val (d : Z) (r : yuv_range) (y : Z) : Z :=
  match r with Pc => y | Tv => qq d ((y - bias_y (get_range Tv d)) * gbr_coef d) end.
Lemma gbr_chan_ok d y : depth_ok d -> u16s y -> gbr_chan d (gbr_coef d) y = Ok (gbr_val d Tv y).
Proof.
  intros Hd Hy. unfold u16s in Hy. destruct (bias_ok Tv d Hd) as (B1 & B2 & B3 & _). destruct (max_ok d Hd) as (M1 & M2 & M3 & M4).
  destruct (gbr_coef_ok d Hd) as [_ S1]. unfold gbr_chan, gbr_val.
  assert (Ay : Z.abs (y - bias_y (get_range Tv d)) <= 65536) by lia. pose proof (mul_small _ _ _ Ay S1) as P1.
  rewrite (i32c_ok (y - bias_y (get_range Tv d))) by lia. cbn [bind]. set (yy := (y - bias_y (get_range Tv d)) * gbr_coef d) in *.
  rewrite (i32c_ok yy) by lia. cbn [bind]. apply qrshr_ok; lia.
Qed.
Lemma gbr_pixel_ok r d y u v : depth_ok d -> u16s y -> u16s u -> u16s v ->
  gbr_pixel d r y u v = Ok [gbr_val d r v; gbr_val d r y; gbr_val d r u; 2 ^ d - 1].
Proof.
  intros Hd Hy Hu Hv. destruct (max_ok d Hd) as (M1 & _). unfold gbr_pixel. rewrite M1. destruct r; [|reflexivity].
  cbv zeta. rewrite !gbr_chan_ok by assumption. reflexivity.
Qed.
Lemma gbr_close r d y : depth_ok d -> 0 <= y < 2 ^ d -> close d (gbr_val d r y) (luma d r y).
Proof.
  intros Hd Hy. unfold gbr_val. destruct r.
  - destruct (gbr_coef_ok d Hd) as [N _]. destruct (max_ok d Hd) as (_ & _ & _ & M4). destruct (pow_half d Hd). unfold qq. apply chan; [assumption|].
    rewrite luma_scale by assumption. eapply Rle_trans; [apply near_mul, N|].
    eapply Rle_trans; [apply abs_IZR, bias_small; eassumption|]. lra.
  - cbn [luma]. apply close_self; assumption.
Qed.
