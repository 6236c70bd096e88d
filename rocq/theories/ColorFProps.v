(** C21 for f32 samples and C23 (alpha blending).  [clamped01 x] is the value of an f32 clamped to 0..1 (NaN and +infinity
    count as 1); [over_num / over_den] is the exact source-over result, defined here again for the reader. *)
From Coq Require Import ZArith Reals Lra Lia.
From Flocq Require Import IEEE754.BinarySingleNaN Core.Core.
From Verif Require Import Base BaseLemmas Float FloatProofs Color ColorF JpegQuant ColorFProofs.
Local Open Scope Z_scope.

(** ** C21: f32 samples *)
Theorem C21_f32_to_int : forall t (x : f32), exists r, f32_to_int t x = Ok r /\ is_sample t r /\
  (Rabs (IZR r - clamped01 x * IZR (smax t)) <= / 2 + / 512)%R /\
  (clamped01 x = 0%R -> r = 0) /\ (clamped01 x = 1%R -> r = smax t).
Proof.
  intros t x. destruct (f32_to_int_ok t x) as (E & R). cbv zeta in E, R. eexists. split; [exact E|]. split; [exact R|]. split; [|split].
  - pose proof (scale_err t (clamped01 x) (clamped01_range x)) as S1. pose proof (Znearest_half (Z.leb 0) (RN32 (clamped01 x * IZR (smax t)))) as S2. apply Rabs_le_inv in S1. apply Rabs_le_inv in S2. apply Rabs_le. lra.
  - intros ->. rewrite Rmult_0_l, RN_0. apply (ZnearestA_Z 0).
  - intros ->. rewrite Rmult_1_l, (RN_repr 24 128 (IZR (smax t))); [apply ZnearestA_Z|]. apply (repr_Z 24 128 f32_prec f32_emax). pose proof (smax_range t). lia.
Qed.
Print Assumptions C21_f32_to_int.
Theorem C21_f32_to_int_monotone : forall t (x y : f32) r s, (clamped01 x <= clamped01 y)%R -> f32_to_int t x = Ok r -> f32_to_int t y = Ok s -> r <= s.
Proof.
  intros t x y r s L E1 E2. destruct (f32_to_int_ok t x) as (Ex & _). destruct (f32_to_int_ok t y) as (Ey & _). cbv zeta in Ex, Ey. rewrite Ex in E1. rewrite Ey in E2. apply Ok_inj in E1. apply Ok_inj in E2. subst r s. apply ZnearestA_le. apply RN_le; [exact eq_refl|]. apply Rmult_le_compat_r; [apply IZR_le; pose proof (smax_range t); lia|exact L].
Qed.
Print Assumptions C21_f32_to_int_monotone.
Theorem C21_int_to_f32 : forall t v, is_sample t v -> is_finite (int_to_f32 t v) = true /\ (0 <= B2R (int_to_f32 t v) <= 1)%R /\ (Rabs (B2R (int_to_f32 t v) - IZR v / IZR (smax t)) <= / IZR (2 ^ 24))%R /\
  (v = 0 -> B2R (int_to_f32 t v) = 0%R) /\ (v = smax t -> B2R (int_to_f32 t v) = 1%R).
Proof.
  intros t v Hv. pose proof (smax_range t) as HM. destruct (int_to_f32_ok t v Hv) as (E & F). pose proof (frac_01 (smax t) v ltac:(lia) Hv) as B. pose proof (frac_big (smax t) v HM Hv) as BB. split; [exact F|]. rewrite E. split; [apply RN_01; exact B|]. split; [|split].
  - eapply Rle_trans; [apply RN_rel; apply (big_le 16); [lia|exact BB]|]. fold uu. destruct uu_val as [U0 U1]. rewrite <- (Rmult_1_r uu) at 2. apply Rmult_le_compat_l; lra.
  - intros ->. unfold Rdiv. rewrite Rmult_0_l. apply RN_0.
  - intros ->. assert (1 <= IZR (smax t))%R by (apply IZR_le; lia). replace (IZR (smax t) / IZR (smax t))%R with 1%R by (field; lra). apply RN_repr. apply (repr_Z 24 128 f32_prec f32_emax 1). lia.
Qed.
Print Assumptions C21_int_to_f32.
Theorem C21_int_f32_roundtrip : forall t v, is_sample t v -> f32_to_int t (int_to_f32 t v) = Ok v.
Proof.
  intros t v Hv. pose proof (smax_range t) as HM. destruct (C21_int_to_f32 t v Hv) as (F & R & N & _). destruct (f32_to_int_ok t (int_to_f32 t v)) as (E & _). cbv zeta in E. rewrite E. f_equal.
  rewrite (clamped01_finite _ F). set (x := B2R (int_to_f32 t v)) in *. rewrite Rmax_right, Rmin_right by lra. pose proof (scale_err t x R) as S1. apply Rabs_le_inv in S1. apply Rabs_le_inv in N.
  assert (M1 : (1 <= IZR (smax t) <= 65535)%R) by (split; apply IZR_le; lia). assert (EV : (IZR v = IZR v / IZR (smax t) * IZR (smax t))%R) by (field; lra). set (q := (IZR v / IZR (smax t))%R) in *.
  assert (U : (/ IZR (2 ^ 24) <= / 16700000)%R) by apply uu_val. assert (D : (Rabs ((x - q) * IZR (smax t)) <= / 16700000 * 65535)%R). { rewrite Rabs_mult, (Rabs_pos_eq (IZR (smax t))) by lra. apply Rmult_le_compat; [apply Rabs_pos|lra|apply Rabs_le; lra|lra]. } apply Rabs_le_inv in D.
  apply Znearest_imp. apply Rabs_lt. lra.
Qed.
Print Assumptions C21_int_f32_roundtrip.
Example C21_f32_ex : f32_to_int U8 B754_nan = Ok 255 /\ f32_to_int U16 (B754_infinity true) = Ok 0 /\ f32_to_int U8 (f32_div f32_one (f32_of_Z 2)) = Ok 128 /\ f32_to_int U16 (int_to_f32 U16 12345) = Ok 12345.
Proof. vm_compute. auto. Qed.

(** ** C23 *)
(** [over_close M z n d]: z is the exact value n / d, rounded down up to a float error of 1/8: n/d - 9/8 < z <= n/d + 1/8 *)
Definition close (z n d : Z) : Prop := 8 * z * d <= 8 * n + d /\ 8 * n < 8 * z * d + 9 * d.
Lemma one_chan M b ba f fa : 1 <= M <= 65535 -> 0 <= b <= M -> 0 <= ba <= M -> 0 <= f <= M -> 0 <= fa <= M -> 0 < over_den M ba fa ->
  exists z, cast M (f32_mul (f32_of_Z M) (over (norm M b) (norm M ba) (norm M f) (norm M fa) (alpha_final (norm M ba) (norm M fa)))) = Ok z /\ 0 <= z <= M /\ close z (over_num M b ba f fa) (over_den M ba fa).
Proof.
  intros HM Hb Hba Hf Hfa HD. destruct (over_ok M b ba f fa HM Hb Hba Hf Hfa HD) as (F & P & E). cbv zeta in *. destruct (cast_near M _ (over_num M b ba f fa) (over_den M ba fa) ltac:(lia) F P HD) as (z & EZ & RZ & C1 & C2); [|exact E|].
  - unfold over_num, over_den. assert (f * fa <= M * fa) by nia. assert (b * ba <= M * ba) by nia. assert (f * fa * M <= M * fa * M) by nia. assert (b * ba * (M - fa) <= M * ba * (M - fa)) by nia. nia.
  - exists z. split; [exact EZ|]. split; [exact RZ|]. unfold close. lia.
Qed.
Lemma alpha_chan M ba fa : 1 <= M <= 65535 -> 0 <= ba <= M -> 0 <= fa <= M -> 0 < over_den M ba fa ->
  exists z, cast M (f32_mul (f32_of_Z M) (alpha_final (norm M ba) (norm M fa))) = Ok z /\ 0 <= z <= M /\ close z (over_den M ba fa) M.
Proof.
  intros HM Hba Hfa HD. destruct (alpha_ok M ba fa HM Hba Hfa HD) as (_ & _ & F & P & E). cbv zeta in *. destruct (cast_near M _ (over_den M ba fa) M ltac:(lia) F P ltac:(lia)) as (z & EZ & RZ & C1 & C2); [|exact E|].
  - unfold over_den. assert (0 <= (M - fa) * (M - ba)) by nia. lia.
  - exists z. split; [exact EZ|]. split; [exact RZ|]. unfold close. lia.
Qed.
Lemma den_pos M ba fa : 1 <= M -> 0 <= ba <= M -> 0 <= fa <= M -> ba <> 0 \/ fa <> 0 -> 0 < over_den M ba fa.
Proof. intros HM H1 H2 H. unfold over_den. assert (0 <= ba * (M - fa)) by nia. assert (0 <= fa * (M - ba)) by nia. destruct (Z.eq_dec fa 0) as [->|]; nia. Qed.

(** a fully transparent foreground leaves the background unchanged; a fully opaque one replaces it *)
Theorem C23_rgba_transparent : forall M bg r g b, zlen bg = 4 -> blend M Rgba bg [r; g; b; 0] = Ok bg.
Proof. intros M bg r g b H. destruct bg as [|b1 [|b2 [|b3 [|b4 [|]]]]]; try (unfold zlen in H; cbn in H; lia). reflexivity. Qed.
Print Assumptions C23_rgba_transparent.
Theorem C23_rgba_opaque : forall M bg r g b, 0 < M -> zlen bg = 4 -> blend M Rgba bg [r; g; b; M] = Ok [r; g; b; M].
Proof. intros M bg r g b HM H. destruct bg as [|b1 [|b2 [|b3 [|b4 [|]]]]]; try (unfold zlen in H; cbn in H; lia). cbn [blend]. unfold blend_rgba. replace (M =? 0) with false by lia. rewrite Z.eqb_refl. reflexivity. Qed.
Print Assumptions C23_rgba_opaque.
Theorem C23_no_alpha : forall M k bg fg, k = Luma \/ k = Rgb -> blend M k bg fg = Ok fg.
Proof. intros M k bg fg [->| ->]; reflexivity. Qed.
Print Assumptions C23_no_alpha.
(** blending u8 and u16 pixels never panics and gives a pixel; the result is the exact source-over colour
    (f fa M + b ba (M - fa)) / ((fa + ba) M - fa ba) and alpha ((fa + ba) M - fa ba) / M, rounded down, up to 1/8 *)
Theorem C23_rgba : forall t br bg bb ba fr fg fb fa, let M := smax t in Forall (is_sample t) [br; bg; bb; ba; fr; fg; fb; fa] -> fa <> 0 -> fa <> M ->
  let D := (fa + ba) * M - fa * ba in
  exists r g b a, blend M Rgba [br; bg; bb; ba] [fr; fg; fb; fa] = Ok [r; g; b; a] /\ Forall (is_sample t) [r; g; b; a] /\ 0 < D /\
    close r (fr * fa * M + br * ba * (M - fa)) D /\ close g (fg * fa * M + bg * ba * (M - fa)) D /\ close b (fb * fa * M + bb * ba * (M - fa)) D /\ close a D M.
Proof.
  intros t br bg bb ba fr fg fb fa M H N0 NM D. pose proof (smax_range t) as HM. fold M in HM. assert (SM : forall v, is_sample t v -> 0 <= v <= M) by (intros v Hv; exact Hv).
  assert (A : forall v, In v [br; bg; bb; ba; fr; fg; fb; fa] -> 0 <= v <= M) by (intros v Hv; apply SM; exact (proj1 (Forall_forall _ _) H v Hv)).
  assert (Hbr := A br ltac:(cbn; tauto)). assert (Hbg := A bg ltac:(cbn; tauto)). assert (Hbb := A bb ltac:(cbn; tauto)). assert (Hba := A ba ltac:(cbn; tauto)). assert (Hfr := A fr ltac:(cbn; tauto)). assert (Hfg := A fg ltac:(cbn; tauto)). assert (Hfb := A fb ltac:(cbn; tauto)). assert (Hfa := A fa ltac:(cbn; tauto)).
  pose proof (den_pos M ba fa ltac:(lia) Hba Hfa ltac:(auto)) as HD.
  destruct (one_chan M br ba fr fa HM Hbr Hba Hfr Hfa HD) as (r & Er & Rr & Cr). destruct (one_chan M bg ba fg fa HM Hbg Hba Hfg Hfa HD) as (g & Eg & Rg & Cg). destruct (one_chan M bb ba fb fa HM Hbb Hba Hfb Hfa HD) as (b & Eb & Rb & Cb). destruct (alpha_chan M ba fa HM Hba Hfa HD) as (a & Ea & Ra & Ca).
  destruct (alpha_ok M ba fa HM Hba Hfa HD) as (_ & Z0 & _). cbv zeta in Z0.
  exists r, g, b, a. split; [|split; [|split; [exact HD|split; [exact Cr|split; [exact Cg|split; [exact Cb|exact Ca]]]]]].
  - cbn [blend]. unfold blend_rgba. replace (fa =? 0) with false by lia. replace (fa =? M) with false by lia. cbv zeta. rewrite Z0, Er, Eg, Eb, Ea. reflexivity.
  - repeat (constructor; [assumption|]). constructor.
Qed.
Print Assumptions C23_rgba.
Theorem C23_lumaa : forall t bl ba fl fa, let M := smax t in Forall (is_sample t) [bl; ba; fl; fa] -> ba <> 0 \/ fa <> 0 ->
  let D := (fa + ba) * M - fa * ba in
  exists l a, blend M LumaA [bl; ba] [fl; fa] = Ok [l; a] /\ Forall (is_sample t) [l; a] /\ 0 < D /\ close l (fl * fa * M + bl * ba * (M - fa)) D /\ close a D M.
Proof.
  intros t bl ba fl fa M H N0 D. pose proof (smax_range t) as HM. fold M in HM.
  assert (A : forall v, In v [bl; ba; fl; fa] -> 0 <= v <= M) by (intros v Hv; exact (proj1 (Forall_forall _ _) H v Hv)).
  assert (Hbl := A bl ltac:(cbn; tauto)). assert (Hba := A ba ltac:(cbn; tauto)). assert (Hfl := A fl ltac:(cbn; tauto)). assert (Hfa := A fa ltac:(cbn; tauto)).
  pose proof (den_pos M ba fa ltac:(lia) Hba Hfa ltac:(auto)) as HD. destruct (one_chan M bl ba fl fa HM Hbl Hba Hfl Hfa HD) as (l & El & Rl & Cl). destruct (alpha_chan M ba fa HM Hba Hfa HD) as (a & Ea & Ra & Ca).
  destruct (alpha_ok M ba fa HM Hba Hfa HD) as (_ & Z0 & _). cbv zeta in Z0.
  exists l, a. split; [|split; [|split; [exact HD|split; [exact Cl|exact Ca]]]].
  - cbn [blend]. unfold blend_lumaa. cbv zeta. rewrite Z0, El, Ea. reflexivity.
  - repeat (constructor; [assumption|]). constructor.
Qed.
Print Assumptions C23_lumaa.
Theorem C23_lumaa_both_transparent : forall t bl fl, blend (smax t) LumaA [bl; 0] [fl; 0] = Ok [bl; 0].
Proof. intros [] bl fl; reflexivity. Qed.
Print Assumptions C23_lumaa_both_transparent.
(** no panic, for every kind *)
Theorem C23_total : forall t k bg fg, is_pixel t k bg -> is_pixel t k fg -> exists p, blend (smax t) k bg fg = Ok p /\ is_pixel t k p.
Proof.
  intros t k bg fg (L1 & F1) (L2 & F2). destruct k; cbn [nch] in *.
  - exists fg. split; [reflexivity|split; assumption].
  - destruct bg as [|b1 [|b2 [|]]]; try (unfold zlen in L1; cbn in L1; lia). destruct fg as [|f1 [|f2 [|]]]; try (unfold zlen in L2; cbn in L2; lia). destruct (Z.eq_dec b2 0) as [->|N]; [destruct (Z.eq_dec f2 0) as [->|N2]|].
    + rewrite C23_lumaa_both_transparent. exists [b1; 0]. split; [reflexivity|split; assumption].
    + destruct (C23_lumaa t b1 0 f1 f2) as (l & a & E & F & _); [change [b1; 0; f1; f2] with ([b1; 0] ++ [f1; f2]); apply Forall_app; split; assumption|auto|]. exists [l; a]. split; [exact E|split; [reflexivity|exact F]].
    + destruct (C23_lumaa t b1 b2 f1 f2) as (l & a & E & F & _); [change [b1; b2; f1; f2] with ([b1; b2] ++ [f1; f2]); apply Forall_app; split; assumption|auto|]. exists [l; a]. split; [exact E|split; [reflexivity|exact F]].
  - exists fg. split; [reflexivity|split; assumption].
  - destruct bg as [|b1 [|b2 [|b3 [|b4 [|]]]]]; try (unfold zlen in L1; cbn in L1; lia). destruct fg as [|f1 [|f2 [|f3 [|f4 [|]]]]]; try (unfold zlen in L2; cbn in L2; lia).
    destruct (Z.eq_dec f4 0) as [->|N0]; [rewrite C23_rgba_transparent by reflexivity; eexists; split; [reflexivity|split; assumption]|]. destruct (Z.eq_dec f4 (smax t)) as [->|NM]; [rewrite C23_rgba_opaque by (try reflexivity; pose proof (smax_range t); lia); eexists; split; [reflexivity|split; assumption]|].
    destruct (C23_rgba t b1 b2 b3 b4 f1 f2 f3 f4) as (r & g & b & a & E & F & _); [change [b1; b2; b3; b4; f1; f2; f3; f4] with ([b1; b2; b3; b4] ++ [f1; f2; f3; f4]); apply Forall_app; split; assumption|assumption|assumption|]. exists [r; g; b; a]. split; [exact E|split; [reflexivity|exact F]].
Qed.
Print Assumptions C23_total.
(** where the claim fails in the code: LumaA has no early returns, so float error shows; u32 pixels panic *)
Theorem C23_lumaa_transparent_refuted : blend 255 LumaA [3; 11] [77; 0] = Ok [2; 11].
Proof. vm_compute. reflexivity. Qed.
Print Assumptions C23_lumaa_transparent_refuted.
Theorem C23_lumaa_opaque_refuted : blend 255 LumaA [3; 128] [77; 255] = Ok [77; 254].
Proof. vm_compute. reflexivity. Qed.
Print Assumptions C23_lumaa_opaque_refuted.
Theorem C23_u32_refuted : blend u32_max Rgba [u32_max; 0; 0; u32_max] [u32_max; 0; 0; 4000000000] = Panic.
Proof. vm_compute. reflexivity. Qed.
Print Assumptions C23_u32_refuted.
(** painting over an opaque background can leave a pixel that is no longer opaque *)
Theorem C23_opaque_background_refuted : blend 65535 Rgba [10000; 20000; 30000; 65535] [65535; 100; 50; 30000] = Ok [35422; 10890; 16289; 65534].
Proof. vm_compute. reflexivity. Qed.
Print Assumptions C23_opaque_background_refuted.
Example C23_ex : blend 255 Rgba [10; 20; 30; 128] [200; 100; 50; 77] = Ok [97; 57; 39; 166] /\ blend 65535 Rgba [10000; 20000; 30000; 65535] [65535; 100; 50; 30000] = Ok [35422; 10890; 16289; 65534].
Proof. vm_compute. auto. Qed.
