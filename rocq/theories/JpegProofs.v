From Verif Require Import Base BaseLemmas ListLemmas ListMore BitLemmas GenImage Color Jpeg JpegSpec.
Local Open Scope Z_scope.

Lemma zigzag_is : zigzag = unzigzag.
Proof. vm_compute. reflexivity. Qed.

(** ** bit strings *)
Fixpoint val (bs : list bool) : Z := match bs with [] => 0 | b :: r => Z.b2z b * 2 ^ zlen r + val r end.
Fixpoint tobits (n : nat) (v : Z) : list bool := match n with O => [] | S n => Z.testbit v (Z.of_nat n) :: tobits n v end.
Lemma val_range bs : 0 <= val bs < 2 ^ zlen bs.
Proof.
  induction bs as [|b r IH]; [cbn; lia|]. cbn [val]. rewrite zlen_cons. pose proof (zlen_nonneg r). rewrite Z.pow_add_r by lia. change (2 ^ 1) with 2. destruct b; cbn [Z.b2z]; lia.
Qed.
Lemma val_app a b : val (a ++ b) = val a * 2 ^ zlen b + val b.
Proof.
  induction a as [|x r IH]; [cbn [app val]; lia|]. cbn [app val]. rewrite IH, zlen_app. pose proof (zlen_nonneg r). pose proof (zlen_nonneg b). rewrite Z.pow_add_r by lia. ring.
Qed.
Lemma zlen_tobits n v : zlen (tobits n v) = Z.of_nat n.
Proof. induction n as [|n IH]; [reflexivity|]. cbn [tobits]. rewrite zlen_cons, IH. lia. Qed.
Lemma val_tobits n v : val (tobits n v) = v mod 2 ^ Z.of_nat n.
Proof.
  induction n as [|n IH]; [cbn [tobits val]; change (Z.of_nat 0) with 0; change (2 ^ 0) with 1; rewrite Z.mod_1_r; reflexivity|]. cbn [tobits val]. rewrite zlen_tobits, IH.
  replace (Z.of_nat (S n)) with (1 + Z.of_nat n) by lia. rewrite Z.pow_add_r by lia. change (2 ^ 1) with 2. rewrite Z.testbit_spec' by lia.
  set (p := 2 ^ Z.of_nat n). assert (0 < p) by (apply Z.pow_pos_nonneg; lia). rewrite (Z.mul_comm 2 p). rewrite Z.rem_mul_r by lia. ring.
Qed.
Lemma receive_tobits n : forall acc v r, 0 <= v < 2 ^ Z.of_nat n -> receive n acc (tobits n v ++ r) = Some (acc * 2 ^ Z.of_nat n + v, r).
Proof.
  intros acc v r Hv. assert (G : receive n acc (tobits n v ++ r) = Some (acc * 2 ^ Z.of_nat n + v mod 2 ^ Z.of_nat n, r)); [|rewrite G, Z.mod_small by lia; reflexivity].
  clear Hv. revert acc. induction n as [|n IH]; intros acc; [cbn [receive tobits app]; change (Z.of_nat 0) with 0; change (2 ^ 0) with 1; rewrite Z.mod_1_r; repeat f_equal; lia|].
  cbn [receive tobits app]. rewrite IH. f_equal. f_equal. rewrite <- val_tobits. rewrite <- (val_tobits (S n)). cbn [tobits val]. rewrite zlen_tobits.
  replace (Z.of_nat (S n)) with (1 + Z.of_nat n) by lia. rewrite Z.pow_add_r by lia. change (2 ^ 1) with 2. ring.
Qed.
Lemma val_inj a b : zlen a = zlen b -> val a = val b -> a = b.
Proof.
  revert b. induction a as [|x r IH]; intros [|y q] L E; [reflexivity|exfalso; rewrite zlen_cons in L; pose proof (zlen_nonneg q); change (zlen (@nil bool)) with 0 in L; lia|exfalso; rewrite zlen_cons in L; pose proof (zlen_nonneg r); change (zlen (@nil bool)) with 0 in L; lia|].
  cbn [val] in E. rewrite !zlen_cons in L.
  assert (zlen r = zlen q) by lia. pose proof (val_range r). pose proof (val_range q). rewrite H in E, H0.
  assert (x = y) by (destruct x, y; cbn [Z.b2z] in *; try reflexivity; lia). subst y. f_equal. apply IH; [assumption|]. lia.
Qed.
Lemma byte_bits_tobits b : byte_bits b = tobits 8 b.
Proof. reflexivity. Qed.
Lemma byte_bits_val L : zlen L = 8 -> byte_bits (val L) = L.
Proof. intros H. rewrite byte_bits_tobits. apply val_inj; [rewrite zlen_tobits; lia|]. rewrite val_tobits. apply Z.mod_small. pose proof (val_range L). rewrite H in *. exact H0. Qed.

(** ** the bit writer *)
Definition stuff (d : list Z) : list Z := flat_map (fun b => if b =? 255 then [255; 0] else [b]) d.
Definition rep (base : list Z) (s : bw) (B : list bool) : Prop :=
  exists D L, B = flat_map byte_bits D ++ L /\ bytes D /\ zlen L < 8 /\ bw_out s = base ++ stuff D /\ bw_n s = zlen L /\ bw_acc s = val L * 2 ^ (32 - zlen L).
Lemma flush_ok base fuel : forall s D L, bytes D -> zlen L <= 32 -> zlen L <= 8 * Z.of_nat fuel + 7 -> bw_out s = base ++ stuff D -> bw_n s = zlen L -> bw_acc s = val L * 2 ^ (32 - zlen L) ->
  exists s', bw_flush fuel s = Ok s' /\ rep base s' (flat_map byte_bits D ++ L).
Proof.
  induction fuel as [|fuel IH]; intros s D L BD L32 LF EO EN EA; pose proof (zlen_nonneg L) as L0.
  - cbn [bw_flush]. replace (bw_n s <? 8) with true by (rewrite EN; symmetry; apply Z.ltb_lt; lia). exists s. split; [reflexivity|]. exists D, L. repeat split; auto; lia.
  - cbn [bw_flush]. rewrite EN. destruct (Z.ltb_spec (zlen L) 8) as [S|S].
    + exists s. split; [reflexivity|]. exists D, L. repeat split; auto.
    + set (A := firstn 8 L). set (R := skipn 8 L). assert (EL : L = A ++ R) by (symmetry; apply firstn_skipn).
      assert (LA : zlen A = 8) by (unfold A, zlen in *; rewrite firstn_length; lia). assert (LR : zlen R = zlen L - 8) by (rewrite EL, zlen_app, LA; lia). clearbody A R.
      pose proof (val_range A) as VA. pose proof (val_range R) as VR. rewrite LA in VA. change (2 ^ 8) with 256 in VA. rewrite LR in VR.
      assert (P1 : 2 ^ (zlen L - 8) * 2 ^ (32 - zlen L) = 2 ^ 24) by (rewrite <- Z.pow_add_r by lia; f_equal; lia).
      assert (P2 : 0 < 2 ^ (32 - zlen L)) by (apply Z.pow_pos_nonneg; lia).
      assert (EV : bw_acc s = val A * 2 ^ 24 + val R * 2 ^ (32 - zlen L)). { rewrite EA. rewrite EL at 1. rewrite val_app, LR. rewrite <- P1. ring. }
      assert (VR2 : 0 <= val R * 2 ^ (32 - zlen L) < 2 ^ 24) by (rewrite <- P1; split; [apply Z.mul_nonneg_nonneg; lia|apply Z.mul_lt_mono_pos_r; lia]).
      assert (EB : Z.shiftr (bw_acc s) 24 = val A). { rewrite Z.shiftr_div_pow2 by lia. rewrite EV. rewrite Z.add_comm, Z.div_add by lia. rewrite Z.div_small by lia. lia. }
      cbv zeta. rewrite EB. destruct (IH (mkBw (bw_out s ++ [val A] ++ (if val A =? 255 then [0] else [])) (wrap_u32 (Z.shiftl (bw_acc s) 8)) (zlen L - 8)) (D ++ [val A]) R) as (s' & E' & R').
      * apply bytes_app. split; [exact BD|]. repeat constructor; unfold u8_max; lia.
      * lia.
      * lia.
      * cbn [bw_out]. rewrite EO. unfold stuff. rewrite flat_map_app, <- app_assoc. cbn [flat_map]. rewrite app_nil_r. do 2 f_equal. destruct (Z.eqb_spec (val A) 255) as [->|]; reflexivity.
      * cbn [bw_n]. lia.
      * cbn [bw_acc]. rewrite LR. unfold wrap_u32. rewrite Z.shiftl_mul_pow2 by lia. rewrite EV.
        replace ((val A * 2 ^ 24 + val R * 2 ^ (32 - zlen L)) * 2 ^ 8) with (val R * 2 ^ (32 - (zlen L - 8)) + val A * 2 ^ 32).
        2: { replace (32 - (zlen L - 8)) with ((32 - zlen L) + 8) by lia. rewrite Z.pow_add_r by lia. change (2 ^ 32) with (2 ^ 24 * 2 ^ 8). ring. }
        change 4294967296 with (2 ^ 32). rewrite Z.mod_add by (apply Z.pow_nonzero; lia). apply Z.mod_small. replace (32 - (zlen L - 8)) with ((32 - zlen L) + 8) by lia. rewrite Z.pow_add_r by lia. rewrite Z.mul_assoc.
        change (2 ^ 32) with (2 ^ 24 * 2 ^ 8). split; [apply Z.mul_nonneg_nonneg; [lia|]; apply Z.lt_le_incl; reflexivity|apply Z.mul_lt_mono_pos_r; [reflexivity|lia]].
      * exists s'. split; [exact E'|]. replace (flat_map byte_bits D ++ L) with (flat_map byte_bits (D ++ [val A]) ++ R); [exact R'|].
        rewrite flat_map_app. cbn [flat_map]. rewrite app_nil_r, byte_bits_val by exact LA. rewrite <- app_assoc, <- EL. reflexivity.
Qed.
Lemma write_bits_ok base s B v n : rep base s B -> 0 <= n <= 16 -> 0 <= v < 2 ^ n -> exists s', write_bits s v n = Ok s' /\ rep base s' (B ++ tobits (Z.to_nat n) v).
Proof.
  intros (D & L & EB & BD & LL & EO & EN & EA) Hn Hv. unfold write_bits. destruct (Z.eqb_spec n 0) as [->|N].
  - exists s. split; [reflexivity|]. cbn [tobits Z.to_nat]. rewrite app_nil_r. exists D, L. auto 10.
  - cbv zeta. rewrite EN. pose proof (zlen_nonneg L). replace (32 <? zlen L + n) with false by (symmetry; apply Z.ltb_ge; lia).
    set (N' := tobits (Z.to_nat n) v). assert (LN : zlen N' = n) by (unfold N'; rewrite zlen_tobits; lia). assert (VN : val N' = v) by (unfold N'; rewrite val_tobits, Z2Nat.id by lia; apply Z.mod_small; lia).
    destruct (flush_ok base 5 (mkBw (bw_out s) (Z.lor (bw_acc s) (wrap_u32 (Z.shiftl v (32 - (zlen L + n))))) (zlen L + n)) D (L ++ N') BD) as (s' & E & R).
    + rewrite zlen_app. lia.
    + rewrite zlen_app. lia.
    + exact EO.
    + cbn [bw_n]. rewrite zlen_app. lia.
    + cbn [bw_acc]. rewrite zlen_app, LN. rewrite val_app, LN, VN. rewrite Z.shiftl_mul_pow2 by lia. pose proof (val_range L) as VL.
      assert (P2 : 0 < 2 ^ (32 - (zlen L + n))) by (apply Z.pow_pos_nonneg; lia).
      assert (P3 : 2 ^ n * 2 ^ (32 - (zlen L + n)) = 2 ^ (32 - zlen L)) by (rewrite <- Z.pow_add_r by lia; f_equal; lia).
      assert (P4 : 2 ^ (32 - zlen L) <= 2 ^ 32) by (apply Z.pow_le_mono_r; lia).
      assert (V2 : 0 <= v * 2 ^ (32 - (zlen L + n)) < 2 ^ (32 - zlen L)) by (rewrite <- P3; split; [apply Z.mul_nonneg_nonneg; lia|apply Z.mul_lt_mono_pos_r; lia]).
      unfold wrap_u32. change 4294967296 with (2 ^ 32). rewrite Z.mod_small by lia. rewrite EA. rewrite <- Z.shiftl_mul_pow2 by lia.
      rewrite (BitLemmas.lor_shift_small (val L) (v * 2 ^ (32 - (zlen L + n))) (32 - zlen L)) by lia. rewrite <- P3. ring.
    + exists s'. split; [exact E|]. rewrite EB, <- app_assoc. exact R.
Qed.
