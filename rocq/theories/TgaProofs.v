(** Proofs about the TGA run-length coder and decoder. *)
From Verif Require Import Base BaseLemmas ListLemmas ListMore ColorType Tga TgaSpec.
Local Open Scope Z_scope.

Lemma byte_cases (f : Z -> bool) b : forallb f (zrange 0 256) = true -> 0 <= b <= 255 -> f b = true.
Proof. intros H Hb. rewrite forallb_forall in H. apply H. apply In_zrange. lia. Qed.
Lemma lor128 k : 0 <= k <= 127 -> Z.lor 128 k = 128 + k.
Proof.
  intros H. pose proof (byte_cases (fun k => (127 <? k) || (Z.lor 128 k =? 128 + k)) k eq_refl ltac:(lia)) as E.
  cbn beta in E. lia.
Qed.
Lemma land128 b : 0 <= b <= 255 -> (Z.land b 128 =? 0) = (b <? 128).
Proof.
  intros H. pose proof (byte_cases (fun b => Bool.eqb (Z.land b 128 =? 0) (b <? 128)) b eq_refl ltac:(lia)) as E.
  apply eqb_prop in E. exact E.
Qed.
Lemma land127 b : 0 <= b <= 255 -> Z.land b 127 = b mod 128.
Proof. intros H. change 127 with (Z.ones 7). rewrite Z.land_ones by lia. reflexivity. Qed.

Lemma Forall_eq_repeat {A} (p : A) l : Forall (eq p) l -> l = repeat p (length l).
Proof. induction 1; cbn; congruence. Qed.

(** ** the encoder *)
Section RLE.
Variable bpp : Z.
Hypothesis Hb : 0 < bpp.
Definition rinv (s : rle_st) (fin : list (list Z)) (ps : list packet) (pend : list (list Z)) : Prop :=
  out s = flat_map packet_bytes ps /\ Forall (packet_ok bpp) ps /\ flat_map packet_pixels ps ++ pend = fin /\
  zlen pend = counter s /\ counter s < 128 /\ rbuf s = concat pend /\
  Forall (fun p => zlen p = bpp) pend.
Definition typ_ok (s : rle_st) (pend : list (list Z)) : Prop :=
  packet_type s = PRle -> pend = [] \/ exists p, prev_pixel s = Some p /\ Forall (eq p) pend.

Lemma flat_map_snoc {A B} (f : A -> list B) l a : flat_map f (l ++ [a]) = flat_map f l ++ f a.
Proof. rewrite flat_map_app. cbn. rewrite app_nil_r. reflexivity. Qed.

Lemma flush_raw s fin ps pend : rinv s fin ps pend -> 0 < counter s ->
  exists b, write_raw_packet (rbuf s) (counter s) = Ok b /\
    out s ++ b = flat_map packet_bytes (ps ++ [Raw pend]) /\ Forall (packet_ok bpp) (ps ++ [Raw pend]) /\
    flat_map packet_pixels (ps ++ [Raw pend]) = fin.
Proof.
  intros (O & F & P & C & L & R & G) H. unfold write_raw_packet. replace (counter s =? 0) with false by lia.
  eexists. split; [reflexivity|]. rewrite !flat_map_snoc. rewrite O, R, <- C. split; [reflexivity|]. split.
  - apply Forall_app. split; [exact F|]. constructor; [|constructor]. cbn. split; [lia|exact G].
  - exact P.
Qed.
Lemma flush_rle s fin ps pend p : rinv s fin ps pend -> 0 < counter s -> Forall (eq p) pend ->
  exists b, write_rle_packet p (counter s) = Ok b /\
    out s ++ b = flat_map packet_bytes (ps ++ [Rle p (counter s)]) /\ Forall (packet_ok bpp) (ps ++ [Rle p (counter s)]) /\
    flat_map packet_pixels (ps ++ [Rle p (counter s)]) = fin.
Proof.
  intros (O & F & P & C & L & R & G) H E. unfold write_rle_packet. replace (counter s =? 0) with false by lia.
  eexists. split; [reflexivity|]. rewrite !flat_map_snoc. rewrite lor128 by lia. split; [rewrite O; reflexivity|]. split.
  - apply Forall_app. split; [exact F|]. constructor; [|constructor]. cbn. split; [lia|].
    destruct pend as [|q pend]; [change (zlen (@nil (list Z))) with 0 in C; lia|].
    inversion E; inversion G; subst; auto.
  - rewrite <- P. f_equal. cbn [packet_pixels]. rewrite (Forall_eq_repeat p pend E). f_equal. unfold zlen in C. lia.
Qed.

Lemma rinv_nil s fin ps : out s = flat_map packet_bytes ps -> Forall (packet_ok bpp) ps ->
  flat_map packet_pixels ps = fin -> counter s = 0 -> rbuf s = [] -> rinv s fin ps [].
Proof. intros. unfold rinv. rewrite app_nil_r, H2. repeat split; auto; lia. Qed.

Definition Inv (s : rle_st) (fin : list (list Z)) : Prop :=
  exists ps pend, rinv s fin ps pend /\ typ_ok s pend /\ (prev_pixel s = None -> pend = []).

Lemma rle_step_ok s fin pixel : Inv s fin -> zlen pixel = bpp ->
  exists s', rle_step (MAX_RUN_LENGTH * bpp) s pixel = Ok s' /\ Inv s' (fin ++ [pixel]).
Proof.
  intros (ps & pend & I & T & N) Hp.
  (* part 1: possibly flush *)
  assert (A : exists s1 ps1 pend1,
    (match prev_pixel s with
        | None => Ok s
        | Some prev =>
            if leqb pixel prev then
              if is_raw (packet_type s) && (0 <? counter s) then
                b <- write_raw_packet (rbuf s) (counter s) ;;
                Ok (mkSt 0 (prev_pixel s) PRle [] (out s ++ b))
              else Ok (mkSt (counter s) (prev_pixel s) PRle (rbuf s) (out s))
            else if negb (is_raw (packet_type s)) && (0 <? counter s) then
              b <- write_rle_packet prev (counter s) ;;
              Ok (mkSt 0 (prev_pixel s) PRaw [] (out s ++ b))
            else Ok s
        end) = Ok s1 /\ rinv s1 fin ps1 pend1 /\
      (packet_type s1 = PRle -> Forall (eq pixel) pend1 /\ (pend1 <> [] -> prev_pixel s1 = Some pixel))).
  { destruct (prev_pixel s) as [prev|] eqn:EP.
    2:{ exists s, ps, pend. split; [reflexivity|]. split; [exact I|]. rewrite (N eq_refl). intros _. split; [constructor|]. congruence. }
    destruct (leqb pixel prev) eqn:EL.
    - apply leqb_eq in EL. subst prev.
      destruct (is_raw (packet_type s) && (0 <? counter s)) eqn:EC.
      + destruct (flush_raw _ _ _ _ I ltac:(lia)) as (b & Eb & O & F & P). rewrite Eb. cbn [bind].
        eexists _, _, []. split; [reflexivity|]. split; [eapply rinv_nil; cbn; eauto|]. intros _. split; [constructor|congruence].
      + exists (mkSt (counter s) (Some pixel) PRle (rbuf s) (out s)), ps, pend. split; [reflexivity|]. split; [exact I|].
        intros _. cbn [prev_pixel]. split; [|reflexivity].
        destruct (packet_type s) eqn:ET.
        * cbn in EC. destruct I as (_ & _ & _ & C & _). pose proof (zlen_nonneg pend).
          rewrite (zlen_zero pend) by lia. constructor.
        * destruct (T ET) as [->|(q & Q & Fq)]; [constructor|]. congruence.
    - apply leqb_neq in EL. destruct (negb (is_raw (packet_type s)) && (0 <? counter s)) eqn:EC.
      + destruct (packet_type s) eqn:ET; [discriminate|]. cbn in EC.
        destruct (T ET) as [->|(q & Q & Fq)].
        { destruct I as (_ & _ & _ & C & _). change (zlen (@nil (list Z))) with 0 in C. lia. }
        rewrite EP in Q. apply Some_inj in Q. subst q.
        destruct (flush_rle _ _ _ _ _ I ltac:(lia) Fq) as (b & Eb & O & F & P). rewrite Eb. cbn [bind].
        eexists _, _, []. split; [reflexivity|]. split; [eapply rinv_nil; cbn; eauto|]. cbn. discriminate.
      + exists s, ps, pend. split; [reflexivity|]. split; [exact I|]. intros ET. rewrite ET in EC. cbn in EC.
        destruct I as (_ & _ & _ & C & _). pose proof (zlen_nonneg pend).
        rewrite (zlen_zero pend) by lia. split; [constructor|congruence]. }
  destruct A as (s1 & ps1 & pend1 & E1 & I1 & T1). unfold rle_step. rewrite E1. cbn [bind]. clear E1 I T N s ps pend.
  pose proof I1 as (O & F & P & C & L & R & G). pose proof (zlen_nonneg pend1).
  replace (u8_max <? counter s1 + 1) with false by (unfold u8_max; lia). cbn [rbuf counter].
  assert (RL : zlen (rbuf s1 ++ pixel) = (counter s1 + 1) * bpp).
  { rewrite zlen_app, R, (zlen_concat bpp) by auto. rewrite C, Hp. ring. }
  assert (cap : (counter s1 + 1) * bpp <= MAX_RUN_LENGTH * bpp)
    by (apply Z.mul_le_mono_nonneg_r; unfold MAX_RUN_LENGTH; lia).
  replace (_ <? zlen (rbuf s1 ++ pixel)) with false by lia.
  set (pend2 := pend1 ++ [pixel]).
  assert (P2 : flat_map packet_pixels ps1 ++ pend2 = fin ++ [pixel]) by (unfold pend2; rewrite app_assoc, P; reflexivity).
  assert (G2 : Forall (fun p => zlen p = bpp) pend2) by (apply Forall_app; auto).
  assert (C2 : zlen pend2 = counter s1 + 1) by (unfold pend2; rewrite zlen_app, C; reflexivity).
  assert (R2 : rbuf s1 ++ pixel = concat pend2) by (unfold pend2; rewrite concat_app, R; cbn; rewrite app_nil_r; reflexivity).
  destruct (Z.eqb_spec (counter s1 + 1) MAX_RUN_LENGTH) as [M|M].
  - unfold flush. cbn [packet_type prev_pixel rbuf counter]. unfold MAX_RUN_LENGTH in M.
    assert (NE : pend1 <> []) by (intros ->; change (zlen (@nil (list Z))) with 0 in C; lia).
    destruct (packet_type s1) eqn:ET.
    + unfold write_raw_packet. replace (_ =? 0) with false by lia. cbn [bind counter prev_pixel packet_type rbuf out].
      eexists. split; [reflexivity|]. exists (ps1 ++ [Raw pend2]), []. split; [|split].
      * eapply rinv_nil; cbn [out counter rbuf]; auto.
        -- rewrite flat_map_snoc, O, R2. cbn [packet_bytes]. rewrite C2. reflexivity.
        -- apply Forall_app. split; [exact F|]. constructor; [|constructor]. cbn. split; [lia|exact G2].
        -- rewrite flat_map_snoc. exact P2.
      * intros _. left. reflexivity.
      * reflexivity.
    + destruct (T1 eq_refl) as (Fe & Pp). rewrite (Pp NE). unfold write_rle_packet. replace (_ =? 0) with false by lia.
      cbn [bind counter prev_pixel packet_type rbuf out].
      eexists. split; [reflexivity|]. exists (ps1 ++ [Rle pixel 128]), []. split; [|split].
      * eapply rinv_nil; cbn [out counter rbuf]; auto.
        -- rewrite flat_map_snoc, O. cbn [packet_bytes]. rewrite lor128 by lia. rewrite M. reflexivity.
        -- apply Forall_app. split; [exact F|]. constructor; [|constructor]. cbn. split; [lia|exact Hp].
        -- rewrite flat_map_snoc, <- P2. f_equal. cbn [packet_pixels]. unfold pend2.
           assert (Fe2 : Forall (eq pixel) (pend1 ++ [pixel])) by (apply Forall_app; auto).
           rewrite (Forall_eq_repeat pixel _ Fe2). f_equal. fold pend2. unfold zlen in C2. lia.
      * intros _. left. reflexivity.
      * reflexivity.
  - cbn [bind counter prev_pixel packet_type rbuf out]. eexists. split; [reflexivity|]. unfold MAX_RUN_LENGTH in M.
    exists ps1, pend2. split; [|split].
    + repeat split; cbn [out counter rbuf]; auto. lia.
    + intros ET. cbn [packet_type] in ET. right. exists pixel. split; [reflexivity|]. apply Forall_app. split; [|auto].
      apply (T1 ET).
    + cbn. discriminate.
Qed.

Lemma rle_loop l : Forall (fun p => zlen p = bpp) l -> forall s fin, Inv s fin ->
  exists s', foldM (rle_step (MAX_RUN_LENGTH * bpp)) l s = Ok s' /\ Inv s' (fin ++ l).
Proof.
  induction 1 as [|p l Hp Hl IH]; intros s fin I.
  - exists s. rewrite app_nil_r. auto.
  - destruct (rle_step_ok s fin p I Hp) as (s1 & E & I1). cbn [foldM]. rewrite E. cbn [bind].
    destruct (IH _ _ I1) as (s2 & E2 & I2). exists s2. rewrite <- app_assoc in I2. auto.
Qed.

Lemma chunks_exact_len {A} (l : list A) : Forall (fun p => zlen p = bpp) (chunks_exact bpp l).
Proof.
  unfold chunks_exact. generalize (length l) at 1. intros n. revert l. induction n as [|n IH]; intros l; cbn [chunks_aux]; [constructor|].
  destruct (Nat.ltb_spec (length l) (Z.to_nat bpp)); [constructor|]. constructor; [|apply IH].
  rewrite zlen_firstn. unfold zlen. lia.
Qed.

Lemma rle_encode_ok image : exists ps, run_length_encode bpp image = Ok (flat_map packet_bytes ps) /\
  Forall (packet_ok bpp) ps /\ flat_map packet_pixels ps = chunks_exact bpp image.
Proof.
  unfold run_length_encode. replace (bpp =? 0) with false by lia.
  assert (I0 : Inv (mkSt 0 None PRle [] []) []).
  { exists [], []. split; [|split]; [|left; reflexivity|reflexivity]. repeat split; constructor. }
  destruct (rle_loop _ (chunks_exact_len image) _ _ I0) as (s & E & ps & pend & I & T & N). rewrite E. cbn [bind].
  cbn [app] in I. destruct (Z.ltb_spec 0 (counter s)) as [C|C].
  - unfold flush. destruct (packet_type s) eqn:ET.
    + destruct (flush_raw _ _ _ _ I C) as (b & Eb & O & F & P). rewrite Eb. cbn [bind]. rewrite O. eauto.
    + destruct (T ET) as [->|(p & Q & Fp)].
      { destruct I as (_ & _ & _ & CC & _). change (zlen (@nil (list Z))) with 0 in CC. lia. }
      rewrite Q. destruct (flush_rle _ _ _ _ _ I C Fp) as (b & Eb & O & F & P). rewrite Eb. cbn [bind]. rewrite O. eauto.
  - destruct I as (O & F & P & CC & _). pose proof (zlen_nonneg pend). rewrite (zlen_zero pend) in P by lia.
    rewrite app_nil_r in P. rewrite O. eauto.
Qed.
End RLE.
