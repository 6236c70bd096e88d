(** The whole of read_image. *)
From Coq Require Import ZArith Reals Lra Lia List Bool.
From Verif Require Import Base BaseLemmas ListLemmas ListMore Color ColorProofs BitsProofs BufferProofs Yuv YuvSpec YuvProofs YuvProofs2 YuvProofs3 YuvProofs4.
Import ListNotations.
Local Open Scope Z_scope.

Definition scale (d : Z) : Z := if d =? 8 then 1 else 2 ^ (16 - d).
Lemma expand_ok d v : depth_ok d -> d <> 8 -> 0 <= v < 2 ^ d -> expand d v = v * 2 ^ (16 - d).
Proof.
  intros [-> |[-> | ->]] Hn Hv; [contradiction| |]; unfold expand, wrap_u16; cbv zeta; rewrite Z.shiftl_mul_pow2, Z.shiftr_div_pow2 by lia;
  (rewrite (Z.div_small v) by exact Hv); rewrite Z.lor_0_r; apply Z.mod_small; change (2 ^ 10) with 1024 in *; change (2 ^ 12) with 4096 in *;
  change (2 ^ (16 - 10)) with 64; change (2 ^ (16 - 12)) with 16; unfold u16_max; lia.
Qed.
Lemma elt_full f w h x y c : 0 < w -> 0 <= x < w -> 0 <= y < h -> 0 <= c < 4 -> (forall x y, zlen (f x y) = 4) ->
  elt (full f w h) ((y * w + x) * 4 + c) = elt (f x y) c.
Proof.
  intros Hw Hx Hy Hc Hf. unfold full. replace ((y * w + x) * 4 + c) with (y * (w * 4) + (x * 4 + c)) by ring.
  rewrite (elt_concat _ (w * 4) h); try lia.
  - rewrite (elt_concat _ 4 w); auto; lia.
  - intros i _. apply zlen_concat_map; auto; lia.
Qed.
Lemma map_full g f w h : map g (full f w h) = full (fun x y => map g (f x y)) w h.
Proof.
  unfold full. rewrite concat_map, map_map. f_equal. apply map_ext. intros y. rewrite concat_map, map_map. reflexivity.
Qed.
Lemma ne_concat big l : zlen (concat (map (ne_u16 big) l)) = 2 * zlen l.
Proof.
  rewrite (zlen_concat 2). { rewrite zlen_map. ring. }
  apply Forall_map_iff, Forall_forall. intros v _. unfold ne_u16. destruct big; reflexivity.
Qed.
Lemma ne_elt big l i : 0 <= i < zlen l ->
  let o := concat (map (ne_u16 big) l) in
  u16_ne big (elt o (2 * i)) (elt o (2 * i + 1)) = elt l i.
Proof.
  intros Hi. cbv zeta. rewrite (all_map l (zlen l) eq_refl) at 1 2. rewrite map_map.
  pose proof (elt_concat (fun k => ne_u16 big (elt l k)) 2 (zlen l) i 0) as E0. pose proof (elt_concat (fun k => ne_u16 big (elt l k)) 2 (zlen l) i 1) as E1.
  cbv beta in E0, E1. replace (2 * i) with (i * 2 + 0) by ring. rewrite E0 by (try lia; intros; unfold ne_u16; destruct big; reflexivity).
  replace (i * 2 + 0 + 1) with (i * 2 + 1) by ring. rewrite E1 by (try lia; intros; unfold ne_u16; destruct big; reflexivity).
  assert (T0 : forall a b, elt [a; b] 0 = a) by reflexivity. assert (T1 : forall a b, elt [a; b] 1 = b) by reflexivity.
  unfold ne_u16, u16_ne. pose proof (Z.div_mod (elt l i) 256 ltac:(lia)) as DM. destruct big; rewrite T0, T1; lia.
Qed.

Lemma colour_of big p x y R G B m : get_matrix (mc p) = Ok m ->
  good (depth p) (lay p) (rng p) m (Yat big p x y) (Uat big p x y) (Vat big p x y) R G B ->
  ((mc p = MCIdentity /\ lay p = I444) \/ used (mc p) <> None) -> colour big p x y R G B.
Proof.
  intros Hm (_ & H) Hu. unfold colour. cbv zeta in *.
  destruct (mc p); cbn in Hm; try discriminate Hm; apply Ok_inj in Hm; subst m; cbn [used h273 is_identity kr_of kb_of] in *;
  destruct (lay p); cbn [is_400] in H; try exact H; destruct Hu as [[Hu1 Hu2]|Hu]; try discriminate; try (contradiction Hu; reflexivity); assumption.
Qed.
Lemma matrix_ok c : c = MCIdentity \/ used c <> None -> exists m, get_matrix c = Ok m /\ (is_identity m = true -> c = MCIdentity).
Proof. destruct c; intros H; cbn; (destruct H as [H|H]; [try discriminate H|]); try (cbn in H; contradiction H; reflexivity); eexists; (split; [reflexivity|]); intros; try discriminate; reflexivity. Qed.

Lemma sample_range big d p w h x y : plane_ok big d p w h -> 0 <= x < w -> 0 <= y < h -> 0 <= sample big d p x y < 2 ^ d.
Proof.
  intros (_ & _ & H3 & H4) Hx Hy. split; [|apply H4; assumption]. unfold sample. 
  destruct (d =? 8); [apply (elt_byte (data p) (y * stride p + x) H3)|]. cbv zeta.
  assert (F : forall n, 0 <= nth n (data p) 0). { intros n. pose proof (elt_byte (data p) (Z.of_nat n) H3) as E. unfold elt in E. rewrite Nat2Z.id in E. lia. }
  pose proof (F (Z.to_nat (y * stride p + 2 * x))). pose proof (F (Z.to_nat (y * stride p + 2 * x) + 1)%nat). destruct big; lia.
Qed.
Lemma cx_range l x w : 0 <= x < w -> 0 <= cx l x < (if is_444 l then w else match l with I400 => w | _ => (w + 1) / 2 end).
Proof. intros. destruct l; cbn; Z.div_mod_to_equations; lia. Qed.
Lemma cy_range l y h : 0 <= y < h -> 0 <= cy l y < (match l with I420 => (h + 1) / 2 | _ => h end).
Proof. intros. destruct l; cbn; Z.div_mod_to_equations; lia. Qed.

(** d-bit samples of the whole picture: the worker followed by the alpha plane *)
Lemma picture_samples big p m yl ysr ul usr vl vsr al rgb :
  picture_ok big p -> get_matrix (mc p) = Ok m -> lay_ok (lay p) m ->
  views big (depth p) (py p) (pw p) (ph p) yl ysr ->
  (lay p <> I400 -> views big (depth p) (pu p) (chroma_w (lay p) (pw p)) (chroma_h (lay p) (ph p)) ul usr /\
                    views big (depth p) (pv p) (chroma_w (lay p) (pw p)) (chroma_h (lay p) (ph p)) vl vsr) ->
  (forall l a, alpha p = Some (l, a) -> exists pl st, al = Some (pl, st) /\ views big (depth p) a (pw p) (ph p) pl st) ->
  (alpha p = None -> al = None) -> zlen rgb = pw p * 4 * ph p ->
  exists f, (forall x y, zlen (f x y) = 4) /\
    (r <- worker (lay p) (depth p) (mkYuv yl ysr ul usr vl vsr (pw p) (ph p)) rgb (rng p) m ;;
     match al with None => Ok r | Some (pl, st) => put_alpha (pw p) pl st r end) = Ok (full f (pw p) (ph p)) /\
    forall x y, 0 <= x < pw p -> 0 <= y < ph p -> exists R G B,
      f x y = [R; G; B; alpha_at big p x y] /\ colour big p x y R G B /\ (0 <= R < 2 ^ depth p /\ 0 <= G < 2 ^ depth p /\ 0 <= B < 2 ^ depth p).
Proof.
  intros (Hd & Hw & Hh & Oy & Oc & Hu & Ha) Hm Hl Vy Vc Va Vn Hr. destruct Vy as [Py Ey].
  destruct (worker_ok (lay p) (depth p) (mkYuv yl ysr ul usr vl vsr (pw p) (ph p)) rgb (rng p) m Hd Hl) as (g & (G1 & G2) & W).
  { split; [exact Hw|]. split; [exact Hh|]. split; [exact Py|]. intros H4. destruct (Vc H4) as [[P1 _] [P2 _]]. split; assumption. }
  { exact Hr. }
  cbn [yp ys up us vp vs yw yh] in W. rewrite W. cbn [bind].
  set (f := fun x y => g (elt yl (y * ysr + x)) (elt ul (cy (lay p) y * usr + cx (lay p) x)) (elt vl (cy (lay p) y * vsr + cx (lay p) x))) in *.
  assert (Q : forall x y, 0 <= x < pw p -> 0 <= y < ph p -> exists R G B, f x y = [R; G; B; 2 ^ depth p - 1] /\ colour big p x y R G B /\ (0 <= R < 2 ^ depth p /\ 0 <= G < 2 ^ depth p /\ 0 <= B < 2 ^ depth p)).
  { intros x y Hx Hy. unfold f. rewrite Ey by assumption.
    assert (Yr : 0 <= sample big (depth p) (py p) x y < 2 ^ depth p) by (apply (sample_range _ _ _ _ _ _ _ Oy); assumption).
    destruct (is_400 (lay p)) eqn:E4.
    { assert (EL : lay p = I400) by (destruct (lay p); [reflexivity|discriminate E4..]).
      destruct (G2 (sample big (depth p) (py p) x y) (elt ul (cy (lay p) y * usr + cx (lay p) x)) (elt vl (cy (lay p) y * vsr + cx (lay p) x)) Yr (fun H4 => False_ind _ (H4 EL))) as (R & G & B & E & K).
      exists R, G, B. split; [exact E|]. split; [|exact (proj1 K)]. unfold good in K. destruct K as [_ K]. cbv zeta in K. rewrite E4 in K. unfold colour. rewrite EL in *.
      destruct Hu as [[_ Hu]|Hu]; [discriminate Hu|]. destruct (used (mc p)); [|contradiction]. destruct (mc p); exact K. }
    assert (N4 : lay p <> I400) by (intros H4; rewrite H4 in E4; discriminate E4).
    destruct (Vc N4) as [[Pu Eu] [Pv Ev]]; destruct (Oc N4) as [Ou Ov].
    assert (CX : 0 <= cx (lay p) x < chroma_w (lay p) (pw p)) by (destruct (lay p); cbn [cx chroma_w]; Z.div_mod_to_equations; lia).
    assert (CY : 0 <= cy (lay p) y < chroma_h (lay p) (ph p)) by (destruct (lay p); cbn [cy chroma_h]; Z.div_mod_to_equations; lia).
    replace (if is_444 (lay p) then pw p else (pw p + 1) / 2) with (chroma_w (lay p) (pw p)) in Ou, Ov by (destruct (lay p); [congruence|reflexivity..]).
    change (match lay p with I420 => (ph p + 1) / 2 | _ => ph p end) with (chroma_h (lay p) (ph p)) in Ou, Ov.
    rewrite Eu, Ev by assumption. pose proof (sample_range _ _ _ _ _ _ _ Ou CX CY) as Ru. pose proof (sample_range _ _ _ _ _ _ _ Ov CX CY) as Rv.
    destruct (G2 _ _ _ Yr (fun _ => conj Ru Rv)) as (R & G & B & E & K).
    exists R, G, B. split; [exact E|]. split; [|exact (proj1 K)]. exact (colour_of big p x y R G B m Hm K Hu). }
  destruct (alpha p) as [[l a]|] eqn:EA.
  - destruct (Va l a eq_refl) as (pl & st & -> & [Pa Eal]).
    rewrite (put_alpha_ok f _ _ _ _ Hw Hh (fun x y => G1 _ _ _) Pa). eexists. split; [|split; [reflexivity|]].
    + intros x y. cbv beta. rewrite zlen_zset. apply G1.
    + intros x y Hx Hy. destruct (Q x y Hx Hy) as (R & G & B & E & C). exists R, G, B. split; [|exact C]. cbv beta. rewrite E.
      unfold alpha_at. rewrite EA. rewrite Eal by assumption. reflexivity.
  - rewrite (Vn eq_refl). exists f. split; [intros; apply G1|]. split; [reflexivity|]. intros x y Hx Hy.
    destruct (Q x y Hx Hy) as (R & G & B & E & C). exists R, G, B. split; [|exact C]. unfold alpha_at. rewrite EA. exact E.
Qed.

Definition bpp (d : Z) : Z := if d =? 8 then 4 else 8.
Lemma read_ok big al p buf : picture_ok big p -> zlen buf = pw p * ph p * bpp (depth p) ->
  exists out, read_image big al p buf = Ok out /\ zlen out = zlen buf /\
    forall x y, 0 <= x < pw p -> 0 <= y < ph p -> exists R G B, colour big p x y R G B /\
      (0 <= R < 2 ^ depth p /\ 0 <= G < 2 ^ depth p /\ 0 <= B < 2 ^ depth p) /\
      let o := out_at big (depth p) (pw p) out x y in
      o 0 = R * scale (depth p) /\ o 1 = G * scale (depth p) /\ o 2 = B * scale (depth p) /\ o 3 = alpha_at big p x y * scale (depth p).
Proof.
  intros Hp Hb. pose proof Hp as (Hd & Hw & Hh & Oy & Oc & Hu & Ha).
  destruct (matrix_ok (mc p)) as (m & Hm & Hi); [tauto|].
  assert (Hl : lay_ok (lay p) m). { intros H. specialize (Hi H). destruct Hu as [[_ Hu]|Hu]; [exact Hu|]. rewrite Hi in Hu. contradiction Hu; reflexivity. }
  assert (NI : is_identity m && negb (is_444 (lay p)) = false).
  { destruct (is_identity m) eqn:E; [|reflexivity]. rewrite (Hl E). reflexivity. }
  assert (OC : lay p <> I400 -> plane_ok big (depth p) (pu p) (chroma_w (lay p) (pw p)) (chroma_h (lay p) (ph p)) /\ plane_ok big (depth p) (pv p) (chroma_w (lay p) (pw p)) (chroma_h (lay p) (ph p))).
  { intros H4. destruct (lay p); [congruence|exact (Oc H4)..]. }
  assert (Cw : 0 < chroma_w (lay p) (pw p)) by (destruct (lay p); cbn [chroma_w]; Z.div_mod_to_equations; lia).
  assert (Ch : 0 < chroma_h (lay p) (ph p)) by (destruct (lay p); cbn [chroma_h]; Z.div_mod_to_equations; lia).
  assert (Ar : forall x y, 0 <= x < pw p -> 0 <= y < ph p -> 0 <= alpha_at big p x y < 2 ^ depth p).
  { intros x y Hx Hy. unfold alpha_at. destruct (alpha p) as [[l a]|]; [|destruct (max_ok _ Hd); lia]. destruct (Ha l a eq_refl) as [_ Oa]. apply (sample_range _ _ _ _ _ _ _ Oa); assumption. }
  unfold read_image, bpp, scale, out_at in *. cbv zeta. destruct (Z.eqb_spec (depth p) 8) as [D8|D8].
  - rewrite Hb, Z.eqb_refl. cbn [negb orb]. replace ((pw p =? 0) || (ph p =? 0)) with false by lia. rewrite Hm. cbn [bind]. rewrite NI.
    destruct (picture_samples big p m (data (py p)) (stride (py p)) (data (pu p)) (stride (pu p)) (data (pv p)) (stride (pv p))
      (option_map (fun la => (data (snd la), stride (snd la))) (alpha p)) buf Hp Hm Hl) as (f & F1 & F2 & F3).
    { rewrite D8 in *. apply view8; assumption. }
    { intros H4. destruct (OC H4). rewrite D8 in *. split; apply view8; assumption. }
    { intros l a EA. rewrite EA. do 2 eexists. split; [reflexivity|]. destruct (Ha l a EA) as [_ Oa]. rewrite D8 in *. apply view8; assumption. }
    { intros ->. reflexivity. }
    { lia. }
    rewrite D8 in F2. exists (full f (pw p) (ph p)). split; [|split].
    + rewrite <- F2. destruct (worker _ _ _ _ _ _); cbn [bind]; try reflexivity. destruct (alpha p) as [[l a']|] eqn:EA; [|reflexivity]. destruct (Ha l a' eq_refl) as [-> _]. reflexivity.
    + rewrite zlen_full by (auto; lia). lia.
    + intros x y Hx Hy. destruct (F3 x y Hx Hy) as (R & G & B & E & C & RG). exists R, G, B. split; [exact C|]. split; [exact RG|].
      assert (NE : forall c, 0 <= c < 4 -> nth (Z.to_nat ((y * pw p + x) * 4 + c)) (full f (pw p) (ph p)) 0 = elt (f x y) c) by (intros c Hc; apply (elt_full f (pw p) (ph p) x y c); auto).
      rewrite !NE by lia. rewrite E. rewrite !Z.mul_1_r. repeat split; reflexivity.
  - assert (DD : ((false || (depth p =? 10)) || (depth p =? 12)) = true) by (destruct Hd as [Hd|[Hd|Hd]]; rewrite Hd; [contradiction|reflexivity..]).
    rewrite Hb. rewrite (proj2 (Z.eqb_eq (pw p * ph p * 8) (pw p * ph p * (4 * 2)))) by lia. cbn [negb]. rewrite DD. cbn [negb]. replace ((pw p =? 0) || (ph p =? 0)) with false by lia. rewrite Hm. cbn [bind]. rewrite NI.
    destruct (view16_ok big (depth p) (py p) (pw p) (ph p) D8 Hw Hh Oy) as (yl & ysr & Vy & VY).
    assert (exists ul usr vl vsr, (if is_400 (lay p) then Ok ([], 0) else view16 big (pu p) (chroma_w (lay p) (pw p)) (chroma_h (lay p) (ph p))) = Ok (ul, usr) /\
      (if is_400 (lay p) then Ok ([], 0) else view16 big (pv p) (chroma_w (lay p) (pw p)) (chroma_h (lay p) (ph p))) = Ok (vl, vsr) /\
      (lay p <> I400 -> views big (depth p) (pu p) (chroma_w (lay p) (pw p)) (chroma_h (lay p) (ph p)) ul usr /\ views big (depth p) (pv p) (chroma_w (lay p) (pw p)) (chroma_h (lay p) (ph p)) vl vsr))
      as (ul & usr & vl & vsr & Vu & Vv & VC).
    { destruct (is_400 (lay p)) eqn:E4.
      - do 4 eexists. split; [reflexivity|]. split; [reflexivity|]. intros H4. destruct (lay p); [congruence|discriminate E4..].
      - destruct OC as [Ou Ov]; [intros H4; rewrite H4 in E4; discriminate E4|].
        destruct (view16_ok big (depth p) _ _ _ D8 Cw Ch Ou) as (ul & usr & V1 & V2). destruct (view16_ok big (depth p) _ _ _ D8 Cw Ch Ov) as (vl & vsr & V3 & V4).
        exists ul, usr, vl, vsr. auto. }
    assert (exists ao, (forall l a, alpha p = Some (l, a) -> exists pl st, ao = Some (pl, st) /\ views big (depth p) a (pw p) (ph p) pl st) /\ (alpha p = None -> ao = None) /\
       forall rgb, (match alpha p with None => Ok rgb | Some (l, a) => if is_400 l then '(pl, st) <- view16 big a (pw p) (ph p) ;; put_alpha (pw p) pl st rgb else Err EDecoding end) =
                   (match ao with None => Ok rgb | Some (pl, st) => put_alpha (pw p) pl st rgb end)) as (ao & A1 & A2 & A3).
    { destruct (alpha p) as [[l a]|] eqn:EA.
      - destruct (Ha l a eq_refl) as [-> Oa]. destruct (view16_ok big (depth p) _ _ _ D8 Hw Hh Oa) as (pl & st & V1 & V2). exists (Some (pl, st)). split; [|split].
        + intros l' a' E. injection E as <- <-. exists pl, st. auto.
        + discriminate.
        + intros rgb. cbn [is_400]. rewrite V1. reflexivity.
      - exists None. split; [discriminate|]. split; reflexivity. }
    assert (D12 : (if depth p =? 10 then 10 else 12) = depth p) by (destruct Hd as [Hd|[Hd|Hd]]; rewrite Hd; [contradiction|reflexivity..]).
    assert (PROC : forall target, zlen target = pw p * 4 * ph p -> exists f, (forall x y, zlen (f x y) = 4) /\
      process16 big p m target = Ok (full (fun x y => map (expand (depth p)) (f x y)) (pw p) (ph p)) /\
      forall x y, 0 <= x < pw p -> 0 <= y < ph p -> exists R G B,
      f x y = [R; G; B; alpha_at big p x y] /\ colour big p x y R G B /\ (0 <= R < 2 ^ depth p /\ 0 <= G < 2 ^ depth p /\ 0 <= B < 2 ^ depth p)).
    { intros target Ht. destruct (picture_samples big p m yl ysr ul usr vl vsr ao target Hp Hm Hl VY VC A1 A2 Ht) as (f & F1 & F2 & F3).
      exists f. split; [exact F1|]. split; [|exact F3]. unfold process16. rewrite Vy. cbn [bind]. rewrite Vu. cbn [bind]. rewrite Vv. cbn [bind]. rewrite D12.
      destruct (worker _ _ _ _ _ _) as [r| |]; cbn [bind] in F2 |- *; try discriminate F2. rewrite A3, F2. cbn [bind]. rewrite map_full. reflexivity. }
    assert (FIN : forall f, (forall x y, zlen (f x y) = 4) -> (forall x y, 0 <= x < pw p -> 0 <= y < ph p -> exists R G B,
      f x y = [R; G; B; alpha_at big p x y] /\ colour big p x y R G B /\ (0 <= R < 2 ^ depth p /\ 0 <= G < 2 ^ depth p /\ 0 <= B < 2 ^ depth p)) ->
      let out := concat (map (ne_u16 big) (full (fun x y => map (expand (depth p)) (f x y)) (pw p) (ph p))) in
      zlen out = pw p * ph p * 8 /\
      forall x y, 0 <= x < pw p -> 0 <= y < ph p -> exists R G B, colour big p x y R G B /\ (0 <= R < 2 ^ depth p /\ 0 <= G < 2 ^ depth p /\ 0 <= B < 2 ^ depth p) /\
        forall c, 0 <= c < 4 -> (let i := Z.to_nat (2 * ((y * pw p + x) * 4 + c)) in if big then 256 * nth i out 0 + nth (i + 1) out 0 else nth i out 0 + 256 * nth (i + 1) out 0) =
           elt [R; G; B; alpha_at big p x y] c * 2 ^ (16 - depth p)).
    { intros f F1 F3 out. assert (Zf : zlen (full (fun x y => map (expand (depth p)) (f x y)) (pw p) (ph p)) = pw p * 4 * ph p) by (apply zlen_full; [lia|lia|intros; rewrite zlen_map; apply F1]).
      split; [unfold out; rewrite ne_concat, Zf; ring|]. intros x y Hx Hy. destruct (F3 x y Hx Hy) as (R & G & B & E & C & RG). exists R, G, B. split; [exact C|]. split; [exact RG|].
      intros c Hc. assert (Hi2 : 0 <= (y * pw p + x) * 4 + c < pw p * 4 * ph p) by nia.
      pose proof (ne_elt big _ ((y * pw p + x) * 4 + c) ltac:(rewrite Zf; exact Hi2)) as NE. cbv zeta in NE. fold out in NE.
      rewrite (elt_full _ _ _ x y c) in NE by (auto; try lia; intros; rewrite zlen_map; apply F1). rewrite elt_map in NE by (rewrite F1; lia). rewrite E in NE.
      rewrite expand_ok in NE; [|assumption|assumption|].
      - rewrite <- NE. cbv zeta. unfold u16_ne, elt at 1 2 3 4. replace (Z.to_nat (2 * ((y * pw p + x) * 4 + c) + 1)) with (Z.to_nat (2 * ((y * pw p + x) * 4 + c)) + 1)%nat by lia. destruct big; ring.
      - specialize (Ar x y Hx Hy). assert (c = 0 \/ c = 1 \/ c = 2 \/ c = 3) as [-> |[-> |[-> | ->]]] by lia; cbn; tauto. }
    destruct al.
    + destruct (PROC (pairs big buf)) as (f & F1 & F2 & F3). { rewrite (pairs_map big buf (pw p * ph p * 4)) by nia. rewrite zlen_map, zlen_zrange. nia. }
      destruct (FIN f F1 F3) as [Z1 Z2]. rewrite F2. cbn [bind]. eexists. split; [reflexivity|]. split; [rewrite Z1; lia|].
      intros x y Hx Hy. destruct (Z2 x y Hx Hy) as (R & G & B & C & RG & V). exists R, G, B. split; [exact C|]. split; [exact RG|].
      repeat split; (etransitivity; [apply V; lia|reflexivity]).
    + destruct (PROC (repeat 0 (Z.to_nat (pw p * ph p * 8 / 2)))) as (f & F1 & F2 & F3). { rewrite zlen_repeat. replace (pw p * ph p * 8 / 2) with (pw p * ph p * 4) by (replace (pw p * ph p * 8) with (pw p * ph p * 4 * 2) by ring; rewrite Z.div_mul by lia; reflexivity). nia. }
      destruct (FIN f F1 F3) as [Z1 Z2]. rewrite F2. cbn [bind]. rewrite overwrite_all by (rewrite Z1; lia). eexists. split; [reflexivity|]. split; [rewrite Z1; lia|].
      intros x y Hx Hy. destruct (Z2 x y Hx Hy) as (R & G & B & C & RG & V). exists R, G, B. split; [exact C|]. split; [exact RG|].
      repeat split; (etransitivity; [apply V; lia|reflexivity]).
Qed.
