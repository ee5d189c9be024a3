(** The Miller loops on an argument at infinity: the value is zero or killed by the final
    exponentiation when P is the identity, and it is zero once a line coefficient vanishes. *)
From Coq Require Import ZArith NArith List Bool Lia Ring Field Znumtheory.
From Verif Require Import Base.Field Base.Zp Base.Ext Base.Hom Spec.Weierstrass Spec.Edwards Spec.EdwardsWeierstrass Spec.Group Spec.Pairing
  Model.Power Model.Fp2 Model.Fp3 Model.Fp4 Model.Fp6_2over3 Model.Fp6_3over2 Model.Fp12 Model.ShortWeierstrass Model.Edwards Model.FieldParams Model.Shipped Model.FinalExp Model.Pairing
  Proof.ExtTheory Proof.FiniteField
  Proof.PairingCore Proof.PairingMiller Proof.PairingA40 Proof.PairingBls Proof.PairingProj Proof.PairingMnt Proof.PairingEd
  Proof.EdwardsOps Proof.EdwardsGroup Proof.EdwardsTorsion Proof.EdwardsDual Proof.EdwardsWeierstrass.
Import ListNotations.
Local Open Scope fld_scope.

(** [m] is [n] without some of its low bits *)
Fixpoint prefix (m n : positive) : bool :=
  Pos.eqb m n || match n with xH => false | xO k | xI k => prefix m k end.

Section Zk.
  Variable GT : FieldOps.
  Hypothesis KG : FieldLaws GT.
  Let RG := FieldLaws_Ring GT KG.
  Add Field GTzk : (FL_th GT KG).
  Variable e : N.
  Definition zk (x : GT) : Prop := x = 0 \/ killed GT e x.
  Lemma zk_1 : zk 1.
  Proof. right. apply (killed_1 GT KG). Qed.
  Lemma zk_mul x y : zk x -> zk y -> zk (x * y).
  Proof.
    intros [->|X] [->|Y]; [left; ring|left; ring|left; ring|]. right. apply (killed_mul GT KG); assumption.
  Qed.
  Lemma zk_inv x : finv (0 : GT) = 0 -> zk x -> zk (finv x).
  Proof. intros I0 [->|X]; [left; exact I0|]. right. apply (killed_inv GT KG), X. Qed.
  Section Values.
    Context {St C D : Type}.
    Variable dstep : St -> St * C.
    Variable astep : St -> St * D.
    Variable R0 : St.
    Variable ld : C -> GT.
    Variable la : D -> GT.
    Local Notation val := (pvalue dstep astep R0 (1 : GT) (fun c f => f * f * ld c) (fun c f => f * la c)).
    Lemma pvalue_zk : (forall c, zk (ld c)) -> (forall c, zk (la c)) -> forall n, zk (val n).
    Proof.
      intros HD HA n. induction n as [m IH|m IH|]; cbn [pvalue]; [| |exact zk_1]; repeat apply zk_mul; auto.
    Qed.
    Lemma pvalue_prefix m n : val m = 0 -> prefix m n = true -> val n = 0.
    Proof.
      intros Z. induction n as [k IH|k IH|]; cbn [prefix pvalue]; intros E; apply orb_true_iff in E; destruct E as [E|E].
      - apply Pos.eqb_eq in E. subst m. exact Z.
      - rewrite (IH E). ring.
      - apply Pos.eqb_eq in E. subst m. exact Z.
      - rewrite (IH E). ring.
      - apply Pos.eqb_eq in E. subst m. exact Z.
      - discriminate.
    Qed.
  End Values.
End Zk.

(** ** jacobian_with_a4_0 *)
Section A40.
  Variables K F GT : FieldOps.
  Hypothesis KK : FieldLaws K.
  Hypothesis KF : FieldLaws F.
  Hypothesis KG : FieldLaws GT.
  Let RG := FieldLaws_Ring GT KG.
  Add Field Fai : (FL_th F KF).
  Add Field GTai : (FL_th GT KG).
  Variable smul : K -> F -> F.
  Variable inc : K -> F.
  Hypothesis HI : Hom K F inc.
  Hypothesis Hs : forall k x, smul k x = inc k * x.
  Variable squared : GT -> GT.
  Hypothesis Hq : forall f, squared f = f * f.
  Variable emb : F -> GT.
  Hypothesis H : Hom F GT emb.
  Variable w : GT.
  Variable mul_by_045 : GT -> F -> F -> F -> GT.
  Hypothesis H045 : forall f x0 xVW xVV, mul_by_045 f x0 xVW xVV = f * slots F GT emb w xVW x0 xVV.
  Variables twist b' : F.
  Variable n : positive.
  Variable loop_neg : bool.
  Variable max_bits : nat.
  Hypothesis Hbits : (N.size (Npos n) <= N.of_nat (S max_bits))%N.
  Variables zx2 zy2 : F.
  Variable e : N.
  Hypothesis Hkill : forall c : F, c <> 0 -> killed GT e (emb c).
  Hypothesis Hkw : killed GT e (w * w * w).
  Hypothesis I0 : finv (0 : GT) = 0.
  Local Notation loop := (a40_miller_loop K F GT smul squared mul_by_045 (Npos n) loop_neg max_bits).
  Local Notation pre2 := (a40_precompute_g2 K F smul twist b' (Npos n) max_bits zx2 zy2).
  Local Notation dstep := (a40_doubling_step K F smul twist b' (finv (fofZ 2))).
  Local Notation astep := (a40_mixed_addition_step F twist).
  Local Notation line PP c := (slots F GT emb w (inc (PY PP) * ell_VW c) (ell_0 c) (inc (PX PP) * ell_VV c)).
  Local Notation val PP xq yq := (pvalue dstep (astep (mkA xq yq)) (mkT xq yq 1) (1 : GT) (fun c f => f * f * line PP c) (fun c f => f * line PP c)).
  Lemma a40_loop_value PP t xq yq : jac_to_affine F zx2 zy2 t = mkA xq yq ->
    loop PP (pre2 t) = Some (if loop_neg then finv (val PP xq yq n) else val PP xq yq n).
  Proof.
    intros E. rewrite (a40_precompute_g2_eq K F smul twist b' n max_bits Hbits zx2 zy2 xq yq t E). unfold a40_miller_loop.
    rewrite (a40_miller_state_eq K F GT smul squared mul_by_045 twist b' n max_bits Hbits xq yq PP).
    rewrite (a40_value K F GT smul inc Hs squared Hq emb w mul_by_045 H045 twist b' n xq yq PP), value_pvalue. reflexivity.
  Qed.
  Lemma slots_0 v : slots F GT emb w 0 v 0 = emb v * (w * w * w).
  Proof. unfold slots. rewrite !(hom_0 _ _ _ H). ring. Qed.
  Lemma a40_left t : exists f, loop (mkP1 0 0) (pre2 t) = Some f /\ zk GT e f.
  Proof.
    destruct (jac_to_affine F zx2 zy2 t) as [xq yq] eqn:E. rewrite (a40_loop_value _ t xq yq E). eexists. split; [reflexivity|].
    assert (L : forall c, zk GT e (line (mkP1 (0 : K) 0) c)).
    { intros c. cbn [PX PY]. rewrite !(hom_0 _ _ _ HI). replace (0 * ell_VW c) with (0 : F) by ring. replace (0 * ell_VV c) with (0 : F) by ring.
      rewrite slots_0. apply (zk_mul GT KG); [|right; exact Hkw].
      destruct (feq_dec F (FieldLaws_Ring F KF) (ell_0 c) 0) as [->|N]; [left; apply (hom_0 _ _ _ H)|right; apply Hkill, N]. }
    assert (V := pvalue_zk GT KG e dstep (astep (mkA xq yq)) (mkT xq yq 1) (fun c => line (mkP1 (0 : K) 0) c) (fun c => line (mkP1 (0 : K) 0) c) L L n).
    destruct loop_neg; [apply (zk_inv GT KG); [exact I0|exact V]|exact V].
  Qed.
  (** the second argument at infinity: x = 0 throughout; the first addition makes Z = 0, the second Y = 0 *)
  Lemma a40_dbl_x0 R : tX R = 0 -> tX (fst (dstep R)) = 0 /\ (tZ R = 0 -> tZ (fst (dstep R)) = 0).
  Proof.
    intros X. unfold a40_doubling_step. cbn [fst tX tY tZ]. rewrite !Hs, X. split; [ring|]. intros ->. ring.
  Qed.
  Lemma a40_add_x0 R zy : tX R = 0 -> let R' := fst (astep (mkA 0 zy) R) in tX R' = 0 /\ tZ R' = 0 /\ (tZ R = 0 -> tY R' = 0).
  Proof.
    intros X. unfold a40_mixed_addition_step. cbn [fst tX tY tZ aX aY]. rewrite X. split; [ring|]. split; [ring|]. intros ->. ring.
  Qed.
  Lemma a40_right PP t zy : jac_to_affine F zx2 zy2 t = mkA 0 zy -> prefix 26 n = true -> loop PP (pre2 t) = Some 0.
  Proof.
    intros E P. rewrite (a40_loop_value PP t 0 zy E).
    assert (Z : val PP 0 zy n = 0).
    { apply (pvalue_prefix GT KG dstep (astep (mkA 0 zy)) (mkT 0 zy 1) (fun c => line PP c) (fun c => line PP c) 26 n); [|exact P].
      cbn [pvalue]. set (R := prun dstep (astep (mkA 0 zy)) (mkT 0 zy 1) 13).
      assert (ER : R = mkT 0 0 0).
      { unfold R. cbn [prun]. set (R1 := mkT 0 zy 1).
        destruct (a40_dbl_x0 R1 eq_refl) as [X2 _]. set (R2 := fst (dstep R1)) in *.
        destruct (a40_add_x0 R2 zy X2) as (X3 & Z3 & _). set (R3 := fst (astep (mkA 0 zy) R2)) in *.
        destruct (a40_dbl_x0 R3 X3) as [X4 Z4]. specialize (Z4 Z3). set (R4 := fst (dstep R3)) in *.
        destruct (a40_dbl_x0 R4 X4) as [X5 Z5]. specialize (Z5 Z4). set (R5 := fst (dstep R4)) in *.
        destruct (a40_add_x0 R5 zy X5) as (X6 & Z6 & Y6). specialize (Y6 Z5). set (R6 := fst (astep (mkA 0 zy) R5)) in *.
        destruct R6 as [x y z]. cbn [tX tY tZ] in *. subst x y z. reflexivity. }
      rewrite ER.
      assert (C : snd (dstep (mkT 0 0 0)) = mkEll 0 0 0).
      { unfold a40_doubling_step. cbn [snd tX tY tZ]. rewrite !Hs. f_equal; ring. }
      rewrite C. cbn [ell_0 ell_VW ell_VV]. replace (inc (PY PP) * 0) with (0 : F) by ring. replace (inc (PX PP) * 0) with (0 : F) by ring.
      rewrite slots_0, (hom_0 _ _ _ H). ring. }
    rewrite Z. destruct loop_neg; [rewrite I0|]; reflexivity.
  Qed.
End A40.

(** ** projective *)
Section Proj.
  Variables K F GT : FieldOps.
  Hypothesis KK : FieldLaws K.
  Hypothesis KF : FieldLaws F.
  Hypothesis KG : FieldLaws GT.
  Let RF := FieldLaws_Ring F KF.
  Add Field Fpi : (FL_th F KF).
  Add Field GTpi : (FL_th GT KG).
  Variable smul : K -> F -> F.
  Variable inc : K -> F.
  Hypothesis HI : Hom K F inc.
  Hypothesis Hs : forall k x, smul k x = inc k * x.
  Variable squared : GT -> GT.
  Hypothesis Hq : forall f, squared f = f * f.
  Variable emb : F -> GT.
  Hypothesis H : Hom F GT emb.
  Variable w : GT.
  Variable mkgt : F -> F -> GT.
  Hypothesis Hmk : forall u v, mkgt u v = emb u + emb v * w.
  Variables twist a' : F.
  Variable n : positive.
  Variable loop_neg : bool.
  Variable max_bits : nat.
  Hypothesis Hbits : (N.size (Npos n) <= N.of_nat max_bits)%N.
  Variables zx1 zy1 : K.
  Variables zx2 zy2 : F.
  Variable e : N.
  Hypothesis Hkill : forall c : F, c <> 0 -> killed GT e (emb c).
  Hypothesis Hkw : killed GT e w.
  Hypothesis I0 : finv (0 : GT) = 0.
  Variable g_RR : pr_g1_prec K F -> dbl_coeffs F -> GT.
  Hypothesis HRR : forall P dc, g_RR P dc = pr_g_RR K F GT mkgt P dc.
  Local Notation mend := (pr_miller_loop K F GT inc mkgt squared (Npos n) loop_neg max_bits g_RR).
  Local Notation pre1 := (pr_precompute_g1 K F smul twist zx1 zy1).
  Local Notation pre2 := (pr_precompute_g2 K F smul twist a' (Npos n) loop_neg max_bits zx2 zy2).
  Local Notation dstep := (pr_doubling_step K F smul a').
  Local Notation astep xq yq := (pr_mixed_addition_step F xq yq (yq * yq)).
  Local Notation prec xq yq := (pr_prec K F smul twist a' n loop_neg xq yq).
  Local Notation last xq yq := (pr_last K F smul a' n xq yq).
  Local Notation val PP xq yq := (pvalue dstep (astep xq yq) (mkXP xq yq 1 1) (1 : GT) (fun c f => f * f * pr_g_RR K F GT mkgt PP c)
      (fun c f => f * pr_g_RQ K F GT inc mkgt PP (prec xq yq) c)).
  Lemma pr_loop_value PP t xq yq : proj_to_affine F zx2 zy2 t = mkA xq yq ->
    mend PP (pre2 t) = Some (if loop_neg then finv (val PP xq yq n * pr_g_RQ K F GT inc mkgt PP (prec xq yq) (last xq yq)) else val PP xq yq n).
  Proof.
    intros E. unfold pr_miller_loop.
    rewrite (pr_precompute_g2_eq K F smul twist a' n loop_neg max_bits Hbits zx2 zy2 xq yq t E).
    rewrite (pr_miller_end_eq K F GT smul inc squared Hq mkgt twist a' n loop_neg max_bits Hbits g_RR HRR xq yq PP). reflexivity.
  Qed.
  Lemma zk_emb c : zk GT e (emb c).
  Proof. destruct (feq_dec F RF c 0) as [->|N]; [left; apply (hom_0 _ _ _ H)|right; apply Hkill, N]. Qed.
  Lemma zk_mk0 u : zk GT e (mkgt u 0).
  Proof. rewrite Hmk, (hom_0 _ _ _ H). replace (emb u + 0 * w) with (emb u) by ring. apply zk_emb. Qed.
  Lemma zk_mk1 v : zk GT e (mkgt 0 v).
  Proof. rewrite Hmk, (hom_0 _ _ _ H). replace (0 + emb v * w) with (emb v * w) by ring. apply (zk_mul GT KG); [apply zk_emb|right; exact Hkw]. Qed.
  Lemma pr_left tP t : proj_is_zero K tP = true -> exists f, mend (pre1 tP) (pre2 t) = Some f /\ zk GT e f.
  Proof.
    intros Z.
    assert (E1 : pre1 tP = mkR1 0 0 0 0).
    { unfold pr_precompute_g1. rewrite Z. cbn [aX aY]. rewrite !Hs, !(hom_0 _ _ _ HI). f_equal; ring. }
    rewrite E1. destruct (proj_to_affine F zx2 zy2 t) as [xq yq] eqn:E. rewrite (pr_loop_value _ t xq yq E).
    eexists. split; [reflexivity|]. set (PP := mkR1 (0 : K) 0 (0 : F) 0).
    assert (LD : forall c, zk GT e (pr_g_RR K F GT mkgt PP c)).
    { intros c. unfold pr_g_RR, PP. cbn [rPX_twist rPY_twist]. replace (c_H c * 0) with (0 : F) by ring. apply zk_mk0. }
    assert (LA : forall c, zk GT e (pr_g_RQ K F GT inc mkgt PP (prec xq yq) c)).
    { intros c. unfold pr_g_RQ, PP. cbn [rPX_twist rPY_twist]. replace (c_RZ c * 0) with (0 : F) by ring. apply zk_mk1. }
    assert (V := pvalue_zk GT KG e dstep (astep xq yq) (mkXP xq yq 1 1) (pr_g_RR K F GT mkgt PP) (pr_g_RQ K F GT inc mkgt PP (prec xq yq)) LD LA n).
    destruct loop_neg; [apply (zk_inv GT KG); [exact I0|]; apply (zk_mul GT KG); [exact V|apply LA]|exact V].
  Qed.
  Lemma smul_8 x : smul (- fofZ 8) x = - (2 * 2 * 2 * x).
  Proof. exact (smul_m8 K F KF smul inc HI Hs x). Qed.
  (** zero_fill = (0, 0): the running point is (0, 0, 0, 0) after the first addition *)
  Lemma pr_right PP t : proj_to_affine F zx2 zy2 t = mkA 0 0 -> prefix 7 n = true -> mend PP (pre2 t) = Some 0.
  Proof.
    intros E P. rewrite (pr_loop_value PP t 0 0 E).
    assert (Z : val PP 0 0 n = 0).
    { apply (pvalue_prefix GT KG dstep (astep 0 0) (mkXP 0 0 1 1) (pr_g_RR K F GT mkgt PP) (pr_g_RQ K F GT inc mkgt PP (prec 0 0)) 7 n); [|exact P].
      cbn [pvalue prun].
      assert (D : fst (dstep (mkXP 0 0 1 1)) = mkXP (a' * a') (- (a' * a' * a')) 0 0).
      { unfold pr_doubling_step, fdbl. cbn [fst pX pY pZ pT]. rewrite smul_8. f_equal; ring. }
      rewrite D.
      assert (A : fst (astep 0 0 (mkXP (a' * a') (- (a' * a' * a')) 0 0)) = mkXP 0 0 0 0).
      { unfold pr_mixed_addition_step. cbn [fst pX pY pZ pT]. f_equal; ring. }
      rewrite A.
      assert (C : snd (dstep (mkXP 0 0 0 0)) = mkDbl 0 0 0 0).
      { unfold pr_doubling_step. cbn [snd pX pY pZ pT]. f_equal; ring. }
      rewrite C. replace (pr_g_RR K F GT mkgt PP (mkDbl 0 0 0 0)) with (0 : GT); [ring|].
      unfold pr_g_RR. cbn [c_H c_4C c_J c_L]. rewrite Hmk. replace (- 0 - 0 * rPX_twist PP + 0) with (0 : F) by ring.
      replace (0 * rPY_twist PP) with (0 : F) by ring. rewrite (hom_0 _ _ _ H). ring. }
    rewrite Z. destruct loop_neg; [|reflexivity]. f_equal. transitivity (finv (0 : GT)); [f_equal; ring|exact I0].
  Qed.
End Proj.

(** ** edwards<183> *)
Section Ed.
  Variables K F GT : FieldOps.
  Hypothesis KF : FieldLaws F.
  Hypothesis KG : FieldLaws GT.
  Let RF := FieldLaws_Ring F KF.
  Add Field Fei : (FL_th F KF).
  Add Field GTei : (FL_th GT KG).
  Variable smul : K -> F -> F.
  Variable inc : K -> F.
  Hypothesis Hs : forall k x, smul k x = inc k * x.
  Variable squared : GT -> GT.
  Hypothesis Hq : forall f, squared f = f * f.
  Variable emb : F -> GT.
  Hypothesis H : Hom F GT emb.
  Variable w : GT.
  Variable mkgt : F -> F -> GT.
  Hypothesis Hmk : forall u v, mkgt u v = emb u + emb v * w.
  Variables aF : F.
  Variable mul_by_a : F -> F.
  Hypothesis Hma : forall x, mul_by_a x = aF * x.
  Variable n : positive.
  Variable max_bits : nat.
  Hypothesis Hbits : (N.size (Npos n) <= N.of_nat max_bits)%N.
  Local Notation dstep := (ed_doubling_step F mul_by_a).
  Local Notation base x y := (mkXP x y (1 : F) (x * y)).
  Local Notation astep x y := (ed_mixed_addition_step F mul_by_a (base x y)).
  Local Notation loop := (ed_miller_loop K F GT smul mkgt squared (Npos n) max_bits).
  Local Notation pre2 := (ed_precompute_g2 F mul_by_a (Npos n) max_bits).
  Local Notation gRR := (ed_g_RR K F GT smul mkgt).
  Local Notation gRQ := (ed_g_RQ K F GT smul mkgt).
  Local Notation val PP x y := (pvalue dstep (astep x y) (base x y) (1 : GT) (fun c f => f * f * gRR PP c) (fun c f => f * gRQ PP c)).
  Lemma ed_loop_value PP x y : loop PP (pre2 (mkI x y 1)) = Some (val PP x y n).
  Proof.
    unfold ed_miller_loop. rewrite (ed_precompute_g2_eq F mul_by_a n max_bits Hbits x y).
    rewrite (ed_miller_state_eq K F GT smul squared Hq mkgt mul_by_a n max_bits Hbits x y PP), value_pvalue. reflexivity.
  Qed.
  (** the second argument at infinity: the first addition is that of the identity to the identity *)
  Lemma ed_right PP : prefix 3 n = true -> loop PP (pre2 (mkI 0 1 1)) = Some 0.
  Proof.
    intros P. rewrite ed_loop_value. f_equal.
    apply (pvalue_prefix GT KG dstep (astep 0 1) (base 0 1) (gRR PP) (gRQ PP) 3 n); [|exact P]. cbn [pvalue prun].
    assert (R : exists y z, fst (dstep (base 0 1)) = mkXP 0 y z 0 /\ y = z).
    { exists 1, 1. split; [|reflexivity]. unfold ed_doubling_step. cbn [fst pX pY pZ pT]. rewrite !Hma. f_equal; ring. }
    destruct R as (y & z & R & <-). rewrite R.
    assert (C : snd (astep 0 1 (mkXP 0 y y 0)) = mkConic 0 0 0).
    { unfold ed_mixed_addition_step. cbn [snd pX pY pZ pT]. rewrite !Hma. f_equal; ring. }
    rewrite C. replace (gRQ PP (mkConic 0 0 0)) with (0 : GT); [ring|].
    unfold ed_g_RQ. cbn [c_ZZ c_XY c_XZ]. rewrite Hmk, !Hs. replace (inc (P_ZZplusYZ PP) * 0) with (0 : F) by ring.
    replace (inc (P_XY PP) * 0 + inc (P_XZ PP) * 0) with (0 : F) by ring. rewrite (hom_0 _ _ _ H). ring.
  Qed.
End Ed.

(** P = O on edwards<183>: the lines are c_ZZ times a constant, in F or in F w *)
Section EdLeft.
  Variables K F GT : FieldOps.
  Hypothesis KF : FieldLaws F.
  Hypothesis KG : FieldLaws GT.
  Let RF := FieldLaws_Ring F KF.
  Add Field Fel : (FL_th F KF).
  Add Field GTel : (FL_th GT KG).
  Variable smul : K -> F -> F.
  Variable inc : K -> F.
  Hypothesis HI0 : inc 0 = 0.
  Hypothesis Hs : forall k x, smul k x = inc k * x.
  Variable squared : GT -> GT.
  Hypothesis Hq : forall f, squared f = f * f.
  Variable emb : F -> GT.
  Hypothesis H : Hom F GT emb.
  Variable w : GT.
  Variable mkgt : F -> F -> GT.
  Hypothesis Hmk : forall u v, mkgt u v = emb u + emb v * w.
  Variable twist : F.
  Hypothesis tw0 : twist <> 0.
  Variables aF dF : F.
  Hypothesis EaF : aF = twist.
  Variable mul_by_a : F -> F.
  Hypothesis Hma : forall x, mul_by_a x = aF * x.
  Hypothesis two : (2 : F) <> 0.
  Hypothesis three : (3 : F) <> 0.
  Hypothesis cmp : complete F dF aF.
  Variable r : N.
  Hypothesis odd : N.odd r = true.
  Variable n : positive.
  Variable max_bits : nat.
  Hypothesis Hbits : (N.size (Npos n) <= N.of_nat max_bits)%N.
  Variable e : N.
  Hypothesis Hkill : forall c : F, c <> 0 -> killed GT e (emb c).
  Hypothesis Hkw : killed GT e w.
  Local Notation IN P := (@gin (dual_group F KF two aF dF cmp r odd) P).
  Local Notation W := (te_weier F aF dF).
  Hypothesis Pr : prime (Z.of_N r).
  Hypothesis nlt : (Npos n < r)%N.
  Variables xq yq : F.
  Hypothesis inQ : IN (xq, yq).
  Hypothesis Q0 : (xq, yq) <> te_zero.
  Variable k : K.
  Hypothesis k0 : inc k <> 0.
  Local Notation base x y := (mkXP x y (1 : F) (x * y)).
  Local Notation dstep := (ed_doubling_step F mul_by_a).
  Local Notation astep := (ed_mixed_addition_step F mul_by_a (base xq yq)).
  Let PP := mkE1 (0 : K) 0 k.
  Local Notation gRR := (ed_g_RR K F GT smul mkgt PP).
  Local Notation gRQ := (ed_g_RQ K F GT smul mkgt PP).
  Let NS := odd_ns F KF two three aF dF cmp.
  Let WQ := ed_WQ F KF aF dF two cmp r odd xq yq inQ Q0.
  Let OQ : on_curve F (te_wa F aF dF) (te_wb F aF dF) (Aff (WX F aF dF yq) (WY F aF dF xq yq)).
  Proof. rewrite <- WQ. exact (W_odd_on F KF two aF dF cmp r odd (xq, yq) inQ). Qed.
  Let RQ : ec_mul F (te_wa F aF dF) (N.to_nat r) (Aff (WX F aF dF yq) (WY F aF dF xq yq)) = Inf.
  Proof.
    rewrite <- WQ, (W_mul F KF two three aF dF cmp r odd _ (xq, yq) inQ), (ed_order F KF aF dF two cmp r odd xq yq inQ). apply (W_zero F KF).
  Qed.
  Local Notation mult m := (mult F KF (te_wa F aF dF) (te_wb F aF dF) two NS (WX F aF dF yq) (WY F aF dF xq yq) m).
  Lemma killed_gRR c : c_ZZ c <> 0 -> killed GT e (gRR c).
  Proof.
    intros N. unfold ed_g_RR, PP. cbn [P_XY P_XZ P_ZZplusYZ]. rewrite Hmk, !Hs, HI0.
    replace (0 * c_XY c + 0 * c_XZ c) with (0 : F) by ring. rewrite (hom_0 _ _ _ H).
    replace (0 + emb (inc k * c_ZZ c) * w) with (emb (inc k * c_ZZ c) * w) by ring.
    apply (killed_mul GT KG); [apply Hkill, (fmul_neq_0 F KF); assumption|exact Hkw].
  Qed.
  Lemma killed_gRQ c : c_ZZ c <> 0 -> killed GT e (gRQ c).
  Proof.
    intros N. unfold ed_g_RQ, PP. cbn [P_XY P_XZ P_ZZplusYZ]. rewrite Hmk, !Hs, HI0.
    replace (0 * c_XY c + 0 * c_XZ c) with (0 : F) by ring. rewrite (hom_0 _ _ _ H).
    replace (emb (inc k * c_ZZ c) + 0 * w) with (emb (inc k * c_ZZ c)) by ring. apply Hkill, (fmul_neq_0 F KF); assumption.
  Qed.
  Lemma ed_left_main m : (Npos m < r)%N -> exists P1,
    xrep F (prun dstep astep (base xq yq) m) P1 /\ IN P1 /\ W P1 = mult (Npos m) /\
    killed GT e (pvalue dstep astep (base xq yq) (1 : GT) (fun c f => f * f * gRR c) (fun c f => f * gRQ c) m).
  Proof.
    assert (DBL : forall m, (2 * Npos m < r)%N -> (exists P1,
      xrep F (prun dstep astep (base xq yq) m) P1 /\ IN P1 /\ W P1 = mult (Npos m) /\
      killed GT e (pvalue dstep astep (base xq yq) (1 : GT) (fun c f => f * f * gRR c) (fun c f => f * gRQ c) m)) ->
      exists P1, let R := prun dstep astep (base xq yq) m in let v := pvalue dstep astep (base xq yq) (1 : GT) (fun c f => f * f * gRR c) (fun c f => f * gRQ c) m in
      xrep F (fst (dstep R)) P1 /\ IN P1 /\ W P1 = mult (2 * Npos m) /\ killed GT e (v * v * gRR (snd (dstep R)))).
    { intros m0 L ([x1 y1] & Rp & I1 & E & V). set (R := prun _ _ _ m0) in *. cbv zeta.
      assert (N1 : (x1, y1) <> te_zero).
      { intros Z. rewrite Z, (W_zero F KF) in E. symmetry in E. revert E. apply (mult_neq F KF _ _ two NS _ _ OQ r Pr RQ). lia. }
      destruct (din_add F KF two aF dF cmp r odd _ _ I1 I1) as (_ & _ & I3).
      exists (te_add F aF dF (x1, y1) (x1, y1)).
      split; [exact (ed_double F KF aF dF mul_by_a Hma two cmp r odd R (x1, y1) Rp I1)|]. split; [exact I3|].
      split; [rewrite <- (W_hom F KF two three aF dF cmp r odd _ _ I1 I1), E, <- (mult_add F KF _ _ two NS _ _ OQ); f_equal; lia|].
      apply (killed_mul GT KG); [apply (killed_mul GT KG); exact V|]. apply killed_gRR.
      destruct (ed_double_conic F KF aF mul_by_a Hma R x1 y1 Rp) as (C & _ & _). rewrite C.
      destruct (odd_reg F KF two aF dF cmp r odd _ I1 N1) as [X1 Y1]. cbn [fst snd] in X1, Y1.
      assert (YM : y1 - 1 <> 0).
      { intros Z. apply (fsub_0_eq F RF) in Z. subst y1. assert (O := odd_on F KF two aF dF cmp r odd _ I1). cbn in O.
        apply (odd_ad F KF aF dF cmp). apply (fmul_cancel_l F KF (x1 * x1)); [apply (fmul_neq_0 F KF); exact X1|].
        transitivity (aF * (x1 * x1) + 1 * 1 - (1 + dF * (x1 * x1) * (1 * 1))); [ring|]. rewrite O. ring. }
      assert (Z0 := proj1 Rp).
      intros Z. apply (fmul_neq_0 F KF (2 * (y1 * (x1 * (y1 - 1)))) (pZ R * pZ R)); [| |rewrite <- Z; ring];
        repeat apply (fmul_neq_0 F KF); assumption. }
    induction m as [m IH|m IH|]; intros L; cbn [prun pvalue].
    - destruct (DBL m ltac:(lia) (IH ltac:(lia))) as ([x1 y1] & Rp & I1 & E & V). cbv zeta in *. set (R := fst (dstep _)) in *.
      assert (N1 : (x1, y1) <> te_zero).
      { intros Z. rewrite Z, (W_zero F KF) in E. symmetry in E. revert E. apply (mult_neq F KF _ _ two NS _ _ OQ r Pr RQ). lia. }
      assert (WP := W_aff F KF two aF dF cmp r odd (x1, y1) I1 N1). cbn [fst snd] in WP. rewrite E in WP.
      assert (X := mult_x F KF _ _ two NS _ _ OQ r Pr RQ (2 * Npos m) _ _ ltac:(lia) ltac:(lia) WP).
      assert (Y : yq - y1 <> 0) by (intros Z; apply X; apply (fsub_0_eq F RF) in Z; rewrite Z; reflexivity).
      assert (D1 : (x1, y1) <> (xq, yq)) by (intros Z; injection Z as _ Z; apply Y; rewrite Z; ring).
      assert (D2 : (x1, y1) <> te_neg (xq, yq)) by (intros Z; injection Z as _ Z; apply Y; rewrite Z; ring).
      destruct (din_add F KF two aF dF cmp r odd _ _ I1 inQ) as (_ & _ & I3).
      exists (te_add F aF dF (x1, y1) (xq, yq)).
      split; [exact (ed_addition F KF aF dF mul_by_a Hma two cmp r odd R (x1, y1) xq yq Rp I1 inQ N1 Q0 D1 D2)|]. split; [exact I3|].
      split.
      { rewrite <- (W_hom F KF two three aF dF cmp r odd _ _ I1 inQ), E, WQ, <- (mult_1 F KF _ _ two NS (WX F aF dF yq) (WY F aF dF xq yq)), <- (mult_add F KF _ _ two NS _ _ OQ).
        f_equal; lia. }
      apply (killed_mul GT KG); [exact V|]. apply killed_gRQ.
      destruct (ed_add_conic F KF twist aF EaF mul_by_a Hma R x1 y1 xq yq Rp) as (C & _ & _). rewrite C.
      destruct (odd_reg F KF two aF dF cmp r odd _ I1 N1) as [X1 _]. destruct (odd_reg F KF two aF dF cmp r odd _ inQ Q0) as [X2 _].
      cbn [fst] in X1, X2. assert (Y' : y1 - yq <> 0) by (intros Z; apply Y; apply (fsub_0_eq F RF) in Z; rewrite Z; ring).
      assert (Z0 := proj1 Rp). apply (fmul_neq_0 F KF); [|exact Z0].
      repeat apply (fmul_neq_0 F KF); assumption.
    - destruct (DBL m ltac:(lia) (IH ltac:(lia))) as (P1 & Rp & I1 & E & V). exists P1. exact (conj Rp (conj I1 (conj E V))).
    - exists (xq, yq). split; [split; [apply (F_1_neq_0 (FL_th F KF))|cbn; repeat split; ring]|]. split; [exact inQ|]. split; [exact WQ|apply (killed_1 GT KG)].
  Qed.
  Lemma ed_left : exists f,
    ed_miller_loop K F GT smul mkgt squared (Npos n) max_bits PP (ed_precompute_g2 F mul_by_a (Npos n) max_bits (mkI xq yq 1)) = Some f /\ killed GT e f.
  Proof.
    eexists. split; [exact (ed_loop_value K F GT smul squared Hq mkgt mul_by_a n max_bits Hbits PP xq yq)|].
    destruct (ed_left_main n nlt) as (_ & _ & _ & _ & V). exact V.
  Qed.
End EdLeft.
