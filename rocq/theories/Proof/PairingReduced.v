(** The reduced pairings: negation in either argument. *)
From Coq Require Import ZArith NArith List Bool Lia Ring Field Znumtheory.
From Verif Require Import Base.Field Base.Zp Base.Ext Base.Hom Spec.Weierstrass Spec.Pairing Model.Power Model.Fp2 Model.Fp3 Model.Fp4
  Model.Fp6_2over3 Model.Fp6_3over2 Model.Fp12
  Proof.ExtTheory Proof.FiniteField Proof.PairingMiller Proof.PairingBls Proof.PairingMnt Proof.PairingNeg.
Local Open Scope fld_scope.

Section Conj.
  Variables F G : FieldOps.
  Hypothesis KF : FieldLaws F.
  Hypothesis KG : FieldLaws G.
  Let RG := FieldLaws_Ring G KG.
  Add Field Gcj : (FL_th G KG).
  Variable emb : F -> G.
  Hypothesis H : Hom F G emb.
  Variable w : G.
  Hypothesis Hw : w <> 0.
  Variable conj : G -> G.
  Hypothesis HC : Hom G G conj.
  Hypothesis Ce : forall x, conj (emb x) = emb x.
  Hypothesis Cw : conj w = - w.
  Lemma conj_untwist x y : finv (0 : G) = 0 -> point_map conj (untwist emb w (Aff x y)) = ec_neg (untwist emb w (Aff x y)).
  Proof.
    intros J0. cbn [untwist point_map ec_neg]. unfold fdiv. rewrite !(hom_mul _ _ _ HC), !(h_inv G G KG KG conj HC J0 J0), !(hom_mul _ _ _ HC), !Ce, !Cw.
    f_equal; field; repeat split; try exact Hw; intros E; apply Hw; transitivity (- - w); try ring; rewrite E; ring.
  Qed.
  Lemma conj_at x y : point_map conj (Aff (emb x) (emb y)) = Aff (emb x) (emb y).
  Proof. cbn. rewrite !Ce. reflexivity. Qed.
  Variable F' : FieldOps.
  Hypothesis KF' : FieldLaws F'.
  Variable emb' : F' -> G.
  Hypothesis H' : Hom F' G emb'.
  Variable norm : G -> F'.
  Hypothesis Cn : forall x, x * conj x = emb' (norm x).
  Variables p d e : N.
  Hypothesis FF : FinField F' p d.
  Hypothesis He : ((p ^ d - 1) * (e / (p ^ d - 1)) = e)%N.
  Lemma conj_killed x : x <> 0 -> killed G e (x * conj x).
  Proof.
    intros N. rewrite Cn. apply (killed_hom F' G KF' KG emb' H' p d FF e He). intros Z.
    apply (fmul_neq_0 G KG x (conj x) N (emb_neq0 G G KG KG conj HC x N)). rewrite Cn, Z. apply (hom_0 _ _ _ H').
  Qed.
End Conj.

Section Conj4.
  Variable K : FieldOps.
  Variable nr : K.
  Hypothesis KK : FieldLaws K.
  Local Notation F := (Fp2 K nr).
  Local Notation G := (Fp4 K nr nr).
  Hypothesis KG : FieldLaws G.
  Let RG := FieldLaws_Ring G KG.
  Add Field Kc4 : (FL_th K KK).
  Definition conj4 (x : G) : G := mkq (q0 x) (fopp (q1 x : F)).
  Definition norm4 (x : G) : F := (q0 x : F) * q0 x - fp4_mbnr K nr nr ((q1 x : F) * q1 x).
  Ltac go4 := unfold conj4, norm4, emb4, w4; cbn; unfold fp4_add, fp4_sub, fp4_neg, fp4_sub, fp4_zero, fp4_one, fp4_mul, fp4_mbnr; cbn;
    unfold fp2_zero, fp2_one, fp2_neg, fp2_sub, fp2_add, fp2_mul; cbn.
  Ltac fin4 := go4; f_equal; apply quad_ext; cbn; ring.
  Lemma conj4_hom : Hom G G conj4.
  Proof.
    assert (I : forall x : G, conj4 (conj4 x) = x) by (intros [[x0 x1] [x2 x3]]; fin4).
    constructor; intros; try (try destruct x as [[x0 x1] [x2 x3]]; try destruct y as [[y0 y1] [y2 y3]]; fin4).
    destruct (feqb_spec G RG x y) as [->|N]; [apply (feqb_refl G RG)|]. apply (feqb_false G RG). intros E. apply N.
    rewrite <- (I x), E. apply I.
  Qed.
  Lemma conj4_emb x : conj4 (emb4 K nr x) = emb4 K nr x.
  Proof. destruct x. fin4. Qed.
  Lemma conj4_w : conj4 (w4 K nr) = - w4 K nr.
  Proof. fin4. Qed.
  Lemma conj4_norm x : x * conj4 x = emb4 K nr (norm4 x).
  Proof. destruct x as [[x0 x1] [x2 x3]]. fin4. Qed.
End Conj4.

Section Conj6.
  Variable K : FieldOps.
  Variable nr : K.
  Hypothesis KK : FieldLaws K.
  Local Notation F := (Fp3 K nr).
  Local Notation G := (Fp6t K nr nr).
  Hypothesis KG : FieldLaws G.
  Let RG := FieldLaws_Ring G KG.
  Add Field Kc6 : (FL_th K KK).
  Definition conj6 (x : G) : G := mkq (q0 x) (fopp (q1 x : F)).
  Definition norm6 (x : G) : F := (q0 x : F) * q0 x - fp6t_mbnr K nr nr ((q1 x : F) * q1 x).
  Ltac go6 := unfold conj6, norm6, emb6, w6; cbn; unfold fp6t_add, fp6t_sub, fp6t_neg, fp6t_sub, fp6t_zero, fp6t_one, fp6t_mul, fp6t_mbnr; cbn;
    unfold fp3_zero, fp3_one, fp3_neg, fp3_sub, fp3_add, fp3_mul; cbn.
  Ltac fin6 := go6; f_equal; apply cub_ext; cbn; ring.
  Lemma conj6_hom : Hom G G conj6.
  Proof.
    assert (I : forall x : G, conj6 (conj6 x) = x) by (intros [[x0 x1 x2] [x3 x4 x5]]; fin6).
    constructor; intros; try (try destruct x as [[x0 x1 x2] [x3 x4 x5]]; try destruct y as [[y0 y1 y2] [y3 y4 y5]]; fin6).
    destruct (feqb_spec G RG x y) as [->|N]; [apply (feqb_refl G RG)|]. apply (feqb_false G RG). intros E. apply N.
    rewrite <- (I x), E. apply I.
  Qed.
  Lemma conj6_emb x : conj6 (emb6 K nr x) = emb6 K nr x.
  Proof. destruct x. fin6. Qed.
  Lemma conj6_w : conj6 (w6 K nr) = - w6 K nr.
  Proof. fin6. Qed.
  Lemma conj6_norm x : x * conj6 x = emb6 K nr (norm6 x).
  Proof. destruct x as [[x0 x1 x2] [x3 x4 x5]]. fin6. Qed.
End Conj6.

Section Conj12.
  Variable F : FieldOps.
  Variable Fsqr : F -> F.
  Variable xi : F.
  Hypothesis KF : FieldLaws F.
  Local Notation G6 := (Fp6 F Fsqr xi).
  Local Notation G := (Fp12 F Fsqr xi xi).
  Hypothesis KG : FieldLaws G.
  Let RG := FieldLaws_Ring G KG.
  Add Field Fc12 : (FL_th F KF).
  Definition conj12 (x : G) : G := mkq (q0 x) (fopp (q1 x : G6)).
  Definition norm12 (x : G) : G6 := (q0 x : G6) * q0 x - fp12_mbnr F Fsqr xi xi ((q1 x : G6) * q1 x).
  Ltac go12 := unfold conj12, norm12, Spec.Pairing.emb12, emb12_6, Spec.Pairing.w12; cbn; unfold fp12_add, fp12_sub, fp12_neg, fp12_sub, fp12_zero, fp12_one, fp12_mul, fp12_mbnr; cbn;
    unfold fp6_zero, fp6_one, fp6_neg, fp6_sub, fp6_add, fp6_mul, fp6_mbnr; cbn.
  Ltac fin12 := go12; f_equal; apply cub_ext; cbn; ring.
  Lemma conj12_hom : Hom G G conj12.
  Proof.
    assert (I : forall x : G, conj12 (conj12 x) = x) by (intros [[x0 x1 x2] [x3 x4 x5]]; fin12).
    constructor; intros; try (try destruct x as [[x0 x1 x2] [x3 x4 x5]]; try destruct y as [[y0 y1 y2] [y3 y4 y5]]; fin12).
    destruct (feqb_spec G RG x y) as [->|N]; [apply (feqb_refl G RG)|]. apply (feqb_false G RG). intros E. apply N.
    rewrite <- (I x), E. apply I.
  Qed.
  Lemma conj12_emb x : conj12 (emb12 F Fsqr xi x) = emb12 F Fsqr xi x.
  Proof. fin12. Qed.
  Lemma conj12_w : conj12 (w12 F Fsqr xi) = - w12 F Fsqr xi.
  Proof. fin12. Qed.
  Lemma conj12_norm x : x * conj12 x = emb12_6 F Fsqr xi (norm12 x).
  Proof. destruct x as [[x0 x1 x2] [x3 x4 x5]]. fin12. Qed.
End Conj12.
