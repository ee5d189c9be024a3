(** The extension field classes agree with the schoolbook extensions. *)
From Coq Require Import ZArith NArith List Bool Lia Ring Field.
From Verif Require Import Base.Field Base.Ext Spec.PolyQuot Model.Power Model.Fp2 Model.Fp3
  Model.Fp4 Model.Fp6_2over3 Model.Fp6_3over2 Model.Fp12 Proof.ExtTheory Proof.Power.
Import ListNotations.
Local Open Scope fld_scope.

Ltac dq := repeat match goal with
  | x : quad _ |- _ => destruct x
  | x : cub _ |- _ => destruct x end.

(** ** Fp2 *)
Section F2.
  Variable K : FieldOps.
  Variable nr : K.
  Hypothesis R : RingLaws K.
  Add Ring Kr : (RL_th K R).
  Implicit Types x y : quad K.

  Lemma fp2_mul_eq x y : fp2_mul K nr x y = fmul (f := Quad K nr) x y.
  Proof. destruct x as [xa xb], y as [ya yb]; unfold fp2_mul; cbn. f_equal; ring. Qed.
  Lemma fp2_mul_assign_eq x y : fp2_mul_assign K nr x y = fp2_mul K nr x y.
  Proof. reflexivity. Qed.
  Lemma fp2_neg_eq x : fp2_neg K x = fopp (f := Quad K nr) x.
  Proof. destruct x; unfold fp2_neg, fp2_sub; cbn. f_equal; ring. Qed.
  Lemma fp2_sqr_eq x : fp2_sqr K nr x = fmul (f := Fp2 K nr) x x.
  Proof. destruct x; unfold fp2_sqr; cbn; unfold fp2_mul; cbn. f_equal; ring. Qed.
  Lemma fp2_inv_eq x : fp2_inv K nr x = finv (f := Quad K nr) x.
  Proof. destruct x; reflexivity. Qed.
  Lemma fp2_doubled_eq x : fp2_doubled K x = fadd (f := Fp2 K nr) x x.
  Proof. destruct x; reflexivity. Qed.
  Lemma fp2_ring : RingLaws (Fp2 K nr).
  Proof.
    refine (RingLaws_ext _ _ _ _ _ _ _ _ _ _ _ _ _ _ _ _ _ _ _ _ _ _ _ _ (Quad_ring K nr R)); try reflexivity.
  all: intros; first [apply fp2_mul_eq | apply fp2_neg_eq].
  Qed.
  Lemma fp2_smul_eq (a : K) x : fp2_smul K a x = fmul (f := Fp2 K nr) (mkq a 0) x.
  Proof. destruct x; unfold fp2_smul; cbn; unfold fp2_mul; cbn. f_equal; ring. Qed.
  Lemma fp2_mul_xi_eq x : nr = - (1) ->
    fp2_mul_xi K x = fmul (f := Fp2 K nr) x (mkq (fofZ 9) 1).
  Proof.
    intros ->. destruct x; unfold fp2_mul_xi, fdbl; cbn; unfold fp2_mul, fdbl; cbn.
    f_equal; ring.
  Qed.
  Lemma fp2_mul_x_eq x : nr = - (1) -> fp2_mul_x K x = fmul (f := Fp2 K nr) x (mkq 0 1).
  Proof. intros ->. destruct x; unfold fp2_mul_x; cbn; unfold fp2_mul; cbn. f_equal; ring. Qed.
  Lemma fp2_mul_Fp_0_eq x b : fp2_mul_Fp_0 K x b = fmul (f := Fp2 K nr) x (mkq b 0).
  Proof. destruct x; unfold fp2_mul_Fp_0; cbn; unfold fp2_mul; cbn. f_equal; ring. Qed.
  Lemma fp2_mul_Fp_1_eq x b : nr = - (1) -> fp2_mul_Fp_1 K x b = fmul (f := Fp2 K nr) x (mkq 0 b).
  Proof. intros ->. destruct x; unfold fp2_mul_Fp_1; cbn; unfold fp2_mul; cbn. f_equal; ring. Qed.
  Lemma fp2_neqb_eq x y : fp2_neqb K x y = negb (fp2_eqb K x y).
  Proof. unfold fp2_neqb, fp2_eqb. rewrite negb_andb. reflexivity. Qed.
End F2.

Lemma fp2_field (K : FieldOps) (nr : K) : FieldLaws K -> not_square nr -> FieldLaws (Fp2 K nr).
Proof.
  intros KL Hns. assert (R := FieldLaws_Ring K KL).
  refine (FieldLaws_ext _ _ _ _ _ _ _ _ _ _ _ _ _ _ _ _ _ _ _ _ _ _ _ _ _ (Quad_field K nr KL Hns)); try reflexivity.
  all: intros; first [apply (fp2_mul_eq K nr R) | apply (fp2_neg_eq K nr R)].
Qed.

(** ** Fp3 *)
Section F3.
  Variable K : FieldOps.
  Variable nr : K.
  Hypothesis R : RingLaws K.
  Add Ring Kr3 : (RL_th K R).
  Implicit Types x y : cub K.

  Lemma fp3_mul_eq x y : fp3_mul K nr x y = fmul (f := Cub K nr) x y.
  Proof. destruct x as [xa xb xc], y as [ya yb yc]; unfold fp3_mul; cbn. f_equal; ring. Qed.
  Lemma fp3_mul_assign_eq x y : fp3_mul_assign K nr x y = fp3_mul K nr x y.
  Proof. reflexivity. Qed.
  Lemma fp3_neg_eq x : fp3_neg K x = fopp (f := Cub K nr) x.
  Proof. destruct x; unfold fp3_neg, fp3_sub; cbn. f_equal; ring. Qed.
  Lemma fp3_inv_eq x : fp3_inv K nr x = finv (f := Cub K nr) x.
  Proof. destruct x; reflexivity. Qed.
  Lemma fp3_ring : RingLaws (Fp3 K nr).
  Proof.
    refine (RingLaws_ext _ _ _ _ _ _ _ _ _ _ _ _ _ _ _ _ _ _ _ _ _ _ _ _ (Cub_ring K nr R)); try reflexivity.
  all: intros; first [apply fp3_mul_eq | apply fp3_neg_eq].
  Qed.
  Lemma fp3_smul_eq (a : K) x : fp3_smul K a x = fmul (f := Fp3 K nr) (mkc a 0 0) x.
  Proof. destruct x; unfold fp3_smul; cbn; unfold fp3_mul; cbn. f_equal; ring. Qed.
  Lemma fp3_doubled_eq x : fp3_doubled K x = fadd (f := Fp3 K nr) x x.
  Proof. destruct x; reflexivity. Qed.
  Lemma fp3_neqb_eq x y : fp3_neqb K x y = negb (fp3_eqb K x y).
  Proof. unfold fp3_neqb, fp3_eqb. rewrite !negb_andb. reflexivity. Qed.
End F3.

Lemma fp3_field (K : FieldOps) (nr : K) : FieldLaws K -> not_cube nr -> FieldLaws (Fp3 K nr).
Proof.
  intros KL Hns. assert (R := FieldLaws_Ring K KL).
  refine (FieldLaws_ext _ _ _ _ _ _ _ _ _ _ _ _ _ _ _ _ _ _ _ _ _ _ _ _ _ (Cub_field K nr KL Hns)); try reflexivity.
  all: intros; first [apply (fp3_mul_eq K nr R) | apply (fp3_neg_eq K nr R)].
Qed.

(** ** Fp4 over Fp2 *)
Section F4.
  Variable K : FieldOps.
  Variable nr : K.
  Hypothesis R : RingLaws K.
  Local Notation F := (Fp2 K nr).
  Let RF : RingLaws F := fp2_ring K nr R.
  Add Ring Kr4 : (RL_th K R).
  Add Ring Fr4 : (RL_th F RF).
  Definition fp2_u : F := mkq 0 1.
  Implicit Types x y : quad F.

  Lemma fp4_mbnr_eq (a : F) : fp4_mbnr K nr nr a = fp2_u * a.
  Proof. destruct a; unfold fp4_mbnr; cbn; unfold fp2_mul; cbn. f_equal; ring. Qed.
  Lemma fp4_mul_eq x y : fp4_mul K nr nr x y = fmul (f := Quad F fp2_u) x y.
  Proof. destruct x as [xa xb], y as [ya yb]; unfold fp4_mul; rewrite fp4_mbnr_eq; cbn [q0 q1 Quad fmul]. f_equal; ring. Qed.
  Lemma fp4_mul_assign_eq x y : fp4_mul_assign K nr nr x y = fp4_mul K nr nr x y.
  Proof. reflexivity. Qed.
  Lemma fp4_neg_eq x : fp4_neg K nr x = fopp (f := Quad F fp2_u) x.
  Proof. destruct x as [xa xb]; unfold fp4_neg, fp4_sub, fp4_zero; cbn [q0 q1 Quad fopp]. f_equal; ring. Qed.
  Lemma fp4_sqr_eq x : fp4_sqr K nr nr x = fmul (f := Fp4 K nr nr) x x.
  Proof. reflexivity. Qed.
  Lemma fp4_inv_eq x : fp4_inv K nr nr x = finv (f := Quad F fp2_u) x.
  Proof.
    destruct x as [a b]; unfold fp4_inv; cbn [q0 q1 Quad finv]; unfold quad_norm; cbn [q0 q1].
    rewrite fp4_mbnr_eq, !(fp2_sqr_eq K nr R). reflexivity.
  Qed.
  Lemma fp4_ring : RingLaws (Fp4 K nr nr).
  Proof.
    refine (RingLaws_ext _ _ _ _ _ _ _ _ _ _ _ _ _ _ _ _ _ _ _ _ _ _ _ _ (Quad_ring F fp2_u RF)); try reflexivity.
  all: intros; first [apply fp4_mul_eq | apply fp4_neg_eq].
  Qed.
  Lemma fp4_doubled_eq x : fp4_doubled K nr x = fadd (f := Fp4 K nr nr) x x.
  Proof. destruct x; reflexivity. Qed.

  Lemma fp4_mul_by_023_eq x (A0 : K) (B : F) :
    fp4_mul_by_023 K nr nr x (mkq (mkq A0 0) B)
    = Some (fmul (f := Fp4 K nr nr) x (mkq (mkq A0 0) B)).
  Proof.
    unfold fp4_mul_by_023. cbn [q0 q1]. rewrite (feqb_refl K R).
    f_equal. cbn [Fp4 fmul]. rewrite fp4_mul_eq. destruct x as [a b]. cbn [q0 q1 Quad fmul].
    rewrite fp4_mbnr_eq.
    assert (E : mkq (q0 a * A0) (q1 a * A0) = a * (mkq A0 0 : F)).
    { destruct a; cbn; unfold fp2_mul; cbn. f_equal; ring. }
    rewrite E. f_equal; ring.
  Qed.
  Lemma fp4_mul_by_023_none x (A B : F) : q1 A <> 0 -> fp4_mul_by_023 K nr nr x (mkq A B) = None.
  Proof.
    intros H. unfold fp4_mul_by_023. cbn [q0 q1].
    apply (feqb_false K R) in H. rewrite H. reflexivity.
  Qed.
End F4.

Lemma fp4_field (K : FieldOps) (nr : K) : FieldLaws (Fp2 K nr) -> RingLaws K ->
  not_square (fp2_u K nr) -> FieldLaws (Fp4 K nr nr).
Proof.
  intros FL R Hns.
  refine (FieldLaws_ext _ _ _ _ _ _ _ _ _ _ _ _ _ _ _ _ _ _ _ _ _ _ _ _ _ (Quad_field (Fp2 K nr) (fp2_u K nr) FL Hns)); try reflexivity.
  all: intros; first [apply (fp4_mul_eq K nr R) | apply (fp4_neg_eq K nr R) | apply (fp4_inv_eq K nr R)].
Qed.

(** ** Fp6 = 2 over 3 *)
Section F6t.
  Variable K : FieldOps.
  Variable nr : K.
  Hypothesis R : RingLaws K.
  Local Notation F := (Fp3 K nr).
  Let RF : RingLaws F := fp3_ring K nr R.
  Add Ring Kr6t : (RL_th K R).
  Add Ring Fr6t : (RL_th F RF).
  Definition fp3_u : F := mkc 0 1 0.
  Implicit Types x y : quad F.

  Lemma fp6t_mbnr_eq (a : F) : fp6t_mbnr K nr nr a = fp3_u * a.
  Proof. destruct a; unfold fp6t_mbnr; cbn; unfold fp3_mul; cbn. f_equal; ring. Qed.
  Lemma fp6t_mul_eq x y : fp6t_mul K nr nr x y = fmul (f := Quad F fp3_u) x y.
  Proof. destruct x as [xa xb], y as [ya yb]; unfold fp6t_mul; rewrite fp6t_mbnr_eq; cbn [q0 q1 Quad fmul]. f_equal; ring. Qed.
  Lemma fp6t_mul_assign_eq x y : fp6t_mul_assign K nr nr x y = fp6t_mul K nr nr x y.
  Proof. reflexivity. Qed.
  Lemma fp6t_neg_eq x : fp6t_neg K nr x = fopp (f := Quad F fp3_u) x.
  Proof. destruct x as [xa xb]; unfold fp6t_neg, fp6t_sub, fp6t_zero; cbn [q0 q1 Quad fopp]. f_equal; ring. Qed.
  Lemma fp6t_sqr_eq x : fp6t_sqr K nr nr x = fmul (f := Fp6t K nr nr) x x.
  Proof.
    cbn [Fp6t fmul]. rewrite fp6t_mul_eq.
    destruct x as [xa xb]; unfold fp6t_sqr; rewrite !fp6t_mbnr_eq; cbn [q0 q1 Quad fmul]. f_equal; ring.
  Qed.
  Lemma fp6t_inv_eq x : fp6t_inv K nr nr x = finv (f := Quad F fp3_u) x.
  Proof.
    destruct x as [a b]; unfold fp6t_inv; cbn [q0 q1 Quad finv]; unfold quad_norm; cbn [q0 q1].
    rewrite fp6t_mbnr_eq. reflexivity.
  Qed.
  Lemma fp6t_ring : RingLaws (Fp6t K nr nr).
  Proof.
    refine (RingLaws_ext _ _ _ _ _ _ _ _ _ _ _ _ _ _ _ _ _ _ _ _ _ _ _ _ (Quad_ring F fp3_u RF)); try reflexivity.
  all: intros; first [apply fp6t_mul_eq | apply fp6t_neg_eq].
  Qed.
  Lemma fp6t_doubled_eq x : fp6t_doubled K nr x = fadd (f := Fp6t K nr nr) x x.
  Proof. destruct x; reflexivity. Qed.
  Lemma fp6t_smul_eq (a : K) x : fp6t_smul K nr a x = fmul (f := Fp6t K nr nr) (mkq (A:=F) (mkc a 0 0) 0) x.
  Proof.
    cbn [Fp6t fmul]. rewrite fp6t_mul_eq. destruct x as [xa xb]; unfold fp6t_smul. cbn [q0 q1 Quad fmul].
    rewrite !(fp3_smul_eq K nr R). f_equal; ring.
  Qed.

  Lemma fp6t_mul_by_2345_eq x (A2 : K) (B : F) :
    fp6t_mul_by_2345 K nr nr x (mkq (mkc 0 0 A2) B)
    = fmul (f := Fp6t K nr nr) x (mkq (mkc 0 0 A2) B).
  Proof.
    cbn [Fp6t fmul]. rewrite fp6t_mul_eq. destruct x as [a b].
    unfold fp6t_mul_by_2345. cbn [q0 q1 c0 c1 c2 Quad fmul].
    rewrite fp6t_mbnr_eq.
    assert (E : mkc (c1 a * A2 * nr) (c2 a * A2 * nr) (c0 a * A2) = a * (mkc 0 0 A2 : F)).
    { destruct a; cbn; unfold fp3_mul; cbn. f_equal; ring. }
    rewrite E. f_equal; ring.
  Qed.
End F6t.

Lemma fp6t_field (K : FieldOps) (nr : K) : FieldLaws (Fp3 K nr) -> RingLaws K ->
  not_square (fp3_u K nr) -> FieldLaws (Fp6t K nr nr).
Proof.
  intros FL R Hns.
  refine (FieldLaws_ext _ _ _ _ _ _ _ _ _ _ _ _ _ _ _ _ _ _ _ _ _ _ _ _ _ (Quad_field (Fp3 K nr) (fp3_u K nr) FL Hns)); try reflexivity.
  all: intros; first [apply (fp6t_mul_eq K nr R) | apply (fp6t_neg_eq K nr R) | apply (fp6t_inv_eq K nr R)].
Qed.

(** ** Fp6 = 3 over 2 *)
Section F6.
  Variable F : FieldOps.
  Variable Fsqr : F -> F.
  Variable xi : F.
  Hypothesis R : RingLaws F.
  Hypothesis Hsqr : forall x, Fsqr x = x * x.
  Add Ring Fr6 : (RL_th F R).
  Implicit Types x y : cub F.

  Lemma fp6_mul_eq x y : fp6_mul F xi x y = fmul (f := Cub F xi) x y.
  Proof. destruct x as [xa xb xc], y as [ya yb yc]; unfold fp6_mul, fp6_mbnr; cbn. f_equal; ring. Qed.
  Lemma fp6_mul_assign_eq x y : fp6_mul_assign F xi x y = fp6_mul F xi x y.
  Proof. reflexivity. Qed.
  Lemma fp6_neg_eq x : fp6_neg F x = fopp (f := Cub F xi) x.
  Proof. destruct x; unfold fp6_neg, fp6_sub; cbn. f_equal; ring. Qed.
  Lemma fp6_inv_eq x : fp6_inv F Fsqr xi x = finv (f := Cub F xi) x.
  Proof.
    destruct x; unfold fp6_inv. rewrite !Hsqr. reflexivity.
  Qed.
  Lemma fp6_ring : RingLaws (Fp6 F Fsqr xi).
  Proof.
    refine (RingLaws_ext _ _ _ _ _ _ _ _ _ _ _ _ _ _ _ _ _ _ _ _ _ _ _ _ (Cub_ring F xi R)); try reflexivity.
  all: intros; first [apply fp6_mul_eq | apply fp6_neg_eq].
  Qed.
  Lemma fp6_smul_eq (a : F) x : fp6_smul F a x = fmul (f := Fp6 F Fsqr xi) (mkc a 0 0) x.
  Proof. destruct x; unfold fp6_smul; cbn; unfold fp6_mul, fp6_mbnr; cbn. f_equal; ring. Qed.
  Lemma fp6_doubled_eq x : fp6_doubled F x = fadd (f := Fp6 F Fsqr xi) x x.
  Proof. destruct x; reflexivity. Qed.
End F6.

Lemma fp6_field (F : FieldOps) Fsqr (xi : F) : FieldLaws F -> (forall x, Fsqr x = x * x) ->
  not_cube xi -> FieldLaws (Fp6 F Fsqr xi).
Proof.
  intros FL Hsqr Hns. assert (R := FieldLaws_Ring F FL).
  refine (FieldLaws_ext _ _ _ _ _ _ _ _ _ _ _ _ _ _ _ _ _ _ _ _ _ _ _ _ _ (Cub_field F xi FL Hns)); try reflexivity.
  all: intros; first [apply (fp6_mul_eq F xi R) | apply (fp6_neg_eq F xi R) | apply (fp6_inv_eq F Fsqr xi Hsqr)].
Qed.

(** ** Fp12 *)
Section F12.
  Variable F2 : FieldOps.
  Variable F2sqr : F2 -> F2.
  Variable xi : F2.
  Hypothesis R : RingLaws F2.
  Hypothesis Hsqr : forall x, F2sqr x = x * x.
  Local Notation F := (Fp6 F2 F2sqr xi).
  Let RF : RingLaws F := fp6_ring F2 F2sqr xi R.
  Add Ring F2r12 : (RL_th F2 R).
  Add Ring Fr12 : (RL_th F RF).
  Definition fp6_v : F := mkc 0 1 0.
  Implicit Types x y : quad F.

  Lemma fp12_mbnr_eq (a : F) : fp12_mbnr F2 F2sqr xi xi a = fp6_v * a.
  Proof. destruct a; unfold fp12_mbnr; cbn; unfold fp6_mul, fp6_mbnr; cbn. f_equal; ring. Qed.
  Lemma fp12_mul_eq x y : fp12_mul F2 F2sqr xi xi x y = fmul (f := Quad F fp6_v) x y.
  Proof. destruct x as [xa xb], y as [ya yb]; unfold fp12_mul; rewrite fp12_mbnr_eq; cbn [q0 q1 Quad fmul]. f_equal; ring. Qed.
  Lemma fp12_mul_assign_eq x y : fp12_mul_assign F2 F2sqr xi xi x y = fp12_mul F2 F2sqr xi xi x y.
  Proof. reflexivity. Qed.
  Lemma fp12_neg_eq x : fp12_neg F2 F2sqr xi x = fopp (f := Quad F fp6_v) x.
  Proof. destruct x as [xa xb]; unfold fp12_neg, fp12_sub, fp12_zero; cbn [q0 q1 Quad fopp]. f_equal; ring. Qed.
  Lemma fp12_inv_eq x : fp12_inv F2 F2sqr xi xi x = finv (f := Quad F fp6_v) x.
  Proof.
    destruct x as [a b]; unfold fp12_inv; cbn [q0 q1 Quad finv]; unfold quad_norm; cbn [q0 q1].
    rewrite fp12_mbnr_eq. reflexivity.
  Qed.
  Lemma fp12_ring : RingLaws (Fp12 F2 F2sqr xi xi).
  Proof.
    refine (RingLaws_ext _ _ _ _ _ _ _ _ _ _ _ _ _ _ _ _ _ _ _ _ _ _ _ _ (Quad_ring F fp6_v RF)); try reflexivity.
  all: intros; first [apply fp12_mul_eq | apply fp12_neg_eq].
  Qed.
  Lemma fp12_doubled_eq x : fp12_doubled F2 F2sqr xi x = fadd (f := Fp12 F2 F2sqr xi xi) x x.
  Proof. destruct x; reflexivity. Qed.
  Lemma fp12_smul6_eq (a : F) x :
    fp12_smul6 F2 F2sqr xi a x = fmul (f := Fp12 F2 F2sqr xi xi) (mkq (A:=F) a 0) x.
  Proof.
    cbn [Fp12 fmul]. rewrite fp12_mul_eq. destruct x as [xa xb]; unfold fp12_smul6; cbn [q0 q1 Quad fmul].
    f_equal; ring.
  Qed.
  Lemma fp12_smul2_eq (a : F2) x :
    fp12_smul2 F2 F2sqr xi a x = fmul (f := Fp12 F2 F2sqr xi xi) (mkq (A:=F) (mkc a 0 0) 0) x.
  Proof.
    cbn [Fp12 fmul]. rewrite fp12_mul_eq. destruct x as [xa xb]; unfold fp12_smul2; cbn [q0 q1 Quad fmul].
    rewrite !(fp6_smul_eq F2 F2sqr xi R). f_equal; ring.
  Qed.

  Lemma fp12_mul_by_045_eq x (ell_0 ell_VW ell_VV : F2) :
    fp12_mul_by_045 F2 F2sqr xi xi x ell_0 ell_VW ell_VV
    = fmul (f := Fp12 F2 F2sqr xi xi) x (mkq (mkc ell_VW 0 0) (mkc 0 ell_0 ell_VV)).
  Proof.
    destruct x as [[z0 z1 z2] [z3 z4 z5]].
    unfold fp12_mul_by_045. cbn. unfold fp12_mul, fp12_mbnr. cbn.
    unfold fp6_sub, fp6_add, fp6_mul, fp6_mbnr. cbn. f_equal; f_equal; ring.
  Qed.
  Lemma fp12_mul_by_024_eq x (ell_0 ell_VW ell_VV : F2) :
    fp12_mul_by_024 F2 F2sqr xi xi x ell_0 ell_VW ell_VV
    = fmul (f := Fp12 F2 F2sqr xi xi) x (mkq (mkc ell_0 0 ell_VV) (mkc 0 ell_VW 0)).
  Proof. reflexivity. Qed.
End F12.

Lemma fp12_field (F2 : FieldOps) F2sqr (xi : F2) : FieldLaws (Fp6 F2 F2sqr xi) -> RingLaws F2 ->
  (forall x, F2sqr x = x * x) ->
  not_square (fp6_v F2 F2sqr xi) -> FieldLaws (Fp12 F2 F2sqr xi xi).
Proof.
  intros FL R Hsqr Hns.
  refine (FieldLaws_ext _ _ _ _ _ _ _ _ _ _ _ _ _ _ _ _ _ _ _ _ _ _ _ _ _ (Quad_field (Fp6 F2 F2sqr xi) (fp6_v F2 F2sqr xi) FL Hns)); try reflexivity.
  all: intros; first [apply (fp12_mul_eq F2 F2sqr xi R) | apply (fp12_neg_eq F2 F2sqr xi R) | apply (fp12_inv_eq F2 F2sqr xi R)].
Qed.
