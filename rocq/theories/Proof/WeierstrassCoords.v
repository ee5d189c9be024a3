(** Refinement of the point classes to the chord-and-tangent law. *)
From Coq Require Import ZArith NArith List Bool Lia Ring Field.
From Verif Require Import Base.Field Spec.Weierstrass Model.ShortWeierstrass.
Local Open Scope fld_scope.

Section Coords.
  Variable K : FieldOps.
  Hypothesis KL : FieldLaws K.
  Let R := FieldLaws_Ring K KL.
  Add Field Kf : (FL_th K KL).
  Hypothesis two : (2 : K) <> 0.
  Variables a b zx zy : K.

  Lemma eqb_t (x y : K) : x = y -> (x =? y) = true.
  Proof. intros ->. apply (feqb_refl K R). Qed.
  Lemma eqb_f (x y : K) : x <> y -> (x =? y) = false.
  Proof. apply (feqb_false K R). Qed.
  Lemma neq_sub (x y : K) : x <> y -> x - y <> 0.
  Proof. intros H E. apply H, (fsub_0_eq K R), E. Qed.
  Lemma self_opp (y : K) : y = - y -> y = 0.
  Proof.
    intros H. assert (E : 2 * y = 0) by (transitivity (y - - y); [ring|rewrite <- H; ring]).
    apply (fmul_integral K KL) in E. destruct E; [contradiction|assumption].
  Qed.
  Lemma sq_eq_on (x y y' : K) : on_curve K a b (Aff x y) -> on_curve K a b (Aff x y') -> y <> y' -> y = - y'.
  Proof.
    cbn. intros H H' N. destruct (fsqr_eq K KL y y') as [E|E]; [rewrite H, H'; reflexivity|contradiction|exact E].
  Qed.

  (** ** affine *)
  Definition aden (P : affine K) : point K := if aff_is_zero K zx zy P then Inf else Aff (aX P) (aY P).
  Lemma aff_zero_den : aden (aff_zero K zx zy) = Inf.
  Proof. unfold aden, aff_is_zero, aff_zero; cbn. rewrite !(feqb_refl K R). reflexivity. Qed.
  Hypothesis zfill : ~ on_curve K a b (Aff zx zy).
  Lemma aden_on x y : on_curve K a b (Aff x y) -> aden (mkA x y) = Aff x y.
  Proof.
    intros H. unfold aden, aff_is_zero; cbn.
    destruct (feqb_spec K R x zx) as [->|]; [|reflexivity].
    destruct (feqb_spec K R y zy) as [->|]; [contradiction|reflexivity].
  Qed.
  Lemma aff_eqb_den P Q : aff_eqb K zx zy P Q = true <-> aden P = aden Q.
  Proof.
    destruct P as [x y], Q as [x' y']. unfold aff_eqb, aden.
    destruct (aff_is_zero K zx zy (mkA x y)), (aff_is_zero K zx zy (mkA x' y')); cbn; try (split; congruence).
    destruct (feqb_spec K R x x') as [->|]; cbn; [|split; [discriminate|congruence]].
    destruct (feqb_spec K R y y') as [->|]; cbn; [tauto|split; [discriminate|congruence]].
  Qed.
End Coords.

(** results of the law stay on the curve *)
Section Closed.
  Variable K : FieldOps.
  Hypothesis KL : FieldLaws K.
  Let R := FieldLaws_Ring K KL.
  Add Field Kf2 : (FL_th K KL).
  Hypothesis two : (2 : K) <> 0.
  Variables a b : K.
  Lemma ec_line_chord x1 y1 x2 y2 : x2 - x1 <> 0 ->
    on_curve K a b (Aff x1 y1) -> on_curve K a b (Aff x2 y2) ->
    on_curve K a b (ec_line (fdiv (y2 - y1) (x2 - x1)) x1 y1 x2).
  Proof.
    intros N H1 H2. cbn in *. unfold fdiv.
    assert (Hb : b = y1 * y1 - x1 * x1 * x1 - a * x1) by (rewrite H1; ring).
    assert (Ha : a = fdiv (y2 * y2 - y1 * y1 - (x2 * x2 * x2 - x1 * x1 * x1)) (x2 - x1)).
    { unfold fdiv. rewrite H1, H2. field. exact N. }
    rewrite Hb, Ha. unfold fdiv. field. exact N.
  Qed.
  Lemma ec_line_tangent x y : y <> 0 -> on_curve K a b (Aff x y) ->
    on_curve K a b (ec_line (fdiv (3 * (x * x) + a) (2 * y)) x y x).
  Proof.
    intros N H1. cbn in *. unfold fdiv.
    assert (Hb : b = y * y - x * x * x - a * x) by (rewrite H1; ring).
    rewrite Hb. field. split; [exact N|exact two].
  Qed.
  Lemma ec_add_on P Q : on_curve K a b P -> on_curve K a b Q -> on_curve K a b (ec_add K a P Q).
  Proof.
    destruct P as [|x1 y1], Q as [|x2 y2]; cbn [ec_add]; auto. intros H1 H2.
    destruct (feqb_spec K R x1 x2) as [E|E].
    - subst x2. destruct (feqb_spec K R y1 (- y2)) as [Ey|Ey]; [exact I|].
      apply ec_line_tangent; [|exact H1]. intros ->. apply Ey.
      cbn in H1, H2. assert (Z : y2 * y2 = 0) by (rewrite H2, <- H1; ring).
      apply (fsqr_0_inv K KL) in Z. subst y2. ring.
    - apply ec_line_chord; auto. intros E'. apply E. symmetry. apply (fsub_0_eq K R), E'.
  Qed.
  Lemma ec_neg_on P : on_curve K a b P -> on_curve K a b (ec_neg P).
  Proof. destruct P as [|x y]; cbn; auto. intros <-. ring. Qed.
End Closed.
