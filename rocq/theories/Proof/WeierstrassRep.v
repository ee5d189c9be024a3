(** Denotations against the representation relations; the curve group. *)
From Coq Require Import ZArith NArith List Bool Lia Ring Field.
From Verif Require Import Base.Field Spec.Weierstrass Spec.Group Model.ShortWeierstrass
  Proof.WeierstrassCoords Proof.WeierstrassOps Proof.WeierstrassGroup.
Local Open Scope fld_scope.

Section Rep.
  Variable K : FieldOps.
  Hypothesis KL : FieldLaws K.
  Let R := FieldLaws_Ring K KL.
  Add Field Kr : (FL_th K KL).
  Variables a b zx zy : K.
  Local Notation on := (on_curve K a b).
  Lemma rep_jac_den (t : triple K) P : rep_jacobian (tX t) (tY t) (tZ t) P <-> jden K t = P.
  Proof.
    destruct t as [X Y Z]; cbn [tX tY tZ]. destruct P as [|x y]; cbn [rep_jacobian].
    - split; [intros ->; apply (jden_inf K KL); reflexivity|].
      unfold jden; cbn. destruct (feqb_spec K R Z 0); [auto|discriminate].
    - split.
      + intros (N & -> & ->). apply (jden_aff K KL), N.
      + unfold jden; cbn. destruct (feqb_spec K R Z 0) as [|N]; [discriminate|].
        intros E. injection E as <- <-. split; [exact N|]. unfold fdiv. split; field; exact N.
  Qed.
  Lemma rep_proj_den (t : triple K) P :
    rep_projective (tX t) (tY t) (tZ t) P <-> (tZ t = 0 -> tX t = 0) /\ pden K t = P.
  Proof.
    destruct t as [X Y Z]; cbn [tX tY tZ]. destruct P as [|x y]; cbn [rep_projective].
    - split; [intros [-> ->]; split; [auto|apply (pden_inf K KL); reflexivity]|].
      unfold pden; cbn. destruct (feqb_spec K R Z 0); [tauto|intros [_ E]; discriminate].
    - split.
      + intros (N & -> & ->). split; [intros; contradiction|apply (pden_aff K KL), N].
      + unfold pden; cbn. destruct (feqb_spec K R Z 0) as [|N]; [intros [_ E]; discriminate|].
        intros [_ E]. injection E as <- <-. split; [exact N|]. unfold fdiv. split; field; exact N.
  Qed.
  Lemma rep_proj_pvalid (t : triple K) P : on P -> rep_projective (tX t) (tY t) (tZ t) P -> pvalid K a b t /\ pden K t = P.
  Proof. intros H E. apply rep_proj_den in E. destruct E as [V <-]. repeat split; assumption. Qed.
  Lemma rep_aff_den (t : affine K) P : ~ on (Aff zx zy) -> on P ->
    rep_affine zx zy (aX t) (aY t) P <-> aden K zx zy t = P.
  Proof.
    intros zf HP. destruct t as [X Y]; cbn [aX aY]. destruct P as [|x y]; cbn [rep_affine].
    - split; [intros [-> ->]; apply (aff_zero_den K KL)|].
      unfold aden, aff_is_zero; cbn. destruct (feqb_spec K R X zx), (feqb_spec K R Y zy); cbn; auto; discriminate.
    - split; [intros [-> ->]; apply (aden_on K KL a b zx zy zf), HP|].
      unfold aden, aff_is_zero; cbn. destruct (_ && _); [discriminate|]. intros E. injection E. auto.
  Qed.
  Lemma nonsingular_ns : nonsingular K a b -> forall x, on (Aff x 0) -> 3 * (x * x) + a <> 0.
  Proof.
    intros N x H E. apply N. cbn in H.
    assert (A : a = - (3 * (x * x))) by (transitivity (3 * (x * x) + a - 3 * (x * x)); [ring|rewrite E; ring]).
    assert (B : b = 2 * (x * x * x)).
    { transitivity (x * x * x + a * x + b - x * x * x - a * x); [ring|]. rewrite <- H, A. ring. }
    rewrite A, B. ring.
  Qed.
End Rep.

(** the group of points *)
Section TheGroup.
  Variable K : FieldOps.
  Hypothesis KL : FieldLaws K.
  Hypothesis two : (2 : K) <> 0.
  Variables a b : K.
  Hypothesis ns : nonsingular K a b.
  Definition sw_group : AbGroup.
  Proof.
    refine (mkG (point K) (on_curve K a b) Inf (ec_add K a) ec_neg _ _ _ _ _ _ _).
    - exact I.
    - intros x y X Y. apply (ec_add_on K KL two); auto.
    - intros x X. apply (ec_neg_on K KL), X.
    - intros x y z X Y Z. apply (ec_add_assoc K KL two a b); auto. apply (nonsingular_ns K KL), ns.
    - intros x y X Y. apply (ec_add_comm K KL two a b); auto.
    - reflexivity.
    - intros x _. apply (ec_add_neg_r K KL).
  Defined.
  Lemma sw_gmul n (P : point K) : gmul (G := sw_group) n P = ec_mul K a (N.to_nat n) P.
  Proof. unfold gmul. induction (N.to_nat n) as [|m IH]; [reflexivity|]. cbn. rewrite IH. reflexivity. Qed.
End TheGroup.
