(** Schoolbook quadratic and cubic extensions and their ring/field laws. *)
From Coq Require Import ZArith NArith List Bool Lia Ring Field.
From Verif Require Import Base.Field Base.Ext Spec.PolyQuot.
Import ListNotations.
Local Open Scope fld_scope.

(** Laws only depend on the operations up to pointwise equality. *)
Lemma RingLaws_ext (T : Type) (z o z' o' : T) ad mu su op iv eb ad' mu' su' op' iv' eb' :
  z' = z -> o' = o -> (forall x y, ad' x y = ad x y) -> (forall x y, mu' x y = mu x y) ->
  (forall x y, su' x y = su x y) -> (forall x, op' x = op x) ->
  (forall x y, eb' x y = eb x y) ->
  RingLaws (mkFieldOps T z o ad mu su op iv eb) ->
  RingLaws (mkFieldOps T z' o' ad' mu' su' op' iv' eb').
Proof.
  intros -> -> Ha Hm Hs Ho He [H E].
  constructor.
  - destruct H as [H1 H2 H3 H4 H5 H6 H7 H8 H9].
    cbn in *. constructor; cbn; intros; rewrite ?Ha, ?Hm, ?Hs, ?Ho, ?Ha, ?Hm; auto.
  - intros x y. cbn in *. rewrite He. apply E.
Qed.

Lemma FieldLaws_ext (T : Type) (z o z' o' : T) ad mu su op iv eb ad' mu' su' op' iv' eb' :
  z' = z -> o' = o -> (forall x y, ad' x y = ad x y) -> (forall x y, mu' x y = mu x y) ->
  (forall x y, su' x y = su x y) -> (forall x, op' x = op x) -> (forall x, iv' x = iv x) ->
  (forall x y, eb' x y = eb x y) ->
  FieldLaws (mkFieldOps T z o ad mu su op iv eb) ->
  FieldLaws (mkFieldOps T z' o' ad' mu' su' op' iv' eb').
Proof.
  intros Hz Hoo Ha Hm Hs Ho Hi He HF.
  assert (R := FieldLaws_Ring _ HF).
  assert (R' := RingLaws_ext T z o z' o' ad mu su op iv eb ad' mu' su' op' iv' eb'
                  Hz Hoo Ha Hm Hs Ho He R).
  destruct HF as [[H1 H2 H3 H4] E]. subst z' o'.
  constructor; [|exact (RL_eqb _ R')].
  constructor.
  - exact (RL_th _ R').
  - exact H2.
  - reflexivity.
  - intros x Hx. cbn in *. rewrite Hm, Hi. apply H4, Hx.
Qed.

(** A ring in which every nonzero element has the given inverse is a field. *)
Lemma FieldLaws_of_ring (K : FieldOps) :
  RingLaws K -> (1 : K) <> 0 -> (forall x : K, x <> 0 -> finv x * x = 1) -> FieldLaws K.
Proof.
  intros R H1 Hi. constructor; [|exact (RL_eqb K R)].
  constructor; [exact (RL_th K R)|exact H1|reflexivity|exact Hi].
Qed.

Definition not_square {K : FieldOps} (c : K) : Prop := forall x : K, x * x <> c.
Definition not_cube {K : FieldOps} (c : K) : Prop := forall x : K, x * x * x <> c.

(** ** Quadratic *)
Section Quad.
  Variable K : FieldOps.
  Variable nu : K.

  Definition quad_norm (x : quad K) : K := q0 x * q0 x - nu * (q1 x * q1 x).

  Definition Quad : FieldOps := {|
    car := quad K;
    f0 := mkq 0 0; f1 := mkq 1 0;
    fadd x y := mkq (q0 x + q0 y) (q1 x + q1 y);
    fmul x y := mkq (q0 x * q0 y + nu * (q1 x * q1 y)) (q0 x * q1 y + q1 x * q0 y);
    fsub x y := mkq (q0 x - q0 y) (q1 x - q1 y);
    fopp x := mkq (- q0 x) (- q1 x);
    finv x := let n := finv (quad_norm x) in mkq (q0 x * n) (- (q1 x * n));
    feqb x y := (q0 x =? q0 y) && (q1 x =? q1 y) |}.

  Hypothesis R : RingLaws K.
  Add Ring Kr : (RL_th K R).

  Lemma quad_eqb_iff (x y : quad K) :
    ((q0 x =? q0 y) && (q1 x =? q1 y)) = true <-> x = y.
  Proof.
    destruct x as [a b], y as [c d]; cbn.
    rewrite andb_true_iff, !(RL_eqb K R). split; [intros [-> ->]; reflexivity|].
    intros H; injection H; auto.
  Qed.

  Lemma Quad_ring : RingLaws Quad.
  Proof.
    constructor; [|intros; apply quad_eqb_iff].
    constructor; intros; repeat match goal with x : car Quad |- _ => destruct x end;
      cbn; f_equal; ring.
  Qed.

  (** The product in the model of extension is the polynomial product mod X^2 - nu. *)
  Lemma Quad_mul_spec (x y : quad K) :
    let z := fmul (f := Quad) x y in
    [q0 z; q1 z] = qmul 2 nu [q0 x; q1 x] [q0 y; q1 y].
  Proof.
    destruct x as [a b], y as [c d].
    unfold qmul, premainder; cbn. repeat (apply f_equal2; [ring|]); reflexivity.
  Qed.

  Lemma quad_norm_mul (x y : quad K) :
    quad_norm (fmul (f := Quad) x y) = quad_norm x * quad_norm y.
  Proof. destruct x, y; unfold quad_norm; cbn. ring. Qed.

  Lemma quad_sqr_u : fmul (f := Quad) (mkq 0 1) (mkq 0 1) = mkq nu 0.
  Proof. cbn. f_equal; ring. Qed.
End Quad.

Section QuadField.
  Variable K : FieldOps.
  Variable nu : K.
  Hypothesis KL : FieldLaws K.
  Add Field Kf : (FL_th K KL).
  Let R := FieldLaws_Ring K KL.

  Lemma quad_norm_neq_0 (x : quad K) :
    not_square nu -> x <> mkq 0 0 -> quad_norm K nu x <> 0.
  Proof.
    intros Hns Hx Hn. destruct x as [a b]. unfold quad_norm in Hn; cbn in Hn.
    destruct (feq_dec K R b 0) as [Eb|Eb].
    - subst b. assert (Ha : a * a = 0). { transitivity (a * a - nu * (0 * 0)); [ring|exact Hn]. }
      apply (fsqr_0_inv K KL) in Ha. subst a. apply Hx. reflexivity.
    - apply (Hns (a / b)).
      apply (fsub_0_eq K R) in Hn.
      transitivity ((a * a) / (b * b)); [field; exact Eb|].
      rewrite Hn. field. exact Eb.
  Qed.

  Lemma Quad_field : not_square nu -> FieldLaws (Quad K nu).
  Proof.
    intros Hns. apply FieldLaws_of_ring.
    - apply Quad_ring, R.
    - intros H. apply (f_equal q0) in H. cbn in H. exact (f1_neq_0 K KL H).
    - intros x Hx. cbn in Hx. assert (Hn := quad_norm_neq_0 x Hns Hx).
      destruct x as [a b]. cbn. unfold quad_norm in *; cbn in *.
      f_equal; field; exact Hn.
  Qed.
End QuadField.

(** ** Cubic *)
Section Cub.
  Variable K : FieldOps.
  Variable nu : K.

  Definition cub_d0 (x : cub K) : K := c0 x * c0 x - nu * (c1 x * c2 x).
  Definition cub_d1 (x : cub K) : K := nu * (c2 x * c2 x) - c0 x * c1 x.
  Definition cub_d2 (x : cub K) : K := c1 x * c1 x - c0 x * c2 x.
  Definition cub_norm (x : cub K) : K :=
    c0 x * cub_d0 x + nu * (c2 x * cub_d1 x + c1 x * cub_d2 x).

  Definition Cub : FieldOps := {|
    car := cub K;
    f0 := mkc 0 0 0; f1 := mkc 1 0 0;
    fadd x y := mkc (c0 x + c0 y) (c1 x + c1 y) (c2 x + c2 y);
    fmul x y := mkc (c0 x * c0 y + nu * (c1 x * c2 y + c2 x * c1 y))
                    (c0 x * c1 y + c1 x * c0 y + nu * (c2 x * c2 y))
                    (c0 x * c2 y + c1 x * c1 y + c2 x * c0 y);
    fsub x y := mkc (c0 x - c0 y) (c1 x - c1 y) (c2 x - c2 y);
    fopp x := mkc (- c0 x) (- c1 x) (- c2 x);
    finv x := let n := finv (cub_norm x) in mkc (n * cub_d0 x) (n * cub_d1 x) (n * cub_d2 x);
    feqb x y := (c0 x =? c0 y) && (c1 x =? c1 y) && (c2 x =? c2 y) |}.

  Hypothesis R : RingLaws K.
  Add Ring Kr : (RL_th K R).

  Lemma cub_eqb_iff (x y : cub K) :
    ((c0 x =? c0 y) && (c1 x =? c1 y) && (c2 x =? c2 y)) = true <-> x = y.
  Proof.
    destruct x as [a b e], y as [c d f]; cbn.
    rewrite !andb_true_iff, !(RL_eqb K R). split; [intros [[-> ->] ->]; reflexivity|].
    intros H; injection H; auto.
  Qed.

  Lemma Cub_ring : RingLaws Cub.
  Proof.
    constructor; [|intros; apply cub_eqb_iff].
    constructor; intros; repeat match goal with x : car Cub |- _ => destruct x end;
      cbn; f_equal; ring.
  Qed.

  Lemma Cub_mul_spec (x y : cub K) :
    let z := fmul (f := Cub) x y in
    [c0 z; c1 z; c2 z] = qmul 3 nu [c0 x; c1 x; c2 x] [c0 y; c1 y; c2 y].
  Proof.
    destruct x as [a b e], y as [c d f].
    unfold qmul, premainder; cbn. repeat (apply f_equal2; [ring|]); reflexivity.
  Qed.

  Lemma cub_norm_mul (x y : cub K) :
    cub_norm (fmul (f := Cub) x y) = cub_norm x * cub_norm y.
  Proof. destruct x, y; unfold cub_norm, cub_d0, cub_d1, cub_d2; cbn. ring. Qed.

  Lemma cub_cube_u : fmul (f := Cub) (fmul (f := Cub) (mkc 0 1 0) (mkc 0 1 0)) (mkc 0 1 0) = mkc nu 0 0.
  Proof. cbn. f_equal; ring. Qed.
End Cub.

Section CubField.
  Variable K : FieldOps.
  Variable nu : K.
  Hypothesis KL : FieldLaws K.
  Add Field Kf : (FL_th K KL).
  Let R := FieldLaws_Ring K KL.

  (** Norm of a linear element a + b X is a^3 + nu b^3. *)
  Lemma cub_lin_norm (a b : K) :
    cub_norm K nu (mkc a b 0) = a * a * a + nu * (b * b * b).
  Proof. unfold cub_norm, cub_d0, cub_d1, cub_d2; cbn. ring. Qed.

  Lemma cub_lin_norm_0 (a b : K) :
    not_cube nu -> a * a * a + nu * (b * b * b) = 0 -> a = 0 /\ b = 0.
  Proof.
    intros Hnc H. destruct (feq_dec K R b 0) as [Eb|Eb].
    - subst b. split; [|reflexivity].
      assert (Ha : a * (a * a) = 0). { rewrite <- H. ring. }
      apply (fmul_integral K KL) in Ha. destruct Ha as [Ha|Ha]; [exact Ha|].
      apply (fsqr_0_inv K KL), Ha.
    - exfalso. apply (Hnc (- (a / b))).
      assert (E : a * a * a = - (nu * (b * b * b))).
      { apply (fsub_0_eq K R). rewrite <- H. ring. }
      transitivity (- (a * a * a) / (b * b * b)); [field; exact Eb|].
      rewrite E. field. exact Eb.
  Qed.

  Lemma cub_norm_neq_0 (x : cub K) :
    not_cube nu -> x <> mkc 0 0 0 -> cub_norm K nu x <> 0.
  Proof.
    intros Hnc Hx Hn. destruct x as [a b c].
    destruct (feq_dec K R c 0) as [Ec|Ec].
    - subst c. rewrite cub_lin_norm in Hn.
      destruct (cub_lin_norm_0 a b Hnc Hn) as [-> ->]. apply Hx. reflexivity.
    - (* multiply by b - c X to lower the degree *)
      assert (E : fmul (f := Cub K nu) (mkc a b c) (mkc b (- c) 0)
                  = mkc (a * b - nu * (c * c)) (b * b - a * c) 0).
      { cbn. f_equal; ring. }
      assert (Hn2 : cub_norm K nu (mkc (a * b - nu * (c * c)) (b * b - a * c) 0) = 0).
      { rewrite <- E, (cub_norm_mul K nu R), Hn. ring. }
      rewrite cub_lin_norm in Hn2.
      destruct (cub_lin_norm_0 _ _ Hnc Hn2) as [H1 H2].
      apply (Hnc (b / c)).
      apply (fsub_0_eq K R) in H1. apply (fsub_0_eq K R) in H2.
      transitivity (b * (b * b) / (c * c * c)); [field; exact Ec|].
      rewrite H2.
      transitivity ((a * b) * c / (c * c * c)); [field; exact Ec|].
      rewrite H1. field. exact Ec.
  Qed.

  Lemma Cub_field : not_cube nu -> FieldLaws (Cub K nu).
  Proof.
    intros Hnc. apply FieldLaws_of_ring.
    - apply Cub_ring, R.
    - intros H. apply (f_equal c0) in H. cbn in H. exact (f1_neq_0 K KL H).
    - intros x Hx. cbn in Hx. assert (Hn := cub_norm_neq_0 x Hnc Hx).
      destruct x as [a b c]. cbn. unfold cub_norm, cub_d0, cub_d1, cub_d2 in *; cbn in *.
      f_equal; field; exact Hn.
  Qed.
End CubField.
