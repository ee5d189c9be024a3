(** Every operation of the short Weierstrass classes against the affine law. *)
From Coq Require Import ZArith NArith List Bool Lia Ring Field.
From Verif Require Import Base.Field Spec.Weierstrass Model.ShortWeierstrass Proof.WeierstrassCoords.
Local Open Scope fld_scope.

Section Ops.
  Variable K : FieldOps.
  Hypothesis KL : FieldLaws K.
  Let R := FieldLaws_Ring K KL.
  Add Field Kf : (FL_th K KL).
  Hypothesis two : (2 : K) <> 0.
  Variables a b zx zy : K.
  Local Notation on := (on_curve K a b).
  Local Notation aden := (aden K zx zy).

  Lemma fpow_3 (x : K) : fpow x 3 = x * (x * x).
  Proof. change 3%N with (N.succ 2). rewrite (fpow_succ K), (fpow_2 K R). reflexivity. Qed.

  (** ** affine *)
  Section Affine.
    Hypothesis zfill : ~ on (Aff zx zy).
    Lemma aff_double_line x y : y <> 0 ->
      (let A := 3 * (x * x) + a in let i := finv (fdbl y) in
       Aff (A * A * i * i - x - x) ((fdbl x + x) * A * i - fpow A 3 * fpow i 3 - y))
      = ec_line (fdiv (3 * (x * x) + a) (2 * y)) x y x.
    Proof.
      intros N. cbv zeta. rewrite !fpow_3. 
      assert (N2 : y + y <> 0).
      { intros E. apply N, (self_opp K KL two). transitivity (y + y - y); [ring|rewrite E; ring]. }
      unfold ec_line, fdiv, fdbl. f_equal; field; auto.
    Qed.
    Lemma aff_double_den P : on (aden P) -> (forall x, aden P <> Aff x 0) ->
      aden (aff_double K a zx zy P) = ec_add K a (aden P) (aden P).
    Proof.
      destruct P as [x y]. unfold aff_double.
      assert (D : aden (mkA x y) = if aff_is_zero K zx zy (mkA x y) then Inf else Aff x y) by reflexivity.
      destruct (aff_is_zero K zx zy (mkA x y)); rewrite D; [intros _ _; reflexivity|].
      intros H N. assert (Ny : y <> 0) by (intros ->; exact (N x eq_refl)).
      cbn [ec_add aX aY]. rewrite (feqb_refl K R), (eqb_f K KL y (- y)) by (intros E; exact (Ny (self_opp K KL two y E))).
      assert (L := aff_double_line x y Ny). cbv zeta in L. rewrite <- L.
      apply (aden_on K KL a b zx zy zfill). rewrite L. apply (ec_line_tangent K KL two); assumption.
    Qed.
    Lemma aff_add_den P Q : on (aden P) -> on (aden Q) -> (aden P = aden Q -> forall x, aden P <> Aff x 0) ->
      aden (aff_add K a zx zy P Q) = ec_add K a (aden P) (aden Q).
    Proof.
      intros HP HQ N. unfold aff_add.
      destruct (aff_is_zero K zx zy P) eqn:ZP.
      { assert (D : aden P = Inf) by (unfold WeierstrassCoords.aden; rewrite ZP; reflexivity). rewrite D. reflexivity. }
      destruct (aff_is_zero K zx zy Q) eqn:ZQ.
      { assert (D : aden Q = Inf) by (unfold WeierstrassCoords.aden; rewrite ZQ; reflexivity). rewrite D.
        destruct (aden P); reflexivity. }
      destruct (aff_eqb K zx zy P Q) eqn:E.
      { apply (aff_eqb_den K KL) in E. rewrite <- E. apply aff_double_den; [exact HP|exact (N E)]. }
      destruct P as [x1 y1], Q as [x2 y2].
      assert (DP : aden (mkA x1 y1) = Aff x1 y1) by (unfold WeierstrassCoords.aden; rewrite ZP; reflexivity).
      assert (DQ : aden (mkA x2 y2) = Aff x2 y2) by (unfold WeierstrassCoords.aden; rewrite ZQ; reflexivity).
      assert (NE : Aff x1 y1 <> Aff x2 y2).
      { intros E'. rewrite <- DP, <- DQ in E'. apply (aff_eqb_den K KL) in E'. congruence. }
      rewrite DP in *. rewrite DQ in *. unfold aff_add_inner. cbn [aX aY ec_add].
      destruct (feqb_spec K R x1 x2) as [Ex|Ex].
      - subst x2. rewrite (eqb_t K KL (x1 - x1) 0) by ring.
        rewrite (eqb_t K KL y1 (- y2)); [apply (aff_zero_den K KL)|].
        apply (sq_eq_on K KL a b x1); auto. congruence.
      - assert (Nx : x2 - x1 <> 0) by (intros Z; apply Ex; symmetry; apply (fsub_0_eq K R), Z).
        rewrite (eqb_f K KL _ _ Nx). rewrite !fpow_3.
        match goal with |- aden (mkA ?X ?Y) = ?r => assert (L : Aff X Y = r) end.
        { unfold ec_line, fdiv. f_equal; field; exact Nx. }
        rewrite <- L. apply (aden_on K KL a b zx zy zfill). rewrite L. apply (ec_line_chord K KL); assumption.
    Qed.
    Lemma aff_neg_den P : zy = 0 -> aden (aff_neg K P) = ec_neg (aden P).
    Proof.
      intros Hz. destruct P as [x y]. unfold WeierstrassCoords.aden, aff_neg, aff_is_zero; cbn. subst zy.
      destruct (feqb_spec K R x zx) as [->|]; cbn; [|reflexivity].
      destruct (feqb_spec K R y 0) as [->|N]; [rewrite (eqb_t K KL (- 0) 0) by ring; reflexivity|].
      rewrite (eqb_f K KL (- y) 0); [reflexivity|]. intros E. apply N, (fopp_0_inv K R), E.
    Qed.
  End Affine.

  (** ** Jacobian *)
  Definition jden (P : triple K) : point K :=
    if tZ P =? 0 then Inf
    else Aff (fdiv (tX P) (tZ P * tZ P)) (fdiv (tY P) (tZ P * tZ P * tZ P)).
  Lemma jden_inf X Y Z : Z = 0 -> jden (mkT X Y Z) = Inf.
  Proof. intros ->. unfold jden; cbn. rewrite (feqb_refl K R). reflexivity. Qed.
  Lemma jden_aff x y Z : Z <> 0 -> jden (mkT (x * (Z * Z)) (y * (Z * Z * Z)) Z) = Aff x y.
  Proof. intros N. unfold jden; cbn. rewrite (eqb_f K KL _ _ N). unfold fdiv. f_equal; field; exact N. Qed.
  (** every triple with Z <> 0 has the form used in [jden_aff] *)
  Lemma jac_form (P : triple K) : tZ P <> 0 -> exists x y, P = mkT (x * (tZ P * tZ P)) (y * (tZ P * tZ P * tZ P)) (tZ P).
  Proof.
    destruct P as [X Y Z]; cbn. intros N. exists (fdiv X (Z * Z)), (fdiv Y (Z * Z * Z)).
    unfold fdiv. f_equal; field; exact N.
  Qed.
  Lemma jac_is_zero_t (P : triple K) : tZ P = 0 -> jac_is_zero K P = true.
  Proof. apply (eqb_t K KL). Qed.
  Lemma jac_is_zero_f (P : triple K) : tZ P <> 0 -> jac_is_zero K P = false.
  Proof. apply (eqb_f K KL). Qed.
  (** cancel non-zero factors on both sides of an equation *)
  Lemma jac_eqb_den P Q : jac_eqb K P Q = true <-> jden P = jden Q.
  Proof.
    unfold jac_eqb.
    destruct (feq_dec K R (tZ P) 0) as [ZP|ZP]; [rewrite (jac_is_zero_t P ZP)|rewrite (jac_is_zero_f P ZP)].
    - unfold jden. rewrite (eqb_t K KL _ _ ZP). unfold jac_is_zero. destruct (tZ Q =? 0); split; congruence.
    - destruct (feq_dec K R (tZ Q) 0) as [ZQ|ZQ]; [rewrite (jac_is_zero_t Q ZQ)|rewrite (jac_is_zero_f Q ZQ)].
      { unfold jden. rewrite (eqb_t K KL _ _ ZQ), (eqb_f K KL _ _ ZP). split; congruence. }
      destruct (jac_form P ZP) as (x1 & y1 & EP), (jac_form Q ZQ) as (x2 & y2 & EQ).
      set (z1 := tZ P) in *. set (z2 := tZ Q) in *. clearbody z1 z2. subst P Q. rewrite !jden_aff by assumption. cbn.
      assert (N2 : z1 * z1 * (z2 * z2) <> 0) by (repeat apply (fmul_neq_0 K KL); assumption).
      assert (N3 : z1 * z1 * z1 * (z2 * z2 * z2) <> 0) by (repeat apply (fmul_neq_0 K KL); assumption).
      destruct (feqb_spec K R (x1 * (z1 * z1) * (z2 * z2)) (x2 * (z2 * z2) * (z1 * z1))) as [Ex|Ex]; cbn.
      + assert (E1 : x1 = x2).
        { apply (fmul_cancel_l K KL _ _ _ N2). transitivity (x1 * (z1 * z1) * (z2 * z2)); [ring|rewrite Ex; ring]. }
        subst x2.
        destruct (feqb_spec K R (y1 * (z1 * z1 * z1) * (z2 * (z2 * z2))) (y2 * (z2 * z2 * z2) * (z1 * (z1 * z1)))) as [Ey|Ey]; cbn.
        * assert (E1 : y1 = y2).
          { apply (fmul_cancel_l K KL _ _ _ N3). transitivity (y1 * (z1 * z1 * z1) * (z2 * (z2 * z2))); [ring|rewrite Ey; ring]. }
          subst. tauto.
        * split; [discriminate|]. intros E. injection E as ->. exfalso. apply Ey. ring.
      + split; [discriminate|]. intros E. injection E as -> ->. exfalso. apply Ex. ring.
  Qed.
  (** the generic addition, for distinct non-zero points *)
  Lemma jac_add_inner_den (P Q : triple K) : tZ P <> 0 -> tZ Q <> 0 -> on (jden P) -> on (jden Q) -> jden P <> jden Q ->
    jden (jac_add_2007_bl K P Q) = ec_add K a (jden P) (jden Q).
  Proof.
    intros ZP ZQ. destruct (jac_form P ZP) as (x1 & y1 & EP), (jac_form Q ZQ) as (x2 & y2 & EQ).
    set (z1 := tZ P) in *. set (z2 := tZ Q) in *. clearbody z1 z2. subst P Q. rewrite !jden_aff by assumption.
    intros H1 H2 NE. unfold jac_add_2007_bl. cbn [tX tY tZ ec_add].
    destruct (feqb_spec K R x1 x2) as [Ex|Ex].
    - subst x2. rewrite (eqb_t K KL y1 (- y2)).
      + apply jden_inf. ring.
      + apply (sq_eq_on K KL a b x1); auto. congruence.
    - assert (Nx : x2 - x1 <> 0) by (intros Z; apply Ex; symmetry; apply (fsub_0_eq K R), Z).
      match goal with |- jden (mkT ?X ?Y ?Z) = _ =>
        set (Z3 := 2 * (z1 * z2 * (z1 * z1) * (z2 * z2)) * (x2 - x1));
        assert (NZ : Z3 <> 0) by (unfold Z3; repeat apply (fmul_neq_0 K KL); assumption);
        assert (EZ : Z = Z3) by (unfold Z3; ring) end.
      rewrite EZ. unfold ec_line.
      match goal with |- _ = Aff ?x ?y => rewrite <- (jden_aff x y Z3 NZ) end.
      f_equal. unfold Z3, fdiv. f_equal; field; exact Nx.
  Qed.
  (** doubling, any family *)
  Definition dbl_ok (dbl : triple K -> triple K) : Prop :=
    forall P, on (jden P) -> jden (dbl P) = ec_add K a (jden P) (jden P).
  Lemma jac_dbl_form (X3 Y3 Z3 x y z : K) : z <> 0 -> on (Aff x y) ->
    Z3 = 2 * y * (z * z * z * z) ->
    X3 = (let A := 3 * (x * x) + a in A * A - 2 * 2 * 2 * x * (y * y)) * (z * z * z * z * (z * z * z * z)) ->
    Y3 = (let A := 3 * (x * x) + a in A * (2 * 2 * x * (y * y) - (A * A - 2 * 2 * 2 * x * (y * y))) - 2 * 2 * 2 * (y * y * (y * y)))
         * (z * z * z * z * (z * z * z * z) * (z * z * z * z)) ->
    jden (mkT X3 Y3 Z3) = ec_add K a (Aff x y) (Aff x y).
  Proof.
    intros Nz H -> -> ->. cbn [ec_add]. rewrite (feqb_refl K R).
    destruct (feq_dec K R y 0) as [->|Ny].
    - rewrite (eqb_t K KL 0 (- 0)) by ring. apply jden_inf. ring.
    - rewrite (eqb_f K KL y (- y)) by (intros E; exact (Ny (self_opp K KL two y E))).
      assert (NZ : 2 * y * (z * z * z * z) <> 0) by (repeat apply (fmul_neq_0 K KL); assumption).
      unfold ec_line. match goal with |- _ = Aff ?x ?y => rewrite <- (jden_aff x y _ NZ) end.
      f_equal. cbv zeta. unfold fdiv. f_equal; field; auto.
  Qed.

  Lemma dbl_inf dbl P : (tZ P = 0 -> dbl P = P) -> tZ P = 0 -> jden (dbl P) = ec_add K a (jden P) (jden P).
  Proof.
    intros H Z. rewrite (H Z). destruct P as [X Y W]. cbn in Z. rewrite !(jden_inf _ _ _ Z). reflexivity.
  Qed.
  Ltac dblcase P :=
    let Z := fresh "ZP" in
    destruct (feq_dec K R (tZ P) 0) as [Z|Z];
    [apply dbl_inf; [|exact Z]; intros _|].
  Lemma jac_dbl_ok : dbl_ok (jac_dbl K a).
  Proof.
    intros P H. dblcase P.
    { unfold jac_dbl. rewrite (jac_is_zero_t P ZP). reflexivity. }
    unfold jac_dbl. rewrite (jac_is_zero_f P ZP).
    destruct (jac_form P ZP) as (x & y & EP). set (z := tZ P) in *. clearbody z. subst P. rewrite !jden_aff in * by assumption.
    cbn [tX tY tZ]. apply (jac_dbl_form _ _ _ x y z); auto; cbv zeta; unfold fdbl; ring.
  Qed.
  Lemma jac0_dbl_ok : a = 0 -> dbl_ok (jac0_dbl K).
  Proof.
    intros Ha P H. dblcase P.
    { unfold jac0_dbl. rewrite (jac_is_zero_t P ZP). reflexivity. }
    unfold jac0_dbl. rewrite (jac_is_zero_f P ZP).
    destruct (jac_form P ZP) as (x & y & EP). set (z := tZ P) in *. clearbody z. subst P. rewrite !jden_aff in * by assumption.
    cbn [tX tY tZ]. apply (jac_dbl_form _ _ _ x y z); auto; cbv zeta; unfold fdbl; rewrite ?Ha; ring.
  Qed.
  Lemma jac3_dbl_ok : a = - (3) -> dbl_ok (jac3_dbl K).
  Proof.
    intros Ha P H. dblcase P.
    { unfold jac3_dbl. rewrite (jac_is_zero_t P ZP). reflexivity. }
    unfold jac3_dbl. rewrite (jac_is_zero_f P ZP).
    destruct (jac_form P ZP) as (x & y & EP). set (z := tZ P) in *. clearbody z. subst P. rewrite !jden_aff in * by assumption.
    cbn [tX tY tZ]. apply (jac_dbl_form _ _ _ x y z); auto; cbv zeta; unfold fdbl; rewrite ?Ha; ring.
  Qed.
  Lemma jac_add_den dbl P Q : dbl_ok dbl -> on (jden P) -> on (jden Q) ->
    jden (jac_add K dbl P Q) = ec_add K a (jden P) (jden Q).
  Proof.
    intros D HP HQ. unfold jac_add.
    destruct (feq_dec K R (tZ P) 0) as [ZP|ZP]; [rewrite (jac_is_zero_t P ZP)|rewrite (jac_is_zero_f P ZP)].
    { destruct P as [X Y Z]. rewrite (jden_inf X Y Z ZP). reflexivity. }
    destruct (feq_dec K R (tZ Q) 0) as [ZQ|ZQ]; [rewrite (jac_is_zero_t Q ZQ)|rewrite (jac_is_zero_f Q ZQ)].
    { destruct Q as [X Y Z]. rewrite (jden_inf X Y Z ZQ). destruct (jden P); reflexivity. }
    destruct (jac_eqb K P Q) eqn:E.
    - apply jac_eqb_den in E. rewrite <- E. apply D, HP.
    - apply jac_add_inner_den; auto. intros E'. apply jac_eqb_den in E'. congruence.
  Qed.
  Lemma trip_neg_jden P : jden (trip_neg K P) = ec_neg (jden P).
  Proof.
    destruct P as [X Y Z]. unfold jden, trip_neg. cbn [tX tY tZ].
    destruct (feqb_spec K R Z 0) as [E|E]; [reflexivity|]. cbn. unfold fdiv. f_equal. ring.
  Qed.
  Lemma jac_to_affine_den P : ~ on (Aff zx zy) -> on (jden P) -> aden (jac_to_affine K zx zy P) = jden P.
  Proof.
    intros zfill H. unfold jac_to_affine.
    destruct (feq_dec K R (tZ P) 0) as [ZP|ZP]; [rewrite (jac_is_zero_t P ZP)|rewrite (jac_is_zero_f P ZP)].
    { destruct P as [X Y Z]. rewrite (jden_inf X Y Z ZP). apply (aff_zero_den K KL). }
    destruct (jac_form P ZP) as (x & y & EP). set (z := tZ P) in *. clearbody z. subst P. rewrite !jden_aff in * by assumption.
    cbv zeta. cbn [tX tY tZ]. rewrite <- (aden_on K KL a b zx zy zfill x y H). f_equal. f_equal; field; exact ZP.
  Qed.
  Lemma jac_wf_den P : jac_is_well_formed K a b P = true <-> on (jden P).
  Proof.
    unfold jac_is_well_formed.
    destruct (feq_dec K R (tZ P) 0) as [ZP|ZP]; [rewrite (jac_is_zero_t P ZP)|rewrite (jac_is_zero_f P ZP)].
    { destruct P as [X Y Z]. rewrite (jden_inf X Y Z ZP). cbn. tauto. }
    destruct (jac_form P ZP) as (x & y & EP). set (z := tZ P) in *. clearbody z. subst P. rewrite !jden_aff in * by assumption.
    cbv zeta. cbn [tX tY tZ on_curve].
    assert (N6 : z * z * z * (z * z * z) <> 0) by (repeat apply (fmul_neq_0 K KL); assumption).
    rewrite (RL_eqb K R). split; intros E.
    - apply (fmul_cancel_l K KL _ _ _ N6).
      transitivity (y * (z * z * z) * (y * (z * z * z))); [ring|rewrite E; ring].
    - transitivity (y * y * (z * z * z * (z * z * z))); [ring|rewrite E; ring].
  Qed.
  Lemma jac0_wf_eq P : a = 0 -> jac0_is_well_formed K b P = jac_is_well_formed K a b P.
  Proof. intros ->. unfold jac0_is_well_formed, jac_is_well_formed. cbv zeta. destruct jac_is_zero; [reflexivity|]. f_equal. ring. Qed.
  Lemma jac3_wf_eq P : a = - (3) -> jac3_is_well_formed K b P = jac_is_well_formed K a b P.
  Proof. intros ->. unfold jac3_is_well_formed, jac_is_well_formed, fdbl. cbv zeta. destruct jac_is_zero; [reflexivity|]. f_equal. ring. Qed.
  Lemma aff_to_projective_jden P : jden (aff_to_projective K zx zy P) = aden P.
  Proof.
    unfold aff_to_projective, WeierstrassCoords.aden. destruct aff_is_zero; [apply jden_inf; reflexivity|].
    unfold jden; cbn. rewrite (eqb_f K KL 1 0) by apply (f1_neq_0 K KL). unfold fdiv. f_equal; field; apply (f1_neq_0 K KL).
  Qed.
  Lemma jac_mixed_add_den P Q : tZ Q = 0 \/ tZ Q = 1 -> on (jden P) -> on (jden Q) ->
    (jden P = jden Q -> jden P = Inf) ->
    jden (jac_mixed_add K P Q) = ec_add K a (jden P) (jden Q).
  Proof.
    intros Q1 HP HQ NE. unfold jac_mixed_add.
    destruct (feq_dec K R (tZ P) 0) as [ZP|ZP]; [rewrite (jac_is_zero_t P ZP)|rewrite (jac_is_zero_f P ZP)].
    { destruct P as [X Y Z]. rewrite (jden_inf X Y Z ZP). reflexivity. }
    destruct (feq_dec K R (tZ Q) 0) as [ZQ|ZQ]; [rewrite (jac_is_zero_t Q ZQ)|rewrite (jac_is_zero_f Q ZQ)].
    { destruct Q as [X Y Z]. rewrite (jden_inf X Y Z ZQ). destruct (jden P); reflexivity. }
    destruct Q1 as [Q1|Q1]; [contradiction|].
    destruct (jac_form P ZP) as (x1 & y1 & EP). set (z1 := tZ P) in *.
    assert (EQ : jden Q = Aff (tX Q) (tY Q)).
    { unfold jden. rewrite (eqb_f K KL _ _ ZQ), Q1. unfold fdiv. f_equal; field; apply (f1_neq_0 K KL). }
    clearbody z1. subst P. rewrite EQ in *. rewrite !jden_aff in * by assumption.
    set (x2 := tX Q) in *. set (y2 := tY Q) in *.
    unfold jac_madd_2007_bl. cbn [tX tY tZ ec_add]. fold x2 y2.
    destruct (feqb_spec K R x1 x2) as [Ex|Ex].
    - subst x1. rewrite (eqb_t K KL y1 (- y2)).
      + apply jden_inf. ring.
      + apply (sq_eq_on K KL a b x2); auto. intros E. rewrite E in NE. discriminate (NE eq_refl).
    - assert (Nx : x2 - x1 <> 0) by (intros Z; apply Ex; symmetry; apply (fsub_0_eq K R), Z).
      match goal with |- jden (mkT ?X ?Y ?Z) = _ =>
        set (Z3 := 2 * (z1 * (z1 * z1)) * (x2 - x1));
        assert (NZ : Z3 <> 0) by (unfold Z3; repeat apply (fmul_neq_0 K KL); assumption);
        assert (EZ : Z = Z3) by (unfold Z3; ring) end.
      rewrite EZ. unfold ec_line.
      match goal with |- _ = Aff ?x ?y => rewrite <- (jden_aff x y Z3 NZ) end.
      f_equal. unfold Z3, fdiv, fdbl. f_equal; field; exact Nx.
  Qed.

  (** ** projective *)
  Definition pden (P : triple K) : point K :=
    if tZ P =? 0 then Inf else Aff (fdiv (tX P) (tZ P)) (fdiv (tY P) (tZ P)).
  (** Z = 0 forces X = 0 on the cubic *)
  Definition pvalid (P : triple K) : Prop := (tZ P = 0 -> tX P = 0) /\ on (pden P).
  Lemma pden_inf X Y Z : Z = 0 -> pden (mkT X Y Z) = Inf.
  Proof. intros ->. unfold pden; cbn. rewrite (feqb_refl K R). reflexivity. Qed.
  Lemma pden_aff x y Z : Z <> 0 -> pden (mkT (x * Z) (y * Z) Z) = Aff x y.
  Proof. intros N. unfold pden; cbn. rewrite (eqb_f K KL _ _ N). unfold fdiv. f_equal; field; exact N. Qed.
  Lemma proj_form (P : triple K) : tZ P <> 0 -> exists x y, P = mkT (x * tZ P) (y * tZ P) (tZ P).
  Proof.
    destruct P as [X Y Z]; cbn. intros N. exists (fdiv X Z), (fdiv Y Z). unfold fdiv. f_equal; field; exact N.
  Qed.
  Lemma proj_is_zero_t (P : triple K) : (tZ P = 0 -> tX P = 0) -> tZ P = 0 -> proj_is_zero K P = true.
  Proof. intros H Z. unfold proj_is_zero. rewrite Z, (H Z), !(feqb_refl K R). reflexivity. Qed.
  Lemma proj_is_zero_f (P : triple K) : tZ P <> 0 -> proj_is_zero K P = false.
  Proof. intros Z. unfold proj_is_zero. rewrite (eqb_f K KL _ _ Z). apply andb_false_r. Qed.
  Lemma proj_eqb_den P Q : (tZ P = 0 -> tX P = 0) -> (tZ Q = 0 -> tX Q = 0) ->
    proj_eqb K P Q = true <-> pden P = pden Q.
  Proof.
    intros VP VQ. unfold proj_eqb.
    destruct (feq_dec K R (tZ P) 0) as [ZP|ZP]; [rewrite (proj_is_zero_t P VP ZP)|rewrite (proj_is_zero_f P ZP)].
    - unfold pden. rewrite (eqb_t K KL _ _ ZP).
      destruct (feq_dec K R (tZ Q) 0) as [ZQ|ZQ]; [rewrite (proj_is_zero_t Q VQ ZQ)|rewrite (proj_is_zero_f Q ZQ)];
        [rewrite (eqb_t K KL _ _ ZQ)|rewrite (eqb_f K KL _ _ ZQ)]; split; congruence.
    - destruct (feq_dec K R (tZ Q) 0) as [ZQ|ZQ]; [rewrite (proj_is_zero_t Q VQ ZQ)|rewrite (proj_is_zero_f Q ZQ)].
      { unfold pden. rewrite (eqb_t K KL _ _ ZQ), (eqb_f K KL _ _ ZP). split; congruence. }
      destruct (proj_form P ZP) as (x1 & y1 & EP), (proj_form Q ZQ) as (x2 & y2 & EQ).
      set (z1 := tZ P) in *. set (z2 := tZ Q) in *. clearbody z1 z2. subst P Q. rewrite !pden_aff by assumption. cbn.
      assert (N2 : z1 * z2 <> 0) by (repeat apply (fmul_neq_0 K KL); assumption).
      destruct (feqb_spec K R (x1 * z1 * z2) (x2 * z2 * z1)) as [Ex|Ex]; cbn.
      + assert (E1 : x1 = x2).
        { apply (fmul_cancel_l K KL _ _ _ N2). transitivity (x1 * z1 * z2); [ring|rewrite Ex; ring]. }
        subst x2.
        destruct (feqb_spec K R (y1 * z1 * z2) (y2 * z2 * z1)) as [Ey|Ey]; cbn.
        * assert (E1 : y1 = y2).
          { apply (fmul_cancel_l K KL _ _ _ N2). transitivity (y1 * z1 * z2); [ring|rewrite Ey; ring]. }
          subst. tauto.
        * split; [discriminate|]. intros E. injection E as ->. exfalso. apply Ey. ring.
      + split; [discriminate|]. intros E. injection E as -> ->. exfalso. apply Ex. ring.
  Qed.
  Lemma pvalid_den (T : triple K) P : (tZ T = 0 -> tX T = 0) -> pden T = P -> on P -> pvalid T.
  Proof. intros H <- HP. split; assumption. Qed.
  (** results of a formula with numerators over a non-zero multiple of [d] *)
  Lemma pden_scaled (X Y Z x y : K) : Z <> 0 -> X = x * Z -> Y = y * Z -> pden (mkT X Y Z) = Aff x y.
  Proof. intros N -> ->. apply pden_aff, N. Qed.
  Lemma proj_dbl_den P : pvalid P -> pden (proj_dbl K a P) = ec_add K a (pden P) (pden P) /\ pvalid (proj_dbl K a P).
  Proof.
    intros [V H].
    assert (G : pden (proj_dbl K a P) = ec_add K a (pden P) (pden P) /\
                (tZ (proj_dbl K a P) = 0 -> tX (proj_dbl K a P) = 0)).
    { unfold proj_dbl.
      destruct (feq_dec K R (tZ P) 0) as [ZP|ZP]; [rewrite (proj_is_zero_t P V ZP)|rewrite (proj_is_zero_f P ZP)].
      { destruct P as [X Y Z]. rewrite (pden_inf X Y Z ZP). split; [reflexivity|exact V]. }
      destruct (proj_form P ZP) as (x & y & EP). set (z := tZ P) in *. clearbody z. subst P. rewrite !pden_aff in * by assumption.
      cbn [tX tY tZ ec_add]. rewrite (feqb_refl K R).
      destruct (feq_dec K R y 0) as [->|Ny].
      - rewrite (eqb_t K KL 0 (- 0)) by ring. split; [apply pden_inf; ring|intros _; ring].
      - rewrite (eqb_f K KL y (- y)) by (intros E; exact (Ny (self_opp K KL two y E))).
        assert (N2 : y * z * z + y * z * z <> 0).
        { intros E. assert (Z : 2 * (y * (z * z)) = 0) by (rewrite <- E; ring).
          apply (fmul_integral K KL) in Z. destruct Z as [Z|Z]; [contradiction|].
          revert Z. repeat apply (fmul_neq_0 K KL); assumption. }
        split.
        + unfold ec_line. apply pden_scaled; [repeat apply (fmul_neq_0 K KL); exact N2| |];
            unfold fdiv, fdbl; field; auto.
        + intros E. exfalso. revert E. repeat apply (fmul_neq_0 K KL); exact N2. }
    destruct G as [G1 G2]. split; [exact G1|].
    apply (pvalid_den _ _ G2 G1), (ec_add_on K KL two); assumption.
  Qed.
  (** the chord case shared by operator+ and mixed_add *)
  Lemma proj_add_den P Q : pvalid P -> pvalid Q ->
    pden (proj_add K a P Q) = ec_add K a (pden P) (pden Q) /\ pvalid (proj_add K a P Q).
  Proof.
    intros [VP HP] [VQ HQ]. unfold proj_add.
    destruct (feq_dec K R (tZ P) 0) as [ZP|ZP]; [rewrite (proj_is_zero_t P VP ZP)|rewrite (proj_is_zero_f P ZP)].
    { split; [destruct P as [X Y Z]; rewrite (pden_inf X Y Z ZP); reflexivity|split; assumption]. }
    destruct (feq_dec K R (tZ Q) 0) as [ZQ|ZQ]; [rewrite (proj_is_zero_t Q VQ ZQ)|rewrite (proj_is_zero_f Q ZQ)].
    { split; [destruct Q as [X Y Z]; rewrite (pden_inf X Y Z ZQ); destruct (pden P); reflexivity|split; assumption]. }
    destruct (proj_eqb K P Q) eqn:E.
    { apply proj_eqb_den in E; auto. rewrite <- E. apply proj_dbl_den. split; assumption. }
    assert (NE : pden P <> pden Q) by (intros E'; apply proj_eqb_den in E'; auto; congruence). clear E.
    assert (G : pden (proj_add_1998_cmo_2 K P Q) = ec_add K a (pden P) (pden Q) /\
                (tZ (proj_add_1998_cmo_2 K P Q) = 0 -> tX (proj_add_1998_cmo_2 K P Q) = 0)).
    { unfold proj_add_1998_cmo_2.
      destruct (proj_form P ZP) as (x1 & y1 & EP), (proj_form Q ZQ) as (x2 & y2 & EQ).
      set (z1 := tZ P) in *. set (z2 := tZ Q) in *. clearbody z1 z2. subst P Q. rewrite !pden_aff in * by assumption.
      cbn [tX tY tZ ec_add].
      destruct (feqb_spec K R x1 x2) as [Ex|Ex].
      - subst x2. rewrite (eqb_t K KL y1 (- y2)).
        + split; [apply pden_inf; ring|intros _; ring].
        + apply (sq_eq_on K KL a b x1); auto. congruence.
      - assert (Nx : x2 - x1 <> 0) by (intros Z; apply Ex; symmetry; apply (fsub_0_eq K R), Z).
        assert (Nv : x2 * z2 * z1 - x1 * z1 * z2 <> 0).
        { intros Z. assert (Z' : (x2 - x1) * (z1 * z2) = 0) by (rewrite <- Z; ring).
          revert Z'. repeat apply (fmul_neq_0 K KL); assumption. }
        split.
        + unfold ec_line. apply pden_scaled; [repeat apply (fmul_neq_0 K KL); assumption| |];
            unfold fdiv, fdbl; field; auto.
        + intros E. exfalso. revert E. repeat apply (fmul_neq_0 K KL); assumption. }
    destruct G as [G1 G2]. split; [exact G1|].
    apply (pvalid_den _ _ G2 G1), (ec_add_on K KL two); assumption.
  Qed.
  Lemma proj_mixed_add_den P Q : pvalid P -> pvalid Q -> tZ Q = 0 \/ tZ Q = 1 ->
    pden (proj_mixed_add K a P Q) = ec_add K a (pden P) (pden Q) /\ pvalid (proj_mixed_add K a P Q).
  Proof.
    intros VP VQ [Q1|Q1]; rewrite <- (proj1 (proj_add_den P Q VP VQ)).
    - destruct VQ as [VQ HQ]. unfold proj_mixed_add, proj_add.
      rewrite (proj_is_zero_t Q VQ Q1). destruct (proj_is_zero K P); auto. split; [reflexivity|split; assumption].
    - assert (E : proj_mixed_add K a P Q = proj_add K a P Q).
      { unfold proj_mixed_add, proj_add. destruct (proj_is_zero K P) eqn:EP; [reflexivity|].
        destruct (proj_is_zero K Q) eqn:EQ; [reflexivity|].
        assert (E2 : proj_eqb K P Q = (tX P =? tZ P * tX Q) && (tY P =? tZ P * tY Q)).
        { unfold proj_eqb. rewrite EP, EQ, Q1.
          replace (tX P * 1) with (tX P) by ring. replace (tY P * 1) with (tY P) by ring.
          replace (tX Q * tZ P) with (tZ P * tX Q) by ring. replace (tY Q * tZ P) with (tZ P * tY Q) by ring.
          destruct (_ =? _); cbn; [|reflexivity]. destruct (_ =? _); reflexivity. }
        rewrite E2. destruct (_ && _); [reflexivity|]. unfold proj_add_1998_cmo_2. rewrite Q1.
        f_equal; ring. }
      rewrite E. split; [reflexivity|]. exact (proj2 (proj_add_den P Q VP VQ)).
  Qed.
  Lemma trip_neg_pden P : pden (trip_neg K P) = ec_neg (pden P).
  Proof.
    destruct P as [X Y Z]. unfold pden, trip_neg. cbn [tX tY tZ].
    destruct (feqb_spec K R Z 0) as [E|E]; [reflexivity|]. cbn. unfold fdiv. f_equal. ring.
  Qed.
  Lemma trip_neg_pvalid P : pvalid P -> pvalid (trip_neg K P).
  Proof.
    intros [V H]. split; [exact V|]. rewrite trip_neg_pden. apply (ec_neg_on K KL), H.
  Qed.
  Lemma proj_to_affine_den P : ~ on (Aff zx zy) -> pvalid P -> aden (proj_to_affine K zx zy P) = pden P.
  Proof.
    intros zfill [V H]. unfold proj_to_affine.
    destruct (feq_dec K R (tZ P) 0) as [ZP|ZP]; [rewrite (proj_is_zero_t P V ZP)|rewrite (proj_is_zero_f P ZP)].
    { destruct P as [X Y Z]. rewrite (pden_inf X Y Z ZP). apply (aff_zero_den K KL). }
    destruct (proj_form P ZP) as (x & y & EP). set (z := tZ P) in *. clearbody z. subst P. rewrite !pden_aff in * by assumption.
    cbn [tX tY tZ]. rewrite <- (aden_on K KL a b zx zy zfill x y H). f_equal. f_equal; field; exact ZP.
  Qed.
  Lemma proj_wf_den P : proj_is_well_formed K a b P = true <-> pvalid P.
  Proof.
    unfold proj_is_well_formed, pvalid.
    destruct (feq_dec K R (tZ P) 0) as [ZP|ZP].
    - destruct P as [X Y Z]. rewrite (pden_inf X Y Z ZP). cbn in ZP. subst Z. unfold proj_is_zero. cbn [tX tY tZ].
      rewrite (feqb_refl K R), andb_true_r. destruct (feqb_spec K R X 0) as [->|N]; [cbn; tauto|].
      rewrite (RL_eqb K R). split.
      + intros E. exfalso. assert (Z : X * (X * X) = 0) by (transitivity (X * (X * X + a * (0 * 0))); [ring|rewrite <- E; ring]).
        revert Z. repeat apply (fmul_neq_0 K KL); exact N.
      + intros [E _]. exfalso. apply N, E. reflexivity.
    - rewrite (proj_is_zero_f P ZP).
      destruct (proj_form P ZP) as (x & y & EP). set (z := tZ P) in *. clearbody z. subst P. rewrite !pden_aff in * by assumption.
      cbn [tX tY tZ on_curve]. rewrite (RL_eqb K R).
      assert (N3 : z * z * z <> 0) by (repeat apply (fmul_neq_0 K KL); assumption).
      split.
      + intros E. split; [intros; contradiction|]. apply (fmul_cancel_l K KL _ _ _ N3).
        transitivity (z * (y * z * (y * z) - b * (z * z)) + b * (z * z * z)); [ring|rewrite E; ring].
      + intros [_ E]. transitivity (y * y * (z * z * z) - b * (z * z * z)); [ring|rewrite E; ring].
  Qed.
  Lemma aff_to_projective_pden P : pden (aff_to_projective K zx zy P) = aden P.
  Proof.
    unfold aff_to_projective, WeierstrassCoords.aden. destruct aff_is_zero; [apply pden_inf; reflexivity|].
    unfold pden; cbn. rewrite (eqb_f K KL 1 0) by apply (f1_neq_0 K KL). unfold fdiv. f_equal; field; apply (f1_neq_0 K KL).
  Qed.
  Lemma jac_to_projective_pden P : pden (jac_to_projective K zx zy P) = jden P.
  Proof.
    unfold jac_to_projective.
    destruct (feq_dec K R (tZ P) 0) as [ZP|ZP]; [rewrite (jac_is_zero_t P ZP)|rewrite (jac_is_zero_f P ZP)].
    { destruct P as [X Y Z]. rewrite (jden_inf X Y Z ZP). apply pden_inf. reflexivity. }
    destruct (jac_form P ZP) as (x & y & EP). set (z := tZ P) in *. clearbody z. subst P. rewrite !jden_aff in * by assumption.
    cbv zeta. cbn [tX tY tZ]. apply pden_scaled; [exact ZP| |]; field; exact ZP.
  Qed.
  Lemma jac0_to_projective_pden P : pden (jac0_to_projective K zx zy P) = jden P.
  Proof.
    unfold jac0_to_projective.
    destruct (feq_dec K R (tZ P) 0) as [ZP|ZP]; [rewrite (jac_is_zero_t P ZP)|rewrite (jac_is_zero_f P ZP)].
    { destruct P as [X Y Z]. rewrite (jden_inf X Y Z ZP). apply pden_inf. reflexivity. }
    destruct (jac_form P ZP) as (x & y & EP). set (z := tZ P) in *. clearbody z. subst P. rewrite !jden_aff in * by assumption.
    cbv zeta. cbn [tX tY tZ]. apply pden_scaled; [exact ZP| |]; field; exact ZP.
  Qed.
End Ops.
