(** The Montgomery group law, by an affine change of variable to a short
    Weierstrass curve, and the Montgomery class against it. *)
From Coq Require Import ZArith NArith List Bool Lia Ring Field.
From Verif Require Import Base.Field Spec.Weierstrass Spec.Montgomery Spec.Group Model.Edwards Model.Montgomery
  Proof.WeierstrassGroup Proof.WeierstrassRep.
Local Open Scope fld_scope.

Section Mont.
  Variable K : FieldOps.
  Hypothesis KL : FieldLaws K.
  Let R := FieldLaws_Ring K KL.
  Add Field Kmg : (FL_th K KL).
  Hypothesis two : (2 : K) <> 0.
  Hypothesis three : (3 : K) <> 0.
  Variables A B : K.
  Hypothesis ns : mont_nonsingular K A B.
  Local Notation on := (on_mont K A B).
  Local Notation "P ⊕ Q" := (mont_add K A B P Q) (at level 50, left associativity).

  Lemma mont_B0 : B <> 0.
  Proof. intros E. apply ns. rewrite E. ring. Qed.
  (** A = 3 A0 *)
  Definition A0 : K := finv 3 * A.
  Lemma A_A0 : A = 3 * A0.
  Proof. unfold A0. transitivity (3 * finv 3 * A); [rewrite (finv_r K KL 3 three); ring|ring]. Qed.
  Definition wa : K := fdiv (1 - 3 * (A0 * A0)) (B * B).
  Definition wb : K := fdiv (2 * (A0 * A0 * A0) - A0) (B * B * B).
  Definition phi (P : point K) : point K :=
    match P with Inf => Inf | Aff x y => Aff (fdiv (x + A0) B) (fdiv y B) end.
  Lemma phi_y y y' : fdiv y B = fdiv y' B -> y = y'.
  Proof.
    assert (NB := mont_B0). unfold fdiv. intros E. transitivity (B * (y * finv B)); [field; auto|]. rewrite E. field. auto.
  Qed.
  Lemma phi_x x x' : fdiv (x + A0) B = fdiv (x' + A0) B -> x = x'.
  Proof.
    intros E. apply phi_y in E. transitivity (x + A0 - A0); [ring|]. rewrite E. ring.
  Qed.
  Lemma phi_inj P Q : phi P = phi Q -> P = Q.
  Proof.
    destruct P, Q; cbn; intros E; try discriminate; auto. injection E as E1 E2.
    apply phi_x in E1. apply phi_y in E2. congruence.
  Qed.
  Lemma phi_on P : on P <-> on_curve K wa wb (phi P).
  Proof.
    assert (NB := mont_B0). destruct P as [|x y]; cbn [on_mont on_curve phi]; [tauto|]. rewrite A_A0. unfold wa, wb, fdiv.
    generalize A0. intros a0. split; intros H.
    - apply (fmul_cancel_l K KL (B * B * B)); [repeat apply (fmul_neq_0 K KL); auto|].
      transitivity (B * (y * y)); [field; auto|]. rewrite H. field. auto.
    - transitivity (B * B * B * (y * finv B * (y * finv B))); [field; auto|]. rewrite H. field. auto.
  Qed.
  Lemma phi_neg P : phi (ec_neg P) = ec_neg (phi P).
  Proof. assert (NB := mont_B0). destruct P; cbn; [reflexivity|]. f_equal. unfold fdiv. field. auto. Qed.
  Lemma phi_eqb_x x x' : (fdiv (x + A0) B =? fdiv (x' + A0) B) = (x =? x').
  Proof.
    destruct (x =? x') eqn:E.
    - apply (RL_eqb K R) in E. subst. apply (RL_eqb K R). reflexivity.
    - destruct (fdiv (x + A0) B =? _) eqn:E2; [|reflexivity]. apply (RL_eqb K R), phi_x, (RL_eqb K R) in E2. congruence.
  Qed.
  Lemma phi_eqb_y y y' : (fdiv y B =? - fdiv y' B) = (y =? - y').
  Proof.
    assert (NB := mont_B0). assert (E0 : - fdiv y' B = fdiv (- y') B) by (unfold fdiv; field; auto). rewrite E0.
    destruct (y =? - y') eqn:E.
    - apply (RL_eqb K R) in E. subst. apply (RL_eqb K R). reflexivity.
    - destruct (fdiv y B =? _) eqn:E2; [|reflexivity]. apply (RL_eqb K R), phi_y, (RL_eqb K R) in E2. congruence.
  Qed.
  Lemma phi_line l m x1 y1 x2 : m = l ->
    phi (mont_line K A B l x1 y1 x2) = ec_line m (fdiv (x1 + A0) B) (fdiv y1 B) (fdiv (x2 + A0) B).
  Proof.
    assert (NB := mont_B0). intros ->. unfold mont_line, ec_line. cbn [phi]. unfold fdiv. rewrite A_A0. generalize A0. intros a0. f_equal; field; auto.
  Qed.
  Lemma phi_add P Q : on P -> on Q -> phi (P ⊕ Q) = ec_add K wa (phi P) (phi Q).
  Proof.
    assert (NB := mont_B0). destruct P as [|x1 y1], Q as [|x2 y2]; try reflexivity. intros H1 H2. cbn [phi ec_add mont_add].
    rewrite phi_eqb_x, phi_eqb_y. destruct (x1 =? x2) eqn:Ex.
    - destruct (y1 =? - y2) eqn:Ey; [reflexivity|]. apply phi_line.
      apply (feqb_true K R) in Ex. subst x2. apply (feqb_false K R) in Ey. cbn in H1, H2.
      assert (Y : y1 = y2).
      { rewrite <- H2 in H1. apply (fmul_cancel_l K KL) in H1; auto. apply (fsqr_eq K KL) in H1. destruct H1 as [|H1]; [assumption|].
        contradiction. }
      subst y2. assert (Ny : y1 <> 0) by (intros ->; apply Ey; ring).
      rewrite A_A0. unfold wa, fdiv. generalize A0. intros a0. field. auto.
    - apply phi_line. apply (feqb_false K R) in Ex. unfold fdiv. generalize A0. intros a0.
      assert (x2 - x1 <> 0) by (intros E; apply Ex; symmetry; apply (fsub_0_eq K R); exact E).
      assert (x2 + a0 - (x1 + a0) <> 0) by (intros E; apply H; rewrite <- E; ring).
      field. auto.
  Qed.
  Lemma phi_nonsingular : nonsingular K wa wb.
  Proof.
    assert (NB := mont_B0). assert (N := ns). unfold mont_nonsingular in N. rewrite A_A0 in N. revert N.
    unfold nonsingular, wa, wb. generalize A0. intros a0 N E. apply N.
    transitivity (- (B * (B * B * B * (B * B * B)) *
      (2 * 2 * (fdiv (1 - 3 * (a0 * a0)) (B * B) * fdiv (1 - 3 * (a0 * a0)) (B * B) * fdiv (1 - 3 * (a0 * a0)) (B * B)) +
       3 * 3 * 3 * (fdiv (2 * (a0 * a0 * a0) - a0) (B * B * B) * fdiv (2 * (a0 * a0 * a0) - a0) (B * B * B))))).
    { unfold fdiv. field. auto. }
    rewrite E. ring.
  Qed.
  Local Notation W := (sw_group K KL two wa wb phi_nonsingular).
  Lemma mont_closed P Q : on P -> on Q -> on (P ⊕ Q).
  Proof. intros HP HQ. apply phi_on. rewrite phi_add by auto. apply (g_inadd W); apply phi_on; auto. Qed.
  Lemma mont_neg_on P : on P -> on (ec_neg P).
  Proof. intros HP. apply phi_on. rewrite phi_neg. apply (g_inneg W), phi_on, HP. Qed.
  Definition mont_group : AbGroup.
  Proof.
    refine (mkG (point K) on Inf (mont_add K A B) ec_neg _ _ _ _ _ _ _).
    - exact I.
    - apply mont_closed.
    - apply mont_neg_on.
    - intros x y z X Y Z. apply phi_inj. rewrite !phi_add by auto using mont_closed.
      apply (g_assoc W); apply phi_on; auto.
    - intros x y X Y. apply phi_inj. rewrite !phi_add by auto. apply (g_comm W); apply phi_on; auto.
    - reflexivity.
    - intros x X. apply phi_inj. rewrite phi_add, phi_neg by auto using mont_neg_on. apply (g_negr W), phi_on, X.
  Defined.
  Lemma mont_gmul n (P : point K) : gmul (G := mont_group) n P = mont_mul K A B (N.to_nat n) P.
  Proof. unfold gmul. induction (N.to_nat n) as [|m IH]; [reflexivity|]. cbn [gmuln mont_mul]. rewrite IH. reflexivity. Qed.

  (** ** the class *)
  (** the flag decides; coordinates of the identity are irrelevant *)
  Definition is_mont (t : mont K) (P : point K) : Prop :=
    match P with Inf => mInf t = true | Aff x y => mInf t = false /\ mX t = x /\ mY t = y end.
  Lemma is_mont_cases t P : is_mont t P ->
    (mInf t = true /\ P = Inf) \/ (t = mkM false (mX t) (mY t) /\ P = Aff (mX t) (mY t)).
  Proof. destruct t as [[|] X Y], P as [|x y]; cbn; intros H; try discriminate; try (destruct H as (H & _); discriminate); auto.
    destruct H as (_ & -> & ->). auto. Qed.
  Lemma mont_is_zero_ok t P : is_mont t P -> (mont_is_zero t = true <-> P = Inf).
  Proof. unfold mont_is_zero. destruct P; cbn; [tauto|]. intros (-> & _). split; discriminate. Qed.
  Lemma mont_eqb_ok t u P Q : is_mont t P -> is_mont u Q -> (mont_eqb t u = true <-> P = Q).
  Proof.
    intros HP HQ. destruct (is_mont_cases _ _ HP) as [(E & ->)|(-> & ->)], (is_mont_cases _ _ HQ) as [(E' & ->)|(-> & ->)];
      unfold mont_eqb, mont_is_zero; cbn [mInf mX mY].
    - rewrite E, E'. tauto.
    - rewrite E. split; discriminate.
    - rewrite E'. split; discriminate.
    - destruct (mX t =? mX u) eqn:E1; cbn [negb].
      + apply (feqb_true K R) in E1. destruct (mY t =? mY u) eqn:E2; cbn [negb].
        * apply (feqb_true K R) in E2. rewrite E1, E2. tauto.
        * apply (feqb_false K R) in E2. split; [discriminate|]. intros E. injection E as _ E. contradiction.
      + apply (feqb_false K R) in E1. split; [discriminate|]. intros E. injection E as E _. contradiction.
  Qed.
  Lemma mont_wf_ok t : mont_is_well_formed K A B t = true <-> exists P, is_mont t P /\ on P.
  Proof.
    destruct t as [[|] X Y]; unfold mont_is_well_formed, mont_is_zero; cbn [mInf mX mY].
    - split; [intros _; exists Inf; cbn; auto|auto].
    - cbv zeta. rewrite (RL_eqb K R). split.
      + intros E. exists (Aff X Y). cbn. repeat split; auto.
      + intros ([|x y] & H & O); cbn in H; [discriminate|]. destruct H as (_ & -> & ->). cbn in O. rewrite O. ring.
  Qed.
  Lemma mont_double_ok t P : is_mont t P -> on P -> is_mont (mont_double K A B t) (P ⊕ P).
  Proof.
    assert (NB := mont_B0). intros H O. destruct (is_mont_cases _ _ H) as [(E & ->)|(-> & ->)]; unfold mont_double, mont_is_zero.
    - cbn. destruct (2 * B * mY t =? 0); cbn [mInf negb]; [reflexivity|]. rewrite E. exact E.
    - set (X := mX t) in *. set (Y := mY t) in *. clearbody X Y. cbn [mInf mX mY mont_add].
      replace (X =? X) with true by (symmetry; apply (RL_eqb K R); reflexivity).
      destruct (2 * B * Y =? 0) eqn:E; cbn [mInf mX mY negb].
      + apply (feqb_true K R) in E. assert (Y0 : Y = 0).
        { apply (fmul_integral K KL) in E. destruct E as [E|E]; [|exact E]. exfalso. revert E. apply (fmul_neq_0 K KL); auto. }
        subst Y. replace (0 =? - (0 : K)) with true by (symmetry; apply (RL_eqb K R); ring). reflexivity.
      + apply (feqb_false K R) in E.
        assert (NY : Y <> 0) by (intros ->; apply E; ring).
        destruct (Y =? - Y) eqn:E2.
        { apply (feqb_true K R) in E2. exfalso. apply E. transitivity (B * (Y + Y)); [ring|]. rewrite E2 at 1. ring. }
        unfold mont_line. cbn. unfold fdiv. repeat split; field; auto.
  Qed.
  Lemma mont_inner_ok x1 y1 x2 y2 : on (Aff x1 y1) -> on (Aff x2 y2) ->
    is_mont (mont_add_inner K A B (mkM false x1 y1) (mkM false x2 y2)) (Aff x1 y1 ⊕ Aff x2 y2).
  Proof.
    assert (NB := mont_B0). intros H1 H2. unfold mont_add_inner. cbn [mX mY mInf]. destruct (x1 =? x2) eqn:E.
    - destruct (y1 =? - y2) eqn:E2.
      + cbn [mont_add]. rewrite E, E2. reflexivity.
      + apply (feqb_true K R) in E. subst x2. apply (feqb_false K R) in E2.
        assert (Y : y1 = y2).
        { cbn in H1, H2. rewrite <- H2 in H1. apply (fmul_cancel_l K KL) in H1; auto. apply (fsqr_eq K KL) in H1.
          destruct H1 as [|H1]; [assumption|]. contradiction. }
        subst y2. apply mont_double_ok; auto. cbn. auto.
    - cbn [mont_add]. rewrite E. apply (feqb_false K R) in E. unfold mont_line, fdiv. cbn.
      assert (x2 - x1 <> 0) by (intros E0; apply E; symmetry; apply (fsub_0_eq K R), E0).
      repeat split; field; auto.
  Qed.
  Lemma mont_plus_ok t u P Q : is_mont t P -> is_mont u Q -> on P -> on Q -> is_mont (mont_plus K A B t u) (P ⊕ Q).
  Proof.
    destruct t as [[|] x1 y1], u as [[|] x2 y2], P as [|x1' y1'], Q as [|x2' y2']; intros HP HQ OP OQ;
      try discriminate HP; try discriminate HQ; try (destruct HP as (HP & _); discriminate HP);
      try (destruct HQ as (HQ & _); discriminate HQ); try exact HQ; try exact HP.
    destruct HP as (_ & E1 & E2), HQ as (_ & E3 & E4). cbn in E1, E2, E3, E4. subst.
    unfold mont_plus. cbn [mont_is_zero mInf].
    destruct (mont_eqb (mkM false x1' y1') (mkM false x2' y2')) eqn:E.
    - apply (mont_eqb_ok _ _ (Aff x1' y1') (Aff x2' y2')) in E; [|cbn; auto|cbn; auto]. rewrite <- E.
      apply mont_double_ok; [cbn; auto|exact OP].
    - apply mont_inner_ok; auto.
  Qed.
  Lemma mont_assign_ok s t P : is_mont t P -> is_mont (mont_assign K s t) P.
  Proof.
    intros H. destruct (is_mont_cases _ _ H) as [(E & ->)|(-> & ->)]; unfold mont_assign, mont_is_zero; cbn [mInf].
    - rewrite E. reflexivity.
    - cbn. auto.
  Qed.
  Lemma mont_add_assign_ok t u P Q : is_mont t P -> is_mont u Q -> on P -> on Q -> is_mont (mont_add_assign K A B t u) (P ⊕ Q).
  Proof.
    intros HP HQ OP OQ. assert (H := mont_plus_ok t u P Q HP HQ OP OQ). unfold mont_plus in H. unfold mont_add_assign.
    destruct (mont_is_zero t); [|exact H]. apply mont_assign_ok, H.
  Qed.
  Lemma mont_neg_ok t P : is_mont t P -> P <> Inf -> is_mont (mont_neg t) (ec_neg P).
  Proof. intros H N. destruct (is_mont_cases _ _ H) as [(E & ->)|(-> & ->)]; [contradiction|]. cbn. auto. Qed.
End Mont.
