(** The twisted Edwards classes against the group law. *)
From Coq Require Import ZArith NArith List Bool Lia Ring Field.
From Verif Require Import Base.Field Spec.Edwards Spec.Group Model.Edwards Proof.EdwardsGroup.
Local Open Scope fld_scope.

Section TE.
  Variable K : FieldOps.
  Hypothesis KL : FieldLaws K.
  Let R := FieldLaws_Ring K KL.
  Add Field Keo : (FL_th K KL).
  Hypothesis two : (2 : K) <> 0.
  Variables a d : K.
  Hypothesis cmp : complete K a d.
  Local Notation on := (on_te K a d).
  Local Notation "P ⊕ Q" := (te_add K a d P Q) (at level 50, left associativity).
  Variables zx zy : K.
  Hypothesis zfill : zx = 0 /\ (zy = 0 \/ zy = 1).

  Lemma eqb_iff (x y : K) : (x =? y) = true <-> x = y.
  Proof. apply (RL_eqb K R). Qed.
  Lemma eqb_niff (x y : K) : (x =? y) = false <-> x <> y.
  Proof. rewrite <- eqb_iff. destruct (x =? y); split; congruence. Qed.

  (** ** affine *)
  Definition is_tea (t : te_affine K) P := rep_te_affine zx zy (eX t) (eY t) P.
  Lemma zero_zero_off : ~ on (0, 0).
  Proof. cbn. intros H. apply (f1_neq_0 K KL). symmetry. transitivity (a * (0 * 0) + 0 * 0); [ring|rewrite H; ring]. Qed.
  Lemma tea_is_zero_ok t P : is_tea t P -> on P -> (tea_is_zero K zx zy t = true <-> P = te_zero).
  Proof.
    destruct t as [X Y], P as [x y]. unfold is_tea, rep_te_affine, tea_is_zero, te_zero. cbn [eX eY fst snd].
    destruct zfill as [-> Z]. intros H O. rewrite orb_true_iff, !andb_true_iff, !eqb_iff. split.
    - intros [(-> & ->)|(-> & ->)].
      + destruct H as [(<- & <-)|(_ & _ & H)]; [|exact H].
        destruct Z as [->| ->]; [|reflexivity]. exfalso. exact (zero_zero_off O).
      + destruct H as [(<- & <-)|(_ & _ & H)]; [reflexivity|exact H].
    - intros E. injection E as -> ->. destruct H as [(-> & ->)|(-> & -> & _)]; auto.
  Qed.
  Lemma tea_not_zero t P : is_tea t P -> on P -> tea_is_zero K zx zy t = false -> t = mkE (fst P) (snd P) /\ P <> te_zero.
  Proof.
    intros H O Z. assert (N : P <> te_zero) by (intros E; apply (tea_is_zero_ok t P H O) in E; congruence).
    destruct t as [X Y]. destruct H as [(E1 & E2)|(_ & _ & E)]; [|contradiction]. cbn in *. subst. auto.
  Qed.
  Lemma tea_zero_ok : is_tea (tea_zero K zx zy) te_zero.
  Proof. right. auto. Qed.
  Lemma tea_neg_ok t P : is_tea t P -> is_tea (tea_neg t) (te_neg P).
  Proof.
    destruct t as [X Y], P as [x y]. unfold is_tea, rep_te_affine, tea_neg, te_neg, te_zero. cbn [eX eY fst snd].
    destruct zfill as [-> _]. intros [(-> & ->)|(-> & -> & E)]; [left; auto|].
    injection E as -> ->. right. split; [ring|]. split; [reflexivity|]. f_equal. ring.
  Qed.
  Lemma tea_eqb_ok t u P Q : is_tea t P -> is_tea u Q -> on P -> on Q -> (tea_eqb K zx zy t u = true <-> P = Q).
  Proof.
    intros HP HQ OP OQ. unfold tea_eqb.
    destruct (tea_is_zero K zx zy t) eqn:ZP.
    { apply (tea_is_zero_ok _ _ HP OP) in ZP. subst P. rewrite (tea_is_zero_ok _ _ HQ OQ). split; congruence. }
    destruct (tea_is_zero K zx zy u) eqn:ZQ.
    { apply (tea_is_zero_ok _ _ HQ OQ) in ZQ. subst Q. split; [discriminate|]. intros E. apply (tea_is_zero_ok _ _ HP OP) in E. congruence. }
    destruct (tea_not_zero _ _ HP OP ZP) as [-> _]. destruct (tea_not_zero _ _ HQ OQ ZQ) as [-> _]. cbn [eX eY].
    destruct P as [x y], Q as [x' y']. cbn [fst snd].
    destruct (x =? x') eqn:E1; cbn [negb]; [|split; [discriminate|intros E; injection E as -> ->; apply eqb_niff in E1; congruence]].
    destruct (y =? y') eqn:E2; cbn [negb]; [|split; [discriminate|intros E; injection E as -> ->; apply eqb_niff in E2; congruence]].
    apply eqb_iff in E1, E2. subst. tauto.
  Qed.
  Lemma tea_inner_ok P Q : is_tea (tea_add_inner K a d (mkE (fst P) (snd P)) (mkE (fst Q) (snd Q))) (P ⊕ Q).
  Proof.
    destruct P as [x1 y1], Q as [x2 y2]. left. unfold tea_add_inner, te_add, fdiv. cbn [eX eY fst snd].
    replace (d * (x1 * x2) * (y1 * y2)) with (d * x1 * x2 * y1 * y2) by ring.
    replace (a * (x1 * x2)) with (a * x1 * x2) by ring. auto.
  Qed.
  Lemma te_add_0r P : P ⊕ te_zero = P.
  Proof. rewrite (te_add_comm K KL a d). apply (te_add_0l K KL). Qed.
  Lemma tea_double_ok t P : is_tea t P -> on P -> is_tea (tea_double K a d zx zy t) (P ⊕ P).
  Proof.
    intros H O. unfold tea_double. destruct (tea_is_zero K zx zy t) eqn:Z; cbn [negb].
    - assert (E := proj1 (tea_is_zero_ok _ _ H O) Z). subst P. rewrite te_add_0r. exact H.
    - destruct (tea_not_zero _ _ H O Z) as [-> _]. apply tea_inner_ok.
  Qed.
  Lemma tea_add_ok t u P Q : is_tea t P -> is_tea u Q -> on P -> on Q -> is_tea (tea_add K a d zx zy t u) (P ⊕ Q).
  Proof.
    intros HP HQ OP OQ. unfold tea_add.
    destruct (tea_is_zero K zx zy t) eqn:ZP.
    { apply (tea_is_zero_ok _ _ HP OP) in ZP. subst P. rewrite (te_add_0l K KL). exact HQ. }
    destruct (tea_is_zero K zx zy u) eqn:ZQ.
    { apply (tea_is_zero_ok _ _ HQ OQ) in ZQ. subst Q. rewrite te_add_0r. exact HP. }
    destruct (tea_eqb K zx zy t u) eqn:E.
    { apply (tea_eqb_ok t u P Q) in E; auto. subst Q. apply tea_double_ok; auto. }
    destruct (tea_not_zero _ _ HP OP ZP) as [-> _]. destruct (tea_not_zero _ _ HQ OQ ZQ) as [-> _]. apply tea_inner_ok.
  Qed.
  Lemma tea_wf_ok t : tea_is_well_formed K a d zx zy t = true <-> exists P, is_tea t P /\ on P.
  Proof.
    unfold tea_is_well_formed. destruct (tea_is_zero K zx zy t) eqn:Z.
    - split; [intros _|auto]. exists te_zero. split; [|apply (te_zero_on K KL)].
      unfold tea_is_zero in Z. apply orb_true_iff in Z. rewrite !andb_true_iff, !eqb_iff in Z.
      destruct t as [X Y]. destruct Z as [(E1 & E2)|(E1 & E2)]; [right|left]; auto.
    - cbv zeta. rewrite eqb_iff. split.
      + intros E. exists (eX t, eY t). split; [left; auto|exact E].
      + intros (P & H & O). destruct (tea_not_zero t P H O Z) as [-> _]. destruct P as [x y]. exact O.
  Qed.

  (** ** inverted *)
  Definition is_inv (t : inverted K) P := rep_inverted (iX t) (iY t) (iZ t) P.
  Lemma is_inv_regular t P : is_inv t P -> regular P.
  Proof.
    intros [(_ & _ & E)|(NX & NY & NZ & E1 & E2)]; [left; exact E|right].
    split; intros E; [apply NZ; rewrite E1, E|apply NZ; rewrite E2, E]; ring.
  Qed.
  Lemma one_neq_0 : (1 : K) <> 0. Proof. apply (f1_neq_0 K KL). Qed.
  Lemma inv_is_zero_ok t P : is_inv t P -> (inv_is_zero t = true <-> P = te_zero).
  Proof.
    unfold inv_is_zero. rewrite andb_true_iff, !eqb_iff. intros [(E1 & E2 & E3)|(NX & NY & NZ & E1 & E2)].
    - split; auto.
    - split; [intros [_ E]; contradiction|]. intros ->. exfalso. cbn in E1. apply NZ. rewrite E1. ring.
  Qed.
  (** the non-identity case *)
  Definition inv_of (x y Z : K) : inverted K := mkI (Z * finv x) (Z * finv y) Z.
  Lemma is_inv_form t P : is_inv t P -> P <> te_zero ->
    exists x y Z, P = (x, y) /\ x <> 0 /\ y <> 0 /\ Z <> 0 /\ t = inv_of x y Z.
  Proof.
    intros H N. assert (G := is_inv_regular _ _ H). destruct G as [|[Gx Gy]]; [contradiction|].
    destruct H as [(_ & _ & E)|(NX & NY & NZ & E1 & E2)]; [contradiction|].
    destruct P as [x y], t as [X Y Z]. cbn in *. exists x, y, Z. repeat split; auto. unfold inv_of. f_equal.
    - rewrite E1. field. exact Gx.
    - rewrite E2. field. exact Gy.
  Qed.
  Lemma inv_of_is x y Z : x <> 0 -> y <> 0 -> Z <> 0 -> is_inv (inv_of x y Z) (x, y).
  Proof.
    intros Nx Ny NZ. right. cbn [iX iY iZ inv_of fst snd].
    assert (finv x <> 0) by (intros E; apply one_neq_0; rewrite <- (finv_r K KL x Nx), E; ring).
    assert (finv y <> 0) by (intros E; apply one_neq_0; rewrite <- (finv_r K KL y Ny), E; ring).
    repeat split; try (apply (fmul_neq_0 K KL); assumption); auto; field; assumption.
  Qed.
  Lemma is_inv_scale X Y Z x y : Z <> 0 -> Z = x * X -> Z = y * Y -> is_inv (mkI X Y Z) (x, y).
  Proof.
    intros NZ E1 E2. right. cbn [iX iY iZ fst snd].
    repeat split; auto; intros E; apply NZ; [rewrite E1, E|rewrite E2, E]; ring.
  Qed.
  Lemma inv_zero_ok : is_inv (inv_zero K zx zy) te_zero.
  Proof. left. destruct zfill as [-> _]. auto. Qed.
  Lemma inv_neg_ok t P : is_inv t P -> is_inv (inv_neg t) (te_neg P).
  Proof.
    intros [(E1 & E2 & ->)|(NX & NY & NZ & E1 & E2)].
    - left. cbn. repeat split; auto. unfold te_zero. f_equal. ring.
    - destruct P as [x y]. apply is_inv_scale; auto. cbn in *. rewrite E1. ring.
  Qed.
  Lemma inv_eqb_ok t u P Q : is_inv t P -> is_inv u Q -> (inv_eqb t u = true <-> P = Q).
  Proof.
    intros HP HQ. unfold inv_eqb.
    destruct (inv_is_zero t) eqn:ZP.
    { apply (inv_is_zero_ok _ _ HP) in ZP. subst P. rewrite (inv_is_zero_ok _ _ HQ). split; congruence. }
    destruct (inv_is_zero u) eqn:ZQ.
    { apply (inv_is_zero_ok _ _ HQ) in ZQ. subst Q. split; [discriminate|]. intros E. apply (inv_is_zero_ok _ _ HP) in E. congruence. }
    destruct (is_inv_form t P HP) as (x & y & Z & -> & Nx & Ny & NZ & ->); [intros E; apply (inv_is_zero_ok _ _ HP) in E; congruence|].
    destruct (is_inv_form u Q HQ) as (x' & y' & Z' & -> & Nx' & Ny' & NZ' & ->); [intros E; apply (inv_is_zero_ok _ _ HQ) in E; congruence|].
    cbn [iX iY iZ inv_of].
    assert (G : forall s s', s <> 0 -> s' <> 0 -> ((Z * finv s * Z' =? Z' * finv s' * Z) = true <-> s = s')).
    { intros s s' Ns Ns'. rewrite eqb_iff. split; [|intros ->; ring]. intros E.
      apply (fmul_cancel_l K KL (Z * Z' * finv s * finv s')).
      - repeat apply (fmul_neq_0 K KL); auto; intros E0; apply one_neq_0; [rewrite <- (finv_r K KL s Ns)|rewrite <- (finv_r K KL s' Ns')]; rewrite E0; ring.
      - transitivity (Z' * finv s' * Z); [field; auto|]. rewrite <- E. field. auto. }
    destruct (Z * finv x * Z' =? Z' * finv x' * Z) eqn:E1; cbn [negb].
    - apply G in E1; auto. subst x'. destruct (Z * finv y * Z' =? Z' * finv y' * Z) eqn:E2; cbn [negb].
      + apply G in E2; auto. subst y'. tauto.
      + split; [discriminate|]. intros E. injection E as ->. rewrite (proj2 (G y' y' Ny' Ny') eq_refl) in E2. discriminate.
    - split; [discriminate|]. intros E. injection E as -> ->. rewrite (proj2 (G x' x' Nx' Nx') eq_refl) in E1. discriminate.
  Qed.
  (** a sum with both coordinates non-zero or equal to the identity *)
  Lemma inv_finish (x3 y3 X3 Y3 Z3 u v : K) :
    regular (x3, y3) -> u <> 0 -> v <> 0 ->
    Z3 = x3 * y3 * u -> Z3 = x3 * X3 -> Z3 = y3 * Y3 -> Y3 = x3 * v -> is_inv (mkI X3 Y3 Z3) (x3, y3).
  Proof.
    intros [E|[Nx Ny]] Nu Nv EZ E1 E2 E3.
    - unfold te_zero in E. injection E as -> ->. left. cbn [iX iY iZ]. unfold te_zero. repeat split; auto.
      + rewrite E3. ring.
      + rewrite EZ. ring.
    - cbn in Nx, Ny. apply is_inv_scale; auto. rewrite EZ. repeat apply (fmul_neq_0 K KL); auto.
  Qed.
  (** the denominators of the addition law, on any curve *)
  Definition dens (P Q : K * K) : Prop :=
    1 + d * fst P * fst Q * snd P * snd Q <> 0 /\ 1 - d * fst P * fst Q * snd P * snd Q <> 0.
  Lemma dens_ok P Q : on P -> on Q -> dens P Q.
  Proof.
    destruct P, Q. intros O1 O2. split; cbn [fst snd]; [apply (te_den_p K KL two a d cmp)|apply (te_den_m K KL two a d cmp)]; assumption.
  Qed.
  Lemma inv_add_2008_gen x1 y1 Z1 x2 y2 Z2 : dens (x1, y1) (x2, y2) ->
    x1 <> 0 -> y1 <> 0 -> Z1 <> 0 -> x2 <> 0 -> y2 <> 0 -> Z2 <> 0 ->
    regular ((x1, y1) ⊕ (x2, y2)) ->
    is_inv (inv_add_2008_bbjlp K a d (inv_of x1 y1 Z1) (inv_of x2 y2 Z2)) ((x1, y1) ⊕ (x2, y2)).
  Proof.
    intros [DP DM] N1 N2 N3 N4 N5 N6 Hr. cbn [fst snd] in DP, DM.
    unfold te_add in *. unfold inv_add_2008_bbjlp, inv_of. cbn [iX iY iZ]. unfold fdiv in *.
    set (m := x1 * x2 * y1 * y2).
    assert (Nm : m <> 0) by (unfold m; repeat apply (fmul_neq_0 K KL); auto).
    assert (finv m <> 0) by (intros E; apply one_neq_0; rewrite <- (finv_r K KL m Nm), E; ring).
    apply (inv_finish _ _ _ _ _
      (Z1 * Z2 * (Z1 * Z2) * (Z1 * Z2) * (1 + d * x1 * x2 * y1 * y2) * (1 - d * x1 * x2 * y1 * y2) * (finv m * finv m))
      (Z1 * Z2 * (Z1 * Z2) * (Z1 * Z2) * (1 + d * x1 * x2 * y1 * y2) * (1 - d * x1 * x2 * y1 * y2) * (finv m * finv m))); auto.
    1, 2: repeat apply (fmul_neq_0 K KL); auto.
    all: unfold m; field; repeat split; auto.
  Qed.
  Lemma inv_madd_2008_gen x1 y1 Z1 x2 y2 : dens (x1, y1) (x2, y2) ->
    x1 <> 0 -> y1 <> 0 -> Z1 <> 0 -> x2 <> 0 -> y2 <> 0 ->
    regular ((x1, y1) ⊕ (x2, y2)) ->
    is_inv (inv_madd_2008_bbjlp K a d (inv_of x1 y1 Z1) (inv_of x2 y2 1)) ((x1, y1) ⊕ (x2, y2)).
  Proof.
    intros O1 N1 N2 N3 N4 N5 Hr.
    assert (H := inv_add_2008_gen x1 y1 Z1 x2 y2 1 O1 N1 N2 N3 N4 N5 one_neq_0 Hr).
    assert (E : inv_madd_2008_bbjlp K a d (inv_of x1 y1 Z1) (inv_of x2 y2 1) = inv_add_2008_bbjlp K a d (inv_of x1 y1 Z1) (inv_of x2 y2 1)).
    { unfold inv_madd_2008_bbjlp, inv_add_2008_bbjlp, inv_of. cbn [iX iY iZ]. f_equal; ring. }
    rewrite E. exact H.
  Qed.
  Lemma inv_dbl_gen t P : is_inv t P -> on P -> dens P P -> regular (P ⊕ P) -> is_inv (inv_dbl K a d t) (P ⊕ P).
  Proof.
    intros H O D Hr. unfold inv_dbl. destruct (inv_is_zero t) eqn:ZP; cbn [negb].
    { assert (E := proj1 (inv_is_zero_ok _ _ H) ZP). subst P. rewrite te_add_0r. exact H. }
    destruct (is_inv_form t P H) as (x & y & Z & -> & Nx & Ny & NZ & ->); [intros E; apply (inv_is_zero_ok _ _ H) in E; congruence|].
    destruct D as [DP DM]. cbn [fst snd] in DP, DM.
    assert (O' : d * x * x * y * y = a * (x * x) + y * y - 1).
    { cbn in O. rewrite O. ring. }
    unfold te_add in *. unfold inv_of. cbn [iX iY iZ]. cbv zeta. unfold fdiv in *.
    rewrite O' in *.
    assert (EP : 1 + (a * (x * x) + y * y - 1) = a * (x * x) + y * y) by ring. rewrite EP in *.
    assert (EM : 1 - (a * (x * x) + y * y - 1) = 2 - a * (x * x) - y * y) by ring. rewrite EM in *.
    assert (d = (a * (x * x) + y * y - 1) * finv (x * x * (y * y))) as Ed by (rewrite <- O'; field; auto).
    assert (finv x <> 0) by (intros E; apply one_neq_0; rewrite <- (finv_r K KL x Nx), E; ring).
    assert (finv y <> 0) by (intros E; apply one_neq_0; rewrite <- (finv_r K KL y Ny), E; ring).
    set (i := finv x) in *. set (j := finv y) in *.
    apply (inv_finish _ _ _ _ _
      (Z * Z * (Z * Z) * (a * (x * x) + y * y) * (2 - a * (x * x) - y * y) * (i * i * i * i * (j * j * j * j)))
      (Z * Z * (Z * Z) * (a * (x * x) + y * y) * (2 - a * (x * x) - y * y) * (i * i * i * i * (j * j * j * j)))); auto.
    1, 2: repeat apply (fmul_neq_0 K KL); auto.
    all: try rewrite Ed; unfold i, j; field; repeat split; auto.
  Qed.
  Lemma inv_dbl_ok t P : is_inv t P -> on P -> regular (P ⊕ P) -> is_inv (inv_dbl K a d t) (P ⊕ P).
  Proof. intros. apply inv_dbl_gen; auto using dens_ok. Qed.
  Lemma inv_add_gen t u P Q : is_inv t P -> is_inv u Q -> on P -> on Q -> dens P Q -> regular (P ⊕ Q) ->
    is_inv (inv_add K a d t u) (P ⊕ Q).
  Proof.
    intros HP HQ OP OQ HD Hr. unfold inv_add.
    destruct (inv_is_zero t) eqn:ZP.
    { apply (inv_is_zero_ok _ _ HP) in ZP. subst P. rewrite (te_add_0l K KL). exact HQ. }
    destruct (inv_is_zero u) eqn:ZQ.
    { apply (inv_is_zero_ok _ _ HQ) in ZQ. subst Q. rewrite te_add_0r. exact HP. }
    destruct (inv_eqb t u) eqn:E.
    { apply (inv_eqb_ok t u P Q) in E; auto. subst Q. apply inv_dbl_gen; auto. }
    destruct (is_inv_form t P HP) as (x & y & Z & -> & Nx & Ny & NZ & ->); [intros E'; apply (inv_is_zero_ok _ _ HP) in E'; congruence|].
    destruct (is_inv_form u Q HQ) as (x' & y' & Z' & -> & Nx' & Ny' & NZ' & ->); [intros E'; apply (inv_is_zero_ok _ _ HQ) in E'; congruence|].
    apply inv_add_2008_gen; auto.
  Qed.
  Lemma inv_add_ok t u P Q : is_inv t P -> is_inv u Q -> on P -> on Q -> regular (P ⊕ Q) ->
    is_inv (inv_add K a d t u) (P ⊕ Q).
  Proof. intros. apply inv_add_gen; auto using dens_ok. Qed.
  Lemma inv_mixed_add_gen t u P Q : is_inv t P -> is_inv u Q -> iZ u = 1 -> dens P Q -> regular (P ⊕ Q) ->
    is_inv (inv_mixed_add K a d t u) (P ⊕ Q).
  Proof.
    intros HP HQ U HD Hr. unfold inv_mixed_add.
    destruct (inv_is_zero t) eqn:ZP.
    { apply (inv_is_zero_ok _ _ HP) in ZP. subst P. rewrite (te_add_0l K KL). exact HQ. }
    destruct (inv_is_zero u) eqn:ZQ.
    { apply (inv_is_zero_ok _ _ HQ) in ZQ. subst Q. rewrite te_add_0r. exact HP. }
    destruct (is_inv_form t P HP) as (x & y & Z & -> & Nx & Ny & NZ & ->); [intros E'; apply (inv_is_zero_ok _ _ HP) in E'; congruence|].
    destruct (is_inv_form u Q HQ) as (x' & y' & Z' & -> & Nx' & Ny' & NZ' & ->); [intros E'; apply (inv_is_zero_ok _ _ HQ) in E'; congruence|].
    cbn in U. subst Z'. apply inv_madd_2008_gen; auto.
  Qed.
  Lemma inv_mixed_add_ok t u P Q : is_inv t P -> is_inv u Q -> iZ u = 1 -> on P -> on Q -> regular (P ⊕ Q) ->
    is_inv (inv_mixed_add K a d t u) (P ⊕ Q).
  Proof. intros. apply inv_mixed_add_gen; auto using dens_ok. Qed.
  Lemma inv_to_affine_ok t P : is_inv t P -> is_tea (inv_to_affine K zx zy t) P.
  Proof.
    intros H. unfold inv_to_affine. destruct (inv_is_zero t) eqn:Z.
    - apply (inv_is_zero_ok _ _ H) in Z. subst P. apply tea_zero_ok.
    - destruct (is_inv_form t P H) as (x & y & W & -> & Nx & Ny & NZ & ->); [intros E'; apply (inv_is_zero_ok _ _ H) in E'; congruence|].
      left. cbn. split; field; auto.
  Qed.
  Lemma tea_to_inverted_ok t P : is_tea t P -> fst P <> 0 -> snd P <> 0 -> is_inv (tea_to_inverted t) P.
  Proof.
    intros [(E1 & E2)|(_ & _ & E)] N1 N2; [|subst P; contradiction N1; reflexivity].
    destruct t as [X Y], P as [x y]. cbn in *. subst. 
    replace (tea_to_inverted (mkE x y)) with (inv_of x y 1). { apply inv_of_is; auto using one_neq_0. }
    unfold inv_of, tea_to_inverted. cbn. f_equal; ring.
  Qed.
  Lemma inv_wf_ok t : inv_is_well_formed K a d t = true <-> (exists P, is_inv t P /\ on P) \/ (iX t = 0 /\ iY t <> 0 /\ iZ t = 0).
  Proof.
    unfold inv_is_well_formed. destruct (inv_is_zero t) eqn:Z.
    - split; [intros _|auto]. left. exists te_zero. split; [|apply (te_zero_on K KL)].
      unfold inv_is_zero in Z. rewrite andb_true_iff, !eqb_iff in Z. left. tauto.
    - cbv zeta. rewrite eqb_iff. destruct t as [X Y W]. cbn [iX iY iZ]. split.
      + intros E. destruct (feq_dec K R W 0) as [->|NW].
        * right. unfold inv_is_zero in Z. cbn in Z. apply andb_false_iff in Z. rewrite !eqb_niff in Z.
          assert (NY : Y <> 0) by (destruct Z as [Z|Z]; [exact Z|contradiction Z; reflexivity]).
          split; [|auto]. apply (fsqr_0_inv K KL).
          apply (fmul_cancel_l K KL (Y * Y)); [apply (fmul_neq_0 K KL); auto|].
          transitivity (X * X * (Y * Y) + d * (0 * 0) * (0 * 0)); [ring|]. rewrite <- E. ring.
        * left.
          assert (NX : X <> 0).
          { intros ->. destruct cmp as [(s & Ns & Hs) Hd]. apply (Hd (s * Y * finv W)).
            apply (fmul_cancel_l K KL (W * W * (W * W))); [repeat apply (fmul_neq_0 K KL); auto|].
            transitivity (s * s * (W * W) * (Y * Y)); [field; auto|]. rewrite Hs.
            transitivity (a * (W * W) * (Y * Y) + W * W * (0 * 0)); [ring|]. rewrite E. ring. }
          assert (NY : Y <> 0).
          { intros ->. destruct cmp as [(s & Ns & Hs) Hd]. apply (Hd (X * finv W)).
            apply (fmul_cancel_l K KL (W * W * (W * W))); [repeat apply (fmul_neq_0 K KL); auto|].
            transitivity (W * W * (X * X)); [field; auto|].
            transitivity (a * (W * W) * (0 * 0) + W * W * (X * X)); [ring|]. rewrite E. ring. }
          exists (W * finv X, W * finv Y). split.
          -- apply is_inv_scale; auto; field; auto.
          -- cbn. apply (fmul_cancel_l K KL (X * X * (Y * Y))); [repeat apply (fmul_neq_0 K KL); auto|].
             transitivity (a * (W * W) * (Y * Y) + W * W * (X * X)); [field; auto|]. rewrite E. field. auto.
      + intros [(P & H & O)|(-> & N & ->)]; [|ring].
        destruct (is_inv_form _ P H) as (x & y & V & -> & Nx & Ny & NZ & E); [intros E'; apply (inv_is_zero_ok _ _ H) in E'; congruence|].
        unfold inv_of in E. injection E as -> -> ->. cbn in O.
        transitivity (V * V * (V * V) * (a * (x * x) + y * y) * (finv x * finv x * (finv y * finv y))); [field; auto|].
        rewrite O. field. auto.
  Qed.

  (** ** extended, a = -1 *)
  Definition is_ext (t : extended K) P := rep_extended (xX t) (xY t) (xT t) (xZ t) P.
  Definition ext_of (x y Z : K) : extended K := mkX (x * Z) (y * Z) (x * y * Z) Z.
  Lemma is_ext_form t P : is_ext t P -> exists Z, Z <> 0 /\ t = ext_of (fst P) (snd P) Z.
  Proof.
    destruct t as [X Y T Z]. unfold is_ext, rep_extended. cbn [xX xY xT xZ].
    intros (N & -> & -> & ->). exists Z. auto.
  Qed.
  Lemma ext_of_is x y Z : Z <> 0 -> is_ext (ext_of x y Z) (x, y).
  Proof. intros N. repeat split; auto. Qed.
  Lemma ext_is_zero_ok t P : is_ext t P -> (ext_is_zero t = true <-> P = te_zero).
  Proof.
    intros H. destruct (is_ext_form t P H) as (Z & N & ->). destruct P as [x y]. unfold ext_is_zero, ext_of, te_zero.
    cbn [xX xY xT xZ fst snd]. rewrite !andb_true_iff, !eqb_iff. split.
    - intros ((E1 & _) & E2). f_equal; apply (fmul_cancel_l K KL Z); auto.
      + transitivity (x * Z); [ring|rewrite E1; ring].
      + transitivity (y * Z); [ring|rewrite E2; ring].
    - intros E. injection E as -> ->. repeat split; ring.
  Qed.
  Lemma ext_zero_ok : is_ext ext_zero te_zero.
  Proof. repeat split; cbn; [apply one_neq_0|ring|ring|ring]. Qed.
  Lemma ext_neg_ok t P : is_ext t P -> is_ext (ext_neg t) (te_neg P).
  Proof.
    intros H. destruct (is_ext_form t P H) as (Z & N & ->). destruct P as [x y]. unfold is_ext, rep_extended, ext_neg, ext_of. cbn.
    repeat split; auto; ring.
  Qed.
  Lemma ext_eqb_ok t u P Q : is_ext t P -> is_ext u Q -> (ext_eqb t u = true <-> P = Q).
  Proof.
    intros HP HQ. unfold ext_eqb.
    destruct (ext_is_zero t) eqn:ZP.
    { apply (ext_is_zero_ok _ _ HP) in ZP. subst P. rewrite (ext_is_zero_ok _ _ HQ). split; congruence. }
    destruct (ext_is_zero u) eqn:ZQ.
    { apply (ext_is_zero_ok _ _ HQ) in ZQ. subst Q. split; [discriminate|]. intros E. apply (ext_is_zero_ok _ _ HP) in E. congruence. }
    destruct (is_ext_form t P HP) as (Z & N & ->). destruct (is_ext_form u Q HQ) as (W & M & ->).
    destruct P as [x y], Q as [x' y']. unfold ext_of. cbn [xX xY xT xZ fst snd].
    assert (G : forall s s', (s * Z * W =? s' * W * Z) = true <-> s = s').
    { intros s s'. rewrite eqb_iff. split; [|intros ->; ring]. intros E. apply (fmul_cancel_l K KL (Z * W)).
      - apply (fmul_neq_0 K KL); auto.
      - transitivity (s * Z * W); [ring|rewrite E; ring]. }
    destruct (x * Z * W =? x' * W * Z) eqn:E1; cbn [negb].
    2:{ split; [discriminate|]. intros E. injection E as -> ->. rewrite (proj2 (G x' x') eq_refl) in E1. discriminate. }
    destruct (y * Z * W =? y' * W * Z) eqn:E2; cbn [negb].
    2:{ split; [discriminate|]. intros E. injection E as -> ->. rewrite (proj2 (G y' y') eq_refl) in E2. discriminate. }
    apply G in E1, E2. subst. rewrite (proj2 (G (x' * y') (x' * y')) eq_refl). cbn. tauto.
  Qed.
  Lemma is_ext_mk x y A B C D : D <> 0 -> A = x * D -> B = y * D -> C * D = A * B -> is_ext (mkX A B C D) (x, y).
  Proof.
    intros N -> -> E. repeat split; auto. cbn. apply (fmul_cancel_l K KL D); auto.
    transitivity (C * D); [ring|rewrite E; ring].
  Qed.
  Hypothesis am1 : a = - (1).
  Lemma ext_add_2008_ok x1 y1 Z1 x2 y2 Z2 : on (x1, y1) -> on (x2, y2) -> Z1 <> 0 -> Z2 <> 0 ->
    is_ext (ext_add_2008_hwcd_3 K d (ext_of x1 y1 Z1) (ext_of x2 y2 Z2)) ((x1, y1) ⊕ (x2, y2)).
  Proof.
    intros O1 O2 N1 N2.
    assert (DP := te_den_p K KL two a d cmp _ _ _ _ O1 O2). assert (DM := te_den_m K KL two a d cmp _ _ _ _ O1 O2).
    unfold te_add in *. unfold ext_add_2008_hwcd_3, ext_of. cbn [xX xY xT xZ]. unfold fdiv in *. apply is_ext_mk.
    - replace (_ * _) with ((2 * (Z1 * Z2) * (1 - d * x1 * x2 * y1 * y2)) * (2 * (Z1 * Z2) * (1 + d * x1 * x2 * y1 * y2))) by ring.
      repeat apply (fmul_neq_0 K KL); auto.
    - field. exact DP.
    - rewrite am1. field. exact DM.
    - ring.
  Qed.
  Lemma ext_dbl_ok t P : is_ext t P -> on P -> is_ext (ext_dbl K a t) (P ⊕ P).
  Proof.
    intros H O. unfold ext_dbl. destruct (ext_is_zero t) eqn:ZP; cbn [negb].
    { assert (E := proj1 (ext_is_zero_ok _ _ H) ZP). subst P. rewrite te_add_0r. exact H. }
    destruct (is_ext_form t P H) as (Z & N & ->). destruct P as [x y].
    assert (DP := te_den_p K KL two a d cmp _ _ _ _ O O). assert (DM := te_den_m K KL two a d cmp _ _ _ _ O O).
    assert (O' : d * x * x * y * y = a * (x * x) + y * y - 1) by (cbn in O; rewrite O; ring).
    unfold te_add in *. unfold ext_of. cbn [xX xY xT xZ fst snd]. cbv zeta. unfold fdiv in *. rewrite O' in *.
    assert (EP : 1 + (a * (x * x) + y * y - 1) = a * (x * x) + y * y) by ring. rewrite EP in *.
    assert (EM : 1 - (a * (x * x) + y * y - 1) = 2 - a * (x * x) - y * y) by ring. rewrite EM in *.
    apply is_ext_mk.
    - replace (_ * _) with (- (Z * Z * (2 - a * (x * x) - y * y)) * (Z * Z * (a * (x * x) + y * y))) by ring.
      apply (fmul_neq_0 K KL); [|repeat apply (fmul_neq_0 K KL); auto].
      intros E. apply (fopp_0_inv K R) in E. revert E. repeat apply (fmul_neq_0 K KL); auto.
    - field. exact DP.
    - field. exact DM.
    - ring.
  Qed.
  Lemma ext_add_ok t u P Q : is_ext t P -> is_ext u Q -> on P -> on Q -> is_ext (ext_add K a d t u) (P ⊕ Q).
  Proof.
    intros HP HQ OP OQ. unfold ext_add.
    destruct (ext_is_zero t) eqn:ZP.
    { apply (ext_is_zero_ok _ _ HP) in ZP. subst P. rewrite (te_add_0l K KL). exact HQ. }
    destruct (ext_is_zero u) eqn:ZQ.
    { apply (ext_is_zero_ok _ _ HQ) in ZQ. subst Q. rewrite te_add_0r. exact HP. }
    destruct (ext_eqb t u) eqn:E.
    { apply (ext_eqb_ok t u P Q) in E; auto. subst Q. apply ext_dbl_ok; auto. }
    destruct (is_ext_form t P HP) as (Z & N & ->). destruct (is_ext_form u Q HQ) as (W & M & ->).
    destruct P, Q. apply ext_add_2008_ok; auto.
  Qed.
  (** mixed addition: correct unless P - Q has a zero coordinate *)
  Lemma ext_mixed_add_ok t u P Q : is_ext t P -> is_ext u Q -> xZ u = 1 -> on P -> on Q ->
    (P <> te_zero -> Q <> te_zero -> fst P * snd Q - snd P * fst Q <> 0 /\ snd P * snd Q + a * (fst P * fst Q) <> 0) ->
    is_ext (ext_mixed_add K a t u) (P ⊕ Q).
  Proof.
    intros HP HQ U OP OQ Hn. unfold ext_mixed_add.
    destruct (ext_is_zero t) eqn:ZP.
    { apply (ext_is_zero_ok _ _ HP) in ZP. subst P. rewrite (te_add_0l K KL). exact HQ. }
    destruct (ext_is_zero u) eqn:ZQ.
    { apply (ext_is_zero_ok _ _ HQ) in ZQ. subst Q. rewrite te_add_0r. exact HP. }
    destruct Hn as [NF NG]; [intros E; apply (ext_is_zero_ok _ _ HP) in E; congruence|intros E; apply (ext_is_zero_ok _ _ HQ) in E; congruence|].
    destruct (is_ext_form t P HP) as (Z & N & ->). destruct (is_ext_form u Q HQ) as (W & M & ->). cbn in U. subst W.
    destruct P as [x1 y1], Q as [x2 y2]. cbn [fst snd] in *.
    assert (DP := te_den_p K KL two a d cmp _ _ _ _ OP OQ). assert (DM := te_den_m K KL two a d cmp _ _ _ _ OP OQ).
    cbn in OP, OQ.
    (* x3 (y1 y2 + a x1 x2) = x1 y1 + x2 y2, and similarly for y3 *)
    assert (EX : (x1 * y2 + y1 * x2) * (y1 * y2 + a * (x1 * x2)) = (x1 * y1 + x2 * y2) * (1 + d * x1 * x2 * y1 * y2)).
    { transitivity (x1 * y1 * (a * (x2 * x2) + y2 * y2) + x2 * y2 * (a * (x1 * x1) + y1 * y1)); [ring|].
      rewrite OP, OQ. ring. }
    assert (EY : (y1 * y2 - a * x1 * x2) * (x1 * y2 - y1 * x2) = (x1 * y1 - x2 * y2) * (1 - d * x1 * x2 * y1 * y2)).
    { transitivity (x1 * y1 * (a * (x2 * x2) + y2 * y2) - x2 * y2 * (a * (x1 * x1) + y1 * y1)); [ring|].
      rewrite OP, OQ. ring. }
    unfold te_add, ext_madd_2008_hwcd_2, ext_of. cbn [xX xY xT xZ]. unfold fdiv.
    set (lp := 1 + d * x1 * x2 * y1 * y2) in *. set (lm := 1 - d * x1 * x2 * y1 * y2) in *.
    apply is_ext_mk.
    - replace (_ * _) with ((Z * (x1 * y2 - y1 * x2)) * (Z * (y1 * y2 + a * (x1 * x2)))) by ring.
      repeat apply (fmul_neq_0 K KL); auto.
    - transitivity ((x1 * y1 + x2 * y2) * lp * (x1 * y2 - y1 * x2) * (Z * Z) * finv lp); [field; exact DP|].
      rewrite <- EX. field. exact DP.
    - transitivity ((x1 * y1 - x2 * y2) * lm * (y1 * y2 + a * (x1 * x2)) * (Z * Z) * finv lm); [field; exact DM|].
      rewrite <- EY. field. exact DM.
    - ring.
  Qed.
  (** the two excluded quantities are the numerators of the coordinates of P - Q *)
  Lemma te_sub_fst P Q : fst P * snd Q - snd P * fst Q = 0 -> fst (P ⊕ te_neg Q) = 0.
  Proof.
    destruct P as [x1 y1], Q as [x2 y2]. unfold te_neg, te_add, fdiv. cbn [fst snd]. intros E.
    transitivity ((x1 * y2 - y1 * x2) * finv (1 + d * x1 * - x2 * y1 * y2)); [ring|rewrite E; ring].
  Qed.
  Lemma te_sub_snd P Q : snd P * snd Q + a * (fst P * fst Q) = 0 -> snd (P ⊕ te_neg Q) = 0.
  Proof.
    destruct P as [x1 y1], Q as [x2 y2]. unfold te_neg, te_add, fdiv. cbn [fst snd]. intros E.
    transitivity ((y1 * y2 + a * (x1 * x2)) * finv (1 - d * x1 * - x2 * y1 * y2)); [ring|rewrite E; ring].
  Qed.
  Lemma ext_to_affine_ok t P : is_ext t P -> is_tea (ext_to_affine K zx zy t) P.
  Proof.
    intros H. unfold ext_to_affine. destruct (ext_is_zero t) eqn:Z.
    - apply (ext_is_zero_ok _ _ H) in Z. subst P. apply tea_zero_ok.
    - destruct (is_ext_form t P H) as (W & N & ->). left. cbn. split; field; auto.
  Qed.
  Lemma tea_to_extended_ok t P : is_tea t P -> (zy = 1 \/ P <> te_zero) -> is_ext (tea_to_extended t) P.
  Proof.
    destruct t as [X Y]. intros [(E1 & E2)|(E1 & E2 & ->)] Z; cbn in *; subst; destruct zfill as [-> Zy].
    - repeat split; cbn; [apply one_neq_0|ring|ring|ring].
    - destruct Z as [->|Z]; [|contradiction Z; reflexivity]. repeat split; cbn; [apply one_neq_0|ring|ring|ring].
  Qed.
  Lemma ext_wf_ok t : ext_is_well_formed K a d t = true <-> (exists P, is_ext t P /\ on P) \/ t = mkX 0 0 0 0.
  Proof.
    destruct t as [X Y T Z]. unfold ext_is_well_formed. destruct (ext_is_zero (mkX X Y T Z)) eqn:Z0.
    - split; [intros _|auto]. unfold ext_is_zero in Z0. cbn in Z0. rewrite !andb_true_iff, !eqb_iff in Z0.
      destruct Z0 as ((-> & ->) & ->). destruct (feq_dec K R Z 0) as [->|N]; [right; reflexivity|left].
      exists te_zero. split; [|apply (te_zero_on K KL)]. repeat split; cbn; auto; ring.
    - cbn [xX xY xT xZ]. split.
      + destruct (X * Y =? T * Z) eqn:E1; cbn [negb]; [|discriminate]. apply eqb_iff in E1. cbv zeta. rewrite eqb_iff. intros E2.
        destruct (feq_dec K R Z 0) as [->|N].
        * right. assert (E3 : X * Y = 0) by (rewrite E1; ring). apply (fmul_integral K KL) in E3.
          assert (ET : T = 0).
          { destruct E3 as [->| ->].
            - apply (nonsq K KL a d cmp T Y). transitivity (0 * 0 + d * (T * T)); [ring|]. rewrite <- E2. ring.
            - destruct cmp as [(s & Ns & Hs) _]. apply (nonsq K KL a d cmp T (s * X)).
              transitivity (0 * 0 + d * (T * T)); [ring|]. rewrite <- E2, <- Hs. ring. }
          subst T. assert (EA : a * (X * X) + Y * Y = 0) by (rewrite E2; ring).
          assert (Na := te_a0 K KL a d cmp).
          destruct E3 as [->| ->].
          -- replace Y with (0 : K); [reflexivity|]. symmetry. apply (fsqr_0_inv K KL). rewrite <- EA. ring.
          -- replace X with (0 : K); [reflexivity|]. symmetry. apply (fsqr_0_inv K KL).
             apply (fmul_cancel_l K KL a); auto. transitivity (a * (X * X) + 0 * 0); [ring|rewrite EA; ring].
        * left. exists (X * finv Z, Y * finv Z). split.
          -- repeat split; cbn; auto; [field; auto|field; auto|].
             apply (fmul_cancel_l K KL Z); auto. transitivity (T * Z); [ring|]. rewrite <- E1. field. auto.
          -- cbn. apply (fmul_cancel_l K KL (Z * Z * (Z * Z))); [repeat apply (fmul_neq_0 K KL); auto|].
             transitivity ((a * (X * X) + Y * Y) * (Z * Z)); [field; auto|]. rewrite E2.
             transitivity (Z * Z * (Z * Z) + d * (T * Z * (T * Z))); [ring|]. rewrite <- E1. field. auto.
      + intros [(P & H & O)|E].
        * destruct (is_ext_form _ P H) as (W & N & E). unfold ext_of in E. injection E as -> -> -> ->.
          destruct P as [x y]. cbn [fst snd] in *.
          replace (x * W * (y * W) =? x * y * W * W) with true by (symmetry; apply eqb_iff; ring).
          cbn [negb]. cbv zeta. apply eqb_iff. cbn in O.
          transitivity (W * W * (a * (x * x) + y * y)); [ring|]. rewrite O. ring.
        * injection E as -> -> -> ->. unfold ext_is_zero in Z0. cbn in Z0. rewrite !andb_false_iff, !eqb_niff in Z0.
          exfalso. tauto.
  Qed.
End TE.
