(** C16-C21, C26, C27 for the short Weierstrass classes.
    [rep_affine], [rep_jacobian], [rep_projective] relate coordinates to a point;
    [ec_add], [ec_neg], [ec_mul] are the textbook operations. *)
From Coq Require Import ZArith NArith List Bool Lia Znumtheory Ring Field.
From Verif Require Import Base.Field Base.Zp Spec.Weierstrass Spec.Group Model.Power Model.ShortWeierstrass Model.ScalarMul
  Proof.WeierstrassCoords Proof.WeierstrassOps Proof.WeierstrassGroup Proof.WeierstrassRep Proof.ScalarMul.
Import ListNotations.
Local Open Scope fld_scope.

(** a point class instance stands for a point *)
Definition is_affine {K : FieldOps} (zx zy : K) (t : affine K) (P : point K) := rep_affine zx zy (aX t) (aY t) P.
Definition is_jacobian {K : FieldOps} (t : triple K) (P : point K) := rep_jacobian (tX t) (tY t) (tZ t) P.
Definition is_projective {K : FieldOps} (t : triple K) (P : point K) := rep_projective (tX t) (tY t) (tZ t) P.
(** y = 0 *)
Definition two_torsion {K : FieldOps} (P : point K) : Prop := match P with Inf => False | Aff _ y => y = 0 end.

Section Theorems.
  Variable K : FieldOps.
  Hypothesis KL : FieldLaws K.
  Let R := FieldLaws_Ring K KL.
  Add Field Kprop : (FL_th K KL).
  Hypothesis two : (2 : K) <> 0.
  Variables a b : K.
  Local Notation on := (on_curve K a b).
  Local Notation "P ⊕ Q" := (ec_add K a P Q) (at level 50, left associativity).
  (** params_type::zero_fill, which is not a point of the curve *)
  Variables zx zy : K.
  Hypothesis zfill : ~ on (Aff zx zy).
  Local Notation is_affine := (is_affine zx zy).

  Lemma nt_den (P : point K) : ~ two_torsion P -> forall x, P <> Aff x 0.
  Proof. intros N x ->. apply N. reflexivity. Qed.
  Lemma ec_on2 P Q : on P -> on Q -> on (P ⊕ Q).
  Proof. apply (ec_add_on K KL two). Qed.

  (** ** C16.  Affine coordinates.  Full statement: without the two_torsion
      hypotheses; see C16_two_torsion_refuted. *)
  Theorem C16_add_partial P Q t u : on P -> on Q -> is_affine t P -> is_affine u Q ->
    (P = Q -> ~ two_torsion P) ->
    is_affine (aff_add K a zx zy t u) (P ⊕ Q) /\ is_affine (aff_add_assign K a zx zy t u) (P ⊕ Q) /\ on (P ⊕ Q).
  Proof.
    intros HP HQ T U N. apply (rep_aff_den K KL a b) in T, U; auto.
    change (aff_add_assign K a zx zy t u) with (aff_add K a zx zy t u).
    assert (O := ec_on2 P Q HP HQ). enough (is_affine (aff_add K a zx zy t u) (P ⊕ Q)) by auto.
    apply (rep_aff_den K KL a b); auto. rewrite <- T, <- U in *. apply (aff_add_den K KL two a b); auto.
    intros E. apply nt_den, N, E.
  Qed.
  Theorem C16_double_partial P t : on P -> is_affine t P -> ~ two_torsion P ->
    is_affine (aff_double K a zx zy t) (P ⊕ P).
  Proof.
    intros HP T N. apply (rep_aff_den K KL a b) in T; auto. apply (rep_aff_den K KL a b); auto using ec_on2.
    rewrite <- T in *. apply (aff_double_den K KL two a b); auto. apply nt_den, N.
  Qed.
  Theorem C16_neg P t : zy = 0 -> on P -> is_affine t P -> is_affine (aff_neg K t) (ec_neg P).
  Proof.
    intros Z HP T. destruct P as [|x y]; cbn in *; destruct T as [-> ->]; auto. rewrite Z. split; [reflexivity|ring].
  Qed.
  Theorem C16_sub_partial P Q t u : zy = 0 -> on P -> on Q -> is_affine t P -> is_affine u Q ->
    (P = ec_neg Q -> ~ two_torsion P) ->
    is_affine (aff_sub K a zx zy t u) (P ⊕ ec_neg Q) /\ is_affine (aff_sub_assign K a zx zy t u) (P ⊕ ec_neg Q).
  Proof.
    intros Z HP HQ T U N. assert (HN := ec_neg_on K KL a b Q HQ). assert (TN := C16_neg Q u Z HQ U).
    destruct (C16_add_partial P (ec_neg Q) t (aff_neg K u) HP HN T TN N) as (A & B & _). split; assumption.
  Qed.

  (** ** C17.  Jacobian coordinates, any representatives. *)
  Definition jac_family_ok (dbl : triple K -> triple K) : Prop :=
    forall P Q t u, on P -> on Q -> is_jacobian t P -> is_jacobian u Q ->
      is_jacobian (jac_add K dbl t u) (P ⊕ Q) /\ is_jacobian (jac_add_assign K dbl t u) (P ⊕ Q) /\
      is_jacobian (jac_double K dbl t) (P ⊕ P) /\
      is_jacobian (trip_neg K t) (ec_neg P) /\
      is_jacobian (jac_sub K dbl t u) (P ⊕ ec_neg Q) /\ is_jacobian (jac_sub_assign K dbl t u) (P ⊕ ec_neg Q).
  Lemma jac_family dbl : dbl_ok K a b dbl -> jac_family_ok dbl.
  Proof.
    intros D P Q t u HP HQ T U. unfold is_jacobian in *. rewrite !(rep_jac_den K KL) in *. subst P Q.
    assert (A : forall v, on (jden K v) -> jden K (jac_add K dbl t v) = jden K t ⊕ jden K v)
      by (intros v HV; apply (jac_add_den K KL two a b); auto).
    assert (NQ : on (jden K (trip_neg K u))) by (rewrite (trip_neg_jden K KL); apply (ec_neg_on K KL), HQ).
    repeat split; try (apply A; assumption); try (apply D; assumption); try apply (trip_neg_jden K KL).
    - unfold jac_sub. rewrite A by exact NQ. rewrite (trip_neg_jden K KL). reflexivity.
    - unfold jac_sub_assign. change (jac_add_assign K dbl) with (jac_add K dbl).
      rewrite A by exact NQ. rewrite (trip_neg_jden K KL). reflexivity.
  Qed.
  Theorem C17_jacobian : jac_family_ok (jac_dbl K a).
  Proof. apply jac_family, (jac_dbl_ok K KL two). Qed.
  Theorem C17_jacobian_a4_0 : a = 0 -> jac_family_ok (jac0_dbl K).
  Proof. intros H. apply jac_family, (jac0_dbl_ok K KL two); exact H. Qed.
  Theorem C17_jacobian_a4_minus_3 : a = - (3) -> jac_family_ok (jac3_dbl K).
  Proof. intros H. apply jac_family, (jac3_dbl_ok K KL two); exact H. Qed.

  (** ** C18.  Projective coordinates (the a4 = -3 class has the same arithmetic). *)
  Theorem C18_projective P Q t u : on P -> on Q -> is_projective t P -> is_projective u Q ->
    is_projective (proj_add K a t u) (P ⊕ Q) /\ is_projective (proj_add_assign K a t u) (P ⊕ Q) /\
    is_projective (proj_dbl K a t) (P ⊕ P) /\
    is_projective (trip_neg K t) (ec_neg P) /\
    is_projective (proj_sub K a t u) (P ⊕ ec_neg Q) /\ is_projective (proj_sub_assign K a t u) (P ⊕ ec_neg Q).
  Proof.
    intros HP HQ T U. apply (rep_proj_pvalid K KL a b) in T, U; auto. destruct T as [VT <-], U as [VU <-].
    assert (I : forall v S, pden K v = S /\ pvalid K a b v -> is_projective v S).
    { intros v S [<- V]. apply (rep_proj_den K KL). split; [apply V|reflexivity]. }
    assert (NU := trip_neg_pvalid K KL a b u VU).
    assert (S1 : is_projective (proj_sub K a t u) (pden K t ⊕ ec_neg (pden K u))).
    { apply I. unfold proj_sub. rewrite <- (trip_neg_pden K KL). apply (proj_add_den K KL two a b); auto. }
    repeat split; try (apply I; first [apply (proj_add_den K KL two a b) | apply (proj_dbl_den K KL two a b)]; assumption); try exact S1.
    apply I. split; [apply (trip_neg_pden K KL)|apply (trip_neg_pvalid K KL), VT].
  Qed.

  (** ** C19.  Equality and conversions. *)
  Theorem C19_jacobian_eqb P Q t u : is_jacobian t P -> is_jacobian u Q -> jac_eqb K t u = true <-> P = Q.
  Proof. unfold is_jacobian. rewrite !(rep_jac_den K KL). intros <- <-. apply (jac_eqb_den K KL). Qed.
  Theorem C19_projective_eqb P Q t u : is_projective t P -> is_projective u Q -> proj_eqb K t u = true <-> P = Q.
  Proof. unfold is_projective. rewrite !(rep_proj_den K KL). intros [V <-] [W <-]. apply (proj_eqb_den K KL); assumption. Qed.
  Theorem C19_affine_eqb P Q t u : on P -> on Q -> is_affine t P -> is_affine u Q -> aff_eqb K zx zy t u = true <-> P = Q.
  Proof.
    intros HP HQ T U. apply (rep_aff_den K KL a b) in T, U; auto. subst. apply (aff_eqb_den K KL).
  Qed.
  Theorem C19_jacobian_to_affine P t : on P -> is_jacobian t P -> is_affine (jac_to_affine K zx zy t) P.
  Proof.
    intros HP T. apply (rep_jac_den K KL) in T. subst P. apply (rep_aff_den K KL a b); auto.
    apply (jac_to_affine_den K KL a b); auto.
  Qed.
  Theorem C19_projective_to_affine P t : on P -> is_projective t P -> is_affine (proj_to_affine K zx zy t) P.
  Proof.
    intros HP T. apply (rep_proj_pvalid K KL a b) in T; auto. destruct T as [V <-]. apply (rep_aff_den K KL a b); auto.
    apply (proj_to_affine_den K KL a b); auto.
  Qed.
  (** jacobian_with_a4_minus_3 divides Y by Z^2 instead of Z^3: right only for
      Z = 1, for y = 0 and for O; full statement as above *)
  Theorem C19_jacobian_a4_minus_3_to_affine_partial P t : on P -> is_jacobian t P ->
    is_affine (jac3_to_affine K zx zy t) P <->
    match P with Inf => True | Aff _ y => tZ t = 1 \/ y = 0 end.
  Proof.
    intros HP T. destruct P as [|x y].
    - cbn in T. unfold Weierstrass.is_affine, jac3_to_affine. rewrite (jac_is_zero_t K KL t T). cbn. tauto.
    - destruct T as (N & HX & HY). unfold Weierstrass.is_affine, jac3_to_affine. rewrite (jac_is_zero_f K KL t N).
      cbn [aX aY rep_affine]. rewrite HX, HY. set (z := tZ t) in *. clearbody z. clear HX HY.
      assert (EX : x * (z * z) * finv z * finv z = x) by (field; exact N).
      assert (EY : y * (z * z * z) * finv z * finv z = y * z) by (field; exact N). rewrite EX, EY. split.
      + intros [_ E]. assert (Z : y * (z - 1) = 0) by (transitivity (y * z - y); [ring|rewrite E; ring]).
        apply (fmul_integral K KL) in Z. destruct Z as [Z|Z]; [right; exact Z|left; apply (fsub_0_eq K R), Z].
      + intros [-> | ->]; split; ring.
  Qed.
  (** jacobian to_projective and the affine to_projective into both families *)
  Theorem C19_jacobian_to_projective P t : zx = 0 -> is_jacobian t P ->
    is_projective (jac_to_projective K zx zy t) P /\ is_projective (jac0_to_projective K zx zy t) P.
  Proof.
    intros Z T. apply (rep_jac_den K KL) in T. subst P.
    assert (V : forall v, tZ v = tZ t \/ v = trip_zero K zx zy -> (tZ t <> 0 \/ v = trip_zero K zx zy) -> tZ v = 0 -> tX v = 0).
    { intros v [E|E] [E'|E'] E2; try (subst v; exact Z). congruence. }
    split; apply (rep_proj_den K KL); (split; [|first [apply (jac_to_projective_pden K KL) | apply (jac0_to_projective_pden K KL)]]);
      apply V; unfold jac_to_projective, jac0_to_projective, jac_is_zero;
      destruct (feqb_spec K R (tZ t) 0); auto.
  Qed.
  Theorem C19_to_projective_to_affine P t : on P -> is_affine t P ->
    is_jacobian (aff_to_projective K zx zy t) P /\
    (zx = 0 -> is_projective (aff_to_projective K zx zy t) P) /\
    jac_to_affine K zx zy (aff_to_projective K zx zy t) = t /\
    (zx = 0 -> proj_to_affine K zx zy (aff_to_projective K zx zy t) = t).
  Proof.
    intros HP T. apply (rep_aff_den K KL a b) in T; auto.
    assert (J : is_jacobian (aff_to_projective K zx zy t) P).
    { apply (rep_jac_den K KL). rewrite (aff_to_projective_jden K KL). exact T. }
    assert (Q : zx = 0 -> is_projective (aff_to_projective K zx zy t) P).
    { intros Z. apply (rep_proj_den K KL). rewrite (aff_to_projective_pden K KL). split; [|exact T].
      unfold aff_to_projective. destruct aff_is_zero; cbn; auto. intros E. exfalso. exact (f1_neq_0 K KL E). }
    assert (E : forall s s' : affine K, is_affine s P -> is_affine s' P -> s = s').
    { intros [X Y] [X' Y']. unfold Weierstrass.is_affine. destruct P; cbn; intuition congruence. }
    assert (T' : is_affine t P) by (apply (rep_aff_den K KL a b); auto).
    repeat split; auto.
    - apply E; auto. apply C19_jacobian_to_affine; auto.
    - intros Z. apply E; auto. apply C19_projective_to_affine; auto.
  Qed.

  (** ** C20.  Mixed addition.  Projective coordinates: all cases.  Jacobian:
      all cases but P = Q <> O (full statement: without the last hypothesis),
      where it is wrong for every point of order other than 2. *)
  Definition normalised (t : triple K) : Prop := tZ t = 0 \/ tZ t = 1.
  Theorem C20_projective P Q t u : on P -> on Q -> is_projective t P -> is_projective u Q -> normalised u ->
    is_projective (proj_mixed_add K a t u) (P ⊕ Q).
  Proof.
    intros HP HQ T U N. apply (rep_proj_pvalid K KL a b) in T, U; auto. destruct T as [VT <-], U as [VU <-].
    destruct (proj_mixed_add_den K KL two a b t u VT VU N) as [<- V].
    apply (rep_proj_den K KL). split; [apply V|reflexivity].
  Qed.
  Theorem C20_jacobian_partial P Q t u : on P -> on Q -> is_jacobian t P -> is_jacobian u Q -> normalised u ->
    (P = Q -> P = Inf) -> is_jacobian (jac_mixed_add K t u) (P ⊕ Q).
  Proof.
    unfold is_jacobian. rewrite !(rep_jac_den K KL). intros HP HQ <- <- N NE.
    apply (jac_mixed_add_den K KL two a b); auto.
  Qed.
  Theorem C20_jacobian_equal_refuted x y t u : on (Aff x y) -> y <> 0 ->
    is_jacobian t (Aff x y) -> is_jacobian u (Aff x y) -> normalised u ->
    is_jacobian (jac_mixed_add K t u) Inf /\ ~ is_jacobian (jac_mixed_add K t u) (Aff x y ⊕ Aff x y).
  Proof.
    intros H Ny (Zt & Xt & Yt) (Zu & Xu & Yu) [N|N]; [contradiction|].
    assert (Z3 : tZ (jac_mixed_add K t u) = 0).
    { unfold jac_mixed_add. rewrite (jac_is_zero_f K KL t Zt), (jac_is_zero_f K KL u Zu).
      unfold jac_madd_2007_bl. cbn [tZ]. rewrite Xt, Xu, N. ring. }
    split; [exact Z3|].
    rewrite (ec_tangent K KL two a x y Ny). unfold ec_line. cbn. intros (E & _). contradiction.
  Qed.

  (** ** C21.  is_well_formed, every triple. *)
  Theorem C21_jacobian t : jac_is_well_formed K a b t = true <-> exists P, on P /\ is_jacobian t P.
  Proof.
    rewrite (jac_wf_den K KL). split.
    - intros H. exists (jden K t). split; [exact H|]. apply (rep_jac_den K KL). reflexivity.
    - intros (P & H & E). apply (rep_jac_den K KL) in E. subst P. exact H.
  Qed.
  Theorem C21_jacobian_a4_0 t : a = 0 -> jac0_is_well_formed K b t = true <-> exists P, on P /\ is_jacobian t P.
  Proof. intros H. rewrite (jac0_wf_eq K KL a b t H). apply C21_jacobian. Qed.
  Theorem C21_jacobian_a4_minus_3 t : a = - (3) -> jac3_is_well_formed K b t = true <-> exists P, on P /\ is_jacobian t P.
  Proof. intros H. rewrite (jac3_wf_eq K KL a b t H). apply C21_jacobian. Qed.
  Theorem C21_projective t : proj_is_well_formed K a b t = true <-> exists P, on P /\ is_projective t P.
  Proof.
    rewrite (proj_wf_den K KL). split.
    - intros [V H]. exists (pden K t). split; [exact H|]. apply (rep_proj_den K KL). split; [exact V|reflexivity].
    - intros (P & H & E). apply (rep_proj_pvalid K KL a b) in E; auto. apply E.
  Qed.

  (** ** C27 *)
  Hypothesis ns : nonsingular K a b.
  Theorem C27_closed P Q : on P -> on Q -> on (P ⊕ Q) /\ on (ec_neg P).
  Proof. intros HP HQ. split; [apply ec_on2; assumption|apply (ec_neg_on K KL), HP]. Qed.
  Theorem C27_associative P Q S : on P -> on Q -> on S -> P ⊕ Q ⊕ S = P ⊕ (Q ⊕ S).
  Proof. apply (ec_add_assoc K KL two a b), (nonsingular_ns K KL), ns. Qed.
  Theorem C27_commutative P Q : on P -> on Q -> P ⊕ Q = Q ⊕ P.
  Proof. apply (ec_add_comm K KL two). Qed.
  Theorem C27_identity P : P ⊕ Inf = P /\ Inf ⊕ P = P.
  Proof. split; [apply ec_add_inf_r|reflexivity]. Qed.
  Theorem C27_inverse P : on P -> P ⊕ ec_neg P = Inf /\ ec_neg P ⊕ P = Inf.
  Proof.
    intros HP. split; [apply (ec_add_neg_r K KL)|].
    rewrite (ec_add_comm K KL two a b) by (auto; apply (ec_neg_on K KL), HP). apply (ec_add_neg_r K KL).
  Qed.

  (** ** C26.  Scalar multiples: operator* (both sides, integers or scalar-field
      elements) and operator*=.  Projective: every scalar, every representative. *)
  Let G := sw_group K KL two a b ns.
  Definition z_is_one (t : triple K) : bool := tZ t =? 1.
  Definition jac_mul dbl := scalar_mul_mixed (triple K) (trip_zero K zx zy) (trip_zero K zx zy)
    (jac_add_assign K dbl) dbl (jac_mixed_add K) z_is_one.
  Definition jac_mul_assign dbl := mul_assign_mixed (triple K) (trip_zero K zx zy)
    (jac_add_assign K dbl) dbl (jac_mixed_add K) z_is_one.
  Definition proj_mul := scalar_mul_mixed (triple K) (trip_zero K zx zy) (trip_zero K zx zy)
    (proj_add_assign K a) (proj_dbl K a) (proj_mixed_add K a) z_is_one.
  Definition proj_mul_assign := mul_assign_mixed (triple K) (trip_zero K zx zy)
    (proj_add_assign K a) (proj_dbl K a) (proj_mixed_add K a) z_is_one.
  Definition aff_mul := scalar_mul (affine K) (aff_zero K zx zy) (aff_zero K zx zy)
    (aff_add_assign K a zx zy) (aff_double K a zx zy).
  Definition aff_mul_assign := mul_assign (affine K) (aff_zero K zx zy)
    (aff_add_assign K a zx zy) (aff_double K a zx zy).

  Theorem C26_projective P t n : zx = 0 -> on P -> is_projective t P ->
    is_projective (proj_mul t n) (ec_mul K a (N.to_nat n) P) /\
    is_projective (proj_mul_assign t n) (ec_mul K a (N.to_nat n) P).
  Proof.
    intros Z HP T. rewrite <- (sw_gmul K KL two a b ns).
    assert (Z0 : is_projective (trip_zero K zx zy) Inf) by (split; [exact Z|reflexivity]).
    assert (M : forall s y, on y /\ is_projective s y -> z_is_one t = true -> on (y ⊕ P) /\ is_projective (proj_mixed_add K a s t) (y ⊕ P)).
    { intros s y [HY S] E. split; [apply ec_on2; auto|]. apply C20_projective; auto. right.
      apply (feqb_true K R), E. }
    split.
    - unfold proj_mul. refine (proj2 (rep_scalar_mul_mixed G (triple K) (fun t P => on P /\ is_projective t P) _ _ _ _ _ _ _ _ _ _ _ t P n _ _));
        cbn; try (intros; intuition auto; fail); intros; repeat match goal with H : _ /\ _ |- _ => destruct H end;
        repeat split; auto using ec_on2; try (eapply C18_projective; eauto); try (apply M; auto); try exact Z.
    - unfold proj_mul_assign. refine (proj2 (rep_mul_assign_mixed G (triple K) (fun t P => on P /\ is_projective t P) _ _ _ _ _ _ _ _ _ t P n _ _));
        cbn; try (intros; intuition auto; fail); intros; repeat match goal with H : _ /\ _ |- _ => destruct H end;
        repeat split; auto using ec_on2; try (eapply C18_projective; eauto); try (apply M; auto); try exact Z.
  Qed.

  (** Jacobian: every scalar when Z <> 1; when Z = 1, every scalar n such that
      P, 2P, .., (n-2)P are not O (so every n up to one more than the order).
      Full statement: without the hypothesis on multiples. *)
  Definition jac_mul_ok (dbl : triple K -> triple K) : Prop := forall P t n,
    on P -> is_jacobian t P ->
    (tZ t = 1 -> forall j, (0 < j)%N -> (j + 1 < n)%N -> ec_mul K a (N.to_nat j) P <> Inf) ->
    is_jacobian (jac_mul dbl t n) (ec_mul K a (N.to_nat n) P) /\
    is_jacobian (jac_mul_assign dbl t n) (ec_mul K a (N.to_nat n) P).
  Lemma jac_mul_family dbl : jac_family_ok dbl -> jac_mul_ok dbl.
  Proof.
    intros F P t n HP T N. rewrite <- (sw_gmul K KL two a b ns).
    assert (N' : z_is_one t = true -> forall j, (0 < j)%N -> (j + 1 < n)%N -> gmul (G := G) j P = Inf -> P = Inf).
    { intros E j J1 J2 J3. exfalso. unfold G in J3. rewrite (sw_gmul K KL two a b ns) in J3.
      apply (N (feqb_true K R _ _ E) j J1 J2 J3). }
    assert (A : forall s u x y, on x /\ is_jacobian s x -> on y /\ is_jacobian u y ->
              on (x ⊕ y) /\ is_jacobian (jac_add_assign K dbl s u) (x ⊕ y)).
    { intros s u x y [X S] [Y U]. split; [apply ec_on2; auto|]. apply (F x y s u X Y S U). }
    assert (D : forall s x, on x /\ is_jacobian s x -> on (x ⊕ x) /\ is_jacobian (dbl s) (x ⊕ x)).
    { intros s x [X S]. split; [apply ec_on2; auto|]. apply (F x x s s X X S S). }
    assert (M : forall s u x y, on x /\ is_jacobian s x -> on y /\ is_jacobian u y -> z_is_one u = true -> (x = y -> x = Inf) ->
              on (x ⊕ y) /\ is_jacobian (jac_mixed_add K s u) (x ⊕ y)).
    { intros s u x y [X S] [Y U] E NE. split; [apply ec_on2; auto|]. apply C20_jacobian_partial; auto.
      right. apply (feqb_true K R), E. }
    assert (Z0 : on Inf /\ is_jacobian (trip_zero K zx zy) (Inf : point K)) by (split; [exact I|reflexivity]).
    split.
    - exact (proj2 (rep_scalar_mul_mixed_order G (triple K) (fun t P => on P /\ is_jacobian t P) (fun _ _ H => proj1 H)
        _ _ _ _ _ z_is_one Z0 Z0 A D M t P n (conj HP T) N')).
    - exact (proj2 (rep_mul_assign_mixed_order G (triple K) (fun t P => on P /\ is_jacobian t P) (fun _ _ H => proj1 H)
        _ _ _ _ z_is_one Z0 A D M t P n (conj HP T) N')).
  Qed.
  Theorem C26_jacobian_partial : jac_mul_ok (jac_dbl K a).
  Proof. apply jac_mul_family, C17_jacobian. Qed.
  Theorem C26_jacobian_a4_0_partial : a = 0 -> jac_mul_ok (jac0_dbl K).
  Proof. intros H. apply jac_mul_family, C17_jacobian_a4_0, H. Qed.
  Theorem C26_jacobian_a4_minus_3_partial : a = - (3) -> jac_mul_ok (jac3_dbl K).
  Proof. intros H. apply jac_mul_family, C17_jacobian_a4_minus_3, H. Qed.
  (** Affine: points none of whose multiples has order 2 (doubling such a multiple is refuted below) *)
  Theorem C26_affine_partial P t n : (forall k, ~ two_torsion (ec_mul K a k P)) -> on P -> is_affine t P ->
    is_affine (aff_mul t n) (ec_mul K a (N.to_nat n) P) /\
    is_affine (aff_mul_assign t n) (ec_mul K a (N.to_nat n) P).
  Proof.
    intros N2 HP T. rewrite <- (sw_gmul K KL two a b ns).
    pose (rep := fun t Q => on Q /\ is_affine t Q /\ exists k, Q = @gmul G k P).
    assert (NT : forall k, ~ two_torsion (@gmul G k P)) by (intros k; unfold G; rewrite (sw_gmul K KL two a b ns); apply N2).
    assert (C : forall x y, (exists k, x = @gmul G k P) -> (exists k, y = @gmul G k P) -> exists k, x ⊕ y = @gmul G k P).
    { intros x y [k ->] [l ->]. exists (k + l)%N. rewrite gmul_add by exact HP. reflexivity. }
    assert (A : forall s u x y, rep s x -> rep u y -> rep (aff_add_assign K a zx zy s u) (x ⊕ y)).
    { intros s u x y (X & S & MX) (Y & U & MY). split; [apply ec_on2; auto|]. split; [|auto]. apply C16_add_partial; auto.
      intros _. destruct MX as [k ->]. apply NT. }
    assert (D : forall s x, rep s x -> rep (aff_double K a zx zy s) (x ⊕ x)).
    { intros s x (X & S & MX). split; [apply ec_on2; auto|]. split; [|auto]. apply C16_double_partial; auto.
      destruct MX as [k ->]. apply NT. }
    assert (Z0 : rep (aff_zero K zx zy) (Inf : point K)).
    { split; [exact I|]. split; [split; reflexivity|]. exists 0%N. reflexivity. }
    assert (B : rep t P).
    { split; [exact HP|]. split; [exact T|]. exists 1%N. symmetry. apply (gmul_1 G), HP. }
    split.
    - exact (proj1 (proj2 (rep_scalar_mul G (affine K) rep (fun _ _ H => proj1 H) _ _ _ _ Z0 Z0 A D t P n B))).
    - exact (proj1 (proj2 (rep_mul_assign G (affine K) rep (fun _ _ H => proj1 H) _ _ _ Z0 A D t P n B))).
  Qed.
  (** in particular on curves without points of order 2, *)
  Theorem C26_affine_no_two_torsion P t n : (forall x, ~ on (Aff x 0)) -> on P -> is_affine t P ->
    is_affine (aff_mul t n) (ec_mul K a (N.to_nat n) P) /\
    is_affine (aff_mul_assign t n) (ec_mul K a (N.to_nat n) P).
  Proof.
    intros N2 HP T. apply C26_affine_partial; auto. intros k H.
    assert (O : on (ec_mul K a k P)).
    { rewrite <- (Nat2N.id k), <- (sw_gmul K KL two a b ns). apply (gmul_in G), HP. }
    destruct (ec_mul K a k P) as [|x y]; [exact H|]. cbn in H. subst y. exact (N2 x O).
  Qed.
  (** and for every point of odd order *)
  Theorem C26_affine_odd_order r P t n : N.odd r = true -> ec_mul K a (N.to_nat r) P = Inf -> on P -> is_affine t P ->
    is_affine (aff_mul t n) (ec_mul K a (N.to_nat n) P) /\
    is_affine (aff_mul_assign t n) (ec_mul K a (N.to_nat n) P).
  Proof.
    intros Od O HP T. apply C26_affine_partial; auto. intros k H.
    rewrite <- (Nat2N.id k), <- (sw_gmul K KL two a b ns) in H. rewrite <- (sw_gmul K KL two a b ns) in O. change (@gmul G r P = Inf) in O.
    change (two_torsion (@gmul G (N.of_nat k) P)) in H.
    set (Q := @gmul G (N.of_nat k) P) in *. assert (HQ : on Q) by (apply (gmul_in G), HP).
    assert (Z : @gmul G r Q = Inf).
    { unfold Q. rewrite <- (gmul_mul G) by exact HP. rewrite N.mul_comm, (gmul_mul G), O by exact HP. apply (gmul_zero G). }
    clearbody Q. clear O.
    assert (D : @gmul G 2 Q = Inf).
    { change 2%N with (2 * 1)%N. rewrite (gmul_double G 1 Q HQ), (gmul_1 G Q HQ). change (Q ⊕ Q = Inf). destruct Q as [|x y]; [reflexivity|].
      cbn in H. subst y. cbn. rewrite (feqb_refl K R). replace (- 0 : K) with (0 : K) by ring. rewrite (feqb_refl K R). reflexivity. }
    apply N.odd_spec in Od. destruct Od as [h E].
    rewrite E, (gmul_add G), (gmul_1 G Q HQ), N.mul_comm, (gmul_mul G) in Z by exact HQ. rewrite D, (gmul_zero G) in Z.
    cbn in Z. destruct Q; [exact H|discriminate Z].
  Qed.
End Theorems.

(** ** Concrete curves over Z/13, and the refutations *)
Lemma prime_13 : prime 13.
Proof. apply prime_intro; [lia|]. intros n Hn. apply Zgcd_1_rel_prime.
  assert (n = 1 \/ n = 2 \/ n = 3 \/ n = 4 \/ n = 5 \/ n = 6 \/ n = 7 \/ n = 8 \/ n = 9 \/ n = 10 \/ n = 11 \/ n = 12)%Z as H by lia.
  repeat (destruct H as [->|H]; [reflexivity|]). subst. reflexivity. Qed.
Definition F13 := Zp 13.
Lemma F13_field : FieldLaws F13.
Proof. apply Zp_field; [lia|exact prime_13]. Qed.
Definition z13 (n : Z) : F13 := tozp 13 n.
Definition inf13 (P : point F13) : bool := match P with Inf => true | _ => false end.
Ltac dec13 := first [ apply (zp_ext 13); vm_compute; reflexivity
                    | let H := fresh in intros H; apply (f_equal (@zval 13)) in H; vm_compute in H; discriminate H
                    | let H := fresh in intros H; apply (f_equal inf13) in H; vm_compute in H; discriminate H ].
Lemma F13_two : (2 : F13) <> 0.
Proof. intros H. revert H. dec13. Qed.
Definition P13 (x y : Z) : point F13 := Aff (z13 x) (z13 y).
Definition T13 (x y z : Z) : triple F13 := mkT (z13 x) (z13 y) (z13 z).

(** y^2 = x^3 + 2 x + 3: (3,6) has order 3, (4,6) order 18, (12,0) order 2 *)
Example C16_case :
  on_curve F13 (z13 2) (z13 3) (P13 3 6) /\ on_curve F13 (z13 2) (z13 3) (P13 4 6) /\
  ~ on_curve F13 (z13 2) (z13 3) (Aff 0 0) /\ ~ two_torsion (P13 4 6) /\
  is_affine 0 0 (aff_add F13 (z13 2) 0 0 (mkA (z13 3) (z13 6)) (mkA (z13 4) (z13 6))) (P13 6 7).
Proof. split; [dec13|]. split; [dec13|]. split; [cbn; dec13|]. split; [cbn; dec13|]. split; dec13. Qed.
(** double_inplace at a point of order 2 inverts zero; the result is not O *)
Theorem C16_two_torsion_refuted : exists P t,
  on_curve F13 (z13 2) (z13 3) P /\ two_torsion P /\ is_affine 0 0 t P /\
  ~ is_affine 0 0 (aff_double F13 (z13 2) 0 0 t) (ec_add F13 (z13 2) P P) /\
  ~ is_affine 0 0 (aff_add F13 (z13 2) 0 0 t t) (ec_add F13 (z13 2) P P).
Proof.
  exists (P13 12 0), (mkA (z13 12) (z13 0)). split; [dec13|]. split; [cbn; dec13|]. split; [split; reflexivity|].
  split; intros [H _]; revert H; dec13.
Qed.
(** with zero_fill = (0, 1) (STANDARD_EC_INF_POINTS_ENABLED) -O is not O *)
Theorem C16_neg_standard_inf_refuted :
  ~ is_affine 0 1 (aff_neg F13 (aff_zero F13 0 1)) (ec_neg (Inf : point F13)).
Proof. intros [_ H]. revert H. dec13. Qed.

(** (4,6) with Z = 2 and (3,6) with Z = 5 *)
Example C17_case :
  on_curve F13 (z13 2) (z13 3) (P13 3 6) /\ is_jacobian (T13 (4 * 4) (6 * 8) 2) (P13 4 6) /\
  is_jacobian (T13 (3 * 25) (6 * 125) 5) (P13 3 6) /\
  is_jacobian (jac_add F13 (jac_dbl F13 (z13 2)) (T13 (3 * 25) (6 * 125) 5) (T13 (4 * 4) (6 * 8) 2)) (P13 6 7).
Proof. split; [dec13|]. repeat split; dec13. Qed.
Example C18_case :
  is_projective (T13 (4 * 2) (6 * 2) 2) (P13 4 6) /\ is_projective (T13 (3 * 5) (6 * 5) 5) (P13 3 6) /\
  is_projective (proj_add F13 (z13 2) (T13 (3 * 5) (6 * 5) 5) (T13 (4 * 2) (6 * 2) 2)) (P13 6 7).
Proof. repeat split; dec13. Qed.
Example C19_case : jac_eqb F13 (T13 (4 * 4) (6 * 8) 2) (T13 4 6 1) = true /\ jac_eqb F13 (T13 (4 * 4) (6 * 8) 2) (T13 4 7 1) = false.
Proof. split; reflexivity. Qed.
(** jacobian_with_a4_minus_3 to_affine: (0,2) on y^2 = x^3 - 3x + 4 *)
Theorem C19_jacobian_a4_minus_3_to_affine_refuted : exists P t,
  on_curve F13 (- (3)) (z13 4) P /\ is_jacobian t P /\ ~ is_affine 0 0 (jac3_to_affine F13 0 0 t) P.
Proof.
  exists (P13 0 2), (T13 0 (2 * 8) 2). split; [dec13|]. split; [repeat split; dec13|].
  intros [_ H]. revert H. dec13.
Qed.

(** mixed_add: (4,6) with Z = 2, and (3,6) normalised *)
Example C20_case : normalised F13 (T13 3 6 1) /\
  is_jacobian (jac_mixed_add F13 (T13 (4 * 4) (6 * 8) 2) (T13 3 6 1)) (P13 6 7) /\
  is_projective (proj_mixed_add F13 (z13 2) (T13 (4 * 2) (6 * 2) 2) (T13 3 6 1)) (P13 6 7).
Proof. split; [right; dec13|]. repeat split; dec13. Qed.
Example C20_refuted_case : ~ is_jacobian (jac_mixed_add F13 (T13 3 6 1) (T13 3 6 1)) (ec_add F13 (z13 2) (P13 3 6) (P13 3 6)).
Proof. intros (H & _). apply H. dec13. Qed.
Example C21_case : jac_is_well_formed F13 (z13 2) (z13 3) (T13 (4 * 4) (6 * 8) 2) = true /\
  jac_is_well_formed F13 (z13 2) (z13 3) (T13 4 6 2) = false /\
  proj_is_well_formed F13 (z13 2) (z13 3) (T13 (4 * 2) (6 * 2) 2) = true.
Proof. repeat split. Qed.
(** projective_with_a4_minus_3 rejects curve points and accepts others *)
Theorem C21_projective_a4_minus_3_refuted : exists t u,
  (exists P, on_curve F13 (- (3)) (z13 4) P /\ is_projective t P) /\ proj3_is_well_formed F13 (z13 4) t = false /\
  ~ (exists P, on_curve F13 (- (3)) (z13 4) P /\ is_projective u P) /\ proj3_is_well_formed F13 (z13 4) u = true.
Proof.
  exists (T13 4 2 1), (T13 1 2 1). split; [exists (P13 4 2); split; [dec13|repeat split; dec13]|].
  split; [reflexivity|]. split; [|reflexivity].
  intros (P & H & E). assert (W := proj2 (C21_projective F13 F13_field (- (3)) (z13 4) (T13 1 2 1)) (ex_intro _ P (conj H E))).
  discriminate W.
Qed.
(** its exact meaning: membership of y^2 = x^3 - x + b; so of the curve points y^2 = x^3 - 3x + b it
    accepts O and those with x = 0 only.  Missing: the claim itself, refuted above. *)
Section ProjectiveA4Minus3.
  Variable K : FieldOps.
  Hypothesis KL : FieldLaws K.
  Let R := FieldLaws_Ring K KL.
  Add Field Kproj3 : (FL_th K KL).
  Theorem C21_projective_a4_minus_3_partial (b : K) (t : triple K) :
    (proj3_is_well_formed K b t = true <-> exists P, on_curve K (- (1)) b P /\ is_projective t P) /\
    ((2 : K) <> 0 -> forall P, on_curve K (- (3)) b P -> is_projective t P ->
       (proj3_is_well_formed K b t = true <-> match P with Inf => True | Aff x _ => x = 0 end)).
  Proof.
    assert (A : proj3_is_well_formed K b t = true <-> exists P, on_curve K (- (1)) b P /\ is_projective t P).
    { rewrite <- (C21_projective K KL). unfold proj3_is_well_formed, proj_is_well_formed. destruct (proj_is_zero K t); [tauto|]. cbv zeta.
      replace (tX t * tX t - tZ t * tZ t) with (tX t * tX t + - (1) * (tZ t * tZ t)) by ring. tauto. }
    split; [exact A|]. intros two P HP TP. rewrite A. destruct P as [|x y].
    - split; [tauto|]. intros _. exists Inf. split; [exact I|exact TP].
    - split.
      + intros ([|x' y'] & HQ & TQ); unfold is_projective in TP, TQ; cbn in TP, TQ; [exfalso; apply (proj1 TP); apply TQ|].
        destruct TP as (N & X & Y). destruct TQ as (_ & X' & Y').
        assert (Ex : x' = x) by (apply (fmul_cancel_r K KL (tZ t)); [exact N|]; congruence).
        assert (Ey : y' = y) by (apply (fmul_cancel_r K KL (tZ t)); [exact N|]; congruence).
        subst x' y'. cbn in HP, HQ. rewrite HP in HQ. apply (fmul_cancel_l K KL 2 _ _ two).
        transitivity (x * x * x + - (1) * x + b - (x * x * x + - (3) * x + b)); [ring|]. rewrite <- HQ. ring.
      + intros ->. exists (Aff 0 y). split; [|exact TP]. cbn in HP |- *. rewrite HP. ring.
  Qed.
End ProjectiveA4Minus3.
Print Assumptions C21_projective_a4_minus_3_partial.
Example C21_projective_a4_minus_3_case : on_curve F13 (- (3)) (z13 4) (P13 0 2) /\ is_projective (T13 0 4 2) (P13 0 2) /\
  proj3_is_well_formed F13 (z13 4) (T13 0 4 2) = true.
Proof. split; [dec13|]. split; [repeat split; dec13|reflexivity]. Qed.

(** doubling the point of order 2: scalar multiples in affine coordinates go wrong *)
Theorem C26_affine_refuted : exists P t, on_curve F13 (z13 2) (z13 3) P /\ is_affine 0 0 t P /\
  ~ is_affine 0 0 (aff_mul F13 (z13 2) 0 0 t 2) (ec_mul F13 (z13 2) 2 P) /\
  ~ is_affine 0 0 (aff_mul_assign F13 (z13 2) 0 0 t 2) (ec_mul F13 (z13 2) 2 P).
Proof.
  exists (P13 12 0), (mkA (z13 12) (z13 0)). split; [dec13|]. split; [split; reflexivity|].
  split; intros [H _]; revert H; dec13.
Qed.
(** a point of order 3 on the same curve *)
Example C26_affine_case : on_curve F13 (z13 2) (z13 3) (P13 12 0) /\ on_curve F13 (z13 2) (z13 3) (P13 3 6) /\
  ec_mul F13 (z13 2) 3 (P13 3 6) = Inf /\ is_affine 0 0 (aff_mul F13 (z13 2) 0 0 (mkA (z13 3) (z13 6)) 5) (P13 3 7).
Proof. split; [dec13|]. split; [dec13|]. split; [reflexivity|]. split; dec13. Qed.
Example C26_case :
  is_projective (proj_mul F13 (z13 2) 0 0 (T13 4 6 1) 11) (P13 6 6) /\
  is_jacobian (jac_mul F13 0 0 (jac_dbl F13 (z13 2)) (T13 4 6 1) 11) (P13 6 6) /\
  (forall j, (0 < j)%N -> (j + 1 < 11)%N -> ec_mul F13 (z13 2) (N.to_nat j) (P13 4 6) <> Inf) /\
  nonsingular F13 (z13 2) (z13 3).
Proof.
  split; [repeat split; dec13|]. split; [repeat split; dec13|]. split; [|dec13].
  intros j H1 H2 E. assert (j = 1 \/ j = 2 \/ j = 3 \/ j = 4 \/ j = 5 \/ j = 6 \/ j = 7 \/ j = 8 \/ j = 9)%N as J by lia.
  repeat (destruct J as [->|J]; [revert E; dec13|]). subst j. revert E; dec13.
Qed.
(** a base of order 3 with Z = 1, times 5: O instead of 2P, in all three families *)
Definition C26_statement (a b : F13) (mul : triple F13 -> N -> triple F13) : Prop :=
  forall P t n, on_curve F13 a b P -> is_jacobian t P -> is_jacobian (mul t n) (ec_mul F13 a (N.to_nat n) P).
Theorem C26_jacobian_refuted :
  ~ C26_statement (z13 2) (z13 3) (jac_mul F13 0 0 (jac_dbl F13 (z13 2))) /\
  ~ C26_statement (z13 2) (z13 3) (jac_mul_assign F13 0 0 (jac_dbl F13 (z13 2))).
Proof.
  split; intros H; specialize (H (P13 3 6) (T13 3 6 1) 5%N); destruct H as (H & _); try (apply H; dec13);
    try dec13; repeat split; dec13.
Qed.
Theorem C26_jacobian_a4_0_refuted :
  ~ C26_statement 0 (z13 4) (jac_mul F13 0 0 (jac0_dbl F13)) /\
  ~ C26_statement 0 (z13 4) (jac_mul_assign F13 0 0 (jac0_dbl F13)).
Proof.
  split; intros H; specialize (H (P13 0 2) (T13 0 2 1) 5%N); destruct H as (H & _); try (apply H; dec13);
    try dec13; repeat split; dec13.
Qed.
Theorem C26_jacobian_a4_minus_3_refuted :
  ~ C26_statement (- (3)) (z13 4) (jac_mul F13 0 0 (jac3_dbl F13)) /\
  ~ C26_statement (- (3)) (z13 4) (jac_mul_assign F13 0 0 (jac3_dbl F13)).
Proof.
  split; intros H; specialize (H (P13 4 2) (T13 4 2 1) 5%N); destruct H as (H & _); try (apply H; dec13);
    try dec13; repeat split; dec13.
Qed.
Example C27_case : on_curve F13 (z13 2) (z13 3) (P13 4 6) /\ on_curve F13 (z13 2) (z13 3) (P13 12 0) /\
  nonsingular F13 (z13 2) (z13 3) /\
  feqb (z13 1) (z13 1) = true /\ ec_add F13 (z13 2) (ec_add F13 (z13 2) (P13 4 6) (P13 12 0)) (P13 3 6) <> Inf.
Proof. split; [dec13|]. split; [dec13|]. split; [dec13|]. split; [reflexivity|]. dec13. Qed.
