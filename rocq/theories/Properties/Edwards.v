(** C22-C25, C28 and the twisted Edwards / Edwards / Montgomery parts of C19, C20, C21, C26.
    [te_add], [te_neg], [te_mul], [mont_add], [ec_neg], [mont_mul] are the textbook operations;
    [rep_te_affine], [rep_extended], [rep_inverted] relate coordinates to a point. *)
From Coq Require Import ZArith NArith List Bool Lia Znumtheory Ring Field.
From Verif Require Import Base.Field Base.Zp Spec.Weierstrass Spec.Edwards Spec.Montgomery Spec.Group
  Model.Edwards Model.Montgomery Model.ScalarMul
  Proof.EdwardsGroup Proof.EdwardsOps Proof.EdwardsTorsion Proof.MontgomeryGroup Proof.Conversion Proof.ScalarMul
  Properties.Weierstrass.
Import ListNotations.
Local Open Scope fld_scope.

(** a point class instance stands for a point *)
Definition is_te_affine {K : FieldOps} (zx zy : K) (t : te_affine K) (P : K * K) := rep_te_affine zx zy (eX t) (eY t) P.
Definition is_extended {K : FieldOps} (t : extended K) (P : K * K) := rep_extended (xX t) (xY t) (xT t) (xZ t) P.
Definition is_inverted {K : FieldOps} (t : inverted K) (P : K * K) := rep_inverted (iX t) (iY t) (iZ t) P.
Definition is_montgomery {K : FieldOps} (t : mont K) (P : point K) : Prop :=
  match P with Inf => mInf t = true | Aff x y => mInf t = false /\ mX t = x /\ mY t = y end.

Section Edwards.
  Variable K : FieldOps.
  Hypothesis KL : FieldLaws K.
  Let R := FieldLaws_Ring K KL.
  Add Field KpropE : (FL_th K KL).
  Hypothesis two : (2 : K) <> 0.
  Variables a d : K.
  Hypothesis cmp : complete K a d.
  Local Notation on := (on_te K a d).
  Local Notation "P ⊕ Q" := (te_add K a d P Q) (at level 50, left associativity).
  (** params_type::zero_fill: (0,0) or (0,1) *)
  Variables zx zy : K.
  Hypothesis zfill : zx = 0 /\ (zy = 0 \/ zy = 1).
  Local Notation is_te_affine := (is_te_affine zx zy).
  Let G := te_group K KL two a d cmp.

  Lemma te_on2 P Q : on P -> on Q -> on (P ⊕ Q).
  Proof. apply (te_closed K KL two a d cmp). Qed.

  (** ** C23.  Affine coordinates *)
  Theorem C23_group P Q S : on P -> on Q -> on S ->
    on (P ⊕ Q) /\ on te_zero /\ on (te_neg P) /\ P ⊕ Q = Q ⊕ P /\ (P ⊕ Q) ⊕ S = P ⊕ (Q ⊕ S) /\
    te_zero ⊕ P = P /\ P ⊕ te_neg P = te_zero.
  Proof.
    intros HP HQ HS. repeat split.
    - apply te_on2; auto.
    - apply (g_in0 G).
    - apply (g_inneg G P HP).
    - apply (te_add_comm K KL).
    - symmetry. apply (te_assoc K KL two a d cmp); auto.
    - apply (te_add_0l K KL).
    - apply (te_add_neg K KL two a d cmp); auto.
  Qed.
  Theorem C23_defined x1 y1 x2 y2 : on (x1, y1) -> on (x2, y2) ->
    1 + d * x1 * x2 * y1 * y2 <> 0 /\ 1 - d * x1 * x2 * y1 * y2 <> 0.
  Proof. split; [apply (te_den_p K KL two a d cmp)|apply (te_den_m K KL two a d cmp)]; auto. Qed.
  Theorem C23_add P Q t u : on P -> on Q -> is_te_affine t P -> is_te_affine u Q ->
    is_te_affine (tea_add K a d zx zy t u) (P ⊕ Q) /\ is_te_affine (tea_add_assign K a d zx zy t u) (P ⊕ Q).
  Proof. intros. split; apply (tea_add_ok K KL a d zx zy zfill); auto. Qed.
  Theorem C23_double P t : on P -> is_te_affine t P -> is_te_affine (tea_double K a d zx zy t) (P ⊕ P).
  Proof. intros. apply (tea_double_ok K KL a d zx zy zfill); auto. Qed.
  Theorem C23_neg (P : K * K) t : is_te_affine t P -> is_te_affine (tea_neg t) (te_neg P).
  Proof. apply (tea_neg_ok K KL zx zy zfill). Qed.
  Theorem C23_sub P Q t u : on P -> on Q -> is_te_affine t P -> is_te_affine u Q ->
    is_te_affine (tea_sub K a d zx zy t u) (P ⊕ te_neg Q) /\ is_te_affine (tea_sub_assign K a d zx zy t u) (P ⊕ te_neg Q).
  Proof. intros. apply C23_add; auto using C23_neg. apply (g_inneg G Q); auto. Qed.
  Theorem C23_zero P t : on P -> is_te_affine t P ->
    is_te_affine (tea_zero K zx zy) te_zero /\ (tea_is_zero K zx zy t = true <-> P = te_zero).
  Proof. intros. split; [apply tea_zero_ok|apply (tea_is_zero_ok K KL a d zx zy zfill); auto]. Qed.
  Theorem C19_te_affine_equal P Q t u : on P -> on Q -> is_te_affine t P -> is_te_affine u Q ->
    tea_eqb K zx zy t u = true <-> P = Q.
  Proof. intros. apply (tea_eqb_ok K KL a d zx zy zfill); auto. Qed.
  Theorem C21_te_affine t : tea_is_well_formed K a d zx zy t = true <-> exists P, is_te_affine t P /\ on P.
  Proof. apply (tea_wf_ok K KL a d zx zy zfill). Qed.

  Definition tea_mul := scalar_mul (te_affine K) (tea_zero K zx zy) (tea_zero K zx zy)
    (tea_add_assign K a d zx zy) (tea_double K a d zx zy).
  Definition tea_mul_assign := mul_assign (te_affine K) (tea_zero K zx zy)
    (tea_add_assign K a d zx zy) (tea_double K a d zx zy).
  Theorem C26_te_affine P t n : on P -> is_te_affine t P ->
    is_te_affine (tea_mul t n) (te_mul K a d (N.to_nat n) P) /\
    is_te_affine (tea_mul_assign t n) (te_mul K a d (N.to_nat n) P).
  Proof.
    intros HP T. rewrite <- (te_gmul K KL two a d cmp). fold G.
    assert (Z0 : on te_zero /\ is_te_affine (tea_zero K zx zy) te_zero) by (split; [apply (g_in0 G)|apply tea_zero_ok]).
    assert (A : forall s u x y, on x /\ is_te_affine s x -> on y /\ is_te_affine u y ->
              on (x ⊕ y) /\ is_te_affine (tea_add_assign K a d zx zy s u) (x ⊕ y)).
    { intros s u x y [X S] [Y U]. split; [apply te_on2; auto|]. apply C23_add; auto. }
    assert (D : forall s x, on x /\ is_te_affine s x -> on (x ⊕ x) /\ is_te_affine (tea_double K a d zx zy s) (x ⊕ x)).
    { intros s x [X S]. split; [apply te_on2; auto|]. apply C23_double; auto. }
    split.
    - exact (proj2 (rep_scalar_mul G (te_affine K) (fun t P => on P /\ is_te_affine t P) (fun _ _ H => proj1 H)
        _ _ _ _ Z0 Z0 A D t P n (conj HP T))).
    - exact (proj2 (rep_mul_assign G (te_affine K) (fun t P => on P /\ is_te_affine t P) (fun _ _ H => proj1 H)
        _ _ _ Z0 A D t P n (conj HP T))).
  Qed.

  (** ** C24.  Extended coordinates; params_type::a = -1 *)
  Section Extended.
    Hypothesis am1 : a = - (1).
    Theorem C24_add P Q t u : on P -> on Q -> is_extended t P -> is_extended u Q ->
      is_extended (ext_add K a d t u) (P ⊕ Q) /\ is_extended (ext_add_assign K a d t u) (P ⊕ Q).
    Proof. intros. split; apply (ext_add_ok K KL two a d cmp zx zy zfill am1); auto. Qed.
    Theorem C24_neg (P : K * K) t : is_extended t P -> is_extended (ext_neg t) (te_neg P).
    Proof. apply (ext_neg_ok K KL). Qed.
    Theorem C24_sub P Q t u : on P -> on Q -> is_extended t P -> is_extended u Q ->
      is_extended (ext_sub K a d t u) (P ⊕ te_neg Q) /\ is_extended (ext_sub_assign K a d t u) (P ⊕ te_neg Q).
    Proof. intros. apply C24_add; auto using C24_neg. apply (g_inneg G Q); auto. Qed.
    Theorem C24_double P t : on P -> is_extended t P -> is_extended (ext_dbl K a t) (P ⊕ P).
    Proof. intros. apply (ext_dbl_ok K KL two a d cmp); auto. Qed.
    Theorem C24_equal (P Q : K * K) t u : is_extended t P -> is_extended u Q -> ext_eqb t u = true <-> P = Q.
    Proof. apply (ext_eqb_ok K KL zx zy zfill). Qed.
    Theorem C24_zero (P : K * K) t : is_extended t P ->
      is_extended (ext_zero : extended K) te_zero /\ (ext_is_zero t = true <-> P = te_zero).
    Proof. intros T. split; [apply (ext_zero_ok K KL)|apply (ext_is_zero_ok K KL); auto]. Qed.
    Theorem C24_to_affine (P : K * K) t : is_extended t P -> is_te_affine (ext_to_affine K zx zy t) P.
    Proof. apply (ext_to_affine_ok K KL). Qed.
    (** Full statement: no hypothesis on zy; see C19_to_extended_refuted. *)
    Theorem C19_to_extended_partial P t : on P -> is_te_affine t P -> zy = 1 \/ P <> te_zero ->
      is_extended (tea_to_extended t) P /\ is_te_affine (ext_to_affine K zx zy (tea_to_extended t)) P.
    Proof.
      intros HP T H. assert (E : is_extended (tea_to_extended t) P) by (apply (tea_to_extended_ok K KL a d cmp zx zy zfill am1); auto).
      split; [exact E|apply C24_to_affine, E].
    Qed.
    (** with zero_fill = (0,0) the marker of the identity becomes (0, 0, 0, 1), which stands for (0,0) *)
    Theorem C19_to_extended_refuted : zy = 0 ->
      is_te_affine (tea_zero K zx zy) te_zero /\ ~ is_extended (tea_to_extended (tea_zero K zx zy)) te_zero /\
      ext_is_zero (tea_to_extended (tea_zero K zx zy)) = false /\
      ext_is_well_formed K a d (tea_to_extended (tea_zero K zx zy)) = false.
    Proof.
      intros Z. destruct zfill as [X _]. assert (N1 := f1_neq_0 K KL).
      assert (N2 : (0 =? (1 : K)) = false) by (apply (feqb_false K R); auto).
      split; [apply tea_zero_ok|]. unfold is_extended, rep_extended, tea_to_extended, tea_zero, ext_is_zero, ext_is_well_formed; cbn [xX xY xT xZ eX eY fst snd te_zero].
      rewrite X, Z. split; [|split].
      - intros (_ & _ & H & _). apply N1. rewrite H at 1. ring.
      - unfold ext_is_zero; cbn [xX xY xT xZ]. rewrite N2. apply andb_false_r.
      - unfold ext_is_zero; cbn [xX xY xT xZ]. rewrite N2, andb_false_r.
        replace (0 * 0 =? 0 * 0 * (1 : K)) with true by (symmetry; apply (RL_eqb K R); ring). cbn [negb].
        apply (feqb_false K R). intros H. apply N1.
        transitivity (1 * 1 * (1 * 1) : K); [ring|]. 
        match type of H with ?l = ?r => transitivity r; [ring|rewrite <- H; ring] end.
    Qed.
    (** Full statement: P ⊕ Q for all P, Q; see C20_extended_refuted. *)
    Theorem C20_extended_partial P Q t u : on P -> on Q -> is_extended t P -> is_extended u Q -> xZ u = 1 ->
      (P <> te_zero -> Q <> te_zero ->
        fst P * snd Q - snd P * fst Q <> 0 /\ snd P * snd Q + a * (fst P * fst Q) <> 0) ->
      is_extended (ext_mixed_add K a t u) (P ⊕ Q).
    Proof. intros. apply (ext_mixed_add_ok K KL two a d cmp); auto. Qed.
    (** distinct points of the same odd order *)
    Theorem C20_extended_odd_partial m P Q t u : N.odd m = true -> on P -> on Q ->
      te_mul K a d (N.to_nat m) P = te_zero -> te_mul K a d (N.to_nat m) Q = te_zero -> P <> Q ->
      is_extended t P -> is_extended u Q -> xZ u = 1 -> is_extended (ext_mixed_add K a t u) (P ⊕ Q).
    Proof.
      intros O HP HQ MP MQ N T U Z. apply C20_extended_partial; auto. intros _ _.
      rewrite <- (te_gmul K KL two a d cmp) in MP, MQ.
      apply (odd_distinct K KL two a d cmp m P Q O); [split; assumption|split; assumption|exact N].
    Qed.
    (** the result is (0, Y, 0, 0) when P = Q is not the identity *)
    Theorem C20_extended_refuted P t u : on P -> P <> te_zero -> is_extended t P -> is_extended u P -> xZ u = 1 ->
      forall S, ~ is_extended (ext_mixed_add K a t u) S.
    Proof.
      intros HP N T U Z S. unfold ext_mixed_add.
      destruct (ext_is_zero t) eqn:ET. { apply (ext_is_zero_ok K KL t P T) in ET. contradiction. }
      destruct (ext_is_zero u) eqn:EU. { apply (ext_is_zero_ok K KL u P U) in EU. contradiction. }
      destruct t as [X1 Y1 T1 Z1], u as [X2 Y2 T2 Z2], P as [x y].
      unfold is_extended, rep_extended in *. cbn [xX xY xT xZ fst snd] in *. destruct T as (N1 & -> & -> & ->), U as (N2 & -> & -> & ->).
      subst Z2. unfold ext_madd_2008_hwcd_2; cbn [xX xY xT xZ]. intros (H & _). apply H.
      ring.
    Qed.
    (** is_well_formed also accepts (0,0,0,0) *)
    Theorem C21_extended_partial t : ext_is_well_formed K a d t = true <->
      (exists P, is_extended t P /\ on P) \/ t = mkX 0 0 0 0.
    Proof. apply (ext_wf_ok K KL a d cmp zx zy zfill). Qed.
    Theorem C21_extended_refuted : ext_is_well_formed K a d (mkX 0 0 0 0) = true /\
      forall P, ~ is_extended (mkX (0 : K) 0 0 0) P.
    Proof.
      split; [apply C21_extended_partial; right; reflexivity|]. intros P (H & _). apply H. reflexivity.
    Qed.

    Definition ext_z_is_one (t : extended K) : bool := xZ t =? 1.
    Definition ext_mul := scalar_mul_mixed (extended K) (ext_zero : extended K) (ext_zero : extended K)
      (ext_add_assign K a d) (ext_dbl K a) (ext_mixed_add K a) ext_z_is_one.
    Definition ext_mul_assign := mul_assign_mixed (extended K) (ext_zero : extended K)
      (ext_add_assign K a d) (ext_dbl K a) (ext_mixed_add K a) ext_z_is_one.
    Lemma ext_Z0 : on te_zero /\ is_extended (ext_zero : extended K) te_zero.
    Proof. split; [apply (g_in0 G)|apply (ext_zero_ok K KL)]. Qed.
    Lemma ext_A s u x y : on x /\ is_extended s x -> on y /\ is_extended u y ->
      on (x ⊕ y) /\ is_extended (ext_add_assign K a d s u) (x ⊕ y).
    Proof. intros [X S] [Y U]. split; [apply te_on2; auto|]. apply C24_add; auto. Qed.
    Lemma ext_D s x : on x /\ is_extended s x -> on (x ⊕ x) /\ is_extended (ext_dbl K a s) (x ⊕ x).
    Proof. intros [X S]. split; [apply te_on2; auto|]. apply C24_double; auto. Qed.
    (** Full statement: no hypothesis on Z; see C26_extended_refuted. *)
    Theorem C26_extended_partial P t n : on P -> is_extended t P -> xZ t <> 1 ->
      is_extended (ext_mul t n) (te_mul K a d (N.to_nat n) P) /\
      is_extended (ext_mul_assign t n) (te_mul K a d (N.to_nat n) P).
    Proof.
      intros HP T NZ. rewrite <- (te_gmul K KL two a d cmp). fold G.
      assert (M : ext_z_is_one t = true -> forall s y, on y /\ is_extended s y -> on (y ⊕ P) /\ is_extended (ext_mixed_add K a s t) (y ⊕ P)).
      { intros E. exfalso. apply NZ, (feqb_true K R), E. }
      split.
      - exact (proj2 (rep_scalar_mul_mixed G (extended K) (fun t P => on P /\ is_extended t P) (fun _ _ H => proj1 H)
          _ _ _ _ _ _ ext_Z0 ext_Z0 ext_A ext_D t P n (conj HP T) M)).
      - exact (proj2 (rep_mul_assign_mixed G (extended K) (fun t P => on P /\ is_extended t P) (fun _ _ H => proj1 H)
          _ _ _ _ _ ext_Z0 ext_A ext_D t P n (conj HP T) M)).
    Qed.
    (** Z = 1, points of odd order m, no smaller multiple than the scalar vanishing *)
    Theorem C26_extended_order_partial m P t n : N.odd m = true -> on P ->
      te_mul K a d (N.to_nat m) P = te_zero -> is_extended t P ->
      (xZ t = 1 -> forall j, (0 < j)%N -> (j + 1 < n)%N -> te_mul K a d (N.to_nat j) P = te_zero -> P = te_zero) ->
      is_extended (ext_mul t n) (te_mul K a d (N.to_nat n) P) /\
      is_extended (ext_mul_assign t n) (te_mul K a d (N.to_nat n) P).
    Proof.
      intros O HP MP T NO. rewrite <- (te_gmul K KL two a d cmp) in MP |- *. fold G in MP |- *.
      rewrite <- (gtors_gmul G m n P).
      set (H := gtors G m). set (rep := fun (t : extended K) (P : H) => gin P /\ is_extended t P).
      assert (Z0 : rep (ext_zero : extended K) (g0 : H)) by (split; [apply (g_in0 H)|apply (ext_zero_ok K KL)]).
      assert (A : forall s u x y, rep s x -> rep u y -> rep (ext_add_assign K a d s u) (gadd x y)).
      { intros s u x y [X S] [Y U]. split; [apply (g_inadd H); auto|]. apply C24_add; auto; [apply X|apply Y]. }
      assert (D : forall s x, rep s x -> rep (ext_dbl K a s) (gadd x x)).
      { intros s x [X S]. split; [apply (g_inadd H); auto|]. apply C24_double; auto; apply X. }
      assert (M : forall s u x y, rep s x -> rep u y -> ext_z_is_one u = true -> (x = y -> x = g0) -> rep (ext_mixed_add K a s u) (gadd x y)).
      { intros s u x y [X S] [Y U] E XY. split; [apply (g_inadd H); auto|].
        apply C20_extended_partial; auto; [apply X|apply Y|apply (feqb_true K R), E|]. intros NX _.
        apply (odd_distinct K KL two a d cmp m x y O X Y). intros ->. apply NX, XY. reflexivity. }
      assert (HH : rep t (P : H)) by (split; [split; assumption|assumption]).
      assert (N' : ext_z_is_one t = true -> forall j, (0 < j)%N -> (j + 1 < n)%N -> gmul j (P : H) = g0 -> (P : H) = g0).
      { intros E j J1 J2 J3. apply (NO (feqb_true K R _ _ E) j J1 J2). rewrite <- (te_gmul K KL two a d cmp).
        etransitivity; [symmetry; apply (gtors_gmul G m j P)|exact J3]. }
      split.
      - exact (proj2 (rep_scalar_mul_mixed_order H (extended K) rep (fun _ _ H => proj1 H) _ _ _ _ _ _ Z0 Z0 A D M t P n HH N')).
      - exact (proj2 (rep_mul_assign_mixed_order H (extended K) rep (fun _ _ H => proj1 H) _ _ _ _ _ Z0 A D M t P n HH N')).
    Qed.
  End Extended.

  (** ** C25.  Inverted coordinates.  A triple stands for the identity or for a point with
      non-zero coordinates; [regular (P ⊕ Q)] says the result is such a point.
      Full statement: without [regular]; see C25_add_refuted. *)
  Theorem C25_add_partial P Q t u : on P -> on Q -> is_inverted t P -> is_inverted u Q -> regular (P ⊕ Q) ->
    is_inverted (inv_add K a d t u) (P ⊕ Q) /\ is_inverted (inv_add_assign K a d t u) (P ⊕ Q).
  Proof. intros. split; apply (inv_add_ok K KL two a d cmp zx zy zfill); auto. Qed.
  Theorem C25_double_partial P t : on P -> is_inverted t P -> regular (P ⊕ P) ->
    is_inverted (inv_dbl K a d t) (P ⊕ P).
  Proof. intros. apply (inv_dbl_ok K KL two a d cmp); auto. Qed.
  Theorem C25_neg (P : K * K) t : is_inverted t P -> is_inverted (inv_neg t) (te_neg P).
  Proof. apply (inv_neg_ok K KL). Qed.
  Theorem C25_sub_partial P Q t u : on P -> on Q -> is_inverted t P -> is_inverted u Q -> regular (P ⊕ te_neg Q) ->
    is_inverted (inv_sub K a d t u) (P ⊕ te_neg Q) /\ is_inverted (inv_sub_assign K a d t u) (P ⊕ te_neg Q).
  Proof. intros. apply C25_add_partial; auto using C25_neg. apply (g_inneg G Q); auto. Qed.
  Theorem C25_equal (P Q : K * K) t u : is_inverted t P -> is_inverted u Q -> inv_eqb t u = true <-> P = Q.
  Proof. apply (inv_eqb_ok K KL zx zy zfill). Qed.
  Theorem C25_zero (P : K * K) t : is_inverted t P ->
    is_inverted (inv_zero K zx zy) te_zero /\ (inv_is_zero t = true <-> P = te_zero).
  Proof. intros T. split; [apply (inv_zero_ok K zx zy zfill)|apply (inv_is_zero_ok K KL); auto]. Qed.
  Theorem C25_to_affine (P : K * K) t : is_inverted t P -> is_te_affine (inv_to_affine K zx zy t) P.
  Proof. apply (inv_to_affine_ok K KL). Qed.
  (** Full statement: every P; see C25_to_inverted_refuted. *)
  Theorem C25_to_inverted_partial (P : K * K) t : is_te_affine t P -> fst P <> 0 -> snd P <> 0 ->
    is_inverted (tea_to_inverted t) P /\ is_te_affine (inv_to_affine K zx zy (tea_to_inverted t)) P.
  Proof.
    intros T X Y. assert (E : is_inverted (tea_to_inverted t) P) by (apply (tea_to_inverted_ok K KL zx zy); auto).
    split; [exact E|apply C25_to_affine, E].
  Qed.
  (** the constructor from affine coordinates.  Full statement: every x, y; a zero coordinate
      has no inverse *)
  Theorem C25_of_affine_partial (x y : K) : x <> 0 -> y <> 0 -> is_inverted (inv_of_affine K x y) (x, y).
  Proof.
    intros X Y. right. unfold inv_of_affine. cbn [iX iY iZ fst snd].
    split; [apply (finv_neq_0 K KL), X|]. split; [apply (finv_neq_0 K KL), Y|]. split; [apply (f1_neq_0 K KL)|].
    split; symmetry; apply (finv_r K KL); assumption.
  Qed.
  (** points of odd order: no further condition *)
  Theorem C25_odd_partial m P Q t u : N.odd m = true -> on P -> on Q ->
    te_mul K a d (N.to_nat m) P = te_zero -> te_mul K a d (N.to_nat m) Q = te_zero ->
    is_inverted t P -> is_inverted u Q ->
    is_inverted (inv_add K a d t u) (P ⊕ Q) /\ is_inverted (inv_sub K a d t u) (P ⊕ te_neg Q) /\
    is_inverted (inv_dbl K a d t) (P ⊕ P) /\
    (iZ u = 1 -> is_inverted (inv_mixed_add K a d t u) (P ⊕ Q)).
  Proof.
    intros O HP HQ MP MQ T U. rewrite <- (te_gmul K KL two a d cmp) in MP, MQ. fold G in MP, MQ.
    set (H := gtors G m). assert (GP : gin (P : H)) by (split; assumption). assert (GQ : gin (Q : H)) by (split; assumption).
    assert (Reg : forall X : H, gin X -> regular X).
    { intros X [X1 X2]. apply (odd_regular K KL two a d cmp m X O X1 X2). }
    assert (R1 := Reg _ (g_inadd H P Q GP GQ)). assert (R2 := Reg _ (g_inadd H P P GP GP)).
    assert (R3 := Reg _ (g_inadd H P (gneg (Q : H)) GP (g_inneg H Q GQ))).
    split; [apply C25_add_partial; auto|]. split; [apply C25_sub_partial; auto|]. split; [apply C25_double_partial; auto|].
    intros Z. apply (inv_mixed_add_ok K KL two a d cmp); auto.
  Qed.
  (** (x,y) + (x,-y) = (0,-1), but the code returns the identity *)
  Theorem C25_add_refuted x y t u : on (x, y) -> x <> 0 -> y <> 0 ->
    is_inverted t (x, y) -> is_inverted u (x, - y) ->
    on (x, - y) /\ (x, y) ⊕ (x, - y) = (0, - (1)) /\ (0, - (1)) <> (te_zero : K * K) /\
    is_inverted (inv_add K a d t u) te_zero.
  Proof.
    intros HP X Y T U.
    assert (HQ : on (x, - y)) by (cbn in *; transitivity (a * (x * x) + y * y); [ring|rewrite HP; ring]).
    assert (N1 := f1_neq_0 K KL).
    assert (YY : - (1) <> (1 : K)).
    { intros E. apply two. transitivity (1 - - (1) : K); [ring|rewrite E; ring]. }
    assert (DC : forall n D : K, D <> 0 -> n * finv D * D = n) by (intros; field; auto).
    split; [exact HQ|]. split; [|split].
    - destruct (C23_defined x y x (- y) HP HQ) as [D1 D2]. unfold te_add. f_equal.
      + apply (fmul_cancel_r K KL _ _ _ D1). unfold fdiv. rewrite DC by assumption. ring.
      + apply (fmul_cancel_r K KL _ _ _ D2). unfold fdiv. rewrite DC by assumption.
        cbn in HP. transitivity (- (a * (x * x) + y * y)); [ring|]. rewrite HP. ring.
    - intros E. injection E as E. contradiction.
    - assert (NX : (x, y) <> (te_zero : K * K)) by (intros E; injection E as E1 E2; contradiction).
      assert (NX' : (x, - y) <> (te_zero : K * K)) by (intros E; injection E as E1 E2; contradiction).
      unfold inv_add.
      destruct (inv_is_zero t) eqn:ET. { apply (inv_is_zero_ok K KL t _ T) in ET. contradiction. }
      destruct (inv_is_zero u) eqn:EU. { apply (inv_is_zero_ok K KL u _ U) in EU. contradiction. }
      destruct (inv_eqb t u) eqn:EE.
      { apply (C25_equal _ _ t u T U) in EE. injection EE as EE. exfalso. apply Y.
        apply (fmul_cancel_l K KL _ _ _ two). transitivity (y - - y); [ring|rewrite <- EE; ring]. }
      left. destruct t as [X1 Y1 Z1], u as [X2 Y2 Z2]. unfold inv_add_2008_bbjlp; cbn [iX iY iZ].
      destruct T as [(_ & _ & E)|(_ & _ & _ & E1 & E2)]; [contradiction|].
      destruct U as [(_ & _ & E)|(_ & _ & _ & E3 & E4)]; [contradiction|].
      cbn [iX iY iZ fst snd] in *.
      assert (I0 : (X1 + Y1) * (X2 + Y2) - X1 * X2 - Y1 * Y2 = 0).
      { apply (fmul_cancel_l K KL (x * y)); [apply (fmul_neq_0 K KL); auto|].
        transitivity (- (x * X1) * (- y * Y2) + (y * Y1) * (x * X2)); [ring|]. rewrite <- E1, <- E2, <- E3, <- E4. ring. }
      rewrite I0. split; [ring|split; [ring|reflexivity]].
  Qed.
  (** whatever inversed() makes of zero *)
  Theorem C25_to_inverted_refuted t P : is_te_affine t P -> zy = 1 -> P = te_zero \/ P = (0, - (1)) ->
    ~ is_inverted (tea_to_inverted t) P.
  Proof.
    intros T ZY C. assert (N1 := f1_neq_0 K KL).
    intros [(_ & H & _)|(_ & _ & H & H' & _)]; cbn [iX iY iZ tea_to_inverted] in *.
    - exact (N1 H).
    - apply N1. rewrite H'. destruct C as [-> | ->]; cbn; ring.
  Qed.
  (** is_well_formed also accepts (0, Y, 0), Y <> 0 *)
  Theorem C21_inverted_partial t : inv_is_well_formed K a d t = true <->
    (exists P, is_inverted t P /\ on P) \/ (iX t = 0 /\ iY t <> 0 /\ iZ t = 0).
  Proof. apply (inv_wf_ok K KL a d cmp zx zy zfill). Qed.
  Theorem C21_inverted_refuted Y : Y <> 0 -> inv_is_well_formed K a d (mkI 0 Y 0) = true /\
    forall P, ~ is_inverted (mkI 0 Y 0) P.
  Proof.
    intros N. split; [apply C21_inverted_partial; right; repeat split; auto|].
    intros P [(H & _)|(H & _)]; cbn in H; [contradiction|apply H; reflexivity].
  Qed.
  (** Full statement: without [regular]. *)
  Theorem C20_inverted_partial P Q t u : on P -> on Q -> is_inverted t P -> is_inverted u Q -> iZ u = 1 ->
    regular (P ⊕ Q) -> is_inverted (inv_mixed_add K a d t u) (P ⊕ Q).
  Proof. intros. apply (inv_mixed_add_ok K KL two a d cmp); auto. Qed.

  Definition inv_z_is_one (t : inverted K) : bool := iZ t =? 1.
  Definition inv_mul := scalar_mul_mixed (inverted K) (inv_zero K zx zy) (inv_zero K zx zy)
    (inv_add_assign K a d) (inv_dbl K a d) (inv_mixed_add K a d) inv_z_is_one.
  Definition inv_mul_assign := mul_assign_mixed (inverted K) (inv_zero K zx zy)
    (inv_add_assign K a d) (inv_dbl K a d) (inv_mixed_add K a d) inv_z_is_one.
  (** every point of odd order, every scalar *)
  Theorem C26_inverted_partial m P t n : N.odd m = true -> on P -> te_mul K a d (N.to_nat m) P = te_zero ->
    is_inverted t P ->
    is_inverted (inv_mul t n) (te_mul K a d (N.to_nat n) P) /\
    is_inverted (inv_mul_assign t n) (te_mul K a d (N.to_nat n) P).
  Proof.
    intros O HP MP T. rewrite <- (te_gmul K KL two a d cmp) in MP |- *. fold G in MP |- *.
    rewrite <- (gtors_gmul G m n P).
    set (H := gtors G m). set (rep := fun (t : inverted K) (P : H) => gin P /\ is_inverted t P).
    assert (Reg : forall X : H, gin X -> regular X).
    { intros X [X1 X2]. apply (odd_regular K KL two a d cmp m X O X1 X2). }
    assert (Z0 : rep (inv_zero K zx zy) (g0 : H)) by (split; [apply (g_in0 H)|apply (inv_zero_ok K zx zy zfill)]).
    assert (A : forall s u x y, rep s x -> rep u y -> rep (inv_add_assign K a d s u) (gadd x y)).
    { intros s u x y [X S] [Y U]. assert (I := g_inadd H x y X Y). split; [exact I|].
      apply C25_add_partial; [apply X|apply Y|exact S|exact U|apply (Reg _ I)]. }
    assert (D : forall s x, rep s x -> rep (inv_dbl K a d s) (gadd x x)).
    { intros s x [X S]. assert (I := g_inadd H x x X X). split; [exact I|].
      apply C25_double_partial; [apply X|exact S|apply (Reg _ I)]. }
    assert (HH : rep t (P : H)) by (split; [split; assumption|assumption]).
    assert (M : inv_z_is_one t = true -> forall s (y : H), rep s y -> rep (inv_mixed_add K a d s t) (gadd y (P : H))).
    { intros E s y [Y S]. destruct HH as [HH _]. assert (I := g_inadd H y P Y HH). split; [exact I|].
      apply C20_inverted_partial; [apply Y|exact HP|exact S|exact T|apply (feqb_true K R), E|apply (Reg _ I)]. }
    split.
    - exact (proj2 (rep_scalar_mul_mixed H (inverted K) rep (fun _ _ H => proj1 H) _ _ _ _ _ _ Z0 Z0 A D t P n HH M)).
    - exact (proj2 (rep_mul_assign_mixed H (inverted K) rep (fun _ _ H => proj1 H) _ _ _ _ _ Z0 A D t P n HH M)).
  Qed.

  (** forms/edwards (a = 1, c = 1): operator+, operator+=, double_inplace *)
  Theorem C25_edwards_partial P Q t u : a = 1 -> on P -> on Q -> is_inverted t P -> is_inverted u Q ->
    (regular (P ⊕ Q) -> is_inverted (edw_add K d 1 t u) (P ⊕ Q) /\ is_inverted (edw_add_assign K d 1 t u) (P ⊕ Q)) /\
    (regular (P ⊕ P) -> is_inverted (edw_dbl K d 1 t) (P ⊕ P)) /\
    (regular (P ⊕ Q) -> iZ u = 1 -> P <> te_zero -> is_inverted (edw_mixed_add K d 1 t u) (P ⊕ Q)).
  Proof.
    intros A1 HP HQ T U.
    assert (ED : forall s, edw_dbl K d 1 s = inv_dbl K a d s).
    { intros s. unfold edw_dbl, inv_dbl. rewrite A1. destruct (negb _); [|reflexivity]. cbv zeta. f_equal; ring. }
    assert (EA : forall s v, edw_add K d 1 s v = inv_add K a d s v).
    { intros s v. unfold edw_add, inv_add. rewrite ED. unfold edw_add_2007_bl, inv_add_2008_bbjlp. rewrite A1.
      destruct (inv_is_zero s), (inv_is_zero v), (inv_eqb s v); try reflexivity. cbv zeta. f_equal; ring. }
    split; [|split].
    - intros Rg. change (edw_add_assign K d 1 t u) with (edw_add K d 1 t u). rewrite EA. apply C25_add_partial; auto.
    - intros Rg. rewrite ED. apply C25_double_partial; auto.
    - intros Rg Z1 N.
      assert (EM : edw_mixed_add K d 1 t u = inv_mixed_add K a d t u).
      { unfold edw_mixed_add, inv_mixed_add. destruct (inv_is_zero t) eqn:ET.
        - apply (inv_is_zero_ok K KL t P T) in ET. contradiction.
        - unfold edw_madd_2007_bl, inv_madd_2008_bbjlp. rewrite A1. destruct (inv_is_zero u); [reflexivity|].
          cbv zeta. f_equal; ring. }
      rewrite EM. apply C20_inverted_partial; auto.
  Qed.
  (** forms/edwards: O.mixed_add(Q) leaves O *)
  Theorem C20_edwards_zero_refuted Q t u c : is_inverted t te_zero -> is_inverted u Q -> Q <> te_zero ->
    is_inverted (edw_mixed_add K d c t u) te_zero /\ te_zero ⊕ Q = Q.
  Proof.
    intros T U N. split; [|apply (te_add_0l K KL)]. unfold edw_mixed_add.
    destruct (inv_is_zero t) eqn:ET; [exact T|].
    assert (inv_is_zero t = true) by (apply (inv_is_zero_ok K KL t te_zero T); reflexivity). congruence.
  Qed.
End Edwards.

Section Montgomery.
  Variable K : FieldOps.
  Hypothesis KL : FieldLaws K.
  Let R := FieldLaws_Ring K KL.
  Add Field KpropM : (FL_th K KL).
  Hypothesis two : (2 : K) <> 0.
  Variables A B : K.
  Hypothesis ns : mont_nonsingular K A B.
  Local Notation on := (on_mont K A B).
  Local Notation "P ⊕ Q" := (mont_add K A B P Q) (at level 50, left associativity).

  (** ** C22 *)
  Theorem C22_group P Q S : (3 : K) <> 0 -> on P -> on Q -> on S ->
    on (P ⊕ Q) /\ on (ec_neg P) /\ P ⊕ Q = Q ⊕ P /\ (P ⊕ Q) ⊕ S = P ⊕ (Q ⊕ S) /\
    Inf ⊕ P = P /\ P ⊕ ec_neg P = Inf.
  Proof.
    intros three HP HQ HS. set (G := mont_group K KL two three A B ns). repeat split.
    - apply (g_inadd G); auto.
    - apply (g_inneg G P HP).
    - apply (g_comm G); auto.
    - apply (g_assoc G); auto.
    - apply (g_negr G); auto.
  Qed.
  Theorem C22_add P Q t u : on P -> on Q -> is_montgomery t P -> is_montgomery u Q ->
    is_montgomery (mont_plus K A B t u) (P ⊕ Q) /\ is_montgomery (mont_add_assign K A B t u) (P ⊕ Q).
  Proof. intros. split; [apply (mont_plus_ok K KL two A B ns)|apply (mont_add_assign_ok K KL two A B ns)]; auto. Qed.
  Theorem C22_double P t : on P -> is_montgomery t P -> is_montgomery (mont_double K A B t) (P ⊕ P).
  Proof. intros. apply (mont_double_ok K KL two A B ns); auto. Qed.
  (** Full statement: every P, Q; see C22_neg_refuted. *)
  Theorem C22_neg_partial (P : point K) t : is_montgomery t P -> P <> Inf -> is_montgomery (mont_neg t) (ec_neg P).
  Proof. apply mont_neg_ok. Qed.
  Theorem C22_sub_partial P Q t u : on P -> on Q -> is_montgomery t P -> is_montgomery u Q -> Q <> Inf ->
    is_montgomery (mont_sub K A B t u) (P ⊕ ec_neg Q) /\ is_montgomery (mont_sub_assign K A B t u) (P ⊕ ec_neg Q).
  Proof.
    intros HP HQ T U N. apply C22_add; auto using C22_neg_partial.
    destruct Q as [|x y]; cbn in *; [exact I|]. rewrite <- HQ. ring.
  Qed.
  (** unary minus drops the infinity flag *)
  Theorem C22_neg_refuted (t : mont K) : is_montgomery t Inf -> ~ is_montgomery (mont_neg t) (ec_neg Inf).
  Proof. intros _ H. cbn in H. discriminate. Qed.
  (** with the coordinates of the identity default-constructed to zero, P - O is P + (0,0) *)
  Theorem C22_sub_refuted P t : (3 : K) <> 0 -> on P -> is_montgomery t P ->
    is_montgomery (mont_zero 0 0 : mont K) Inf /\
    is_montgomery (mont_sub K A B t (mont_zero 0 0)) (P ⊕ Aff 0 0) /\ P ⊕ Aff 0 0 <> P ⊕ ec_neg Inf.
  Proof.
    intros three HP T. split; [reflexivity|].
    assert (O : on (Aff 0 0)) by (cbn; ring). split.
    - apply C22_add; auto. cbn. repeat split; ring.
    - set (G := mont_group K KL two three A B ns). intros E.
      assert (E' : (Aff 0 0 : point K) = Inf); [|discriminate].
      apply (g_cancel_l G P (Aff 0 0) Inf); auto. exact I.
  Qed.
  Theorem C22_zero (P : point K) t : is_montgomery t P -> mont_is_zero t = true <-> P = Inf.
  Proof. apply mont_is_zero_ok. Qed.
  Theorem C22_assign (P : point K) s t : is_montgomery t P -> is_montgomery (mont_assign K s t) P.
  Proof. apply mont_assign_ok. Qed.
  Theorem C19_montgomery_equal (P Q : point K) t u : is_montgomery t P -> is_montgomery u Q -> mont_eqb t u = true <-> P = Q.
  Proof. apply (mont_eqb_ok K KL). Qed.
  Theorem C21_montgomery t : mont_is_well_formed K A B t = true <-> exists P, is_montgomery t P /\ on P.
  Proof. apply (mont_wf_ok K KL A B). Qed.

  (** jx, jy: the coordinates default construction leaves *)
  Variables jx jy : K.
  Definition mont_smul := scalar_mul (mont K) (mont_zero jx jy) (mont_zero jx jy)
    (mont_add_assign K A B) (mont_double K A B).
  Definition mont_smul_assign := mul_assign (mont K) (mont_zero jx jy)
    (mont_add_assign K A B) (mont_double K A B).
  Theorem C26_montgomery P t n : (3 : K) <> 0 -> on P -> is_montgomery t P ->
    is_montgomery (mont_smul t n) (mont_mul K A B (N.to_nat n) P) /\
    is_montgomery (mont_smul_assign t n) (mont_mul K A B (N.to_nat n) P).
  Proof.
    intros three HP T. rewrite <- (mont_gmul K KL two three A B ns). set (G := mont_group K KL two three A B ns).
    assert (Z0 : on Inf /\ is_montgomery (mont_zero jx jy) Inf) by (split; [exact I|reflexivity]).
    assert (Ad : forall s u x y, on x /\ is_montgomery s x -> on y /\ is_montgomery u y ->
              on (x ⊕ y) /\ is_montgomery (mont_add_assign K A B s u) (x ⊕ y)).
    { intros s u x y [X S] [Y U]. split; [apply (g_inadd G); auto|]. apply C22_add; auto. }
    assert (D : forall s x, on x /\ is_montgomery s x -> on (x ⊕ x) /\ is_montgomery (mont_double K A B s) (x ⊕ x)).
    { intros s x [X S]. split; [apply (g_inadd G); auto|]. apply C22_double; auto. }
    split.
    - exact (proj2 (rep_scalar_mul G (mont K) (fun t P => on P /\ is_montgomery t P) (fun _ _ H => proj1 H)
        _ _ _ _ Z0 Z0 Ad D t P n (conj HP T))).
    - exact (proj2 (rep_mul_assign G (mont K) (fun t P => on P /\ is_montgomery t P) (fun _ _ H => proj1 H)
        _ _ _ Z0 Ad D t P n (conj HP T))).
  Qed.
End Montgomery.

(** ** C28.  A = 2(a+d)/(a-d); B is 4/(a-d) up to the square s^2, and the code's
    s_inv is a square root s of it. *)
Section Conversion.
  Variable K : FieldOps.
  Hypothesis KL : FieldLaws K.
  Hypothesis two : (2 : K) <> 0.
  Let R := FieldLaws_Ring K KL.
  Add Field KpropC : (FL_th K KL).
  Variables a d A B zx zy jx jy : K.
  Variable sqrt : K -> K.
  Hypothesis cmp : complete K a d.
  Hypothesis HA : A * (a - d) = 2 * (a + d).
  Hypothesis NB : B <> 0.
  (** the two curves are isomorphic over K, and sqrt finds square roots of non-zero squares *)
  Hypothesis Hs : exists s, s * s * B * (a - d) = 2 * 2.
  Hypothesis Hsqrt : forall v, v <> 0 -> (exists r, r * r = v) -> sqrt v * sqrt v = v.
  Hypothesis zfill : zx = 0 /\ (zy = 0 \/ zy = 1).
  Lemma s_inv_ok : conv_s_inv K B a d sqrt * conv_s_inv K B a d sqrt * B * (a - d) = 2 * 2.
  Proof.
    destruct Hs as [s E]. assert (N4 : (2 * 2 : K) <> 0) by (apply (fmul_neq_0 K KL); auto).
    assert (ND : a - d <> 0) by (intros Z; apply N4; rewrite <- E, Z; ring).
    unfold conv_s_inv. replace (fofN 4 : K) with (2 * 2 : K) by (cbn; ring). 
    destruct (B =? 2 * 2 * finv (a - d)) eqn:EB; cbn [negb].
    - apply (feqb_true K R) in EB. rewrite EB. field. exact ND.
    - rewrite (Hsqrt (2 * 2 * finv (a - d) * finv B)).
      + field. auto.
      + rewrite <- E. intros Z. apply N4. rewrite <- E. transitivity (s * s * B * (a - d) * finv (a - d) * finv B * (B * (a - d))); [field; auto|rewrite Z; ring].
      + exists s. rewrite <- E. field. auto.
  Qed.
  Theorem C28_to_montgomery t P : is_te_affine zx zy t P -> on_te K a d P -> exists Q,
    on_mont K A B Q /\ is_montgomery (to_montgomery K B jx jy a d zx zy sqrt t) Q /\
    (Q = Inf <-> P = te_zero) /\
    is_te_affine zx zy (to_twisted_edwards K B a d zx zy sqrt (to_montgomery K B jx jy a d zx zy sqrt t)) P.
  Proof. apply (to_mont_ok K KL two a d A B cmp HA _ s_inv_ok zx zy jx jy zfill sqrt eq_refl). Qed.
  Theorem C28_to_twisted_edwards t Q : is_montgomery t Q -> on_mont K A B Q -> exists P,
    on_te K a d P /\ is_te_affine zx zy (to_twisted_edwards K B a d zx zy sqrt t) P /\
    (P = te_zero <-> Q = Inf) /\
    is_montgomery (to_montgomery K B jx jy a d zx zy sqrt (to_twisted_edwards K B a d zx zy sqrt t)) Q.
  Proof. apply (to_te_ok K KL two a d A B cmp HA NB _ s_inv_ok zx zy jx jy zfill sqrt eq_refl). Qed.
End Conversion.

(** ** Concrete curves over Z/13: - x^2 + y^2 = 1 + 6 x^2 y^2 (20 points) and
    B y^2 = x^3 + 6 x^2 + x *)
Definition E13 (x y : Z) : F13 * F13 := (z13 x, z13 y).
Definition m1 : F13 := - (1).
Lemma cmp13 : complete F13 m1 (z13 6).
Proof.
  split; [exists (z13 5); split; dec13|]. intros r H. apply (f_equal (@zval 13)) in H.
  assert (B := zval_range 13 ltac:(lia) r). change (zval (fmul r r : F13)) with ((zval r * zval r) mod 13)%Z in H.
  change (zval (z13 6)) with 6%Z in H. revert B H. generalize (zval r). intros z B H.
  assert (z = 0 \/ z = 1 \/ z = 2 \/ z = 3 \/ z = 4 \/ z = 5 \/ z = 6 \/ z = 7 \/ z = 8 \/ z = 9 \/ z = 10 \/ z = 11 \/ z = 12)%Z as C by lia.
  repeat (destruct C as [->|C]; [discriminate H|]). subst. discriminate H.
Qed.
Lemma E13_ext (P Q : F13 * F13) : zval (fst P) = zval (fst Q) -> zval (snd P) = zval (snd Q) -> P = Q.
Proof. destruct P, Q. cbn. intros H1 H2. f_equal; apply (zp_ext 13); assumption. Qed.
Ltac decE := first [ dec13 | apply E13_ext; vm_compute; reflexivity
                   | let H := fresh in intros H; apply (f_equal (fun P : F13 * F13 => (zval (fst P), zval (snd P)))) in H; vm_compute in H; discriminate H
                   | reflexivity ].
(** C23: the doubling of a point of order 20, a sum with the point of order 2, and the identity marker *)
Example C23_case : on_te F13 m1 (z13 6) (E13 1 6) /\ on_te F13 m1 (z13 6) (E13 0 12) /\ on_te F13 m1 (z13 6) (E13 3 9) /\
  is_te_affine 0 1 (mkE (z13 1) (z13 6)) (E13 1 6) /\ is_te_affine (K := F13) 0 0 (mkE 0 0) te_zero /\
  te_add F13 m1 (z13 6) (E13 1 6) (E13 0 12) = E13 12 7 /\ te_mul F13 m1 (z13 6) 5 (E13 3 9) = te_zero.
Proof. repeat split; try decE; [left; split; decE|right; repeat split]. Qed.
(** C24, C20, C26: representatives with Z = 1 and Z = 2 *)
Definition X13 (x y t z : Z) : extended F13 := mkX (z13 x) (z13 y) (z13 t) (z13 z).
Example C24_case : is_extended (X13 1 6 6 1) (E13 1 6) /\ is_extended (X13 6 5 2 2) (E13 3 9) /\ is_extended (X13 3 9 1 1) (E13 3 9) /\
  fst (E13 1 6) * snd (E13 3 9) - snd (E13 1 6) * fst (E13 3 9) <> 0 /\
  snd (E13 1 6) * snd (E13 3 9) + m1 * (fst (E13 1 6) * fst (E13 3 9)) <> 0.
Proof. repeat split; decE. Qed.
(** order 5, scalar 6 = j + 1 with 5P = O *)
Example C26_extended_case : on_te F13 m1 (z13 6) (E13 3 9) /\ te_mul F13 m1 (z13 6) 5 (E13 3 9) = te_zero /\
  forall j, (0 < j)%N -> (j + 1 < 6)%N -> te_mul F13 m1 (z13 6) (N.to_nat j) (E13 3 9) = te_zero -> E13 3 9 = te_zero.
Proof.
  repeat split; try decE. intros j J1 J2 H. assert (j = 1 \/ j = 2 \/ j = 3 \/ j = 4)%N as C by lia.
  exfalso. destruct C as [->|[->|[->| ->]]]; revert H; decE.
Qed.
(** C26 fails for Z = 1 beyond the order: order 5, scalar 7 gives (0,Y,0,0) instead of 2P *)
Theorem C26_extended_refuted :
  on_te F13 m1 (z13 6) (E13 3 9) /\ is_extended (X13 3 9 1 1) (E13 3 9) /\
  (forall P, ~ is_extended (ext_mul F13 m1 (z13 6) (X13 3 9 1 1) 7) P) /\
  (forall P, ~ is_extended (ext_mul_assign F13 m1 (z13 6) (X13 3 9 1 1) 7) P).
Proof.
  split; [decE|]. split; [repeat split; decE|].
  split; intros P (H & _); apply H; decE.
Qed.
(** C25: P = (1,6) of order 20; 2P has non-zero coordinates; (1,6) + (1,7) = (0,12) *)
Definition I13 (x y z : Z) : inverted F13 := mkI (z13 x) (z13 y) (z13 z).
Example C25_case : on_te F13 m1 (z13 6) (E13 1 6) /\ is_inverted (I13 1 11 1) (E13 1 6) /\ is_inverted (I13 1 2 1) (E13 1 7) /\
  regular (te_add F13 m1 (z13 6) (E13 1 6) (E13 1 6)) /\ is_inverted (inv_zero F13 0 1) te_zero.
Proof.
  split; [decE|]. split; [right; repeat split; decE|]. split; [right; repeat split; decE|]. split; [right; split; decE|].
  left. repeat split; decE.
Qed.
(** C22: the 2-torsion point (0,0), a finite point and infinity on 5 y^2 = x^3 + 6x^2 + x *)
Example C22_case : mont_nonsingular F13 (z13 6) (z13 5) /\ on_mont F13 (z13 6) (z13 5) (P13 0 0) /\
  on_mont F13 (z13 6) (z13 5) (P13 9 9) /\ (3 : F13) <> 0 /\
  is_montgomery (mkM false (z13 9) (z13 9)) (P13 9 9) /\ is_montgomery (mkM true (z13 7) (z13 1)) (Inf : point F13).
Proof. repeat split; decE. Qed.
(** C28: B = 11 differs from 4/(a-d) = 5 by the square 2^2; square roots by search *)
Definition sqrt13 (v : F13) : F13 :=
  match List.find (fun r : F13 => r * r =? v) (List.map (fun n => z13 (Z.of_nat n)) (List.seq 0 13)) with
  | Some r => r | None => 0 end.
Example C28_case : m1 - z13 6 <> 0 /\ z13 6 * (m1 - z13 6) = 2 * (m1 + z13 6) /\ z13 11 <> 0 /\
  (exists s, s * s * z13 11 * (m1 - z13 6) = 2 * 2) /\
  (forall v, v <> 0 -> (exists r, r * r = v) -> sqrt13 v * sqrt13 v = v) /\
  conv_s_inv F13 (z13 11) m1 (z13 6) sqrt13 = z13 2 /\ complete F13 m1 (z13 6).
Proof.
  split; [decE|]. split; [decE|]. split; [decE|]. split; [exists (z13 2); decE|]. split; [|split; [decE|exact cmp13]].
  intros v _ [r Hr]. unfold sqrt13. destruct (List.find _ _) eqn:E.
  - apply List.find_some in E. destruct E as [_ E]. apply (feqb_true F13 (FieldLaws_Ring F13 F13_field)), E.
  - exfalso. assert (I : List.In r (List.map (fun n => z13 (Z.of_nat n)) (List.seq 0 13))).
    { apply List.in_map_iff. exists (Z.to_nat (zval r)). assert (B := zval_range 13 ltac:(lia) r). split.
      - apply (zp_ext 13). rewrite Z2Nat.id by lia. unfold z13. rewrite zval_tozp by lia. apply Z.mod_small. lia.
      - apply List.in_seq. lia. }
    assert (X := List.find_none _ _ E r I). cbv beta in X.
    apply (feqb_false F13 (FieldLaws_Ring F13 F13_field)) in X. contradiction.
Qed.
