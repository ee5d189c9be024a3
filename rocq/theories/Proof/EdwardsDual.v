(** Twisted Edwards curves a x^2 + y^2 = 1 + d x^2 y^2 with d a square and a not:
    (x, y) |-> (x, 1/y) is a bijection onto the complete curve with the coefficients
    exchanged, and the points of odd order form a group under the addition law. *)
From Coq Require Import ZArith NArith List Bool Lia Ring Field.
From Verif Require Import Base.Field Base.Ext Spec.Edwards Spec.Group Model.Fp3 Model.Edwards Model.EdwardsG2 Model.ScalarMul
  Proof.Towers Proof.EdwardsGroup Proof.EdwardsOps Proof.EdwardsTorsion Proof.ScalarMul.
Local Open Scope fld_scope.

Section Dual.
  Variable K : FieldOps.
  Hypothesis KL : FieldLaws K.
  Let R := FieldLaws_Ring K KL.
  Add Field Kdu : (FL_th K KL).
  Hypothesis two : (2 : K) <> 0.
  Variables a d : K.
  Hypothesis cmp : complete K d a.
  Local Notation on := (on_te K a d).
  Local Notation on' := (on_te K d a).
  Local Notation G := (te_group K KL two d a cmp).
  Definition dual (P : K * K) : K * K := (fst P, finv (snd P)).
  Lemma finv_neq_0 (y : K) : y <> 0 -> finv y <> 0.
  Proof. intros N E. apply (f1_neq_0 K KL). rewrite <- (finv_r K KL y N), E. ring. Qed.
  Lemma finv_invol (y : K) : y <> 0 -> finv (finv y) = y.
  Proof.
    intros N. assert (N' := finv_neq_0 y N). apply (fmul_cancel_l K KL (finv y)); [exact N'|].
    rewrite (finv_r K KL _ N'), (finv_l K KL _ N). reflexivity.
  Qed.
  Lemma dual_invol P : snd P <> 0 -> dual (dual P) = P.
  Proof. destruct P as [x y]. intros N. unfold dual; cbn [fst snd] in *. rewrite finv_invol by exact N. reflexivity. Qed.
  Lemma dual_inj P Q : snd P <> 0 -> snd Q <> 0 -> dual P = dual Q -> P = Q.
  Proof. intros NP NQ E. rewrite <- (dual_invol P NP), <- (dual_invol Q NQ), E. reflexivity. Qed.
  Lemma dual_zero : dual te_zero = te_zero.
  Proof. unfold dual, te_zero; cbn [fst snd]. f_equal. field. apply (f1_neq_0 K KL). Qed.
  Lemma dual_on P : snd P <> 0 -> on' (dual P) <-> on P.
  Proof.
    destruct P as [x y]. cbn [snd]. intros N. unfold dual, on_te; cbn [fst snd]. split; intros E.
    - apply (fmul_cancel_l K KL (finv y * finv y)); [apply (fmul_neq_0 K KL); apply finv_neq_0, N|].
      transitivity (1 + a * (x * x) * (finv y * finv y)); [field; exact N|]. rewrite <- E. field. exact N.
    - apply (fmul_cancel_l K KL (y * y)); [apply (fmul_neq_0 K KL); exact N|].
      transitivity (1 + d * (x * x) * (y * y)); [field; exact N|]. rewrite <- E. field. exact N.
  Qed.
  Lemma dual_add P Q : on' P -> on' Q -> snd P <> 0 -> snd Q <> 0 ->
    snd (te_add K d a P Q) <> 0 -> snd (te_add K d a P (te_neg Q)) <> 0 ->
    dens K d (dual P) (dual Q) /\ te_add K a d (dual P) (dual Q) = dual (te_add K d a P Q).
  Proof.
    destruct P as [x1 y1], Q as [x2 y2]. cbn [snd]. intros O1 O2 N1 N2 S1 S2.
    assert (DP := te_den_p K KL two d a cmp _ _ _ _ O1 O2). assert (DM := te_den_m K KL two d a cmp _ _ _ _ O1 O2).
    assert (A1 : y1 * y2 + d * (x1 * x2) <> 0).
    { intros E. apply S2. apply (te_sub_snd K KL). exact E. }
    assert (A2 : y1 * y2 - d * (x1 * x2) <> 0).
    { intros E. apply S1. unfold te_add, fdiv; cbn [snd].
      transitivity ((y1 * y2 - d * (x1 * x2)) * finv (1 - a * x1 * x2 * y1 * y2)); [ring|]. rewrite E. ring. }
    assert (I1 := finv_neq_0 y1 N1). assert (I2 := finv_neq_0 y2 N2).
    assert (D1 : 1 + d * x1 * x2 * finv y1 * finv y2 = (y1 * y2 + d * (x1 * x2)) * (finv y1 * finv y2)) by (field; auto).
    assert (D2 : 1 - d * x1 * x2 * finv y1 * finv y2 = (y1 * y2 - d * (x1 * x2)) * (finv y1 * finv y2)) by (field; auto).
    assert (I12 : finv y1 * finv y2 <> 0) by (apply (fmul_neq_0 K KL); assumption).
    split.
    - unfold dens, dual; cbn [fst snd]. rewrite D1, D2. split; apply (fmul_neq_0 K KL); assumption.
    - unfold dual, te_add, fdiv; cbn [fst snd]. rewrite D1, D2. f_equal.
      + assert (X : (x1 * y1 + x2 * y2) * (1 + a * x1 * x2 * y1 * y2) = (x1 * y2 + y1 * x2) * (y1 * y2 + d * (x1 * x2))).
        { unfold on_te in O1, O2.
          assert (Q1 : a * (x1 * x1) * (y1 * y1) = d * (x1 * x1) + y1 * y1 - 1) by (rewrite O1; ring).
          assert (Q2 : a * (x2 * x2) * (y2 * y2) = d * (x2 * x2) + y2 * y2 - 1) by (rewrite O2; ring).
          transitivity (x1 * y1 + x2 * y2 + a * (x1 * x1) * (y1 * y1) * (x2 * y2) + a * (x2 * x2) * (y2 * y2) * (x1 * y1)); [ring|].
          rewrite Q1, Q2. ring. }
        apply (fmul_cancel_r K KL) with ((y1 * y2 + d * (x1 * x2)) * (1 + a * x1 * x2 * y1 * y2)); [apply (fmul_neq_0 K KL); assumption|].
        transitivity ((x1 * y1 + x2 * y2) * (1 + a * x1 * x2 * y1 * y2)); [field; auto|]. rewrite X. field. auto.
      + field. repeat split; auto. intros E. apply A2. rewrite <- E. ring.
  Qed.

  (** the points of order dividing the odd number n *)
  Variable n : N.
  Hypothesis odd : N.odd n = true.
  Local Notation H := (gtors G n).
  Definition din (P : K * K) : Prop := snd P <> 0 /\ gin (a := H) (dual P).
  Lemma H_snd (P : H) : gin P -> snd P <> 0.
  Proof.
    intros [P1 P2]. destruct (odd_regular K KL two d a cmp n P odd P1 P2) as [->|[_ E]]; [apply (f1_neq_0 K KL)|exact E].
  Qed.
  Lemma din_dual (P : H) : gin P -> din (dual P).
  Proof.
    intros HP. assert (N := H_snd P HP). split; [cbn [dual snd]; apply finv_neq_0, N|]. rewrite dual_invol by exact N. exact HP.
  Qed.
  Lemma din_on P : din P -> on P.
  Proof. intros [N [O _]]. apply dual_on; assumption. Qed.
  Lemma din_regular P : din P -> regular P.
  Proof.
    intros [N [O T]]. destruct (odd_regular K KL two d a cmp n _ odd O T) as [E|[E _]].
    - left. apply dual_inj; [exact N|apply (f1_neq_0 K KL)|]. rewrite dual_zero. exact E.
    - right. split; assumption.
  Qed.
  Lemma din_add P Q : din P -> din Q ->
    dens K d P Q /\ dual (te_add K a d P Q) = te_add K d a (dual P) (dual Q) /\ din (te_add K a d P Q).
  Proof.
    intros [NP HP] [NQ HQ].
    assert (S1 := H_snd _ (g_inadd H _ _ HP HQ)). assert (S2 := H_snd _ (g_inadd H _ _ HP (g_inneg H _ HQ))).
    destruct (dual_add (dual P) (dual Q) (proj1 HP) (proj1 HQ) (H_snd _ HP) (H_snd _ HQ) S1 S2) as [D E].
    rewrite !dual_invol in D, E by assumption. split; [exact D|].
    assert (E' : dual (te_add K a d P Q) = te_add K d a (dual P) (dual Q)).
    { rewrite E. apply dual_invol, S1. }
    split; [exact E'|]. split; [|rewrite E'; apply (g_inadd H); assumption].
    rewrite E. cbn [dual snd]. apply finv_neq_0, S1.
  Qed.
  Lemma dual_neg P : dual (te_neg P) = te_neg (dual P).
  Proof. destruct P; reflexivity. Qed.
  Lemma din_neg P : din P -> din (te_neg P).
  Proof.
    intros [N HP]. split; [destruct P; exact N|]. rewrite dual_neg. apply (g_inneg H _ HP).
  Qed.
  Lemma din_zero : din te_zero.
  Proof. split; [apply (f1_neq_0 K KL)|]. rewrite dual_zero. apply (g_in0 H). Qed.
  Definition dual_group : AbGroup.
  Proof.
    refine (mkG (K * K) din te_zero (te_add K a d) te_neg din_zero _ din_neg _ _ _ _).
    - intros x y X Y. apply (din_add x y X Y).
    - intros x y z X Y Z. destruct (din_add x y X Y) as (_ & E1 & I1). destruct (din_add y z Y Z) as (_ & E2 & I2).
      destruct (din_add _ z I1 Z) as (_ & E3 & I3). destruct (din_add x _ X I2) as (_ & E4 & I4).
      apply dual_inj; [apply I3|apply I4|]. rewrite E3, E1, E4, E2. apply (g_assoc H); [apply X|apply Y|apply Z].
    - intros x y X Y. apply (te_add_comm K KL).
    - intros x X. apply (te_add_0l K KL).
    - intros x X. destruct (din_add x _ X (din_neg x X)) as (_ & E1 & I1).
      apply dual_inj; [apply I1|apply (f1_neq_0 K KL)|]. rewrite E1, dual_neg, dual_zero. apply (g_negr H _ (proj2 X)).
  Defined.
  Lemma dual_gmul k P : gmul (G := dual_group) k P = te_mul K a d (N.to_nat k) P.
  Proof. unfold gmul. induction (N.to_nat k) as [|m IH]; [reflexivity|]. cbn [gmuln te_mul]. rewrite IH. reflexivity. Qed.
  Lemma dual_mul m P : din P -> dual (te_mul K a d m P) = te_mul K d a m (dual P) /\ din (te_mul K a d m P).
  Proof.
    intros HP. induction m as [|m [IH1 IH2]]; [split; [apply dual_zero|apply din_zero]|]. cbn [te_mul].
    destruct (din_add P _ HP IH2) as (_ & E & I). rewrite E, IH1. split; [reflexivity|exact I].
  Qed.
End Dual.

(** ** element_edwards_g2 *)
Section Class.
  Variable F : FieldOps.
  Hypothesis FL : FieldLaws F.
  Let RF := FieldLaws_Ring F FL.
  Add Field Feg : (FL_th F FL).
  Variable nr : F.
  Local Notation K := (Fp3 F nr).
  Hypothesis KL : FieldLaws K.
  Let R := FieldLaws_Ring K KL.
  Add Field Keg : (FL_th K KL).
  Variable fd : F.
  Local Notation A := (eg2_twist_a F nr 1).
  Local Notation D := (eg2_twist_d F nr fd).
  Lemma eg2_mul_a (e : K) : eg2_mul_by_a F nr 1 e = A * e.
  Proof.
    destruct e as [e0 e1 e2]. unfold eg2_mul_by_a, eg2_twist_a, eg2_twist, fp3_smul; cbn; unfold fp3_mul; cbn. f_equal; ring.
  Qed.
  Lemma eg2_mul_d (e : K) : eg2_mul_by_d F nr fd e = D * e.
  Proof.
    destruct e as [e0 e1 e2]. unfold eg2_mul_by_d, eg2_twist_d, eg2_twist, fp3_smul; cbn; unfold fp3_mul; cbn. f_equal; ring.
  Qed.
  Lemma eg2_dbl_eq P : eg2_dbl F nr 1 fd P = inv_dbl K A D P.
  Proof.
    unfold eg2_dbl, inv_dbl. destruct (negb _); [|reflexivity]. cbv zeta. rewrite eg2_mul_a, eg2_mul_d. f_equal; ring.
  Qed.
  Lemma eg2_add_eq P Q : eg2_add F nr 1 fd P Q = inv_add K A D P Q.
  Proof.
    unfold eg2_add, inv_add. rewrite eg2_dbl_eq. unfold eg2_add_inner, inv_add_2008_bbjlp. cbv zeta. rewrite eg2_mul_a, eg2_mul_d.
    destruct (inv_is_zero P), (inv_is_zero Q), (inv_eqb P Q); try reflexivity.
  Qed.
  Lemma eg2_mixed_add_eq P Q : (inv_is_zero P && inv_is_zero Q)%bool = false -> eg2_mixed_add F nr 1 fd P Q = inv_mixed_add K A D P Q.
  Proof.
    unfold eg2_mixed_add, inv_mixed_add, inv_madd_2008_bbjlp. cbv zeta. rewrite eg2_mul_a, eg2_mul_d.
    destruct (inv_is_zero P), (inv_is_zero Q); intros X; try discriminate X; try reflexivity; f_equal; ring.
  Qed.

  Hypothesis two : (2 : K) <> 0.
  Hypothesis cmp : complete K D A.
  Variable n : N.
  Hypothesis odd : N.odd n = true.
  Local Notation G := (dual_group K KL two A D cmp n odd).
  Definition eg2_rep (t : inverted K) (P : G) : Prop := gin P /\ is_inv K t P.
  Lemma eg2_zero_ok zx : eg2_rep (eg2_zero F nr zx) (g0 : G).
  Proof. split; [apply (g_in0 G)|]. left. repeat split. Qed.
  Lemma eg2_add_ok s t (P Q : G) : eg2_rep s P -> eg2_rep t Q -> eg2_rep (eg2_add F nr 1 fd s t) (gadd P Q).
  Proof.
    intros [P1 P2] [Q1 Q2]. split; [apply (g_inadd G); assumption|]. rewrite eg2_add_eq.
    destruct (din_add K KL two A D cmp n odd P Q P1 Q1) as (DD & _ & I).
    apply (inv_add_gen K KL A D 0 0 (conj eq_refl (or_introl eq_refl))); auto.
    - apply (din_on K KL two A D cmp n P P1).
    - apply (din_on K KL two A D cmp n Q Q1).
    - apply (din_regular K KL two A D cmp n odd _ I).
  Qed.
  Lemma eg2_dbl_ok s (P : G) : eg2_rep s P -> eg2_rep (eg2_dbl F nr 1 fd s) (gadd P P).
  Proof.
    intros [P1 P2]. split; [apply (g_inadd G); assumption|]. rewrite eg2_dbl_eq.
    destruct (din_add K KL two A D cmp n odd P P P1 P1) as (DD & _ & I).
    apply (inv_dbl_gen K KL A D); auto.
    - apply (din_on K KL two A D cmp n P P1).
    - apply (din_regular K KL two A D cmp n odd _ I).
  Qed.
  Lemma eg2_neg_ok s (P : G) : eg2_rep s P -> eg2_rep (inv_neg s) (gneg P).
  Proof. intros [P1 P2]. split; [apply (g_inneg G P P1)|apply (inv_neg_ok K KL), P2]. Qed.
  Lemma eg2_mixed_add_ok s t (P Q : G) : eg2_rep s P -> eg2_rep t Q -> iZ t = 1 ->
    eg2_rep (eg2_mixed_add F nr 1 fd s t) (gadd P Q).
  Proof.
    intros [P1 P2] [Q1 Q2] Z. split; [apply (g_inadd G); assumption|].
    destruct (din_add K KL two A D cmp n odd P Q P1 Q1) as (DD & _ & I).
    rewrite eg2_mixed_add_eq.
    - apply (inv_mixed_add_gen K KL A D); auto. apply (din_regular K KL two A D cmp n odd _ I).
    - apply andb_false_iff. right. apply not_true_iff_false. unfold inv_is_zero. rewrite andb_true_iff, Z. intros [_ E].
      apply (feqb_true K R) in E. exact (f1_neq_0 K KL E).
  Qed.
  Definition eg2_z_is_one (t : inverted K) : bool := iZ t =? 1.
  Definition eg2_mul zx := scalar_mul_mixed (inverted K) (eg2_zero F nr zx) (eg2_zero F nr zx)
    (eg2_add_assign F nr 1 fd) (eg2_dbl F nr 1 fd) (eg2_mixed_add F nr 1 fd) eg2_z_is_one.
  Lemma eg2_mul_ok zx t (P : G) k : eg2_rep t P -> eg2_rep (eg2_mul zx t k) (gmul k P).
  Proof.
    intros T. apply (rep_scalar_mul_mixed G (inverted K) eg2_rep (fun _ _ H => proj1 H)); auto using eg2_zero_ok.
    - intros s u x y. apply eg2_add_ok.
    - intros s x. apply eg2_dbl_ok.
    - intros E s y S. apply eg2_mixed_add_ok; [exact S|exact T|apply (feqb_true K R), E].
  Qed.
  (** to_affine returns (x, y, 1), and (0, 1, 1) for the identity *)
  Lemma eg2_to_affine_ok t P : is_inv K t P -> eg2_to_affine F nr t = mkI (fst P) (snd P) 1.
  Proof.
    intros H. unfold eg2_to_affine. destruct (inv_is_zero t) eqn:Z.
    - apply (inv_is_zero_ok K KL _ _ H) in Z. subst P. reflexivity.
    - assert (N : P <> te_zero) by (intros E; apply (inv_is_zero_ok K KL _ _ H) in E; congruence).
      destruct (is_inv_form K KL t P H N) as (x & y & W & -> & Nx & Ny & NZ & ->). unfold inv_of; cbn [iX iY iZ fst snd]. cbv zeta.
      f_equal; field; auto.
  Qed.
  Lemma eg2_to_projective_ok t P : is_inv K t P -> is_inv K (eg2_to_projective F nr t) P.
  Proof.
    intros H. unfold eg2_to_projective. destruct (iZ t =? 0) eqn:E; [exact H|]. apply (feqb_false K R) in E.
    destruct H as [(_ & Z & _)|(NX & NY & NZ & E1 & E2)]; [contradiction|]. cbv zeta. destruct P as [x y]. cbn [fst snd] in *.
    apply (is_inv_scale K KL); [apply (f1_neq_0 K KL)| |].
    - apply (fmul_cancel_r K KL _ _ _ NZ). transitivity (x * iX t); [rewrite <- E1; ring|]. field. exact NZ.
    - apply (fmul_cancel_r K KL _ _ _ NZ). transitivity (y * iY t); [rewrite <- E2; ring|]. field. exact NZ.
  Qed.
End Class.
