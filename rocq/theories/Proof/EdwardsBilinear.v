(** Bilinearity of a pairing defined on the Weierstrass forms of two twisted Edwards curves,
    in terms of the Edwards group laws. *)
From Coq Require Import ZArith NArith List Bool Lia Ring Field Znumtheory.
From Verif Require Import Base.Field Base.Hom Spec.Group Spec.Weierstrass Spec.Edwards Spec.EdwardsWeierstrass Spec.Pairing Spec.Scalars
  Proof.WeierstrassGroup Proof.EdwardsGroup Proof.EdwardsOps Proof.EdwardsTorsion Proof.EdwardsDual Proof.EdwardsWeierstrass
  Proof.Homs Proof.FastField Proof.TwistBilinear Proof.BilinearUse.
Local Open Scope fld_scope.

Section Map.
  Variables A B : FieldOps.
  Variable h : A -> B.
  Hypothesis H : FHom A B h.
  Let HH := fh_hom _ _ _ H.
  Ltac hfz := repeat progress (homs HH; rewrite ?(hom_fofZ h HH), ?(@fhom_div A B h H)); reflexivity.
  Lemma te_wa_map a d : h (te_wa A a d) = te_wa B (h a) (h d).
  Proof. unfold te_wa. hfz. Qed.
  Lemma te_wb_map a d : h (te_wb A a d) = te_wb B (h a) (h d).
  Proof. unfold te_wb. hfz. Qed.
  Lemma te_weier_map a d P : point_map h (te_weier A a d P) = te_weier B (h a) (h d) (h (fst P), h (snd P)).
  Proof.
    destruct P as [x y]. unfold te_weier. cbn [fst snd].
    rewrite <- (hom_0 _ _ _ HH), <- (hom_1 _ _ _ HH), !(hom_eqb _ _ _ HH).
    destruct ((x =? 0) && (y =? 1))%bool; cbn [point_map]; [reflexivity|]. f_equal; hfz.
  Qed.
End Map.

Section Use.
  Variables K F G : FieldOps.
  Hypothesis KK : FieldLaws K.
  Hypothesis KF : FieldLaws F.
  Hypothesis KG : FieldLaws G.
  Hypothesis twoK : (2 : K) <> 0.
  Hypothesis threeK : (3 : K) <> 0.
  Hypothesis twoF : (2 : F) <> 0.
  Hypothesis threeF : (3 : F) <> 0.
  Variables (a d : K) (a' d' : F).
  Hypothesis cmp : complete K a d.
  Hypothesis cmp' : complete F d' a'.
  Variable r : N.
  Hypothesis odd : N.odd r = true.
  Hypothesis Pr : prime (Z.of_N r).
  Variable Q0 : F * F.
  Local Notation inP := (cin K a d r).
  Local Notation inQ := (din F KF twoF a' d' cmp' r).
  Hypothesis IQ0 : inQ Q0.
  Variable T : point K -> point F -> G.
  Local Notation W := (te_weier K a d).
  Local Notation W' := (te_weier F a' d').
  Local Notation wa := (te_wa K a d).
  Local Notation wb := (te_wb K a d).
  Local Notation wa' := (te_wa F a' d').
  Local Notation wb' := (te_wb F a' d').
  Hypothesis HB : bilinear wa wb wa' (W' Q0) T.
  Local Notation DG := (dual_group F KF twoF a' d' cmp' r odd).
  Let ns := comp_ns K KK twoK threeK a d cmp.
  Let ns' := odd_ns F KF twoF threeF a' d' cmp'.
  Definition te_gen (Q : F * F) := exists k, Q = te_mul F a' d' k Q0.

  (** points of the curve over K *)
  Lemma P_mul k P : inP P -> inP (te_mul K a d k P).
  Proof. exact (in_mul K a d inP (cin_zero K KK twoK a d cmp r) (cin_add K KK twoK a d cmp r) k P). Qed.
  Lemma P_zmul i P : inP P -> inP (te_zmul K a d i P).
  Proof.
    intros I. destruct i; cbn [te_zmul]; [exact (cin_zero K KK twoK a d cmp r)|apply P_mul, I|apply (cin_neg K KK twoK a d cmp r), P_mul, I].
  Qed.
  Lemma P_add P P' : inP P -> inP P' -> inP (te_add K a d P P').
  Proof. intros A B. exact (proj2 (cin_add K KK twoK a d cmp r P P' A B)). Qed.
  Lemma W_zmul i P : inP P -> W (te_zmul K a d i P) = ec_zmul K wa i (W P).
  Proof.
    intros I. assert (M := fun k => cW_mul K KK twoK threeK a d cmp r odd k P I).
    destruct i; cbn [te_zmul ec_zmul]; [apply (W_zero K KK)|symmetry; apply M|].
    rewrite (cW_negate K KK twoK a d cmp r odd) by (apply P_mul, I). rewrite <- M. reflexivity.
  Qed.
  Lemma W_inf P : inP P -> W P = Inf -> P = te_zero.
  Proof.
    intros I E. assert (R := FieldLaws_Ring K KK). destruct (feq_dec K R (fst P) 0) as [Z|Z].
    - destruct (cin_regular K KK twoK a d cmp r odd P I) as [E'|[E' _]]; [exact E'|contradiction].
    - destruct P as [x y]. rewrite (W_eq K KK a d x y Z) in E. discriminate.
  Qed.
  Lemma P_order P : inP P -> ec_mul K wa (N.to_nat r) (W P) = Inf.
  Proof. intros I. rewrite (cW_mul K KK twoK threeK a d cmp r odd _ P I), (proj2 I). apply (W_zero K KK). Qed.
  Lemma P_zmul_zero i P : inP P -> P <> te_zero -> te_zmul K a d i P = te_zero -> (Z.of_N r | i)%Z.
  Proof.
    intros I N E. apply (zmul_inf K KK twoK wa wb ns r (W P) i Pr (cW_on K KK twoK a d cmp r odd P I) (P_order P I)).
    - intros E'. apply N, W_inf; assumption.
    - rewrite <- W_zmul, E by exact I. apply (W_zero K KK).
  Qed.
  (** multiples of Q0 *)
  Lemma Q_mul k Q : inQ Q -> inQ (te_mul F a' d' k Q).
  Proof. intros I. apply (dual_mul F KF twoF a' d' cmp' r odd k Q I). Qed.
  Lemma Q_zmul_in i Q : inQ Q -> inQ (te_zmul F a' d' i Q).
  Proof.
    intros I. destruct i; cbn [te_zmul]; [exact (g_in0 DG)|apply Q_mul, I|apply (g_inneg DG), (Q_mul _ Q I)].
  Qed.
  Lemma Q_add_in Q Q' : inQ Q -> inQ Q' -> inQ (te_add F a' d' Q Q').
  Proof. apply (g_inadd DG). Qed.
  Lemma W'_zmul i Q : inQ Q -> W' (te_zmul F a' d' i Q) = ec_zmul F wa' i (W' Q).
  Proof.
    intros I. assert (M := fun k => W_mul F KF twoF threeF a' d' cmp' r odd k Q I).
    destruct i; cbn [te_zmul ec_zmul]; [apply (W_zero F KF)|symmetry; apply M|].
    rewrite (W_negate F KF twoF a' d' cmp' r odd) by (apply Q_mul, I). rewrite <- M. reflexivity.
  Qed.
  Lemma W'_inf Q : inQ Q -> W' Q = Inf -> Q = te_zero.
  Proof.
    intros I E. assert (R := FieldLaws_Ring F KF). destruct (feq_dec F R (fst Q) 0) as [Z|Z].
    - exact (odd_x0 F KF twoF a' d' cmp' r odd Q I Z).
    - destruct Q as [x y]. rewrite (W_eq F KF a' d' x y Z) in E. discriminate.
  Qed.
  Lemma te_gen_in Q : te_gen Q -> inQ Q.
  Proof. intros [k ->]. apply Q_mul, IQ0. Qed.
  Lemma te_gen_W Q : te_gen Q -> gen F wa' (W' Q0) (W' Q).
  Proof. intros [k ->]. exists k. symmetry. exact (W_mul F KF twoF threeF a' d' cmp' r odd k Q0 IQ0). Qed.
  Lemma te_gen_1 : te_gen Q0.
  Proof. exists 1%nat. cbn [te_mul]. symmetry. rewrite (te_add_comm F KF). apply (te_add_0l F KF). Qed.
  Lemma Q_killed Q : inQ Q -> gmul (G := DG) r Q = te_zero.
  Proof.
    intros I. rewrite (dual_gmul F KF twoF a' d' cmp' r odd). destruct (dual_mul F KF twoF a' d' cmp' r odd (N.to_nat r) Q I) as [E I'].
    apply (dual_inj F KF); [apply I'|apply (f1_neq_0 F KF)|]. rewrite E, (dual_zero F KF). destruct I as [_ [_ I]].
    rewrite <- (te_gmul F KF twoF d' a' cmp'). exact I.
  Qed.
  Lemma Q0_order : ec_mul F wa' (N.to_nat r) (W' Q0) = Inf.
  Proof.
    rewrite (W_mul F KF twoF threeF a' d' cmp' r odd _ Q0 IQ0), <- (dual_gmul F KF twoF a' d' cmp' r odd). rewrite Q_killed by exact IQ0. apply (W_zero F KF).
  Qed.
  Lemma te_gen_zmul j Q : te_gen Q -> te_gen (te_zmul F a' d' j Q).
  Proof.
    intros [k ->]. rewrite <- (Nat2N.id k). destruct j as [|n|n]; cbn [te_zmul].
    - exists 0%nat. reflexivity.
    - exists (N.to_nat (Npos n * N.of_nat k)). rewrite <- !(dual_gmul F KF twoF a' d' cmp' r odd). symmetry. apply (gmul_mul DG), IQ0.
    - exists (N.to_nat ((r - 1) * (Npos n * N.of_nat k))). rewrite <- !(dual_gmul F KF twoF a' d' cmp' r odd).
      rewrite <- (gmul_mul DG) by exact IQ0. set (m := (Npos n * N.of_nat k)%N). symmetry.
      apply (g_neg_unique DG); [apply (gmul_in DG), IQ0|apply (gmul_in DG), IQ0|].
      rewrite <- (gmul_add DG) by exact IQ0. assert (R2 := prime_ge_2 _ Pr). replace (m + (r - 1) * m)%N with (m * r)%N by nia.
      rewrite (gmul_mul DG) by exact IQ0. rewrite (Q_killed Q0 IQ0). apply (gmul_zero DG).
  Qed.
  Lemma te_gen_add Q Q' : te_gen Q -> te_gen Q' -> te_gen (te_add F a' d' Q Q').
  Proof.
    intros [k ->] [k' ->]. exists (k + k')%nat. rewrite <- (Nat2N.id k), <- (Nat2N.id k'), <- N2Nat.inj_add, <- !(dual_gmul F KF twoF a' d' cmp' r odd).
    symmetry. apply (gmul_add DG), IQ0.
  Qed.
  Lemma Q_zmul_zero j Q : inQ Q -> Q <> te_zero -> te_zmul F a' d' j Q = te_zero -> (Z.of_N r | j)%Z.
  Proof.
    intros I N E. apply (zmul_inf F KF twoF wa' wb' ns' r (W' Q) j Pr (W_odd_on F KF twoF a' d' cmp' r odd Q I)).
    - rewrite (W_mul F KF twoF threeF a' d' cmp' r odd _ Q I), <- (dual_gmul F KF twoF a' d' cmp' r odd). rewrite Q_killed by exact I. apply (W_zero F KF).
    - intros E'. apply N, W'_inf; assumption.
    - rewrite <- W'_zmul, E by exact I. apply (W_zero F KF).
  Qed.
  (** the pairing *)
  Definition te_T P Q : G := T (W P) (W' Q).
  Let onP P (I : inP P) : on_curve K wa wb (W P) := cW_on K KK twoK a d cmp r odd P I.
  Let onQ0 : on_curve F wa' wb' (W' Q0) := W_odd_on F KF twoF a' d' cmp' r odd Q0 IQ0.
  Lemma te_T_neq0 P Q : inP P -> te_gen Q -> te_T P Q <> 0.
  Proof. intros I Gq. exact (T_neq0 K F G wa wb wa' (W' Q0) T HB (W P) (W' Q) (onP P I) (te_gen_W Q Gq)). Qed.
  Lemma te_T_zmul i j P Q : inP P -> te_gen Q -> te_T (te_zmul K a d i P) (te_zmul F a' d' j Q) = fzpow (te_T P Q) (i * j).
  Proof.
    intros I Gq. unfold te_T. rewrite (W_zmul i P I), (W'_zmul j Q (te_gen_in Q Gq)).
    exact (T_zmul K F G KK KF KG twoK twoF wa wb wa' wb' ns ns' (W' Q0) T HB r Pr onQ0 Q0_order i j (W P) (W' Q) (onP P I) (te_gen_W Q Gq)).
  Qed.
  Lemma te_T_order P Q : inP P -> te_gen Q -> fpow (te_T P Q) r = 1.
  Proof.
    intros I Gq. exact (T_order K F G KK KF KG twoF wa wb wa' wb' ns' (W' Q0) T HB r Pr onQ0 Q0_order (W P) (W' Q) (onP P I) (te_gen_W Q Gq)).
  Qed.
  Lemma te_T_add_l P P' Q : inP P -> inP P' -> te_gen Q -> te_T (te_add K a d P P') Q = te_T P Q * te_T P' Q.
  Proof.
    intros I I' Gq. unfold te_T. rewrite <- (cW_hom K KK twoK threeK a d cmp r odd P P' I I').
    exact (T_add_l K F G wa wb wa' (W' Q0) T HB (W P) (W P') (W' Q) (onP P I) (onP P' I') (te_gen_W Q Gq)).
  Qed.
  Lemma te_T_add_r P Q Q' : inP P -> te_gen Q -> te_gen Q' -> te_T P (te_add F a' d' Q Q') = te_T P Q * te_T P Q'.
  Proof.
    intros I Gq Gq'. unfold te_T. rewrite <- (W_hom F KF twoF threeF a' d' cmp' r odd Q Q' (te_gen_in Q Gq) (te_gen_in Q' Gq')).
    exact (T_add_r K F G wa wb wa' (W' Q0) T HB (W P) (W' Q) (W' Q') (onP P I) (te_gen_W Q Gq) (te_gen_W Q' Gq')).
  Qed.
End Use.
