(** C63, C66: bilinearity and non-degeneracy of pair_reduced for edwards<183>. *)
From Coq Require Import ZArith NArith List Bool Lia Znumtheory Field_theory Field.
From Verif Require Import Base.Field Base.Zp Base.Ext Spec.Weierstrass Spec.Edwards Spec.EdwardsWeierstrass Spec.Scalars Spec.Digits Spec.Pairing Spec.AtePairing
  Model.FieldParams Model.Shipped Model.CurveParams Model.Generators Model.Edwards Model.EdwardsG2 Model.Wnaf Model.FinalExp Model.Pairing Model.Fp3 Model.Fp6_2over3
  Proof.FiniteField Proof.Homs Proof.Shipped Proof.ShippedTowers Proof.FinalExp Proof.Generators Proof.GeneratorsEd2 Proof.Wnaf
  Proof.EdwardsOps Proof.EdwardsGroup Proof.EdwardsTorsion Proof.EdwardsDual Proof.EdwardsWeierstrass
  Proof.PairingCore Proof.PairingEd Proof.PairingEdShip Proof.PairingFinal Proof.TwistBilinear Proof.BilinearUse Proof.EdwardsBilinear Proof.PairingGen Proof.PairingEdBilinear
  Properties.Edwards Properties.FinalExp Properties.Generators Properties.PairingEdwards Properties.PairingBilinear.
Import ListNotations.
Local Open Scope fld_scope.
Local Notation edF := (Zp edwards_p).
Local Notation edK := (t6_Fp3 edwards_tower).
Local Notation edG := (t6_Fp6 edwards_tower).
Local Notation mulP := (te_zmul edF 1 edwards_D).
Local Notation mulQ := (te_zmul edK edwards_ta (edwards_td edwards_D)).
Local Notation addP := (te_add edF 1 edwards_D).
Local Notation addQ := (te_add edK edwards_ta (edwards_td edwards_D)).

(** points of order r of the curve over Fp, and the group generated by g2 one().  The points are not the
    identity: what pair_reduced returns there is C48. *)
Definition edwards_order P : Prop := te_mul edF 1 edwards_D (N.to_nat edwards_r) P = te_zero.
Definition edwards_gen (Q : edK * edK) : Prop := exists k, Q = te_mul edK edwards_ta (edwards_td edwards_D) k edwards_g2_one.

Lemma edwards_cmp1 : complete edF 1 edwards_D.
Proof. exact (proj1 C29_edwards_g1). Qed.
Lemma edwards_one_in : edwards_in edwards_g2_one.
Proof. exact (edwards_odd _ edwards_g2_odd). Qed.
Lemma edwards_cin P t : edwards_g1 P t -> edwards_order P -> cin edF 1 edwards_D edwards_r P.
Proof. intros (_ & O & _) R. exact (conj O R). Qed.
Lemma edwards_in_odd Q : edwards_in Q -> odd_point edK edwards_ta (edwards_td edwards_D) edwards_r Q.
Proof.
  exact (proj2 (odd_din edF (tozp edwards_p edwards_fp3_non_residue) edwards_KF edwards_two edwards_r edwards_ta (edwards_td edwards_D) Q edwards_cmp)).
Qed.
Lemma edwards_gen_g2 Q t : edwards_gen Q -> Q <> te_zero -> is_inverted t Q -> edwards_g2 Q t.
Proof.
  intros Gq N T. split; [|exact T]. split; [exact N|]. apply edwards_in_odd.
  exact (te_gen_in edK edwards_KF edwards_two edwards_ta (edwards_td edwards_D) edwards_cmp edwards_r edwards_r_odd edwards_g2_one edwards_one_in Q Gq).
Qed.
Lemma edwards_cin_g1 P t : cin edF 1 edwards_D edwards_r P -> P <> te_zero -> is_inverted t P -> edwards_g1 P t.
Proof. intros [O _] N T. exact (conj N (conj O T)). Qed.
Lemma edwards_te_T P Q : te_T edF edK edG 1 edwards_D edwards_ta (edwards_td edwards_D) edwards_T P Q = ate_edwards edwards_D P Q.
Proof. unfold te_T, edwards_T, ate_edwards, edwards_d, edwards_D. reflexivity. Qed.

Theorem C63_edwards find_wnaf std P Q i j tP tQ tP' tQ' : wnaf_contract find_wnaf -> edwards_g1 P tP -> edwards_order P -> edwards_gen Q -> edwards_g2 Q tQ ->
  mulP i P <> te_zero -> mulQ j Q <> te_zero -> is_inverted tP' (mulP i P) -> is_inverted tQ' (mulQ j Q) ->
  exists g, edwards_pair_reduced find_wnaf std tP tQ = Some g /\ g <> 0 /\ fpow g edwards_r = 1 /\
    edwards_pair_reduced find_wnaf std tP' tQ' = Some (fzpow g (i * j)).
Proof.
  intros W A R Gq B NP NQ TP TQ. exists (ate_edwards edwards_D P Q).
  assert (C := edwards_cin P tP A R).
  assert (E := proj1 (edwards_reduced find_wnaf std P Q tP tQ W A B)).
  assert (C' := P_zmul edF edwards_K edwards_two1 1 edwards_D edwards_cmp1 edwards_r i P C).
  assert (G' := te_gen_zmul edK edwards_KF edwards_two edwards_ta (edwards_td edwards_D) edwards_cmp edwards_r edwards_r_odd edwards_r_prime edwards_g2_one edwards_one_in j Q Gq).
  assert (E' := proj1 (edwards_reduced find_wnaf std _ _ tP' tQ' W (edwards_cin_g1 _ tP' C' NP TP) (edwards_gen_g2 _ tQ' G' NQ TQ))).
  assert (N := te_T_neq0 edF edK edG edwards_K edwards_KF edwards_two1 edwards_two edwards_three 1 edwards_D edwards_ta (edwards_td edwards_D) edwards_cmp1 edwards_cmp edwards_r edwards_r_odd
    edwards_g2_one edwards_one_in edwards_T (edwards_bilinear edwards_one_in) P Q C Gq).
  assert (O := te_T_order edF edK edG edwards_K edwards_KF edwards_KG edwards_two1 edwards_two edwards_three 1 edwards_D edwards_ta (edwards_td edwards_D) edwards_cmp1 edwards_cmp edwards_r edwards_r_odd
    edwards_r_prime edwards_g2_one edwards_one_in edwards_T (edwards_bilinear edwards_one_in) P Q C Gq).
  assert (V := te_T_zmul edF edK edG edwards_K edwards_KF edwards_KG edwards_two1 edwards_three1 edwards_two edwards_three 1 edwards_D edwards_ta (edwards_td edwards_D) edwards_cmp1 edwards_cmp edwards_r edwards_r_odd
    edwards_r_prime edwards_g2_one edwards_one_in edwards_T (edwards_bilinear edwards_one_in) i j P Q C Gq).
  rewrite (edwards_te_T P Q) in N, O, V. rewrite (edwards_te_T (mulP i P) (mulQ j Q)) in V.
  exact (conj E (conj N (conj O (eq_trans E' (f_equal Some V))))).
Qed.
Print Assumptions C63_edwards.
Theorem C63_edwards_add_left find_wnaf std P P' Q tP tP' tS tQ : wnaf_contract find_wnaf -> edwards_g1 P tP -> edwards_order P -> edwards_g1 P' tP' -> edwards_order P' ->
  edwards_gen Q -> edwards_g2 Q tQ -> addP P P' <> te_zero -> is_inverted tS (addP P P') ->
  exists g g', edwards_pair_reduced find_wnaf std tP tQ = Some g /\ edwards_pair_reduced find_wnaf std tP' tQ = Some g' /\
    edwards_pair_reduced find_wnaf std tS tQ = Some (g * g').
Proof.
  intros W A R A' R' Gq B N T. exists (ate_edwards edwards_D P Q), (ate_edwards edwards_D P' Q).
  assert (C := edwards_cin P tP A R). assert (C' := edwards_cin P' tP' A' R').
  assert (E := proj1 (edwards_reduced find_wnaf std P Q tP tQ W A B)). assert (E' := proj1 (edwards_reduced find_wnaf std P' Q tP' tQ W A' B)).
  assert (CS := P_add edF edwards_K edwards_two1 1 edwards_D edwards_cmp1 edwards_r P P' C C').
  assert (S := proj1 (edwards_reduced find_wnaf std _ Q tS tQ W (edwards_cin_g1 _ tS CS N T) B)).
  assert (V := te_T_add_l edF edK edG edwards_K edwards_KF edwards_two1 edwards_three1 edwards_two edwards_three 1 edwards_D edwards_ta (edwards_td edwards_D) edwards_cmp1 edwards_cmp edwards_r edwards_r_odd
    edwards_g2_one edwards_one_in edwards_T (edwards_bilinear edwards_one_in) P P' Q C C' Gq).
  rewrite (edwards_te_T P Q), (edwards_te_T P' Q), (edwards_te_T (addP P P') Q) in V.
  exact (conj E (conj E' (eq_trans S (f_equal Some V)))).
Qed.
Print Assumptions C63_edwards_add_left.
Theorem C63_edwards_add_right find_wnaf std P Q Q' tP tQ tQ' tS : wnaf_contract find_wnaf -> edwards_g1 P tP -> edwards_order P ->
  edwards_gen Q -> edwards_g2 Q tQ -> edwards_gen Q' -> edwards_g2 Q' tQ' -> addQ Q Q' <> te_zero -> is_inverted tS (addQ Q Q') ->
  exists g g', edwards_pair_reduced find_wnaf std tP tQ = Some g /\ edwards_pair_reduced find_wnaf std tP tQ' = Some g' /\
    edwards_pair_reduced find_wnaf std tP tS = Some (g * g').
Proof.
  intros W A R Gq B Gq' B' N T. exists (ate_edwards edwards_D P Q), (ate_edwards edwards_D P Q').
  assert (C := edwards_cin P tP A R).
  assert (E := proj1 (edwards_reduced find_wnaf std P Q tP tQ W A B)). assert (E' := proj1 (edwards_reduced find_wnaf std P Q' tP tQ' W A B')).
  assert (GS := te_gen_add edK edwards_KF edwards_two edwards_ta (edwards_td edwards_D) edwards_cmp edwards_r edwards_r_odd edwards_g2_one edwards_one_in Q Q' Gq Gq').
  assert (S := proj1 (edwards_reduced find_wnaf std P _ tP tS W A (edwards_gen_g2 _ tS GS N T))).
  assert (V := te_T_add_r edF edK edG edwards_K edwards_KF edwards_two1 edwards_two edwards_three 1 edwards_D edwards_ta (edwards_td edwards_D) edwards_cmp1 edwards_cmp edwards_r edwards_r_odd
    edwards_g2_one edwards_one_in edwards_T (edwards_bilinear edwards_one_in) P Q Q' C Gq Gq').
  rewrite (edwards_te_T P Q), (edwards_te_T P Q'), (edwards_te_T P (addQ Q Q')) in V.
  exact (conj E (conj E' (eq_trans S (f_equal Some V)))).
Qed.
Print Assumptions C63_edwards_add_right.

(** ** C66 *)
Lemma edwards_one_order : edwards_order edwards_g1_one.
Proof.
  destruct C29_edwards_g1 as (_ & _ & _ & R & M). unfold edwards_order, edwards_r. rewrite Z_N_nat. apply M.
  rewrite Z2Nat.id by (apply Z.lt_le_incl, R). apply Z.divide_refl.
Qed.
Lemma edwards_one_gen : edwards_gen edwards_g2_one.
Proof. exact (te_gen_1 edK edwards_KF edwards_ta (edwards_td edwards_D) edwards_g2_one). Qed.
Lemma edwards_one_neq1 : ate_edwards edwards_D edwards_g1_one edwards_g2_one <> 1.
Proof.
  destruct C62_edwards_g1 as (NP & OP & TP). destruct C62_edwards_g2 as [[NQ IQ] TQ].
  destruct (edwards_miller true _ _ edwards_one1 edwards_one2 NP OP TP NQ (edwards_odd _ IQ) TQ) as (x & y & f & _ & _ & E & _ & V).
  assert (E1 : edwards_pair true edwards_one1 edwards_one2 = Some f) by exact (f_equal (option_map fst) E).
  assert (E' : ate_edwards edwards_D edwards_g1_one edwards_g2_one = fpow f edwards_e) by (symmetry; exact V).
  exact (fe1_pow edG (FieldLaws_Ring _ edwards_KG) f _ edwards_e E' (edwards_value f E1)).
Qed.
Theorem C66_edwards find_wnaf std i j tP tQ : wnaf_contract find_wnaf -> ~ (Z.of_N edwards_r | i)%Z -> ~ (Z.of_N edwards_r | j)%Z ->
  is_inverted tP (mulP i edwards_g1_one) -> is_inverted tQ (mulQ j edwards_g2_one) ->
  exists g, edwards_pair_reduced find_wnaf std tP tQ = Some g /\ g <> 0 /\ g <> 1 /\ fpow g edwards_r = 1 /\
    g = fzpow (ate_edwards edwards_D edwards_g1_one edwards_g2_one) (i * j).
Proof.
  intros W I J TP TQ. assert (A := C62_edwards_g1). assert (B := C62_edwards_g2).
  assert (C := edwards_cin _ _ A edwards_one_order).
  assert (NP : mulP i edwards_g1_one <> te_zero) by (intros Z; exact (I (P_zmul_zero edF edwards_K edwards_two1 edwards_three1 1 edwards_D edwards_cmp1 edwards_r edwards_r_odd edwards_r_prime i edwards_g1_one C (proj1 A) Z))).
  assert (NQ : mulQ j edwards_g2_one <> te_zero) by (intros Z; exact (J (Q_zmul_zero edK edwards_KF edwards_two edwards_three edwards_ta (edwards_td edwards_D) edwards_cmp edwards_r edwards_r_odd edwards_r_prime j edwards_g2_one edwards_one_in (proj1 (proj1 B)) Z))).
  destruct (C63_edwards find_wnaf std _ _ i j _ _ tP tQ W A edwards_one_order edwards_one_gen B NP NQ TP TQ) as (g0 & E0 & G0 & OR & E1).
  assert (E2 := proj1 (edwards_reduced find_wnaf std _ _ _ _ W A B)).
  assert (E3 : g0 = ate_edwards edwards_D edwards_g1_one edwards_g2_one) by (apply (f_equal (fun o => match o with Some x => x | None => g0 end)) in E0; rewrite E2 in E0; symmetry; exact E0).
  exists (fzpow g0 (i * j)). rewrite E3 in E1, G0, OR |- *.
  exact (conj E1 (nondeg edG edwards_KG _ edwards_r i j edwards_r_prime OR G0 edwards_one_neq1 I J)).
Qed.
Print Assumptions C66_edwards.

(** ** Examples: [5] G1 and [-7] G2, with coordinates scaled by any non-zero z *)
Section InvOf.
  Variable K : FieldOps.
  Hypothesis KL : FieldLaws K.
  Add Field KfieldIOf : (FL_th K KL).
  Definition inv_of (P : K * K) (z : K) : inverted K := mkI (z * finv (fst P)) (z * finv (snd P)) z.
  Lemma inv_of_rep P z : fst P <> 0 -> snd P <> 0 -> z <> 0 -> is_inverted (inv_of P z) P.
  Proof.
    intros X Y Z. right. unfold inv_of; cbn [iX iY iZ].
    repeat split; try (apply (fmul_neq_0 K KL); [exact Z|]; apply (Base.Field.finv_neq_0 K KL); assumption); auto; field; auto.
  Qed.
End InvOf.
Example C66_edwards_ex std z z' : z <> 0 -> z' <> 0 ->
  exists g, edwards_pair_reduced find_wnaf_ref std (inv_of edF (mulP 5 edwards_g1_one) z) (inv_of edK (mulQ (-7) edwards_g2_one) z') = Some g /\ g <> 1.
Proof.
  intros Z Z'. assert (C := edwards_cin _ _ C62_edwards_g1 edwards_one_order).
  assert (I : ~ (Z.of_N edwards_r | 5)%Z) by (apply small_not_div; vm_compute; split; reflexivity).
  assert (J : ~ (Z.of_N edwards_r | -7)%Z) by (apply small_not_div; vm_compute; split; reflexivity).
  assert (NP : mulP 5 edwards_g1_one <> te_zero) by (intros E; exact (I (P_zmul_zero edF edwards_K edwards_two1 edwards_three1 1 edwards_D edwards_cmp1 edwards_r edwards_r_odd edwards_r_prime 5 edwards_g1_one C (proj1 C62_edwards_g1) E))).
  assert (NQ : mulQ (-7) edwards_g2_one <> te_zero) by (intros E; exact (J (Q_zmul_zero edK edwards_KF edwards_two edwards_three edwards_ta (edwards_td edwards_D) edwards_cmp edwards_r edwards_r_odd edwards_r_prime (-7) edwards_g2_one edwards_one_in (proj1 (proj1 C62_edwards_g2)) E))).
  assert (C5 := P_zmul edF edwards_K edwards_two1 1 edwards_D edwards_cmp1 edwards_r 5 _ C).
  assert (C7 := Q_zmul_in edK edwards_KF edwards_two edwards_ta (edwards_td edwards_D) edwards_cmp edwards_r edwards_r_odd (-7) _ edwards_one_in).
  destruct (cin_regular edF edwards_K edwards_two1 1 edwards_D edwards_cmp1 edwards_r edwards_r_odd _ C5) as [E|[X Y]]; [destruct (NP E)|].
  destruct (odd_reg edK edwards_KF edwards_two edwards_ta (edwards_td edwards_D) edwards_cmp edwards_r edwards_r_odd _ C7 NQ) as [X' Y'].
  destruct (C66_edwards find_wnaf_ref std 5 (-7) _ _ find_wnaf_ref_ok I J (inv_of_rep edF edwards_K _ z X Y Z) (inv_of_rep edK edwards_KF _ z' X' Y' Z')) as (g & E & _ & N & _).
  exists g. exact (conj E N).
Qed.
