(** Spec/EdwardsWeierstrass.v: the map respects the group laws, and the lines of the
    Weierstrass curve are the conics of the edwards<183> pairing. *)
From Coq Require Import ZArith NArith List Bool Lia Ring Field.
From Verif Require Import Base.Field Spec.Weierstrass Spec.Edwards Spec.EdwardsWeierstrass Spec.Pairing
  Spec.Group Proof.WeierstrassGroup Proof.WeierstrassRep Proof.EdwardsGroup Proof.EdwardsOps Proof.EdwardsTorsion Proof.EdwardsDual.
Local Open Scope fld_scope.

Section EdW.
  Variable K : FieldOps.
  Hypothesis KL : FieldLaws K.
  Let R := FieldLaws_Ring K KL.
  Add Field Kew : (FL_th K KL).
  Hypothesis two : (2 : K) <> 0.
  Hypothesis three : (3 : K) <> 0.
  Variables a d : K.
  Hypothesis ad : a - d <> 0.
  Local Notation on := (on_te K a d).
  Local Notation W := (te_weier K a d).
  Local Notation wa := (te_wa K a d).
  Local Notation wb := (te_wb K a d).
  Lemma c54 : (fofZ 54 : K) = 2 * 3 * 3 * 3.
  Proof. unfold fofZ; cbn [fofpos]; unfold fdbl. ring. Qed.
  Lemma c27 : (fofZ 27 : K) = 3 * 3 * 3.
  Proof. unfold fofZ; cbn [fofpos]; unfold fdbl. ring. Qed.
  Lemma c14 : (fofZ 14 : K) = 2 * (2 * 3 + 1).
  Proof. unfold fofZ; cbn [fofpos]; unfold fdbl. ring. Qed.
  Lemma c34 : (fofZ 34 : K) = 2 * (2 * 2 * 2 * 2 + 1).
  Proof. unfold fofZ; cbn [fofpos]; unfold fdbl. ring. Qed.
  Definition WX (y : K) : K := 3 * (3 * ((a - d) * ((1 + y) * finv (1 - y))) + 2 * (a + d)).
  Definition WY (x y : K) : K := 2 * 3 * 3 * 3 * ((a - d) * ((1 + y) * finv (1 - y) * finv x)).
  Lemma W_eq x y : x <> 0 -> W (x, y) = Aff (WX y) (WY x y).
  Proof.
    intros N. unfold te_weier. rewrite (proj2 (feqb_false K R x 0) N). cbn [andb]. unfold WX, WY, fdiv. rewrite c54. reflexivity.
  Qed.
  Lemma on_y1 x y : on (x, y) -> x <> 0 -> 1 - y <> 0.
  Proof.
    cbn. intros O N E. apply (fsub_0_eq K R) in E. subst y.
    apply (fmul_neq_0 K KL (a - d) (x * x) ad); [apply (fmul_neq_0 K KL); exact N|].
    transitivity (a * (x * x) + 1 * 1 - (1 + d * (x * x) * (1 * 1))); [ring|]. rewrite O. ring.
  Qed.
  Lemma on_a x y : on (x, y) -> x <> 0 -> a = (1 - y * y) * (finv x * finv x) + d * (y * y).
  Proof.
    cbn. intros O N. transitivity ((a * (x * x) + y * y - y * y) * (finv x * finv x)); [field; exact N|]. rewrite O. field. exact N.
  Qed.
  Lemma W_on x y : on (x, y) -> x <> 0 -> on_curve K wa wb (Aff (WX y) (WY x y)).
  Proof.
    intros O N. assert (N1 := on_y1 x y O N). cbn [on_curve]. unfold te_wa, te_wb, WX, WY. rewrite c54, c27, c14, c34.
    rewrite (on_a x y O N). field. auto.
  Qed.
  (** chord *)
  Lemma on_d x1 y1 x2 y2 : on (x1, y1) -> on (x2, y2) -> x1 <> 0 -> x2 <> 0 -> y1 * y1 - y2 * y2 <> 0 ->
    d = ((1 - y2 * y2) * (finv x2 * finv x2) - (1 - y1 * y1) * (finv x1 * finv x1)) * finv (y1 * y1 - y2 * y2).
  Proof.
    intros O1 O2 N1 N2 D. assert (E1 := on_a _ _ O1 N1). assert (E2 := on_a _ _ O2 N2).
    transitivity ((a - (1 - y1 * y1) * (finv x1 * finv x1) - (a - (1 - y2 * y2) * (finv x2 * finv x2))) * finv (y1 * y1 - y2 * y2)); [|field; auto].
    rewrite E1 at 1. rewrite E2. field. auto.
  Qed.
  Lemma add_dual x1 y1 x2 y2 : on (x1, y1) -> on (x2, y2) -> dens K d (x1, y1) (x2, y2) ->
    y1 * y2 + a * x1 * x2 <> 0 -> x1 * y2 - y1 * x2 <> 0 ->
    te_add K a d (x1, y1) (x2, y2) = ((x1 * y1 + x2 * y2) * finv (y1 * y2 + a * x1 * x2), (x1 * y1 - x2 * y2) * finv (x1 * y2 - y1 * x2)).
  Proof.
    intros O1 O2 [D1 D2] D3 D4. unfold te_add, fdiv. cbn [fst snd] in *.
    assert (Q1 : d * (x1 * x1) * (y1 * y1) = a * (x1 * x1) + y1 * y1 - 1) by (cbn in O1; rewrite O1; ring).
    assert (Q2 : d * (x2 * x2) * (y2 * y2) = a * (x2 * x2) + y2 * y2 - 1) by (cbn in O2; rewrite O2; ring).
    f_equal.
    - apply (fmul_cancel_l K KL ((y1 * y2 + a * x1 * x2) * (1 + d * x1 * x2 * y1 * y2))); [apply (fmul_neq_0 K KL); assumption|].
      transitivity ((x1 * y2 + y1 * x2) * (y1 * y2 + a * x1 * x2)); [field; auto|].
      transitivity ((x1 * y1 + x2 * y2) + d * (x1 * x1) * (y1 * y1) * (x2 * y2) + d * (x2 * x2) * (y2 * y2) * (x1 * y1)); [|field; auto].
      rewrite Q1, Q2. ring.
    - apply (fmul_cancel_l K KL ((x1 * y2 - y1 * x2) * (1 - d * x1 * x2 * y1 * y2))); [apply (fmul_neq_0 K KL); assumption|].
      transitivity ((y1 * y2 - a * x1 * x2) * (x1 * y2 - y1 * x2)); [field; auto|].
      transitivity ((x1 * y1 - x2 * y2) - d * (x1 * x1) * (y1 * y1) * (x2 * y2) + d * (x2 * x2) * (y2 * y2) * (x1 * y1)); [|field; auto].
      rewrite Q1, Q2. ring.
  Qed.
  Lemma sq_x x1 y1 x2 y2 : on (x1, y1) -> on (x2, y2) -> x1 <> 0 -> y1 * y1 - y2 * y2 <> 0 -> x1 * x1 - x2 * x2 <> 0.
  Proof.
    cbn. intros O1 O2 N1 D E.
    assert (E1 : (y1 * y1 - y2 * y2) * (1 - d * (x1 * x1)) = 0).
    { transitivity (a * (x1 * x1) + y1 * y1 - (1 + d * (x1 * x1) * (y1 * y1)) - (a * (x2 * x2) + y2 * y2 - (1 + d * (x2 * x2) * (y2 * y2)))
        - (a - d * (y2 * y2)) * (x1 * x1 - x2 * x2)); [ring|]. rewrite O1, O2, E. ring. }
    assert (E2 : 1 - d * (x1 * x1) = 0).
    { destruct (feq_dec K R (1 - d * (x1 * x1)) 0) as [Z|Z]; [exact Z|]. exfalso. exact (fmul_neq_0 K KL _ _ D Z E1). }
    apply (fmul_neq_0 K KL (a - d) (x1 * x1) ad); [apply (fmul_neq_0 K KL); exact N1|].
    transitivity (a * (x1 * x1) + y1 * y1 - (1 + d * (x1 * x1) * (y1 * y1)) + (1 - d * (x1 * x1)) * (1 - y1 * y1)); [ring|].
    rewrite O1, E2. ring.
  Qed.
  Lemma WX_sub y1 y2 : 1 - y1 <> 0 -> 1 - y2 <> 0 -> WX y2 - WX y1 = 2 * 3 * 3 * ((a - d) * ((y2 - y1) * (finv (1 - y1) * finv (1 - y2)))).
  Proof. intros M1 M2. unfold WX. field. auto. Qed.
  Lemma WX_inj y1 y2 : 1 - y1 <> 0 -> 1 - y2 <> 0 -> y2 - y1 <> 0 -> WX y2 - WX y1 <> 0.
  Proof.
    intros M1 M2 D. rewrite WX_sub by assumption.
    assert (F1 : forall x : K, x <> 0 -> finv x <> 0).
    { intros x N E. apply (f1_neq_0 K KL). rewrite <- (finv_r K KL x N), E. ring. }
    repeat apply (fmul_neq_0 K KL); auto.
  Qed.
  Lemma chord_u x1 y1 x2 y2 : on (x1, y1) -> on (x2, y2) -> x1 <> 0 -> x2 <> 0 -> y1 * y1 - y2 * y2 <> 0 -> x1 * y2 - y1 * x2 <> 0 ->
    let l := (WY x2 y2 - WY x1 y1) * finv (WX y2 - WX y1) in
    l * l - WX y1 - WX y2 = WX ((x1 * y1 - x2 * y2) * finv (x1 * y2 - y1 * x2)).
  Proof.
    intros O1 O2 N1 N2 D D4 l. assert (M1 := on_y1 _ _ O1 N1). assert (M2 := on_y1 _ _ O2 N2).
    assert (S := sq_x _ _ _ _ O1 O2 N1 D). assert (A0 := ad).
    assert (S1 : x1 + x2 <> 0) by (intros E; apply S; transitivity ((x1 + x2) * (x1 - x2)); [ring|rewrite E; ring]).
    assert (S2 : y2 - y1 <> 0) by (intros E; apply D; transitivity (- ((y2 - y1) * (y1 + y2))); [ring|rewrite E; ring]).
    assert (S3 : (x1 + x2) * (y2 - y1) <> 0) by (apply (fmul_neq_0 K KL); assumption).
    assert (L : l = 3 * ((x1 * (1 + y2) * (1 - y1) - x2 * (1 + y1) * (1 - y2)) * finv (x1 * x2 * (y2 - y1)))).
    { unfold l. rewrite (WX_sub y1 y2 M1 M2). unfold WY. field. repeat split; auto.
      intros E. change (2 * (1 + 2 * (2 * 2)) = (0 : K)) in E.
      apply (fmul_neq_0 K KL _ _ (fmul_neq_0 K KL _ _ two three) three). etransitivity; [|exact E]. ring. }
    rewrite L. 
    assert (U : WX ((x1 * y1 - x2 * y2) * finv (x1 * y2 - y1 * x2)) = 3 * (3 * ((a - d) * ((x1 - x2) * (y1 + y2) * finv ((x1 + x2) * (y2 - y1)))) + 2 * (a + d))).
    { unfold WX. field. repeat split; auto. intros E. apply S3. rewrite <- E. ring. }
    rewrite U. unfold WX. rewrite (on_a _ _ O1 N1). rewrite (on_d _ _ _ _ O1 O2 N1 N2 D). field. repeat split; auto.
  Qed.
  Lemma chord_v x1 y1 x2 y2 : on (x1, y1) -> on (x2, y2) -> x1 <> 0 -> x2 <> 0 -> y1 * y1 - y2 * y2 <> 0 -> x1 * y2 - y1 * x2 <> 0 ->
    y1 * y2 + a * x1 * x2 <> 0 -> x1 * y1 + x2 * y2 <> 0 ->
    let l := (WY x2 y2 - WY x1 y1) * finv (WX y2 - WX y1) in
    let y3 := (x1 * y1 - x2 * y2) * finv (x1 * y2 - y1 * x2) in
    let x3 := (x1 * y1 + x2 * y2) * finv (y1 * y2 + a * x1 * x2) in
    l * (WX y1 - WX y3) - WY x1 y1 = WY x3 y3.
  Proof.
    intros O1 O2 N1 N2 D D4 D3 D5 l y3 x3. assert (M1 := on_y1 _ _ O1 N1). assert (M2 := on_y1 _ _ O2 N2).
    assert (S := sq_x _ _ _ _ O1 O2 N1 D). assert (A0 := ad).
    assert (S1 : x1 + x2 <> 0) by (intros E; apply S; transitivity ((x1 + x2) * (x1 - x2)); [ring|rewrite E; ring]).
    assert (S2 : y2 - y1 <> 0) by (intros E; apply D; transitivity (- ((y2 - y1) * (y1 + y2))); [ring|rewrite E; ring]).
    assert (S3 : (x1 + x2) * (y2 - y1) <> 0) by (apply (fmul_neq_0 K KL); assumption).
    assert (L : l = 3 * ((x1 * (1 + y2) * (1 - y1) - x2 * (1 + y1) * (1 - y2)) * finv (x1 * x2 * (y2 - y1)))).
    { unfold l. rewrite (WX_sub y1 y2 M1 M2). unfold WY. field. repeat split; auto.
      intros E. change (2 * (1 + 2 * (2 * 2)) = (0 : K)) in E.
      apply (fmul_neq_0 K KL _ _ (fmul_neq_0 K KL _ _ two three) three). etransitivity; [|exact E]. ring. }
    rewrite L.
    assert (U : WX y3 = 3 * (3 * ((a - d) * ((x1 - x2) * (y1 + y2) * finv ((x1 + x2) * (y2 - y1)))) + 2 * (a + d))).
    { unfold WX, y3. field. repeat split; auto. intros E. apply S3. rewrite <- E. ring. }
    assert (V : WY x3 y3 = 2 * 3 * 3 * 3 * ((a - d) * ((x1 - x2) * (y1 + y2) * (y1 * y2 + a * x1 * x2) * finv ((x1 + x2) * (y2 - y1) * (x1 * y1 + x2 * y2))))).
    { unfold WY, x3, y3. field. repeat split; auto. intros E. apply S3. rewrite <- E. ring. }
    rewrite U, V. clear U V L l x3 y3. unfold WX, WY. rewrite (on_a _ _ O1 N1). rewrite (on_d _ _ _ _ O1 O2 N1 N2 D). field. repeat split; auto.
  Qed.
  Lemma W_chord x1 y1 x2 y2 : on (x1, y1) -> on (x2, y2) -> x1 <> 0 -> x2 <> 0 -> y1 * y1 - y2 * y2 <> 0 -> x1 * y2 - y1 * x2 <> 0 ->
    y1 * y2 + a * x1 * x2 <> 0 -> x1 * y1 + x2 * y2 <> 0 -> dens K d (x1, y1) (x2, y2) ->
    ec_add K wa (W (x1, y1)) (W (x2, y2)) = W (te_add K a d (x1, y1) (x2, y2)).
  Proof.
    intros O1 O2 N1 N2 D D4 D3 D5 DD. assert (M1 := on_y1 _ _ O1 N1). assert (M2 := on_y1 _ _ O2 N2).
    assert (S2 : y2 - y1 <> 0) by (intros E; apply D; transitivity (- ((y2 - y1) * (y1 + y2))); [ring|rewrite E; ring]).
    assert (U := chord_u x1 y1 x2 y2 O1 O2 N1 N2 D D4). assert (V := chord_v x1 y1 x2 y2 O1 O2 N1 N2 D D4 D3 D5).
    cbv zeta in U, V. rewrite !W_eq by assumption. rewrite (ec_chord K KL wa _ _ _ _ (WX_inj y1 y2 M1 M2 S2)). unfold ec_line, fdiv.
    rewrite U, V, (add_dual _ _ _ _ O1 O2 DD D3 D4), W_eq; [reflexivity|].
    apply (fmul_neq_0 K KL); [exact D5|]. intros E. apply (f1_neq_0 K KL). rewrite <- (finv_r K KL _ D3), E. ring.
  Qed.
  (** tangent *)
  Lemma tangent_slope x y : on (x, y) -> x <> 0 -> y <> 0 -> y + 1 <> 0 ->
    (3 * (WX y * WX y) + wa) * finv (2 * WY x y) = 3 * (1 + 2 * y - a * (x * x)) * finv (x * y).
  Proof.
    intros O N Ny Ny1. assert (M := on_y1 _ _ O N). assert (A0 := ad).
    assert (Y0 : 2 * WY x y = 2 * 2 * 3 * 3 * 3 * (a - d) * (1 + y) * finv ((1 - y) * x)) by (unfold WY; field; auto).
    assert (I : finv (2 * 2 * 3 * 3 * 3 * (a - d) * (1 + y) * finv ((1 - y) * x)) = (1 - y) * x * finv (2 * 2 * 3 * 3 * 3 * (a - d) * (1 + y))).
    { assert (Q : (2 * 2 * 3 * 3 * 3 * (a - d) * (1 + y) : K) <> 0).
      { repeat apply (fmul_neq_0 K KL); auto. intros E. apply Ny1. rewrite <- E. ring. }
      revert Q. generalize (2 * 2 * 3 * 3 * 3 * (a - d) * (1 + y)). intros q Q. field. repeat split; auto. }
    rewrite Y0, I. clear Y0 I.
    assert (Q : (2 * 2 * 3 * 3 * 3 * (a - d) * (1 + y) : K) <> 0).
    { repeat apply (fmul_neq_0 K KL); auto. intros E. apply Ny1. rewrite <- E. ring. }
    apply (fmul_cancel_l K KL _ _ _ Q).
    transitivity ((3 * (WX y * WX y) + wa) * ((1 - y) * x)).
    { revert Q. generalize (2 * 2 * 3 * 3 * 3 * (a - d) * (1 + y)). intros q Q. field. exact Q. }
    unfold WX, te_wa. rewrite c27, c14, (on_a x y O N). field. auto.
  Qed.
  Lemma W_tangent x y : on (x, y) -> x <> 0 -> y <> 0 -> y + 1 <> 0 -> dens K d (x, y) (x, y) ->
    ec_add K wa (W (x, y)) (W (x, y)) = W (te_add K a d (x, y) (x, y)).
  Proof.
    intros O N Ny Ny1 [D1 D2]. cbn [fst snd] in D1, D2. assert (M := on_y1 _ _ O N). assert (A0 := ad). assert (Oc := O). cbn in Oc.
    assert (E1 : a * (x * x) + y * y <> 0) by (intros E; apply D1; rewrite <- E, Oc; ring).
    assert (E2 : 2 - (a * (x * x) + y * y) <> 0) by (intros E; apply D2; rewrite <- E, Oc; ring).
    assert (T : te_add K a d (x, y) (x, y) = (2 * x * y * finv (a * (x * x) + y * y), (y * y - a * (x * x)) * finv (2 - (a * (x * x) + y * y)))).
    { unfold te_add, fdiv. f_equal; f_equal; try ring; f_equal; rewrite Oc; ring. }
    rewrite T. clear T.
    assert (Y0 : WY x y <> 0).
    { unfold WY. assert (F1 : forall z : K, z <> 0 -> finv z <> 0).
      { intros z Nz E. apply (f1_neq_0 K KL). rewrite <- (finv_r K KL z Nz), E. ring. }
      repeat apply (fmul_neq_0 K KL); auto. intros E. apply Ny1. rewrite <- E. ring. }
    rewrite !W_eq.
    2:{ repeat apply (fmul_neq_0 K KL); auto. intros E. apply (f1_neq_0 K KL). rewrite <- (finv_r K KL _ E1), E. ring. }
    2:{ exact N. }
    rewrite (ec_tangent K KL two wa _ _ Y0). unfold ec_line, fdiv.
    rewrite (tangent_slope x y O N Ny Ny1).
    assert (Y1 : 1 - y * y <> 0) by (intros E; apply (fmul_neq_0 K KL _ _ M Ny1); rewrite <- E; ring).
    assert (U : WX ((y * y - a * (x * x)) * finv (2 - (a * (x * x) + y * y))) = 3 * (3 * ((a - d) * ((1 - a * (x * x)) * finv (1 - y * y))) + 2 * (a + d))).
    { unfold WX. field. repeat split; auto. intros E. change (2 - (a * (x * x) + y * y) - (y * y - a * (x * x)) = 0) in E. apply (fmul_neq_0 K KL 2 _ two Y1). rewrite <- E. ring. }
    assert (V : WY (2 * x * y * finv (a * (x * x) + y * y)) ((y * y - a * (x * x)) * finv (2 - (a * (x * x) + y * y))) =
      3 * 3 * 3 * ((a - d) * ((1 - a * (x * x)) * (a * (x * x) + y * y) * finv ((1 - y * y) * (x * y))))).
    { unfold WY. field. repeat split; auto. intros E. change (2 - (a * (x * x) + y * y) - (y * y - a * (x * x)) = 0) in E. apply (fmul_neq_0 K KL 2 _ two Y1). rewrite <- E. ring. }
    assert (U2 : 3 * (1 + 2 * y - a * (x * x)) * finv (x * y) * (3 * (1 + 2 * y - a * (x * x)) * finv (x * y)) - WX y - WX y =
      3 * (3 * ((a - d) * ((1 - a * (x * x)) * finv (1 - y * y))) + 2 * (a + d))).
    { unfold WX. rewrite (on_a x y O N). field. repeat split; auto. }
    rewrite U2, U, V. f_equal. clear U U2 V. unfold WX, WY. rewrite (on_a x y O N). field. repeat split; auto.
  Qed.
  (** conics *)
  Definition conic_at (czz cxy cxz x y : K) : K := czz * (1 + y) + cxy * (x * y) + cxz * x.
  Lemma conic_tangent x1 y1 x y : on (x1, y1) -> x1 <> 0 -> y1 <> 0 -> y1 + 1 <> 0 -> x <> 0 -> 1 - y <> 0 ->
    let czz := 2 * (y1 * (x1 * y1 - x1)) in
    conic_at czz (2 * (1 - a * (x1 * x1) - y1 * y1 + y1)) (2 * (a * (x1 * (x1 * y1)) - y1 * y1)) x y * (2 * 3 * 3 * 3 * (a - d)) =
    (WY x y - WY x1 y1 - (3 * (WX y1 * WX y1) + wa) * finv (2 * WY x1 y1) * (WX y - WX y1)) * (x * (1 - y) * czz).
  Proof.
    intros O N Ny Ny1 Nx Nxy czz. assert (M := on_y1 _ _ O N). rewrite (tangent_slope x1 y1 O N Ny Ny1).
    unfold conic_at, czz, WX, WY. field. auto.
  Qed.
  Lemma conic_chord x1 y1 x2 y2 x y : 1 - y1 <> 0 -> 1 - y2 <> 0 -> x1 <> 0 -> x2 <> 0 -> y2 - y1 <> 0 -> x <> 0 -> 1 - y <> 0 ->
    let czz := x1 * x2 * (y1 - y2) in
    conic_at czz (x1 - x2 + (x1 * y2 - y1 * x2)) (y1 * y2 * (x2 - x1) - (x1 * y1 - x2 * y2)) x y * (2 * 3 * 3 * 3 * (a - d)) =
    (WY x y - WY x1 y1 - (WY x2 y2 - WY x1 y1) * finv (WX y2 - WX y1) * (WX y - WX y1)) * (x * (1 - y) * czz).
  Proof.
    intros M1 M2 N1 N2 D Nx Nxy czz. assert (A0 := ad).
    assert (L : (WY x2 y2 - WY x1 y1) * finv (WX y2 - WX y1) = 3 * ((x1 * (1 + y2) * (1 - y1) - x2 * (1 + y1) * (1 - y2)) * finv (x1 * x2 * (y2 - y1)))).
    { rewrite (WX_sub y1 y2 M1 M2). unfold WY. field. repeat split; auto.
      intros E. change (2 * (1 + 2 * (2 * 2)) = (0 : K)) in E.
      apply (fmul_neq_0 K KL _ _ (fmul_neq_0 K KL _ _ two three) three). etransitivity; [|exact E]. ring. }
    rewrite L. unfold conic_at, czz, WX, WY. field. auto 6.
  Qed.
  Lemma disc : 2 * 2 * (wa * wa * wa) + 3 * 3 * 3 * (wb * wb) =
    - (2 * 2 * 2 * 2 * (3 * 3 * 3 * 3 * 3 * 3 * 3 * 3 * 3 * 3 * 3 * 3) * (a * d * ((a - d) * (a - d) * ((a - d) * (a - d))))).
  Proof. unfold te_wa, te_wb. rewrite c54, c27, c14, c34. ring. Qed.
  Lemma W_nonsingular : a <> 0 -> d <> 0 -> nonsingular K wa wb.
  Proof.
    intros Na Nd. unfold nonsingular. rewrite disc. intros E.
    assert (N : 2 * 2 * 2 * 2 * (3 * 3 * 3 * 3 * 3 * 3 * 3 * 3 * 3 * 3 * 3 * 3) * (a * d * ((a - d) * (a - d) * ((a - d) * (a - d)))) <> (0 : K)).
    { repeat apply (fmul_neq_0 K KL); assumption. }
    apply N. etransitivity; [|etransitivity; [exact (f_equal (@fopp K) E)|]]; ring.
  Qed.
  Lemma on_x y x : on (x, y) -> x <> 0 -> 1 + y <> 0.
  Proof.
    cbn. intros O N E. apply (fmul_neq_0 K KL (a - d) (x * x) ad); [apply (fmul_neq_0 K KL); exact N|].
    transitivity (a * (x * x) + y * y - (1 + d * (x * x) * (y * y)) + (1 - d * (x * x)) * (1 - y) * (1 + y)); [ring|]. rewrite O, E. ring.
  Qed.
  (** y determines x up to sign *)
  Lemma y_x x1 x2 y1 y2 : on (x1, y1) -> on (x2, y2) -> x1 <> 0 -> y1 * y1 = y2 * y2 -> x1 = x2 \/ x1 = - x2.
  Proof.
    intros O1 O2 N E. assert (S1 := on_y1 _ _ O1 N). assert (S2 := on_x _ _ O1 N). cbn in O1, O2. rewrite <- E in O2.
    assert (D : a - d * (y1 * y1) <> 0).
    { intros Z. apply (fmul_neq_0 K KL _ _ S1 S2).
      transitivity (1 - y1 * y1 - x1 * x1 * (a - d * (y1 * y1)) + (x1 * x1 * (a - d * (y1 * y1)))); [ring|]. rewrite Z.
      transitivity (1 + d * (x1 * x1) * (y1 * y1) - (a * (x1 * x1) + y1 * y1) + x1 * x1 * (a - d * (y1 * y1))); [ring|]. rewrite O1, Z. ring. }
    apply (fsqr_eq K KL). apply (fmul_cancel_l K KL _ _ _ D).
    transitivity (a * (x1 * x1) + y1 * y1 - (1 + d * (x1 * x1) * (y1 * y1)) + (1 - y1 * y1)); [ring|]. rewrite O1.
    transitivity (a * (x2 * x2) + y1 * y1 - (1 + d * (x2 * x2) * (y1 * y1)) + (1 - y1 * y1)); [rewrite O2|]; ring.
  Qed.
End EdW.

(** on a subgroup of points where the addition law is regular *)
Section SubGroup.
  Variable K : FieldOps.
  Hypothesis KL : FieldLaws K.
  Let R := FieldLaws_Ring K KL.
  Add Field Kes : (FL_th K KL).
  Hypothesis two : (2 : K) <> 0.
  Hypothesis three : (3 : K) <> 0.
  Variables a d : K.
  Hypothesis ad : a - d <> 0.
  Variable IN : K * K -> Prop.
  Hypothesis in_zero : IN te_zero.
  Hypothesis in_neg : forall P, IN P -> IN (te_neg P).
  Hypothesis in_add : forall P Q, IN P -> IN Q -> dens K d P Q /\ IN (te_add K a d P Q).
  Hypothesis in_on : forall P, IN P -> on_te K a d P.
  Hypothesis in_regular : forall P, IN P -> regular P.
  Hypothesis in_assoc : forall P Q S, IN P -> IN Q -> IN S -> te_add K a d (te_add K a d P Q) S = te_add K a d P (te_add K a d Q S).
  Hypothesis in_negr : forall P, IN P -> te_add K a d P (te_neg P) = te_zero.
  Local Notation W := (te_weier K a d).
  Local Notation wa := (te_wa K a d).
  Local Notation wb := (te_wb K a d).
  Local Notation WX := (WX K a d).
  Local Notation WY := (WY K a d).
  Lemma in_mul k P : IN P -> IN (te_mul K a d k P).
  Proof. intros I. induction k as [|k IH]; [exact in_zero|]. cbn [te_mul]. apply in_add; assumption. Qed.
  Lemma sodd_reg P : IN P -> P <> te_zero -> fst P <> 0 /\ snd P <> 0.
  Proof. intros I N. destruct (in_regular P I) as [E|E]; [contradiction|exact E]. Qed.
  Lemma sodd_x0 P : IN P -> fst P = 0 -> P = te_zero.
  Proof. intros I E. destruct (in_regular P I) as [Z|[Z _]]; [exact Z|contradiction]. Qed.
  Lemma sodd_neg P Q : IN P -> IN Q -> te_add K a d P (te_neg Q) = te_zero -> P = Q.
  Proof.
    intros IP IQ E.
    transitivity (te_add K a d (te_add K a d P (te_neg Q)) Q).
    - rewrite (in_assoc _ _ _ IP (in_neg _ IQ) IQ), (te_add_comm K KL a d (te_neg Q) Q), (in_negr _ IQ).
      rewrite (te_add_comm K KL). symmetry. apply (te_add_0l K KL).
    - rewrite E. apply (te_add_0l K KL).
  Qed.
  Lemma te_neg_neg (P : K * K) : te_neg (te_neg P) = P.
  Proof. destruct P as [x y]. cbn. f_equal. ring. Qed.
  Lemma sodd_pair x1 y1 x2 y2 : IN (x1, y1) -> IN (x2, y2) -> (x1, y1) <> te_zero -> (x2, y2) <> te_zero -> (x1, y1) <> (x2, y2) -> (x1, y1) <> te_neg (x2, y2) ->
    y1 * y1 - y2 * y2 <> 0 /\ x1 * y2 - y1 * x2 <> 0 /\ y1 * y2 + a * x1 * x2 <> 0 /\ x1 * y1 + x2 * y2 <> 0 /\ dens K d (x1, y1) (x2, y2).
  Proof.
    intros I1 I2 Z1 Z2 N M.
    assert (O1 := in_on _ I1). assert (O2 := in_on _ I2). destruct (sodd_reg _ I1 Z1) as [X1 Y1]. destruct (sodd_reg _ I2 Z2) as [X2 Y2]. cbn [fst snd] in *.
    assert (I3 : IN (te_neg (x2, y2))) by (apply (in_neg (x2, y2) I2)).
    destruct (in_add _ _ I1 I2) as ([D1 D2] & I12). destruct (in_add _ _ I1 I3) as (_ & I13).
    destruct (sodd_reg _ I12) as [S1 S2].
    { intros E. apply M. rewrite <- (te_neg_neg (x2, y2)) in E. exact (sodd_neg _ _ I1 I3 E). }
    destruct (sodd_reg _ I13) as [S3 S4].
    { intros E. apply N. exact (sodd_neg _ _ I1 I2 E). }
    cbn [te_neg te_add fst snd] in S1, S2, S3, S4, D1, D2. unfold fdiv in S1, S2, S3, S4.
    assert (A1 : x1 * y2 + y1 * x2 <> 0) by (intros E; apply S1; rewrite E; ring).
    assert (A3 : x1 * y2 - y1 * x2 <> 0).
    { intros E; apply S3. match goal with |- ?u * _ = 0 => replace u with (x1 * y2 - y1 * x2) by ring end. rewrite E; ring. }
    assert (A4 : y1 * y2 + a * x1 * x2 <> 0).
    { intros E; apply S4. match goal with |- ?u * _ = 0 => replace u with (y1 * y2 + a * x1 * x2) by ring end. rewrite E; ring. }
    assert (DD : dens K d (x1, y1) (x2, y2)) by (split; assumption).
    split; [|split; [exact A3|split; [exact A4|split; [|exact DD]]]].
    - intros E. apply (fsub_0_eq K R) in E. destruct (fsqr_eq K KL _ _ E) as [F|F]; subst y1; destruct (y_x K KL a d ad _ _ _ _ O1 O2 X1 E) as [Fx|Fx]; subst x1.
      + apply N. reflexivity.
      + apply M. reflexivity.
      + apply A1. ring.
      + apply A3. ring.
    - intros E. apply S1. assert (T := f_equal fst (add_dual K KL a d x1 y1 x2 y2 O1 O2 DD A4 A3)). cbn [te_add fst] in T. unfold fdiv in T.
      rewrite T, E. ring.
  Qed.
  Lemma W_zero : W te_zero = Inf.
  Proof. unfold te_weier, te_zero. rewrite !(feqb_refl K R). reflexivity. Qed.
  Lemma sW_aff P : IN P -> P <> te_zero -> W P = Aff (WX (snd P)) (WY (fst P) (snd P)).
  Proof. intros I Z. destruct (sodd_reg _ I Z) as [X Y]. destruct P as [x y]. apply (W_eq K KL a d x y X). Qed.
  Lemma sW_negate P : IN P -> W (te_neg P) = ec_neg (W P).
  Proof.
    intros I. destruct (feq_dec K R (fst P) 0) as [E|E].
    - rewrite (sodd_x0 P I E). replace (te_neg te_zero) with (te_zero : K * K); [rewrite W_zero; reflexivity|]. cbn. unfold te_zero. f_equal. ring.
    - destruct P as [x y]. cbn [fst] in E. cbn [te_neg]. assert (E' : - x <> 0) by (intros F; apply E; transitivity (- - x); [ring|rewrite F; ring]).
      rewrite !(W_eq K KL a d) by assumption. cbn [ec_neg]. f_equal. unfold EdwardsWeierstrass.WY.
      assert (M := on_y1 K KL a d ad x y (in_on _ I) E). field. auto.
  Qed.
  Lemma sW_odd_on P : IN P -> on_curve K wa wb (W P).
  Proof.
    intros I. destruct (feq_dec K R (fst P) 0) as [E|E]; [rewrite (sodd_x0 P I E), W_zero; exact Logic.I|].
    destruct P as [x y]. rewrite (W_eq K KL a d x y E). apply (W_on K KL a d ad x y (in_on _ I) E).
  Qed.
  Lemma sW_hom P Q : IN P -> IN Q -> ec_add K wa (W P) (W Q) = W (te_add K a d P Q).
  Proof.
    intros I1 I2.
    destruct (feq_dec K R (fst P) 0) as [Z1|Z1].
    { rewrite (sodd_x0 P I1 Z1), W_zero. transitivity (W Q); [reflexivity|]. f_equal. symmetry. apply (te_add_0l K KL). }
    destruct (feq_dec K R (fst Q) 0) as [Z2|Z2].
    { rewrite (sodd_x0 Q I2 Z2), W_zero. transitivity (W P); [destruct (W P); reflexivity|].
      f_equal. symmetry. rewrite (te_add_comm K KL). apply (te_add_0l K KL). }
    assert (N1 : P <> te_zero) by (intros E; apply Z1; rewrite E; reflexivity).
    assert (N2 : Q <> te_zero) by (intros E; apply Z2; rewrite E; reflexivity).
    assert (O1 := in_on _ I1). assert (O2 := in_on _ I2). destruct (sodd_reg _ I1 N1) as [_ Y1].
    destruct P as [x1 y1], Q as [x2 y2]. cbn [fst snd] in *.
    assert (DP : (x1, y1) = (x2, y2) \/ (x1, y1) <> (x2, y2)).
    { destruct (feq_dec K R x1 x2) as [->|N]; [|right; congruence]. destruct (feq_dec K R y1 y2) as [->|N]; [left; reflexivity|right; congruence]. }
    destruct DP as [E|N].
    { rewrite <- E. destruct (in_add _ _ I1 I1) as (DD & _).
      apply (W_tangent K KL two three a d ad); auto. assert (P1 := on_x K KL a d ad y1 x1 O1 Z1). intros F. apply P1. rewrite <- F. ring. }
    assert (DM : (x1, y1) = te_neg (x2, y2) \/ (x1, y1) <> te_neg (x2, y2)).
    { cbn [te_neg]. destruct (feq_dec K R x1 (- x2)) as [->|N']; [|right; congruence].
      destruct (feq_dec K R y1 y2) as [->|N']; [left; reflexivity|right; congruence]. }
    destruct DM as [E|M].
    { rewrite E, (sW_negate _ I2). transitivity (Inf : point K).
      - rewrite (W_eq K KL a d x2 y2 Z2). cbn [ec_neg].  apply (ec_add_opp K KL).
      - rewrite <- W_zero. f_equal. symmetry. etransitivity; [apply (te_add_comm K KL)|apply (in_negr (x2, y2) I2)]. }
    destruct (sodd_pair x1 y1 x2 y2 I1 I2 N1 N2 N M) as (A1 & A2 & A3 & A4 & A5).
    apply (W_chord K KL two three a d ad); auto.
  Qed.
  Lemma sW_mul k P : IN P -> ec_mul K wa k (W P) = W (te_mul K a d k P).
  Proof.
    intros I. induction k as [|k IH]; [symmetry; apply W_zero|]. cbn [ec_mul te_mul]. rewrite IH. apply sW_hom; [exact I|].
    apply in_mul, I.
  Qed.
End SubGroup.

(** on the points of odd order *)
Section Odd.
  Variable K : FieldOps.
  Hypothesis KL : FieldLaws K.
  Let R := FieldLaws_Ring K KL.
  Add Field Keo : (FL_th K KL).
  Hypothesis two : (2 : K) <> 0.
  Hypothesis three : (3 : K) <> 0.
  Variables a d : K.
  Hypothesis cmp : complete K d a.
  Variable n : N.
  Hypothesis odd : N.odd n = true.
  Local Notation G := (dual_group K KL two a d cmp n odd).
  Local Notation W := (te_weier K a d).
  Local Notation wa := (te_wa K a d).
  Local Notation wb := (te_wb K a d).
  Local Notation WX := (WX K a d).
  Local Notation WY := (WY K a d).
  Local Notation IN P := (@gin G P).
  Lemma odd_ad : a - d <> 0.
  Proof.
    intros E. apply (fsub_0_eq K R) in E. destruct cmp as [(s & _ & Es) N]. apply (N s). rewrite Es. symmetry. exact E.
  Qed.
  Lemma odd_d : d <> 0.
  Proof. destruct cmp as [(s & Ns & <-) _]. apply (fmul_neq_0 K KL); exact Ns. Qed.
  Lemma odd_a : a <> 0.
  Proof. intros E. destruct cmp as [_ N]. apply (N 0). rewrite E. ring. Qed.
  Definition odd_ns : nonsingular K wa wb := W_nonsingular K KL two three a d odd_ad odd_a odd_d.
  Lemma odd_on P : IN P -> on_te K a d P.
  Proof. apply (din_on K KL two a d cmp n). Qed.
  Lemma odd_reg P : IN P -> P <> te_zero -> fst P <> 0 /\ snd P <> 0.
  Proof. intros I N. destruct (din_regular K KL two a d cmp n odd P I) as [E|E]; [contradiction|exact E]. Qed.
  Lemma odd_x0 P : IN P -> fst P = 0 -> P = te_zero.
  Proof. intros I E. destruct (din_regular K KL two a d cmp n odd P I) as [Z|[Z _]]; [exact Z|contradiction]. Qed.
  Let dadd P Q (A : IN P) (B : IN Q) : dens K d P Q /\ IN (te_add K a d P Q).
  Proof. destruct (din_add K KL two a d cmp n odd P Q A B) as (D & _ & I). exact (conj D I). Qed.
  Let dreg := din_regular K KL two a d cmp n odd.
  Lemma odd_neg P Q : IN P -> IN Q -> te_add K a d P (te_neg Q) = te_zero -> P = Q.
  Proof. exact (sodd_neg K KL a d (din K KL two a d cmp n) (g_inneg G) (g_assoc G) (g_negr G) P Q). Qed.
  Lemma odd_pair x1 y1 x2 y2 : IN (x1, y1) -> IN (x2, y2) -> (x1, y1) <> te_zero -> (x2, y2) <> te_zero -> (x1, y1) <> (x2, y2) -> (x1, y1) <> te_neg (x2, y2) ->
    y1 * y1 - y2 * y2 <> 0 /\ x1 * y2 - y1 * x2 <> 0 /\ y1 * y2 + a * x1 * x2 <> 0 /\ x1 * y1 + x2 * y2 <> 0 /\ dens K d (x1, y1) (x2, y2).
  Proof. exact (sodd_pair K KL a d odd_ad (din K KL two a d cmp n) (g_inneg G) dadd odd_on dreg (g_assoc G) (g_negr G) x1 y1 x2 y2). Qed.
  Lemma W_aff P : IN P -> P <> te_zero -> W P = Aff (WX (snd P)) (WY (fst P) (snd P)).
  Proof. exact (sW_aff K KL a d (din K KL two a d cmp n) dreg P). Qed.
  Lemma W_negate P : IN P -> W (te_neg P) = ec_neg (W P).
  Proof. exact (sW_negate K KL a d odd_ad (din K KL two a d cmp n) odd_on dreg P). Qed.
  Lemma W_odd_on P : IN P -> on_curve K wa wb (W P).
  Proof. exact (sW_odd_on K KL a d odd_ad (din K KL two a d cmp n) odd_on dreg P). Qed.
  Lemma W_hom P Q : IN P -> IN Q -> ec_add K wa (W P) (W Q) = W (te_add K a d P Q).
  Proof. exact (sW_hom K KL two three a d odd_ad (din K KL two a d cmp n) (g_inneg G) dadd odd_on dreg (g_assoc G) (g_negr G) P Q). Qed.
  Lemma W_mul k P : IN P -> ec_mul K wa k (W P) = W (te_mul K a d k P).
  Proof. exact (sW_mul K KL two three a d odd_ad (din K KL two a d cmp n) (g_in0 G) (g_inneg G) dadd odd_on dreg (g_assoc G) (g_negr G) k P). Qed.
End Odd.

(** the points of odd order of a complete curve *)
Section OddComplete.
  Variable K : FieldOps.
  Hypothesis KL : FieldLaws K.
  Let R := FieldLaws_Ring K KL.
  Add Field Kec : (FL_th K KL).
  Hypothesis two : (2 : K) <> 0.
  Hypothesis three : (3 : K) <> 0.
  Variables a d : K.
  Hypothesis cmp : complete K a d.
  Variable n : N.
  Hypothesis odd : N.odd n = true.
  Definition cin (P : K * K) : Prop := on_te K a d P /\ te_mul K a d (N.to_nat n) P = te_zero.
  Local Notation G := (gtors (te_group K KL two a d cmp) n).
  Local Notation W := (te_weier K a d).
  Local Notation wa := (te_wa K a d).
  Local Notation wb := (te_wb K a d).
  Lemma cin_gin P : cin P <-> @gin G P.
  Proof. unfold cin. cbn [gin gtors te_group]. rewrite (te_gmul K KL two a d cmp). reflexivity. Qed.
  Lemma comp_ad : a - d <> 0.
  Proof. intros E. apply (fsub_0_eq K R) in E. destruct cmp as [(s & _ & Es) N]. apply (N s). rewrite Es. exact E. Qed.
  Lemma comp_a : a <> 0.
  Proof. destruct cmp as [(s & Ns & <-) _]. apply (fmul_neq_0 K KL); exact Ns. Qed.
  Lemma comp_d : d <> 0.
  Proof. intros E. destruct cmp as [_ N]. apply (N 0). rewrite E. ring. Qed.
  Definition comp_ns : nonsingular K wa wb := W_nonsingular K KL two three a d comp_ad comp_a comp_d.
  Lemma cin_zero : cin te_zero.
  Proof. apply cin_gin, (g_in0 G). Qed.
  Lemma cin_neg P : cin P -> cin (te_neg P).
  Proof. rewrite !cin_gin. apply (g_inneg G). Qed.
  Lemma cin_add P Q : cin P -> cin Q -> dens K d P Q /\ cin (te_add K a d P Q).
  Proof.
    intros A B. split; [|apply cin_gin, (g_inadd G); apply cin_gin; assumption].
    destruct P as [x1 y1], Q as [x2 y2]. split; [apply (te_den_p K KL two a d cmp)|apply (te_den_m K KL two a d cmp)]; solve [apply A|apply B].
  Qed.
  Lemma cin_on P : cin P -> on_te K a d P.
  Proof. intros [A _]. exact A. Qed.
  Lemma cin_regular P : cin P -> regular P.
  Proof. intros A. apply cin_gin in A. apply (odd_regular K KL two a d cmp n P odd); apply A. Qed.
  Lemma cin_assoc P Q S : cin P -> cin Q -> cin S -> te_add K a d (te_add K a d P Q) S = te_add K a d P (te_add K a d Q S).
  Proof. rewrite !cin_gin. apply (g_assoc G). Qed.
  Lemma cin_negr P : cin P -> te_add K a d P (te_neg P) = te_zero.
  Proof. rewrite !cin_gin. apply (g_negr G). Qed.
  Lemma cW_aff P : cin P -> P <> te_zero -> W P = Aff (WX K a d (snd P)) (WY K a d (fst P) (snd P)).
  Proof. exact (sW_aff K KL a d cin cin_regular P). Qed.
  Lemma cW_negate P : cin P -> W (te_neg P) = ec_neg (W P).
  Proof. exact (sW_negate K KL a d comp_ad cin cin_on cin_regular P). Qed.
  Lemma cW_on P : cin P -> on_curve K wa wb (W P).
  Proof. exact (sW_odd_on K KL a d comp_ad cin cin_on cin_regular P). Qed.
  Lemma cW_hom P Q : cin P -> cin Q -> ec_add K wa (W P) (W Q) = W (te_add K a d P Q).
  Proof. exact (sW_hom K KL two three a d comp_ad cin cin_neg cin_add cin_on cin_regular cin_assoc cin_negr P Q). Qed.
  Lemma cW_mul k P : cin P -> ec_mul K wa k (W P) = W (te_mul K a d k P).
  Proof. exact (sW_mul K KL two three a d comp_ad cin cin_zero cin_neg cin_add cin_on cin_regular cin_assoc cin_negr k P). Qed.
End OddComplete.
