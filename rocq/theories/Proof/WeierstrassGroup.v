(** The chord-and-tangent law is a commutative group (non-singular curve,
    characteristic other than 2).  Chords and tangents are treated together:
    a line of slope l meeting the curve in x1, x2 and the third point. *)
From Coq Require Import ZArith NArith List Bool Lia Ring Field.
From Verif Require Import Base.Field Spec.Weierstrass Proof.WeierstrassCoords.
Local Open Scope fld_scope.

Section Group.
  Variable K : FieldOps.
  Hypothesis KL : FieldLaws K.
  Let R := FieldLaws_Ring K KL.
  Add Field Kg : (FL_th K KL).
  Hypothesis two : (2 : K) <> 0.
  Variables a b : K.
  Local Notation on := (on_curve K a b).
  Local Notation "P ⊕ Q" := (ec_add K a P Q) (at level 50, left associativity).
  (** no singular point *)
  Hypothesis ns : forall x, on (Aff x 0) -> 3 * (x * x) + a <> 0.

  Definition slope (x1 y1 x2 y2 l : K) : Prop :=
    y2 = y1 + l * (x2 - x1) /\
    a = x1 * x2 + (x1 + x2) * (l * l - x1 - x2) + 2 * l * (y1 - l * x1).
  Lemma slope_sym x1 y1 x2 y2 l : slope x1 y1 x2 y2 l -> slope x2 y2 x1 y1 l.
  Proof. intros [-> H]. split; [ring|rewrite H; ring]. Qed.
  Lemma slope_exists x1 y1 x2 y2 : on (Aff x1 y1) -> on (Aff x2 y2) -> ~ (x1 = x2 /\ y1 = - y2) ->
    exists l, slope x1 y1 x2 y2 l.
  Proof.
    intros H1 H2 N. destruct (feq_dec K R x1 x2) as [E|E].
    - subst x2. assert (E2 : y1 = y2).
      { destruct (feq_dec K R y1 y2) as [E|E]; [exact E|]. exfalso. apply N. split; [reflexivity|].
        apply (sq_eq_on K KL a b x1); assumption. }
      subst y2. assert (Ny : y1 <> 0) by (intros ->; apply N; split; ring).
      exists (fdiv (3 * (x1 * x1) + a) (2 * y1)). split; [ring|]. unfold fdiv. field. auto.
    - assert (Nx : x2 - x1 <> 0) by (apply (neq_sub K KL); congruence).
      exists (fdiv (y2 - y1) (x2 - x1)). split; [unfold fdiv; field; exact Nx|].
      cbn in H1, H2.
      assert (Ha : a = fdiv (y2 * y2 - y1 * y1 - (x2 * x2 * x2 - x1 * x1 * x1)) (x2 - x1)).
      { unfold fdiv. rewrite H1, H2. field. exact Nx. }
      rewrite Ha. unfold fdiv. field. exact Nx.
  Qed.
  Lemma slope_add x1 y1 x2 y2 l : slope x1 y1 x2 y2 l -> ~ (x1 = x2 /\ y1 = - y2) ->
    Aff x1 y1 ⊕ Aff x2 y2 = Aff (l * l - x1 - x2) (l * (x1 - (l * l - x1 - x2)) - y1).
  Proof.
    intros [S1 S2] N. cbn [ec_add]. unfold ec_line.
    destruct (feqb_spec K R x1 x2) as [E|E].
    - subst x2. assert (E2 : y2 = y1) by (rewrite S1; ring). clear S1. subst y2.
      destruct (feqb_spec K R y1 (- y1)) as [E|E]; [exfalso; apply N; auto|].
      assert (Ny : y1 <> 0) by (intros ->; apply E; ring).
      assert (L : fdiv (3 * (x1 * x1) + a) (2 * y1) = l).
      { unfold fdiv. rewrite S2. field. auto. }
      rewrite L. reflexivity.
    - assert (Nx : x2 - x1 <> 0) by (apply (neq_sub K KL); congruence).
      assert (L : fdiv (y2 - y1) (x2 - x1) = l) by (rewrite S1; unfold fdiv; field; exact Nx).
      rewrite L. reflexivity.
  Qed.
  (** any pair on the curve: opposite, or on a line *)
  Lemma ec_add_cases x1 y1 x2 y2 : on (Aff x1 y1) -> on (Aff x2 y2) ->
    (x1 = x2 /\ y1 = - y2) \/
    (~ (x1 = x2 /\ y1 = - y2) /\ exists l, slope x1 y1 x2 y2 l /\
       Aff x1 y1 ⊕ Aff x2 y2 = Aff (l * l - x1 - x2) (l * (x1 - (l * l - x1 - x2)) - y1)).
  Proof.
    intros H1 H2.
    assert (D : (x1 = x2 /\ y1 = - y2) \/ ~ (x1 = x2 /\ y1 = - y2)).
    { destruct (feq_dec K R x1 x2), (feq_dec K R y1 (- y2)); tauto. }
    destruct D as [D|D]; [left; exact D|right; split; [exact D|]].
    destruct (slope_exists x1 y1 x2 y2 H1 H2 D) as [l S]. exists l. split; [exact S|]. apply slope_add; assumption.
  Qed.
  Lemma ec_add_opp x y : Aff x (- y) ⊕ Aff x y = Inf.
  Proof. cbn [ec_add]. rewrite !(feqb_refl K R). reflexivity. Qed.
  Lemma ec_add_opp_r x y : Aff x y ⊕ Aff x (- y) = Inf.
  Proof. cbn [ec_add]. rewrite (feqb_refl K R), (eqb_t K KL y (- - y)) by ring. reflexivity. Qed.
  Lemma ec_add_opp' x y y' : y = - y' -> Aff x y ⊕ Aff x y' = Inf.
  Proof. intros ->. apply ec_add_opp. Qed.

  Lemma ec_add_inf_r P : P ⊕ Inf = P.
  Proof. destruct P; reflexivity. Qed.
  Lemma ec_add_comm P Q : on P -> on Q -> P ⊕ Q = Q ⊕ P.
  Proof.
    destruct P as [|x1 y1], Q as [|x2 y2]; try reflexivity. intros H1 H2.
    destruct (ec_add_cases x1 y1 x2 y2 H1 H2) as [[-> ->]|(N & l & S & E)].
    - rewrite ec_add_opp, ec_add_opp_r. reflexivity.
    - rewrite E. rewrite (slope_add x2 y2 x1 y1 l (slope_sym _ _ _ _ _ S)).
      + destruct S as [-> _]. f_equal; ring.
      + intros [-> ->]. apply N. split; ring.
  Qed.
  Lemma ec_add_neg_r P : P ⊕ ec_neg P = Inf.
  Proof. destruct P as [|x y]; [reflexivity|]. apply ec_add_opp_r. Qed.
  Lemma ec_neg_neg P : ec_neg (ec_neg P) = P :> point K.
  Proof. destruct P as [|x y]; [reflexivity|]. cbn. f_equal. ring. Qed.
  Lemma ec_neg_add P Q : on P -> on Q -> ec_neg (P ⊕ Q) = ec_neg P ⊕ ec_neg Q.
  Proof.
    destruct P as [|x1 y1], Q as [|x2 y2]; try reflexivity. intros H1 H2.
    destruct (ec_add_cases x1 y1 x2 y2 H1 H2) as [[-> ->]|(N & l & S & E)].
    - rewrite ec_add_opp. cbn [ec_neg]. rewrite ec_add_opp'; [reflexivity|ring].
    - rewrite E. cbn [ec_neg]. rewrite (slope_add x1 (- y1) x2 (- y2) (- l)).
      + f_equal; ring.
      + destruct S as [-> S]. split; [ring|rewrite S; ring].
      + intros [Ex Ey]. apply N. split; [exact Ex|]. transitivity (- - y1); [ring|rewrite Ey; ring].
  Qed.
  Lemma ec_add_not_fix x1 y1 x2 y2 : on (Aff x1 y1) -> on (Aff x2 y2) -> Aff x1 y1 ⊕ Aff x2 y2 <> Aff x1 y1.
  Proof.
    intros H1 H2 E. destruct (ec_add_cases x1 y1 x2 y2 H1 H2) as [[-> ->]|(N & l & [S1 S2] & E')].
    { rewrite ec_add_opp in E. discriminate. }
    rewrite E' in E. injection E as Ex Ey. rewrite Ex in Ey.
    assert (Y0 : y1 = 0) by (apply (self_opp K KL two); rewrite <- Ey at 1; ring). subst y1.
    apply (ns x1 H1). assert (L : l * l = x1 + x1 + x2) by (rewrite <- Ex at 2; ring).
    rewrite S2. transitivity (3 * (x1 * x1) + (x1 * x2 + (x1 + x2) * (l * l - x1 - x2) - 2 * (l * l) * x1)); [ring|].
    rewrite L. ring.
  Qed.
  (** - A + (A + C) = C *)
  Lemma ec_add_cancel P Q : on P -> on Q -> ec_neg P ⊕ (P ⊕ Q) = Q.
  Proof.
    destruct P as [|x1 y1]; [reflexivity|]. destruct Q as [|x2 y2].
    { intros _ _. cbn [ec_add ec_neg]. apply ec_add_opp. }
    intros H1 H2. destruct (ec_add_cases x1 y1 x2 y2 H1 H2) as [[-> ->]|(N & l & [S1 S2] & E)].
    { rewrite ec_add_opp, ec_add_inf_r. cbn. f_equal. ring. }
    assert (F := ec_add_not_fix x1 y1 x2 y2 H1 H2). rewrite E in *. cbn [ec_neg].
    set (x3 := l * l - x1 - x2) in *. set (y3 := l * (x1 - x3) - y1) in *.
    rewrite (slope_add x1 (- y1) x3 y3 (- l)).
    - unfold y3, x3. rewrite S1. f_equal; ring.
    - unfold y3. split; [ring|]. rewrite S2. unfold x3. ring.
    - intros [Ex Ey]. apply F. rewrite Ex. f_equal. transitivity (- - y3); [ring|rewrite <- Ey; ring].
  Qed.

  (** two lines through B *)
  Lemma two_lines x1 y1 x2 y2 x3 y3 l m : slope x1 y1 x2 y2 l -> slope x2 y2 x3 y3 m ->
    2 * (l - m) * y2 + l * l * (x1 - x2) - m * m * (x3 - x2) + (x3 - x1) * (x1 + x2 + x3) = 0.
  Proof.
    intros [S1 S2] [T1 T2].
    assert (Y1 : y1 = y2 - l * (x2 - x1)) by (rewrite S1; ring). rewrite Y1 in S2. clear S1 Y1.
    match type of S2 with a = ?e => match type of T2 with a = ?f =>
      assert (Z : e - f = 0) by (rewrite <- S2, <- T2; ring) end end.
    rewrite <- Z. ring.
  Qed.
  Lemma fprod_0 (x y : K) : x * y = 0 -> y <> 0 -> x = 0.
  Proof. intros E N. apply (fmul_integral K KL) in E. tauto. Qed.

  Lemma assoc_chord l m x1 x2 x3 y1 y2 y3 : l - m <> 0 -> slope x1 y1 x2 y2 l -> slope x2 y2 x3 y3 m ->
    let x12 := l * l - x1 - x2 in let y12 := l * (x1 - x12) - y1 in
    let x23 := m * m - x2 - x3 in let y23 := m * (x2 - x23) - y2 in
    x3 - x12 <> 0 -> x23 - x1 <> 0 ->
    ec_line (fdiv (y3 - y12) (x3 - x12)) x12 y12 x3 = ec_line (fdiv (y23 - y1) (x23 - x1)) x1 y1 x23.
  Proof.
    intros N S T x12 y12 x23 y23 N1 N2. assert (C := two_lines _ _ _ _ _ _ _ _ S T).
    destruct S as [S1 _], T as [T1 _].
    assert (Y2 : y2 = fdiv (m * m * (x3 - x2) - l * l * (x1 - x2) - (x3 - x1) * (x1 + x2 + x3)) (2 * (l - m))).
    { unfold fdiv. transitivity ((2 * (l - m) * y2) * finv (2 * (l - m))); [field; auto|]. f_equal.
      transitivity (2 * (l - m) * y2 - 0); [ring|rewrite <- C; ring]. }
    assert (Y1 : y1 = y2 - l * (x2 - x1)) by (rewrite S1; ring).
    rewrite T1. clear S1 T1 C.
    unfold ec_line, fdiv in *. unfold y12, y23 in *. rewrite Y1, Y2. unfold x12, x23 in *.
    f_equal; field; repeat split; auto.
  Qed.

  (** C = A + B *)
  Lemma tan_y2 l m x1 x2 x3 y1 y2 y3 : slope x1 y1 x2 y2 l -> slope x2 y2 x3 y3 m ->
    x3 = l * l - x1 - x2 -> y3 = l * (x1 - x3) - y1 -> 2 * y2 = - (m + l) * (x3 - x2).
  Proof.
    intros [S1 _] [T1 _] _ H. assert (Y1 : y1 = y2 - l * (x2 - x1)) by (rewrite S1; ring).
    rewrite Y1 in H.
    assert (Z : y2 + m * (x3 - x2) - (l * (x1 - x3) - (y2 - l * (x2 - x1))) = 0) by (rewrite <- H, T1; ring).
    transitivity (y2 + m * (x3 - x2) - (l * (x1 - x3) - (y2 - l * (x2 - x1))) - (m + l) * (x3 - x2)); [ring|].
    rewrite Z. ring.
  Qed.
  Lemma assoc_tan l m x1 x2 x3 y1 y2 y3 : slope x1 y1 x2 y2 l -> slope x2 y2 x3 y3 m ->
    x3 = l * l - x1 - x2 -> y3 = l * (x1 - x3) - y1 ->
    let x23 := m * m - x2 - x3 in let y23 := m * (x2 - x23) - y2 in
    y3 <> 0 -> x23 - x1 <> 0 ->
    ec_line (fdiv (3 * (x3 * x3) + a) (2 * y3)) x3 y3 x3 = ec_line (fdiv (y23 - y1) (x23 - x1)) x1 y1 x23.
  Proof.
    intros S T X3 Y3 x23 y23 Ny N2. assert (C := tan_y2 _ _ _ _ _ _ _ _ S T X3 Y3).
    destruct S as [S1 S2], T as [T1 _].
    assert (Y2 : y2 = fdiv (- (m + l) * (x3 - x2)) 2).
    { rewrite <- C. unfold fdiv. field. exact two. }
    assert (Y1 : y1 = y2 - l * (x2 - x1)) by (rewrite S1; ring).
    assert (E3 : y3 = fdiv ((m - l) * (x3 - x2)) 2) by (rewrite T1, Y2; unfold fdiv; field; exact two).
    rewrite Y1 in S2. rewrite S2, E3, Y1. rewrite E3 in Ny. clear S1 S2 T1 C Y1 Y3 E3.
    unfold y23. rewrite Y2. clear Y2. unfold x23 in *. rewrite X3 in N2, Ny |- *. clear X3.
    assert (NN : (m - l) * (l * l - x1 - x2 - x2) <> 0).
    { intros Z. apply Ny. rewrite Z. unfold fdiv. field. exact two. }
    assert (NA : m - l <> 0) by (intros Z; apply NN; rewrite Z; ring).
    assert (NB : l * l - x1 - x2 - x2 <> 0) by (intros Z; apply NN; rewrite Z; ring).
    assert (NC : m * m - l * l <> 0) by (intros Z; apply N2; rewrite <- Z; ring).
    unfold ec_line, fdiv. f_equal; field; repeat split; auto;
      intros Z; first [apply NA; rewrite <- Z; ring | apply NB; rewrite <- Z; ring | apply NC; rewrite <- Z; ring].
  Qed.
  Lemma assoc_tan2 l m x1 x2 x3 y1 y2 y3 : l - m <> 0 -> slope x1 y1 x2 y2 l -> slope x2 y2 x3 y3 m ->
    x3 = l * l - x1 - x2 -> y3 = l * (x1 - x3) - y1 ->
    x1 = m * m - x2 - x3 -> y1 = m * (x2 - x1) - y2 -> y3 <> 0 -> y1 <> 0 ->
    ec_line (fdiv (3 * (x3 * x3) + a) (2 * y3)) x3 y3 x3 = ec_line (fdiv (3 * (x1 * x1) + a) (2 * y1)) x1 y1 x1.
  Proof.
    intros N S T X3 Y3 X1 Y1 N3 N1. assert (C := tan_y2 _ _ _ _ _ _ _ _ S T X3 Y3).
    destruct S as [S1 S2], T as [T1 _].
    assert (ML : m = - l).
    { apply (fsub_0_eq K R). apply (fprod_0 _ (m - l)).
      - transitivity ((m * m - x2 - x3 - x1) - (l * l - x1 - x2 - x3)); [ring|]. rewrite <- X1, <- X3. ring.
      - intros Z. apply N. transitivity (- (m - l)); [ring|rewrite Z; ring]. }
    subst m.
    assert (Y2 : y2 = 0).
    { apply (fprod_0 _ 2); [|exact two]. transitivity (2 * y2); [ring|rewrite C; ring]. }
    rewrite Y2 in S1, T1. clear C Y1 X1 Y3 Y2.
    assert (E1 : y1 = - l * (x2 - x1)) by (transitivity (y1 + l * (x2 - x1) - l * (x2 - x1)); [ring|rewrite <- S1; ring]).
    assert (E3 : y3 = - l * (x3 - x2)) by (rewrite T1; ring).
    rewrite E1 in S2, N1. rewrite E3 in N3. rewrite S2, E1, E3. rewrite X3 in N3 |- *. clear X3 S1 S2 T1 E1 E3.
    assert (NL : l <> 0) by (intros ->; apply N1; ring).
    assert (NA : x2 - x1 <> 0) by (intros Z; apply N1; rewrite Z; ring).
    assert (NB : l * l - x1 - x2 - x2 <> 0) by (intros Z; apply N3; rewrite Z; ring).
    unfold ec_line, fdiv. f_equal; field; repeat split; auto;
      intros Z; first [apply NA; rewrite <- Z; ring | apply NB; rewrite <- Z; ring | apply NL; rewrite <- Z; ring | apply NA; apply (fopp_0_inv K R); rewrite <- Z; ring | apply NB; apply (fopp_0_inv K R); rewrite <- Z; ring | apply NL; apply (fopp_0_inv K R); rewrite <- Z; ring].
  Qed.
  (** collinear A, B, C *)
  Lemma collinear x1 y1 x2 y2 x3 y3 l : slope x1 y1 x2 y2 l -> slope x2 y2 x3 y3 l ->
    Aff x1 y1 = Aff x3 y3 \/ (l * l - x1 - x2 = x3 /\ l * (x1 - x3) - y1 = - y3).
  Proof.
    intros S T. assert (C := two_lines _ _ _ _ _ _ _ _ S T).
    destruct S as [S1 _], T as [T1 _].
    assert (Z : (x3 - x1) * (l * l - x1 - x2 - x3) = 0).
    { transitivity (- (2 * (l - l) * y2 + l * l * (x1 - x2) - l * l * (x3 - x2) + (x3 - x1) * (x1 + x2 + x3))); [ring|].
      rewrite C. ring. }
    apply (fmul_integral K KL) in Z. destruct Z as [Z|Z]; apply (fsub_0_eq K R) in Z.
    - left. subst x3. f_equal. rewrite T1, S1. ring.
    - right. split; [exact Z|]. rewrite T1, S1. ring.
  Qed.

  Lemma ec_chord x1 y1 x2 y2 : x2 - x1 <> 0 -> Aff x1 y1 ⊕ Aff x2 y2 = ec_line (fdiv (y2 - y1) (x2 - x1)) x1 y1 x2.
  Proof.
    intros N. cbn [ec_add]. rewrite (eqb_f K KL x1 x2); [reflexivity|]. intros ->. apply N. ring.
  Qed.
  Lemma ec_tangent x y : y <> 0 -> Aff x y ⊕ Aff x y = ec_line (fdiv (3 * (x * x) + a) (2 * y)) x y x.
  Proof.
    intros N. cbn [ec_add]. rewrite (feqb_refl K R), (eqb_f K KL y (- y)); [reflexivity|].
    intros E. exact (N (self_opp K KL two y E)).
  Qed.
  Lemma on_add P Q : on P -> on Q -> on (P ⊕ Q).
  Proof. apply (ec_add_on K KL two). Qed.
  Lemma on_neg P : on P -> on (ec_neg P).
  Proof. apply (ec_neg_on K KL). Qed.
  (** equal, opposite or different abscissae *)
  Lemma ec_trichotomy x1 y1 x2 y2 : on (Aff x1 y1) -> on (Aff x2 y2) ->
    (x1 = x2 /\ y1 = - y2) \/ (x1 = x2 /\ y1 = y2 /\ y1 <> 0) \/ x2 - x1 <> 0.
  Proof.
    intros H1 H2. destruct (feq_dec K R x1 x2) as [->|N].
    - destruct (feq_dec K R y1 (- y2)) as [E|E]; [left; auto|right; left].
      assert (y1 = y2).
      { destruct (feq_dec K R y1 y2) as [E'|E']; [exact E'|]. exfalso. apply E, (sq_eq_on K KL a b x2); assumption. }
      subst y2. split; [reflexivity|]. split; [reflexivity|]. intros ->. apply E. ring.
    - right; right. apply (neq_sub K KL). congruence.
  Qed.
  Lemma neg_Aff (P : point K) x y : P = Aff x (- y) -> ec_neg P = Aff x y.
  Proof. intros ->. cbn. f_equal. ring. Qed.
  Lemma ec_add_inf P Q : on P -> on Q -> P ⊕ Q = Inf -> Q = ec_neg P.
  Proof. intros HP HQ E. rewrite <- (ec_add_cancel P Q HP HQ), E, ec_add_inf_r. reflexivity. Qed.

  Theorem ec_add_assoc P Q S : on P -> on Q -> on S -> P ⊕ Q ⊕ S = P ⊕ (Q ⊕ S).
  Proof.
    intros HP HQ HS.
    (* sums equal to the identity *)
    assert (I1 : forall A B C, on A -> on B -> on C -> A ⊕ B = Inf -> A ⊕ B ⊕ C = A ⊕ (B ⊕ C)).
    { intros A B C HA HB HC E. rewrite E. cbn [ec_add]. rewrite (ec_add_inf A B HA HB E).
      rewrite <- (ec_neg_neg A) at 1. symmetry. apply (ec_add_cancel (ec_neg A)); [apply on_neg, HA|exact HC]. }
    assert (I2 : forall A B C, on A -> on B -> on C -> A ⊕ B ⊕ C = Inf -> A ⊕ B ⊕ C = A ⊕ (B ⊕ C)).
    { intros A B C HA HB HC E. rewrite E.
      rewrite (ec_add_inf (A ⊕ B) C (on_add A B HA HB) HC E), (ec_neg_add A B HA HB).
      rewrite (ec_add_comm (ec_neg A)) by (apply on_neg; assumption).
      rewrite <- (ec_neg_neg B) at 1. rewrite ec_add_cancel by (apply on_neg; assumption).
      rewrite ec_add_neg_r. reflexivity. }
    assert (SW : forall A B C, on A -> on B -> on C -> C ⊕ B ⊕ A = C ⊕ (B ⊕ A) -> A ⊕ B ⊕ C = A ⊕ (B ⊕ C)).
    { intros A B C HA HB HC E. rewrite (ec_add_comm (A ⊕ B) C) by (auto; apply on_add; auto).
      rewrite (ec_add_comm A B), <- E by auto. rewrite (ec_add_comm B C) by auto.
      apply ec_add_comm; auto. apply on_add; auto. }
    destruct P as [|x1 y1]; [reflexivity|]. destruct Q as [|x2 y2]; [rewrite ec_add_inf_r; reflexivity|].
    destruct S as [|x3 y3]; [rewrite !ec_add_inf_r; reflexivity|].
    destruct (ec_add_cases x1 y1 x2 y2 HP HQ) as [[-> ->]|(N12 & l & S12 & E12)];
      [apply I1; auto; apply ec_add_opp|].
    destruct (ec_add_cases x2 y2 x3 y3 HQ HS) as [[-> ->]|(N23 & m & S23 & E23)].
    { apply SW; auto. apply I1; auto. apply ec_add_opp_r. }
    assert (O12 := on_add _ _ HP HQ). assert (O23 := on_add _ _ HQ HS). rewrite E12 in O12. rewrite E23 in O23.
    destruct (ec_trichotomy _ _ _ _ O12 HS) as [[X Y]|A1].
    { apply I2; auto. rewrite E12. rewrite X in Y |- *. rewrite Y. apply ec_add_opp. }
    destruct (ec_trichotomy _ _ _ _ HP O23) as [[X Y]|A2].
    { apply SW; auto. apply I2; auto. rewrite (ec_add_comm (Aff x3 y3)), E23 by auto.
      rewrite <- X in Y |- *. apply ec_add_opp'. rewrite Y. ring. }
    destruct (feq_dec K R (l - m) 0) as [L|L].
    { apply (fsub_0_eq K R) in L. subst m. destruct (collinear _ _ _ _ _ _ _ S12 S23) as [E|[X Y]].
      - rewrite <- E in *. rewrite (ec_add_comm _ (Aff x1 y1)) by (auto; apply on_add; auto). f_equal. apply ec_add_comm; auto.
      - exfalso. destruct A1 as [(X' & Y' & Ny)|A1].
        + rewrite X, Y in Y'. rewrite X, Y in Ny. apply Ny. transitivity (- y3); [reflexivity|].
          symmetry in Y'. rewrite (self_opp K KL two _ Y'). ring.
        + apply A1. rewrite X. ring. }
    rewrite E12, E23.
    destruct A1 as [(X & Y & Ny)|A1], A2 as [(X' & Y' & Ny')|A2].
    - rewrite X in Y. rewrite X, Y. rewrite <- X' in Y'. rewrite <- X', <- Y'. rewrite X in Ny. rewrite Y in Ny.
      rewrite !ec_tangent by assumption. eapply assoc_tan2; eauto.
    - rewrite X in Y, Ny. rewrite X, Y. rewrite Y in Ny. rewrite ec_tangent, ec_chord by assumption. eapply assoc_tan; eauto.
    - rewrite <- X' in Y'. rewrite <- X', <- Y'. rewrite ec_tangent by assumption.
      rewrite (ec_add_comm _ (Aff x3 y3)), <- E12 by auto. rewrite (ec_add_comm (Aff x1 y1)), (slope_add x2 y2 x1 y1 l) by
        (auto using slope_sym; intros [-> ->]; apply N12; split; ring).
      assert (T12 := slope_sym _ _ _ _ _ S12). assert (T23 := slope_sym _ _ _ _ _ S23).
      assert (XX : l * l - x2 - x1 = l * l - x1 - x2) by ring.
      rewrite ec_chord by (rewrite XX; intros Z; apply A1; transitivity (- (l * l - x1 - x2 - x3)); [ring|rewrite Z; ring]).
      symmetry. apply (assoc_tan m l x3 x2 x1 y3 y2 y1); auto.
      + rewrite X' at 1. ring.
      + rewrite Y' at 1. destruct S23 as [-> _]. ring.
      + rewrite XX. intros Z; apply A1; transitivity (- (l * l - x1 - x2 - x3)); [ring|rewrite Z; ring].
    - rewrite !ec_chord by assumption. apply (assoc_chord l m x1 x2 x3 y1 y2 y3); auto.
  Qed.
End Group.
