(** The function h_(A,B) = line(A, B) / vertical(A + B), with divisor (A) + (B) - (A + B) - (O):
    the cocycle identity and the reciprocity law. *)
From Coq Require Import ZArith NArith List Bool Lia Ring Field.
From Verif Require Import Base.Field Base.Ext Base.Hom Spec.Group Spec.Weierstrass Spec.Pairing Proof.WeierstrassCoords Proof.WeierstrassGroup Proof.WeierstrassRep.
Local Open Scope fld_scope.

Section Laws.
  Variable K : FieldOps.
  Hypothesis KL : FieldLaws K.
  Let R := FieldLaws_Ring K KL.
  Add Field Kml : (FL_th K KL).
  Hypothesis two : (2 : K) <> 0.
  Variables a b : K.
  Hypothesis ns : nonsingular K a b.
  Local Notation on := (on_curve K a b).
  Local Notation "P ⊕ Q" := (ec_add K a P Q) (at level 50, left associativity).
  Let G := sw_group K KL two a b ns.

  Definition px (P : point K) : K := match P with Inf => 0 | Aff x _ => x end.
  Definition py (P : point K) : K := match P with Inf => 0 | Aff _ y => y end.
  Definition hfun (A B S : point K) : K :=
    match A, B with Inf, _ => 1 | _, Inf => 1 | _, _ => fdiv (line K a A B S) (vertical K (A ⊕ B) S) end.

  Lemma eta P : P <> Inf -> P = Aff (px P) (py P).
  Proof. destruct P; [congruence|reflexivity]. Qed.
  Lemma neg_inf (P : point K) : ec_neg P = Inf -> P = Inf.
  Proof. destruct P; [reflexivity|discriminate]. Qed.
  Lemma px_neg P : px (ec_neg P) = px P.
  Proof. destruct P; reflexivity. Qed.
  Lemma py_neg P : py (ec_neg P) = - py P.
  Proof. destruct P; cbn; [ring|reflexivity]. Qed.
  Lemma same_x P Q : on P -> on Q -> P <> Inf -> Q <> Inf -> px P = px Q -> Q = P \/ Q = ec_neg P.
  Proof.
    intros O1 O2 N1 N2 E. destruct P as [|x y], Q as [|x' y']; try congruence. cbn in E. subst x'.
    destruct (feq_dec K R y y') as [->|N]; [left; reflexivity|right]. cbn. f_equal.
    assert (E := sq_eq_on K KL a b x y y' O1 O2 N). rewrite E. ring.
  Qed.

  Definition Ln (l m : K) (A B C : point K) : Prop :=
    py A = l * px A + m /\ py B = l * px B + m /\ py C = l * px C + m /\
    l * l = px A + px B + px C /\ a - 2 * (l * m) = px A * px B + px A * px C + px B * px C /\ m * m - b = px A * px B * px C.
  Lemma Ln_12 l m A B C : Ln l m A B C -> Ln l m B A C.
  Proof. intros (E1 & E2 & E3 & E4 & E5 & E6). repeat split; auto; [rewrite E4|rewrite E5|rewrite E6]; ring. Qed.
  Lemma Ln_23 l m A B C : Ln l m A B C -> Ln l m A C B.
  Proof. intros (E1 & E2 & E3 & E4 & E5 & E6). repeat split; auto; [rewrite E4|rewrite E5|rewrite E6]; ring. Qed.
  Lemma Ln_neg l m A B C : Ln l m A B C -> Ln (- l) (- m) (ec_neg A) (ec_neg B) (ec_neg C).
  Proof.
    intros (E1 & E2 & E3 & E4 & E5 & E6). unfold Ln. rewrite !px_neg, !py_neg, E1, E2, E3.
    repeat split; try ring; [rewrite <- E4|rewrite <- E5|rewrite <- E6]; ring.
  Qed.
  Lemma Ln_poly l m A B C x : Ln l m A B C -> x * x * x + a * x + b - (l * x + m) * (l * x + m) = (x - px A) * (x - px B) * (x - px C).
  Proof.
    intros (_ & _ & _ & E4 & E5 & E6).
    transitivity (x * x * x - (l * l) * (x * x) + (a - 2 * (l * m)) * x - (m * m - b)); [ring|]. rewrite E4, E5, E6. ring.
  Qed.
  Lemma sub0 (x y : K) : x - y = 0 -> x = y.
  Proof. apply (fsub_0_eq K R). Qed.
  Lemma cancel (z x : K) : z <> 0 -> z * x = 0 -> x = 0.
  Proof. intros N E. destruct (fmul_integral K KL _ _ E); congruence. Qed.
  Lemma Ln_uniq l m l' m' A B C : Ln l m A B C -> Ln l' m' A B C -> on A -> on B -> A <> Inf -> B <> Inf -> B <> ec_neg A -> l = l' /\ m = m'.
  Proof.
    intros (E1 & E2 & E3 & E4 & E5 & E6) (F1 & F2 & F3 & F4 & F5 & F6) OA OB NA NB ND.
    assert (Q : l = l' -> l = l' /\ m = m').
    { intros <-. split; [reflexivity|]. transitivity (py A - l * px A); [rewrite E1; ring|rewrite F1; ring]. }
    apply Q. destruct (feq_dec K R l l') as [E|N]; [exact E|]. exfalso.
    assert (N' : l - l' <> 0) by (intros Z; apply N, sub0, Z).
    destruct (feq_dec K R (px A) (px B)) as [X|X].
    - destruct (same_x A B OA OB NA NB X) as [->|]; [|congruence].
      assert (Ny : py A <> 0).
      { intros Z. apply ND. destruct A as [|x y]; [reflexivity|]. cbn in Z |- *. subst y. f_equal. ring. }
      assert (S : l + l' = 0).
      { apply (cancel (l - l') _ N'). transitivity (l * l - l' * l'); [ring|]. rewrite E4, F4. ring. }
      assert (L : l' = - l) by (apply sub0; transitivity (l + l'); [ring|exact S]).
      assert (Nl : 2 * l <> 0). { intros Z. apply N'. rewrite L. transitivity (2 * l); [ring|exact Z]. }
      assert (M : m + m' = 0).
      { apply (cancel (2 * l) _ Nl). transitivity ((a - 2 * (l' * m')) - (a - 2 * (l * m))); [rewrite L; ring|]. rewrite E5, F5. ring. }
      apply Ny. apply (cancel 2 _ two). transitivity (py A + py A); [ring|]. rewrite E1 at 1. rewrite F1, L.
      transitivity (m + m'); [ring|exact M].
    - apply X, sub0, (cancel (l - l') _ N').
      transitivity ((l * px A + m) - (l * px B + m) - ((l' * px A + m') - (l' * px B + m'))); [ring|].
      rewrite <- E1, <- E2, <- F1, <- F2. ring.
  Qed.

  (** the line through two points that are not opposite *)
  Lemma line_exists A B : on A -> on B -> A <> Inf -> B <> Inf -> A ⊕ B <> Inf ->
    exists l m, Ln l m A B (ec_neg (A ⊕ B)) /\ (forall S, S <> Inf -> line K a A B S = py S - l * px S - m) /\ B <> ec_neg A.
  Proof.
    intros OA OB NA NB ND. destruct A as [|x1 y1], B as [|x2 y2]; try congruence.
    destruct (ec_add_cases K KL two a b x1 y1 x2 y2 OA OB) as [[-> ->]|(N & l & S & E)];
      [exfalso; apply ND; apply (ec_add_opp K KL a)|].
    exists l, (y1 - l * x1). assert (S' := S). destruct S as [S1 S2]. cbn in OA, OB.
    assert (B1 : b = y1 * y1 - x1 * x1 * x1 - a * x1) by (rewrite OA; ring).
    split; [|split].
    - rewrite E. unfold Ln. cbn [px py ec_neg].
      split; [ring|]. split; [rewrite S1; ring|]. split; [ring|]. split; [ring|]. split; [rewrite S2; ring|].
      rewrite B1, S2. ring.
    - intros [|x y] NS; [congruence|]. cbn [px py line].
      destruct (feqb_spec K R x1 x2) as [X|X].
      + subst x2. assert (Y : y2 = y1) by (rewrite S1; ring). clear S1. subst y2.
        destruct (feqb_spec K R y1 (- y1)) as [Y'|Y']; [exfalso; apply N; auto|].
        assert (Ny : y1 <> 0) by (intros ->; apply Y'; ring).
        assert (L : fdiv (3 * (x1 * x1) + a) (2 * y1) = l) by (unfold fdiv; rewrite S2; field; auto). rewrite L. ring.
      + assert (Nx : x2 - x1 <> 0) by (apply (neq_sub K KL); congruence).
        assert (L : fdiv (y2 - y1) (x2 - x1) = l) by (rewrite S1; unfold fdiv; field; exact Nx). rewrite L. ring.
    - intros E'. apply N. cbn in E'. injection E' as -> ->. split; [reflexivity|ring].
  Qed.
  Lemma line_opp x y S : S <> Inf -> line K a (Aff x y) (Aff x (- y)) S = px S - x.
  Proof.
    destruct S as [|x' y']; [congruence|]. intros _. cbn [line px]. rewrite (feqb_refl K R).
    replace (- - y) with y by ring. rewrite (feqb_refl K R). reflexivity.
  Qed.
  Lemma vert A S : S <> Inf -> A <> Inf -> vertical K A S = px S - px A.
  Proof. destruct S, A; try congruence. reflexivity. Qed.
  Lemma div1 (x : K) : fdiv x 1 = x.
  Proof. unfold fdiv. field. apply (F_1_neq_0 (FL_th K KL)). Qed.

  (** * The cocycle identity *)
  Lemma slope_cocycle A B C l1 m1 l2 m2 l3 m3 l4 m4 :
    on A -> on B -> on C -> A <> Inf -> B <> Inf -> C <> Inf -> A ⊕ B <> Inf -> B ⊕ C <> Inf -> A ⊕ B ⊕ C <> Inf ->
    Ln l1 m1 A B (ec_neg (A ⊕ B)) -> Ln l2 m2 (A ⊕ B) C (ec_neg (A ⊕ B ⊕ C)) ->
    Ln l3 m3 B C (ec_neg (B ⊕ C)) -> Ln l4 m4 A (B ⊕ C) (ec_neg (A ⊕ B ⊕ C)) ->
    l1 + l2 = l3 + l4.
  Proof.
    intros OA OB OC NA NB NC ND NE NT L1 L2 L3 L4.
    assert (As : A ⊕ B ⊕ C = A ⊕ (B ⊕ C)) by (apply (g_assoc G); assumption).
    assert (OD : on (A ⊕ B)) by (apply (g_inadd G); assumption). assert (OE : on (B ⊕ C)) by (apply (g_inadd G); assumption).
    assert (OT : on (A ⊕ B ⊕ C)) by (apply (g_inadd G); assumption).
    assert (ED : B <> ec_neg A) by (intros ->; apply ND, (g_negr G A OA)).
    assert (EE : C <> ec_neg B) by (intros ->; apply NE, (g_negr G B OB)).
    assert (E2 : C <> ec_neg (A ⊕ B)) by (intros Z; apply NT; rewrite Z; apply (g_negr G (A ⊕ B) OD)).
    assert (E4 : B ⊕ C <> ec_neg A) by (intros Z; apply NT; rewrite As, Z; apply (g_negr G A OA)).
    assert (IN : forall P, on P -> on (ec_neg P)) by (intros P OP; apply (g_inneg G P OP)).
    assert (Cm : forall P Q, on P -> on Q -> P ⊕ Q = Q ⊕ P) by (intros P Q OP OQ; apply (g_comm G P Q OP OQ)).
    assert (NN : forall P : point K, ec_neg (ec_neg P) = P) by (intros P; apply (ec_neg_neg K KL)).
    (* C = A *)
    assert (CA : C = A -> l1 + l2 = l3 + l4).
    { intros ->. rewrite (Cm B A OB OA) in L3, L4. apply Ln_12 in L3.
      destruct (Ln_uniq _ _ _ _ _ _ _ L1 L3 OA OB NA NB ED) as [<- _]. apply Ln_12 in L4.
      destruct (Ln_uniq _ _ _ _ _ _ _ L2 L4 OD OA ND NA E2) as [<- _]. reflexivity. }
    destruct (feq_dec K R (px A) (px C)) as [XAC|XAC].
    { destruct (same_x A C OA OC NA NC XAC) as [|E]; [auto|].
      (* C = - A: both sums vanish *)
      subst C.
      assert (TB : A ⊕ B ⊕ ec_neg A = B).
      { rewrite (Cm A B OA OB). etransitivity; [apply (g_assoc G); auto|]. change (B ⊕ (A ⊕ ec_neg A) = B).
        replace (A ⊕ ec_neg A) with (Inf : point K) by (symmetry; apply (g_negr G A OA)). apply (g_0r G B OB). }
      rewrite TB in L2, L4.
      assert (M1 := Ln_neg _ _ _ _ _ L1). rewrite NN in M1. (* (-A, -B, D) *)
      apply Ln_23, Ln_12 in M1. (* D, -A, -B *)
      destruct (Ln_uniq _ _ _ _ _ _ _ L2 M1 OD (IN _ OA) ND NC E2) as [-> _].
      assert (M3 := Ln_neg _ _ _ _ _ L3). rewrite !NN in M3. (* -B, A, E *)
      apply Ln_12, Ln_23 in M3. (* A, E, -B *)
      destruct (Ln_uniq _ _ _ _ _ _ _ L4 M3 OA OE NA NE E4) as [-> _]. ring. }
    destruct L1 as (A1 & A2 & A3 & A4 & A5 & A6), L2 as (B1 & B2 & B3 & B4 & B5 & B6),
      L3 as (C1 & C2 & C3 & C4 & C5 & C6), L4 as (D1 & D2 & D3 & D4 & D5 & D6).
    assert (L1 : Ln l1 m1 A B (ec_neg (A ⊕ B))) by (repeat split; assumption).
    assert (L2 : Ln l2 m2 (A ⊕ B) C (ec_neg (A ⊕ B ⊕ C))) by (repeat split; assumption).
    assert (L3 : Ln l3 m3 B C (ec_neg (B ⊕ C))) by (repeat split; assumption).
    assert (L4 : Ln l4 m4 A (B ⊕ C) (ec_neg (A ⊕ B ⊕ C))) by (repeat split; assumption).
    rewrite !px_neg in *. rewrite !py_neg in *.
    set (D := A ⊕ B) in *. set (E := B ⊕ C) in *. set (T := D ⊕ C) in *.
    (* lines 1 and 2 meet in D and -D, lines 3 and 4 in E and -E *)
    assert (XD : (l1 + l2) * px D = - (m1 + m2)).
    { transitivity ((l1 * px D + m1) + (l2 * px D + m2) - (m1 + m2)); [ring|]. rewrite <- A3, <- B1. ring. }
    assert (XE : (l3 + l4) * px E = - (m3 + m4)).
    { transitivity ((l3 * px E + m3) + (l4 * px E + m4) - (m3 + m4)); [ring|]. rewrite <- C3, <- D2. ring. }
    assert (P12 : forall x, (l1 + l2) * ((l2 * x + m2) - (l1 * x + m1)) = (x - px A) * (x - px B) - (x - px C) * (x - px T)).
    { intros x.
      transitivity ((l2 * l2 - l1 * l1) * x + ((a - 2 * (l1 * m1)) - (a - 2 * (l2 * m2)) + (m1 + m2) * (l1 - l2))); [ring|].
      replace ((m1 + m2) * (l1 - l2)) with (px D * (l2 * l2 - l1 * l1)).
      2:{ transitivity (((l1 + l2) * px D) * (l2 - l1)); [ring|]. rewrite XD. ring. }
      rewrite A4, A5, B4, B5. ring. }
    assert (P34 : forall x, (l3 + l4) * ((l4 * x + m4) - (l3 * x + m3)) = (x - px B) * (x - px C) - (x - px A) * (x - px T)).
    { intros x.
      transitivity ((l4 * l4 - l3 * l3) * x + ((a - 2 * (l3 * m3)) - (a - 2 * (l4 * m4)) + (m3 + m4) * (l3 - l4))); [ring|].
      replace ((m3 + m4) * (l3 - l4)) with (px E * (l4 * l4 - l3 * l3)).
      2:{ transitivity (((l3 + l4) * px E) * (l4 - l3)); [ring|]. rewrite XE. ring. }
      rewrite C4, C5, D4, D5. ring. }
    (* the four lines pairwise *)
    assert (D14 : (l1 - l4) * px A = m4 - m1).
    { transitivity ((l1 * px A + m1) - (l4 * px A + m4) + (m4 - m1)); [ring|]. rewrite <- A1, <- D1. ring. }
    assert (D13 : (l1 - l3) * px B = m3 - m1).
    { transitivity ((l1 * px B + m1) - (l3 * px B + m3) + (m3 - m1)); [ring|]. rewrite <- A2, <- C1. ring. }
    assert (D23 : (l2 - l3) * px C = m3 - m2).
    { transitivity ((l2 * px C + m2) - (l3 * px C + m3) + (m3 - m2)); [ring|]. rewrite <- B2, <- C2. ring. }
    assert (D24 : (l2 - l4) * px T = m4 - m2).
    { transitivity ((l2 * px T + m2) - (l4 * px T + m4) + (m4 - m2)); [ring|]. rewrite <- B3, <- D3. ring. }
    assert (XAC' : px A - px C <> 0) by (intros Z; apply XAC, sub0, Z).
    assert (Q1 : px B <> px C -> px A <> px T -> l1 + l2 = l3 + l4).
    { intros N1 N2. assert (M1 : px C - px B <> 0) by (intros Z; apply N1; symmetry; apply sub0, Z).
      assert (M2 : px A - px T <> 0) by (intros Z; apply N2, sub0, Z).
      assert (S0 : l1 + l2 <> 0).
      { intros Z. assert (W := P12 (px A)). rewrite Z in W. assert (W' : (px A - px C) * (px A - px T) = 0).
        { transitivity (- ((px A - px A) * (px A - px B) - (px A - px C) * (px A - px T))); [ring|]. rewrite <- W. ring. }
        destruct (fmul_integral K KL _ _ W'); contradiction. }
      assert (U1 : (l1 + l2) * (l3 - l1) = px C - px A).
      { apply sub0. apply (cancel (px C - px B) _ M1).
        transitivity ((l1 + l2) * ((l2 * px C + m2) - (l1 * px C + m1)) - (px C - px A) * (px C - px B)); [|rewrite P12; ring].
        replace (l2 * px C + m2) with (l3 * px C + m3) by (rewrite <- B2, <- C2; reflexivity).
        replace m3 with ((l1 - l3) * px B + m1) by (rewrite D13; ring). ring. }
      assert (U2 : (l1 + l2) * (l2 - l4) = px C - px A).
      { apply sub0. apply (cancel (px A - px T) _ M2).
        transitivity ((l1 + l2) * ((l2 * px A + m2) - (l1 * px A + m1)) - (px A - px T) * (px C - px A)); [|rewrite P12; ring].
        replace (l1 * px A + m1) with (l4 * px A + m4) by (rewrite <- A1, <- D1; reflexivity).
        replace m4 with ((l2 - l4) * px T + m2) by (rewrite D24; ring). ring. }
      apply sub0, (cancel (l1 + l2) _ S0).
      transitivity ((l1 + l2) * (l2 - l4) - (l1 + l2) * (l3 - l1)); [ring|]. rewrite U1, U2. ring. }
    assert (Q2 : px A <> px B -> px C <> px T -> l1 + l2 = l3 + l4).
    { intros N1 N2. assert (M1 : px A - px B <> 0) by (intros Z; apply N1, sub0, Z).
      assert (M2 : px C - px T <> 0) by (intros Z; apply N2, sub0, Z).
      assert (S0 : l3 + l4 <> 0).
      { intros Z. assert (W := P34 (px A)). rewrite Z in W. assert (W' : (px A - px B) * (px A - px C) = 0).
        { transitivity ((px A - px B) * (px A - px C) - (px A - px A) * (px A - px T)); [ring|]. rewrite <- W. ring. }
        destruct (fmul_integral K KL _ _ W'); contradiction. }
      assert (U1 : (l3 + l4) * (l1 - l3) = px A - px C).
      { apply sub0. apply (cancel (px A - px B) _ M1).
        transitivity ((l3 + l4) * ((l4 * px A + m4) - (l3 * px A + m3)) - (px A - px C) * (px A - px B)); [|rewrite P34; ring].
        replace (l4 * px A + m4) with (l1 * px A + m1) by (rewrite <- A1, <- D1; reflexivity).
        replace m3 with ((l1 - l3) * px B + m1) by (rewrite D13; ring). ring. }
      assert (U2 : (l3 + l4) * (l4 - l2) = px A - px C).
      { apply sub0. apply (cancel (px C - px T) _ M2).
        transitivity ((l3 + l4) * ((l4 * px C + m4) - (l3 * px C + m3)) - (px C - px T) * (px A - px C)); [|rewrite P34; ring].
        replace (l3 * px C + m3) with (l2 * px C + m2) by (rewrite <- B2, <- C2; reflexivity).
        replace m4 with ((l2 - l4) * px T + m2) by (rewrite D24; ring). ring. }
      apply sub0, (cancel (l3 + l4) _ S0).
      transitivity ((l3 + l4) * (l1 - l3) - (l3 + l4) * (l4 - l2)); [ring|]. rewrite U1, U2. ring. }
    (* T is neither C nor A *)
    assert (TC : px C = px T -> T = ec_neg C).
    { intros X. destruct (same_x C T OC OT NC NT X) as [Z|Z]; [|exact Z]. exfalso. apply ND.
      apply (g_cancel_l G C D g0 OC OD (g_in0 G)). change (C ⊕ D = C ⊕ Inf). rewrite (Cm C D OC OD). fold T. rewrite Z. symmetry. apply (g_0r G C OC). }
    assert (TA : px A = px T -> T = ec_neg A).
    { intros X. destruct (same_x A T OA OT NA NT X) as [Z|Z]; [|exact Z]. exfalso. apply NE.
      apply (g_cancel_l G A E g0 OA OE (g_in0 G)). change (A ⊕ E = A ⊕ Inf). rewrite <- As, Z. symmetry. apply (g_0r G A OA). }
    destruct (feq_dec K R (px B) (px C)) as [XBC|XBC].
    - destruct (same_x B C OB OC NB NC XBC) as [CB|]; [|congruence].
      destruct (feq_dec K R (px A) (px B)) as [XAB|XAB]; [exfalso; apply XAC; congruence|].
      destruct (feq_dec K R (px C) (px T)) as [XCT|XCT]; [|auto].
      (* C = B, T = -B *)
      specialize (TC XCT). subst C. fold (B ⊕ B) in E.
      assert (DE : D = ec_neg E).
      { apply (g_neg_unique G E D OE OD). change (E ⊕ D = Inf). unfold E.
        transitivity (B ⊕ (B ⊕ D)); [apply (g_assoc G B B D OB OB OD)|]. rewrite (Cm B D OB OD). fold T. rewrite TC. apply (g_negr G B OB). }
      rewrite TC, NN in L2, L4. rewrite DE in L1, L2. rewrite NN in L1.
      apply Ln_12, Ln_23 in L2.
      destruct (Ln_uniq _ _ _ _ _ _ _ L2 L3 OB OB NB NB EE) as [-> _].
      apply Ln_23 in L4. destruct (Ln_uniq _ _ _ _ _ _ _ L1 L4 OA OB NA NB ED) as [-> _]. ring.
    - destruct (feq_dec K R (px A) (px T)) as [XAT|XAT]; [|auto]. specialize (TA XAT).
      destruct (feq_dec K R (px A) (px B)) as [XAB|XAB].
      + (* B = A, T = -A *)
        destruct (same_x A B OA OB NA NB XAB) as [BA|]; [|congruence]. subst B.
        assert (DE : E = ec_neg D).
        { apply (g_neg_unique G D E OD OE). change (D ⊕ E = Inf). unfold D.
          transitivity (A ⊕ (A ⊕ E)); [apply (g_assoc G A A E OA OA OE)|]. rewrite <- As, TA. apply (g_negr G A OA). }
        rewrite TA, NN in L2, L4. rewrite DE in L3, L4. rewrite NN in L3.
        apply Ln_23 in L4. destruct (Ln_uniq _ _ _ _ _ _ _ L1 L4 OA OA NA NA ED) as [-> _].
        apply Ln_12, Ln_23, Ln_12 in L3. (* A C D -> C A D -> C D A -> D C A *)
        destruct (Ln_uniq _ _ _ _ _ _ _ L2 L3 OD OC ND NC E2) as [-> _]. ring.
      + destruct (feq_dec K R (px C) (px T)) as [XCT|XCT]; [exfalso; apply XAC; congruence|auto].
  Qed.

  Definition av (S X : point K) : Prop := X = Inf \/ px S - px X <> 0.
  Lemma av_n S X : av S X -> X <> Inf -> px S - px X <> 0.
  Proof. intros [E|E] N; [contradiction|exact E]. Qed.
  Lemma hfun_gen A B S : A <> Inf -> B <> Inf -> S <> Inf -> A ⊕ B <> Inf -> hfun A B S = fdiv (line K a A B S) (px S - px (A ⊕ B)).
  Proof. intros NA NB NS ND. unfold hfun. rewrite (vert _ _ NS ND). destruct A, B; try congruence; reflexivity. Qed.
  Lemma hfun_opp A B S : on A -> on B -> A <> Inf -> B <> Inf -> S <> Inf -> A ⊕ B = Inf -> hfun A B S = px S - px A.
  Proof.
    intros OA OB NA NB NS Z. assert (E : B = ec_neg A) by (apply (g_neg_unique G A B OA OB Z)). subst B. unfold hfun. rewrite Z.
    destruct A as [|x y]; [congruence|]. cbn [ec_neg]. rewrite (line_opp x y S NS). destruct S; [congruence|]. cbn [vertical px]. apply div1.
  Qed.
  Lemma hfun_inf_l B S : hfun Inf B S = 1. Proof. reflexivity. Qed.
  Lemma hfun_inf_r A S : hfun A Inf S = 1. Proof. destruct A; reflexivity. Qed.
  Lemma hfun_inf A B : hfun A B Inf = 1.
  Proof. destruct A, B; try reflexivity. unfold hfun. cbn [line]. destruct (ec_add _ _ _ _); cbn [vertical]; apply div1. Qed.

  (** the value of the line at the opposite point *)
  Lemma line_conj l m A B C S : Ln l m A B C -> on S -> S <> Inf ->
    (py S - l * px S - m) * (- py S - l * px S - m) = - ((px S - px A) * (px S - px B) * (px S - px C)).
  Proof.
    intros L OS NS. rewrite <- (Ln_poly l m A B C (px S) L). destruct S as [|x y]; [congruence|]. cbn [px py]. cbn in OS. rewrite <- OS. ring.
  Qed.
  Lemma opp_sum A C : on A -> on C -> A ⊕ (ec_neg A ⊕ C) = C.
  Proof.
    intros OA OC. transitivity (A ⊕ ec_neg A ⊕ C); [symmetry; apply (g_assoc G); auto; apply (g_inneg G A OA)|].
    replace (A ⊕ ec_neg A) with (Inf : point K) by (symmetry; apply (g_negr G A OA)). reflexivity.
  Qed.
  (** h_(A,-A) = h_(-A,C) h_(A,C-A) *)
  Lemma cocycle_opp A C S : on A -> on C -> on S -> S <> Inf -> A <> Inf ->
    av S A -> av S C -> av S (ec_neg A ⊕ C) ->
    hfun A (ec_neg A) S = hfun (ec_neg A) C S * hfun A (ec_neg A ⊕ C) S.
  Proof.
    intros OA OC OS NS NA VA VC VE. assert (ON : on (ec_neg A)) by (apply (g_inneg G A OA)).
    assert (NN : ec_neg A <> Inf) by (intros Z; apply NA, neg_inf, Z).
    assert (OE : on (ec_neg A ⊕ C)) by (apply (g_inadd G); assumption).
    rewrite (hfun_opp A (ec_neg A) S OA ON NA NN NS (g_negr G A OA)).
    assert (DC : C = Inf \/ C <> Inf) by (destruct C; [left; reflexivity|right; discriminate]). destruct DC as [->|NC].
    { rewrite hfun_inf_r. replace (ec_neg A ⊕ Inf) with (ec_neg A) by (symmetry; apply (g_0r G _ ON)).
      rewrite (hfun_opp A (ec_neg A) S OA ON NA NN NS (g_negr G A OA)). ring. }
    assert (DE : ec_neg A ⊕ C = Inf \/ ec_neg A ⊕ C <> Inf) by (destruct (ec_neg A ⊕ C); [left; reflexivity|right; discriminate]).
    destruct DE as [ZE|NE].
    { rewrite ZE, hfun_inf_r, (hfun_opp _ _ S ON OC NN NC NS ZE), px_neg. ring. }
    assert (ET : A ⊕ (ec_neg A ⊕ C) = C) by (apply opp_sum; assumption).
    rewrite (hfun_gen _ _ S NN NC NS NE). rewrite (hfun_gen A (ec_neg A ⊕ C) S NA NE NS) by (rewrite ET; exact NC). rewrite ET.
    destruct (line_exists _ _ ON OC NN NC NE) as (l & m & L & LE & _).
    destruct (line_exists A (ec_neg A ⊕ C) OA OE NA NE) as (l' & m' & L' & LE' & D'); [rewrite ET; exact NC|].
    rewrite (LE S NS), (LE' S NS). rewrite ET in L'.
    assert (M := Ln_neg _ _ _ _ _ L). rewrite !(ec_neg_neg K KL) in M. apply Ln_23 in M.
    destruct (Ln_uniq _ _ _ _ _ _ _ L' M OA OE NA NE D') as [-> ->].
    assert (Q := line_conj l m _ _ _ S L OS NS). rewrite !px_neg in Q.
    assert (V1 := av_n _ _ VE NE). assert (V2 := av_n _ _ VC NC).
    set (E := ec_neg A ⊕ C) in *. unfold fdiv.
    transitivity (- ((py S - l * px S - m) * (- py S - l * px S - m)) * finv (px S - px E) * finv (px S - px C)).
    - rewrite Q. field. split; assumption.
    - ring.
  Qed.

  Theorem cocycle A B C S : on A -> on B -> on C -> on S -> S <> Inf ->
    av S A -> av S B -> av S C -> av S (A ⊕ B) -> av S (B ⊕ C) -> av S (A ⊕ B ⊕ C) ->
    hfun A B S * hfun (A ⊕ B) C S = hfun B C S * hfun A (B ⊕ C) S.
  Proof.
    intros OA OB OC OS NS VA VB VC VD VE VT.
    assert (As : A ⊕ B ⊕ C = A ⊕ (B ⊕ C)) by (apply (g_assoc G); assumption).
    assert (OD : on (A ⊕ B)) by (apply (g_inadd G); assumption). assert (OE : on (B ⊕ C)) by (apply (g_inadd G); assumption).
    assert (dec : forall P : point K, P = Inf \/ P <> Inf) by (intros []; [left; reflexivity|right; discriminate]).
    assert (sym : forall P Q, on P -> on Q -> hfun P Q S = hfun Q P S).
    { intros P Q OP OQ. destruct (dec P) as [->|NP]; [rewrite hfun_inf_r; reflexivity|]. destruct (dec Q) as [->|NQ]; [rewrite hfun_inf_r; reflexivity|].
      assert (E : P ⊕ Q = Q ⊕ P) by (apply (g_comm G); assumption).
      destruct (dec (P ⊕ Q)) as [Z|Z].
      - rewrite (hfun_opp P Q S OP OQ NP NQ NS Z). rewrite E in Z. rewrite (hfun_opp Q P S OQ OP NQ NP NS Z).
        rewrite (g_neg_unique G Q P OQ OP Z). change (px S - px (ec_neg Q) = px S - px Q). rewrite px_neg. reflexivity.
      - assert (Z' : Q ⊕ P <> Inf) by (rewrite <- E; exact Z).
        rewrite (hfun_gen P Q S NP NQ NS Z), (hfun_gen Q P S NQ NP NS Z'), E. f_equal.
        destruct (line_exists P Q OP OQ NP NQ Z) as (l & m & L & LE & D). destruct (line_exists Q P OQ OP NQ NP Z') as (l' & m' & L' & LE' & D').
        rewrite <- E in L'. apply Ln_12 in L'. destruct (Ln_uniq _ _ _ _ _ _ _ L L' OP OQ NP NQ D) as [<- <-]. rewrite LE, LE' by exact NS. reflexivity. }
    destruct (dec A) as [->|NA]; [cbn [ec_add]; rewrite !hfun_inf_l; ring|].
    destruct (dec B) as [->|NB]; [replace (A ⊕ Inf) with A by (symmetry; apply (g_0r G A OA)); cbn [ec_add]; rewrite hfun_inf_l, hfun_inf_r; ring|].
    destruct (dec C) as [->|NC]; [replace (B ⊕ Inf) with B by (symmetry; apply (g_0r G B OB)); rewrite !hfun_inf_r; ring|].
    destruct (dec (A ⊕ B)) as [ZD|ND].
    { rewrite ZD, hfun_inf_l. assert (EB : B = ec_neg A) by (apply (g_neg_unique G A B OA OB ZD)). subst B.
      rewrite (cocycle_opp A C S OA OC OS NS NA VA VC VE). ring. }
    destruct (dec (B ⊕ C)) as [ZE|NE].
    { rewrite ZE, hfun_inf_r. assert (EC : B = ec_neg C).
      { apply (g_neg_unique G C B OC OB). transitivity (B ⊕ C); [apply (g_comm G); assumption|exact ZE]. } subst B.
      assert (CmA : A ⊕ ec_neg C = ec_neg C ⊕ A) by (apply (g_comm G); assumption).
      rewrite (sym (ec_neg C) C), (cocycle_opp C A S OC OA OS NS NC VC VA) by (try rewrite <- CmA; assumption).
      rewrite <- CmA, (sym (A ⊕ ec_neg C) C) by assumption. rewrite (sym A (ec_neg C)) by assumption. ring. }
    destruct (dec (A ⊕ B ⊕ C)) as [ZT|NT].
    { (* C = -(A + B): the same line *)
      assert (EC : C = ec_neg (A ⊕ B)) by (apply (g_neg_unique G (A ⊕ B) C OD OC ZT)).
      assert (ZT' := ZT). rewrite As in ZT'. assert (EE : B ⊕ C = ec_neg A) by (apply (g_neg_unique G A (B ⊕ C) OA OE ZT')).
      rewrite (hfun_opp _ _ S OD OC ND NC NS ZT), (hfun_opp _ _ S OA OE NA NE NS ZT').
      rewrite (hfun_gen A B S NA NB NS ND), (hfun_gen B C S NB NC NS NE).
      destruct (line_exists A B OA OB NA NB ND) as (l & m & L & LE & D). destruct (line_exists B C OB OC NB NC NE) as (l' & m' & L' & LE' & D').
      rewrite EE, (ec_neg_neg K KL), EC in L'. apply Ln_23, Ln_12 in L'. 
      destruct (Ln_uniq _ _ _ _ _ _ _ L L' OA OB NA NB D) as [<- <-]. rewrite LE, LE' by exact NS. rewrite EE, px_neg.
      assert (V1 := av_n _ _ VD ND). assert (V2 := av_n _ _ VA NA). unfold fdiv. field. split; assumption. }
    rewrite (hfun_gen A B S NA NB NS ND), (hfun_gen B C S NB NC NS NE), (hfun_gen _ C S ND NC NS NT).
    assert (NT' := NT). rewrite As in NT'. rewrite (hfun_gen A _ S NA NE NS NT').
    destruct (line_exists A B OA OB NA NB ND) as (l1 & m1 & L1 & E1 & _). destruct (line_exists _ C OD OC ND NC NT) as (l2 & m2 & L2 & E2 & _).
    destruct (line_exists B C OB OC NB NC NE) as (l3 & m3 & L3 & E3 & _). destruct (line_exists A _ OA OE NA NE NT') as (l4 & m4 & L4 & E4 & _).
    rewrite E1, E2, E3, E4 by exact NS. clear E1 E2 E3 E4. rewrite <- As in L4 |- *.
    assert (Sl := slope_cocycle A B C _ _ _ _ _ _ _ _ OA OB OC NA NB NC ND NE NT L1 L2 L3 L4).
    assert (V1 := av_n _ _ VD ND). assert (V2 := av_n _ _ VE NE). assert (V3 := av_n _ _ VT NT).
    assert (PL2 := Ln_poly _ _ _ _ _ (px S) L2). assert (PL4 := Ln_poly _ _ _ _ _ (px S) L4).
    destruct L1 as (_ & _ & A3 & A4 & _), L2 as (B1 & _ & B3 & B4 & _), L3 as (_ & _ & C3 & C4 & _), L4 as (_ & D2 & D3 & D4 & _).
    rewrite !px_neg in *. rewrite !py_neg in *.
    set (D := A ⊕ B) in *. set (E := B ⊕ C) in *. set (T := D ⊕ C) in *.
    assert (M1 : m1 = - ((l1 + l2) * px D) - m2).
    { transitivity ((l1 * px D + m1) + (l2 * px D + m2) - (l1 + l2) * px D - m2); [ring|]. rewrite <- A3, <- B1. ring. }
    assert (M3 : m3 = - ((l3 + l4) * px E) - m4).
    { transitivity ((l3 * px E + m3) + (l4 * px E + m4) - (l3 + l4) * px E - m4); [ring|]. rewrite <- C3, <- D2. ring. }
    assert (M4 : m4 = m2 + (l2 - l4) * px T).
    { transitivity (l4 * px T + m4 - (l2 * px T + m2) + m2 + (l2 - l4) * px T); [ring|]. rewrite <- B3, <- D3. ring. }
    assert (SS : (l1 + l2) * (l4 - l2) = px A - px C).
    { apply sub0, (cancel 2 _ two).
      transitivity ((l1 * l1 - l2 * l2) - (l3 * l3 - l4 * l4) - 2 * (px A - px C)).
      - replace (l3 * l3 - l4 * l4) with ((l3 + l4) * (l3 - l4)) by ring. rewrite <- Sl.
        replace (l3 - l4) with ((l3 + l4) - 2 * l4) by ring. rewrite <- Sl. ring.
      - rewrite A4, B4, C4, D4. ring. }
    assert (Sy : py S * py S = px S * px S * px S + a * px S + b) by (destruct S; [congruence|exact OS]).
    set (x := px S) in *. set (y := py S) in *.
    assert (H1 : (y - l1 * x - m1) * (y - l2 * x - m2) = (x - px D) * ((x - px C) * (x - px T) + (l1 + l2) * (l2 * x + m2) - y * (l1 + l2))).
    { transitivity ((x * x * x + a * x + b - (l2 * x + m2) * (l2 * x + m2)) + (l2 * x + m2) * (l1 * x + m1 + (l2 * x + m2)) - y * (l1 * x + m1 + (l2 * x + m2))); [rewrite <- Sy; ring|].
      rewrite PL2, M1. ring. }
    assert (H2 : (y - l3 * x - m3) * (y - l4 * x - m4) = (x - px E) * ((x - px A) * (x - px T) + (l3 + l4) * (l4 * x + m4) - y * (l3 + l4))).
    { transitivity ((x * x * x + a * x + b - (l4 * x + m4) * (l4 * x + m4)) + (l4 * x + m4) * (l3 * x + m3 + (l4 * x + m4)) - y * (l3 * x + m3 + (l4 * x + m4))); [rewrite <- Sy; ring|].
      rewrite PL4, M3. ring. }
    assert (H3 : (x - px C) * (x - px T) + (l1 + l2) * (l2 * x + m2) = (x - px A) * (x - px T) + (l1 + l2) * (l4 * x + m4)).
    { apply sub0. transitivity (((px A - px C) - (l1 + l2) * (l4 - l2)) * (x - px T)); [rewrite M4; ring|]. rewrite SS. ring. }
    unfold fdiv.
    transitivity ((y - l1 * x - m1) * (y - l2 * x - m2) * finv (x - px D) * finv (x - px T)); [ring|].
    transitivity ((y - l3 * x - m3) * (y - l4 * x - m4) * finv (x - px E) * finv (x - px T)); [|ring].
    rewrite H1, H2, <- Sl, H3. field. repeat split; assumption.
  Qed.
  Theorem hfun_sym A B S : on A -> on B -> S <> Inf -> hfun A B S = hfun B A S.
  Proof.
    intros OP OQ NS.
    assert (dec : forall P : point K, P = Inf \/ P <> Inf) by (intros []; [left; reflexivity|right; discriminate]).
    destruct (dec A) as [->|NP]; [rewrite hfun_inf_r; reflexivity|]. destruct (dec B) as [->|NQ]; [rewrite hfun_inf_r; reflexivity|].
    assert (E : A ⊕ B = B ⊕ A) by (apply (g_comm G); assumption).
    destruct (dec (A ⊕ B)) as [Z|Z].
    - rewrite (hfun_opp A B S OP OQ NP NQ NS Z). rewrite E in Z. rewrite (hfun_opp B A S OQ OP NQ NP NS Z).
      rewrite (g_neg_unique G B A OQ OP Z). change (px S - px (ec_neg B) = px S - px B). rewrite px_neg. reflexivity.
    - assert (Z' : B ⊕ A <> Inf) by (rewrite <- E; exact Z).
      rewrite (hfun_gen A B S NP NQ NS Z), (hfun_gen B A S NQ NP NS Z'), E. f_equal.
      destruct (line_exists A B OP OQ NP NQ Z) as (l & m & L & LE & D). destruct (line_exists B A OQ OP NQ NP Z') as (l' & m' & L' & LE' & D').
      rewrite <- E in L'. apply Ln_12 in L'. destruct (Ln_uniq _ _ _ _ _ _ _ L L' OP OQ NP NQ D) as [<- <-]. rewrite LE, LE' by exact NS. reflexivity.
  Qed.

  Lemma pdec (P : point K) : P = Inf \/ P <> Inf.
  Proof. destruct P; [left; reflexivity|right; discriminate]. Qed.
  Lemma inv_neq0 (x : K) : x <> 0 -> finv x <> 0.
  Proof. apply (finv_neq_0 K KL). Qed.
  Lemma line_neq0 l m A B C S : Ln l m A B C -> on S -> S <> Inf -> px S - px A <> 0 -> px S - px B <> 0 -> px S - px C <> 0 ->
    py S - l * px S - m <> 0.
  Proof.
    intros L OS NS VA VB VC E. assert (Q := line_conj l m A B C S L OS NS). rewrite E in Q.
    assert (Z : (px S - px A) * (px S - px B) * (px S - px C) = 0).
    { transitivity (- - ((px S - px A) * (px S - px B) * (px S - px C))); [ring|]. rewrite <- Q. ring. }
    revert Z. repeat apply (fmul_neq_0 K KL); assumption.
  Qed.
  Theorem hfun_neq0 A B S : on A -> on B -> on S -> av S A -> av S B -> av S (A ⊕ B) -> hfun A B S <> 0.
  Proof.
    intros OA OB OS VA VB VD. assert (N1 := F_1_neq_0 (FL_th K KL)).
    destruct (pdec S) as [->|NS]; [rewrite hfun_inf; exact N1|].
    destruct (pdec A) as [->|NA]; [rewrite hfun_inf_l; exact N1|]. destruct (pdec B) as [->|NB]; [rewrite hfun_inf_r; exact N1|].
    assert (WA := av_n _ _ VA NA). assert (WB := av_n _ _ VB NB).
    destruct (pdec (A ⊕ B)) as [Z|ND]; [rewrite (hfun_opp A B S OA OB NA NB NS Z); exact WA|]. assert (WD := av_n _ _ VD ND).
    rewrite (hfun_gen A B S NA NB NS ND). destruct (line_exists A B OA OB NA NB ND) as (l & m & L & E & _). rewrite (E S NS).
    unfold fdiv. apply (fmul_neq_0 K KL); [|apply inv_neq0, WD]. apply (line_neq0 l m _ _ _ S L OS NS); rewrite ?px_neg; assumption.
  Qed.

  (** * Reciprocity *)
  Definition dis (X Y : point K) : Prop := X = Inf \/ Y = Inf \/ px X - px Y <> 0.
  Lemma dis_n X Y : dis X Y -> X <> Inf -> Y <> Inf -> px X - px Y <> 0.
  Proof. intros [E|[E|E]] N1 N2; try contradiction. exact E. Qed.
  (** two lines: the product of one over the points of the other *)
  Lemma two_lines l m l' m' A B C P Q T : Ln l m A B C -> Ln l' m' P Q T ->
    (py P - l * px P - m) * (py Q - l * px Q - m) * (py T - l * px T - m) =
    - ((py A - l' * px A - m') * (py B - l' * px B - m') * (py C - l' * px C - m')).
  Proof.
    intros (A1 & A2 & A3 & A4 & A5 & A6) (B1 & B2 & B3 & B4 & B5 & B6). rewrite A1, A2, A3, B1, B2, B3.
    set (d := l' - l). set (e := m' - m).
    transitivity (d * d * d * (px P * px Q * px T) + d * d * e * (px P * px Q + px P * px T + px Q * px T) + d * (e * e) * (px P + px Q + px T) + e * e * e);
      [unfold d, e; ring|].
    transitivity (d * d * d * (px A * px B * px C) + d * d * e * (px A * px B + px A * px C + px B * px C) + d * (e * e) * (px A + px B + px C) + e * e * e);
      [|unfold d, e; ring].
    rewrite <- A4, <- A5, <- A6, <- B4, <- B5, <- B6. unfold d, e. ring.
  Qed.
  Theorem reciprocity A B P Q : on A -> on B -> on P -> on Q ->
    dis A P -> dis A Q -> dis A (P ⊕ Q) -> dis B P -> dis B Q -> dis B (P ⊕ Q) -> dis (A ⊕ B) P -> dis (A ⊕ B) Q -> dis (A ⊕ B) (P ⊕ Q) ->
    exists s, (s = 1 \/ s = - (1)) /\
      hfun A B P * hfun A B Q * hfun P Q (A ⊕ B) = s * (hfun P Q A * hfun P Q B * hfun A B (P ⊕ Q)).
  Proof.
    intros OA OB OP OQ dAP dAQ dAR dBP dBQ dBR dDP dDQ dDR.
    destruct (pdec A) as [->|NA]; [exists 1; split; [auto|]; cbn [ec_add]; rewrite !hfun_inf_l, hfun_inf; ring|].
    destruct (pdec B) as [->|NB].
    { exists 1; split; [auto|]. replace (A ⊕ Inf) with A by (symmetry; apply (g_0r G A OA)). rewrite !hfun_inf_r, hfun_inf; ring. }
    destruct (pdec P) as [->|NP]; [exists 1; split; [auto|]; cbn [ec_add]; rewrite !hfun_inf_l, hfun_inf; ring|].
    destruct (pdec Q) as [->|NQ].
    { exists 1; split; [auto|]. replace (P ⊕ Inf) with P by (symmetry; apply (g_0r G P OP)). rewrite !hfun_inf_r, hfun_inf; ring. }
    assert (OD : on (A ⊕ B)) by (apply (g_inadd G); assumption). assert (OR : on (P ⊕ Q)) by (apply (g_inadd G); assumption).
    assert (xAP := dis_n _ _ dAP NA NP). assert (xAQ := dis_n _ _ dAQ NA NQ). assert (xBP := dis_n _ _ dBP NB NP). assert (xBQ := dis_n _ _ dBQ NB NQ).
    assert (flip : forall x y : K, x - y <> 0 -> y - x <> 0).
    { intros x y N Z. apply N. transitivity (- (y - x)); [ring|]. rewrite Z. ring. }
    assert (sgn : forall P, P <> Inf -> py (ec_neg P) = - py P) by (intros; apply py_neg).
    destruct (pdec (A ⊕ B)) as [ZD|ND], (pdec (P ⊕ Q)) as [ZR|NR].
    - rewrite ZD, ZR, !hfun_inf. rewrite (hfun_opp A B P OA OB NA NB NP ZD), (hfun_opp A B Q OA OB NA NB NQ ZD).
      rewrite (hfun_opp P Q A OP OQ NP NQ NA ZR), (hfun_opp P Q B OP OQ NP NQ NB ZR).
      assert (EB : B = ec_neg A) by (apply (g_neg_unique G A B OA OB ZD)). assert (EQ : Q = ec_neg P) by (apply (g_neg_unique G P Q OP OQ ZR)).
      rewrite EB, EQ, !px_neg. exists 1. split; [auto|]. ring.
    - rewrite ZD, hfun_inf. rewrite !(hfun_opp A B) by assumption.
      assert (EB : B = ec_neg A) by (apply (g_neg_unique G A B OA OB ZD)).
      rewrite !(hfun_gen P Q) by assumption. destruct (line_exists P Q OP OQ NP NQ NR) as (l & m & L & E & _). rewrite !E by assumption.
      assert (xAR := dis_n _ _ dAR NA NR). assert (C := line_conj l m _ _ _ A L OA NA). rewrite px_neg in C.
      rewrite EB, px_neg, py_neg. set (RR := P ⊕ Q) in *. exists 1. split; [auto|]. unfold fdiv.
      transitivity (((py A - l * px A - m) * (- py A - l * px A - m)) * (finv (px A - px RR) * finv (px A - px RR)) * (px RR - px A)); [|ring].
      rewrite C. field. assumption.
    - rewrite ZR, hfun_inf. rewrite !(hfun_opp P Q) by assumption.
      assert (EQ : Q = ec_neg P) by (apply (g_neg_unique G P Q OP OQ ZR)).
      rewrite !(hfun_gen A B) by assumption. destruct (line_exists A B OA OB NA NB ND) as (l & m & L & E & _). rewrite !E by assumption.
      assert (xDP := flip _ _ (dis_n _ _ dDP ND NP)). assert (C := line_conj l m _ _ _ P L OP NP). rewrite px_neg in C.
      rewrite EQ, px_neg, py_neg. set (DD := A ⊕ B) in *. exists 1. split; [auto|]. unfold fdiv.
      transitivity (((py P - l * px P - m) * (- py P - l * px P - m)) * (finv (px P - px DD) * finv (px P - px DD)) * (px DD - px P)); [ring|].
      rewrite C. field. assumption.
    - rewrite !(hfun_gen A B), !(hfun_gen P Q) by assumption.
      destruct (line_exists A B OA OB NA NB ND) as (l & m & L & E & _). destruct (line_exists P Q OP OQ NP NQ NR) as (l' & m' & L' & E' & _).
      rewrite !E, !E' by assumption.
      assert (xAR := dis_n _ _ dAR NA NR). assert (xBR := dis_n _ _ dBR NB NR). assert (xDP := dis_n _ _ dDP ND NP).
      assert (xDQ := dis_n _ _ dDQ ND NQ). assert (xDR := dis_n _ _ dDR ND NR).
      assert (T := two_lines _ _ _ _ _ _ _ _ _ _ L L'). rewrite !px_neg, !py_neg in T.
      assert (CR := line_conj l m _ _ _ (P ⊕ Q) L OR NR). assert (CD := line_conj l' m' _ _ _ (A ⊕ B) L' OD ND).
      rewrite !px_neg in CR, CD.
      assert (ZR : - py (P ⊕ Q) - l * px (P ⊕ Q) - m <> 0).
      { assert (W := line_neq0 l m _ _ _ (ec_neg (P ⊕ Q)) L (g_inneg G _ OR)). rewrite !px_neg, py_neg in W. apply W; auto. intros Z; apply NR, neg_inf, Z. }
      assert (ZD : - py (A ⊕ B) - l' * px (A ⊕ B) - m' <> 0).
      { assert (W := line_neq0 l' m' _ _ _ (ec_neg (A ⊕ B)) L' (g_inneg G _ OD)). rewrite !px_neg, py_neg in W. apply W; auto. intros Z; apply ND, neg_inf, Z. }
      clear E E' L L'. set (DD := A ⊕ B) in *. set (RR := P ⊕ Q) in *.
      set (u1 := py P - l * px P - m) in *. set (u2 := py Q - l * px Q - m) in *. set (u3 := py RR - l * px RR - m) in *.
      set (u4 := - py RR - l * px RR - m) in *. set (v1 := py A - l' * px A - m') in *. set (v2 := py B - l' * px B - m') in *.
      set (v3 := py DD - l' * px DD - m') in *. set (v4 := - py DD - l' * px DD - m') in *.
      exists (- (1)). split; [auto|].
      apply (fmul_cancel_l K KL (u4 * v4)); [apply (fmul_neq_0 K KL); assumption|]. unfold fdiv.
      transitivity ((u1 * u2 * u4) * (v3 * v4) * (finv (px P - px DD) * finv (px Q - px DD) * finv (px DD - px RR))); [ring|].
      transitivity (- (1) * (v1 * v2 * v4) * (u3 * u4) * (finv (px A - px RR) * finv (px B - px RR) * finv (px RR - px DD))); [|ring].
      rewrite T, CR, CD. field. repeat split; auto.
  Qed.
End Laws.
