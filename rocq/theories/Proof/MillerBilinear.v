(** Bilinearity of the powers of Miller functions.  The two arguments come from the
    subgroups on which an involution negates or fixes points, and on which the Frobenius
    map is multiplication by the loop constant (up to sign) or the identity. *)
From Coq Require Import ZArith NArith List Bool Lia Ring Field Znumtheory.
From Verif Require Import Base.Field Base.Ext Base.Hom Spec.Group Spec.Weierstrass Spec.Pairing Proof.WeierstrassCoords Proof.WeierstrassGroup Proof.WeierstrassRep
  Proof.PairingMiller Proof.PairingNeg Proof.MillerLaws.
Local Open Scope fld_scope.

Section Bil.
  Variable K : FieldOps.
  Hypothesis KL : FieldLaws K.
  Let R := FieldLaws_Ring K KL.
  Add Field Kbl : (FL_th K KL).
  Hypothesis two : (2 : K) <> 0.
  Variables a b : K.
  Hypothesis ns : nonsingular K a b.
  Hypothesis J0 : finv (0 : K) = 0.
  Local Notation on := (on_curve K a b).
  Local Notation "P ⊕ Q" := (ec_add K a P Q) (at level 50, left associativity).
  Local Notation h := (hfun K a).
  Local Notation px := (px K).
  Local Notation mul n P := (ec_mul K a (N.to_nat n) P).
  Let G := sw_group K KL two a b ns.
  Variable conj phi : K -> K.
  Hypothesis HC : Hom K K conj.
  Hypothesis HP : Hom K K phi.
  Hypothesis Ca : conj a = a.
  Hypothesis Pa : phi a = a.
  Variables e p : N.
  Hypothesis Hphi : forall x, phi x = fpow x p.
  Hypothesis Hfix : forall x, x <> 0 -> conj x = x -> fpow x e = 1.
  Hypothesis Hinv : forall x, conj (conj x) = x.
  Variable n : positive.
  Variable r : N.
  Hypothesis Pr : prime (Z.of_N r).
  Hypothesis odd : N.odd r = true.
  Hypothesis nlt : (Npos n < r)%N.
  Variable sg : bool.
  (** n = p, or n = -p, as exponents of e-th powers *)
  Hypothesis Hker : forall x : K, x <> 0 ->
    if sg then fpow (fpow x e) (Npos n) * fpow (fpow x e) p = 1 else fpow (fpow x e) (Npos n) = fpow (fpow x e) p.

  Definition Uset (A : point K) : Prop :=
    on A /\ point_map conj A = ec_neg A /\ point_map phi A = (if sg then ec_neg (mul (Npos n) A) else mul (Npos n) A) /\ mul r A = Inf.
  Definition Vset (P : point K) : Prop := on P /\ point_map conj P = P /\ point_map phi P = P.

  Lemma gm k P : mul k P = gmul (G := G) k P.
  Proof. symmetry. apply (sw_gmul K KL two a b ns). Qed.
  Lemma map_add f (HF : Hom K K f) (Fa : f a = a) P Q : point_map f (P ⊕ Q) = point_map f P ⊕ point_map f Q.
  Proof. rewrite <- (hom_ec_add K K KL KL f HF J0 J0 a), Fa. reflexivity. Qed.
  Lemma map_neg f (HF : Hom K K f) P : point_map f (ec_neg P) = ec_neg (point_map f P).
  Proof. destruct P; cbn; [reflexivity|]. rewrite (hom_opp _ _ _ HF). reflexivity. Qed.
  Lemma on_add' P Q : on P -> on Q -> on (P ⊕ Q). Proof. apply (g_inadd G). Qed.
  Lemma neg_add' P Q : on P -> on Q -> ec_neg (P ⊕ Q) = ec_neg P ⊕ ec_neg Q. Proof. apply (g_neg_add G). Qed.
  Lemma mul_add' k P Q : on P -> on Q -> mul k (P ⊕ Q) = mul k P ⊕ mul k Q.
  Proof. intros OP OQ. rewrite !gm. apply (gmul_gadd G k P Q OP OQ). Qed.
  Lemma mul_on k P : on P -> on (mul k P). Proof. intros OP. rewrite gm. apply (gmul_in G), OP. Qed.

  Lemma U_inf : Uset Inf.
  Proof. split; [exact I|]. split; [reflexivity|]. rewrite !gm. rewrite !(gmul_zero G). split; destruct sg; reflexivity. Qed.
  Lemma U_add A B : Uset A -> Uset B -> Uset (A ⊕ B).
  Proof.
    intros (OA & CA & FA & TA) (OB & CB & FB & TB). split; [apply on_add'; assumption|]. split; [|split].
    - rewrite (map_add conj HC Ca), CA, CB, <- neg_add' by assumption. reflexivity.
    - rewrite (map_add phi HP Pa), FA, FB, mul_add' by assumption. destruct sg; [|reflexivity].
      symmetry. apply neg_add'; apply mul_on; assumption.
    - rewrite mul_add', TA, TB by assumption. reflexivity.
  Qed.
  Lemma U_mul k A : Uset A -> Uset (mul k A).
  Proof.
    intros UA. induction (N.to_nat k) as [|m IH]; [exact U_inf|]. cbn [ec_mul]. apply U_add; assumption.
  Qed.
  Lemma V_inf : Vset Inf. Proof. repeat split. Qed.
  Lemma V_add A B : Vset A -> Vset B -> Vset (A ⊕ B).
  Proof.
    intros (OA & CA & FA) (OB & CB & FB). split; [apply on_add'; assumption|]. split.
    - rewrite (map_add conj HC Ca), CA, CB. reflexivity.
    - rewrite (map_add phi HP Pa), FA, FB. reflexivity.
  Qed.
  Lemma V_mul k A : Vset A -> Vset (mul k A).
  Proof.
    intros UA. induction (N.to_nat k) as [|m IH]; [exact V_inf|]. cbn [ec_mul]. apply V_add; assumption.
  Qed.
  Lemma U_disj A P : Uset A -> Vset P -> dis K A P.
  Proof.
    intros (OA & CA & _ & TA) (OP & CP & _).
    destruct (pdec K A) as [->|NA]; [left; reflexivity|]. destruct (pdec K P) as [->|NP]; [right; left; reflexivity|]. right; right.
    intros X. apply (fsub_0_eq K R) in X.
    assert (E : ec_neg A = A).
    { destruct (same_x K KL a b A P OA OP NA NP X) as [->| ->]; [rewrite <- CA; exact CP|].
      rewrite (map_neg conj HC), CA in CP. rewrite (ec_neg_neg K KL) in CP. symmetry. exact CP. }
    assert (D : A ⊕ A = Inf) by (rewrite <- E at 2; apply (g_negr G A OA)).
    apply NA. apply N.odd_spec in odd. destruct odd as (k & Ek). rewrite gm, Ek, (gmul_add G), (gmul_1 G), (N.mul_comm 2), (gmul_mul G) in TA by exact OA.
    replace (gmul (G := G) 2 A) with (Inf : point K) in TA; [rewrite (gmul_zero G) in TA; exact TA|].
    change 2%N with (2 * 1)%N. rewrite (gmul_double G), (gmul_1 G) by exact OA. symmetry. exact D.
  Qed.
  Lemma U_av S A : Vset S -> S <> Inf -> Uset A -> av K S A.
  Proof.
    intros VS NS UA. destruct (pdec K A) as [->|NA]; [left; reflexivity|right]. assert (D := dis_n K _ _ (U_disj A S UA VS) NA NS).
    intros Z. apply D. transitivity (- (px S - px A)); [ring|]. rewrite Z. ring.
  Qed.
  Lemma V_av S A : Uset S -> S <> Inf -> Vset A -> av K S A.
  Proof. intros US NS VA. destruct (pdec K A) as [->|NA]; [left; reflexivity|right]. exact (dis_n K _ _ (U_disj S A US VA) NS NA). Qed.
  Lemma U_order A m : Uset A -> A <> Inf -> (0 < m < r)%N -> mul m A <> Inf.
  Proof.
    intros (OA & _ & _ & TA) NA M Z. rewrite gm in TA, Z. apply NA.
    assert (B : Zis_gcd (Z.of_N m) (Z.of_N r) 1).
    { apply Zgcd_1_rel_prime in Pr || idtac. apply Zis_gcd_sym, rel_prime_sym, rel_prime_le_prime; [exact Pr|lia]. }
    destruct (Zis_gcd_bezout _ _ _ B) as [u v Huv].
    (* u m + v r = 1; reduce u modulo r *)
    set (u' := Z.to_N (u mod Z.of_N r)). assert (R0 : (0 < Z.of_N r)%Z) by lia.
    assert (W := Z.mod_pos_bound u _ R0).
    assert (E : exists q, (u' * m = 1 + q * r)%N).
    { assert (D : (Z.of_N r | Z.of_N u' * Z.of_N m - 1)%Z).
      { exists (- v - (u / Z.of_N r) * Z.of_N m)%Z. unfold u'. rewrite Z2N.id by lia. rewrite Z.mod_eq by lia. nia. }
      destruct D as [q Q]. destruct (Z.eq_dec q 0) as [->|Nq]; [exists 0%N; lia|].
      assert (0 <= q)%Z by nia. exists (Z.to_N q). nia. }
    destruct E as [q Q]. assert (F : gmul (G := G) (u' * m) A = Inf) by (rewrite (gmul_mul G), Z by exact OA; apply (gmul_zero G)).
    rewrite Q, (gmul_add G), (gmul_1 G), (gmul_mul G), TA, (gmul_zero G), (g_0r G) in F by exact OA. exact F.
  Qed.

  (** ** powers *)
  Local Notation Ex x := (fpow (x : K) e).
  Lemma E_mul x y : Ex (x * y) = Ex x * Ex y. Proof. apply (fpow_mul_l K R). Qed.
  Lemma E_pow x k : Ex (fpow x k) = fpow (Ex x) k. Proof. rewrite <- !(fpow_mul K R), N.mul_comm. reflexivity. Qed.
  Lemma E_neq0 x : x <> 0 -> Ex x <> 0. Proof. apply (fpow_neq_0 K KL). Qed.
  Lemma E_pm s : s = 1 \/ s = - (1) -> Ex s = 1.
  Proof.
    assert (N1 := F_1_neq_0 (FL_th K KL)).
    intros [->| ->]; [apply (fpow_one K R)|]. apply Hfix.
    - intros Z. apply N1. transitivity (- - (1 : K)); [ring|]. rewrite Z. ring.
    - rewrite (hom_opp _ _ _ HC), (hom_1 _ _ _ HC). reflexivity.
  Qed.
  Lemma h_neq0 f (HF : Hom K K f) x : x <> 0 -> f x <> 0.
  Proof.
    intros N Z. apply N. apply (feqb_true K R). rewrite <- (hom_eqb _ _ _ HF), Z, (hom_0 _ _ _ HF). apply (feqb_refl K R).
  Qed.
  Lemma E_conj x : x <> 0 -> Ex (conj x) * Ex x = 1.
  Proof.
    intros N. rewrite <- E_mul. apply Hfix; [apply (fmul_neq_0 K KL); [apply (h_neq0 conj HC), N|exact N]|].
    rewrite (hom_mul _ _ _ HC), Hinv. ring.
  Qed.
  Lemma E_phi x : Ex (phi x) = fpow (Ex x) p.
  Proof. rewrite Hphi, <- !(fpow_mul K R), N.mul_comm. reflexivity. Qed.
  Lemma map_h f (HF : Hom K K f) (Fa : f a = a) A B S : h (point_map f A) (point_map f B) (point_map f S) = f (h A B S).
  Proof.
    destruct A as [|x1 y1], B as [|x2 y2]; try (symmetry; apply (hom_1 _ _ _ HF)). unfold hfun. cbn [point_map].
    change (Aff (f x1) (f y1)) with (point_map f (Aff x1 y1)). change (Aff (f x2) (f y2)) with (point_map f (Aff x2 y2)).
    rewrite <- (map_add f HF Fa). rewrite (hom_vertical K K f HF). rewrite <- Fa at 1. rewrite (hom_line K K KL KL f HF J0 J0).
    unfold fdiv. rewrite (hom_mul _ _ _ HF), (h_inv K K KL KL f HF J0 J0). reflexivity.
  Qed.

  (** ** the Miller function *)
  Lemma miller_snd m Q S : on Q -> snd (miller K a m Q S) = mul (Npos m) Q.
  Proof.
    intros OQ. induction m as [m IH|m IH|]; cbn [miller].
    - destruct (miller K a m Q S) as [f T]. cbn [snd] in *. subst T. rewrite !gm. change (N.pos m~1) with (N.succ (2 * N.pos m)).
      rewrite (gmul_succ G), (gmul_double G) by exact OQ. apply (g_comm G); [|exact OQ]. apply (g_inadd G); apply (gmul_in G), OQ.
    - destruct (miller K a m Q S) as [f T]. cbn [snd] in *. subst T. rewrite !gm. change (N.pos m~0) with (2 * N.pos m)%N.
      symmetry. apply (gmul_double G _ _ OQ).
    - rewrite gm. symmetry. apply (gmul_1 G), OQ.
  Qed.
  Local Notation f m Q S := (fst (miller K a m Q S)).
  Lemma miller_inf m Q : f m Q Inf = 1.
  Proof.
    assert (V : forall A : point K, vertical K A Inf = 1) by (intros []; reflexivity). assert (L : forall A B : point K, line K a A B Inf = 1) by (intros [] []; reflexivity).
    induction m as [m IH|m IH|]; cbn [miller]; [| |reflexivity]; destruct (miller K a m Q Inf) as [g T]; cbn [fst] in *; subst g;
      rewrite ?L, ?V, !(div1 K KL); ring.
  Qed.
  Lemma step_h A S : fdiv (line K a A A S) (vertical K (A ⊕ A) S) = h A A S.
  Proof. destruct A; [|reflexivity]. cbn. apply (div1 K KL). Qed.
  Lemma step_h2 A B S : A <> Inf -> B <> Inf -> fdiv (line K a A B S) (vertical K (A ⊕ B) S) = h A B S.
  Proof. intros NA NB. destruct A, B; try congruence. reflexivity. Qed.
  Lemma miller_xO m Q S : on Q -> f (xO m) Q S = f m Q S * f m Q S * h (mul (Npos m) Q) (mul (Npos m) Q) S.
  Proof.
    intros OQ. cbn [miller]. assert (E := miller_snd m Q S OQ). destruct (miller K a m Q S) as [g T]. cbn [fst snd] in *. subst T.
    rewrite step_h. reflexivity.
  Qed.
  Lemma miller_xI m Q S : Uset Q -> (Npos (xI m) < r)%N -> f (xI m) Q S = f (xO m) Q S * h (mul (Npos (xO m)) Q) Q S.
  Proof.
    intros UQ M. cbn [miller]. assert (OQ := proj1 UQ). assert (E := miller_snd m Q S OQ). destruct (miller K a m Q S) as [g T]. cbn [fst snd] in *. subst T.
    assert (E2 : mul (N.pos m) Q ⊕ mul (N.pos m) Q = mul (N.pos m~0) Q).
    { rewrite !gm. change (N.pos m~0) with (2 * N.pos m)%N. symmetry. apply (gmul_double G _ _ OQ). }
    rewrite !E2. f_equal. destruct (pdec K Q) as [Z|NQ].
    - rewrite Z. rewrite !gm, !(gmul_zero G). change (fdiv (line K a Inf Inf S) (vertical K Inf S) = 1). destruct S; cbn; apply (div1 K KL).
    - apply step_h2; [|exact NQ]. apply (U_order Q _ UQ NQ). lia.
  Qed.

  (** ** in the first argument, exactly *)
  Lemma four A B C D S : Uset A -> Uset B -> Uset C -> Uset D -> Vset S -> S <> Inf ->
    h A B S * h C D S * h (A ⊕ B) (C ⊕ D) S = h A C S * h B D S * h (A ⊕ C) (B ⊕ D) S.
  Proof.
    intros UA UB UC UD VS NS. assert (V := fun X => U_av S X VS NS).
    assert (co : forall X Y Z, Uset X -> Uset Y -> Uset Z -> h X Y S * h (X ⊕ Y) Z S = h Y Z S * h X (Y ⊕ Z) S).
    { intros X Y Z UX UY UZ. apply (cocycle K KL two a b ns); try apply UX; try apply UY; try apply UZ; try apply VS; try exact NS;
        apply V; repeat apply U_add; assumption. }
    assert (OA := proj1 UA). assert (OB := proj1 UB). assert (OC := proj1 UC). assert (OD := proj1 UD).
    assert (A1 : B ⊕ (C ⊕ D) = C ⊕ (B ⊕ D)).
    { transitivity (B ⊕ C ⊕ D); [symmetry; apply (g_assoc G); assumption|]. transitivity (C ⊕ B ⊕ D); [f_equal; apply (g_comm G); assumption|]. apply (g_assoc G); assumption. }
    transitivity (h C D S * (h A B S * h (A ⊕ B) (C ⊕ D) S)); [ring|]. rewrite (co A B (C ⊕ D) UA UB (U_add _ _ UC UD)).
    transitivity (h B D S * (h A C S * h (A ⊕ C) (B ⊕ D) S)); [|ring]. rewrite (co A C (B ⊕ D) UA UC (U_add _ _ UB UD)).
    rewrite A1. transitivity ((h C D S * h B (C ⊕ D) S) * h A (C ⊕ (B ⊕ D)) S); [ring|].
    transitivity ((h B D S * h C (B ⊕ D) S) * h A (C ⊕ (B ⊕ D)) S); [|ring]. f_equal.
    rewrite <- (co B C D UB UC UD), <- (co C B D UC UB UD). rewrite (hfun_sym K KL two a b ns B C S OB OC NS). f_equal. f_equal. apply (g_comm G); assumption.
  Qed.
  Lemma lin_Q m Q Q' S : Uset Q -> Uset Q' -> Vset S -> S <> Inf -> (Npos m < r)%N ->
    f m Q S * f m Q' S * h (mul (Npos m) Q) (mul (Npos m) Q') S = f m (Q ⊕ Q') S * fpow (h Q Q' S) (Npos m).
  Proof.
    intros UQ UQ' VS NS. assert (OQ := proj1 UQ). assert (OQ' := proj1 UQ'). assert (UQQ := U_add _ _ UQ UQ').
    assert (DB : forall m, (Npos m < r)%N ->
      f m Q S * f m Q' S * h (mul (Npos m) Q) (mul (Npos m) Q') S = f m (Q ⊕ Q') S * fpow (h Q Q' S) (Npos m) ->
      f (xO m) Q S * f (xO m) Q' S * h (mul (Npos (xO m)) Q) (mul (Npos (xO m)) Q') S = f (xO m) (Q ⊕ Q') S * fpow (h Q Q' S) (Npos (xO m))).
    { intros k L IH. rewrite !miller_xO by apply UQQ || assumption. change (N.pos k~0) with (2 * N.pos k)%N.
      assert (DD : forall X, on X -> mul (2 * N.pos k) X = mul (N.pos k) X ⊕ mul (N.pos k) X) by (intros X OX; rewrite !gm; apply (gmul_double G _ _ OX)).
      rewrite !DD, (fpow_double K R) by assumption. rewrite (mul_add' (N.pos k) Q Q' OQ OQ').
      set (X := mul (N.pos k) Q) in *. set (Y := mul (N.pos k) Q') in *.
      assert (UX : Uset X) by (apply U_mul; assumption). assert (UY : Uset Y) by (apply U_mul; assumption).
      transitivity ((f k Q S * f k Q' S) * (f k Q S * f k Q' S) * (h X X S * h Y Y S * h (X ⊕ X) (Y ⊕ Y) S)); [ring|].
      rewrite (four X X Y Y S UX UX UY UY VS NS).
      transitivity ((f k Q S * f k Q' S * h X Y S) * (f k Q S * f k Q' S * h X Y S) * h (X ⊕ Y) (X ⊕ Y) S); [ring|]. rewrite IH. ring. }
    induction m as [m IH|m IH|]; intros L.
    - assert (L' : (N.pos m < r)%N) by lia. assert (D := DB m L' (IH L')).
      rewrite !miller_xI by assumption. change (N.pos m~1) with (N.succ (N.pos m~0)).
      assert (SS : forall X, on X -> mul (N.succ (N.pos m~0)) X = mul (N.pos m~0) X ⊕ X).
      { intros X OX. rewrite !gm, (gmul_succ G) by exact OX. apply (g_comm G); [exact OX|]. apply (gmul_in G), OX. }
      rewrite !SS, (fpow_succ K) by assumption. rewrite (mul_add' (N.pos m~0) Q Q' OQ OQ').
      set (X := mul (N.pos m~0) Q) in *. set (Y := mul (N.pos m~0) Q') in *.
      assert (UX : Uset X) by (apply U_mul; assumption). assert (UY : Uset Y) by (apply U_mul; assumption).
      transitivity ((f m~0 Q S * f m~0 Q' S) * (h X Q S * h Y Q' S * h (X ⊕ Q) (Y ⊕ Q') S)); [ring|].
      rewrite (four X Q Y Q' S UX UQ UY UQ' VS NS).
      transitivity ((f m~0 Q S * f m~0 Q' S * h X Y S) * (h Q Q' S * h (X ⊕ Y) (Q ⊕ Q') S)); [ring|]. rewrite D. ring.
    - assert (L' : (N.pos m < r)%N) by lia. apply (DB m L' (IH L')).
    - cbn [miller fst]. change (N.pos 1) with 1%N. rewrite (fpow_1 K R). rewrite !gm, !(gmul_1 G) by assumption. ring.
  Qed.

  (** ** in the second argument, up to e-th powers *)
  Lemma hU_neq0 A B S : Uset A -> Uset B -> Vset S -> h A B S <> 0.
  Proof.
    intros UA UB VS. destruct (pdec K S) as [->|NS]; [rewrite hfun_inf by exact KL; exact (F_1_neq_0 (FL_th K KL))|].
    apply (hfun_neq0 K KL two a b ns); try apply UA; try apply UB; try apply VS; try exact NS; apply (U_av S); try assumption. apply U_add; assumption.
  Qed.
  Lemma hV_neq0 A B S : Vset A -> Vset B -> Uset S -> h A B S <> 0.
  Proof.
    intros UA UB VS. destruct (pdec K S) as [->|NS]; [rewrite hfun_inf by exact KL; exact (F_1_neq_0 (FL_th K KL))|].
    apply (hfun_neq0 K KL two a b ns); try apply UA; try apply UB; try apply VS; try exact NS; apply (V_av S); try assumption. apply V_add; assumption.
  Qed.
  Lemma recE A B P P' : Uset A -> Uset B -> Vset P -> Vset P' ->
    Ex (h A B P) * Ex (h A B P') * Ex (h P P' (A ⊕ B)) = Ex (h P P' A) * Ex (h P P' B) * Ex (h A B (P ⊕ P')).
  Proof.
    intros UA UB VP VP'. assert (UD := U_add _ _ UA UB). assert (VR := V_add _ _ VP VP').
    destruct (reciprocity K KL two a b ns A B P P' (proj1 UA) (proj1 UB) (proj1 VP) (proj1 VP')) as (s & S1 & E); try (apply U_disj; assumption).
    rewrite <- !E_mul, E, E_mul, (E_pm s S1). ring.
  Qed.
  Lemma lin_P m Q P P' : Uset Q -> Vset P -> Vset P' -> (Npos m < r)%N ->
    Ex (f m Q P) * Ex (f m Q P') * Ex (h P P' (mul (Npos m) Q)) = Ex (f m Q (P ⊕ P')) * fpow (Ex (h P P' Q)) (Npos m).
  Proof.
    intros UQ VP VP'. assert (OQ := proj1 UQ).
    assert (DB : forall m, (Npos m < r)%N ->
      Ex (f m Q P) * Ex (f m Q P') * Ex (h P P' (mul (Npos m) Q)) = Ex (f m Q (P ⊕ P')) * fpow (Ex (h P P' Q)) (Npos m) ->
      Ex (f (xO m) Q P) * Ex (f (xO m) Q P') * Ex (h P P' (mul (Npos (xO m)) Q)) = Ex (f (xO m) Q (P ⊕ P')) * fpow (Ex (h P P' Q)) (Npos (xO m))).
    { intros k L IH. rewrite !miller_xO by assumption. change (N.pos k~0) with (2 * N.pos k)%N.
      assert (DD : mul (2 * N.pos k) Q = mul (N.pos k) Q ⊕ mul (N.pos k) Q) by (rewrite !gm; apply (gmul_double G _ _ OQ)).
      rewrite !DD, (fpow_double K R), !E_mul by assumption.
      set (X := mul (N.pos k) Q) in *. assert (UX : Uset X) by (apply U_mul; assumption).
      transitivity ((Ex (f k Q P) * Ex (f k Q P')) * (Ex (f k Q P) * Ex (f k Q P')) * (Ex (h X X P) * Ex (h X X P') * Ex (h P P' (X ⊕ X)))); [ring|].
      rewrite (recE X X P P' UX UX VP VP').
      transitivity ((Ex (f k Q P) * Ex (f k Q P') * Ex (h P P' X)) * (Ex (f k Q P) * Ex (f k Q P') * Ex (h P P' X)) * Ex (h X X (P ⊕ P'))); [ring|].
      rewrite IH. ring. }
    induction m as [m IH|m IH|]; intros L.
    - assert (L' : (N.pos m < r)%N) by lia. assert (D := DB m L' (IH L')).
      rewrite !miller_xI by assumption. change (N.pos m~1) with (N.succ (N.pos m~0)).
      assert (SS : mul (N.succ (N.pos m~0)) Q = mul (N.pos m~0) Q ⊕ Q).
      { rewrite !gm, (gmul_succ G) by exact OQ. apply (g_comm G); [exact OQ|]. apply (gmul_in G), OQ. }
      rewrite !SS, (fpow_succ K), !E_mul. set (X := mul (N.pos m~0) Q) in *. assert (UX : Uset X) by (apply U_mul; assumption).
      transitivity ((Ex (f m~0 Q P) * Ex (f m~0 Q P')) * (Ex (h X Q P) * Ex (h X Q P') * Ex (h P P' (X ⊕ Q)))); [ring|].
      rewrite (recE X Q P P' UX UQ VP VP').
      transitivity ((Ex (f m~0 Q P) * Ex (f m~0 Q P') * Ex (h P P' X)) * (Ex (h P P' Q) * Ex (h X Q (P ⊕ P')))); [ring|]. rewrite D. ring.
    - assert (L' : (N.pos m < r)%N) by lia. apply (DB m L' (IH L')).
    - cbn [miller fst]. change (N.pos 1) with 1%N. rewrite (fpow_1 K R). rewrite !gm, !(gmul_1 G) by assumption. rewrite (fpow_one K R). ring.
  Qed.

  (** ** the Frobenius map *)
  Lemma nU A : Uset A -> mul (Npos n) A = (if sg then point_map conj (point_map phi A) else point_map phi A).
  Proof.
    intros UA. assert (C := proj1 (proj2 (U_mul (N.pos n) A UA))). destruct UA as (OA & CA & FA & TA). rewrite FA. clear Hker. destruct sg; [|reflexivity].
    rewrite (map_neg conj HC), C. symmetry. apply (ec_neg_neg K KL).
  Qed.
  Lemma kerQ A B S : Uset A -> Uset B -> Vset S -> Ex (h (mul (Npos n) A) (mul (Npos n) B) S) = fpow (Ex (h A B S)) (Npos n).
  Proof.
    intros UA UB VS. rewrite !nU by assumption. assert (N := hU_neq0 A B S UA UB VS). assert (Q := Hker _ N).
    destruct VS as (_ & CS & FS).
    assert (F1 : h (point_map phi A) (point_map phi B) S = phi (h A B S)) by (rewrite <- FS at 1; apply (map_h phi HP Pa)).
    destruct sg.
    - assert (F2 : h (point_map conj (point_map phi A)) (point_map conj (point_map phi B)) S = conj (phi (h A B S))) by (rewrite <- F1, <- (map_h conj HC Ca), CS; reflexivity).
      rewrite F2. assert (C := E_conj _ (h_neq0 phi HP _ N)). rewrite E_phi in C. assert (N0 := fpow_neq_0 K KL _ p (E_neq0 _ N)).
      apply (fmul_cancel_l K KL (fpow (Ex (h A B S)) p)); [exact N0|]. transitivity (1 : K); [rewrite <- C; ring|]. rewrite <- Q. ring.
    - rewrite F1, E_phi. symmetry. exact Q.
  Qed.
  Lemma kerP A B S : Vset A -> Vset B -> Uset S -> Ex (h A B (mul (Npos n) S)) = fpow (Ex (h A B S)) (Npos n).
  Proof.
    intros VA VB US. rewrite !nU by assumption. assert (N := hV_neq0 A B S VA VB US). assert (Q := Hker _ N).
    destruct VA as (_ & CA & FA). destruct VB as (_ & CB & FB).
    assert (F1 : h A B (point_map phi S) = phi (h A B S)) by (rewrite <- FA at 1; rewrite <- FB at 1; apply (map_h phi HP Pa)).
    destruct sg.
    - assert (F2 : h A B (point_map conj (point_map phi S)) = conj (phi (h A B S))) by (rewrite <- F1, <- (map_h conj HC Ca), CA, CB; reflexivity).
      rewrite F2. assert (C := E_conj _ (h_neq0 phi HP _ N)). rewrite E_phi in C. assert (N0 := fpow_neq_0 K KL _ p (E_neq0 _ N)).
      apply (fmul_cancel_l K KL (fpow (Ex (h A B S)) p)); [exact N0|]. transitivity (1 : K); [rewrite <- C; ring|]. rewrite <- Q. ring.
    - rewrite F1, E_phi. symmetry. exact Q.
  Qed.

  (** ** bilinearity of the power of f_n *)
  Definition Tn (Q S : point K) : K := Ex (miller_fun K a n Q S).
  Lemma Tn_add_l Q Q' S : Uset Q -> Uset Q' -> Vset S -> Tn (Q ⊕ Q') S = Tn Q S * Tn Q' S.
  Proof.
    intros UQ UQ' VS. unfold Tn, miller_fun. destruct (pdec K S) as [->|NS]; [rewrite !miller_inf, (fpow_one K R); ring|].
    assert (L := f_equal (fun x => Ex x) (lin_Q n Q Q' S UQ UQ' VS NS nlt)). cbn beta in L. rewrite !E_mul in L.
    rewrite (kerQ Q Q' S UQ UQ' VS), E_pow in L.
    apply (fmul_cancel_l K KL (fpow (Ex (h Q Q' S)) (Npos n))).
    - apply (fpow_neq_0 K KL), E_neq0, hU_neq0; assumption.
    - transitivity (Ex (f n (Q ⊕ Q') S) * fpow (Ex (h Q Q' S)) (Npos n)); [ring|]. rewrite <- L. ring.
  Qed.
  Lemma Tn_add_r Q S S' : Uset Q -> Vset S -> Vset S' -> Tn Q (S ⊕ S') = Tn Q S * Tn Q S'.
  Proof.
    intros UQ VS VS'. unfold Tn, miller_fun. assert (L := lin_P n Q S S' UQ VS VS' nlt). rewrite (kerP S S' Q VS VS' UQ) in L.
    apply (fmul_cancel_l K KL (fpow (Ex (h S S' Q)) (Npos n))).
    - apply (fpow_neq_0 K KL), E_neq0, hV_neq0; assumption.
    - transitivity (Ex (f n Q (S ⊕ S')) * fpow (Ex (h S S' Q)) (Npos n)); [ring|]. rewrite <- L. ring.
  Qed.
  Lemma f_neq0 m Q S : Uset Q -> Vset S -> (Npos m < r)%N -> f m Q S <> 0.
  Proof.
    intros UQ VS. assert (DB : forall m, f m Q S <> 0 -> f (xO m) Q S <> 0).
    { intros k N. rewrite miller_xO by apply UQ. repeat apply (fmul_neq_0 K KL); try exact N. apply hU_neq0; try assumption; apply U_mul; assumption. }
    induction m as [m IH|m IH|]; intros L.
    - rewrite miller_xI by assumption. apply (fmul_neq_0 K KL); [apply DB, IH; lia|]. apply hU_neq0; try assumption. apply U_mul; assumption.
    - apply DB, IH. lia.
    - exact (F_1_neq_0 (FL_th K KL)).
  Qed.
  Lemma Tn_neq0 Q S : Uset Q -> Vset S -> Tn Q S <> 0.
  Proof. intros UQ VS. apply E_neq0, f_neq0; assumption. Qed.
  Lemma Tn_inf_l S : Vset S -> Tn Inf S = 1.
  Proof.
    intros VS. apply (fmul_cancel_l K KL (Tn Inf S)); [apply Tn_neq0; [exact U_inf|exact VS]|].
    rewrite <- (Tn_add_l Inf Inf S U_inf U_inf VS). cbn [ec_add]. ring.
  Qed.
  Lemma Tn_inf_r Q : Tn Q Inf = 1.
  Proof. unfold Tn, miller_fun. rewrite miller_inf. apply (fpow_one K R). Qed.
  Lemma Tn_mul_l k Q S : Uset Q -> Vset S -> Tn (mul k Q) S = fpow (Tn Q S) k.
  Proof.
    intros UQ VS. rewrite gm. induction k as [|k IH] using N.peano_ind; [rewrite (gmul_0 G); apply Tn_inf_l, VS|].
    rewrite (gmul_succ G), (fpow_succ K) by apply UQ. rewrite <- IH. apply Tn_add_l; try assumption. rewrite <- gm. apply U_mul, UQ.
  Qed.
  Lemma Tn_mul_r k Q S : Uset Q -> Vset S -> Tn Q (mul k S) = fpow (Tn Q S) k.
  Proof.
    intros UQ VS. rewrite gm. induction k as [|k IH] using N.peano_ind; [rewrite (gmul_0 G); apply Tn_inf_r|].
    rewrite (gmul_succ G), (fpow_succ K) by apply VS. rewrite <- IH. apply Tn_add_r; try assumption. rewrite <- gm. apply V_mul, VS.
  Qed.
  (** f_(-n) *)
  Definition Tm (Q S : point K) : K := Ex (miller_fun_neg K a n Q S).
  Lemma vert_neq0 A S : Uset A -> Vset S -> vertical K A S <> 0.
  Proof.
    intros UA VS. assert (N1 := F_1_neq_0 (FL_th K KL)). destruct (pdec K A) as [->|NA]; [destruct S; exact N1|]. destruct (pdec K S) as [->|NS]; [destruct A; exact N1|].
    destruct (U_av S A VS NS UA) as [|N]; [contradiction|]. destruct A, S; try congruence. exact N.
  Qed.
  Lemma vert_killed A S : Uset A -> Vset S -> Ex (vertical K A S) = 1.
  Proof.
    intros UA VS. apply Hfix; [apply vert_neq0; assumption|].
    rewrite <- (hom_vertical K K conj HC). destruct UA as (_ & -> & _). destruct VS as (_ & -> & _). destruct A, S; reflexivity.
  Qed.
  Lemma Tm_Tn Q S : Uset Q -> Vset S -> Tm Q S = finv (Tn Q S).
  Proof.
    intros UQ VS. assert (UN := U_mul (N.pos n) Q UQ). assert (N := f_neq0 n Q S UQ VS nlt).
    assert (VK := vert_killed _ S UN VS). assert (V0 := vert_neq0 _ S UN VS).
    unfold Tm, Tn, miller_fun_neg, miller_fun. assert (E := miller_snd n Q S (proj1 UQ)). 
    destruct (miller K a n Q S) as [g T]. cbn [fst snd] in *. subst T. set (v := vertical K _ S) in *.
    assert (X : Ex (finv (g * v)) * (Ex g * Ex v) = 1).
    { rewrite <- !E_mul. transitivity (Ex (1 : K)); [f_equal; field; split; assumption|apply (fpow_one K R)]. }
    rewrite VK in X. apply (fmul_cancel_l K KL (Ex g)); [apply E_neq0, N|]. transitivity (1 : K); [rewrite <- X; ring|].
    field. apply E_neq0, N.
  Qed.
  Lemma Tm_neq0 Q S : Uset Q -> Vset S -> Tm Q S <> 0.
  Proof. intros UQ VS. rewrite Tm_Tn by assumption. apply (finv_neq_0 K KL), Tn_neq0; assumption. Qed.
  Lemma Tm_add_l Q Q' S : Uset Q -> Uset Q' -> Vset S -> Tm (Q ⊕ Q') S = Tm Q S * Tm Q' S.
  Proof.
    intros UQ UQ' VS. rewrite !Tm_Tn, Tn_add_l by (try apply U_add; assumption). field. split; apply Tn_neq0; assumption.
  Qed.
  Lemma Tm_add_r Q S S' : Uset Q -> Vset S -> Vset S' -> Tm Q (S ⊕ S') = Tm Q S * Tm Q S'.
  Proof.
    intros UQ VS VS'. rewrite !Tm_Tn, Tn_add_r by (try apply V_add; assumption). field. split; apply Tn_neq0; assumption.
  Qed.
  Lemma finv_pow x k : x <> 0 -> finv (fpow x k) = fpow (finv x : K) k.
  Proof.
    intros N. apply (fmul_cancel_l K KL (fpow x k)); [apply (fpow_neq_0 K KL), N|]. rewrite <- (fpow_mul_l K R).
    transitivity (fpow (1 : K) k); [|f_equal; field; exact N]. rewrite (fpow_one K R). field. apply (fpow_neq_0 K KL), N.
  Qed.
  Lemma Tm_mul_l k Q S : Uset Q -> Vset S -> Tm (mul k Q) S = fpow (Tm Q S) k.
  Proof. intros UQ VS. rewrite !Tm_Tn, Tn_mul_l by (try apply U_mul; assumption). apply finv_pow, Tn_neq0; assumption. Qed.
  Lemma Tm_mul_r k Q S : Uset Q -> Vset S -> Tm Q (mul k S) = fpow (Tm Q S) k.
  Proof. intros UQ VS. rewrite !Tm_Tn, Tn_mul_r by (try apply V_mul; assumption). apply finv_pow, Tn_neq0; assumption. Qed.
End Bil.
