(** Simplified SWU and the isogeny maps. *)
From Coq Require Import ZArith NArith List Bool Lia Ring Field.
From Verif Require Import Base.Field Base.Ext Base.Hom Spec.Weierstrass Spec.H2c Model.ShortWeierstrass Model.Sqrt Model.H2c
  Proof.Homs Proof.Frob Proof.FiniteField Proof.Marshalling Proof.PolyEval.
Import ListNotations.
Local Open Scope fld_scope.

Section SWU.
  Variables (K : FieldOps) (KL : FieldLaws K).
  Add Field KF : (FL_th K KL).
  Let R := FieldLaws_Ring K KL.
  Variables (pow : K -> N -> K) (is_square : K -> bool) (sqrt : K -> option K) (Ai Bi Z : K) (sgn0 : K -> bool).
  Hypothesis POW : forall x e, pow x e = fpow x e.
  Hypothesis SQ : forall a, is_square a = true <-> is_sq a.
  Hypothesis RT : forall a, a <> 0 -> is_sq a -> exists r, sqrt a = Some r /\ r * r = a.
  Hypothesis NSQ : forall a b : K, ~ is_sq a -> ~ is_sq b -> is_sq (a * b).
  Hypothesis INV0 : @finv K 0 = 0.
  Hypothesis C : swu_conditions Ai Bi Z.
  Local Notation g := (rhs Ai Bi).

  Lemma swu_g_rhs x : swu_g K pow Ai Bi x = g x.
  Proof. unfold swu_g, rhs. rewrite POW. change 3%N with (2 + 1)%N. rewrite (fpow_add K R), (fpow_2 K R), (fpow_1 K R). ring. Qed.
  Lemma Z_nz : Z <> 0.
  Proof. intros E. apply (sc_Z _ _ _ C). exists 0. rewrite E. ring. Qed.
  Lemma swu_d u : pow Z 2 * pow u 4 + Z * pow u 2 = Z * (u * u) * (Z * (u * u)) + Z * (u * u).
  Proof. rewrite !POW. change 4%N with (2 + 2)%N. rewrite (fpow_add K R), !(fpow_2 K R). unfold fsqr. ring. Qed.
  Lemma swu_key u : swu_tv1 K pow Z u <> 0 ->
    g (swu_x2 K pow Ai Bi Z u) = Z * (Z * (u * u * u)) * (Z * (u * u * u)) * g (swu_x1 K pow Ai Bi Z u).
  Proof.
    intros T. assert (A0 := sc_A _ _ _ C). unfold swu_x2, swu_x1. cbv zeta.
    assert (E : swu_tv1 K pow Z u =? 0 = false) by (apply (feqb_false K R); exact T). rewrite E. clear E.
    unfold swu_tv1 in *. rewrite swu_d in *. rewrite POW, (fpow_2 K R). 
    replace (Z * (Z * (u * u * u)) * (Z * (u * u * u))) with (Z * (u * u) * (Z * (u * u)) * (Z * (u * u))) by ring.
    change (fsqr u) with (u * u).
    set (t := Z * (u * u)) in *.
    assert (D : t * t + t <> 0) by (intros D; apply T; rewrite D; exact INV0).
    unfold rhs. field. split; assumption.
  Qed.
  Lemma swu_squares u : ~ is_sq (g (swu_x1 K pow Ai Bi Z u)) -> is_sq (g (swu_x2 K pow Ai Bi Z u)).
  Proof.
    intros N. destruct (feqb (swu_tv1 K pow Z u) 0) eqn:E.
    - exfalso. apply N. unfold swu_x1. cbv zeta. rewrite E. exact (sc_exc _ _ _ C).
    - apply (feqb_false K R) in E. rewrite (swu_key u E).
      destruct (NSQ _ _ (sc_Z _ _ _ C) N) as [s Hs]. exists (Z * (u * u * u) * s).
      transitivity (Z * (u * u * u) * (Z * (u * u * u)) * (s * s)); [ring|]. rewrite Hs. ring.
  Qed.
  (** y = 0 is returned, or not possible *)
  Hypothesis ROOT : (forall x, g x <> 0) \/ sqrt 0 = Some 0.
  Lemma sqrt_sq x : is_sq (g x) -> exists y, sqrt (g x) = Some y /\ y * y = g x.
  Proof.
    intros S. destruct (feqb (g x) 0) eqn:E.
    - apply (feqb_true K R) in E. destruct ROOT as [N|S0]; [destruct (N x E)|].
      exists 0. rewrite E. split; [exact S0|ring].
    - apply (feqb_false K R) in E. exact (RT _ E S).
  Qed.
  Hypothesis SG : is_sign sgn0.
  Lemma pick_sign s y : let y' := if negb (Bool.eqb s (sgn0 y)) then - y else y in
    y' * y' = y * y /\ (y' <> 0 -> sgn0 y' = s).
  Proof.
    cbv zeta. destruct (Bool.eqb s (sgn0 y)) eqn:E; cbn [negb].
    - apply Bool.eqb_prop in E. split; [reflexivity|]. intros _. symmetry. exact E.
    - split; [ring|]. intros N. assert (y <> 0) by (intros E'; apply N; rewrite E'; ring).
      rewrite (SG y H). destruct s, (sgn0 y); cbn in *; congruence.
  Qed.
  Lemma swu_at u x : (if is_square (g (swu_x1 K pow Ai Bi Z u)) then swu_x1 K pow Ai Bi Z u else swu_x2 K pow Ai Bi Z u) = x ->
    exists y, swu K pow is_square sqrt Ai Bi Z sgn0 u = Some (mkT x y 1) /\ y * y = g x /\ (y <> 0 -> sgn0 y = sgn0 u).
  Proof.
    intros Ex. unfold swu. cbv zeta. rewrite !swu_g_rhs. 
    destruct (is_square (g (swu_x1 K pow Ai Bi Z u))) eqn:Q.
    - destruct (sqrt_sq (swu_x1 K pow Ai Bi Z u)) as (y & E & S); [apply SQ; exact Q|]. rewrite E. cbn [option_map].
      destruct (pick_sign (sgn0 u) y) as [P1 P2]. eexists. subst x. split; [reflexivity|]. split; [rewrite P1; exact S|exact P2].
    - assert (N : ~ is_sq (g (swu_x1 K pow Ai Bi Z u))) by (intros S; apply SQ in S; congruence).
      destruct (sqrt_sq (swu_x2 K pow Ai Bi Z u)) as (y & E & S); [exact (swu_squares u N)|]. rewrite E. cbn [option_map].
      destruct (pick_sign (sgn0 u) y) as [P1 P2]. eexists. subst x. split; [reflexivity|]. split; [rewrite P1; exact S|exact P2].
  Qed.
  Lemma swu_x1_rfc u : rfc_x1 Ai Bi Z u (swu_x1 K pow Ai Bi Z u).
  Proof.
    assert (E : Z * Z * (u * u * u * u) + Z * (u * u) = pow Z 2 * pow u 4 + Z * pow u 2) by (rewrite swu_d; ring).
    unfold rfc_x1. cbv zeta. rewrite E. unfold swu_x1, swu_tv1. cbv zeta. generalize (pow Z 2 * pow u 4 + Z * pow u 2). intros d. split; intros D.
    - rewrite D, INV0, (feqb_refl K R). reflexivity.
    - rewrite (proj2 (feqb_false K R _ _)); [reflexivity|]. intros Q. apply (F_1_neq_0 (FL_th K KL)).
      transitivity (d * finv d); [|rewrite Q; ring]. field. exact D.
  Qed.
  Lemma swu_ok u : exists x y, swu K pow is_square sqrt Ai Bi Z sgn0 u = Some (mkT x y 1) /\ rfc_swu Ai Bi Z sgn0 u x y.
  Proof.
    destruct (swu_at u _ eq_refl) as (y & E & Q & S). do 2 eexists. split; [exact E|]. split; [|exact Q|exact S].
    exists (swu_x1 K pow Ai Bi Z u). split; [exact (swu_x1_rfc u)|]. split; intros H.
    - rewrite (proj2 (SQ _) H). reflexivity.
    - destruct (is_square (g (swu_x1 K pow Ai Bi Z u))) eqn:E'; [destruct (H (proj1 (SQ _) E'))|].
      unfold swu_x2. rewrite POW, (fpow_2 K R). reflexivity.
  Qed.
End SWU.

(** the product of two non-squares of a finite field is a square *)
Section NonSq.
Variables (F : FieldOps) (p n : N) (FF : FinField F p n).
Let KL := FF_field _ _ _ FF.
Let R := FieldLaws_Ring F KL.
Add Ring FR2 : (RL_th F R).
Lemma nonsq_mul pow half :
  (forall (x : F) e, pow x e = fpow x e) -> (2 * half = p ^ n - 1)%N ->
  (forall a, is_square_m F pow half a = true <-> is_sq a) ->
  forall a b : F, ~ is_sq a -> ~ is_sq b -> is_sq (a * b).
Proof.
  intros P HH D a b Na Nb.
  assert (M : forall c : F, ~ is_sq c -> fpow c half = @fopp F f1).
  { intros c Nc. assert (Q : is_square_m F pow half c = false).
    { destruct (is_square_m F pow half c) eqn:Q; [destruct (Nc (proj1 (D c) Q))|reflexivity]. }
    unfold is_square_m in Q. cbv zeta in Q. rewrite P in Q. apply orb_false_iff in Q. destruct Q as [Q1 Q0].
    assert (c <> 0) by (intros E; apply Nc; exists 0; rewrite E; ring).
    assert (S := FF_fermat F p n FF c H). replace (p ^ n - 1)%N with (half + half)%N in S by lia. rewrite (fpow_add F R) in S.
    apply (feqb_false F R) in Q1.
    destruct (feqb (fpow c half + 1) 0) eqn:E.
    - apply (feqb_true F R) in E. transitivity (fpow c half + 1 - 1); [ring|]. rewrite E. ring.
    - apply (feqb_false F R) in E. exfalso. apply (fmul_neq_0 F KL (fpow c half - 1) (fpow c half + 1)).
      + intros E'. apply Q1. transitivity (fpow c half - 1 + 1); [ring|]. rewrite E'. ring.
      + exact E.
      + transitivity (fpow c half * fpow c half - 1); [ring|]. rewrite S. ring. }
  apply D. unfold is_square_m. cbv zeta. rewrite P, (fpow_mul_l F R), (M a Na), (M b Nb).
  replace (@fmul F (fopp f1) (fopp f1)) with (@f1 F) by ring. rewrite (feqb_refl F R). reflexivity.
Qed.
End NonSq.

Section Iso.
  Variables (K : FieldOps) (KL : FieldLaws K).
  Add Field KF2 : (FL_th K KL).
  Let R := FieldLaws_Ring K KL.
  Lemma xi_nth n b x i : (i <= n)%nat -> nth_error (xi_powers K n b x) i = Some (b * fpow x (N.of_nat i)).
  Proof.
    revert b i. induction n as [|n IH]; intros b [|i] H; cbn [xi_powers nth_error]; try lia.
    - f_equal. change (fpow x (N.of_nat 0)) with (@f1 K). ring.
    - f_equal. change (fpow x (N.of_nat 0)) with (@f1 K). ring.
    - rewrite IH by lia. f_equal. replace (N.of_nat (S i)) with (1 + N.of_nat i)%N by lia.
      rewrite (fpow_add K R), (fpow_1 K R). ring.
  Qed.
  Lemma iso_sum_eval n x ks : forall i acc, (i + length ks <= S n)%nat ->
    iso_sum K (xi_powers K n 1 x) ks i acc = Some (acc + fpow x (N.of_nat i) * peval ks x).
  Proof.
    induction ks as [|k ks IH]; intros i acc H; cbn [iso_sum peval length] in *.
    - f_equal. ring.
    - rewrite xi_nth by lia. rewrite IH by lia. f_equal. replace (N.of_nat (S i)) with (1 + N.of_nat i)%N by lia.
      rewrite (fpow_add K R), (fpow_1 K R). ring.
  Qed.
  Lemma iso_den_eval n x ks : (length ks <= n)%nat ->
    iso_den K (xi_powers K n 1 x) ks = Some (peval (ks ++ [1]) x).
  Proof.
    intros H. unfold iso_den. rewrite iso_sum_eval, xi_nth by lia. f_equal.
    rewrite (peval_app K R). cbn [peval]. change (fpow x (N.of_nat 0)) with (@f1 K). ring.
  Qed.
  Lemma peval_poly (l : list K) (x : K) : peval l x = poly l x.
  Proof. induction l as [|c l IH]; [reflexivity|]. cbn [peval poly fold_right]. rewrite IH. reflexivity. Qed.
  Variables (kxn kxd kyn kyd : list K) (n : nat) (one : triple K).
  Hypothesis L : (length kxn <= S n /\ length kyn <= S n /\ length kxd <= n /\ length kyd <= n)%nat.
  Local Notation im := (iso_map K kxn kxd kyn kyd n one).
  Lemma iso_map_eval x y z : im (mkT x y z) =
    if feqb (peval (kxd ++ [1]) x) 0 || feqb (peval (kyd ++ [1]) x) 0 then Some one
    else Some (mkT (peval kxn x * finv (peval (kxd ++ [1]) x)) (y * peval kyn x * finv (peval (kyd ++ [1]) x)) 1).
  Proof.
    unfold iso_map. cbv zeta. cbn [tX tY]. rewrite !iso_den_eval, !iso_sum_eval by lia.
    change (fpow x (N.of_nat 0)) with (@f1 K).
    replace (0 + 1 * peval kxn x) with (peval kxn x) by ring.
    replace (0 + 1 * peval kyn x) with (peval kyn x) by ring. reflexivity.
  Qed.
  Variables (cA cB b : K).
  Definition iso_identity : Prop := forall x,
    peval kyn x * peval kyn x * rhs cA cB x * (peval (kxd ++ [1]) x * peval (kxd ++ [1]) x * peval (kxd ++ [1]) x) =
    (peval kxn x * peval kxn x * peval kxn x + b * (peval (kxd ++ [1]) x * peval (kxd ++ [1]) x * peval (kxd ++ [1]) x)) *
    (peval (kyd ++ [1]) x * peval (kyd ++ [1]) x).
  Lemma iso_curve x y z : iso_identity -> y * y = rhs cA cB x ->
    peval (kxd ++ [1]) x <> 0 -> peval (kyd ++ [1]) x <> 0 ->
    exists X Y, im (mkT x y z) = Some (mkT X Y 1) /\ rfc_iso kxn kxd kyn kyd x y X Y /\ Y * Y = X * X * X + b.
  Proof.
    intros I E D1 D2. rewrite iso_map_eval. rewrite (proj2 (feqb_false K R _ _) D1), (proj2 (feqb_false K R _ _) D2). cbn [orb].
    do 2 eexists. split; [reflexivity|].
    split; [split; rewrite <- !peval_poly; [exact D1|exact D2|field; exact D1|field; exact D2]|]. assert (J := I x). rewrite <- E in J. revert D1 D2 J.
    generalize (peval (kxd ++ [1]) x) (peval (kyd ++ [1]) x) (peval kxn x) (peval kyn x). intros xd yd xn yn D1 D2 J.
    transitivity ((yn * yn * (y * y) * (xd * xd * xd)) * finv (xd * xd * xd * (yd * yd))); [field; split; assumption|].
    rewrite J. field. split; assumption.
  Qed.
  Lemma iso_den0 x y z : peval (kxd ++ [1]) x = 0 -> im (mkT x y z) = Some one.
  Proof. intros E. rewrite iso_map_eval, E. rewrite (feqb_refl K R). reflexivity. Qed.
End Iso.

(** the identity, checked on coefficients *)
Definition iso_check (K : FieldOps) (kxn kxd kyn kyd : list K) (cA cB b : K) : bool :=
  let xd := lcube (kxd ++ [1]) in
  leqb (lmul (lmul (lmul kyn kyn) [cB; cA; 0; 1]) xd)
       (lmul (ladd (lcube kxn) (lscale b xd)) (lmul (kyd ++ [1]) (kyd ++ [1]))).
Section Sound.
Variables (K : FieldOps) (R : RingLaws K).
Add Ring KR3 : (RL_th K R).
Lemma iso_check_sound kxn kxd kyn kyd cA cB b :
  iso_check K kxn kxd kyn kyd cA cB b = true -> iso_identity K kxn kxd kyn kyd cA cB b.
Proof.
  intros C x. unfold iso_check in C. cbv zeta in C. unfold lcube in C. apply (leqb_ok K R) with (x := x) in C.
  rewrite ?(peval_mul K R), ?(peval_add K R), ?(peval_scale K R), ?(peval_mul K R) in C. unfold rhs.
  assert (G : peval [cB; cA; 0; 1] x = x * x * x + cA * x + cB) by (cbn [peval]; ring). rewrite G in C.
  etransitivity; [|etransitivity; [exact C|]]; ring.
Qed.
End Sound.
Lemma iso_check_hom {A B : FieldOps} (h : A -> B) (H : Hom A B h) kxn kxd kyn kyd cA cB b :
  iso_check B (map h kxn) (map h kxd) (map h kyn) (map h kyd) (h cA) (h cB) (h b) = iso_check A kxn kxd kyn kyd cA cB b.
Proof.
  unfold iso_check, lcube. cbv zeta. rewrite <- (hom_1 _ _ _ H), <- (hom_0 _ _ _ H).
  change [h cB; h cA; h 0; h 1] with (map h [cB; cA; 0; 1]). change [h 1] with (map h [1]). rewrite <- !map_app.
  rewrite <- !(map_lmul h H), <- (map_lscale h H), <- (map_ladd h H), <- !(map_lmul h H). apply (map_leqb h H).
Qed.
