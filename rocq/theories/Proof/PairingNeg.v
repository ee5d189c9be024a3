(** Miller functions under field automorphisms and under negation. *)
From Coq Require Import ZArith NArith List Bool Lia Ring Field.
From Verif Require Import Base.Field Base.Ext Base.Hom Spec.Weierstrass Spec.Pairing Proof.PairingMiller Proof.PairingBls.
Local Open Scope fld_scope.

Section Hom.
  Variables F G : FieldOps.
  Hypothesis KF : FieldLaws F.
  Hypothesis KG : FieldLaws G.
  Let RF := FieldLaws_Ring F KF.
  Variable h : F -> G.
  Hypothesis H : Hom F G h.
  Hypothesis I0 : finv (0 : F) = 0.
  Hypothesis J0 : finv (0 : G) = 0.
  Lemma h_inv x : h (finv x) = finv (h x).
  Proof.
    destruct (feq_dec F RF x 0) as [->|N]; [rewrite I0, (hom_0 _ _ _ H), J0; reflexivity|].
    apply (emb_inv F G KF KG h H x N).
  Qed.
  Ltac hs := repeat first [rewrite (hom_add _ _ _ H) | rewrite (hom_mul _ _ _ H) | rewrite (hom_sub _ _ _ H) |
    rewrite (hom_opp _ _ _ H) | rewrite (hom_1 _ _ _ H) | rewrite (hom_0 _ _ _ H) | rewrite h_inv].
  Variable a : F.
  Lemma hom_line P Q S : line G (h a) (point_map h P) (point_map h Q) (point_map h S) = h (line F a P Q S).
  Proof.
    destruct P as [|x1 y1], Q as [|x2 y2], S as [|x y]; cbn [point_map line]; try (symmetry; apply (hom_1 _ _ _ H)).
    rewrite (hom_eqb _ _ _ H). destruct (x1 =? x2).
    - rewrite <- (hom_opp _ _ _ H y2), (hom_eqb _ _ _ H). destruct (y1 =? - y2); unfold fdiv; hs; reflexivity.
    - unfold fdiv; hs; reflexivity.
  Qed.
  Lemma hom_vertical P S : vertical G (point_map h P) (point_map h S) = h (vertical F P S).
  Proof. destruct P, S; cbn [point_map vertical]; hs; reflexivity. Qed.
  Lemma hom_ec_add P Q : ec_add G (h a) (point_map h P) (point_map h Q) = point_map h (ec_add F a P Q).
  Proof.
    destruct P as [|x1 y1], Q as [|x2 y2]; try reflexivity. cbn [point_map ec_add].
    rewrite (hom_eqb _ _ _ H). destruct (x1 =? x2).
    - rewrite <- (hom_opp _ _ _ H y2), (hom_eqb _ _ _ H). destruct (y1 =? - y2); [reflexivity|].
      unfold ec_line, fdiv. cbn [point_map]. hs. reflexivity.
    - unfold ec_line, fdiv. cbn [point_map]. hs. reflexivity.
  Qed.
  Lemma hom_miller n P S : miller G (h a) n (point_map h P) (point_map h S) =
    (h (fst (miller F a n P S)), point_map h (snd (miller F a n P S))).
  Proof.
    induction n as [m IH|m IH|]; cbn [miller].
    - rewrite IH. destruct (miller F a m P S) as [f R]. cbn [fst snd].
      rewrite !hom_ec_add, !hom_line, !hom_vertical. unfold fdiv. hs. reflexivity.
    - rewrite IH. destruct (miller F a m P S) as [f R]. cbn [fst snd].
      rewrite !hom_ec_add, !hom_line, !hom_vertical. unfold fdiv. hs. reflexivity.
    - cbn [fst snd]. hs. reflexivity.
  Qed.
End Hom.

Section Neg.
  Variable G : FieldOps.
  Hypothesis KG : FieldLaws G.
  Let RG := FieldLaws_Ring G KG.
  Add Field Gneg : (FL_th G KG).
  Variable a : G.
  Hypothesis J0 : finv (0 : G) = 0.
  Definition pm (s : G) : Prop := s = 1 \/ s = - (1).
  Lemma pm_mul s t : pm s -> pm t -> pm (s * t).
  Proof. intros [->| ->] [->| ->]; [left|right|right|left]; ring. Qed.
  Lemma eqb_opp (x y : G) : ((- x) =? (- y)) = (x =? y).
  Proof.
    destruct (feqb_spec G RG x y) as [->|N]; [apply (feqb_refl G RG)|]. apply (feqb_false G RG). intros E. apply N.
    transitivity (- - x); [ring|]. rewrite E. ring.
  Qed.
  Lemma neg_inv (x : G) : finv (- x) = - finv x.
  Proof.
    destruct (feq_dec G RG x 0) as [->|N]; [replace (- 0 : G) with (0 : G) by ring; rewrite J0; ring|]. field.
    split; [exact N|]. intros E. apply N. transitivity (- - x); [ring|]. rewrite E. ring.
  Qed.
  Lemma line_neg P Q S : exists s, pm s /\ line G a P Q (ec_neg S) = s * line G a (ec_neg P) (ec_neg Q) S.
  Proof.
    destruct P as [|x1 y1], Q as [|x2 y2], S as [|x y]; cbn [ec_neg line]; try (exists 1; split; [left; reflexivity|ring]).
    destruct (x1 =? x2); [rewrite eqb_opp; destruct (y1 =? - y2)|].
    - exists 1. split; [left; reflexivity|ring].
    - exists (- (1)). split; [right; reflexivity|]. unfold fdiv. replace (2 * (- y1)) with (- (2 * y1)) by ring. rewrite neg_inv. ring.
    - exists (- (1)). split; [right; reflexivity|]. unfold fdiv. ring.
  Qed.
  Lemma vertical_neg P S : vertical G P (ec_neg S) = vertical G (ec_neg P) S.
  Proof. destruct P, S; reflexivity. Qed.
  Lemma ec_add_neg P Q : ec_add G a (ec_neg P) (ec_neg Q) = ec_neg (ec_add G a P Q).
  Proof.
    destruct P as [|x1 y1], Q as [|x2 y2]; try reflexivity. cbn [ec_neg ec_add].
    destruct (x1 =? x2); [rewrite eqb_opp; destruct (y1 =? - y2)|]; [reflexivity| |].
    - unfold ec_line, fdiv. replace (2 * (- y1)) with (- (2 * y1)) by ring. rewrite neg_inv. cbn [ec_neg]. f_equal; ring.
    - unfold ec_line, fdiv. cbn [ec_neg]. f_equal; ring.
  Qed.
  Lemma miller_neg n Q S : exists s, pm s /\ fst (miller G a n Q (ec_neg S)) = s * fst (miller G a n (ec_neg Q) S) /\
    snd (miller G a n (ec_neg Q) S) = ec_neg (snd (miller G a n Q (ec_neg S))).
  Proof.
    induction n as [m IH|m IH|]; cbn [miller].
    - destruct IH as (s & Ps & E1 & E2). destruct (miller G a m Q (ec_neg S)) as [f R], (miller G a m (ec_neg Q) S) as [f' R'].
      cbn [fst snd] in *. subst f R'. rewrite !ec_add_neg, !vertical_neg.
      destruct (line_neg R R S) as (s1 & P1 & ->). destruct (line_neg (ec_add G a R R) Q S) as (s2 & P2 & ->).
      exists (s * s * s1 * s2). split; [repeat apply pm_mul; assumption|]. split; [unfold fdiv; ring|reflexivity].
    - destruct IH as (s & Ps & E1 & E2). destruct (miller G a m Q (ec_neg S)) as [f R], (miller G a m (ec_neg Q) S) as [f' R'].
      cbn [fst snd] in *. subst f R'. rewrite !ec_add_neg, !vertical_neg.
      destruct (line_neg R R S) as (s1 & P1 & ->).
      exists (s * s * s1). split; [repeat apply pm_mul; assumption|]. split; [unfold fdiv; ring|reflexivity].
    - exists 1. split; [left; reflexivity|]. cbn [fst snd]. split; [ring|reflexivity].
  Qed.
  Lemma pm_even s e : pm s -> N.Even e -> fpow s e = 1.
  Proof.
    intros Ps (k & ->). rewrite (fpow_mul G RG). replace (fpow s 2) with (1 : G); [apply (fpow_one G RG)|].
    destruct Ps as [->| ->]; cbn; ring.
  Qed.
  (** a conjugation fixing S and negating Q *)
  Variable conj : G -> G.
  Hypothesis HC : Hom G G conj.
  Hypothesis Ca : conj a = a.
  Variable e : N.
  Hypothesis Ee : N.Even e.
  Hypothesis Hn : forall x, x <> 0 -> killed G e (x * conj x).
  Variables Q S : point G.
  Hypothesis CQ : point_map conj Q = ec_neg Q.
  Hypothesis CS : point_map conj S = S.
  Lemma conj_pow x : x <> 0 -> fpow (conj x) e = finv (fpow x e).
  Proof.
    intros N. destruct (Hn x N) as [NZ E]. rewrite (fpow_mul_l G RG) in E.
    assert (X : fpow x e <> 0) by (intros Z; apply (F_1_neq_0 (FL_th G KG)); rewrite <- E, Z; ring).
    transitivity (fpow x e * fpow (conj x) e * finv (fpow x e)); [field; exact X|]. rewrite E. ring.
  Qed.
  Lemma conj_inv x : conj (finv x) = finv (conj x).
  Proof. apply (h_inv G G KG KG conj HC J0 J0). Qed.
  Lemma neg_Q n : miller G a n (ec_neg Q) S = (conj (fst (miller G a n Q S)), point_map conj (snd (miller G a n Q S))).
  Proof. rewrite <- CQ, <- CS at 1. rewrite <- Ca at 1. apply (hom_miller G G KG KG conj HC J0 J0). Qed.
  Theorem miller_fun_negQ n : miller_fun G a n Q S <> 0 ->
    fpow (miller_fun G a n (ec_neg Q) S) e = finv (fpow (miller_fun G a n Q S) e).
  Proof. intros N. unfold miller_fun at 1. rewrite neg_Q. cbn [fst]. apply conj_pow, N. Qed.
  Theorem miller_fun_neg_negQ n : miller_fun_neg G a n Q S <> 0 ->
    fpow (miller_fun_neg G a n (ec_neg Q) S) e = finv (fpow (miller_fun_neg G a n Q S) e).
  Proof.
    intros N. rewrite <- (conj_pow _ N). f_equal. unfold miller_fun_neg. rewrite neg_Q. destruct (miller G a n Q S) as [f R]. cbn [fst snd].
    rewrite conj_inv, (hom_mul _ _ _ HC). f_equal. f_equal. rewrite <- (hom_vertical G G conj HC), CS. reflexivity.
  Qed.
  Theorem miller_fun_negP n : fpow (miller_fun G a n Q (ec_neg S)) e = fpow (miller_fun G a n (ec_neg Q) S) e.
  Proof.
    unfold miller_fun. destruct (miller_neg n Q S) as (s & Ps & -> & _). rewrite (fpow_mul_l G RG), (pm_even s e Ps Ee). ring.
  Qed.
  Theorem miller_fun_neg_negP n : fpow (miller_fun_neg G a n Q (ec_neg S)) e = fpow (miller_fun_neg G a n (ec_neg Q) S) e.
  Proof.
    unfold miller_fun_neg. destruct (miller_neg n Q S) as (s & Ps & E1 & E2).
    destruct (miller G a n Q (ec_neg S)) as [f R], (miller G a n (ec_neg Q) S) as [f' R']. cbn [fst snd] in *. subst f R'.
    rewrite vertical_neg. set (v := vertical G _ S). replace (s * f' * v) with (s * (f' * v)) by ring.
    assert (E : finv (s * (f' * v)) = s * finv (f' * v)).
    { destruct Ps as [->| ->]; [replace (1 * (f' * v)) with (f' * v) by ring; ring|].
      replace (- (1) * (f' * v)) with (- (f' * v)) by ring. rewrite neg_inv. ring. }
    rewrite E, (fpow_mul_l G RG), (pm_even s e Ps Ee). ring.
  Qed.
End Neg.
