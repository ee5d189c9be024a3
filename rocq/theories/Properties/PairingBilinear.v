(** C63, C66: bilinearity and non-degeneracy of pair_reduced for bls12-381, mnt4-298 and mnt6-298. *)
From Coq Require Import ZArith NArith List Bool Lia Znumtheory Field_theory.
From Verif Require Import Base.Field Base.Zp Base.Ext Spec.Weierstrass Spec.Scalars Spec.Digits Spec.Pairing Spec.AtePairing
  Model.FieldParams Model.Shipped Model.CurveParams Model.Generators Model.ShortWeierstrass Model.Wnaf Model.FinalExp Model.Pairing Model.Fp2 Model.Fp3 Model.Fp4 Model.Fp6_2over3 Model.Fp12
  Proof.Homs Proof.FiniteField Proof.Shipped Proof.ShippedTowers Proof.Bls381 Proof.FinalExp Proof.Generators Proof.Wnaf
  Proof.PairingCore Proof.PairingMiller Proof.PairingA40 Proof.PairingBls Proof.PairingProj Proof.PairingMnt Proof.PairingShip Proof.PairingFinal
  Proof.TwistBilinear Proof.PairingBilinear Proof.BilinearUse Proof.PairingGen
  Properties.FinalExp Properties.Generators Properties.Pairing.
Import ListNotations.
Local Open Scope fld_scope.

(** ** C63: [gen] is membership in the group generated by g2 one().  The points are not the identity:
    what pair_reduced returns there is C48. *)

(** *** bls12-381 *)
Lemma bls_ns1' : nonsingular (Zp bls_p) 0 (tozp bls_p bls12_381_b : Zp bls_p).
Proof. exact (proj1 (C29_short_weierstrass bls_sw (in13 bls_sw shipped_sw_g1 13 eq_refl))). Qed.
Lemma bls_two1 : (2 : Zp bls_p) <> 0.
Proof. intros E. apply (f_equal zval) in E. discriminate E. Qed.
Definition bls_gen : point (t12_Fp2 bls_t) -> Prop := gen (t12_Fp2 bls_t) 0 bls_G2.
Lemma bls_gen_g2 Q t : bls_gen Q -> Q <> Inf -> rep_jacobian (tX t) (tY t) (tZ t) Q -> bls_g2 Q t.
Proof.
  intros G N T. split; [exact N|].
  split; [exact (gen_on (t12_Fp2 bls_t) bls_K2 bls_two2 0 bls12_381_g2_b (proj1 bls_ok_g2) bls_G2 (proj1 (proj2 bls_ok_g2)) Q G)|].
  split; [exact (gen_order (t12_Fp2 bls_t) bls_K2 bls_two2 0 bls12_381_g2_b (proj1 bls_ok_g2) bls_G2 bls_r (proj1 (proj2 bls_ok_g2)) (ok_mul _ _ _ _ _ bls_ok_g2) Q G)|exact T].
Qed.
Lemma bls_g1_zmul P t i t' : bls_g1 P t -> ec_zmul (Zp bls_p) 0 i P <> Inf -> rep_jacobian (tX t') (tY t') (tZ t') (ec_zmul (Zp bls_p) 0 i P) ->
  bls_g1 (ec_zmul (Zp bls_p) 0 i P) t'.
Proof.
  intros (N & O & R & _) N' T. split; [exact N'|].
  split; [exact (zmul_on (Zp bls_p) bls_K1 bls_two1 0 (tozp bls_p bls12_381_b : Zp bls_p) bls_ns1' i P O)|].
  split; [exact (zmul_order (Zp bls_p) bls_K1 bls_two1 0 (tozp bls_p bls12_381_b : Zp bls_p) bls_ns1' bls_r i P O R)|exact T].
Qed.
Lemma bls_g1_add P P' t t' s : bls_g1 P t -> bls_g1 P' t' -> ec_add (Zp bls_p) 0 P P' <> Inf -> rep_jacobian (tX s) (tY s) (tZ s) (ec_add (Zp bls_p) 0 P P') ->
  bls_g1 (ec_add (Zp bls_p) 0 P P') s.
Proof.
  intros (_ & O & R & _) (_ & O' & R' & _) N T. split; [exact N|].
  split; [exact (add_on (Zp bls_p) bls_K1 bls_two1 0 (tozp bls_p bls12_381_b : Zp bls_p) bls_ns1' P P' O O')|].
  split; [exact (add_order (Zp bls_p) bls_K1 bls_two1 0 (tozp bls_p bls12_381_b : Zp bls_p) bls_ns1' bls_r P P' O O' R R')|exact T].
Qed.
Theorem C63_bls12_381 std P Q i j tP tQ tP' tQ' : bls_g1 P tP -> bls_gen Q -> bls_g2 Q tQ ->
  ec_zmul (Zp bls_p) 0 i P <> Inf -> ec_zmul (t12_Fp2 bls_t) 0 j Q <> Inf ->
  rep_jacobian (tX tP') (tY tP') (tZ tP') (ec_zmul (Zp bls_p) 0 i P) -> rep_jacobian (tX tQ') (tY tQ') (tZ tQ') (ec_zmul (t12_Fp2 bls_t) 0 j Q) ->
  exists g, bls12_381_pair_reduced std tP tQ = Some g /\ g <> 0 /\ fpow g bls_r = 1 /\ bls12_381_pair_reduced std tP' tQ' = Some (fzpow g (i * j)).
Proof.
  intros A G B NP NQ TP TQ. destruct (bls_reduced std P Q tP tQ A B) as [E N]. exists (ate_bls12_381 P Q).
  assert (G' := gen_zmul (t12_Fp2 bls_t) bls_K2 bls_two2 0 bls12_381_g2_b (proj1 bls_ok_g2) bls_G2 bls_r bls_r_prime (proj1 (proj2 bls_ok_g2)) (ok_mul _ _ _ _ _ bls_ok_g2) j Q G).
  assert (E' := proj1 (bls_reduced std _ _ tP' tQ' (bls_g1_zmul P tP i tP' A NP TP) (bls_gen_g2 _ tQ' G' NQ TQ))).
  assert (O := proj1 (proj2 A)).
  assert (V := T_zmul (Zp bls_p) (t12_Fp2 bls_t) (t12_Fp12 bls_t) bls_K1 bls_K2 bls_KG bls_two1 bls_two2 0 (tozp bls_p bls12_381_b : Zp bls_p) 0 bls12_381_g2_b bls_ns1' (proj1 bls_ok_g2) bls_G2 ate_bls12_381 bls_bilinear bls_r bls_r_prime (proj1 (proj2 bls_ok_g2)) (ok_mul _ _ _ _ _ bls_ok_g2) i j P Q O G).
  assert (V' := T_order (Zp bls_p) (t12_Fp2 bls_t) (t12_Fp12 bls_t) bls_K1 bls_K2 bls_KG bls_two2 0 (tozp bls_p bls12_381_b : Zp bls_p) 0 bls12_381_g2_b (proj1 bls_ok_g2) bls_G2 ate_bls12_381 bls_bilinear bls_r bls_r_prime (proj1 (proj2 bls_ok_g2)) (ok_mul _ _ _ _ _ bls_ok_g2) P Q O G).
  exact (conj E (conj N (conj V' (eq_trans E' (f_equal Some V))))).
Qed.
Print Assumptions C63_bls12_381.
Theorem C63_bls12_381_add_left std P P' Q tP tP' tS tQ : bls_g1 P tP -> bls_g1 P' tP' -> bls_gen Q -> bls_g2 Q tQ ->
  ec_add (Zp bls_p) 0 P P' <> Inf -> rep_jacobian (tX tS) (tY tS) (tZ tS) (ec_add (Zp bls_p) 0 P P') ->
  exists g g', bls12_381_pair_reduced std tP tQ = Some g /\ bls12_381_pair_reduced std tP' tQ = Some g' /\ bls12_381_pair_reduced std tS tQ = Some (g * g').
Proof.
  intros A A' G B N T. exists (ate_bls12_381 P Q), (ate_bls12_381 P' Q).
  assert (E := proj1 (bls_reduced std P Q tP tQ A B)). assert (E' := proj1 (bls_reduced std P' Q tP' tQ A' B)).
  assert (S := proj1 (bls_reduced std _ Q tS tQ (bls_g1_add P P' tP tP' tS A A' N T) B)).
  assert (V := T_add_l (Zp bls_p) (t12_Fp2 bls_t) (t12_Fp12 bls_t) 0 (tozp bls_p bls12_381_b : Zp bls_p) 0 bls_G2 ate_bls12_381 bls_bilinear P P' Q (proj1 (proj2 A)) (proj1 (proj2 A')) G).
  exact (conj E (conj E' (eq_trans S (f_equal Some V)))).
Qed.
Print Assumptions C63_bls12_381_add_left.
Theorem C63_bls12_381_add_right std P Q Q' tP tQ tQ' tS : bls_g1 P tP -> bls_gen Q -> bls_g2 Q tQ -> bls_gen Q' -> bls_g2 Q' tQ' ->
  ec_add (t12_Fp2 bls_t) 0 Q Q' <> Inf -> rep_jacobian (tX tS) (tY tS) (tZ tS) (ec_add (t12_Fp2 bls_t) 0 Q Q') ->
  exists g g', bls12_381_pair_reduced std tP tQ = Some g /\ bls12_381_pair_reduced std tP tQ' = Some g' /\ bls12_381_pair_reduced std tP tS = Some (g * g').
Proof.
  intros A G B G' B' N T. exists (ate_bls12_381 P Q), (ate_bls12_381 P Q').
  assert (E := proj1 (bls_reduced std P Q tP tQ A B)). assert (E' := proj1 (bls_reduced std P Q' tP tQ' A B')).
  assert (GS := gen_add (t12_Fp2 bls_t) bls_K2 bls_two2 0 bls12_381_g2_b (proj1 bls_ok_g2) bls_G2 (proj1 (proj2 bls_ok_g2)) Q Q' G G').
  assert (S := proj1 (bls_reduced std P _ tP tS A (bls_gen_g2 _ tS GS N T))).
  assert (V := T_add_r (Zp bls_p) (t12_Fp2 bls_t) (t12_Fp12 bls_t) 0 (tozp bls_p bls12_381_b : Zp bls_p) 0 bls_G2 ate_bls12_381 bls_bilinear P Q Q' (proj1 (proj2 A)) G G').
  exact (conj E (conj E' (eq_trans S (f_equal Some V)))).
Qed.
Print Assumptions C63_bls12_381_add_right.

(** C66 *)
Lemma bls_one_g1 : bls_g1 bls_G1 bls_one1.
Proof.
  destruct (shipped_mul bls_sw bls_r (in13 bls_sw shipped_sw_g1 13 eq_refl) eq_refl) as (N & O & R).
  exact (conj N (conj O (conj R (one_jac (Zp bls_p) bls_K1 _ _)))).
Qed.
Lemma bls_one_g2 : bls_g2 bls_G2 bls_one2.
Proof.
  destruct (g2_mul _ _ _ _ _ bls_ok_g2) as (N & O & R).
  exact (conj N (conj O (conj R (one_jac (t12_Fp2 bls_t) bls_K2 _ _)))).
Qed.
Lemma bls_one_gen : bls_gen bls_G2.
Proof. exists 1%nat. reflexivity. Qed.
Lemma bls_one_neq1 : ate_bls12_381 bls_G1 bls_G2 <> 1.
Proof.
  assert (E := proj1 (bls_reduced true bls_G1 bls_G2 bls_one1 bls_one2 bls_one_g1 bls_one_g2)).
  exact (fe1_neq (t12_Fp12 bls_t) (FieldLaws_Ring _ bls_KG) _ (bls_value (ate_bls12_381 bls_G1 bls_G2) E)).
Qed.
Theorem C66_bls12_381 std i j tP tQ : ~ (Z.of_N bls_r | i)%Z -> ~ (Z.of_N bls_r | j)%Z ->
  rep_jacobian (tX tP) (tY tP) (tZ tP) (ec_zmul (Zp bls_p) 0 i bls_G1) -> rep_jacobian (tX tQ) (tY tQ) (tZ tQ) (ec_zmul (t12_Fp2 bls_t) 0 j bls_G2) ->
  exists g, bls12_381_pair_reduced std tP tQ = Some g /\ g <> 0 /\ g <> 1 /\ fpow g bls_r = 1 /\ g = fzpow (ate_bls12_381 bls_G1 bls_G2) (i * j).
Proof.
  intros I J TP TQ.
  assert (O1 := proj1 (proj2 bls_one_g1)). assert (R1 := proj1 (proj2 (proj2 bls_one_g1))).
  assert (NP : ec_zmul (Zp bls_p) 0 i bls_G1 <> Inf) by (intros Z; exact (I (zmul_inf (Zp bls_p) bls_K1 bls_two1 0 (tozp bls_p bls12_381_b : Zp bls_p) bls_ns1' bls_r bls_G1 i bls_r_prime O1 R1 (proj1 bls_one_g1) Z))).
  assert (NQ : ec_zmul (t12_Fp2 bls_t) 0 j bls_G2 <> Inf) by (intros Z; exact (J (zmul_inf (t12_Fp2 bls_t) bls_K2 bls_two2 0 bls12_381_g2_b (proj1 bls_ok_g2) bls_r bls_G2 j bls_r_prime (proj1 (proj2 bls_ok_g2)) (ok_mul _ _ _ _ _ bls_ok_g2) (proj1 bls_one_g2) Z))).
  destruct (C63_bls12_381 std bls_G1 bls_G2 i j bls_one1 bls_one2 tP tQ bls_one_g1 bls_one_gen bls_one_g2 NP NQ TP TQ) as (g0 & E0 & _ & _ & E1).
  assert (E2 := proj1 (bls_reduced std bls_G1 bls_G2 bls_one1 bls_one2 bls_one_g1 bls_one_g2)).
  assert (E3 : g0 = ate_bls12_381 bls_G1 bls_G2) by (apply (f_equal (fun o => match o with Some x => x | None => g0 end)) in E0; rewrite E2 in E0; symmetry; exact E0).
  exists (fzpow g0 (i * j)). rewrite E3 in E1 |- *.
  assert (G0 := T_neq0 (Zp bls_p) (t12_Fp2 bls_t) (t12_Fp12 bls_t) 0 (tozp bls_p bls12_381_b : Zp bls_p) 0 bls_G2 ate_bls12_381 bls_bilinear bls_G1 bls_G2 O1 bls_one_gen).
  assert (OR := T_order (Zp bls_p) (t12_Fp2 bls_t) (t12_Fp12 bls_t) bls_K1 bls_K2 bls_KG bls_two2 0 (tozp bls_p bls12_381_b : Zp bls_p) 0 bls12_381_g2_b (proj1 bls_ok_g2) bls_G2 ate_bls12_381 bls_bilinear bls_r bls_r_prime (proj1 (proj2 bls_ok_g2)) (ok_mul _ _ _ _ _ bls_ok_g2) bls_G1 bls_G2 O1 bls_one_gen).
  exact (conj E1 (nondeg (t12_Fp12 bls_t) bls_KG _ bls_r i j bls_r_prime OR G0 bls_one_neq1 I J)).
Qed.
Print Assumptions C66_bls12_381.


(** *** mnt4-298 *)
Lemma mnt4_ns1' : nonsingular (Zp mnt4_p) mnt4_a mnt4_b.
Proof. exact mnt4_ns1. Qed.
Lemma mnt4_two1 : (2 : Zp mnt4_p) <> 0.
Proof. intros E. apply (f_equal zval) in E. discriminate E. Qed.
Definition mnt4_gen : point (t4_Fp2 mnt4_tower) -> Prop := gen (t4_Fp2 mnt4_tower) mnt4_g2_a mnt4_G2.
Lemma mnt4_gen_g2 Q t : mnt4_gen Q -> Q <> Inf -> rep_projective (tX t) (tY t) (tZ t) Q -> mnt4_g2 Q t.
Proof.
  intros G N T. split; [exact N|].
  split; [exact (gen_on (t4_Fp2 mnt4_tower) mnt4_KF mnt4_two2 mnt4_g2_a mnt4_g2_b (proj1 mnt4_ok_g2) mnt4_G2 (proj1 (proj2 mnt4_ok_g2)) Q G)|].
  split; [exact (gen_order (t4_Fp2 mnt4_tower) mnt4_KF mnt4_two2 mnt4_g2_a mnt4_g2_b (proj1 mnt4_ok_g2) mnt4_G2 mnt4_r (proj1 (proj2 mnt4_ok_g2)) (ok_mul _ _ _ _ _ mnt4_ok_g2) Q G)|exact T].
Qed.
Lemma mnt4_g1_zmul P t i t' : mnt4_g1 P t -> ec_zmul (Zp mnt4_p) mnt4_a i P <> Inf -> rep_projective (tX t') (tY t') (tZ t') (ec_zmul (Zp mnt4_p) mnt4_a i P) ->
  mnt4_g1 (ec_zmul (Zp mnt4_p) mnt4_a i P) t'.
Proof.
  intros (N & O & R & _) N' T. split; [exact N'|].
  split; [exact (zmul_on (Zp mnt4_p) mnt4_K mnt4_two1 mnt4_a mnt4_b mnt4_ns1' i P O)|].
  split; [exact (zmul_order (Zp mnt4_p) mnt4_K mnt4_two1 mnt4_a mnt4_b mnt4_ns1' mnt4_r i P O R)|exact T].
Qed.
Lemma mnt4_g1_add P P' t t' s : mnt4_g1 P t -> mnt4_g1 P' t' -> ec_add (Zp mnt4_p) mnt4_a P P' <> Inf -> rep_projective (tX s) (tY s) (tZ s) (ec_add (Zp mnt4_p) mnt4_a P P') ->
  mnt4_g1 (ec_add (Zp mnt4_p) mnt4_a P P') s.
Proof.
  intros (_ & O & R & _) (_ & O' & R' & _) N T. split; [exact N|].
  split; [exact (add_on (Zp mnt4_p) mnt4_K mnt4_two1 mnt4_a mnt4_b mnt4_ns1' P P' O O')|].
  split; [exact (add_order (Zp mnt4_p) mnt4_K mnt4_two1 mnt4_a mnt4_b mnt4_ns1' mnt4_r P P' O O' R R')|exact T].
Qed.
Theorem C63_mnt4 find_wnaf std P Q i j tP tQ tP' tQ' : wnaf_contract find_wnaf -> mnt4_g1 P tP -> mnt4_gen Q -> mnt4_g2 Q tQ ->
  ec_zmul (Zp mnt4_p) mnt4_a i P <> Inf -> ec_zmul (t4_Fp2 mnt4_tower) mnt4_g2_a j Q <> Inf ->
  rep_projective (tX tP') (tY tP') (tZ tP') (ec_zmul (Zp mnt4_p) mnt4_a i P) -> rep_projective (tX tQ') (tY tQ') (tZ tQ') (ec_zmul (t4_Fp2 mnt4_tower) mnt4_g2_a j Q) ->
  exists g, mnt4_pair_reduced find_wnaf std tP tQ = Some g /\ g <> 0 /\ fpow g mnt4_r = 1 /\ mnt4_pair_reduced find_wnaf std tP' tQ' = Some (fzpow g (i * j)).
Proof.
  intros W A G B NP NQ TP TQ. destruct (mnt4_reduced find_wnaf std P Q tP tQ W A B) as [E N]. exists (ate_mnt4 mnt4_a P Q).
  assert (G' := gen_zmul (t4_Fp2 mnt4_tower) mnt4_KF mnt4_two2 mnt4_g2_a mnt4_g2_b (proj1 mnt4_ok_g2) mnt4_G2 mnt4_r mnt4_r_prime (proj1 (proj2 mnt4_ok_g2)) (ok_mul _ _ _ _ _ mnt4_ok_g2) j Q G).
  assert (E' := proj1 (mnt4_reduced find_wnaf std _ _ tP' tQ' W (mnt4_g1_zmul P tP i tP' A NP TP) (mnt4_gen_g2 _ tQ' G' NQ TQ))).
  assert (O := proj1 (proj2 A)).
  assert (V := T_zmul (Zp mnt4_p) (t4_Fp2 mnt4_tower) (t4_Fp4 mnt4_tower) mnt4_K mnt4_KF mnt4_KG mnt4_two1 mnt4_two2 mnt4_a mnt4_b mnt4_g2_a mnt4_g2_b mnt4_ns1' (proj1 mnt4_ok_g2) mnt4_G2 (ate_mnt4 mnt4_a) mnt4_bilinear mnt4_r mnt4_r_prime (proj1 (proj2 mnt4_ok_g2)) (ok_mul _ _ _ _ _ mnt4_ok_g2) i j P Q O G).
  assert (V' := T_order (Zp mnt4_p) (t4_Fp2 mnt4_tower) (t4_Fp4 mnt4_tower) mnt4_K mnt4_KF mnt4_KG mnt4_two2 mnt4_a mnt4_b mnt4_g2_a mnt4_g2_b (proj1 mnt4_ok_g2) mnt4_G2 (ate_mnt4 mnt4_a) mnt4_bilinear mnt4_r mnt4_r_prime (proj1 (proj2 mnt4_ok_g2)) (ok_mul _ _ _ _ _ mnt4_ok_g2) P Q O G).
  exact (conj E (conj N (conj V' (eq_trans E' (f_equal Some V))))).
Qed.
Print Assumptions C63_mnt4.
Theorem C63_mnt4_add_left find_wnaf std P P' Q tP tP' tS tQ : wnaf_contract find_wnaf -> mnt4_g1 P tP -> mnt4_g1 P' tP' -> mnt4_gen Q -> mnt4_g2 Q tQ ->
  ec_add (Zp mnt4_p) mnt4_a P P' <> Inf -> rep_projective (tX tS) (tY tS) (tZ tS) (ec_add (Zp mnt4_p) mnt4_a P P') ->
  exists g g', mnt4_pair_reduced find_wnaf std tP tQ = Some g /\ mnt4_pair_reduced find_wnaf std tP' tQ = Some g' /\ mnt4_pair_reduced find_wnaf std tS tQ = Some (g * g').
Proof.
  intros W A A' G B N T. exists (ate_mnt4 mnt4_a P Q), (ate_mnt4 mnt4_a P' Q).
  assert (E := proj1 (mnt4_reduced find_wnaf std P Q tP tQ W A B)). assert (E' := proj1 (mnt4_reduced find_wnaf std P' Q tP' tQ W A' B)).
  assert (S := proj1 (mnt4_reduced find_wnaf std _ Q tS tQ W (mnt4_g1_add P P' tP tP' tS A A' N T) B)).
  assert (V := T_add_l (Zp mnt4_p) (t4_Fp2 mnt4_tower) (t4_Fp4 mnt4_tower) mnt4_a mnt4_b mnt4_g2_a mnt4_G2 (ate_mnt4 mnt4_a) mnt4_bilinear P P' Q (proj1 (proj2 A)) (proj1 (proj2 A')) G).
  exact (conj E (conj E' (eq_trans S (f_equal Some V)))).
Qed.
Print Assumptions C63_mnt4_add_left.
Theorem C63_mnt4_add_right find_wnaf std P Q Q' tP tQ tQ' tS : wnaf_contract find_wnaf -> mnt4_g1 P tP -> mnt4_gen Q -> mnt4_g2 Q tQ -> mnt4_gen Q' -> mnt4_g2 Q' tQ' ->
  ec_add (t4_Fp2 mnt4_tower) mnt4_g2_a Q Q' <> Inf -> rep_projective (tX tS) (tY tS) (tZ tS) (ec_add (t4_Fp2 mnt4_tower) mnt4_g2_a Q Q') ->
  exists g g', mnt4_pair_reduced find_wnaf std tP tQ = Some g /\ mnt4_pair_reduced find_wnaf std tP tQ' = Some g' /\ mnt4_pair_reduced find_wnaf std tP tS = Some (g * g').
Proof.
  intros W A G B G' B' N T. exists (ate_mnt4 mnt4_a P Q), (ate_mnt4 mnt4_a P Q').
  assert (E := proj1 (mnt4_reduced find_wnaf std P Q tP tQ W A B)). assert (E' := proj1 (mnt4_reduced find_wnaf std P Q' tP tQ' W A B')).
  assert (GS := gen_add (t4_Fp2 mnt4_tower) mnt4_KF mnt4_two2 mnt4_g2_a mnt4_g2_b (proj1 mnt4_ok_g2) mnt4_G2 (proj1 (proj2 mnt4_ok_g2)) Q Q' G G').
  assert (S := proj1 (mnt4_reduced find_wnaf std P _ tP tS W A (mnt4_gen_g2 _ tS GS N T))).
  assert (V := T_add_r (Zp mnt4_p) (t4_Fp2 mnt4_tower) (t4_Fp4 mnt4_tower) mnt4_a mnt4_b mnt4_g2_a mnt4_G2 (ate_mnt4 mnt4_a) mnt4_bilinear P Q Q' (proj1 (proj2 A)) G G').
  exact (conj E (conj E' (eq_trans S (f_equal Some V)))).
Qed.
Print Assumptions C63_mnt4_add_right.

(** C66 *)
Lemma mnt4_one_g1 : mnt4_g1 mnt4_G1 mnt4_one1.
Proof.
  destruct (shipped_mul mnt4_sw mnt4_r (in13 mnt4_sw shipped_sw_g1 15 eq_refl) eq_refl) as (N & O & R).
  exact (conj N (conj O (conj R (one_proj (Zp mnt4_p) mnt4_K _ _)))).
Qed.
Lemma mnt4_one_g2 : mnt4_g2 mnt4_G2 mnt4_one2.
Proof.
  destruct (g2_mul _ _ _ _ _ mnt4_ok_g2) as (N & O & R).
  exact (conj N (conj O (conj R (one_proj (t4_Fp2 mnt4_tower) mnt4_KF _ _)))).
Qed.
Lemma mnt4_one_gen : mnt4_gen mnt4_G2.
Proof. exists 1%nat. reflexivity. Qed.
Lemma mnt4_one_neq1 : ate_mnt4 mnt4_a mnt4_G1 mnt4_G2 <> 1.
Proof.
  destruct mnt4_one_g1 as (NP & OP & RP & TP). destruct mnt4_one_g2 as (NQ & OQ & RQ & TQ).
  destruct (mnt4_miller true _ _ _ _ mnt4_one1 mnt4_one2 OP RP OQ RQ TP TQ) as (g & E & G0 & V).
  assert (E' : ate_mnt4 mnt4_a mnt4_G1 mnt4_G2 = fpow g mnt4_e) by (symmetry; exact V).
  exact (fe1_pow (t4_Fp4 mnt4_tower) (FieldLaws_Ring _ mnt4_KG) g _ mnt4_e E' (mnt4_value g E)).
Qed.
Theorem C66_mnt4 find_wnaf std i j tP tQ : wnaf_contract find_wnaf -> ~ (Z.of_N mnt4_r | i)%Z -> ~ (Z.of_N mnt4_r | j)%Z ->
  rep_projective (tX tP) (tY tP) (tZ tP) (ec_zmul (Zp mnt4_p) mnt4_a i mnt4_G1) -> rep_projective (tX tQ) (tY tQ) (tZ tQ) (ec_zmul (t4_Fp2 mnt4_tower) mnt4_g2_a j mnt4_G2) ->
  exists g, mnt4_pair_reduced find_wnaf std tP tQ = Some g /\ g <> 0 /\ g <> 1 /\ fpow g mnt4_r = 1 /\ g = fzpow (ate_mnt4 mnt4_a mnt4_G1 mnt4_G2) (i * j).
Proof.
  intros W I J TP TQ.
  assert (O1 := proj1 (proj2 mnt4_one_g1)). assert (R1 := proj1 (proj2 (proj2 mnt4_one_g1))).
  assert (NP : ec_zmul (Zp mnt4_p) mnt4_a i mnt4_G1 <> Inf) by (intros Z; exact (I (zmul_inf (Zp mnt4_p) mnt4_K mnt4_two1 mnt4_a mnt4_b mnt4_ns1' mnt4_r mnt4_G1 i mnt4_r_prime O1 R1 (proj1 mnt4_one_g1) Z))).
  assert (NQ : ec_zmul (t4_Fp2 mnt4_tower) mnt4_g2_a j mnt4_G2 <> Inf) by (intros Z; exact (J (zmul_inf (t4_Fp2 mnt4_tower) mnt4_KF mnt4_two2 mnt4_g2_a mnt4_g2_b (proj1 mnt4_ok_g2) mnt4_r mnt4_G2 j mnt4_r_prime (proj1 (proj2 mnt4_ok_g2)) (ok_mul _ _ _ _ _ mnt4_ok_g2) (proj1 mnt4_one_g2) Z))).
  destruct (C63_mnt4 find_wnaf std mnt4_G1 mnt4_G2 i j mnt4_one1 mnt4_one2 tP tQ W mnt4_one_g1 mnt4_one_gen mnt4_one_g2 NP NQ TP TQ) as (g0 & E0 & _ & _ & E1).
  assert (E2 := proj1 (mnt4_reduced find_wnaf std mnt4_G1 mnt4_G2 mnt4_one1 mnt4_one2 W mnt4_one_g1 mnt4_one_g2)).
  assert (E3 : g0 = ate_mnt4 mnt4_a mnt4_G1 mnt4_G2) by (apply (f_equal (fun o => match o with Some x => x | None => g0 end)) in E0; rewrite E2 in E0; symmetry; exact E0).
  exists (fzpow g0 (i * j)). rewrite E3 in E1 |- *.
  assert (G0 := T_neq0 (Zp mnt4_p) (t4_Fp2 mnt4_tower) (t4_Fp4 mnt4_tower) mnt4_a mnt4_b mnt4_g2_a mnt4_G2 (ate_mnt4 mnt4_a) mnt4_bilinear mnt4_G1 mnt4_G2 O1 mnt4_one_gen).
  assert (OR := T_order (Zp mnt4_p) (t4_Fp2 mnt4_tower) (t4_Fp4 mnt4_tower) mnt4_K mnt4_KF mnt4_KG mnt4_two2 mnt4_a mnt4_b mnt4_g2_a mnt4_g2_b (proj1 mnt4_ok_g2) mnt4_G2 (ate_mnt4 mnt4_a) mnt4_bilinear mnt4_r mnt4_r_prime (proj1 (proj2 mnt4_ok_g2)) (ok_mul _ _ _ _ _ mnt4_ok_g2) mnt4_G1 mnt4_G2 O1 mnt4_one_gen).
  exact (conj E1 (nondeg (t4_Fp4 mnt4_tower) mnt4_KG _ mnt4_r i j mnt4_r_prime OR G0 mnt4_one_neq1 I J)).
Qed.
Print Assumptions C66_mnt4.


(** *** mnt6-298 *)
Lemma mnt6_ns1' : nonsingular (Zp mnt6_p) mnt6_a mnt6_b.
Proof. exact mnt6_ns1. Qed.
Lemma mnt6_two1 : (2 : Zp mnt6_p) <> 0.
Proof. intros E. apply (f_equal zval) in E. discriminate E. Qed.
Definition mnt6_gen : point (t6_Fp3 mnt6_tower) -> Prop := gen (t6_Fp3 mnt6_tower) mnt6_g2_a mnt6_G2.
Lemma mnt6_gen_g2 Q t : mnt6_gen Q -> Q <> Inf -> rep_projective (tX t) (tY t) (tZ t) Q -> mnt6_g2 Q t.
Proof.
  intros G N T. split; [exact N|].
  split; [exact (gen_on (t6_Fp3 mnt6_tower) mnt6_KF mnt6_two2 mnt6_g2_a mnt6_g2_b (proj1 mnt6_ok_g2) mnt6_G2 (proj1 (proj2 mnt6_ok_g2)) Q G)|].
  split; [exact (gen_order (t6_Fp3 mnt6_tower) mnt6_KF mnt6_two2 mnt6_g2_a mnt6_g2_b (proj1 mnt6_ok_g2) mnt6_G2 mnt6_r (proj1 (proj2 mnt6_ok_g2)) (ok_mul _ _ _ _ _ mnt6_ok_g2) Q G)|exact T].
Qed.
Lemma mnt6_g1_zmul P t i t' : mnt6_g1 P t -> ec_zmul (Zp mnt6_p) mnt6_a i P <> Inf -> rep_projective (tX t') (tY t') (tZ t') (ec_zmul (Zp mnt6_p) mnt6_a i P) ->
  mnt6_g1 (ec_zmul (Zp mnt6_p) mnt6_a i P) t'.
Proof.
  intros (N & O & R & _) N' T. split; [exact N'|].
  split; [exact (zmul_on (Zp mnt6_p) mnt6_K mnt6_two1 mnt6_a mnt6_b mnt6_ns1' i P O)|].
  split; [exact (zmul_order (Zp mnt6_p) mnt6_K mnt6_two1 mnt6_a mnt6_b mnt6_ns1' mnt6_r i P O R)|exact T].
Qed.
Lemma mnt6_g1_add P P' t t' s : mnt6_g1 P t -> mnt6_g1 P' t' -> ec_add (Zp mnt6_p) mnt6_a P P' <> Inf -> rep_projective (tX s) (tY s) (tZ s) (ec_add (Zp mnt6_p) mnt6_a P P') ->
  mnt6_g1 (ec_add (Zp mnt6_p) mnt6_a P P') s.
Proof.
  intros (_ & O & R & _) (_ & O' & R' & _) N T. split; [exact N|].
  split; [exact (add_on (Zp mnt6_p) mnt6_K mnt6_two1 mnt6_a mnt6_b mnt6_ns1' P P' O O')|].
  split; [exact (add_order (Zp mnt6_p) mnt6_K mnt6_two1 mnt6_a mnt6_b mnt6_ns1' mnt6_r P P' O O' R R')|exact T].
Qed.
Theorem C63_mnt6 find_wnaf P Q i j tP tQ tP' tQ' : wnaf_contract find_wnaf -> mnt6_g1 P tP -> mnt6_gen Q -> mnt6_g2 Q tQ ->
  ec_zmul (Zp mnt6_p) mnt6_a i P <> Inf -> ec_zmul (t6_Fp3 mnt6_tower) mnt6_g2_a j Q <> Inf ->
  rep_projective (tX tP') (tY tP') (tZ tP') (ec_zmul (Zp mnt6_p) mnt6_a i P) -> rep_projective (tX tQ') (tY tQ') (tZ tQ') (ec_zmul (t6_Fp3 mnt6_tower) mnt6_g2_a j Q) ->
  exists g, mnt6_pair_reduced find_wnaf tP tQ = Some g /\ g <> 0 /\ fpow g mnt6_r = 1 /\ mnt6_pair_reduced find_wnaf tP' tQ' = Some (fzpow g (i * j)).
Proof.
  intros W A G B NP NQ TP TQ. destruct (mnt6_reduced find_wnaf P Q tP tQ W A B) as [E N]. exists (ate_mnt6 mnt6_a P Q).
  assert (G' := gen_zmul (t6_Fp3 mnt6_tower) mnt6_KF mnt6_two2 mnt6_g2_a mnt6_g2_b (proj1 mnt6_ok_g2) mnt6_G2 mnt6_r mnt6_r_prime (proj1 (proj2 mnt6_ok_g2)) (ok_mul _ _ _ _ _ mnt6_ok_g2) j Q G).
  assert (E' := proj1 (mnt6_reduced find_wnaf _ _ tP' tQ' W (mnt6_g1_zmul P tP i tP' A NP TP) (mnt6_gen_g2 _ tQ' G' NQ TQ))).
  assert (O := proj1 (proj2 A)).
  assert (V := T_zmul (Zp mnt6_p) (t6_Fp3 mnt6_tower) (t6_Fp6 mnt6_tower) mnt6_K mnt6_KF mnt6_KG mnt6_two1 mnt6_two2 mnt6_a mnt6_b mnt6_g2_a mnt6_g2_b mnt6_ns1' (proj1 mnt6_ok_g2) mnt6_G2 (ate_mnt6 mnt6_a) mnt6_bilinear mnt6_r mnt6_r_prime (proj1 (proj2 mnt6_ok_g2)) (ok_mul _ _ _ _ _ mnt6_ok_g2) i j P Q O G).
  assert (V' := T_order (Zp mnt6_p) (t6_Fp3 mnt6_tower) (t6_Fp6 mnt6_tower) mnt6_K mnt6_KF mnt6_KG mnt6_two2 mnt6_a mnt6_b mnt6_g2_a mnt6_g2_b (proj1 mnt6_ok_g2) mnt6_G2 (ate_mnt6 mnt6_a) mnt6_bilinear mnt6_r mnt6_r_prime (proj1 (proj2 mnt6_ok_g2)) (ok_mul _ _ _ _ _ mnt6_ok_g2) P Q O G).
  exact (conj E (conj N (conj V' (eq_trans E' (f_equal Some V))))).
Qed.
Print Assumptions C63_mnt6.
Theorem C63_mnt6_add_left find_wnaf P P' Q tP tP' tS tQ : wnaf_contract find_wnaf -> mnt6_g1 P tP -> mnt6_g1 P' tP' -> mnt6_gen Q -> mnt6_g2 Q tQ ->
  ec_add (Zp mnt6_p) mnt6_a P P' <> Inf -> rep_projective (tX tS) (tY tS) (tZ tS) (ec_add (Zp mnt6_p) mnt6_a P P') ->
  exists g g', mnt6_pair_reduced find_wnaf tP tQ = Some g /\ mnt6_pair_reduced find_wnaf tP' tQ = Some g' /\ mnt6_pair_reduced find_wnaf tS tQ = Some (g * g').
Proof.
  intros W A A' G B N T. exists (ate_mnt6 mnt6_a P Q), (ate_mnt6 mnt6_a P' Q).
  assert (E := proj1 (mnt6_reduced find_wnaf P Q tP tQ W A B)). assert (E' := proj1 (mnt6_reduced find_wnaf P' Q tP' tQ W A' B)).
  assert (S := proj1 (mnt6_reduced find_wnaf _ Q tS tQ W (mnt6_g1_add P P' tP tP' tS A A' N T) B)).
  assert (V := T_add_l (Zp mnt6_p) (t6_Fp3 mnt6_tower) (t6_Fp6 mnt6_tower) mnt6_a mnt6_b mnt6_g2_a mnt6_G2 (ate_mnt6 mnt6_a) mnt6_bilinear P P' Q (proj1 (proj2 A)) (proj1 (proj2 A')) G).
  exact (conj E (conj E' (eq_trans S (f_equal Some V)))).
Qed.
Print Assumptions C63_mnt6_add_left.
Theorem C63_mnt6_add_right find_wnaf P Q Q' tP tQ tQ' tS : wnaf_contract find_wnaf -> mnt6_g1 P tP -> mnt6_gen Q -> mnt6_g2 Q tQ -> mnt6_gen Q' -> mnt6_g2 Q' tQ' ->
  ec_add (t6_Fp3 mnt6_tower) mnt6_g2_a Q Q' <> Inf -> rep_projective (tX tS) (tY tS) (tZ tS) (ec_add (t6_Fp3 mnt6_tower) mnt6_g2_a Q Q') ->
  exists g g', mnt6_pair_reduced find_wnaf tP tQ = Some g /\ mnt6_pair_reduced find_wnaf tP tQ' = Some g' /\ mnt6_pair_reduced find_wnaf tP tS = Some (g * g').
Proof.
  intros W A G B G' B' N T. exists (ate_mnt6 mnt6_a P Q), (ate_mnt6 mnt6_a P Q').
  assert (E := proj1 (mnt6_reduced find_wnaf P Q tP tQ W A B)). assert (E' := proj1 (mnt6_reduced find_wnaf P Q' tP tQ' W A B')).
  assert (GS := gen_add (t6_Fp3 mnt6_tower) mnt6_KF mnt6_two2 mnt6_g2_a mnt6_g2_b (proj1 mnt6_ok_g2) mnt6_G2 (proj1 (proj2 mnt6_ok_g2)) Q Q' G G').
  assert (S := proj1 (mnt6_reduced find_wnaf P _ tP tS W A (mnt6_gen_g2 _ tS GS N T))).
  assert (V := T_add_r (Zp mnt6_p) (t6_Fp3 mnt6_tower) (t6_Fp6 mnt6_tower) mnt6_a mnt6_b mnt6_g2_a mnt6_G2 (ate_mnt6 mnt6_a) mnt6_bilinear P Q Q' (proj1 (proj2 A)) G G').
  exact (conj E (conj E' (eq_trans S (f_equal Some V)))).
Qed.
Print Assumptions C63_mnt6_add_right.

(** C66 *)
Lemma mnt6_one_g1 : mnt6_g1 mnt6_G1 mnt6_one1.
Proof.
  destruct (shipped_mul mnt6_sw mnt6_r (in13 mnt6_sw shipped_sw_g1 16 eq_refl) eq_refl) as (N & O & R).
  exact (conj N (conj O (conj R (one_proj (Zp mnt6_p) mnt6_K _ _)))).
Qed.
Lemma mnt6_one_g2 : mnt6_g2 mnt6_G2 mnt6_one2.
Proof.
  destruct (g2_mul _ _ _ _ _ mnt6_ok_g2) as (N & O & R).
  exact (conj N (conj O (conj R (one_proj (t6_Fp3 mnt6_tower) mnt6_KF _ _)))).
Qed.
Lemma mnt6_one_gen : mnt6_gen mnt6_G2.
Proof. exists 1%nat. reflexivity. Qed.
Lemma mnt6_one_neq1 : ate_mnt6 mnt6_a mnt6_G1 mnt6_G2 <> 1.
Proof.
  destruct mnt6_one_g1 as (NP & OP & RP & TP). destruct mnt6_one_g2 as (NQ & OQ & RQ & TQ).
  destruct (mnt6_miller _ _ _ _ mnt6_one1 mnt6_one2 OP RP OQ RQ TP TQ) as (g & E & G0 & V).
  assert (E' : ate_mnt6 mnt6_a mnt6_G1 mnt6_G2 = fpow g mnt6_e) by (symmetry; exact V).
  exact (fe1_pow (t6_Fp6 mnt6_tower) (FieldLaws_Ring _ mnt6_KG) g _ mnt6_e E' (mnt6_value g E)).
Qed.
Theorem C66_mnt6 find_wnaf i j tP tQ : wnaf_contract find_wnaf -> ~ (Z.of_N mnt6_r | i)%Z -> ~ (Z.of_N mnt6_r | j)%Z ->
  rep_projective (tX tP) (tY tP) (tZ tP) (ec_zmul (Zp mnt6_p) mnt6_a i mnt6_G1) -> rep_projective (tX tQ) (tY tQ) (tZ tQ) (ec_zmul (t6_Fp3 mnt6_tower) mnt6_g2_a j mnt6_G2) ->
  exists g, mnt6_pair_reduced find_wnaf tP tQ = Some g /\ g <> 0 /\ g <> 1 /\ fpow g mnt6_r = 1 /\ g = fzpow (ate_mnt6 mnt6_a mnt6_G1 mnt6_G2) (i * j).
Proof.
  intros W I J TP TQ.
  assert (O1 := proj1 (proj2 mnt6_one_g1)). assert (R1 := proj1 (proj2 (proj2 mnt6_one_g1))).
  assert (NP : ec_zmul (Zp mnt6_p) mnt6_a i mnt6_G1 <> Inf) by (intros Z; exact (I (zmul_inf (Zp mnt6_p) mnt6_K mnt6_two1 mnt6_a mnt6_b mnt6_ns1' mnt6_r mnt6_G1 i mnt6_r_prime O1 R1 (proj1 mnt6_one_g1) Z))).
  assert (NQ : ec_zmul (t6_Fp3 mnt6_tower) mnt6_g2_a j mnt6_G2 <> Inf) by (intros Z; exact (J (zmul_inf (t6_Fp3 mnt6_tower) mnt6_KF mnt6_two2 mnt6_g2_a mnt6_g2_b (proj1 mnt6_ok_g2) mnt6_r mnt6_G2 j mnt6_r_prime (proj1 (proj2 mnt6_ok_g2)) (ok_mul _ _ _ _ _ mnt6_ok_g2) (proj1 mnt6_one_g2) Z))).
  destruct (C63_mnt6 find_wnaf mnt6_G1 mnt6_G2 i j mnt6_one1 mnt6_one2 tP tQ W mnt6_one_g1 mnt6_one_gen mnt6_one_g2 NP NQ TP TQ) as (g0 & E0 & _ & _ & E1).
  assert (E2 := proj1 (mnt6_reduced find_wnaf mnt6_G1 mnt6_G2 mnt6_one1 mnt6_one2 W mnt6_one_g1 mnt6_one_g2)).
  assert (E3 : g0 = ate_mnt6 mnt6_a mnt6_G1 mnt6_G2) by (apply (f_equal (fun o => match o with Some x => x | None => g0 end)) in E0; rewrite E2 in E0; symmetry; exact E0).
  exists (fzpow g0 (i * j)). rewrite E3 in E1 |- *.
  assert (G0 := T_neq0 (Zp mnt6_p) (t6_Fp3 mnt6_tower) (t6_Fp6 mnt6_tower) mnt6_a mnt6_b mnt6_g2_a mnt6_G2 (ate_mnt6 mnt6_a) mnt6_bilinear mnt6_G1 mnt6_G2 O1 mnt6_one_gen).
  assert (OR := T_order (Zp mnt6_p) (t6_Fp3 mnt6_tower) (t6_Fp6 mnt6_tower) mnt6_K mnt6_KF mnt6_KG mnt6_two2 mnt6_a mnt6_b mnt6_g2_a mnt6_g2_b (proj1 mnt6_ok_g2) mnt6_G2 (ate_mnt6 mnt6_a) mnt6_bilinear mnt6_r mnt6_r_prime (proj1 (proj2 mnt6_ok_g2)) (ok_mul _ _ _ _ _ mnt6_ok_g2) mnt6_G1 mnt6_G2 O1 mnt6_one_gen).
  exact (conj E1 (nondeg (t6_Fp6 mnt6_tower) mnt6_KG _ mnt6_r i j mnt6_r_prime OR G0 mnt6_one_neq1 I J)).
Qed.
Print Assumptions C66_mnt6.

(** ** Examples: [5] G1 and [-7] G2, with coordinates scaled by any non-zero z *)
Lemma small_not_div r i : (0 < Z.abs i < Z.of_N r)%Z -> ~ (Z.of_N r | i)%Z.
Proof. intros H D. apply Z.divide_abs_r in D. apply Z.divide_pos_le in D; lia. Qed.
Example C66_bls12_381_ex std z z' : z <> 0 -> z' <> 0 ->
  exists g, bls12_381_pair_reduced std (jac_of (ec_zmul (Zp bls_p) 0 5 bls_G1) z) (jac_of (ec_zmul (t12_Fp2 bls_t) 0 (-7) bls_G2) z') = Some g /\ g <> 1.
Proof.
  intros Z Z'.
  assert (I : ~ (Z.of_N bls_r | 5)%Z) by (apply small_not_div; vm_compute; split; reflexivity).
  assert (J : ~ (Z.of_N bls_r | -7)%Z) by (apply small_not_div; vm_compute; split; reflexivity).
  assert (NP : ec_zmul (Zp bls_p) 0 5 bls_G1 <> Inf) by (intros E; exact (I (zmul_inf (Zp bls_p) bls_K1 bls_two1 0 (tozp bls_p bls12_381_b : Zp bls_p) bls_ns1' bls_r bls_G1 5 bls_r_prime (proj1 (proj2 bls_one_g1)) (proj1 (proj2 (proj2 bls_one_g1))) (proj1 bls_one_g1) E))).
  assert (NQ : ec_zmul (t12_Fp2 bls_t) 0 (-7) bls_G2 <> Inf) by (intros E; exact (J (zmul_inf (t12_Fp2 bls_t) bls_K2 bls_two2 0 bls12_381_g2_b (proj1 bls_ok_g2) bls_r bls_G2 (-7) bls_r_prime (proj1 (proj2 bls_one_g2)) (proj1 (proj2 (proj2 bls_one_g2))) (proj1 bls_one_g2) E))).
  destruct (C66_bls12_381 std 5 (-7) _ _ I J (jac_of_rep (Zp bls_p) bls_K1 _ z NP Z) (jac_of_rep (t12_Fp2 bls_t) bls_K2 _ z' NQ Z')) as (g & E & _ & N & _).
  exists g. exact (conj E N).
Qed.
Example C66_mnt4_ex std z z' : z <> 0 -> z' <> 0 ->
  exists g, mnt4_pair_reduced find_wnaf_ref std (proj_of (ec_zmul (Zp mnt4_p) mnt4_a 5 mnt4_G1) z) (proj_of (ec_zmul (t4_Fp2 mnt4_tower) mnt4_g2_a (-7) mnt4_G2) z') = Some g /\ g <> 1.
Proof.
  intros Z Z'.
  assert (I : ~ (Z.of_N mnt4_r | 5)%Z) by (apply small_not_div; vm_compute; split; reflexivity).
  assert (J : ~ (Z.of_N mnt4_r | -7)%Z) by (apply small_not_div; vm_compute; split; reflexivity).
  assert (NP : ec_zmul (Zp mnt4_p) mnt4_a 5 mnt4_G1 <> Inf) by (intros E; exact (I (zmul_inf (Zp mnt4_p) mnt4_K mnt4_two1 mnt4_a mnt4_b mnt4_ns1' mnt4_r mnt4_G1 5 mnt4_r_prime (proj1 (proj2 mnt4_one_g1)) (proj1 (proj2 (proj2 mnt4_one_g1))) (proj1 mnt4_one_g1) E))).
  assert (NQ : ec_zmul (t4_Fp2 mnt4_tower) mnt4_g2_a (-7) mnt4_G2 <> Inf) by (intros E; exact (J (zmul_inf (t4_Fp2 mnt4_tower) mnt4_KF mnt4_two2 mnt4_g2_a mnt4_g2_b (proj1 mnt4_ok_g2) mnt4_r mnt4_G2 (-7) mnt4_r_prime (proj1 (proj2 mnt4_one_g2)) (proj1 (proj2 (proj2 mnt4_one_g2))) (proj1 mnt4_one_g2) E))).
  destruct (C66_mnt4 find_wnaf_ref std 5 (-7) _ _ find_wnaf_ref_ok I J (proj_of_rep (Zp mnt4_p) mnt4_K _ z NP Z) (proj_of_rep (t4_Fp2 mnt4_tower) mnt4_KF _ z' NQ Z')) as (g & E & _ & N & _).
  exists g. exact (conj E N).
Qed.
Example C66_mnt6_ex z z' : z <> 0 -> z' <> 0 ->
  exists g, mnt6_pair_reduced find_wnaf_ref (proj_of (ec_zmul (Zp mnt6_p) mnt6_a 5 mnt6_G1) z) (proj_of (ec_zmul (t6_Fp3 mnt6_tower) mnt6_g2_a (-7) mnt6_G2) z') = Some g /\ g <> 1.
Proof.
  intros Z Z'.
  assert (I : ~ (Z.of_N mnt6_r | 5)%Z) by (apply small_not_div; vm_compute; split; reflexivity).
  assert (J : ~ (Z.of_N mnt6_r | -7)%Z) by (apply small_not_div; vm_compute; split; reflexivity).
  assert (NP : ec_zmul (Zp mnt6_p) mnt6_a 5 mnt6_G1 <> Inf) by (intros E; exact (I (zmul_inf (Zp mnt6_p) mnt6_K mnt6_two1 mnt6_a mnt6_b mnt6_ns1' mnt6_r mnt6_G1 5 mnt6_r_prime (proj1 (proj2 mnt6_one_g1)) (proj1 (proj2 (proj2 mnt6_one_g1))) (proj1 mnt6_one_g1) E))).
  assert (NQ : ec_zmul (t6_Fp3 mnt6_tower) mnt6_g2_a (-7) mnt6_G2 <> Inf) by (intros E; exact (J (zmul_inf (t6_Fp3 mnt6_tower) mnt6_KF mnt6_two2 mnt6_g2_a mnt6_g2_b (proj1 mnt6_ok_g2) mnt6_r mnt6_G2 (-7) mnt6_r_prime (proj1 (proj2 mnt6_one_g2)) (proj1 (proj2 (proj2 mnt6_one_g2))) (proj1 mnt6_one_g2) E))).
  destruct (C66_mnt6 find_wnaf_ref 5 (-7) _ _ find_wnaf_ref_ok I J (proj_of_rep (Zp mnt6_p) mnt6_K _ z NP Z) (proj_of_rep (t6_Fp3 mnt6_tower) mnt6_KF _ z' NQ Z')) as (g & E & _ & N & _).
  exists g. exact (conj E N).
Qed.
