(** C62, C63: the reduced pairings of bls12-381, mnt4-298 and mnt6-298. *)
From Coq Require Import ZArith NArith List Bool Lia Znumtheory Field_theory.
From Verif Require Import Base.Field Base.Zp Base.Ext Spec.Weierstrass Spec.Digits Spec.Pairing Spec.AtePairing
  Model.FieldParams Model.Shipped Model.CurveParams Model.Generators Model.ShortWeierstrass Model.Wnaf Model.FinalExp Model.Pairing Model.Fp2 Model.Fp3 Model.Fp4 Model.Fp6_2over3 Model.Fp12
  Proof.FiniteField Proof.Shipped Proof.ShippedTowers Proof.Bls381 Proof.FinalExp Proof.Generators Proof.Wnaf
  Proof.PairingCore Proof.PairingMiller Proof.PairingA40 Proof.PairingBls Proof.PairingProj Proof.PairingMnt Proof.PairingShip Proof.PairingFinal Proof.PairingBilinear
  Properties.FinalExp Properties.Generators.
Import ListNotations.
Local Open Scope fld_scope.

(** points of order r of G1 and G2 and their stored coordinates *)
Definition bls_g1 (P : point (Zp bls_p)) (t : triple (Zp bls_p)) : Prop :=
  P <> Inf /\ on_curve (Zp bls_p) 0 (tozp bls_p bls12_381_b : Zp bls_p) P /\ ec_mul (Zp bls_p) 0 (N.to_nat bls_r) P = Inf /\
  rep_jacobian (tX t) (tY t) (tZ t) P.
Definition bls_g2 (Q : point (t12_Fp2 bls_t)) (t : triple (t12_Fp2 bls_t)) : Prop :=
  Q <> Inf /\ on_curve (t12_Fp2 bls_t) 0 bls12_381_g2_b Q /\ ec_mul (t12_Fp2 bls_t) 0 (N.to_nat bls_r) Q = Inf /\
  rep_jacobian (tX t) (tY t) (tZ t) Q.
Definition mnt4_g1 (P : point (Zp mnt4_p)) (t : triple (Zp mnt4_p)) : Prop :=
  P <> Inf /\ on_curve (Zp mnt4_p) mnt4_a mnt4_b P /\ ec_mul (Zp mnt4_p) mnt4_a (N.to_nat mnt4_r) P = Inf /\
  rep_projective (tX t) (tY t) (tZ t) P.
Definition mnt4_g2 (Q : point (t4_Fp2 mnt4_tower)) (t : triple (t4_Fp2 mnt4_tower)) : Prop :=
  Q <> Inf /\ on_curve (t4_Fp2 mnt4_tower) mnt4_g2_a mnt4_g2_b Q /\ ec_mul (t4_Fp2 mnt4_tower) mnt4_g2_a (N.to_nat mnt4_r) Q = Inf /\
  rep_projective (tX t) (tY t) (tZ t) Q.
Definition mnt6_g1 (P : point (Zp mnt6_p)) (t : triple (Zp mnt6_p)) : Prop :=
  P <> Inf /\ on_curve (Zp mnt6_p) mnt6_a mnt6_b P /\ ec_mul (Zp mnt6_p) mnt6_a (N.to_nat mnt6_r) P = Inf /\
  rep_projective (tX t) (tY t) (tZ t) P.
Definition mnt6_g2 (Q : point (t6_Fp3 mnt6_tower)) (t : triple (t6_Fp3 mnt6_tower)) : Prop :=
  Q <> Inf /\ on_curve (t6_Fp3 mnt6_tower) mnt6_g2_a mnt6_g2_b Q /\ ec_mul (t6_Fp3 mnt6_tower) mnt6_g2_a (N.to_nat mnt6_r) Q = Inf /\
  rep_projective (tX t) (tY t) (tZ t) Q.

(** ** C62: pair_reduced is the reduced ate pairing *)
Lemma bls_reduced std P Q tP tQ : bls_g1 P tP -> bls_g2 Q tQ ->
  bls12_381_pair_reduced std tP tQ = Some (ate_bls12_381 P Q) /\ ate_bls12_381 P Q <> 0.
Proof.
  intros (NP & OP & RP & TP) (NQ & OQ & RQ & TQ). destruct P as [|xp yp]; [congruence|]. destruct Q as [|xq yq]; [congruence|].
  destruct (bls_miller std xp yp xq yq tP tQ OP RP OQ RQ TP TQ) as (g & E & G0 & V).
  assert (E' : ate_bls12_381 (Aff xp yp) (Aff xq yq) = fpow g bls_e) by (symmetry; exact V). rewrite E'.
  split; [|apply (fpow_neq0 _ (FF_field _ _ _ (proj2 (proj2 (t12_fields _ bls381_p_prime bls381_field_check)))) g bls_e G0)].
  unfold bls12_381_pair_reduced. rewrite E. cbn [option_map]. exact (f_equal Some (C45_bls12_381 g G0)).
Qed.
Theorem C62_bls12_381 std P Q tP tQ : bls_g1 P tP -> bls_g2 Q tQ ->
  bls12_381_pair_reduced std tP tQ = Some (ate_bls12_381 P Q).
Proof. intros A B. exact (proj1 (bls_reduced std P Q tP tQ A B)). Qed.
Print Assumptions C62_bls12_381.
Lemma mnt4_reduced find_wnaf std P Q tP tQ : wnaf_contract find_wnaf -> mnt4_g1 P tP -> mnt4_g2 Q tQ ->
  mnt4_pair_reduced find_wnaf std tP tQ = Some (ate_mnt4 mnt4_a P Q) /\ ate_mnt4 mnt4_a P Q <> 0.
Proof.
  intros W (NP & OP & RP & TP) (NQ & OQ & RQ & TQ). destruct P as [|xp yp]; [congruence|]. destruct Q as [|xq yq]; [congruence|].
  destruct (mnt4_miller std xp yp xq yq tP tQ OP RP OQ RQ TP TQ) as (g & E & G0 & V).
  assert (E' : ate_mnt4 mnt4_a (Aff xp yp) (Aff xq yq) = fpow g mnt4_e) by (symmetry; exact V). rewrite E'.
  split; [|apply (fpow_neq0 _ mnt4_KG g mnt4_e G0)].
  unfold mnt4_pair_reduced. rewrite E. cbn [option_map]. exact (f_equal Some (proj1 (C46_mnt4 find_wnaf g W G0))).
Qed.
Theorem C62_mnt4 find_wnaf std P Q tP tQ : wnaf_contract find_wnaf -> mnt4_g1 P tP -> mnt4_g2 Q tQ ->
  mnt4_pair_reduced find_wnaf std tP tQ = Some (ate_mnt4 mnt4_a P Q).
Proof. intros W A B. exact (proj1 (mnt4_reduced find_wnaf std P Q tP tQ W A B)). Qed.
Print Assumptions C62_mnt4.
Lemma mnt6_reduced find_wnaf P Q tP tQ : wnaf_contract find_wnaf -> mnt6_g1 P tP -> mnt6_g2 Q tQ ->
  mnt6_pair_reduced find_wnaf tP tQ = Some (ate_mnt6 mnt6_a P Q) /\ ate_mnt6 mnt6_a P Q <> 0.
Proof.
  intros W (NP & OP & RP & TP) (NQ & OQ & RQ & TQ). destruct P as [|xp yp]; [congruence|]. destruct Q as [|xq yq]; [congruence|].
  destruct (mnt6_miller xp yp xq yq tP tQ OP RP OQ RQ TP TQ) as (g & E & G0 & V).
  assert (E' : ate_mnt6 mnt6_a (Aff xp yp) (Aff xq yq) = fpow g mnt6_e) by (symmetry; exact V). rewrite E'.
  split; [|apply (fpow_neq0 _ mnt6_KG g mnt6_e G0)].
  unfold mnt6_pair_reduced. rewrite E. cbn [option_map]. exact (f_equal Some (proj1 (C46_mnt6 find_wnaf g W G0))).
Qed.
Theorem C62_mnt6 find_wnaf P Q tP tQ : wnaf_contract find_wnaf -> mnt6_g1 P tP -> mnt6_g2 Q tQ ->
  mnt6_pair_reduced find_wnaf tP tQ = Some (ate_mnt6 mnt6_a P Q).
Proof. intros W A B. exact (proj1 (mnt6_reduced find_wnaf P Q tP tQ W A B)). Qed.
Print Assumptions C62_mnt6.

(** the generators meet the hypotheses, in any scaling of their coordinates *)
Definition bls_G1 : point (Zp bls_p) := Aff (tozp bls_p (ptX bls12_381_g1_one) : Zp bls_p) (tozp bls_p (ptY bls12_381_g1_one) : Zp bls_p).
Definition mnt4_G1 : point (Zp mnt4_p) := Aff (tozp mnt4_p (ptX mnt4_298_g1_one) : Zp mnt4_p) (tozp mnt4_p (ptY mnt4_298_g1_one) : Zp mnt4_p).
Definition mnt6_G1 : point (Zp mnt6_p) := Aff (tozp mnt6_p (ptX mnt6_298_g1_one) : Zp mnt6_p) (tozp mnt6_p (ptY mnt6_298_g1_one) : Zp mnt6_p).
Definition jac_of {K : FieldOps} (P : point K) (z : K) : triple K :=
  match P with Aff x y => mkT (x * (z * z)) (y * (z * z * z)) z | Inf => mkT 1 1 0 end.
Definition proj_of {K : FieldOps} (P : point K) (z : K) : triple K :=
  match P with Aff x y => mkT (x * z) (y * z) z | Inf => mkT 0 1 0 end.
Lemma jac_of_rep (K : FieldOps) (KK : FieldLaws K) P (z : K) : P <> Inf -> z <> 0 ->
  rep_jacobian (tX (jac_of P z)) (tY (jac_of P z)) (tZ (jac_of P z)) P.
Proof. destruct P; [congruence|]. intros _ Z. cbn. repeat split; auto. Qed.
Lemma proj_of_rep (K : FieldOps) (KK : FieldLaws K) P (z : K) : P <> Inf -> z <> 0 ->
  rep_projective (tX (proj_of P z)) (tY (proj_of P z)) (tZ (proj_of P z)) P.
Proof. destruct P; [congruence|]. intros _ Z. cbn. repeat split; auto. Qed.
Lemma in13 {A} (a : A) l n : nth_error l n = Some a -> In a l.
Proof. apply nth_error_In. Qed.
Definition bls_sw := mkSW bls12_base_field_381_modulus bls12_381_a bls12_381_b bls12_381_g1_one bls12_scalar_field_381_modulus.
Definition mnt4_sw := mkSW mnt4_base_field_298_modulus mnt4_298_a mnt4_298_b mnt4_298_g1_one mnt6_base_field_298_modulus.
Definition mnt6_sw := mkSW mnt6_base_field_298_modulus mnt6_298_a mnt6_298_b mnt6_298_g1_one mnt4_base_field_298_modulus.
Lemma shipped_mul c r : In c shipped_sw_g1 -> r = Z.to_N (swc_r c) ->
  swG c <> Inf /\ on_curve (swK c) (swa c) (swb c) (swG c) /\ ec_mul (swK c) (swa c) (N.to_nat r) (swG c) = Inf.
Proof.
  intros I ->. destruct (C29_short_weierstrass c I) as (_ & O & N & _ & R). rewrite Z_N_nat. auto.
Qed.
Example C62_bls12_381_g1 z : z <> 0 -> bls_g1 bls_G1 (jac_of bls_G1 z).
Proof.
  intros Z. destruct (shipped_mul bls_sw bls_r (in13 bls_sw shipped_sw_g1 13 eq_refl) eq_refl) as (N & O & R).
  exact (conj N (conj O (conj R (jac_of_rep (Zp bls_p) bls_K1 bls_G1 z N Z)))).
Qed.
Example C62_mnt4_g1 z : z <> 0 -> mnt4_g1 mnt4_G1 (proj_of mnt4_G1 z).
Proof.
  intros Z. destruct (shipped_mul mnt4_sw mnt4_r (in13 mnt4_sw shipped_sw_g1 15 eq_refl) eq_refl) as (N & O & R).
  exact (conj N (conj O (conj R (proj_of_rep (Zp mnt4_p) mnt4_K mnt4_G1 z N Z)))).
Qed.
Example C62_mnt6_g1 z : z <> 0 -> mnt6_g1 mnt6_G1 (proj_of mnt6_G1 z).
Proof.
  intros Z. destruct (shipped_mul mnt6_sw mnt6_r (in13 mnt6_sw shipped_sw_g1 16 eq_refl) eq_refl) as (N & O & R).
  exact (conj N (conj O (conj R (proj_of_rep (Zp mnt6_p) mnt6_K mnt6_G1 z N Z)))).
Qed.
Lemma g2_mul (K : FieldOps) a b G r : ok_g2 K a b G r ->
  (Aff (fst G) (snd G) : point K) <> Inf /\ on_curve K a b (Aff (fst G) (snd G)) /\ ec_mul K a (N.to_nat (Z.to_N r)) (Aff (fst G) (snd G)) = Inf.
Proof. intros (_ & O & _ & _ & R). rewrite Z_N_nat. split; [discriminate|]. split; [exact O|exact R]. Qed.
Example C62_bls12_381_g2 z : z <> 0 -> bls_g2 bls_G2 (jac_of bls_G2 z).
Proof.
  intros Z. destruct (g2_mul _ _ _ _ _ bls_ok_g2) as (N & O & R).
  exact (conj N (conj O (conj R (jac_of_rep (t12_Fp2 bls_t) bls_K2 bls_G2 z N Z)))).
Qed.
Example C62_mnt4_g2 z : z <> 0 -> mnt4_g2 mnt4_G2 (proj_of mnt4_G2 z).
Proof.
  intros Z. destruct (g2_mul _ _ _ _ _ mnt4_ok_g2) as (N & O & R).
  exact (conj N (conj O (conj R (proj_of_rep (t4_Fp2 mnt4_tower) mnt4_KF mnt4_G2 z N Z)))).
Qed.
Example C62_mnt6_g2 z : z <> 0 -> mnt6_g2 mnt6_G2 (proj_of mnt6_G2 z).
Proof.
  intros Z. destruct (g2_mul _ _ _ _ _ mnt6_ok_g2) as (N & O & R).
  exact (conj N (conj O (conj R (proj_of_rep (t6_Fp3 mnt6_tower) mnt6_KF mnt6_G2 z N Z)))).
Qed.
Example C62_wnaf : wnaf_contract find_wnaf_ref.
Proof. exact find_wnaf_ref_ok. Qed.

(** ** C63: the results have order dividing r, and negating either argument inverts them *)
Definition bls_KG := FF_field _ _ _ (proj2 (proj2 (t12_fields _ bls381_p_prime bls381_field_check))).
Lemma bls_order (g : t12_Fp12 bls_t) : g <> 0 -> fpow (fpow g bls_e) bls_r = 1.
Proof.
  intros G0. exact (order_from_exponent (t12_Fp12 bls_t) (Z.to_N bls_p) 12 (proj2 (proj2 (t12_fields _ bls381_p_prime bls381_field_check))) g bls_r 3 G0
    ltac:(vm_compute; reflexivity)).
Qed.
Lemma mnt4_order (g : t4_Fp4 mnt4_tower) : g <> 0 -> fpow (fpow g mnt4_e) mnt4_r = 1.
Proof.
  intros G0. replace mnt4_e with (1 * mnt4_e)%N by apply N.mul_1_l.
  exact (order_from_exponent (t4_Fp4 mnt4_tower) (Z.to_N mnt4_p) 4 (proj2 mnt4_FF) g mnt4_r 1 G0 ltac:(vm_compute; reflexivity)).
Qed.
Lemma mnt6_order (g : t6_Fp6 mnt6_tower) : g <> 0 -> fpow (fpow g mnt6_e) mnt6_r = 1.
Proof.
  intros G0. replace mnt6_e with (1 * mnt6_e)%N by apply N.mul_1_l.
  exact (order_from_exponent (t6_Fp6 mnt6_tower) (Z.to_N mnt6_p) 6 (proj2 mnt6_FF) g mnt6_r 1 G0 ltac:(vm_compute; reflexivity)).
Qed.
Lemma neg_not_inf (K : FieldOps) (P : point K) : P <> Inf -> ec_neg P <> Inf.
Proof. destruct P; [congruence|discriminate]. Qed.
Lemma bls_g1_neg P t t' : bls_g1 P t -> rep_jacobian (tX t') (tY t') (tZ t') (ec_neg P) -> bls_g1 (ec_neg P) t'.
Proof.
  intros (N & O & R & _) T. exact (conj (neg_not_inf _ P N) (conj (on_curve_neg _ bls_K1 _ _ P O)
    (conj (ec_mul_neg _ bls_K1 _ (invp_0 bls_p eq_refl) _ P R) T))).
Qed.
Lemma bls_g2_neg Q t t' : bls_g2 Q t -> rep_jacobian (tX t') (tY t') (tZ t') (ec_neg Q) -> bls_g2 (ec_neg Q) t'.
Proof.
  intros (N & O & R & _) T. exact (conj (neg_not_inf _ Q N) (conj (on_curve_neg _ bls_K2 _ _ Q O)
    (conj (ec_mul_neg _ bls_K2 _ (inv2_0 (Zp bls_p) bls_K1 _) _ Q R) T))).
Qed.
Lemma mnt4_g1_neg P t t' : mnt4_g1 P t -> rep_projective (tX t') (tY t') (tZ t') (ec_neg P) -> mnt4_g1 (ec_neg P) t'.
Proof.
  intros (N & O & R & _) T. exact (conj (neg_not_inf _ P N) (conj (on_curve_neg _ mnt4_K _ _ P O)
    (conj (ec_mul_neg _ mnt4_K _ (invp_0 mnt4_p eq_refl) _ P R) T))).
Qed.
Lemma mnt4_g2_neg Q t t' : mnt4_g2 Q t -> rep_projective (tX t') (tY t') (tZ t') (ec_neg Q) -> mnt4_g2 (ec_neg Q) t'.
Proof.
  intros (N & O & R & _) T. exact (conj (neg_not_inf _ Q N) (conj (on_curve_neg _ mnt4_KF _ _ Q O)
    (conj (ec_mul_neg _ mnt4_KF _ (inv2_0 (Zp mnt4_p) mnt4_K _) _ Q R) T))).
Qed.
Lemma mnt6_g1_neg P t t' : mnt6_g1 P t -> rep_projective (tX t') (tY t') (tZ t') (ec_neg P) -> mnt6_g1 (ec_neg P) t'.
Proof.
  intros (N & O & R & _) T. exact (conj (neg_not_inf _ P N) (conj (on_curve_neg _ mnt6_K _ _ P O)
    (conj (ec_mul_neg _ mnt6_K _ (invp_0 mnt6_p eq_refl) _ P R) T))).
Qed.
Lemma mnt6_g2_neg Q t t' : mnt6_g2 Q t -> rep_projective (tX t') (tY t') (tZ t') (ec_neg Q) -> mnt6_g2 (ec_neg Q) t'.
Proof.
  intros (N & O & R & _) T. exact (conj (neg_not_inf _ Q N) (conj (on_curve_neg _ mnt6_KF _ _ Q O)
    (conj (ec_mul_neg _ mnt6_KF _ (inv3_0 (Zp mnt6_p) mnt6_K _) _ Q R) T))).
Qed.
Definition inverts {A B G : FieldOps} (m : point A -> point B -> G) (P : point A) (Q : point B) : Prop :=
  m P Q <> 0 -> m (ec_neg P) Q = finv (m P Q) /\ m P (ec_neg Q) = finv (m P Q).
Lemma inverts_ext (A B G : FieldOps) (m m' : point A -> point B -> G) P Q : (forall P Q, m P Q = m' P Q) -> inverts m P Q -> inverts m' P Q.
Proof. intros E. unfold inverts. rewrite !E. exact id. Qed.
Local Notation bK := (Zp bls_p). Local Notation bnr := (tozp bls_p bls_nr). Local Notation bF := (Fp2 bK bnr).
Local Notation bxi := (lit2 bls_p (t12_xi6 bls_t)). Local Notation bsq := (fp2_sqr bK bnr). Local Notation bG := (Fp12 bF bsq bxi bxi).
Local Notation k4 := (Zp mnt4_p). Local Notation n4 := (tozp mnt4_p mnt4_fp2_non_residue).
Local Notation k6 := (Zp mnt6_p). Local Notation n6 := (tozp mnt6_p mnt6_fp3_non_residue).
Lemma bls_ate_eq P Q : (fpow (miller_fun_neg bG 0 bls_n (untwist (emb12 bF bsq bxi) (w12 bF bsq bxi) Q) (point_map (fun x => emb12 bF bsq bxi (inc2 bK bnr x)) P)) bls_e) = ate_bls12_381 P Q.
Proof. exact eq_refl. Qed.
Lemma bls_inverts P Q : P <> Inf -> Q <> Inf -> inverts (fun P Q => (fpow (miller_fun_neg bG 0 bls_n (untwist (emb12 bF bsq bxi) (w12 bF bsq bxi) Q) (point_map (fun x => emb12 bF bsq bxi (inc2 bK bnr x)) P)) bls_e)) P Q.
Proof.
  destruct P as [|xp yp]; [congruence|]. destruct Q as [|xq yq]; [congruence|]. intros _ _ N.
  destruct (bls_neg xp yp xq yq N) as [V1 V2]. exact (conj V2 V1).
Qed.
Lemma bls_ate_neg P Q : P <> Inf -> Q <> Inf -> ate_bls12_381 P Q <> 0 ->
  ate_bls12_381 (ec_neg P) Q = finv (ate_bls12_381 P Q) /\ ate_bls12_381 P (ec_neg Q) = finv (ate_bls12_381 P Q) /\ fpow (ate_bls12_381 P Q) bls_r = 1.
Proof.
  intros NP NQ N. destruct (inverts_ext _ _ _ _ _ P Q bls_ate_eq (bls_inverts P Q NP NQ) N) as [V1 V2].
  split; [exact V1|]. split; [exact V2|]. rewrite <- bls_ate_eq in N |- *. exact (bls_order _ (pow_neq0 _ bls_KG _ bls_e bls_e0 N)).
Qed.
Lemma mnt4_ate_eq P Q : (fpow (miller_fun (Fp4 k4 n4 n4) (emb4 k4 n4 (inc2 k4 n4 mnt4_a)) mnt_n (untwist (emb4 k4 n4) (w4 k4 n4) Q) (point_map (fun x => emb4 k4 n4 (inc2 k4 n4 x)) P)) mnt4_e) = ate_mnt4 mnt4_a P Q.
Proof. exact eq_refl. Qed.
Lemma mnt4_inverts P Q : P <> Inf -> Q <> Inf -> inverts (fun P Q => (fpow (miller_fun (Fp4 k4 n4 n4) (emb4 k4 n4 (inc2 k4 n4 mnt4_a)) mnt_n (untwist (emb4 k4 n4) (w4 k4 n4) Q) (point_map (fun x => emb4 k4 n4 (inc2 k4 n4 x)) P)) mnt4_e)) P Q.
Proof.
  destruct P as [|xp yp]; [congruence|]. destruct Q as [|xq yq]; [congruence|]. intros _ _ N.
  destruct (mnt4_neg xp yp xq yq N) as [V1 V2]. exact (conj V2 V1).
Qed.
Lemma mnt4_ate_neg P Q : P <> Inf -> Q <> Inf -> ate_mnt4 mnt4_a P Q <> 0 ->
  ate_mnt4 mnt4_a (ec_neg P) Q = finv (ate_mnt4 mnt4_a P Q) /\ ate_mnt4 mnt4_a P (ec_neg Q) = finv (ate_mnt4 mnt4_a P Q) /\ fpow (ate_mnt4 mnt4_a P Q) mnt4_r = 1.
Proof.
  intros NP NQ N. destruct (inverts_ext _ _ _ _ _ P Q mnt4_ate_eq (mnt4_inverts P Q NP NQ) N) as [V1 V2].
  split; [exact V1|]. split; [exact V2|]. rewrite <- mnt4_ate_eq in N |- *. exact (mnt4_order _ (pow_neq0 _ mnt4_KG _ mnt4_e mnt4_e0 N)).
Qed.
Lemma mnt6_ate_eq P Q : (fpow (miller_fun_neg (Fp6t k6 n6 n6) (emb6 k6 n6 (inc3 k6 n6 mnt6_a)) mnt_n (untwist (emb6 k6 n6) (w6 k6 n6) Q) (point_map (fun x => emb6 k6 n6 (inc3 k6 n6 x)) P)) mnt6_e) = ate_mnt6 mnt6_a P Q.
Proof. exact eq_refl. Qed.
Lemma mnt6_inverts P Q : P <> Inf -> Q <> Inf -> inverts (fun P Q => (fpow (miller_fun_neg (Fp6t k6 n6 n6) (emb6 k6 n6 (inc3 k6 n6 mnt6_a)) mnt_n (untwist (emb6 k6 n6) (w6 k6 n6) Q) (point_map (fun x => emb6 k6 n6 (inc3 k6 n6 x)) P)) mnt6_e)) P Q.
Proof.
  destruct P as [|xp yp]; [congruence|]. destruct Q as [|xq yq]; [congruence|]. intros _ _ N.
  destruct (mnt6_neg xp yp xq yq N) as [V1 V2]. exact (conj V2 V1).
Qed.
Lemma mnt6_ate_neg P Q : P <> Inf -> Q <> Inf -> ate_mnt6 mnt6_a P Q <> 0 ->
  ate_mnt6 mnt6_a (ec_neg P) Q = finv (ate_mnt6 mnt6_a P Q) /\ ate_mnt6 mnt6_a P (ec_neg Q) = finv (ate_mnt6 mnt6_a P Q) /\ fpow (ate_mnt6 mnt6_a P Q) mnt6_r = 1.
Proof.
  intros NP NQ N. destruct (inverts_ext _ _ _ _ _ P Q mnt6_ate_eq (mnt6_inverts P Q NP NQ) N) as [V1 V2].
  split; [exact V1|]. split; [exact V2|]. rewrite <- mnt6_ate_eq in N |- *. exact (mnt6_order _ (pow_neq0 _ mnt6_KG _ mnt6_e mnt6_e0 N)).
Qed.
Theorem C63_bls12_381_negate std P Q tP tQ tP' tQ' : bls_g1 P tP -> bls_g2 Q tQ ->
  rep_jacobian (tX tP') (tY tP') (tZ tP') (ec_neg P) -> rep_jacobian (tX tQ') (tY tQ') (tZ tQ') (ec_neg Q) ->
  exists g, bls12_381_pair_reduced std tP tQ = Some g /\ g <> 0 /\ fpow g bls_r = 1 /\
    bls12_381_pair_reduced std tP' tQ = Some (finv g) /\ bls12_381_pair_reduced std tP tQ' = Some (finv g).
Proof.
  intros A B TP TQ. destruct (bls_reduced std P Q tP tQ A B) as [E N]. exists (ate_bls12_381 P Q).
  destruct (bls_ate_neg P Q (proj1 A) (proj1 B) N) as (V1 & V2 & V3).
  assert (E1 := proj1 (bls_reduced std _ Q tP' tQ (bls_g1_neg P tP tP' A TP) B)).
  assert (E2 := proj1 (bls_reduced std P _ tP tQ' A (bls_g2_neg Q tQ tQ' B TQ))).
  exact (conj E (conj N (conj V3 (conj (eq_trans E1 (f_equal Some V1)) (eq_trans E2 (f_equal Some V2)))))).
Qed.
Print Assumptions C63_bls12_381_negate.
Theorem C63_mnt4_negate find_wnaf std P Q tP tQ tP' tQ' : wnaf_contract find_wnaf -> mnt4_g1 P tP -> mnt4_g2 Q tQ ->
  rep_projective (tX tP') (tY tP') (tZ tP') (ec_neg P) -> rep_projective (tX tQ') (tY tQ') (tZ tQ') (ec_neg Q) ->
  exists g, mnt4_pair_reduced find_wnaf std tP tQ = Some g /\ g <> 0 /\ fpow g mnt4_r = 1 /\
    mnt4_pair_reduced find_wnaf std tP' tQ = Some (finv g) /\ mnt4_pair_reduced find_wnaf std tP tQ' = Some (finv g).
Proof.
  intros W A B TP TQ. destruct (mnt4_reduced find_wnaf std P Q tP tQ W A B) as [E N]. exists (ate_mnt4 mnt4_a P Q).
  destruct (mnt4_ate_neg P Q (proj1 A) (proj1 B) N) as (V1 & V2 & V3).
  assert (E1 := proj1 (mnt4_reduced find_wnaf std _ Q tP' tQ W (mnt4_g1_neg P tP tP' A TP) B)).
  assert (E2 := proj1 (mnt4_reduced find_wnaf std P _ tP tQ' W A (mnt4_g2_neg Q tQ tQ' B TQ))).
  exact (conj E (conj N (conj V3 (conj (eq_trans E1 (f_equal Some V1)) (eq_trans E2 (f_equal Some V2)))))).
Qed.
Print Assumptions C63_mnt4_negate.
Theorem C63_mnt6_negate find_wnaf P Q tP tQ tP' tQ' : wnaf_contract find_wnaf -> mnt6_g1 P tP -> mnt6_g2 Q tQ ->
  rep_projective (tX tP') (tY tP') (tZ tP') (ec_neg P) -> rep_projective (tX tQ') (tY tQ') (tZ tQ') (ec_neg Q) ->
  exists g, mnt6_pair_reduced find_wnaf tP tQ = Some g /\ g <> 0 /\ fpow g mnt6_r = 1 /\
    mnt6_pair_reduced find_wnaf tP' tQ = Some (finv g) /\ mnt6_pair_reduced find_wnaf tP tQ' = Some (finv g).
Proof.
  intros W A B TP TQ. destruct (mnt6_reduced find_wnaf P Q tP tQ W A B) as [E N]. exists (ate_mnt6 mnt6_a P Q).
  destruct (mnt6_ate_neg P Q (proj1 A) (proj1 B) N) as (V1 & V2 & V3).
  assert (E1 := proj1 (mnt6_reduced find_wnaf _ Q tP' tQ W (mnt6_g1_neg P tP tP' A TP) B)).
  assert (E2 := proj1 (mnt6_reduced find_wnaf P _ tP tQ' W A (mnt6_g2_neg Q tQ tQ' B TQ))).
  exact (conj E (conj N (conj V3 (conj (eq_trans E1 (f_equal Some V1)) (eq_trans E2 (f_equal Some V2)))))).
Qed.
Print Assumptions C63_mnt6_negate.
(** the points above with negated y are representations of the negatives *)
Example C63_bls12_381_neg : rep_jacobian (tX (jac_of (ec_neg bls_G1) 1)) (tY (jac_of (ec_neg bls_G1) 1)) (tZ (jac_of (ec_neg bls_G1) 1)) (ec_neg bls_G1).
Proof. apply jac_of_rep; [exact bls_K1|discriminate|exact (F_1_neq_0 (FL_th _ bls_K1))]. Qed.
