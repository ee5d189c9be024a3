(** C48: pair_reduced with one argument the identity. *)
From Coq Require Import ZArith NArith List Bool Lia Znumtheory Field_theory.
From Verif Require Import Base.Field Base.Zp Base.Ext Base.Hom Spec.Group Spec.Weierstrass Spec.Edwards Spec.Digits Spec.Pairing Spec.AtePairing
  Model.FieldParams Model.Shipped Model.CurveParams Model.Generators Model.ShortWeierstrass Model.Edwards Model.EdwardsG2 Model.Wnaf Model.Power Model.FinalExp Model.Pairing
  Model.Fp2 Model.Fp3 Model.Fp4 Model.Fp6_2over3 Model.Fp12
  Proof.Homs Proof.FiniteField Proof.Shipped Proof.ShippedTowers Proof.PrimesPairing Proof.Bls381 Proof.FinalExp Proof.Generators Proof.GeneratorsEd2 Proof.Wnaf
  Proof.EdwardsTorsion Proof.PairingCore Proof.PairingMiller Proof.PairingA40 Proof.PairingBls Proof.PairingProj Proof.PairingMnt Proof.PairingShip Proof.PairingFinal
  Proof.PairingEd Proof.PairingEdShip Proof.PairingBig Proof.PairingGen Proof.PairingIdentity Proof.PairingIdentityShip
  Properties.Edwards Properties.FinalExp Properties.Generators Properties.Pairing Properties.PairingEdwards.
Import ListNotations.
Local Open Scope fld_scope.
Local Notation edF := (Zp edwards_p).
Local Notation edK := (t6_Fp3 edwards_tower).
Local Notation edG := (t6_Fp6 edwards_tower).

Lemma fpower_zero (G : FieldOps) (R : RingLaws G) (e : N) : (e <> 0)%N -> fpower (0 : G) e = 0.
Proof.
  intros N. rewrite (fpower_fpow G _ _ R). replace e with (N.succ (N.pred e)) by lia. unfold fpow. rewrite N.iter_succ.
  apply (mul_0l G R).
Qed.
Lemma fe1_eq (G : FieldOps) (R : RingLaws G) (x : G) : fe1 G x = true -> x = 1.
Proof. exact (feqb_true G R x 1). Qed.
Lemma fe1_neq (G : FieldOps) (R : RingLaws G) (x : G) : fe1 G x = false -> x <> 1.
Proof. unfold fe1. intros C E. rewrite E, (feqb_refl G R) in C. discriminate C. Qed.
Lemma fe1_not0 (G : FieldOps) (KL : FieldLaws G) (x : G) (e : N) : (e <> 0)%N -> fe1 G (fpower x e) = true -> x <> 0.
Proof.
  intros N C E. apply (fe1_eq G (FieldLaws_Ring G KL)) in C. rewrite E, (fpower_zero G (FieldLaws_Ring G KL) e N) in C.
  exact (F_1_neq_0 (FL_th _ KL) (eq_sym C)).
Qed.
Lemma fe1_value (G : FieldOps) (KL : FieldLaws G) (fe : G -> G) (e : N) (x : G) : (e <> 0)%N ->
  (forall f, f <> 0 -> fe f = fpow f e) -> fe1 G (fpower x e) = true -> fe x = 1.
Proof.
  intros N H C. rewrite (H x (fe1_not0 G KL x e N C)), <- (fpower_fpow G _ _ (FieldLaws_Ring G KL)). exact (fe1_eq G (FieldLaws_Ring G KL) _ C).
Qed.
Lemma zk_value (G : FieldOps) (fe : G -> G) (e : N) (x : G) : (forall f, f <> 0 -> fe f = fpow f e) -> fe 0 = 0 -> zk G e x -> fe x = 1 \/ fe x = 0.
Proof. intros H Z [E|[N V]]; [right; rewrite E; exact Z|left; rewrite (H x N); exact V]. Qed.
Lemma fe1_value_neq (G : FieldOps) (KL : FieldLaws G) (fe : G -> G) (e : N) (x : G) :
  (forall f, f <> 0 -> fe f = fpow f e) -> fe 0 = 0 -> fe1 G (fpower x e) = false -> fe x <> 1.
Proof.
  intros H Z C. destruct (feq_dec G (FieldLaws_Ring G KL) x 0) as [E|E].
  - rewrite E, Z. exact (fun V => F_1_neq_0 (FL_th _ KL) (eq_sym V)).
  - rewrite (H x E), <- (fpower_fpow G _ _ (FieldLaws_Ring G KL)). exact (fe1_neq G (FieldLaws_Ring G KL) _ C).
Qed.

Lemma proj_one_rep (K : FieldOps) (KL : FieldLaws K) (x y : K) : rep_projective x y 1 (Aff x y : point K).
Proof.
  assert (T := FL_th K KL). split; [exact (F_1_neq_0 T)|]. split; [rewrite (Rmul_comm (F_R T))|rewrite (Rmul_comm (F_R T))]; symmetry; apply (Rmul_1_l (F_R T)).
Qed.

(** ** bls12-381.  P = O: the value is 1 or 0; it is 0 when one of the chords and tangents of the
    loop passes through (0, 0), which is not excluded here (missing for C48). *)
Lemma bls_value (f : t12_Fp12 bls12_381_tower) : f <> 0 -> bls12_381_final_exponentiation f = fpow f bls_e.
Proof. intros N. exact (C45_bls12_381 f N). Qed.
Theorem C48_bls12_381_left_partial std tP tQ : rep_jacobian (tX tP) (tY tP) (tZ tP) (Inf : point (Zp bls_p)) ->
  exists v, bls12_381_pair_reduced std tP tQ = Some v /\ (v = 1 \/ v = 0).
Proof.
  intros T. destruct (bls_left std tP tQ T) as (f & E & Z).
  exists (bls12_381_final_exponentiation f). split; [unfold bls12_381_pair_reduced; rewrite E; reflexivity|].
  exact (zk_value (t12_Fp12 bls12_381_tower) bls12_381_final_exponentiation bls_e f bls_value bls_final_zero Z).
Qed.
Print Assumptions C48_bls12_381_left_partial.
(** at g2 one() it is 1 *)
Theorem C48_bls12_381_left_one : bls12_381_pair_reduced true bls_O1 bls_one2 = Some 1.
Proof.
  destruct bls_left_value as (f & E & C). rewrite E. apply f_equal.
  exact (fe1_eq (t12_Fp12 bls12_381_tower) (FieldLaws_Ring _ (FF_field _ _ _ bls_G12)) f C).
Qed.
Print Assumptions C48_bls12_381_left_one.
(** Q = O: the value is 0 for every P *)
Theorem C48_bls12_381_refuted std tP tQ : rep_jacobian (tX tQ) (tY tQ) (tZ tQ) (Inf : point (t12_Fp2 bls_t)) ->
  bls12_381_pair_reduced std tP tQ = Some 0 /\ (0 : t12_Fp12 bls12_381_tower) <> 1.
Proof.
  intros T. split; [unfold bls12_381_pair_reduced; rewrite (bls_right std tP tQ T); exact (f_equal Some bls_final_zero)|].
  exact (fun E => F_1_neq_0 (FL_th _ (FF_field _ _ _ bls_G12)) (eq_sym E)).
Qed.
Print Assumptions C48_bls12_381_refuted.
Example C48_bls12_381_O1 : rep_jacobian (tX bls_O1) (tY bls_O1) (tZ bls_O1) (Inf : point (Zp bls_p)).
Proof. unfold bls_O1. cbn [rep_jacobian]. vm_compute. reflexivity. Qed.
Example C48_bls12_381_O2 : let O : triple (t12_Fp2 bls_t) := mkT (1 : t12_Fp2 bls_t) (1 : t12_Fp2 bls_t) (0 : t12_Fp2 bls_t) in
  rep_jacobian (tX O) (tY O) (tZ O) (Inf : point (t12_Fp2 bls_t)).
Proof. reflexivity. Qed.

(** ** mnt4-298 *)
Lemma mnt4_value find_wnaf : wnaf_contract find_wnaf -> forall f : t4_Fp4 mnt4_tower, f <> 0 -> mnt4_298_final_exponentiation find_wnaf f = fpow f mnt4_e.
Proof. intros W f N. exact (proj1 (C46_mnt4 find_wnaf f W N)). Qed.
Theorem C48_mnt4_left_partial find_wnaf std tP tQ : wnaf_contract find_wnaf -> rep_projective (tX tP) (tY tP) (tZ tP) (Inf : point (Zp mnt4_p)) ->
  exists v, mnt4_pair_reduced find_wnaf std tP tQ = Some v /\ (v = 1 \/ v = 0).
Proof.
  intros W T. destruct (mnt4_left std tP tQ T) as (f & E & Z).
  exists (mnt4_298_final_exponentiation find_wnaf f). split; [unfold mnt4_pair_reduced; rewrite E; reflexivity|].
  exact (zk_value (t4_Fp4 mnt4_tower) (mnt4_298_final_exponentiation find_wnaf) mnt4_e f (mnt4_value find_wnaf W) (mnt4_final_zero find_wnaf W) Z).
Qed.
Print Assumptions C48_mnt4_left_partial.
Lemma mnt4_e_pos : (mnt4_e <> 0)%N.
Proof. intros E. vm_compute in E. discriminate E. Qed.
Theorem C48_mnt4_left_one find_wnaf : wnaf_contract find_wnaf -> mnt4_pair_reduced find_wnaf true mnt4_O1 mnt4_one2 = Some 1.
Proof.
  intros W. destruct mnt4_left_value as (f & E & C). unfold mnt4_pair_reduced. rewrite E. cbn [option_map]. apply f_equal.
  exact (fe1_value (t4_Fp4 mnt4_tower) mnt4_KG (mnt4_298_final_exponentiation find_wnaf) mnt4_e f mnt4_e_pos (mnt4_value find_wnaf W) C).
Qed.
Print Assumptions C48_mnt4_left_one.
(** Q = O in a build where g2 zero() is stored with Y = 0: the value is 0 for every P *)
Theorem C48_mnt4_refuted find_wnaf tP tQ : wnaf_contract find_wnaf -> rep_projective (tX tQ) (tY tQ) (tZ tQ) (Inf : point (t4_Fp2 mnt4_tower)) ->
  mnt4_pair_reduced find_wnaf false tP tQ = Some 0 /\ (0 : t4_Fp4 mnt4_tower) <> 1.
Proof.
  intros W T. split; [unfold mnt4_pair_reduced; rewrite (mnt4_right tP tQ T); exact (f_equal Some (mnt4_final_zero find_wnaf W))|].
  exact (fun E => F_1_neq_0 (FL_th _ mnt4_KG) (eq_sym E)).
Qed.
Print Assumptions C48_mnt4_refuted.
(** in the other build the value at g1 one() is not 1 *)
Theorem C48_mnt4_std_refuted find_wnaf : wnaf_contract find_wnaf -> exists v, mnt4_pair_reduced find_wnaf true mnt4_one1 mnt4_O2 = Some v /\ v <> 1.
Proof.
  intros W. destruct mnt4_right_value as (g & E & C). exists (mnt4_298_final_exponentiation find_wnaf g).
  split; [unfold mnt4_pair_reduced; rewrite E; reflexivity|].
  exact (fe1_value_neq (t4_Fp4 mnt4_tower) mnt4_KG (mnt4_298_final_exponentiation find_wnaf) mnt4_e g (mnt4_value find_wnaf W) (mnt4_final_zero find_wnaf W) C).
Qed.
Print Assumptions C48_mnt4_std_refuted.
Example C48_mnt4_O1 : rep_projective (tX mnt4_O1) (tY mnt4_O1) (tZ mnt4_O1) (Inf : point (Zp mnt4_p)).
Proof. unfold mnt4_O1. cbn [rep_projective]. vm_compute. split; reflexivity. Qed.
Example C48_mnt4_O2 : rep_projective (tX mnt4_O2) (tY mnt4_O2) (tZ mnt4_O2) (Inf : point (t4_Fp2 mnt4_tower)).
Proof. unfold mnt4_O2. cbn [rep_projective]. vm_compute. split; reflexivity. Qed.

(** ** mnt6-298 *)
Lemma mnt6_value find_wnaf : wnaf_contract find_wnaf -> forall f : t6_Fp6 mnt6_tower, f <> 0 -> mnt6_298_final_exponentiation find_wnaf f = fpow f mnt6_e.
Proof. intros W f N. exact (proj1 (C46_mnt6 find_wnaf f W N)). Qed.
Theorem C48_mnt6_left_partial find_wnaf tP tQ : wnaf_contract find_wnaf -> rep_projective (tX tP) (tY tP) (tZ tP) (Inf : point (Zp mnt6_p)) ->
  exists v, mnt6_pair_reduced find_wnaf tP tQ = Some v /\ (v = 1 \/ v = 0).
Proof.
  intros W T. destruct (mnt6_left tP tQ T) as (f & E & Z).
  exists (mnt6_298_final_exponentiation find_wnaf f). split; [unfold mnt6_pair_reduced; rewrite E; reflexivity|].
  exact (zk_value (t6_Fp6 mnt6_tower) (mnt6_298_final_exponentiation find_wnaf) mnt6_e f (mnt6_value find_wnaf W) (mnt6_final_zero find_wnaf W) Z).
Qed.
Print Assumptions C48_mnt6_left_partial.
Lemma mnt6_e_pos : (mnt6_e <> 0)%N.
Proof. intros E. vm_compute in E. discriminate E. Qed.
Theorem C48_mnt6_left_one find_wnaf : wnaf_contract find_wnaf -> mnt6_pair_reduced find_wnaf mnt6_O1 mnt6_one2 = Some 1.
Proof.
  intros W. destruct mnt6_left_value as (f & E & C). unfold mnt6_pair_reduced. rewrite E. cbn [option_map]. apply f_equal.
  exact (fe1_value (t6_Fp6 mnt6_tower) mnt6_KG (mnt6_298_final_exponentiation find_wnaf) mnt6_e f mnt6_e_pos (mnt6_value find_wnaf W) C).
Qed.
Print Assumptions C48_mnt6_left_one.
(** Q = O: the value is 0 at the point P = (0, sqrt b) of order r *)
Theorem C48_mnt6_refuted find_wnaf : wnaf_contract find_wnaf ->
  exists P, mnt6_g1 P mnt6_P0 /\ (0 : t6_Fp6 mnt6_tower) <> 1 /\
  forall tQ, rep_projective (tX tQ) (tY tQ) (tZ tQ) (Inf : point (t6_Fp3 mnt6_tower)) -> mnt6_pair_reduced find_wnaf mnt6_P0 tQ = Some 0.
Proof.
  intros W. exists (Aff (tozp mnt6_p 0 : Zp mnt6_p) (tozp mnt6_p mnt6_y0)).
  destruct (sw_check_sound mnt6_sw0 mnt6_p_prime mnt6_sw0_checked) as (_ & O & _ & _ & R).
  split; [|split].
  - split; [discriminate|]. split; [exact O|]. split; [rewrite <- Z_N_nat in R; exact R|].
    rewrite mnt6_P0_eq. exact (proj_one_rep (Zp mnt6_p) mnt6_K _ _).
  - exact (fun E => F_1_neq_0 (FL_th _ mnt6_KG) (eq_sym E)).
  - intros tQ T. unfold mnt6_pair_reduced. rewrite (mnt6_right_zero tQ T). exact (f_equal Some (mnt6_final_zero find_wnaf W)).
Qed.
Print Assumptions C48_mnt6_refuted.
Example C48_mnt6_O2 : rep_projective (tX mnt6_O2) (tY mnt6_O2) (tZ mnt6_O2) (Inf : point (t6_Fp3 mnt6_tower)).
Proof. exact mnt6_O2_rep. Qed.
Example C48_mnt6_O1 : rep_projective (tX mnt6_O1) (tY mnt6_O1) (tZ mnt6_O1) (Inf : point (Zp mnt6_p)).
Proof. unfold mnt6_O1. cbn [rep_projective]. vm_compute. split; reflexivity. Qed.

(** ** edwards-183.  P = O: the value is 1 for every Q other than O of order r *)
Theorem C48_edwards_left find_wnaf std tP Q tQ : wnaf_contract find_wnaf -> is_inverted tP (te_zero : edF * edF) -> edwards_g2 Q tQ ->
  edwards_pair_reduced find_wnaf std tP tQ = Some 1.
Proof.
  intros W T [[NQ IQ] TQ]. destruct (edwards_left std tP Q tQ T NQ (edwards_odd Q IQ) TQ) as (f & E & N & V).
  unfold edwards_pair_reduced. rewrite E. cbn [option_map]. apply f_equal. exact (eq_trans (proj1 (C46_edwards find_wnaf f W N)) V).
Qed.
Print Assumptions C48_edwards_left.
(** Q = O: the value is 0 for every P *)
Theorem C48_edwards_refuted find_wnaf std tP tQ : wnaf_contract find_wnaf -> is_inverted tQ (te_zero : edK * edK) ->
  edwards_pair_reduced find_wnaf std tP tQ = Some 0 /\ (0 : edG) <> 1.
Proof.
  intros W T. split; [unfold edwards_pair_reduced; rewrite (edwards_right std tP tQ T); exact (f_equal Some (edwards_final_zero find_wnaf W))|].
  exact (fun E => F_1_neq_0 (FL_th _ edwards_KG) (eq_sym E)).
Qed.
Print Assumptions C48_edwards_refuted.
(** a stored identity; [C62_edwards_g2] is a point meeting the other hypothesis *)
Example C48_edwards_O1 : is_inverted (mkI (1 : edF) (0 : edF) (0 : edF)) (te_zero : edF * edF).
Proof. left. repeat split; try reflexivity. Qed.
Example C48_edwards_O2 : is_inverted (mkI (1 : edK) (0 : edK) (0 : edK)) (te_zero : edK * edK).
Proof. left. repeat split; try reflexivity. Qed.
