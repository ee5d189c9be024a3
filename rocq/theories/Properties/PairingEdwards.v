(** C47, C62, C63: the Miller loop and the reduced pairing of edwards<183>. *)
From Coq Require Import ZArith NArith List Bool Lia Znumtheory Field_theory Field.
From Verif Require Import Base.Field Base.Zp Base.Ext Base.Hom Spec.Group Spec.Weierstrass Spec.Edwards Spec.EdwardsWeierstrass Spec.Digits Spec.Pairing Spec.AtePairing
  Model.FieldParams Model.Shipped Model.CurveParams Model.Generators Model.Edwards Model.EdwardsG2 Model.Wnaf Model.FinalExp Model.Pairing Model.Fp3 Model.Fp6_2over3
  Proof.FiniteField Proof.Shipped Proof.ShippedTowers Proof.PrimesPairing Proof.FinalExp Proof.Generators Proof.GeneratorsEd2 Proof.Wnaf
  Proof.EdwardsOps Proof.EdwardsGroup Proof.EdwardsTorsion Proof.EdwardsDual
  Proof.PairingCore Proof.PairingMiller Proof.PairingEd Proof.PairingEdShip Proof.PairingEdFull Proof.PairingFinal Proof.PairingEdBilinear
  Properties.Edwards Properties.FinalExp Properties.Generators.
Import ListNotations.
Local Open Scope fld_scope.
Local Notation edF := (Zp edwards_p).
Local Notation edK := (t6_Fp3 edwards_tower).
Local Notation edG := (t6_Fp6 edwards_tower).

(** the curve over Fp, the twist over Fp3 (points of odd order r) and their stored coordinates *)
Definition edwards_D : edF := tozp edwards_p edwards_183_d.
Definition edwards_g1 (P : edF * edF) (t : inverted edF) : Prop :=
  P <> te_zero /\ on_te edF 1 edwards_D P /\ is_inverted t P.
Definition edwards_G2_point (Q : edK * edK) : Prop :=
  Q <> te_zero /\ odd_point edK edwards_ta (edwards_td edwards_D) edwards_r Q.
Definition edwards_g2 (Q : edK * edK) (t : inverted edK) : Prop := edwards_G2_point Q /\ is_inverted t Q.
(** the line of the Weierstrass form through the images of P1 and P2, at the image of P *)
Definition edwards_line (P1 P2 : edK * edK) (P : edF * edF) : edG :=
  line edG (edwards_emb (edwards_inc (te_wa edF 1 edwards_D)))
    (untwist edwards_emb edwards_wt (te_weier edK edwards_ta (edwards_td edwards_D) P1))
    (untwist edwards_emb edwards_wt (te_weier edK edwards_ta (edwards_td edwards_D) P2))
    (point_map (fun x => edwards_emb (edwards_inc x)) (te_weier edF 1 edwards_D P)).
Definition rep_ext_edwards (R : ext_proj edK) (P : edK * edK) : Prop := rep_extended (pX R) (pY R) (pT R) (pZ R) P.

Lemma edwards_odd Q : odd_point edK edwards_ta (edwards_td edwards_D) edwards_r Q -> edwards_in Q.
Proof.
  exact (proj1 (odd_din edF (tozp edwards_p edwards_fp3_non_residue) edwards_KF edwards_two edwards_r edwards_ta (edwards_td edwards_D) Q edwards_cmp)).
Qed.

(** ** C47: the steps and the loop *)
Theorem C47_edwards_doubling_step std R P1 P tP : rep_ext_edwards R P1 -> edwards_G2_point P1 -> edwards_g1 P tP ->
  exists u, let step := ed_doubling_step edK edwards_mul_by_a R in
    rep_ext_edwards (fst step) (te_add edK edwards_ta (edwards_td edwards_D) P1 P1) /\ u <> 0 /\
    ed_g_RR edF edK edG edwards_smul edwards_gt (edwards_precompute_g1 std tP) (snd step) = edwards_line P1 P1 P * (edwards_emb u * edwards_wt).
Proof. intros Rp [N I] (NP & OP & TP). exact (edwards_dbl std R P1 P tP Rp (edwards_odd P1 I) N NP OP TP). Qed.
Print Assumptions C47_edwards_doubling_step.
Theorem C47_edwards_addition_step std R P1 P2 P tP : rep_ext_edwards R P1 -> edwards_G2_point P1 -> edwards_G2_point P2 ->
  P1 <> P2 -> P1 <> te_neg P2 -> edwards_g1 P tP ->
  exists u, let step := ed_mixed_addition_step edK edwards_mul_by_a (mkXP (fst P2) (snd P2) 1 (fst P2 * snd P2)) R in
    rep_ext_edwards (fst step) (te_add edK edwards_ta (edwards_td edwards_D) P1 P2) /\ u <> 0 /\
    ed_g_RQ edF edK edG edwards_smul edwards_gt (edwards_precompute_g1 std tP) (snd step) = edwards_line P1 P2 P * edwards_emb u.
Proof.
  intros Rp [N1 I1] [N2 I2] D1 D2 (NP & OP & TP).
  exact (edwards_add std R P1 P2 P tP Rp (edwards_odd P1 I1) (edwards_odd P2 I2) N1 N2 D1 D2 NP OP TP).
Qed.
Print Assumptions C47_edwards_addition_step.
(** the same for the step that takes the second point in any extended coordinates *)
Theorem C47_edwards_full_addition_step std R B P1 P2 P tP : rep_ext_edwards R P1 -> rep_ext_edwards B P2 -> edwards_G2_point P1 -> edwards_G2_point P2 ->
  P1 <> P2 -> P1 <> te_neg P2 -> edwards_g1 P tP ->
  exists u, let step := ed_full_addition_step edK edwards_mul_by_a B R in
    rep_ext_edwards (fst step) (te_add edK edwards_ta (edwards_td edwards_D) P1 P2) /\ u <> 0 /\
    ed_g_RQ edF edK edG edwards_smul edwards_gt (edwards_precompute_g1 std tP) (snd step) = edwards_line P1 P2 P * edwards_emb u.
Proof.
  intros Rp RB [N1 I1] [N2 I2] D1 D2 (NP & OP & TP).
  exact (edwards_full_add std R B P1 P2 P tP Rp RB (edwards_odd P1 I1) (edwards_odd P2 I2) N1 N2 D1 D2 NP OP TP).
Qed.
Print Assumptions C47_edwards_full_addition_step.
Theorem C47_edwards_running_point std P Q tP tQ : edwards_g1 P tP -> edwards_g2 Q tQ ->
  exists f,
    rep_ext_edwards (fst (ed_g2_loop edK edwards_mul_by_a edwards_ate_loop_count edwards_max_bits
      (mkXP (fst Q) (snd Q) 1 (fst Q * snd Q)) (mkXP (fst Q) (snd Q) 1 (fst Q * snd Q), [])))
      (te_mul edK edwards_ta (edwards_td edwards_D) (Pos.to_nat edwards_n) Q) /\
    ed_miller_state edF edK edG edwards_smul edwards_gt edwards_squared edwards_ate_loop_count edwards_max_bits
      (edwards_precompute_g1 std tP) (edwards_precompute_g2 tQ) = Some (f, length (edwards_precompute_g2 tQ)).
Proof.
  intros (NP & OP & TP) [[NQ IQ] TQ].
  destruct (edwards_miller std P Q tP tQ NP OP TP NQ (edwards_odd Q IQ) TQ) as (x & y & f & E1 & E2 & E3 & _).
  exists f. split; [|exact E3].
  assert (E1' : te_mul edK edwards_ta (edwards_td edwards_D) (Pos.to_nat edwards_n) Q = (x, y)) by exact E1.
  rewrite E1'. exact E2.
Qed.
Print Assumptions C47_edwards_running_point.
Lemma ed2_to_affine_shape (K : FieldOps) (nr : K) t : exists x y, eg2_to_affine K nr t = mkI x y 1.
Proof. unfold eg2_to_affine. destruct (inv_is_zero t); eexists _, _; reflexivity. Qed.
Theorem C47_edwards_double_miller_loop P1 P2 tQ1 tQ2 : exists f1 f2,
  edwards_miller_loop P1 (edwards_precompute_g2 tQ1) = Some f1 /\
  edwards_miller_loop P2 (edwards_precompute_g2 tQ2) = Some f2 /\
  edwards_double_miller_loop P1 (edwards_precompute_g2 tQ1) P2 (edwards_precompute_g2 tQ2) = Some (f1 * f2).
Proof.
  destruct (ed2_to_affine_shape edF (tozp edwards_p edwards_fp3_non_residue) tQ1) as (x1 & y1 & E1).
  destruct (ed2_to_affine_shape edF (tozp edwards_p edwards_fp3_non_residue) tQ2) as (x2 & y2 & E2).
  assert (A1 : edwards_precompute_g2 tQ1 = ed_precompute_g2 edK edwards_mul_by_a edwards_ate_loop_count edwards_max_bits (mkI x1 y1 1))
    by (unfold edwards_precompute_g2; f_equal; exact E1).
  assert (A2 : edwards_precompute_g2 tQ2 = ed_precompute_g2 edK edwards_mul_by_a edwards_ate_loop_count edwards_max_bits (mkI x2 y2 1))
    by (unfold edwards_precompute_g2; f_equal; exact E2).
  rewrite A1, A2. exact (edwards_double P1 P2 x1 y1 x2 y2).
Qed.
Print Assumptions C47_edwards_double_miller_loop.

(** ** C62: pair_reduced is the reduced Miller function of the loop constant *)
Lemma edwards_reduced find_wnaf std P Q tP tQ : wnaf_contract find_wnaf -> edwards_g1 P tP -> edwards_g2 Q tQ ->
  edwards_pair_reduced find_wnaf std tP tQ = Some (ate_edwards edwards_D P Q) /\
  exists f : edG, f <> 0 /\ ate_edwards edwards_D P Q = fpow f edwards_e.
Proof.
  intros W (NP & OP & TP) [[NQ IQ] TQ].
  destruct (edwards_miller std P Q tP tQ NP OP TP NQ (edwards_odd Q IQ) TQ) as (x & y & f & _ & _ & E & G0 & V).
  assert (V' : ate_edwards edwards_D P Q = fpow f edwards_e) by (symmetry; exact V). rewrite V'. split; [|exists f; split; [exact G0|reflexivity]].
  assert (E' : edwards_pair std tP tQ = Some f).
  { exact (f_equal (option_map fst) E). }
  unfold edwards_pair_reduced. rewrite E'. cbn [option_map]. exact (f_equal Some (proj1 (C46_edwards find_wnaf f W G0))).
Qed.
Theorem C62_edwards find_wnaf std P Q tP tQ : wnaf_contract find_wnaf -> edwards_g1 P tP -> edwards_g2 Q tQ ->
  edwards_pair_reduced find_wnaf std tP tQ = Some (ate_edwards edwards_D P Q).
Proof. intros W A B. exact (proj1 (edwards_reduced find_wnaf std P Q tP tQ W A B)). Qed.
Print Assumptions C62_edwards.

(** ** the generators meet the hypotheses *)
Lemma edwards_g2_odd : odd_point edK edwards_ta (edwards_td edwards_D) edwards_r edwards_g2_one.
Proof.
  destruct (ed2_sound edwards_tower edwards_183_d edwards_183_g2_inverted_one ed2_root edwards_scalar_field_183_modulus
    edwards_p_prime edwards_field_check ed2_checked) as (two & CM & IV & ON & NS & O' & RG).
  destruct (eg2_coeffs edF edwards_K (tozp edwards_p edwards_fp3_non_residue) (tozp edwards_p edwards_183_d)) as [EA ED].
  change (ed2_point edwards_tower edwards_183_g2_inverted_one) with edwards_g2_one in *.
  change (t6_p edwards_tower) with edwards_p in *. change (t6_nr3 edwards_tower) with edwards_fp3_non_residue in *.
  rewrite EA, ED in *. split; [exact NS|]. split; [exact ON|]. unfold edwards_r. rewrite Z_N_nat. exact RG.
Qed.
Section InvOne.
  Variable K : FieldOps.
  Hypothesis KL : FieldLaws K.
  Add Field KfieldIO : (FL_th K KL).
  Lemma inv_one_rep (x y z : K) : x <> 0 -> y <> 0 -> z <> 0 -> rep_inverted x y z (inverted_one K x y z).
  Proof.
    intros X Y Z. right. unfold inverted_one. cbn [fst snd].
    repeat split; auto; field; auto.
  Qed.
End InvOne.
Example C62_edwards_g1 : edwards_g1 edwards_g1_one edwards_one1.
Proof.
  destruct C29_edwards_g1 as (_ & ON & N & _). split; [exact N|]. split; [exact ON|].
  apply (inv_one_rep edF edwards_K); intros E; apply (f_equal zval) in E; vm_compute in E; discriminate E.
Qed.
Example C62_edwards_g2 : edwards_g2 edwards_g2_one edwards_one2.
Proof. destruct C29_edwards_g2 as (_ & N & _ & T & _). exact (conj (conj N edwards_g2_odd) T). Qed.
(** the loop constant is -p modulo r and twice it is below r *)
Example C62_edwards_n : ((Z.to_N edwards_p + Npos edwards_n) mod edwards_r = 0)%N /\ (2 * Npos edwards_n < edwards_r)%N.
Proof. vm_compute. split; reflexivity. Qed.
