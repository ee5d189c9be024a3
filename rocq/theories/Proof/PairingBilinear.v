(** Bilinearity of the reduced ate pairings of bls12-381, mnt4-298 and mnt6-298. *)
From Coq Require Import ZArith NArith List Bool Lia Ring Field Znumtheory.
From Bignums Require Import BigN.
From Verif Require Import Base.Field Base.Zp Base.Ext Base.Hom Base.BigZp Spec.Group Spec.Weierstrass Spec.Pairing Spec.AtePairing Model.Power Model.Fp2 Model.Fp3 Model.Fp4
  Model.Fp6_2over3 Model.Fp6_3over2 Model.Fp12 Model.ShortWeierstrass Model.FieldParams Model.Shipped Model.CurveParams Model.Generators
  Model.FinalExp Model.Pairing
  Proof.ExtTheory Proof.FiniteField Proof.Homs Proof.Shipped Proof.ShippedTowers Proof.Bls381 Proof.Generators Proof.WeierstrassCoords Proof.WeierstrassGroup
  Proof.PairingCore Proof.PairingMiller Proof.PairingA40 Proof.PairingBls Proof.PairingProj Proof.PairingMnt Proof.PairingShip
  Proof.PairingNeg Proof.PairingReduced Proof.PairingFinal Proof.OrderCheck Proof.TwistBilinear.
Import ListNotations.
Local Open Scope fld_scope.

Section OppFix.
  Variable F : FieldOps.
  Hypothesis KF : FieldLaws F.
  Add Field Fof : (FL_th F KF).
  Lemma opp_opp (x : F) : - - x = x. Proof. ring. Qed.
  Lemma opp_fix (x : F) : (2 : F) <> 0 -> - x = x -> x = 0.
  Proof.
    intros T E. apply (fmul_cancel_l F KF 2 x 0 T). transitivity (x + x); [ring|]. rewrite <- E at 1. ring.
  Qed.
  Lemma b_move (x y z : F) : x * (y * z) = y * (x * z). Proof. ring. Qed.
End OppFix.

Section Bls.
  Variable K : FieldOps.
  Variable nr : K.
  Local Notation F := (Fp2 K nr).
  Local Notation Fsqr := (fp2_sqr K nr).
  Variable xi : F.
  Local Notation G6 := (Fp6 F Fsqr xi).
  Local Notation G := (Fp12 F Fsqr xi xi).
  Variable p : N.
  Hypothesis FK : FinField K p 1.
  Hypothesis FF2 : FinField F p 2.
  Hypothesis FF6 : FinField G6 p 6.
  Hypothesis FF12 : FinField G p 12.
  Let KK := FF_field _ _ _ FK.
  Let KF := FF_field _ _ _ FF2.
  Let KG6 := FF_field _ _ _ FF6.
  Let KG := FF_field _ _ _ FF12.
  Add Field Fbb : (FL_th F KF).
  Add Field Gbb : (FL_th G KG).
  Variable e : N.
  Hypothesis He6 : ((p ^ 6 - 1) * (e / (p ^ 6 - 1)) = e)%N.
  Hypothesis IK0 : finv (0 : K) = 0.
  Variable b : K.
  Local Notation emb := (emb12 F Fsqr xi).
  Local Notation w := (w12 F Fsqr xi).
  Local Notation cj := (conj12 F Fsqr xi).
  Hypothesis two : (2 : F) <> 0.
  Local Notation b' := (inc2 K nr b * xi).
  Hypothesis NS : nonsingular F 0 b'.
  Variables (r : N) (n : positive).
  Hypothesis Pr : prime (Z.of_N r).
  Hypothesis odd : N.odd r = true.
  Hypothesis nlt : (Npos n < r)%N.
  Variable sg : bool.
  Hypothesis Hnum : exists k, (e * (if sg then Npos n + p else p) = (if sg then 0 else e * Npos n) + k * (p ^ 12 - 1))%N.
  Variable m : N.
  Hypothesis Hq : p = (1 + 6 * m)%N.
  Variable Q0 : point F.
  Hypothesis OQ0 : on_curve F 0 b' Q0.
  Hypothesis RQ0 : ec_mul F 0 (N.to_nat r) Q0 = Inf.
  Hypothesis FQ0 : gen_frob (0 : F) Q0 n p m xi sg.
  Lemma two6 : (2 : G6) <> 0.
  Proof. intros E. apply two. exact (f_equal (fun x => c0 x) E). Qed.
  Lemma cj_fix x : x <> 0 -> cj x = x -> fpow x e = 1.
  Proof.
    intros N E. assert (Z : q1 x = (0 : G6)) by (apply (opp_fix G6 KG6 _ two6); exact (f_equal (fun x => q1 x) E)).
    assert (X : x = emb12_6 F Fsqr xi (q0 x)) by (destruct x as [x0 x1]; cbn in Z; subst x1; reflexivity).
    rewrite X. apply (killed_hom G6 G KG6 KG _ (emb12_6_hom F Fsqr xi KF KG6 KG) p 6 FF6 e He6).
    intros E0. apply N. rewrite X, E0. reflexivity.
  Qed.
  Lemma cj_cj x : cj (cj x) = x.
  Proof. destruct x as [x0 x1]. unfold conj12. cbn [q0 q1]. f_equal. apply (opp_opp G6 KG6). Qed.
  Lemma bls_bil neg : bilinear 0 b (0 : F) Q0 (fun P Q => fpow (if neg : bool then miller_fun_neg G 0 n (untwist emb w Q) (point_map (fun x => emb (inc2 K nr x)) P)
    else miller_fun G 0 n (untwist emb w Q) (point_map (fun x => emb (inc2 K nr x)) P)) e).
  Proof.
    assert (HI := inc2_hom K nr KK KF). assert (HE := emb12_hom F Fsqr xi KF KG).
    refine (ate_bilinear K F G p 12 FK KF FF12 IK0 (inv12_0 F Fsqr xi KF) (inc2 K nr) HI emb HE w (w12_0 F Fsqr xi KF) cj
      (conj12_hom F Fsqr xi KF KG) (conj12_emb F Fsqr xi KF) (conj12_w F Fsqr xi KF) cj_cj 0 b 0 b' _ _ two NS e r n cj_fix Pr odd nlt sg neg Hnum
      6 m xi Hq _ Q0 OQ0 RQ0 FQ0).
    - rewrite (hom_0 _ _ _ HI), (hom_0 _ _ _ HE). ring.
    - rewrite (hom_mul _ _ _ HE), (w12_6 F Fsqr xi KF). reflexivity.
    - rewrite (w12_6 F Fsqr xi KF). cbn [fpow N.iter Pos.iter]. ring.
  Qed.
End Bls.

Section Mnt4.
  Variable K : FieldOps.
  Variable nr : K.
  Local Notation F := (Fp2 K nr).
  Local Notation G := (Fp4 K nr nr).
  Variable p : N.
  Hypothesis FK : FinField K p 1.
  Hypothesis FF2 : FinField F p 2.
  Hypothesis FF4 : FinField G p 4.
  Let KK := FF_field _ _ _ FK.
  Let KF := FF_field _ _ _ FF2.
  Let KG := FF_field _ _ _ FF4.
  Add Field Gb4 : (FL_th G KG).
  Variable e : N.
  Hypothesis He : ((p ^ 2 - 1) * (e / (p ^ 2 - 1)) = e)%N.
  Hypothesis IK0 : finv (0 : K) = 0.
  Variables a b : K.
  Local Notation emb := (emb4 K nr).
  Local Notation w := (w4 K nr).
  Local Notation cj := (conj4 K nr).
  Hypothesis two : (2 : F) <> 0.
  Local Notation a' := (mkq (a * nr) 0 : F).
  Local Notation b' := (mkq 0 (b * nr) : F).
  Hypothesis NS : nonsingular F a' b'.
  Variables (r : N) (n : positive).
  Hypothesis Pr : prime (Z.of_N r).
  Hypothesis odd : N.odd r = true.
  Hypothesis nlt : (Npos n < r)%N.
  Variable sg : bool.
  Hypothesis Hnum : exists k, (e * (if sg then Npos n + p else p) = (if sg then 0 else e * Npos n) + k * (p ^ 4 - 1))%N.
  Variable m : N.
  Hypothesis Hq : p = (1 + 2 * m)%N.
  Variable Q0 : point F.
  Hypothesis OQ0 : on_curve F a' b' Q0.
  Hypothesis RQ0 : ec_mul F a' (N.to_nat r) Q0 = Inf.
  Hypothesis FQ0 : gen_frob a' Q0 n p m (mkq 0 1 : F) sg.
  Lemma cj4_fix x : x <> 0 -> cj x = x -> fpow x e = 1.
  Proof.
    intros N E. assert (Z : q1 x = (0 : F)) by (apply (opp_fix F KF _ two); exact (f_equal (fun x => q1 x) E)).
    assert (X : x = emb (q0 x)) by (destruct x as [x0 x1]; cbn in Z; subst x1; reflexivity).
    rewrite X. apply (killed_hom F G KF KG _ (emb4_hom K nr KK KF KG) p 2 FF2 e He).
    intros E0. apply N. rewrite X, E0. reflexivity.
  Qed.
  Lemma cj4_cj x : cj (cj x) = x.
  Proof. destruct x as [x0 x1]. unfold conj4. cbn [q0 q1]. f_equal. apply (opp_opp F KF). Qed.
  Lemma mnt4_bil neg : bilinear a b a' Q0 (fun P Q => fpow (if neg : bool then miller_fun_neg G (emb (inc2 K nr a)) n (untwist emb w Q) (point_map (fun x => emb (inc2 K nr x)) P)
    else miller_fun G (emb (inc2 K nr a)) n (untwist emb w Q) (point_map (fun x => emb (inc2 K nr x)) P)) e).
  Proof.
    assert (HI := inc2_hom K nr KK KF). assert (HE := emb4_hom K nr KK KF KG).
    refine (ate_bilinear K F G p 4 FK KF FF4 IK0 (inv4_0 K nr KK) (inc2 K nr) HI emb HE w (w4_0 K nr KK) cj
      (conj4_hom K nr KK KG) (conj4_emb K nr KK) (conj4_w K nr KK) cj4_cj a b a' b' _ _ two NS e r n cj4_fix Pr odd nlt sg neg Hnum
      2 m (mkq 0 1) Hq _ Q0 OQ0 RQ0 FQ0).
    - rewrite (a4_eq K nr KK a), !(hom_mul _ _ _ HE), (tw4 K nr KK). ring.
    - rewrite (b4_eq K nr KK b), !(hom_mul _ _ _ HE), (tw4 K nr KK). ring.
    - rewrite (tw4 K nr KK). cbn [fpow N.iter Pos.iter]. ring.
  Qed.
End Mnt4.

Section Mnt6.
  Variable K : FieldOps.
  Variable nr : K.
  Local Notation F := (Fp3 K nr).
  Local Notation G := (Fp6t K nr nr).
  Variable p : N.
  Hypothesis FK : FinField K p 1.
  Hypothesis FF3 : FinField F p 3.
  Hypothesis FF6 : FinField G p 6.
  Let KK := FF_field _ _ _ FK.
  Let KF := FF_field _ _ _ FF3.
  Let KG := FF_field _ _ _ FF6.
  Add Field Gb6 : (FL_th G KG).
  Variable e : N.
  Hypothesis He : ((p ^ 3 - 1) * (e / (p ^ 3 - 1)) = e)%N.
  Hypothesis IK0 : finv (0 : K) = 0.
  Variables a b : K.
  Local Notation emb := (emb6 K nr).
  Local Notation w := (w6 K nr).
  Local Notation cj := (conj6 K nr).
  Hypothesis two : (2 : F) <> 0.
  Variables a' b' : F.
  Hypothesis Ea : a' = inc3 K nr a * (mkc 0 1 0 : F) * (mkc 0 1 0 : F).
  Hypothesis Eb : b' = inc3 K nr b * (mkc 0 1 0 : F) * (mkc 0 1 0 : F) * (mkc 0 1 0 : F).
  Hypothesis NS : nonsingular F a' b'.
  Variables (r : N) (n : positive).
  Hypothesis Pr : prime (Z.of_N r).
  Hypothesis odd : N.odd r = true.
  Hypothesis nlt : (Npos n < r)%N.
  Variable sg : bool.
  Hypothesis Hnum : exists k, (e * (if sg then Npos n + p else p) = (if sg then 0 else e * Npos n) + k * (p ^ 6 - 1))%N.
  Variable m : N.
  Hypothesis Hq : p = (1 + 2 * m)%N.
  Variable Q0 : point F.
  Hypothesis OQ0 : on_curve F a' b' Q0.
  Hypothesis RQ0 : ec_mul F a' (N.to_nat r) Q0 = Inf.
  Hypothesis FQ0 : gen_frob a' Q0 n p m (mkc 0 1 0 : F) sg.
  Lemma cj6_fix x : x <> 0 -> cj x = x -> fpow x e = 1.
  Proof.
    intros N E. assert (Z : q1 x = (0 : F)) by (apply (opp_fix F KF _ two); exact (f_equal (fun x => q1 x) E)).
    assert (X : x = emb (q0 x)) by (destruct x as [x0 x1]; cbn in Z; subst x1; reflexivity).
    rewrite X. apply (killed_hom F G KF KG _ (emb6_hom K nr KK KF KG) p 3 FF3 e He).
    intros E0. apply N. rewrite X, E0. reflexivity.
  Qed.
  Lemma cj6_cj x : cj (cj x) = x.
  Proof. destruct x as [x0 x1]. unfold conj6. cbn [q0 q1]. f_equal. apply (opp_opp F KF). Qed.
  Lemma mnt6_bil neg : bilinear a b a' Q0 (fun P Q => fpow (if neg : bool then miller_fun_neg G (emb (inc3 K nr a)) n (untwist emb w Q) (point_map (fun x => emb (inc3 K nr x)) P)
    else miller_fun G (emb (inc3 K nr a)) n (untwist emb w Q) (point_map (fun x => emb (inc3 K nr x)) P)) e).
  Proof.
    assert (HI := inc3_hom K nr KK KF). assert (HE := emb6_hom K nr KK KF KG).
    refine (ate_bilinear K F G p 6 FK KF FF6 IK0 (inv6_0 K nr KK) (inc3 K nr) HI emb HE w (w6_0 K nr KK) cj
      (conj6_hom K nr KK KG) (conj6_emb K nr KK) (conj6_w K nr KK) cj6_cj a b a' b' _ _ two NS e r n cj6_fix Pr odd nlt sg neg Hnum
      2 m (mkc 0 1 0) Hq _ Q0 OQ0 RQ0 FQ0).
    - rewrite Ea, !(hom_mul _ _ _ HE), (tw6 K nr KK). ring.
    - rewrite Eb, !(hom_mul _ _ _ HE), (tw6 K nr KK). ring.
    - rewrite (tw6 K nr KK). cbn [fpow N.iter Pos.iter]. ring.
  Qed.
End Mnt6.

(** ** shipped *)
Local Notation A12 t := (Fp2 (BigZp (bigz (t12_p t))) (bigz (t12_nr2 t))).
Local Notation A4 t := (Fp2 (BigZp (bigz (t4_p t))) (bigz (t4_nr2 t))).
Local Notation A6 t := (Fp3 (BigZp (bigz (t6_p t))) (bigz (t6_nr3 t))).
Lemma bls_frob_check : frob_check (0 : A12 bls_t) (big2 bls12_381_g2_one) (big2 (skipn 2 bls12_381_g2_one)) (big2 (t12_xi6 bls_t)) bls_n
  (Z.to_N bls_p) ((Z.to_N bls_p - 1) / 6) true = true.
Proof. vm_cast_no_check (eq_refl true). Qed.
Definition big_mnt4_a : A4 mnt4_tower := mkq (fmul (bigz mnt4_298_a : BigZp (bigz mnt4_p)) (bigz mnt4_fp2_non_residue)) (0 : BigZp (bigz mnt4_p)).
Lemma mnt4_frob_check : frob_check big_mnt4_a (big2 mnt4_298_g2_one) (big2 (skipn 2 mnt4_298_g2_one))
  (mkq (0 : BigZp (bigz mnt4_p)) (1 : BigZp (bigz mnt4_p))) mnt_n (Z.to_N mnt4_p) ((Z.to_N mnt4_p - 1) / 2) false = true.
Proof. vm_cast_no_check (eq_refl true). Qed.
Definition big_mnt6_a : A6 mnt6_tower := mkc (0 : BigZp (bigz mnt6_p)) (0 : BigZp (bigz mnt6_p)) (bigz mnt6_298_a).
Lemma mnt6_frob_check : frob_check big_mnt6_a (big3 mnt6_298_g2_one) (big3 (skipn 3 mnt6_298_g2_one))
  (mkc (0 : BigZp (bigz mnt6_p)) (1 : BigZp (bigz mnt6_p)) (0 : BigZp (bigz mnt6_p))) mnt_n (Z.to_N mnt6_p) ((Z.to_N mnt6_p - 1) / 2) true = true.
Proof. vm_cast_no_check (eq_refl true). Qed.
Definition bls_G2 : point (t12_Fp2 bls_t) :=
  Aff (fst (lits2 (t12_p bls_t) bls12_381_g2_one) : t12_Fp2 bls_t) (snd (lits2 (t12_p bls_t) bls12_381_g2_one)).
Definition mnt4_G2 : point (t4_Fp2 mnt4_tower) :=
  Aff (fst (lits2 (t4_p mnt4_tower) mnt4_298_g2_one) : t4_Fp2 mnt4_tower) (snd (lits2 (t4_p mnt4_tower) mnt4_298_g2_one)).
Definition mnt6_G2 : point (t6_Fp3 mnt6_tower) :=
  Aff (fst (lits3 (t6_p mnt6_tower) mnt6_298_g2_one) : t6_Fp3 mnt6_tower) (snd (lits3 (t6_p mnt6_tower) mnt6_298_g2_one)).

Lemma bls_hom : Hom (A12 bls_t) (t12_Fp2 bls_t) (qmap (of_big bls_p)).
Proof. apply (t12_hom bls_t); [reflexivity|discriminate]. Qed.
Lemma bls_gen_frob : gen_frob (0 : t12_Fp2 bls_t) bls_G2 bls_n (Z.to_N bls_p) ((Z.to_N bls_p - 1) / 6) (lit2 bls_p (t12_xi6 bls_t)) true.
Proof.
  assert (S := fun ns on => @frob_check_sound (A12 bls_t) (t12_Fp2 bls_t) (qmap (of_big bls_p)) bls_hom bls_K2 bls_two2 (0 : A12 bls_t) (big2 bls12_381_g2_one)
    (big2 (skipn 2 bls12_381_g2_one)) (big2 (t12_xi6 bls_t)) bls_n (Z.to_N bls_p) ((Z.to_N bls_p - 1) / 6) true bls12_381_g2_b ns on bls_frob_check).
  rewrite (hom_0 _ _ _ bls_hom) in S. rewrite <- !(lit2_big2 bls_p) in S by reflexivity.
  exact (S (proj1 bls_ok_g2) (proj1 (proj2 bls_ok_g2))).
Qed.
Lemma bls_b'_eq : bls12_381_g2_b = (inc2 (Zp bls_p) (tozp bls_p bls_nr) (tozp bls_p bls12_381_b : Zp bls_p) : t12_Fp2 bls_t) * lit2 bls_p (t12_xi6 bls_t).
Proof. exact (t12_smul bls_t bls381_p_prime bls12_381_b (lit2 bls_p (t12_xi6 bls_t))). Qed.
Lemma bls_num : exists k, (bls_e * (Npos bls_n + Z.to_N bls_p) = 0 + k * (Z.to_N bls_p ^ 12 - 1))%N.
Proof. exists ((bls_e * (Npos bls_n + Z.to_N bls_p)) / (Z.to_N bls_p ^ 12 - 1))%N. vm_compute. reflexivity. Qed.
Lemma ok_mul (K : FieldOps) a b G r : ok_g2 K a b G r -> ec_mul K a (N.to_nat (Z.to_N r)) (Aff (fst G) (snd G)) = Inf.
Proof. intros (_ & _ & _ & _ & R). rewrite Z_N_nat. exact R. Qed.
Lemma bls_r_odd : N.odd bls_r = true.
Proof. vm_compute. reflexivity. Qed.
Lemma bls_p6 : Z.to_N bls_p = (1 + 6 * ((Z.to_N bls_p - 1) / 6))%N.
Proof. vm_compute. reflexivity. Qed.
Lemma bls_bilinear : bilinear (0 : Zp bls_p) (tozp bls_p bls12_381_b : Zp bls_p) (0 : t12_Fp2 bls_t) bls_G2 ate_bls12_381.
Proof.
  assert (NS := proj1 bls_ok_g2). assert (O := proj1 (proj2 bls_ok_g2)). rewrite bls_b'_eq in NS, O.
  exact (bls_bil (Zp bls_p) (tozp bls_p bls_nr) (lit2 bls_p (t12_xi6 bls_t)) (Z.to_N bls_p) (Zp_FinField bls_p bls381_p_prime)
    (proj1 (t12_fields _ bls381_p_prime bls381_field_check)) (proj1 (proj2 (t12_fields _ bls381_p_prime bls381_field_check)))
    (proj2 (proj2 (t12_fields _ bls381_p_prime bls381_field_check))) bls_e bls_e6 (invp_0 bls_p eq_refl) (tozp bls_p bls12_381_b) bls_two2 NS
    bls_r bls_n bls_r_prime bls_r_odd bls_nlt true bls_num ((Z.to_N bls_p - 1) / 6)%N bls_p6 bls_G2 O (ok_mul _ _ _ _ _ bls_ok_g2) bls_gen_frob true).
Qed.

Lemma mnt4_hom : Hom (A4 mnt4_tower) (t4_Fp2 mnt4_tower) (qmap (of_big mnt4_p)).
Proof. apply (t4_hom mnt4_tower); [reflexivity|discriminate]. Qed.
Lemma mnt4_big : Hom (BigZp (bigz mnt4_p)) (Zp mnt4_p) (of_big mnt4_p).
Proof. apply BigZp_hom; [reflexivity|apply bigz_spec; discriminate]. Qed.
Lemma mnt4_a_big : (qmap (of_big mnt4_p) big_mnt4_a : t4_Fp2 mnt4_tower) = mnt4_g2_a.
Proof.
  unfold big_mnt4_a, qmap; cbn [q0 q1]. rewrite (hom_mul _ _ _ mnt4_big), (hom_0 _ _ _ mnt4_big), !of_big_bigz by discriminate. reflexivity.
Qed.
Lemma mnt4_nu_big : (qmap (of_big mnt4_p) (mkq (0 : BigZp (bigz mnt4_p)) (1 : BigZp (bigz mnt4_p))) : t4_Fp2 mnt4_tower) = mkq (0 : Zp mnt4_p) 1.
Proof. unfold qmap; cbn [q0 q1]. rewrite (hom_0 _ _ _ mnt4_big), (hom_1 _ _ _ mnt4_big). reflexivity. Qed.
Lemma mnt4_gen_frob : gen_frob mnt4_g2_a mnt4_G2 mnt_n (Z.to_N mnt4_p) ((Z.to_N mnt4_p - 1) / 2) (mkq (0 : Zp mnt4_p) 1 : t4_Fp2 mnt4_tower) false.
Proof.
  assert (S := fun ns on => @frob_check_sound (A4 mnt4_tower) (t4_Fp2 mnt4_tower) (qmap (of_big mnt4_p)) mnt4_hom mnt4_KF mnt4_two2 big_mnt4_a (big2 mnt4_298_g2_one)
    (big2 (skipn 2 mnt4_298_g2_one)) (mkq (0 : BigZp (bigz mnt4_p)) (1 : BigZp (bigz mnt4_p))) mnt_n (Z.to_N mnt4_p) ((Z.to_N mnt4_p - 1) / 2) false mnt4_g2_b ns on mnt4_frob_check).
  rewrite mnt4_a_big, mnt4_nu_big in S. rewrite <- !(lit2_big2 mnt4_p) in S by reflexivity.
  exact (S (proj1 mnt4_ok_g2) (proj1 (proj2 mnt4_ok_g2))).
Qed.
Lemma mnt4_num : exists k, (mnt4_e * Z.to_N mnt4_p = mnt4_e * Npos mnt_n + k * (Z.to_N mnt4_p ^ 4 - 1))%N.
Proof. exists ((mnt4_e * Z.to_N mnt4_p - mnt4_e * Npos mnt_n) / (Z.to_N mnt4_p ^ 4 - 1))%N. vm_compute. reflexivity. Qed.
Lemma mnt4_r_odd : N.odd mnt4_r = true.
Proof. vm_compute. reflexivity. Qed.
Lemma mnt4_p2 : Z.to_N mnt4_p = (1 + 2 * ((Z.to_N mnt4_p - 1) / 2))%N.
Proof. vm_compute. reflexivity. Qed.
Lemma mnt4_nlt1 : (Npos mnt_n < mnt4_r)%N.
Proof. reflexivity. Qed.
Lemma mnt4_bilinear : bilinear mnt4_a mnt4_b mnt4_g2_a mnt4_G2 (ate_mnt4 mnt4_a).
Proof.
  exact (mnt4_bil (Zp mnt4_p) (tozp mnt4_p mnt4_fp2_non_residue) (Z.to_N mnt4_p) (Zp_FinField mnt4_p mnt4_p_prime)
    (proj1 mnt4_FF) (proj2 mnt4_FF) mnt4_e mnt4_He1 (invp_0 mnt4_p eq_refl) mnt4_a mnt4_b mnt4_two2 (proj1 mnt4_ok_g2)
    mnt4_r mnt_n mnt4_r_prime mnt4_r_odd mnt4_nlt1 false mnt4_num ((Z.to_N mnt4_p - 1) / 2)%N mnt4_p2 mnt4_G2 (proj1 (proj2 mnt4_ok_g2))
    (ok_mul _ _ _ _ _ mnt4_ok_g2) mnt4_gen_frob false).
Qed.

Lemma mnt6_hom : Hom (A6 mnt6_tower) (t6_Fp3 mnt6_tower) (cmap (of_big mnt6_p)).
Proof. apply (t6_hom mnt6_tower); [reflexivity|discriminate]. Qed.
Lemma mnt6_big : Hom (BigZp (bigz mnt6_p)) (Zp mnt6_p) (of_big mnt6_p).
Proof. apply BigZp_hom; [reflexivity|apply bigz_spec; discriminate]. Qed.
Lemma mnt6_a_big : (cmap (of_big mnt6_p) big_mnt6_a : t6_Fp3 mnt6_tower) = mnt6_g2_a.
Proof.
  unfold big_mnt6_a, cmap; cbn [c0 c1 c2]. rewrite !(hom_0 _ _ _ mnt6_big), !of_big_bigz by discriminate. reflexivity.
Qed.
Lemma mnt6_nu_big : (cmap (of_big mnt6_p) (mkc (0 : BigZp (bigz mnt6_p)) (1 : BigZp (bigz mnt6_p)) (0 : BigZp (bigz mnt6_p))) : t6_Fp3 mnt6_tower) = mkc (0 : Zp mnt6_p) 1 0.
Proof. unfold cmap; cbn [c0 c1 c2]. rewrite !(hom_0 _ _ _ mnt6_big), (hom_1 _ _ _ mnt6_big). reflexivity. Qed.
Lemma mnt6_gen_frob : gen_frob mnt6_g2_a mnt6_G2 mnt_n (Z.to_N mnt6_p) ((Z.to_N mnt6_p - 1) / 2) (mkc (0 : Zp mnt6_p) 1 0 : t6_Fp3 mnt6_tower) true.
Proof.
  assert (S := fun ns on => @frob_check_sound (A6 mnt6_tower) (t6_Fp3 mnt6_tower) (cmap (of_big mnt6_p)) mnt6_hom mnt6_KF mnt6_two2 big_mnt6_a (big3 mnt6_298_g2_one)
    (big3 (skipn 3 mnt6_298_g2_one)) (mkc (0 : BigZp (bigz mnt6_p)) (1 : BigZp (bigz mnt6_p)) (0 : BigZp (bigz mnt6_p))) mnt_n (Z.to_N mnt6_p) ((Z.to_N mnt6_p - 1) / 2) true mnt6_g2_b ns on mnt6_frob_check).
  rewrite mnt6_a_big, mnt6_nu_big in S. rewrite <- !(lit3_big3 mnt6_p) in S by reflexivity.
  exact (S (proj1 mnt6_ok_g2) (proj1 (proj2 mnt6_ok_g2))).
Qed.
Lemma mnt6_num : exists k, (mnt6_e * (Npos mnt_n + Z.to_N mnt6_p) = 0 + k * (Z.to_N mnt6_p ^ 6 - 1))%N.
Proof. exists ((mnt6_e * (Npos mnt_n + Z.to_N mnt6_p)) / (Z.to_N mnt6_p ^ 6 - 1))%N. vm_compute. reflexivity. Qed.
Lemma mnt6_r_odd : N.odd mnt6_r = true.
Proof. vm_compute. reflexivity. Qed.
Lemma mnt6_p2 : Z.to_N mnt6_p = (1 + 2 * ((Z.to_N mnt6_p - 1) / 2))%N.
Proof. vm_compute. reflexivity. Qed.
Lemma mnt6_nlt1 : (Npos mnt_n < mnt6_r)%N.
Proof. reflexivity. Qed.
Lemma mnt6_bilinear : bilinear mnt6_a mnt6_b mnt6_g2_a mnt6_G2 (ate_mnt6 mnt6_a).
Proof.
  exact (mnt6_bil (Zp mnt6_p) (tozp mnt6_p mnt6_fp3_non_residue) (Z.to_N mnt6_p) (Zp_FinField mnt6_p mnt6_p_prime)
    (proj1 mnt6_FF) (proj2 mnt6_FF) mnt6_e mnt6_He1 (invp_0 mnt6_p eq_refl) mnt6_a mnt6_b mnt6_two2 mnt6_g2_a mnt6_g2_b
    (a6_eq (Zp mnt6_p) (tozp mnt6_p mnt6_fp3_non_residue) mnt6_K mnt6_a) (b6_eq (Zp mnt6_p) (tozp mnt6_p mnt6_fp3_non_residue) mnt6_K mnt6_b) (proj1 mnt6_ok_g2)
    mnt6_r mnt_n mnt6_r_prime mnt6_r_odd mnt6_nlt1 true mnt6_num ((Z.to_N mnt6_p - 1) / 2)%N mnt6_p2 mnt6_G2 (proj1 (proj2 mnt6_ok_g2))
    (ok_mul _ _ _ _ _ mnt6_ok_g2) mnt6_gen_frob true).
Qed.
