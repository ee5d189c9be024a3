(** The pairings of the generators are not 1. *)
From Coq Require Import ZArith NArith List Bool Lia Field_theory.
From Bignums Require Import BigN.
From Verif Require Import Base.Field Base.Zp Base.Ext Base.Hom Base.BigZp Spec.AtePairing
  Model.FieldParams Model.Shipped Model.CurveParams Model.Generators Model.ShortWeierstrass Model.Edwards Model.FinalExp Model.Pairing
  Model.Fp2 Model.Fp3 Model.Fp4 Model.Fp6_2over3 Model.Fp6_3over2 Model.Fp12
  Proof.Homs Proof.FastField Proof.PairingMap Proof.PairingValues Proof.OrderCheck Proof.Shipped Proof.ShippedTowers Proof.Generators Proof.PairingBig.
Import ListNotations.
Local Open Scope fld_scope.

Definition fe1 (F : FieldOps) (x : F) : bool := feqb x 1.
Lemma fe1_map (A B : FieldOps) (h : A -> B) (H : FHom A B h) x : fe1 A x = false -> fe1 B (h x) = false.
Proof. unfold fe1. rewrite <- (hom_1 _ _ _ (fh_hom _ _ _ H)), (hom_eqb _ _ _ (fh_hom _ _ _ H)). exact id. Qed.

Lemma fe1_neq (F : FieldOps) (R : RingLaws F) (x : F) : fe1 F x = false -> x <> 1.
Proof. intros E ->. unfold fe1 in E. rewrite (feqb_refl F R) in E. discriminate. Qed.
Lemma fe1_pow (F : FieldOps) (R : RingLaws F) (g x : F) e : x = fpow g e -> fe1 F (fpower (K := F) g e) = false -> x <> 1.
Proof. intros -> E. rewrite (fpower_fpow F g e R) in E. exact (fe1_neq F R _ E). Qed.

(** ** bls12-381 *)
Definition bls_big_gt : FieldOps := Fp12 (Fp2 bigb (bigz (t12_nr2 bls12_381_tower))) (fp2_sqr bigb (bigz (t12_nr2 bls12_381_tower)))
  (big2 (t12_xi6 bls12_381_tower)) (big2 (t12_xi12 bls12_381_tower)).
Definition bls_one1 : triple (Zp bls_p0) := mkT (tozp bls_p0 (ptX bls12_381_g1_one) : Zp bls_p0) (tozp bls_p0 (ptY bls12_381_g1_one)) 1.
Definition bls_one2 : triple (t12_Fp2 bls12_381_tower) :=
  mkT (fst (lits2 bls_p0 bls12_381_g2_one) : t12_Fp2 bls12_381_tower) (snd (lits2 bls_p0 bls12_381_g2_one)) 1.
Definition bls_big_value : option (quad (cub (quad bigb))) :=
  big_bls_pair true (mkT (bigz (ptX bls12_381_g1_one) : bigb) (bigz (ptY bls12_381_g1_one)) 1) (big2 bls12_381_g2_one) (big2 (skipn 2 bls12_381_g2_one))
    (mkq (1 : bigb) (0 : bigb)).
Lemma bls_big_check : match bls_big_value with Some v => negb (fe1 bls_big_gt (big_bls_final v)) | None => false end = true.
Proof. vm_compute. reflexivity. Qed.
Lemma bls_gt_fhom : FHom bls_big_gt (t12_Fp12 bls12_381_tower) bls_h12.
Proof.
  assert (H := @fhom_fp12 _ _ _ (@fhom_fp2 bigb (Zp bls_p0) bls_h bls_fhom (bigz (t12_nr2 bls12_381_tower)))
    (fp2_sqr bigb (bigz (t12_nr2 bls12_381_tower))) (fp2_sqr (Zp bls_p0) (bls_h (bigz (t12_nr2 bls12_381_tower))))
    (big2 (t12_xi6 bls12_381_tower)) (big2 (t12_xi12 bls12_381_tower))
    (@hom_fp2_sqr bigb (Zp bls_p0) bls_h (fh_hom _ _ _ bls_fhom) (bigz (t12_nr2 bls12_381_tower)))).
  rewrite <- !(lit2_big2 bls_p0), bls_big_nr in H by reflexivity. exact H.
Qed.
Lemma bls_one1_big : tmap (A := bigb) bls_h (mkT (bigz (ptX bls12_381_g1_one) : bigb) (bigz (ptY bls12_381_g1_one)) 1) = bls_one1.
Proof. unfold tmap, bls_one1. cbn [tX tY tZ]. rewrite (hom_1 _ _ _ (fh_hom _ _ _ bls_fhom)), !of_big_bigz by discriminate. reflexivity. Qed.
Lemma bls_one2_big : mkT (bls_h2 (big2 bls12_381_g2_one) : t12_Fp2 bls12_381_tower) (bls_h2 (big2 (skipn 2 bls12_381_g2_one)) : t12_Fp2 bls12_381_tower)
  (bls_h2 (mkq (1 : bigb) (0 : bigb)) : t12_Fp2 bls12_381_tower) = bls_one2.
Proof.
  rewrite <- !(lit2_big2 bls_p0) by reflexivity. unfold qmap. cbn [q0 q1].
  rewrite (hom_1 _ _ _ (fh_hom _ _ _ bls_fhom)), (hom_0 _ _ _ (fh_hom _ _ _ bls_fhom)). reflexivity.
Qed.
Lemma bls_pair_val : bls12_381_pair true bls_one1 bls_one2 = option_map bls_h12 bls_big_value.
Proof. rewrite <- bls_one1_big, <- bls_one2_big. unfold bls_big_value. apply bls_pair_big. Qed.
Lemma bls_value g : bls12_381_pair_reduced true bls_one1 bls_one2 = Some g -> fe1 (t12_Fp12 bls12_381_tower) g = false.
Proof.
  unfold bls12_381_pair_reduced. rewrite bls_pair_val.
  assert (C := bls_big_check). destruct bls_big_value as [v|]; [|discriminate]. cbn [option_map]. rewrite bls_final_big. intros E. injection E as <-.
  exact (fe1_map bls_big_gt (t12_Fp12 bls12_381_tower) bls_h12 bls_gt_fhom (big_bls_final v) (proj1 (negb_true_iff _) C)).
Qed.

(** ** mnt4-298 *)
Definition mnt4_big_gt : FieldOps := Fp4 big4 (bigz (t4_nr2 mnt4_tower)) (bigz (t4_nr4 mnt4_tower)).
Definition mnt4_one1 : triple (Zp mnt4_p0) := mkT (tozp mnt4_p0 (ptX mnt4_298_g1_one) : Zp mnt4_p0) (tozp mnt4_p0 (ptY mnt4_298_g1_one)) 1.
Definition mnt4_one2 : triple (t4_Fp2 mnt4_tower) :=
  mkT (fst (lits2 mnt4_p0 mnt4_298_g2_one) : t4_Fp2 mnt4_tower) (snd (lits2 mnt4_p0 mnt4_298_g2_one)) 1.
Definition mnt4_big_value : option (quad (quad big4)) :=
  big_mnt4_pair true (mkT (bigz (ptX mnt4_298_g1_one) : big4) (bigz (ptY mnt4_298_g1_one)) 1) (big2 mnt4_298_g2_one) (big2 (skipn 2 mnt4_298_g2_one))
    (mkq (1 : big4) (0 : big4)).
Lemma mnt4_big_check : match mnt4_big_value with Some v => negb (fe1 mnt4_big_gt (fpower (K := mnt4_big_gt) v mnt4_e)) | None => false end = true.
Proof. vm_compute. reflexivity. Qed.
Lemma mnt4_gt_fhom : FHom mnt4_big_gt (t4_Fp4 mnt4_tower) mnt4_h4.
Proof.
  assert (H := @fhom_fp4 big4 (Zp mnt4_p0) mnt4_h mnt4_fhom (bigz (t4_nr2 mnt4_tower)) (bigz (t4_nr4 mnt4_tower))).
  rewrite !of_big_bigz in H by discriminate. exact H.
Qed.
Lemma mnt4_one1_big : tmap (A := big4) mnt4_h (mkT (bigz (ptX mnt4_298_g1_one) : big4) (bigz (ptY mnt4_298_g1_one)) 1) = mnt4_one1.
Proof. unfold tmap, mnt4_one1. cbn [tX tY tZ]. rewrite (hom_1 _ _ _ (fh_hom _ _ _ mnt4_fhom)), !of_big_bigz by discriminate. reflexivity. Qed.
Lemma mnt4_one2_big : mkT (mnt4_h2 (big2 mnt4_298_g2_one) : t4_Fp2 mnt4_tower) (mnt4_h2 (big2 (skipn 2 mnt4_298_g2_one)) : t4_Fp2 mnt4_tower)
  (mnt4_h2 (mkq (1 : big4) (0 : big4)) : t4_Fp2 mnt4_tower) = mnt4_one2.
Proof.
  rewrite <- !(lit2_big2 mnt4_p0) by reflexivity. unfold qmap. cbn [q0 q1].
  rewrite (hom_1 _ _ _ (fh_hom _ _ _ mnt4_fhom)), (hom_0 _ _ _ (fh_hom _ _ _ mnt4_fhom)). reflexivity.
Qed.
Lemma mnt4_pair_val : mnt4_pair true mnt4_one1 mnt4_one2 = option_map mnt4_h4 mnt4_big_value.
Proof. rewrite <- mnt4_one1_big, <- mnt4_one2_big. unfold mnt4_big_value. apply mnt4_pair_big. Qed.
Lemma mnt4_value g : mnt4_pair true mnt4_one1 mnt4_one2 = Some g -> fe1 (t4_Fp4 mnt4_tower) (fpower (K := t4_Fp4 mnt4_tower) g mnt4_e) = false.
Proof.
  rewrite mnt4_pair_val.
  assert (C := mnt4_big_check). destruct mnt4_big_value as [v|]; [|discriminate]. cbn [option_map]. intros E. injection E as <-.
  refine (eq_trans (f_equal (fe1 _) (eq_sym (@hom_fpower mnt4_big_gt (t4_Fp4 mnt4_tower) mnt4_h4 (fh_hom _ _ _ mnt4_gt_fhom) v mnt4_e))) _).
  exact (fe1_map mnt4_big_gt (t4_Fp4 mnt4_tower) mnt4_h4 mnt4_gt_fhom (fpower (K := mnt4_big_gt) v mnt4_e) (proj1 (negb_true_iff _) C)).
Qed.

(** ** mnt6-298 *)
Definition mnt6_big_gt : FieldOps := Fp6t big6 (bigz (t6_nr3 mnt6_tower)) (bigz (t6_nr6 mnt6_tower)).
Definition mnt6_one1 : triple (Zp mnt6_p0) := mkT (tozp mnt6_p0 (ptX mnt6_298_g1_one) : Zp mnt6_p0) (tozp mnt6_p0 (ptY mnt6_298_g1_one)) 1.
Definition mnt6_one2 : triple (t6_Fp3 mnt6_tower) :=
  mkT (fst (lits3 mnt6_p0 mnt6_298_g2_one) : t6_Fp3 mnt6_tower) (snd (lits3 mnt6_p0 mnt6_298_g2_one)) 1.
Definition mnt6_big_value : option (quad (cub big6)) :=
  big_mnt6_pair (mkT (bigz (ptX mnt6_298_g1_one) : big6) (bigz (ptY mnt6_298_g1_one)) 1) (big3 mnt6_298_g2_one) (big3 (skipn 3 mnt6_298_g2_one))
    (mkc (1 : big6) (0 : big6) (0 : big6)).
Lemma mnt6_big_check : match mnt6_big_value with Some v => negb (fe1 mnt6_big_gt (fpower (K := mnt6_big_gt) v mnt6_e)) | None => false end = true.
Proof. vm_compute. reflexivity. Qed.
Lemma mnt6_gt_fhom : FHom mnt6_big_gt (t6_Fp6 mnt6_tower) mnt6_h6.
Proof.
  assert (H := @fhom_fp6t big6 (Zp mnt6_p0) mnt6_h mnt6_fhom (bigz (t6_nr3 mnt6_tower)) (bigz (t6_nr6 mnt6_tower))).
  rewrite !of_big_bigz in H by discriminate. exact H.
Qed.
Lemma mnt6_one1_big : tmap (A := big6) mnt6_h (mkT (bigz (ptX mnt6_298_g1_one) : big6) (bigz (ptY mnt6_298_g1_one)) 1) = mnt6_one1.
Proof. unfold tmap, mnt6_one1. cbn [tX tY tZ]. rewrite (hom_1 _ _ _ (fh_hom _ _ _ mnt6_fhom)), !of_big_bigz by discriminate. reflexivity. Qed.
Lemma mnt6_one2_big : mkT (mnt6_h3 (big3 mnt6_298_g2_one) : t6_Fp3 mnt6_tower) (mnt6_h3 (big3 (skipn 3 mnt6_298_g2_one)) : t6_Fp3 mnt6_tower)
  (mnt6_h3 (mkc (1 : big6) (0 : big6) (0 : big6)) : t6_Fp3 mnt6_tower) = mnt6_one2.
Proof.
  rewrite <- !(lit3_big3 mnt6_p0) by reflexivity. unfold cmap. cbn [c0 c1 c2].
  rewrite (hom_1 _ _ _ (fh_hom _ _ _ mnt6_fhom)), (hom_0 _ _ _ (fh_hom _ _ _ mnt6_fhom)). reflexivity.
Qed.
Lemma mnt6_pair_val : mnt6_pair mnt6_one1 mnt6_one2 = option_map mnt6_h6 mnt6_big_value.
Proof. rewrite <- mnt6_one1_big, <- mnt6_one2_big. unfold mnt6_big_value. apply mnt6_pair_big. Qed.
Lemma mnt6_value g : mnt6_pair mnt6_one1 mnt6_one2 = Some g -> fe1 (t6_Fp6 mnt6_tower) (fpower (K := t6_Fp6 mnt6_tower) g mnt6_e) = false.
Proof.
  rewrite mnt6_pair_val.
  assert (C := mnt6_big_check). destruct mnt6_big_value as [v|]; [|discriminate]. cbn [option_map]. intros E. injection E as <-.
  refine (eq_trans (f_equal (fe1 _) (eq_sym (@hom_fpower mnt6_big_gt (t6_Fp6 mnt6_tower) mnt6_h6 (fh_hom _ _ _ mnt6_gt_fhom) v mnt6_e))) _).
  exact (fe1_map mnt6_big_gt (t6_Fp6 mnt6_tower) mnt6_h6 mnt6_gt_fhom (fpower (K := mnt6_big_gt) v mnt6_e) (proj1 (negb_true_iff _) C)).
Qed.
