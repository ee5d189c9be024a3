(** Bilinearity of the reduced pairing of edwards-183, and its value at the generators. *)
From Coq Require Import ZArith NArith List Bool Lia Ring Field Znumtheory.
From Bignums Require Import BigN.
From Verif Require Import Base.Field Base.Zp Base.Ext Base.Hom Base.BigZp Spec.Group Spec.Weierstrass Spec.Edwards Spec.EdwardsWeierstrass Spec.Pairing Spec.AtePairing
  Model.Power Model.Fp3 Model.Fp6_2over3 Model.Edwards Model.EdwardsG2 Model.FieldParams Model.Shipped Model.CurveParams Model.Generators Model.FinalExp Model.Pairing
  Proof.ExtTheory Proof.FiniteField Proof.Homs Proof.FastField Proof.PairingFinal Proof.Shipped Proof.ShippedTowers Proof.Generators Proof.GeneratorsEd2
  Proof.EdwardsOps Proof.EdwardsGroup Proof.EdwardsTorsion Proof.EdwardsDual Proof.EdwardsWeierstrass
  Proof.PairingCore Proof.PairingMiller Proof.PairingProj Proof.PairingMnt Proof.PairingEd Proof.PairingEdShip Proof.PairingMap Proof.PairingValues Proof.PairingBig
  Proof.OrderCheck Proof.TwistBilinear Proof.PairingBilinear Proof.BilinearUse Proof.EdwardsBilinear Proof.PairingGen.
Import ListNotations.
Local Open Scope fld_scope.
Local Notation edF := (Zp edwards_p).
Local Notation edK := (t6_Fp3 edwards_tower).
Local Notation edG := (t6_Fp6 edwards_tower).
Local Notation nr3 := (tozp edwards_p edwards_fp3_non_residue : edF).

Section Coeff.
  Variable K : FieldOps.
  Variable nr : K.
  Hypothesis KK : FieldLaws K.
  Hypothesis KF : FieldLaws (Fp3 K nr).
  Local Notation F := (Fp3 K nr).
  Add Field Fco : (FL_th F KF).
  Add Ring Kco : (F_R (FL_th K KK)).
  Variable d : K.
  Lemma tw_d : (mkc 0 d 0 : F) = inc3 K nr d * (mkc 0 1 0 : F).
  Proof. apply cub_ext; cbn; ring. Qed.
  Let HI := inc3_hom K nr KK KF.
  Lemma tw_wa : te_wa F (mkc 0 1 0) (mkc 0 d 0) = inc3 K nr (te_wa K 1 d) * (mkc 0 1 0 : F) * (mkc 0 1 0 : F).
  Proof.
    unfold te_wa. repeat progress (homs HI; rewrite ?(hom_fofZ _ HI)). rewrite tw_d. ring.
  Qed.
  Lemma tw_wb : te_wb F (mkc 0 1 0) (mkc 0 d 0) = inc3 K nr (te_wb K 1 d) * (mkc 0 1 0 : F) * (mkc 0 1 0 : F) * (mkc 0 1 0 : F).
  Proof.
    unfold te_wb. repeat progress (homs HI; rewrite ?(hom_fofZ _ HI)). rewrite tw_d. ring.
  Qed.
End Coeff.

(** the Frobenius map on the Weierstrass image of the generator of the twist *)
Local Notation A := (Fp3 bige (bigz (t6_nr3 edwards_tower))).
Definition big_ed_ta : A := mkc (0 : bige) (1 : bige) (0 : bige).
Definition big_ed_td : A := mkc (0 : bige) (bigz edwards_183_d : bige) (0 : bige).
Definition big_ed_Q0 : A * A :=
  inverted_one A (big3 edwards_183_g2_inverted_one) (big3 (skipn 3 edwards_183_g2_inverted_one)) (big3 (skipn 6 edwards_183_g2_inverted_one)).
Definition point_frob_check (B : FieldOps) (a : B) (W : point B) (nu : B) n p m sg : bool :=
  match W with Inf => false | Aff x y => frob_check a x y nu n p m sg end.
Lemma ed_frob_check : point_frob_check A (te_wa A big_ed_ta big_ed_td) (te_weier A big_ed_ta big_ed_td big_ed_Q0) big_ed_ta
  edwards_n (Z.to_N edwards_p) ((Z.to_N edwards_p - 1) / 2) true = true.
Proof. vm_cast_no_check (eq_refl true). Qed.
Lemma ed_h3_fhom : FHom A edK ed_h3.
Proof.
  assert (H := @fhom_fp3 bige (Zp ed_p0) ed_h edwards_fhom (bigz (t6_nr3 edwards_tower))).
  rewrite of_big_bigz in H by discriminate. exact H.
Qed.
Lemma ed_ta_big : (ed_h3 big_ed_ta : edK) = edwards_ta.
Proof. unfold big_ed_ta, cmap; cbn [c0 c1 c2]. rewrite (hom_0 _ _ _ (fh_hom _ _ _ edwards_fhom)), (hom_1 _ _ _ (fh_hom _ _ _ edwards_fhom)). reflexivity. Qed.
Lemma ed_td_big : (ed_h3 big_ed_td : edK) = edwards_td edwards_d.
Proof. unfold big_ed_td, cmap; cbn [c0 c1 c2]. rewrite (hom_0 _ _ _ (fh_hom _ _ _ edwards_fhom)), of_big_bigz by discriminate. reflexivity. Qed.
Lemma inverted_one_map (A' B : FieldOps) (h : A' -> B) (H : FHom A' B h) x y z :
  inverted_one B (h x) (h y) (h z) = (h (fst (inverted_one A' x y z)), h (snd (inverted_one A' x y z))).
Proof. unfold inverted_one. cbn [fst snd]. rewrite !(hom_mul _ _ _ (fh_hom _ _ _ H)), !(fh_inv _ _ _ H). reflexivity. Qed.
Lemma ed_Q0_big : edwards_g2_one = (ed_h3 (fst big_ed_Q0) : edK, ed_h3 (snd big_ed_Q0) : edK).
Proof.
  unfold big_ed_Q0. rewrite <- (inverted_one_map A edK ed_h3 ed_h3_fhom). rewrite <- !(lit3_big3 ed_p0) by reflexivity. reflexivity.
Qed.
Lemma ed_W_big : point_map (ed_h3 : A -> edK) (te_weier A big_ed_ta big_ed_td big_ed_Q0) = te_weier edK edwards_ta (edwards_td edwards_d) edwards_g2_one.
Proof. rewrite (te_weier_map A edK ed_h3 ed_h3_fhom), ed_ta_big, ed_td_big, ed_Q0_big. reflexivity. Qed.
Lemma edwards_two1 : (2 : edF) <> 0.
Proof. intros E. apply (f_equal zval) in E. discriminate E. Qed.
Lemma edwards_three1 : (3 : edF) <> 0.
Proof. intros E. apply (f_equal zval) in E. discriminate E. Qed.
Local Notation W2 := (te_weier edK edwards_ta (edwards_td edwards_d)).
Local Notation wa2 := (te_wa edK edwards_ta (edwards_td edwards_d)).
Local Notation wb2 := (te_wb edK edwards_ta (edwards_td edwards_d)).
Definition edwards_ns2 : nonsingular edK wa2 wb2 := odd_ns edK edwards_KF edwards_two edwards_three edwards_ta (edwards_td edwards_d) edwards_cmp.
Lemma frob_point (F A' : FieldOps) (h : A' -> F) (H : FHom A' F h) (KF : FieldLaws F) (two : (2 : F) <> 0) a w nu v n p m sg b W Q :
  h a = w -> h nu = v -> point_map h W = Q -> nonsingular F w b ->
  on_curve F w b Q -> point_frob_check A' a W nu n p m sg = true ->
  gen_frob w Q n p m v sg.
Proof.
  intros <- <- <- NS O C. destruct W as [|x y]; [discriminate|]. cbn [point_map] in *.
  exact (@frob_check_sound A' F h (fh_hom _ _ _ H) KF two a x y nu n p m sg b NS O C).
Qed.
Lemma ed_wa_big : (ed_h3 (te_wa A big_ed_ta big_ed_td) : edK) = wa2.
Proof. rewrite (te_wa_map A edK ed_h3 ed_h3_fhom), ed_ta_big, ed_td_big. reflexivity. Qed.
Lemma edwards_gen_frob (I : edwards_in edwards_g2_one) :
  gen_frob wa2 (W2 edwards_g2_one) edwards_n (Z.to_N edwards_p) ((Z.to_N edwards_p - 1) / 2) edwards_ta true.
Proof.
  exact (@frob_point edK A ed_h3 ed_h3_fhom edwards_KF edwards_two (te_wa A big_ed_ta big_ed_td) wa2 big_ed_ta edwards_ta edwards_n (Z.to_N edwards_p) ((Z.to_N edwards_p - 1) / 2) true wb2
    (te_weier A big_ed_ta big_ed_td big_ed_Q0) (W2 edwards_g2_one) ed_wa_big ed_ta_big ed_W_big edwards_ns2
    (W_odd_on edK edwards_KF edwards_two edwards_ta (edwards_td edwards_d) edwards_cmp edwards_r edwards_r_odd edwards_g2_one I) ed_frob_check).
Qed.
Lemma edwards_num : exists k, (edwards_e * (Npos edwards_n + Z.to_N edwards_p) = 0 + k * (Z.to_N edwards_p ^ 6 - 1))%N.
Proof. exists ((edwards_e * (Npos edwards_n + Z.to_N edwards_p)) / (Z.to_N edwards_p ^ 6 - 1))%N. vm_compute. reflexivity. Qed.
Lemma edwards_p2 : Z.to_N edwards_p = (1 + 2 * ((Z.to_N edwards_p - 1) / 2))%N.
Proof. vm_compute. reflexivity. Qed.
Lemma edwards_He1 : ((Z.to_N edwards_p ^ 3 - 1) * (edwards_e / (Z.to_N edwards_p ^ 3 - 1)) = edwards_e)%N.
Proof. vm_compute. reflexivity. Qed.
Lemma edwards_nlt1 : (Npos edwards_n < edwards_r)%N.
Proof. reflexivity. Qed.
Definition edwards_T (P : point edF) (Q : point edK) : edG :=
  fpow (miller_fun edG (edwards_emb (edwards_inc (te_wa edF 1 edwards_d))) edwards_n (untwist edwards_emb edwards_wt Q)
    (point_map (fun x => edwards_emb (edwards_inc x)) P)) edwards_e.
Lemma edwards_bilinear : edwards_in edwards_g2_one ->
  bilinear (te_wa edF 1 edwards_d) (te_wb edF 1 edwards_d) wa2 (W2 edwards_g2_one) edwards_T.
Proof.
  intros I.
  exact (mnt6_bil edF nr3 (Z.to_N edwards_p) (Zp_FinField edwards_p edwards_p_prime) edwards_FF3 edwards_FF6 edwards_e edwards_He1
    (invp_0 edwards_p eq_refl) (te_wa edF 1 edwards_d) (te_wb edF 1 edwards_d) edwards_two wa2 wb2
    (tw_wa edF nr3 edwards_K edwards_KF edwards_d) (tw_wb edF nr3 edwards_K edwards_KF edwards_d) edwards_ns2
    edwards_r edwards_n edwards_r_prime edwards_r_odd edwards_nlt1 true edwards_num ((Z.to_N edwards_p - 1) / 2)%N edwards_p2 (W2 edwards_g2_one)
    (W_odd_on edK edwards_KF edwards_two edwards_ta (edwards_td edwards_d) edwards_cmp edwards_r edwards_r_odd edwards_g2_one I)
    (Q0_order edK edwards_KF edwards_two edwards_three edwards_ta (edwards_td edwards_d) edwards_cmp edwards_r edwards_r_odd edwards_g2_one I)
    (edwards_gen_frob I) false).
Qed.

(** ** the generators *)
Definition edwards_big_gt : FieldOps := Fp6t bige (bigz (t6_nr3 edwards_tower)) (bigz (t6_nr6 edwards_tower)).
Definition edwards_big_one1 : inverted bige :=
  mkI (bigz (nth 0 edwards_183_g1_inverted_one 0%Z) : bige) (bigz (nth 1 edwards_183_g1_inverted_one 0%Z) : bige) (bigz (nth 2 edwards_183_g1_inverted_one 0%Z) : bige).
Definition edwards_one1 : inverted edF :=
  mkI (tozp edwards_p (nth 0 edwards_183_g1_inverted_one 0%Z) : edF) (tozp edwards_p (nth 1 edwards_183_g1_inverted_one 0%Z) : edF)
    (tozp edwards_p (nth 2 edwards_183_g1_inverted_one 0%Z) : edF).
Definition edwards_one2 : inverted edK := ed2_obj edwards_tower edwards_183_g2_inverted_one.
Definition edwards_big_value : option (quad (cub bige)) :=
  big_edwards_pair true edwards_big_one1 (big3 edwards_183_g2_inverted_one) (big3 (skipn 3 edwards_183_g2_inverted_one)) (big3 (skipn 6 edwards_183_g2_inverted_one)).
Lemma edwards_big_check : match edwards_big_value with Some v => negb (fe1 edwards_big_gt (fpower (K := edwards_big_gt) v edwards_e)) | None => false end = true.
Proof. vm_cast_no_check (eq_refl true). Qed.
Lemma edwards_gt_fhom : FHom edwards_big_gt edG ed_h6.
Proof.
  assert (H := @fhom_fp6t bige (Zp ed_p0) ed_h edwards_fhom (bigz (t6_nr3 edwards_tower)) (bigz (t6_nr6 edwards_tower))).
  rewrite !of_big_bigz in H by discriminate. exact H.
Qed.
Lemma edwards_one1_big : imap (A := bige) ed_h edwards_big_one1 = edwards_one1.
Proof. unfold imap, edwards_one1, edwards_big_one1. cbn [iX iY iZ]. rewrite !of_big_bigz by discriminate. reflexivity. Qed.
Lemma edwards_one2_big : mkI (ed_h3 (big3 edwards_183_g2_inverted_one) : edK) (ed_h3 (big3 (skipn 3 edwards_183_g2_inverted_one)) : edK)
  (ed_h3 (big3 (skipn 6 edwards_183_g2_inverted_one)) : edK) = edwards_one2.
Proof. rewrite <- !(lit3_big3 ed_p0) by reflexivity. reflexivity. Qed.
Lemma edwards_pair_val : edwards_pair true edwards_one1 edwards_one2 = option_map ed_h6 edwards_big_value.
Proof. rewrite <- edwards_one1_big, <- edwards_one2_big. unfold edwards_big_value. apply edwards_pair_big. Qed.
Lemma edwards_value g : edwards_pair true edwards_one1 edwards_one2 = Some g -> fe1 edG (fpower (K := edG) g edwards_e) = false.
Proof.
  rewrite edwards_pair_val.
  assert (C := edwards_big_check). destruct edwards_big_value as [v|]; [|discriminate]. cbn [option_map]. intros E. injection E as <-.
  refine (eq_trans (f_equal (fe1 _) (eq_sym (@hom_fpower edwards_big_gt edG ed_h6 (fh_hom _ _ _ edwards_gt_fhom) v edwards_e))) _).
  exact (fe1_map edwards_big_gt edG ed_h6 edwards_gt_fhom (fpower (K := edwards_big_gt) v edwards_e) (proj1 (negb_true_iff _) C)).
Qed.
