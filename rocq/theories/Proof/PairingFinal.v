(** pair_reduced of the shipped curves. *)
From Coq Require Import ZArith NArith List Bool Lia Ring Field Znumtheory.
From Verif Require Import Base.Field Base.Zp Base.Ext Base.Hom Spec.Group Spec.Weierstrass Spec.Pairing Spec.AtePairing Model.Power Model.Fp2 Model.Fp3 Model.Fp4
  Model.Fp6_2over3 Model.Fp6_3over2 Model.Fp12 Model.ShortWeierstrass Model.FieldParams Model.Shipped Model.CurveParams Model.Generators
  Model.FinalExp Model.Pairing
  Proof.ExtTheory Proof.FiniteField Proof.Shipped Proof.ShippedTowers Proof.Bls381 Proof.WeierstrassCoords Proof.WeierstrassGroup
  Proof.PairingCore Proof.PairingMiller Proof.PairingA40 Proof.PairingBls Proof.PairingProj Proof.PairingMnt Proof.PairingShip
  Proof.PairingNeg Proof.PairingReduced.
Import ListNotations.
Local Open Scope fld_scope.

Section NegPoint.
  Variable F : FieldOps.
  Hypothesis KF : FieldLaws F.
  Add Field Fnp : (FL_th F KF).
  Variables a b : F.
  Hypothesis J0 : finv (0 : F) = 0.
  Lemma on_curve_neg P : on_curve F a b P -> on_curve F a b (ec_neg P).
  Proof. destruct P as [|x y]; [exact id|]. cbn. intros E. rewrite <- E. ring. Qed.
  Lemma ec_mul_neg n P : ec_mul F a n P = Inf -> ec_mul F a n (ec_neg P) = Inf.
  Proof.
    assert (E : forall m, ec_mul F a m (ec_neg P) = ec_neg (ec_mul F a m P)).
    { induction m as [|m IH]; [reflexivity|]. cbn [ec_mul]. rewrite IH. apply (ec_add_neg F KF a J0). }
    intros Z. rewrite E, Z. reflexivity.
  Qed.
End NegPoint.
Lemma invp_0 p : (1 < p)%Z -> finv (0 : Zp p) = 0.
Proof.
  intros H. apply zp_ext. change (zval (tozp p (zinv_mod p (zval (tozp p 0)))) = zval (tozp p 0)). f_equal. f_equal.
  rewrite zval_tozp, Zmod_0_l. unfold zinv_mod. rewrite Zmod_0_l. rewrite Nat.add_comm. cbn [Nat.add egcd].
  change (0 =? 0)%Z with true. cbv iota. destruct (Z.eqb_spec p 1); [lia|reflexivity].
Qed.
Section Inv0.
  Variable K : FieldOps.
  Hypothesis KK : FieldLaws K.
  Add Field Kinv0 : (FL_th K KK).
  Lemma inv2_0 (nr : K) : finv (0 : Fp2 K nr) = 0.
  Proof. apply quad_ext; cbn; ring. Qed.
  Lemma inv3_0 (nr : K) : finv (0 : Fp3 K nr) = 0.
  Proof. apply cub_ext; cbn; unfold fsqr; ring. Qed.
End Inv0.

Section Values.
  Variables G : FieldOps.
  Hypothesis KG : FieldLaws G.
  Let RG := FieldLaws_Ring G KG.
  Add Field Gval : (FL_th G KG).
  Lemma fpow_neq0 (x : G) e : x <> 0 -> fpow x e <> 0.
  Proof.
    intros N. induction e as [|e IH] using N.peano_ind; [apply (F_1_neq_0 (FL_th G KG))|]. rewrite fpow_succ. apply (fmul_neq_0 G KG); assumption.
  Qed.
  Lemma fpow_0 e : e <> 0%N -> fpow (0 : G) e = 0.
  Proof. intros N. destruct e as [|e] using N.peano_ind; [congruence|]. rewrite fpow_succ. ring. Qed.
  Lemma pow_neq0 (x : G) e : e <> 0%N -> fpow x e <> 0 -> x <> 0.
  Proof. intros N M ->. apply M, fpow_0, N. Qed.
End Values.

(** negation, for any of the three target fields *)
Section NegGen.
  Variables F G : FieldOps.
  Hypothesis KF : FieldLaws F.
  Hypothesis KG : FieldLaws G.
  Let RG := FieldLaws_Ring G KG.
  Add Field Gng : (FL_th G KG).
  Hypothesis J0 : finv (0 : G) = 0.
  Hypothesis I0 : finv (0 : F) = 0.
  Variable emb : F -> G.
  Hypothesis H : Hom F G emb.
  Variable w : G.
  Hypothesis Hw : w <> 0.
  Variable conj : G -> G.
  Hypothesis HC : Hom G G conj.
  Hypothesis Ce : forall x, conj (emb x) = emb x.
  Hypothesis Cw : conj w = - w.
  Variable a : F.
  Variable e : N.
  Hypothesis Ee : N.Even e.
  Hypothesis e0 : e <> 0%N.
  Hypothesis Hn : forall x, x <> 0 -> killed G e (x * conj x).
  Variables xp yp xq yq : F.
  Local Notation S := (Aff (emb xp) (emb yp)).
  Local Notation S' := (Aff (emb xp) (emb (- yp))).
  Local Notation Q := (untwist emb w (Aff xq yq)).
  Local Notation Q' := (untwist emb w (Aff xq (- yq))).
  Lemma at_neg : S' = ec_neg S.
  Proof. cbn. rewrite (hom_opp _ _ _ H). reflexivity. Qed.
  Lemma untwist_neg : Q' = ec_neg Q.
  Proof. cbn. rewrite (hom_opp _ _ _ H). unfold fdiv. f_equal. ring. Qed.
  Lemma neg_gen_pos n : let m P R := fpow (miller_fun G (emb a) n R P) e in m S Q <> 0 ->
    m S Q' = finv (m S Q) /\ m S' Q = finv (m S Q).
  Proof.
    intros m M. unfold m in *. assert (MZ := pow_neq0 G KG _ e e0 M). rewrite at_neg, untwist_neg.
    assert (CQ := conj_untwist F G KG emb w Hw conj HC Ce Cw xq yq J0). assert (CS := conj_at F G emb conj Ce xp yp).
    assert (E := miller_fun_negQ G KG (emb a) J0 conj HC (Ce a) e Hn Q S CQ CS n MZ).
    split; [exact E|]. rewrite (miller_fun_negP G KG (emb a) J0 e Ee Q S n). exact E.
  Qed.
  Lemma neg_gen_neg n : let m P R := fpow (miller_fun_neg G (emb a) n R P) e in m S Q <> 0 ->
    m S Q' = finv (m S Q) /\ m S' Q = finv (m S Q).
  Proof.
    intros m M. unfold m in *. assert (MZ := pow_neq0 G KG _ e e0 M). rewrite at_neg, untwist_neg.
    assert (CQ := conj_untwist F G KG emb w Hw conj HC Ce Cw xq yq J0). assert (CS := conj_at F G emb conj Ce xp yp).
    assert (E := miller_fun_neg_negQ G KG (emb a) J0 conj HC (Ce a) e Hn Q S CQ CS n MZ).
    split; [exact E|]. rewrite (miller_fun_neg_negP G KG (emb a) J0 e Ee Q S n). exact E.
  Qed.
End NegGen.

Section NegBls.
  Variable K : FieldOps.
  Variable nr : K.
  Local Notation F := (Fp2 K nr).
  Variable xi : F.
  Local Notation Fsqr := (fp2_sqr K nr).
  Local Notation G6 := (Fp6 F Fsqr xi).
  Local Notation G := (Fp12 F Fsqr xi xi).
  Hypothesis KK : FieldLaws K.
  Variable p : N.
  Hypothesis KF : FieldLaws F.
  Hypothesis FF6 : FinField G6 p 6.
  Hypothesis KG : FieldLaws G.
  Let KG6 := FF_field _ _ _ FF6.
  Variable e : N.
  Hypothesis He6 : ((p ^ 6 - 1) * (e / (p ^ 6 - 1)) = e)%N.
  Hypothesis Ee : N.Even e.
  Hypothesis e0 : e <> 0%N.
  Local Notation emb := (emb12 F Fsqr xi).
  Local Notation w := (w12 F Fsqr xi).
  Local Notation pt P := (point_map (fun x => emb (inc2 K nr x)) P).
  Lemma bls_neg_gen n xp yp xq yq : let m P Q := fpow (miller_fun_neg G 0 n (untwist emb w Q) (pt P)) e in
    m (Aff xp yp) (Aff xq yq) <> 0 ->
    m (Aff xp yp) (Aff xq (- yq)) = finv (m (Aff xp yp) (Aff xq yq)) /\
    m (Aff xp (- yp)) (Aff xq yq) = finv (m (Aff xp yp) (Aff xq yq)).
  Proof.
    intros m. unfold m. cbn [point_map].
    assert (HI := inc2_hom K nr KK KF). assert (HE := emb12_hom F Fsqr xi KF KG).
    rewrite <- (hom_0 _ _ _ HE), (hom_opp _ _ _ HI).
    assert (HC := conj12_hom F Fsqr xi KF KG).
    assert (KL := conj_killed G KG (conj12 F Fsqr xi) HC G6 KG6 (emb12_6 F Fsqr xi) (emb12_6_hom F Fsqr xi KF KG6 KG)
      (norm12 F Fsqr xi) (conj12_norm F Fsqr xi KF) p 6 e FF6 He6).
    exact (neg_gen_neg F G KG (inv12_0 F Fsqr xi KF) emb HE w (w12_0 F Fsqr xi KF) (conj12 F Fsqr xi) HC
      (conj12_emb F Fsqr xi KF) (conj12_w F Fsqr xi KF) 0 e Ee e0 KL (inc2 K nr xp) (inc2 K nr yp) xq yq n).
  Qed.
End NegBls.
Section NegMnt.
  Variable K : FieldOps.
  Variable nr : K.
  Hypothesis KK : FieldLaws K.
  Variables p e : N.
  Hypothesis Ee : N.Even e.
  Hypothesis e0 : e <> 0%N.
  Section M4.
    Hypothesis FF : FinField (Fp2 K nr) p 2.
    Hypothesis KG : FieldLaws (Fp4 K nr nr).
    Let KF := FF_field _ _ _ FF.
    Hypothesis He : ((p ^ 2 - 1) * (e / (p ^ 2 - 1)) = e)%N.
    Local Notation emb := (emb4 K nr).
    Local Notation pt P := (point_map (fun x => emb (inc2 K nr x)) P).
    Lemma mnt4_neg_gen n a xp yp xq yq :
      let m P Q := fpow (miller_fun (Fp4 K nr nr) (emb (inc2 K nr a)) n (untwist emb (w4 K nr) Q) (pt P)) e in
      m (Aff xp yp) (Aff xq yq) <> 0 ->
      m (Aff xp yp) (Aff xq (- yq)) = finv (m (Aff xp yp) (Aff xq yq)) /\
      m (Aff xp (- yp)) (Aff xq yq) = finv (m (Aff xp yp) (Aff xq yq)).
    Proof.
      intros m. unfold m. cbn [point_map].
      assert (HI := inc2_hom K nr KK KF). assert (HE := emb4_hom K nr KK KF KG). rewrite (hom_opp _ _ _ HI).
      assert (HC := conj4_hom K nr KK KG).
      assert (KL := conj_killed _ KG (conj4 K nr) HC _ KF emb HE (norm4 K nr) (conj4_norm K nr KK) p 2 e FF He).
      exact (neg_gen_pos (Fp2 K nr) _ KG (inv4_0 K nr KK) emb HE (w4 K nr) (w4_0 K nr KK) (conj4 K nr) HC
        (conj4_emb K nr KK) (conj4_w K nr KK) (inc2 K nr a) e Ee e0 KL (inc2 K nr xp) (inc2 K nr yp) xq yq n).
    Qed.
  End M4.
  Section M6.
    Hypothesis FF : FinField (Fp3 K nr) p 3.
    Hypothesis KG : FieldLaws (Fp6t K nr nr).
    Let KF := FF_field _ _ _ FF.
    Hypothesis He : ((p ^ 3 - 1) * (e / (p ^ 3 - 1)) = e)%N.
    Local Notation emb := (emb6 K nr).
    Local Notation pt P := (point_map (fun x => emb (inc3 K nr x)) P).
    Lemma mnt6_neg_gen n a xp yp xq yq :
      let m P Q := fpow (miller_fun_neg (Fp6t K nr nr) (emb (inc3 K nr a)) n (untwist emb (w6 K nr) Q) (pt P)) e in
      m (Aff xp yp) (Aff xq yq) <> 0 ->
      m (Aff xp yp) (Aff xq (- yq)) = finv (m (Aff xp yp) (Aff xq yq)) /\
      m (Aff xp (- yp)) (Aff xq yq) = finv (m (Aff xp yp) (Aff xq yq)).
    Proof.
      intros m. unfold m. cbn [point_map].
      assert (HI := inc3_hom K nr KK KF). assert (HE := emb6_hom K nr KK KF KG). rewrite (hom_opp _ _ _ HI).
      assert (HC := conj6_hom K nr KK KG).
      assert (KL := conj_killed _ KG (conj6 K nr) HC _ KF emb HE (norm6 K nr) (conj6_norm K nr KK) p 3 e FF He).
      exact (neg_gen_neg (Fp3 K nr) _ KG (inv6_0 K nr KK) emb HE (w6 K nr) (w6_0 K nr KK) (conj6 K nr) HC
        (conj6_emb K nr KK) (conj6_w K nr KK) (inc3 K nr a) e Ee e0 KL (inc3 K nr xp) (inc3 K nr yp) xq yq n).
    Qed.
  End M6.
End NegMnt.

(** ** shipped *)
Lemma bls_ee : N.Even bls_e.
Proof. exists (bls_e / 2)%N. vm_compute. reflexivity. Qed.
Lemma bls_e0 : bls_e <> 0%N.
Proof. vm_compute. discriminate. Qed.
Definition bls_neg := bls_neg_gen (Zp bls_p) (tozp bls_p bls_nr) (lit2 bls_p (t12_xi6 bls_t)) bls_K1 (Z.to_N bls_p) bls_K2
  (proj1 (proj2 (t12_fields _ bls381_p_prime bls381_field_check)))
  (FF_field _ _ _ (proj2 (proj2 (t12_fields _ bls381_p_prime bls381_field_check)))) bls_e bls_e6 bls_ee bls_e0 bls_n.
Lemma mnt4_ee : N.Even mnt4_e.
Proof. exists (mnt4_e / 2)%N. vm_compute. reflexivity. Qed.
Lemma mnt4_e0 : mnt4_e <> 0%N.
Proof. vm_compute. discriminate. Qed.
Lemma mnt4_He1 : ((Z.to_N mnt4_p ^ 2 - 1) * (mnt4_e / (Z.to_N mnt4_p ^ 2 - 1)) = mnt4_e)%N.
Proof. vm_compute. reflexivity. Qed.
Definition mnt4_neg := mnt4_neg_gen (Zp mnt4_p) (tozp mnt4_p mnt4_fp2_non_residue) mnt4_K (Z.to_N mnt4_p) mnt4_e mnt4_ee mnt4_e0
  (proj1 (t4_fields _ mnt4_p_prime mnt4_field_check)) (FF_field _ _ _ (proj2 (t4_fields _ mnt4_p_prime mnt4_field_check))) mnt4_He1 mnt_n mnt4_a.
Lemma mnt6_ee : N.Even mnt6_e.
Proof. exists (mnt6_e / 2)%N. vm_compute. reflexivity. Qed.
Lemma mnt6_e0 : mnt6_e <> 0%N.
Proof. vm_compute. discriminate. Qed.
Lemma mnt6_He1 : ((Z.to_N mnt6_p ^ 3 - 1) * (mnt6_e / (Z.to_N mnt6_p ^ 3 - 1)) = mnt6_e)%N.
Proof. vm_compute. reflexivity. Qed.
Definition mnt6_neg := mnt6_neg_gen (Zp mnt6_p) (tozp mnt6_p mnt6_fp3_non_residue) mnt6_K (Z.to_N mnt6_p) mnt6_e mnt6_ee mnt6_e0
  (proj1 (t6_fields _ mnt6_p_prime mnt6_field_check)) (FF_field _ _ _ (proj2 (t6_fields _ mnt6_p_prime mnt6_field_check))) mnt6_He1 mnt_n mnt6_a.

Definition bls_steps_dbl := bls_dbl_gen (Zp bls_p) (tozp bls_p bls_nr) (lit2 bls_p (t12_xi6 bls_t)) bls_K1 bls_K2
  (FF_field _ _ _ (proj2 (proj2 (t12_fields _ bls381_p_prime bls381_field_check)))) bls_two2 bls_xi0 bls12_381_g2_b.
Definition bls_steps_add := bls_add_gen (Zp bls_p) (tozp bls_p bls_nr) (lit2 bls_p (t12_xi6 bls_t)) bls_K1 bls_K2
  (FF_field _ _ _ (proj2 (proj2 (t12_fields _ bls381_p_prime bls381_field_check)))) bls_xi0.
Definition bls_steps_double := bls_double_gen (Zp bls_p) (tozp bls_p bls_nr) (lit2 bls_p (t12_xi6 bls_t)) bls_K1 bls_K2
  (FF_field _ _ _ (proj2 (proj2 (t12_fields _ bls381_p_prime bls381_field_check)))) bls12_381_g2_b bls_n bls12_381_ate_is_loop_count_neg
  bls12_381_max_bits bls_bits.
Definition mnt4_FF := t4_fields _ mnt4_p_prime mnt4_field_check.
Definition mnt4_KF := FF_field _ _ _ (proj1 mnt4_FF).
Definition mnt4_KG := FF_field _ _ _ (proj2 mnt4_FF).
Definition mnt6_FF := t6_fields _ mnt6_p_prime mnt6_field_check.
Definition mnt6_KF := FF_field _ _ _ (proj1 mnt6_FF).
Definition mnt6_KG := FF_field _ _ _ (proj2 mnt6_FF).
Section Gen4.
  Variable K : FieldOps.
  Variable nr : K.
  Hypothesis KK : FieldLaws K.
  Hypothesis KF : FieldLaws (Fp2 K nr).
  Hypothesis KG : FieldLaws (Fp4 K nr nr).
  Hypothesis two : (2 : Fp2 K nr) <> 0.
  Variable a : K.
  Definition mnt4_dbl_gen := mnt_dbl_gen K (Fp2 K nr) (Fp4 K nr nr) KK KF KG (fp2_smul K) (inc2 K nr) (inc2_hom K nr KK KF) (inc2_smul K nr KK)
    (emb4 K nr) (emb4_hom K nr KK KF KG) (w4 K nr) (w4_0 K nr KK) (fun x y => mkq x y) (mk4 K nr KK) (mkq 0 1) (tw4 K nr KK) a
    (mkq (a * nr) 0) (a4_eq K nr KK a) two (pr_g_RR K (Fp2 K nr) (Fp4 K nr nr) (fun x y => mkq x y)) (fun _ _ => eq_refl).
  Definition mnt4_add_gen := mnt_add_gen K (Fp2 K nr) (Fp4 K nr nr) KK KF KG (fp2_smul K) (inc2 K nr) (inc2_smul K nr KK)
    (emb4 K nr) (emb4_hom K nr KK KF KG) (w4 K nr) (w4_0 K nr KK) (fun x y => mkq x y) (mk4 K nr KK) (mkq 0 1) (tw4 K nr KK) a
    (mkq (a * nr) 0) two.
  Definition mnt4_double_gen := mnt_double_gen K (Fp2 K nr) (Fp4 K nr nr) KG (fp2_smul K) (inc2 K nr)
    (fp4_sqr K nr nr) (fun f => eq_refl) (fun x y => mkq x y) (mkq 0 1)
    (mkq (a * nr) 0) (pr_g_RR K (Fp2 K nr) (Fp4 K nr nr) (fun x y => mkq x y)) (fun _ _ => eq_refl) (inv4_0 K nr KK).
End Gen4.
Section Gen6.
  Variable K : FieldOps.
  Variable nr : K.
  Hypothesis KK : FieldLaws K.
  Hypothesis KF : FieldLaws (Fp3 K nr).
  Hypothesis KG : FieldLaws (Fp6t K nr nr).
  Hypothesis two : (2 : Fp3 K nr) <> 0.
  Variable a : K.
  Definition mnt6_dbl_gen := mnt_dbl_gen K (Fp3 K nr) (Fp6t K nr nr) KK KF KG (fp3_smul K) (inc3 K nr) (inc3_hom K nr KK KF) (inc3_smul K nr KK)
    (emb6 K nr) (emb6_hom K nr KK KF KG) (w6 K nr) (w6_0 K nr KK) (fun x y => mkq x y) (mk6 K nr KK) (mkc 0 1 0) (tw6 K nr KK) a
    (mkc 0 0 a) (a6_eq K nr KK a) two (pr_g_RR' K (Fp3 K nr) (Fp6t K nr nr) (fun x y => mkq x y)) (RR6 K nr KF).
  Definition mnt6_add_gen := mnt_add_gen K (Fp3 K nr) (Fp6t K nr nr) KK KF KG (fp3_smul K) (inc3 K nr) (inc3_smul K nr KK)
    (emb6 K nr) (emb6_hom K nr KK KF KG) (w6 K nr) (w6_0 K nr KK) (fun x y => mkq x y) (mk6 K nr KK) (mkc 0 1 0) (tw6 K nr KK) a
    (mkc 0 0 a) two.
  Definition mnt6_double_gen := mnt_double_gen K (Fp3 K nr) (Fp6t K nr nr) KG (fp3_smul K) (inc3 K nr)
    (fp6t_sqr K nr nr) (sqr6 K nr KK) (fun x y => mkq x y) (mkc 0 1 0)
    (mkc 0 0 a) (pr_g_RR' K (Fp3 K nr) (Fp6t K nr nr) (fun x y => mkq x y)) (RR6 K nr KF) (inv6_0 K nr KK).
End Gen6.
Definition mnt4_two2 : (2 : t4_Fp2 mnt4_tower) <> 0 := proj1 (proj2 (proj2 (proj2 mnt4_ok_g2))).
Definition mnt6_two2 : (2 : t6_Fp3 mnt6_tower) <> 0 := proj1 (proj2 (proj2 (proj2 mnt6_ok_g2))).
Definition mnt4_dbl := mnt4_dbl_gen (Zp mnt4_p) (tozp mnt4_p mnt4_fp2_non_residue) mnt4_K mnt4_KF mnt4_KG mnt4_two2 mnt4_a.
Definition mnt4_add := mnt4_add_gen (Zp mnt4_p) (tozp mnt4_p mnt4_fp2_non_residue) mnt4_K mnt4_KF mnt4_KG mnt4_two2 mnt4_a.
Definition mnt4_double := mnt4_double_gen (Zp mnt4_p) (tozp mnt4_p mnt4_fp2_non_residue) mnt4_K mnt4_KG mnt4_a
  mnt_n mnt4_ate_is_loop_count_neg mnt_max_bits mnt_bits.
Definition mnt6_dbl := mnt6_dbl_gen (Zp mnt6_p) (tozp mnt6_p mnt6_fp3_non_residue) mnt6_K mnt6_KF mnt6_KG mnt6_two2 mnt6_a.
Definition mnt6_add := mnt6_add_gen (Zp mnt6_p) (tozp mnt6_p mnt6_fp3_non_residue) mnt6_K mnt6_KF mnt6_KG mnt6_two2 mnt6_a.
Definition mnt6_double := mnt6_double_gen (Zp mnt6_p) (tozp mnt6_p mnt6_fp3_non_residue) mnt6_K mnt6_KF mnt6_KG mnt6_a
  mnt_n mnt6_ate_is_loop_count_neg mnt_max_bits mnt_bits.
