(** The shipped pairings with one argument the identity. *)
From Coq Require Import ZArith NArith List Bool Lia Ring Field Znumtheory.
From Verif Require Import Base.Field Base.Zp Base.Ext Base.Hom Base.BigZp Spec.Group Spec.Weierstrass Spec.Edwards Spec.Digits Spec.Pairing Spec.AtePairing Model.Power Model.Fp2 Model.Fp3 Model.Fp4
  Model.Fp6_2over3 Model.Fp6_3over2 Model.Fp12 Model.ShortWeierstrass Model.Edwards Model.EdwardsG2 Model.FieldParams Model.Shipped Model.CurveParams Model.Generators
  Model.FinalExp Model.Pairing
  Proof.ExtTheory Proof.Towers Proof.FiniteField Proof.Homs Proof.FastField Proof.Shipped Proof.ShippedTowers Proof.Bls381 Proof.WeierstrassCoords Proof.WeierstrassGroup
  Proof.PairingCore Proof.PairingMiller Proof.PairingA40 Proof.PairingBls Proof.PairingProj Proof.PairingMnt Proof.PairingShip Proof.PairingFinal
  Proof.PairingEd Proof.PairingEdShip Proof.PairingMap Proof.OrderCheck Proof.Generators Proof.GeneratorsEd2 Proof.PairingBig Proof.PairingGen Proof.PairingIdentity Proof.FinalExpZero.
Import ListNotations.
Local Open Scope fld_scope.
Local Notation edF := (Zp edwards_p).
Local Notation edK := (t6_Fp3 edwards_tower).
Local Notation edG := (t6_Fp6 edwards_tower).
Local Notation nr3 := (tozp edwards_p edwards_fp3_non_residue : edF).

Section Bls.
  Variable K : FieldOps.
  Variable nr : K.
  Local Notation F := (Fp2 K nr).
  Local Notation Fsqr := (fp2_sqr K nr).
  Variable xi : F.
  Local Notation G := (Fp12 F Fsqr xi xi).
  Hypothesis KK : FieldLaws K.
  Variable p : N.
  Hypothesis FF2 : FinField F p 2.
  Hypothesis FF12 : FinField G p 12.
  Let KF := FF_field _ _ _ FF2.
  Let KG := FF_field _ _ _ FF12.
  Add Field Gbi : (FL_th G KG).
  Variable e : N.
  Hypothesis He : (2 * (p ^ 2 - 1) * (e / (2 * (p ^ 2 - 1))) = e)%N.
  Hypothesis xi0 : xi <> 0.
  Variable b' : F.
  Variable n : positive.
  Variable loop_neg : bool.
  Variable max_bits : nat.
  Hypothesis Hbits : (N.size (Npos n) <= N.of_nat (S max_bits))%N.
  Variable r : N.
  Hypothesis nlt : (2 * Npos n < r)%N.
  Local Notation emb := (emb12 F Fsqr xi).
  Local Notation w := (w12 F Fsqr xi).
  Let HI := inc2_hom K nr KK KF.
  Let HE := emb12_hom F Fsqr xi KF KG.
  Let Hk := kill_emb F G p 2 FF2 KG e He emb HE n (S max_bits) Hbits r nlt.
  Lemma w3_0 : w * w * w <> 0.
  Proof. assert (W := w12_0 F Fsqr xi KF). repeat apply (fmul_neq_0 G KG); exact W. Qed.
  Lemma w3_sq : emb xi = (w * w * w) * (w * w * w).
  Proof. rewrite (w12_6 F Fsqr xi KF). ring. Qed.
  Let Hkw := kill_w F G p 2 FF2 KG e He emb HE (w * w * w) w3_0 xi w3_sq n (S max_bits) Hbits r nlt.
  Definition bls_left_gen zx2 zy2 t :=
    a40_left K F G KF KG (fp2_smul K) (inc2 K nr) HI (inc2_smul K nr KK) (fp12_sqr F Fsqr xi xi) (fun f => eq_refl) emb HE w
      (fp12_mul_by_045 F Fsqr xi xi) (slots_045 F Fsqr xi KF) xi b' n loop_neg max_bits Hbits zx2 zy2 e Hk Hkw (inv12_0 F Fsqr xi KF) t.
  Definition bls_right_gen zx2 zy2 PP t zy :=
    a40_right K F G KF KG (fp2_smul K) (inc2 K nr) (inc2_smul K nr KK) (fp12_sqr F Fsqr xi xi) (fun f => eq_refl) emb HE w
      (fp12_mul_by_045 F Fsqr xi xi) (slots_045 F Fsqr xi KF) xi b' n loop_neg max_bits Hbits zx2 zy2 (inv12_0 F Fsqr xi KF) PP t zy.
End Bls.

Section Mnt4.
  Variable K : FieldOps.
  Variable nr : K.
  Hypothesis KK : FieldLaws K.
  Variable p : N.
  Local Notation F := (Fp2 K nr).
  Local Notation G := (Fp4 K nr nr).
  Hypothesis FF2 : FinField F p 2.
  Hypothesis KG : FieldLaws G.
  Let KF := FF_field _ _ _ FF2.
  Variable e : N.
  Hypothesis He : (2 * (p ^ 2 - 1) * (e / (2 * (p ^ 2 - 1))) = e)%N.
  Variable a' : F.
  Variable n : positive.
  Variable neg : bool.
  Variable mb : nat.
  Hypothesis Hb : (N.size (Npos n) <= N.of_nat mb)%N.
  Variable r : N.
  Hypothesis nlt : (2 * Npos n < r)%N.
  Let HI := inc2_hom K nr KK KF.
  Let H := emb4_hom K nr KK KF KG.
  Let Hk := kill_emb F G p 2 FF2 KG e He (emb4 K nr) H n mb Hb r nlt.
  Let Hkw := kill_w F G p 2 FF2 KG e He (emb4 K nr) H (w4 K nr) (w4_0 K nr KK) (mkq 0 1) (tw4 K nr KK) n mb Hb r nlt.
  Definition mnt4_left_gen zx1 zy1 zx2 zy2 tP t := pr_left K F G KF KG (fp2_smul K) (inc2 K nr) HI (inc2_smul K nr KK) (fp4_sqr K nr nr) (fun f => eq_refl)
    (emb4 K nr) H (w4 K nr) (fun x y => mkq x y) (mk4 K nr KK) (mkq 0 1) a' n neg mb Hb zx1 zy1 zx2 zy2 e Hk Hkw (inv4_0 K nr KK)
    (pr_g_RR K F G (fun x y => mkq x y)) (fun _ _ => eq_refl) tP t.
  Definition mnt4_right_gen zx2 zy2 PP t := pr_right K F G KF KG (fp2_smul K) (inc2 K nr) HI (inc2_smul K nr KK) (fp4_sqr K nr nr) (fun f => eq_refl)
    (emb4 K nr) H (w4 K nr) (fun x y => mkq x y) (mk4 K nr KK) (mkq 0 1) a' n neg mb Hb zx2 zy2 (inv4_0 K nr KK)
    (pr_g_RR K F G (fun x y => mkq x y)) (fun _ _ => eq_refl) PP t.
End Mnt4.
Section Six.
  Variable K : FieldOps.
  Variable nr : K.
  Hypothesis KK : FieldLaws K.
  Variable p : N.
  Local Notation F := (Fp3 K nr).
  Local Notation G := (Fp6t K nr nr).
  Hypothesis FF3 : FinField F p 3.
  Hypothesis KG : FieldLaws G.
  Let KF := FF_field _ _ _ FF3.
  Variable e : N.
  Hypothesis He : (2 * (p ^ 3 - 1) * (e / (2 * (p ^ 3 - 1))) = e)%N.
  Variable a' : F.
  Variable n : positive.
  Variable neg : bool.
  Variable mb : nat.
  Hypothesis Hb : (N.size (Npos n) <= N.of_nat mb)%N.
  Variable r : N.
  Hypothesis nlt : (2 * Npos n < r)%N.
  Let HI := inc3_hom K nr KK KF.
  Let H := emb6_hom K nr KK KF KG.
  Let Hk := kill_emb F G p 3 FF3 KG e He (emb6 K nr) H n mb Hb r nlt.
  Let Hkw := kill_w F G p 3 FF3 KG e He (emb6 K nr) H (w6 K nr) (w6_0 K nr KK) (mkc 0 1 0) (tw6 K nr KK) n mb Hb r nlt.
  Definition mnt6_left_gen zx1 zy1 zx2 zy2 tP t := pr_left K F G KF KG (fp3_smul K) (inc3 K nr) HI (inc3_smul K nr KK) (fp6t_sqr K nr nr) (sqr6 K nr KK)
    (emb6 K nr) H (w6 K nr) (fun x y => mkq x y) (mk6 K nr KK) (mkc 0 1 0) a' n neg mb Hb zx1 zy1 zx2 zy2 e Hk Hkw (inv6_0 K nr KK)
    (pr_g_RR' K F G (fun x y => mkq x y)) (RR6 K nr KF) tP t.
  Local Notation A := (mkc 0 1 0 : F).
  Variable d : K.
  Hypothesis two : (2 : F) <> 0.
  Hypothesis three : (3 : F) <> 0.
  Hypothesis cmp : complete F (mkc 0 d 0) A.
  Hypothesis odd : N.odd r = true.
  Hypothesis Pr : prime (Z.of_N r).
  Let nlt1 : (Npos n < r)%N.
  Proof. lia. Qed.
  Let A0 : A <> 0.
  Proof. intros E. apply (f_equal (fun x : F => c1 x)) in E. exact (F_1_neq_0 (FL_th K KK) E). Qed.
  Definition edwards_left_gen xq yq := ed_left K F G KF KG (fp3_smul K) (inc3 K nr) (hom_0 _ _ _ HI) (inc3_smul K nr KK) (fp6t_sqr K nr nr) (sqr6 K nr KK)
    (emb6 K nr) H (w6 K nr) (fun x y => mkq x y) (mk6 K nr KK) A A0 A (mkc 0 d 0) eq_refl (eg2_mul_by_a K nr 1) (ed_mul_a K nr KK) two three cmp
    r odd n mb Hb e Hk Hkw Pr nlt1 xq yq.
  Definition edwards_right_gen PP := ed_right K F G KF KG (fp3_smul K) (inc3 K nr) (inc3_smul K nr KK) (fp6t_sqr K nr nr) (sqr6 K nr KK)
    (emb6 K nr) H (w6 K nr) (fun x y => mkq x y) (mk6 K nr KK) A (eg2_mul_by_a K nr 1) (ed_mul_a K nr KK) n mb Hb PP.
End Six.

Lemma jac_inf (K : FieldOps) (R : RingLaws K) zx zy t : rep_jacobian (tX t) (tY t) (tZ t) (Inf : point K) ->
  jac_is_zero K t = true /\ jac_to_affine K zx zy t = mkA zx zy.
Proof.
  intros Z. assert (J : jac_is_zero K t = true) by (unfold jac_is_zero; rewrite (Z : tZ t = 0); apply (feqb_refl K R)).
  split; [exact J|]. unfold jac_to_affine. rewrite J. reflexivity.
Qed.
Lemma proj_inf (K : FieldOps) (R : RingLaws K) zx zy t : rep_projective (tX t) (tY t) (tZ t) (Inf : point K) ->
  proj_is_zero K t = true /\ proj_to_affine K zx zy t = mkA zx zy.
Proof.
  intros [X Z]. assert (J : proj_is_zero K t = true) by (unfold proj_is_zero; rewrite X, Z, (feqb_refl K R); reflexivity).
  split; [exact J|]. unfold proj_to_affine. rewrite J. reflexivity.
Qed.

Lemma fe1_map_true (A B : FieldOps) (h : A -> B) (H : FHom A B h) x : fe1 A x = true -> fe1 B (h x) = true.
Proof. unfold fe1. intros C. assert (E := hom_eqb _ _ _ (fh_hom _ _ _ H) x 1). rewrite (hom_1 _ _ _ (fh_hom _ _ _ H)) in E. rewrite E. exact C. Qed.

(** ** bls12-381 *)
Lemma bls_He2 : (2 * (Z.to_N bls_p ^ 2 - 1) * (bls_e / (2 * (Z.to_N bls_p ^ 2 - 1))) = bls_e)%N.
Proof. vm_compute. reflexivity. Qed.
Lemma bls_nlt2 : (2 * Npos bls_n < bls_r)%N.
Proof. reflexivity. Qed.
Definition bls_G12 := proj2 (proj2 (t12_fields _ bls381_p_prime bls381_field_check)).
Lemma bls_left std tP tQ : rep_jacobian (tX tP) (tY tP) (tZ tP) (Inf : point (Zp bls_p)) ->
  exists f, bls12_381_pair std tP tQ = Some f /\ zk (t12_Fp12 bls_t) bls_e f.
Proof.
  intros Z. destruct (jac_inf (Zp bls_p) (FieldLaws_Ring _ bls_K1) 0 (zero_fill_y _ std) tP Z) as [J _].
  destruct (bls_left_gen (Zp bls_p) (tozp bls_p bls_nr) (lit2 bls_p (t12_xi6 bls_t)) bls_K1 (Z.to_N bls_p)
    (proj1 (t12_fields _ bls381_p_prime bls381_field_check)) bls_G12 bls_e bls_He2 bls12_381_g2_b bls_n
    bls12_381_ate_is_loop_count_neg bls12_381_max_bits bls_bits bls_r bls_nlt2 0 (zero_fill_y _ std) tQ) as (f & E & V).
  exists f. split; [|exact V]. unfold bls12_381_pair, bls12_381_precompute_g1, a40_precompute_g1.
  assert (J' : jac_is_zero (Zp (t12_p bls_t)) tP = true) by exact J. rewrite J'. exact E.
Qed.
Lemma bls_prefix : prefix 26 bls_n = true.
Proof. vm_compute. reflexivity. Qed.
Lemma bls_right std tP tQ : rep_jacobian (tX tQ) (tY tQ) (tZ tQ) (Inf : point (t12_Fp2 bls_t)) ->
  bls12_381_pair std tP tQ = Some (0 : t12_Fp12 bls_t).
Proof.
  intros Z. destruct (jac_inf (t12_Fp2 bls_t) (FieldLaws_Ring _ bls_K2) 0 (zero_fill_y _ std) tQ Z) as [_ J].
  exact (bls_right_gen (Zp bls_p) (tozp bls_p bls_nr) (lit2 bls_p (t12_xi6 bls_t)) bls_K1 (Z.to_N bls_p)
    (proj1 (t12_fields _ bls381_p_prime bls381_field_check)) bls_G12 bls12_381_g2_b bls_n
    bls12_381_ate_is_loop_count_neg bls12_381_max_bits bls_bits 0 (zero_fill_y _ std) (bls12_381_precompute_g1 std tP) tQ (zero_fill_y _ std) J bls_prefix).
Qed.
Lemma bls_final_zero_check : @feqb bls_big_gt (big_bls_final (@f0 bls_big_gt)) (@f0 bls_big_gt) = true.
Proof. vm_compute. reflexivity. Qed.
Lemma bls_final_zero : bls12_381_final_exponentiation (0 : t12_Fp12 bls12_381_tower) = 0.
Proof.
  assert (H := fh_hom _ _ _ bls_gt_fhom).
  assert (E := bls_final_big (@f0 bls_big_gt)).
  assert (Z : bls_h12 (@f0 bls_big_gt) = (0 : t12_Fp12 bls12_381_tower)) by exact (hom_0 _ _ _ H).
  assert (C := hom_eqb _ _ _ H (big_bls_final (@f0 bls_big_gt)) (@f0 bls_big_gt)). rewrite bls_final_zero_check in C.
  assert (C' := feqb_true (t12_Fp12 bls12_381_tower) (FieldLaws_Ring _ (FF_field _ _ _ bls_G12)) _ _ C).
  rewrite <- Z at 1. rewrite E, <- Z. exact C'.
Qed.
(** P = O, Q = g2 one() *)
Definition bls_big_left : option (quad (cub (quad bigb))) :=
  big_bls_pair true (mkT (0 : bigb) (1 : bigb) (0 : bigb)) (big2 bls12_381_g2_one) (big2 (skipn 2 bls12_381_g2_one)) (mkq (1 : bigb) (0 : bigb)).
Lemma bls_left_check : match bls_big_left with Some v => fe1 bls_big_gt (big_bls_final v) | None => false end = true.
Proof. vm_compute. reflexivity. Qed.
Definition bls_O1 : triple (Zp bls_p0) := tmap (A := bigb) bls_h (mkT (0 : bigb) (1 : bigb) (0 : bigb)).
Lemma bls_pair_left : bls12_381_pair true bls_O1 bls_one2 = option_map bls_h12 bls_big_left.
Proof. rewrite <- bls_one2_big. unfold bls_big_left, bls_O1. apply bls_pair_big. Qed.
Lemma bls_left_value : exists f, bls12_381_pair_reduced true bls_O1 bls_one2 = Some f /\ fe1 (t12_Fp12 bls12_381_tower) f = true.
Proof.
  unfold bls12_381_pair_reduced. rewrite bls_pair_left.
  assert (C := bls_left_check). destruct bls_big_left as [v|]; [|discriminate]. cbn [option_map]. rewrite bls_final_big.
  eexists. split; [reflexivity|]. exact (fe1_map_true bls_big_gt (t12_Fp12 bls12_381_tower) bls_h12 bls_gt_fhom (big_bls_final v) C).
Qed.

(** ** mnt4-298 *)
Lemma mnt4_left std tP tQ : rep_projective (tX tP) (tY tP) (tZ tP) (Inf : point (Zp mnt4_p)) ->
  exists f, mnt4_pair std tP tQ = Some f /\ zk (t4_Fp4 mnt4_tower) mnt4_e f.
Proof.
  intros Z. destruct (proj_inf (Zp mnt4_p) (FieldLaws_Ring _ mnt4_K) 0 0 tP Z) as [J _].
  exact (mnt4_left_gen (Zp mnt4_p) (tozp mnt4_p mnt4_fp2_non_residue) mnt4_K (Z.to_N mnt4_p)
    (proj1 (t4_fields _ mnt4_p_prime mnt4_field_check)) mnt4_KG mnt4_e mnt4_He mnt4_g2_a mnt_n mnt4_ate_is_loop_count_neg mnt_max_bits mnt_bits
    mnt4_r mnt4_nlt 0 (zero_fill_y _ std) 0 (zero_fill_y _ std) tP tQ J).
Qed.
Lemma mnt4_prefix : prefix 7 mnt_n = true.
Proof. vm_compute. reflexivity. Qed.
Lemma mnt4_right tP tQ : rep_projective (tX tQ) (tY tQ) (tZ tQ) (Inf : point (t4_Fp2 mnt4_tower)) ->
  mnt4_pair false tP tQ = Some (0 : t4_Fp4 mnt4_tower).
Proof.
  intros Z. destruct (proj_inf (t4_Fp2 mnt4_tower) (FieldLaws_Ring _ mnt4_KF) 0 0 tQ Z) as [_ J].
  exact (mnt4_right_gen (Zp mnt4_p) (tozp mnt4_p mnt4_fp2_non_residue) mnt4_K (Z.to_N mnt4_p)
    (proj1 (t4_fields _ mnt4_p_prime mnt4_field_check)) mnt4_KG mnt4_g2_a mnt_n mnt4_ate_is_loop_count_neg mnt_max_bits mnt_bits
    0 0 (mnt4_precompute_g1 false tP) tQ J mnt4_prefix).
Qed.
Definition mnt4_G_ring := FieldLaws_Ring (t4_Fp4 mnt4_tower) mnt4_KG.
Lemma mnt4_final_zero find_wnaf : wnaf_contract find_wnaf -> mnt4_298_final_exponentiation find_wnaf (0 : t4_Fp4 mnt4_tower) = 0.
Proof.
  intros W. exact (mnt4_zero (t4_Fp4 mnt4_tower) mnt4_G_ring _ _ mnt4_w1 mnt4_w0 mnt4_w0_neg (inv4_0 (Zp mnt4_p) (tozp mnt4_p mnt4_fp2_non_residue) mnt4_K)
    (frob4_0 (Zp mnt4_p) (tozp mnt4_p mnt4_fp2_non_residue) mnt4_K _ _)
    (cexp4_0 (Zp mnt4_p) (tozp mnt4_p mnt4_fp2_non_residue) mnt4_K mnt4_G_ring find_wnaf mnt4_w1 W eq_refl)).
Qed.
(** P = g1 one(), Q = O with zero_fill = (0, 1) *)
Definition mnt4_big_right : option (quad (quad big4)) :=
  big_mnt4_pair true (mkT (bigz (ptX mnt4_298_g1_one) : big4) (bigz (ptY mnt4_298_g1_one)) 1) (mkq (0 : big4) (0 : big4)) (mkq (1 : big4) (0 : big4))
    (mkq (0 : big4) (0 : big4)).
Lemma mnt4_right_check : match mnt4_big_right with Some v => negb (fe1 mnt4_big_gt (fpower (K := mnt4_big_gt) v mnt4_e)) | None => false end = true.
Proof. vm_compute. reflexivity. Qed.
Definition mnt4_O2 : triple (t4_Fp2 mnt4_tower) :=
  mkT (mnt4_h2 (mkq (0 : big4) (0 : big4)) : t4_Fp2 mnt4_tower) (mnt4_h2 (mkq (1 : big4) (0 : big4)) : t4_Fp2 mnt4_tower)
    (mnt4_h2 (mkq (0 : big4) (0 : big4)) : t4_Fp2 mnt4_tower).
Lemma mnt4_pair_right : mnt4_pair true mnt4_one1 mnt4_O2 = option_map mnt4_h4 mnt4_big_right.
Proof. rewrite <- mnt4_one1_big. unfold mnt4_big_right, mnt4_O2. apply mnt4_pair_big. Qed.
Lemma mnt4_right_value : exists g, mnt4_pair true mnt4_one1 mnt4_O2 = Some g /\
  fe1 (t4_Fp4 mnt4_tower) (fpower (K := t4_Fp4 mnt4_tower) g mnt4_e) = false.
Proof.
  rewrite mnt4_pair_right.
  assert (C := mnt4_right_check). destruct mnt4_big_right as [v|]; [|discriminate]. cbn [option_map]. eexists. split; [reflexivity|].
  refine (eq_trans (f_equal (fe1 _) (eq_sym (@hom_fpower mnt4_big_gt (t4_Fp4 mnt4_tower) mnt4_h4 (fh_hom _ _ _ mnt4_gt_fhom) v mnt4_e))) _).
  exact (fe1_map mnt4_big_gt (t4_Fp4 mnt4_tower) mnt4_h4 mnt4_gt_fhom (fpower (K := mnt4_big_gt) v mnt4_e) (proj1 (negb_true_iff _) C)).
Qed.
(** P = O, Q = g2 one() *)
Definition mnt4_big_left : option (quad (quad big4)) :=
  big_mnt4_pair true (mkT (0 : big4) (1 : big4) (0 : big4)) (big2 mnt4_298_g2_one) (big2 (skipn 2 mnt4_298_g2_one)) (mkq (1 : big4) (0 : big4)).
Lemma mnt4_left_check : match mnt4_big_left with Some v => fe1 mnt4_big_gt (fpower (K := mnt4_big_gt) v mnt4_e) | None => false end = true.
Proof. vm_compute. reflexivity. Qed.
Definition mnt4_O1 : triple (Zp mnt4_p0) := tmap (A := big4) mnt4_h (mkT (0 : big4) (1 : big4) (0 : big4)).
Lemma mnt4_pair_left : mnt4_pair true mnt4_O1 mnt4_one2 = option_map mnt4_h4 mnt4_big_left.
Proof. rewrite <- mnt4_one2_big. unfold mnt4_big_left, mnt4_O1. apply mnt4_pair_big. Qed.
Lemma mnt4_left_value : exists g, mnt4_pair true mnt4_O1 mnt4_one2 = Some g /\
  fe1 (t4_Fp4 mnt4_tower) (fpower (K := t4_Fp4 mnt4_tower) g mnt4_e) = true.
Proof.
  rewrite mnt4_pair_left.
  assert (C := mnt4_left_check). destruct mnt4_big_left as [v|]; [|discriminate]. cbn [option_map]. eexists. split; [reflexivity|].
  refine (eq_trans (f_equal (fe1 _) (eq_sym (@hom_fpower mnt4_big_gt (t4_Fp4 mnt4_tower) mnt4_h4 (fh_hom _ _ _ mnt4_gt_fhom) v mnt4_e))) _).
  exact (fe1_map_true mnt4_big_gt (t4_Fp4 mnt4_tower) mnt4_h4 mnt4_gt_fhom (fpower (K := mnt4_big_gt) v mnt4_e) C).
Qed.

(** ** mnt6-298: zero_fill is (0, 1) in either build *)
Lemma mnt6_left tP tQ : rep_projective (tX tP) (tY tP) (tZ tP) (Inf : point (Zp mnt6_p)) ->
  exists f, mnt6_pair tP tQ = Some f /\ zk (t6_Fp6 mnt6_tower) mnt6_e f.
Proof.
  intros Z. destruct (proj_inf (Zp mnt6_p) (FieldLaws_Ring _ mnt6_K) 0 0 tP Z) as [J _].
  exact (mnt6_left_gen (Zp mnt6_p) (tozp mnt6_p mnt6_fp3_non_residue) mnt6_K (Z.to_N mnt6_p)
    (proj1 (t6_fields _ mnt6_p_prime mnt6_field_check)) mnt6_KG mnt6_e mnt6_He mnt6_g2_a mnt_n mnt6_ate_is_loop_count_neg mnt_max_bits mnt_bits
    mnt6_r mnt6_nlt 0 1 0 1 tP tQ J).
Qed.
Definition mnt6_G_ring := FieldLaws_Ring (t6_Fp6 mnt6_tower) mnt6_KG.
Lemma mnt6_final_zero find_wnaf : wnaf_contract find_wnaf -> mnt6_298_final_exponentiation find_wnaf (0 : t6_Fp6 mnt6_tower) = 0.
Proof.
  intros W. exact (mnt6_zero (t6_Fp6 mnt6_tower) mnt6_G_ring _ _ mnt6_w1 mnt6_w0 mnt6_w0_neg (inv6_0 (Zp mnt6_p) (tozp mnt6_p mnt6_fp3_non_residue) mnt6_K)
    (frob6_0 (Zp mnt6_p) (tozp mnt6_p mnt6_fp3_non_residue) mnt6_K _ _ _)
    (cexp6_0 (Zp mnt6_p) (tozp mnt6_p mnt6_fp3_non_residue) mnt6_K mnt6_G_ring find_wnaf mnt6_w1 W ltac:(discriminate))).
Qed.
(** P = O, Q = g2 one() *)
Definition mnt6_big_left : option (quad (cub big6)) :=
  big_mnt6_pair (mkT (0 : big6) (1 : big6) (0 : big6)) (big3 mnt6_298_g2_one) (big3 (skipn 3 mnt6_298_g2_one)) (mkc (1 : big6) (0 : big6) (0 : big6)).
Lemma mnt6_left_check : match mnt6_big_left with Some v => fe1 mnt6_big_gt (fpower (K := mnt6_big_gt) v mnt6_e) | None => false end = true.
Proof. vm_compute. reflexivity. Qed.
Definition mnt6_O1 : triple (Zp mnt6_p0) := tmap (A := big6) mnt6_h (mkT (0 : big6) (1 : big6) (0 : big6)).
Lemma mnt6_pair_left : mnt6_pair mnt6_O1 mnt6_one2 = option_map mnt6_h6 mnt6_big_left.
Proof. rewrite <- mnt6_one2_big. unfold mnt6_big_left, mnt6_O1. apply mnt6_pair_big. Qed.
Lemma mnt6_left_value : exists g, mnt6_pair mnt6_O1 mnt6_one2 = Some g /\
  fe1 (t6_Fp6 mnt6_tower) (fpower (K := t6_Fp6 mnt6_tower) g mnt6_e) = true.
Proof.
  rewrite mnt6_pair_left.
  assert (C := mnt6_left_check). destruct mnt6_big_left as [v|]; [|discriminate]. cbn [option_map]. eexists. split; [reflexivity|].
  refine (eq_trans (f_equal (fe1 _) (eq_sym (@hom_fpower mnt6_big_gt (t6_Fp6 mnt6_tower) mnt6_h6 (fh_hom _ _ _ mnt6_gt_fhom) v mnt6_e))) _).
  exact (fe1_map_true mnt6_big_gt (t6_Fp6 mnt6_tower) mnt6_h6 mnt6_gt_fhom (fpower (K := mnt6_big_gt) v mnt6_e) C).
Qed.
(** P = (0, sqrt b), Q = O: the last line, with the factor x_P - x_Q / twist, is 0 *)
Definition mnt6_y0 : Z := 0xd9f78c43b70a784b43408e738738ad49daa75a5115d76dff510ee6287061d410de0725a90b.
Definition mnt6_sw0 := mkSW mnt6_base_field_298_modulus mnt6_298_a mnt6_298_b [0; mnt6_y0]%Z mnt4_base_field_298_modulus.
Lemma mnt6_sw0_checked : sw_check mnt6_sw0 = true.
Proof. vm_compute. reflexivity. Qed.
Definition mnt6_big_P0 : triple big6 := mkT (0 : big6) (bigz mnt6_y0 : big6) (1 : big6).
Definition mnt6_big_right : option (quad (cub big6)) :=
  big_mnt6_pair mnt6_big_P0 (mkc (0 : big6) (0 : big6) (0 : big6)) (mkc (1 : big6) (0 : big6) (0 : big6)) (mkc (0 : big6) (0 : big6) (0 : big6)).
Lemma mnt6_right_check : match mnt6_big_right with Some v => @feqb mnt6_big_gt v (@f0 mnt6_big_gt) | None => false end = true.
Proof. vm_compute. reflexivity. Qed.
Definition mnt6_P0 : triple (Zp mnt6_p0) := tmap (A := big6) mnt6_h mnt6_big_P0.
Lemma mnt6_P0_eq : mnt6_P0 = mkT (0 : Zp mnt6_p0) (tozp mnt6_p0 mnt6_y0) 1.
Proof.
  unfold mnt6_P0, tmap, mnt6_big_P0. cbn [tX tY tZ].
  rewrite (hom_0 _ _ _ (fh_hom _ _ _ mnt6_fhom)), (hom_1 _ _ _ (fh_hom _ _ _ mnt6_fhom)), of_big_bigz by discriminate. reflexivity.
Qed.
Definition mnt6_O2 : triple (t6_Fp3 mnt6_tower) :=
  mkT (mnt6_h3 (mkc (0 : big6) (0 : big6) (0 : big6)) : t6_Fp3 mnt6_tower) (mnt6_h3 (mkc (1 : big6) (0 : big6) (0 : big6)) : t6_Fp3 mnt6_tower)
    (mnt6_h3 (mkc (0 : big6) (0 : big6) (0 : big6)) : t6_Fp3 mnt6_tower).
Lemma mnt6_pair_right : mnt6_pair mnt6_P0 mnt6_O2 = option_map mnt6_h6 mnt6_big_right.
Proof. unfold mnt6_big_right, mnt6_O2, mnt6_P0. apply mnt6_pair_big. Qed.
Lemma feqb0_map (A B : FieldOps) (h : A -> B) (H : FHom A B h) (R : RingLaws B) x : @feqb A x (@f0 A) = true -> h x = @f0 B.
Proof.
  intros C. assert (E := hom_eqb _ _ _ (fh_hom _ _ _ H) x 0). rewrite C, (hom_0 _ _ _ (fh_hom _ _ _ H)) in E. exact (feqb_true B R _ _ E).
Qed.
Lemma mnt6_right_O2 : mnt6_pair mnt6_P0 mnt6_O2 = Some (0 : t6_Fp6 mnt6_tower).
Proof.
  rewrite mnt6_pair_right. assert (C := mnt6_right_check). destruct mnt6_big_right as [v|]; [|discriminate]. cbn [option_map].
  exact (f_equal Some (feqb0_map mnt6_big_gt (t6_Fp6 mnt6_tower) mnt6_h6 mnt6_gt_fhom mnt6_G_ring v C)).
Qed.
Lemma mnt6_O2_rep : rep_projective (tX mnt6_O2) (tY mnt6_O2) (tZ mnt6_O2) (Inf : point (t6_Fp3 mnt6_tower)).
Proof. unfold mnt6_O2. cbn [rep_projective tX tZ]. vm_compute. split; reflexivity. Qed.
Lemma mnt6_pre2_inf tQ : rep_projective (tX tQ) (tY tQ) (tZ tQ) (Inf : point (t6_Fp3 mnt6_tower)) ->
  mnt6_precompute_g2 tQ = mnt6_precompute_g2 mnt6_O2.
Proof.
  intros T. unfold mnt6_precompute_g2, pr_precompute_g2.
  rewrite (proj2 (proj_inf (t6_Fp3 mnt6_tower) (FieldLaws_Ring _ mnt6_KF) 0 1 tQ T)).
  rewrite (proj2 (proj_inf (t6_Fp3 mnt6_tower) (FieldLaws_Ring _ mnt6_KF) 0 1 mnt6_O2 mnt6_O2_rep)). reflexivity.
Qed.
Lemma mnt6_pair_pre2 tP tQ tQ' : mnt6_precompute_g2 tQ = mnt6_precompute_g2 tQ' -> mnt6_pair tP tQ = mnt6_pair tP tQ'.
Proof. intros E. exact (f_equal (mnt6_miller_loop (mnt6_precompute_g1 tP)) E). Qed.
Lemma mnt6_right_zero tQ : rep_projective (tX tQ) (tY tQ) (tZ tQ) (Inf : point (t6_Fp3 mnt6_tower)) ->
  mnt6_pair mnt6_P0 tQ = Some (0 : t6_Fp6 mnt6_tower).
Proof. intros T. exact (eq_trans (mnt6_pair_pre2 mnt6_P0 tQ mnt6_O2 (mnt6_pre2_inf tQ T)) mnt6_right_O2). Qed.

(** ** edwards-183 *)
Lemma inv_inf (K : FieldOps) (R : RingLaws K) zx zy t : rep_inverted (iX t) (iY t) (iZ t) (te_zero : K * K) -> (1 : K) <> 0 ->
  inv_is_zero (K := K) t = true /\ inv_to_affine K zx zy t = mkE zx zy.
Proof.
  intros [(Y & Z & _)|(X & _ & Z & E & _)] N.
  - assert (J : inv_is_zero (K := K) t = true) by (unfold inv_is_zero; rewrite Y, Z, (feqb_refl K R); reflexivity).
    split; [exact J|]. unfold inv_to_affine. rewrite J. reflexivity.
  - exfalso. apply Z. rewrite E. cbn [te_zero fst]. apply (mul_0l K R).
Qed.
Lemma edwards_left std tP (Q : edK * edK) tQ : rep_inverted (iX tP) (iY tP) (iZ tP) (te_zero : edF * edF) ->
  Q <> te_zero -> edwards_in Q -> rep_inverted (iX tQ) (iY tQ) (iZ tQ) Q ->
  exists f, edwards_pair std tP tQ = Some f /\ killed edG edwards_e f.
Proof.
  intros Z NQ IQ TQ.
  destruct (inv_inf edF (FieldLaws_Ring _ edwards_K) 0 (zero_fill_y _ std) tP Z (F_1_neq_0 (FL_th _ edwards_K))) as [_ J].
  assert (E1 : edwards_precompute_g1 std tP = mkE1 (0 : edF) 0 (1 + zero_fill_y edF std)).
  { unfold edwards_precompute_g1. rewrite (J : inv_to_affine (Zp (t6_p edwards_tower)) 0 (zero_fill_y (Zp (t6_p edwards_tower)) std) tP = _).
    unfold ed_precompute_g1. cbn [eX eY]. reflexivity. }
  assert (k0 : inc3 edF nr3 (1 + zero_fill_y edF std) <> 0).
  { intros E. apply (f_equal (fun x : edK => zval (c0 x))) in E. destruct std; vm_compute in E; discriminate E. }
  unfold edwards_pair. rewrite E1, (edwards_pre2 tQ Q TQ). destruct Q as [xq yq]. cbn [fst snd].
  exact (edwards_left_gen edF nr3 edwards_K (Z.to_N edwards_p) edwards_FF3 edwards_KG edwards_e edwards_He edwards_n edwards_max_bits edwards_bits
    edwards_r edwards_nlt edwards_d edwards_two edwards_three edwards_cmp edwards_r_odd edwards_r_prime xq yq IQ NQ (1 + zero_fill_y edF std) k0).
Qed.
Lemma edwards_prefix : prefix 3 edwards_n = true.
Proof. vm_compute. reflexivity. Qed.
Lemma edwards_right std tP tQ : rep_inverted (iX tQ) (iY tQ) (iZ tQ) (te_zero : edK * edK) -> edwards_pair std tP tQ = Some (0 : edG).
Proof.
  intros Z. unfold edwards_pair. rewrite (edwards_pre2 tQ te_zero Z).
  exact (edwards_right_gen edF nr3 edwards_K (Z.to_N edwards_p) edwards_FF3 edwards_KG edwards_n edwards_max_bits edwards_bits
    (edwards_precompute_g1 std tP) edwards_prefix).
Qed.
Lemma edwards_final_zero find_wnaf : wnaf_contract find_wnaf -> edwards_183_final_exponentiation find_wnaf (0 : edG) = 0.
Proof.
  intros W. assert (R := FieldLaws_Ring edG edwards_KG).
  exact (mnt6_zero edG R _ _ edwards_w1 edwards_w0 edwards_w0_neg (inv6_0 edF nr3 edwards_K) (frob6_0 edF nr3 edwards_K _ _ _)
    (cexp6_0 edF nr3 edwards_K R find_wnaf edwards_w1 W ltac:(discriminate))).
Qed.
