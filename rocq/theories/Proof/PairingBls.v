(** The bls12-381 pairing. *)
From Coq Require Import ZArith NArith List Bool Lia Ring Field Znumtheory.
From Verif Require Import Base.Field Base.Zp Base.Ext Base.Hom Spec.Group Spec.Weierstrass Spec.Pairing Spec.AtePairing Model.Power Model.Fp2 Model.Fp6_3over2
  Model.Fp12 Model.ShortWeierstrass Model.FieldParams Model.Shipped Model.CurveParams Model.Generators Model.FinalExp Model.Pairing
  Proof.ExtTheory Proof.Towers Proof.FiniteField Proof.Shipped Proof.ShippedTowers Proof.PrimesPairing Proof.PrimesMisc
  Proof.Instances Proof.Generators Proof.Marshalling Proof.Bls381
  Proof.WeierstrassCoords Proof.WeierstrassGroup Proof.WeierstrassRep Proof.PairingCore Proof.PairingMiller Proof.PairingA40.
Import ListNotations.
Local Open Scope fld_scope.

Section HomPow.
  Variables (A B : FieldOps) (RA : RingLaws A) (RB : RingLaws B) (h : A -> B) (H : Hom A B h).
  Lemma hom_fpow x e : h (fpow x e) = fpow (h x) e.
  Proof.
    induction e as [|e IH] using N.peano_ind; [apply (hom_1 _ _ _ H)|].
    rewrite !fpow_succ, (hom_mul _ _ _ H), IH. reflexivity.
  Qed.
End HomPow.

Section HomKilled.
  Variables (A B : FieldOps) (KA : FieldLaws A) (KB : FieldLaws B) (h : A -> B) (H : Hom A B h).
  Variables (p d : N) (FF : FinField A p d) (e : N).
  Hypothesis He : ((p ^ d - 1) * (e / (p ^ d - 1)) = e)%N.
  Lemma killed_hom x : x <> 0 -> killed B e (h x).
  Proof.
    intros N. split; [apply (emb_neq0 A B KA KB h H), N|].
    assert (RA := FieldLaws_Ring A KA). assert (RB := FieldLaws_Ring B KB).
    rewrite <- (hom_fpow A B h H), <- He, (fpow_mul A RA), (FF_fermat A p d FF x N), (fpow_one A RA). apply (hom_1 _ _ _ H).
  Qed.
End HomKilled.

Section F12emb.
  Variable F : FieldOps.
  Variable Fsqr : F -> F.
  Variable xi : F.
  Hypothesis KF : FieldLaws F.
  Let R := FieldLaws_Ring F KF.
  Add Field F12emb : (FL_th F KF).
  Hypothesis Hsqr : forall x, Fsqr x = x * x.
  Local Notation G6 := (Fp6 F Fsqr xi).
  Local Notation G := (Fp12 F Fsqr xi xi).
  Hypothesis KG6 : FieldLaws G6.
  Hypothesis KG : FieldLaws G.
  Local Notation emb12 := (Spec.Pairing.emb12 F Fsqr xi).
  Local Notation w12 := (Spec.Pairing.w12 F Fsqr xi).
  Definition emb12_6 (x : G6) : G := mkq x (mkc 0 0 0 : cub F).
  Ltac go12 := unfold Spec.Pairing.emb12, emb12_6, Spec.Pairing.w12; cbn; unfold fp12_add, fp12_sub, fp12_neg, fp12_sub, fp12_zero, fp12_one, fp12_mul, fp12_mbnr; cbn;
    unfold fp6_zero, fp6_one, fp6_neg, fp6_sub, fp6_add, fp6_mul, fp6_mbnr; cbn.
  Lemma emb12_hom : Hom F G emb12.
  Proof.
    constructor; try reflexivity; intros; try (go12; f_equal; f_equal; ring).
    assert (Z := FieldLaws_Ring G KG).
    destruct (feqb_spec F R x y) as [->|N]; [apply (feqb_refl G Z)|]. apply (feqb_false G Z). intros E. apply N.
    exact (f_equal (fun q => c0 (q0 q)) E).
  Qed.
  Lemma emb12_6_hom : Hom G6 G emb12_6.
  Proof.
    assert (Z6 := FieldLaws_Ring G6 KG6). assert (Z := FieldLaws_Ring G KG).
    constructor; try reflexivity; intros; try (destruct x as [x0 x1 x2]; try destruct y as [y0 y1 y2]; go12; f_equal; f_equal; ring).
    destruct (feqb_spec G6 Z6 x y) as [->|N]; [apply (feqb_refl G Z)|]. apply (feqb_false G Z). intros E. apply N.
    exact (f_equal (fun q => q0 q) E).
  Qed.
  Lemma mul_w12 (a b c d e f : F) : (mkq (mkc a b c) (mkc d e f) : G) * w12 = mkq (mkc (xi * f) d e) (mkc a b c).
  Proof. go12. f_equal; f_equal; ring. Qed.
  Lemma w12_2 : w12 * w12 = mkq (mkc 0 1 0) (mkc 0 0 0).
  Proof. unfold Spec.Pairing.w12 at 1. rewrite mul_w12. f_equal; f_equal; ring. Qed.
  Lemma w12_3 : w12 * w12 * w12 = mkq (mkc 0 0 0) (mkc 0 1 0).
  Proof. rewrite w12_2, mul_w12. f_equal; f_equal; ring. Qed.
  Lemma w12_5 : w12 * w12 * w12 * w12 * w12 = mkq (mkc 0 0 0) (mkc 0 0 1).
  Proof. rewrite w12_3, !mul_w12. f_equal; f_equal; ring. Qed.
  Lemma w12_6 : emb12 xi = w12 * w12 * w12 * w12 * w12 * w12.
  Proof. rewrite w12_5, mul_w12. unfold Spec.Pairing.emb12. f_equal; f_equal; ring. Qed.
  Lemma w12_0 : w12 <> 0.
  Proof. intros E. apply (f_equal (fun q => c0 (q1 q))) in E. cbn in E. exact (F_1_neq_0 (FL_th F KF) E). Qed.
  Lemma slots_eq u v t : slots F G emb12 w12 u v t = mkq (mkc u 0 0) (mkc 0 v t).
  Proof. unfold slots. rewrite w12_5, w12_3. go12. f_equal; f_equal; ring. Qed.
  Lemma slots_neq u v t : u <> 0 -> slots F G emb12 w12 u v t <> 0.
  Proof. rewrite slots_eq. intros N E. apply N. exact (f_equal (fun q => c0 (q0 q)) E). Qed.
  Lemma slots_045 f x0 xVW xVV : fp12_mul_by_045 F Fsqr xi xi f x0 xVW xVV = (f : G) * slots F G emb12 w12 xVW x0 xVV.
  Proof. rewrite slots_eq. apply (fp12_mul_by_045_eq F Fsqr xi R). Qed.
  Lemma vertical12 x y xp yp : xi <> 0 ->
    vertical G (untwist emb12 w12 (Aff x y)) (Aff (emb12 xp) yp) = emb12_6 (mkc xp 0 (- (x / xi))).
  Proof.
    intros X. cbn [untwist vertical].
    assert (E : emb12 x = emb12_6 (mkc 0 0 (x / xi)) * (w12 * w12)).
    { rewrite w12_2. go12. f_equal; f_equal; field; exact X. }
    assert (W2 : w12 * w12 <> 0) by (apply (fmul_neq_0 G KG); apply w12_0).
    rewrite E. replace (fdiv (emb12_6 (mkc 0 0 (x / xi)) * (w12 * w12)) (w12 * w12)) with (emb12_6 (mkc 0 0 (x / xi))).
    - go12. f_equal; f_equal; ring.
    - unfold fdiv. assert (I := finv_r G KG _ W2).
      rewrite <- (Rmul_assoc (RL_th G (FieldLaws_Ring G KG))). rewrite I.
      rewrite (Rmul_comm (RL_th G (FieldLaws_Ring G KG))). symmetry. apply (Rmul_1_l (RL_th G (FieldLaws_Ring G KG))).
  Qed.
  Lemma inv12_0 : (finv (0 : G)) = 0.
  Proof.
    cbn. unfold fp12_inv, fp12_zero. cbn. set (t := fp6_inv _ _ _ _). destruct t as [t0 t1 t2].
    go12. f_equal; f_equal; ring.
  Qed.
End F12emb.

Lemma quad_ext {A : Type} (x y : quad A) : q0 x = q0 y -> q1 x = q1 y -> x = y.
Proof. destruct x, y; cbn; intros -> ->; reflexivity. Qed.
Section Inc2.
  Variable K : FieldOps.
  Variable nr : K.
  Hypothesis KK : FieldLaws K.
  Hypothesis KF : FieldLaws (Fp2 K nr).
  Add Ring Kinc2 : (RL_th K (FieldLaws_Ring K KK)).
  Local Notation inc2 := (Spec.Pairing.inc2 K nr).
  Lemma inc2_hom : Hom K (Fp2 K nr) inc2.
  Proof.
    assert (R := FieldLaws_Ring K KK). assert (R2 := FieldLaws_Ring _ KF).
    constructor; try reflexivity; intros; try (apply quad_ext; cbn; ring).
    destruct (feqb_spec K R x y) as [->|N]; [apply (feqb_refl _ R2)|]. apply (feqb_false _ R2). intros E. apply N.
    exact (f_equal (fun q => q0 q) E).
  Qed.
  Lemma inc2_smul k x : fp2_smul K k x = inc2 k * (x : Fp2 K nr).
  Proof. apply quad_ext; cbn; ring. Qed.
End Inc2.

(** points with x = 0 on y^2 = x^3 + b have order three *)
Section Order3.
  Variable K : FieldOps.
  Hypothesis KL : FieldLaws K.
  Hypothesis two : (2 : K) <> 0.
  Variable b : K.
  Hypothesis NS : nonsingular K 0 b.
  Let R := FieldLaws_Ring K KL.
  Add Field Ko3 : (FL_th K KL).
  Lemma order3_x y r : on_curve K 0 b (Aff 0 y) -> y <> 0 -> prime (Z.of_N r) -> (3 < r)%N ->
    ec_mul K 0 (N.to_nat r) (Aff 0 y) <> Inf.
  Proof.
    intros O Y PR R3 E. assert (Z : (Aff 0 y : point K) = Inf); [|discriminate Z].
    apply (prime_order (sw_group K KL two 0 b NS) r (Aff 0 y) 3 PR O); [|lia|].
    - transitivity (ec_mul K 0 (N.to_nat r) (Aff 0 y)); [apply (sw_gmul K KL two 0 b NS)|exact E].
    - change (ec_add K 0 (Aff 0 y) (ec_add K 0 (Aff 0 y) (Aff 0 y)) = Inf).
      rewrite (ec_tangent K KL two 0 0 y Y). unfold ec_line.
      assert (L : fdiv (3 * (0 * 0) + 0) (2 * y) = 0) by (field; auto). rewrite L.
      replace (0 * 0 - 0 - 0) with (0 : K) by ring. replace (0 * (0 - 0) - y) with (- y) by ring.
      apply (ec_add_opp_r K KL).
  Qed.
End Order3.

Section Bls.
  Variable K : FieldOps.
  Variable nr : K.
  Local Notation F := (Fp2 K nr).
  Local Notation Fsqr := (fp2_sqr K nr).
  Variable xi : F.
  Local Notation G6 := (Fp6 F Fsqr xi).
  Local Notation G := (Fp12 F Fsqr xi xi).
  Hypothesis KK : FieldLaws K.
  Variable p : N.
  Hypothesis FF2 : FinField F p 2.
  Hypothesis FF6 : FinField G6 p 6.
  Hypothesis FF12 : FinField G p 12.
  Let KF := FF_field _ _ _ FF2.
  Let KG6 := FF_field _ _ _ FF6.
  Let KG := FF_field _ _ _ FF12.
  Variable e : N.
  Hypothesis He2 : ((p ^ 2 - 1) * (e / (p ^ 2 - 1)) = e)%N.
  Hypothesis He6 : ((p ^ 6 - 1) * (e / (p ^ 6 - 1)) = e)%N.
  Hypothesis two : (2 : F) <> 0.
  Hypothesis xi0 : xi <> 0.
  Variable b' : F.
  Hypothesis NS : nonsingular F 0 b'.
  Variable n : positive.
  Variable loop_neg : bool.
  Variable max_bits : nat.
  Hypothesis Hbits : (N.size (Npos n) <= N.of_nat (S max_bits))%N.
  Variable r : N.
  Hypothesis Pr : prime (Z.of_N r).
  Hypothesis nr_lt : (Npos n < r)%N.
  Local Notation emb := (emb12 F Fsqr xi).
  Local Notation w := (w12 F Fsqr xi).
  Local Notation sq := (fp12_sqr F Fsqr xi xi).
  Local Notation m045 := (fp12_mul_by_045 F Fsqr xi xi).
  Lemma bls_sqr (x : F) : Fsqr x = x * x.
  Proof. apply (fp2_sqr_eq K nr (FieldLaws_Ring K KK)). Qed.
  Lemma bls_main_gen xp yp xq yq : xp <> 0 -> yp <> 0 ->
    on_curve F 0 b' (Aff xq yq) -> ec_mul F 0 (N.to_nat r) (Aff xq yq) = Inf ->
    forall zx2 zy2 t, jac_to_affine F zx2 zy2 t = mkA xq yq ->
    let Q2 := a40_precompute_g2 K F (fp2_smul K) xi b' (Npos n) max_bits zx2 zy2 t in
    exists x y f g, ec_mul F 0 (Pos.to_nat n) (Aff xq yq) = Aff x y /\
      hrep F (fst (a40_g2_loop K F (fp2_smul K) xi b' (Npos n) max_bits (mkA xq yq) (finv (fofZ 2)) (mkT xq yq 1, []))) x y /\
      a40_miller_state K F G (fp2_smul K) sq m045 (Npos n) max_bits (mkP1 xp yp) Q2 = Some (f, length (coeffs Q2)) /\
      a40_miller_loop K F G (fp2_smul K) sq m045 (Npos n) loop_neg max_bits (mkP1 xp yp) Q2 = Some g /\ g <> 0 /\
      (loop_neg = true -> fpow g e = fpow (miller_fun_neg G 0 n (untwist emb w (Aff xq yq))
        (Aff (emb (inc2 K nr xp)) (emb (inc2 K nr yp)))) e).
  Proof.
    intros X Y O QR zx2 zy2 t T Q2.
    assert (HI := inc2_hom K nr KK KF). assert (HE := emb12_hom F Fsqr xi KF KG). assert (HE6 := emb12_6_hom F Fsqr xi KF KG6 KG).
    assert (HK : forall c : F, c <> 0 -> killed G e (emb c)) by (apply (killed_hom F G KF KG emb HE p 2 FF2 e He2)).
    assert (HV : forall x y, on_curve F 0 b' (Aff x y) ->
      killed G e (vertical G (untwist emb w (Aff x y)) (Aff (emb (inc2 K nr xp)) (emb (inc2 K nr yp))))).
    { intros x y _. rewrite (vertical12 F Fsqr xi KF KG x y _ _ xi0).
      apply (killed_hom G6 G KG6 KG _ HE6 p 6 FF6 e He6). intros Z. apply X.
      exact (f_equal (fun c => q0 (c0 c)) Z). }
    assert (EQ : Q2 = _) by (exact (a40_precompute_g2_eq K F (fp2_smul K) xi b' n max_bits Hbits zx2 zy2 xq yq t T)).
    clearbody Q2. subst Q2.
    destruct (a40_miller_main K F G KK KF KG (fp2_smul K) (inc2 K nr) HI (inc2_smul K nr KK) sq (fun f => eq_refl)
      emb HE w (w12_0 F Fsqr xi KF) m045 (slots_045 F Fsqr xi KF) (slots_neq F Fsqr xi KF) xi b'
      (w12_6 F Fsqr xi KF) two n max_bits Hbits e HK xp yp Y NS r Pr nr_lt xq yq O QR HV)
      as (x & y & f & E1 & O1 & H1 & S1 & _).
    destruct (a40_miller_pow K F G KK KF KG (fp2_smul K) (inc2 K nr) HI (inc2_smul K nr KK) sq (fun f => eq_refl)
      emb HE w (w12_0 F Fsqr xi KF) m045 (slots_045 F Fsqr xi KF) (slots_neq F Fsqr xi KF) xi b'
      (w12_6 F Fsqr xi KF) two n loop_neg max_bits Hbits e HK xp yp Y NS r Pr nr_lt xq yq O QR HV)
      as (g & S2 & G0 & P2).
    assert (P3 : loop_neg = true -> fpow g e = fpow (miller_fun_neg G 0 n (untwist emb w (Aff xq yq))
      (Aff (emb (inc2 K nr xp)) (emb (inc2 K nr yp)))) e) by (intros L; rewrite L in P2; exact P2).
    exists x, y, f, g. exact (conj E1 (conj H1 (conj S1 (conj S2 (conj G0 P3))))).
  Qed.
End Bls.

(** ** the shipped instance *)
Lemma bls_loop : bls12_381_ate_loop_count = Npos bls_n.
Proof. reflexivity. Qed.
Lemma bls_r_prime : prime (Z.of_N bls_r).
Proof. exact prime_bls12_scalar_field_381. Qed.
Lemma bls_e2 : ((Z.to_N bls_p ^ 2 - 1) * (bls_e / (Z.to_N bls_p ^ 2 - 1)) = bls_e)%N.
Proof. vm_compute. reflexivity. Qed.
Lemma bls_e6 : ((Z.to_N bls_p ^ 6 - 1) * (bls_e / (Z.to_N bls_p ^ 6 - 1)) = bls_e)%N.
Proof. vm_compute. reflexivity. Qed.
Definition bls_gen := bls_main_gen (Zp bls_p) (tozp bls_p bls_nr) (lit2 bls_p (t12_xi6 bls_t)) bls_K1 (Z.to_N bls_p)
  (proj1 (t12_fields _ bls381_p_prime bls381_field_check))
  (proj1 (proj2 (t12_fields _ bls381_p_prime bls381_field_check)))
  (proj2 (proj2 (t12_fields _ bls381_p_prime bls381_field_check))) bls_e bls_e2 bls_e6.
Lemma bls_ok_g2 : ok_g2 (t12_Fp2 bls_t) 0 bls12_381_g2_b (lits2 (t12_p bls_t) bls12_381_g2_one) bls12_scalar_field_381_modulus.
Proof. exact (t12_g2_mul_sound _ bls381_p_prime bls381_field_check _ _ _ _ bls12_381_g2_check). Qed.
Lemma bls_two2 : (2 : t12_Fp2 bls_t) <> 0.
Proof. exact (proj1 (proj2 (proj2 (proj2 bls_ok_g2)))). Qed.
Lemma bls_xi0 : (lit2 bls_p (t12_xi6 bls_t) : t12_Fp2 bls_t) <> 0.
Proof. intros E. apply (f_equal (fun x => zval (q0 x))) in E. vm_compute in E. discriminate E. Qed.
Lemma bls_two1 : (2 : Zp bls_p) <> 0.
Proof. intros E. apply (f_equal (@zval _)) in E. vm_compute in E. discriminate E. Qed.
Lemma bls_bits : (N.size (Npos bls_n) <= N.of_nat (S bls12_381_max_bits))%N.
Proof. vm_compute. discriminate. Qed.
Lemma bls_nlt : (Npos bls_n < bls_r)%N.
Proof. reflexivity. Qed.
Lemma bls_3lt : (3 < bls_r)%N.
Proof. reflexivity. Qed.
Lemma bls_ns1 : nonsingular (Zp bls_p) 0 bls_b1.
Proof. exact (proj1 (sw_check_sound bls_small1 bls381_p_prime bls_small1_check)). Qed.
Definition bls_gen2 := bls_gen bls_two2 bls_xi0 bls12_381_g2_b (proj1 bls_ok_g2) bls_n bls12_381_ate_is_loop_count_neg bls12_381_max_bits
  bls_bits bls_r bls_r_prime bls_nlt.
(** points of the prime-order subgroup of G1 have x, y <> 0 *)
Lemma bls_g1_nonzero xp yp : on_curve (Zp bls_p) 0 bls_b1 (Aff xp yp) -> ec_mul (Zp bls_p) 0 (N.to_nat bls_r) (Aff xp yp) = Inf ->
  xp <> 0 /\ yp <> 0.
Proof.
  intros O E. assert (Y : yp <> 0).
  { intros ->. apply (bls_no2_g1 xp). apply (on0 (Zp bls_p) bls_K1) in O. rewrite <- O. apply (zero_sqr (Zp bls_p) bls_K1). }
  split; [|exact Y]. intros ->. exact (order3_x (Zp bls_p) bls_K1 bls_two1 bls_b1 bls_ns1 yp bls_r O Y bls_r_prime bls_3lt E).
Qed.
Lemma bls_miller std xp yp xq yq tP tQ :
  on_curve (Zp bls_p) 0 bls_b1 (Aff xp yp) -> ec_mul (Zp bls_p) 0 (N.to_nat bls_r) (Aff xp yp) = Inf ->
  on_curve (t12_Fp2 bls_t) 0 bls12_381_g2_b (Aff xq yq) -> ec_mul (t12_Fp2 bls_t) 0 (N.to_nat bls_r) (Aff xq yq) = Inf ->
  rep_jacobian (tX tP) (tY tP) (tZ tP) (Aff xp yp) -> rep_jacobian (tX tQ) (tY tQ) (tZ tQ) (Aff xq yq) ->
  exists g, bls12_381_pair std tP tQ = Some g /\ g <> 0 /\
    fpow g bls_e = fpow (miller_fun_neg (t12_Fp12 bls_t) 0 bls_n (untwist bls_emb bls_w (Aff xq yq))
      (Aff (bls_emb (bls_inc xp)) (bls_emb (bls_inc yp)))) bls_e.
Proof.
  intros OP RP OQ RQ TP TQ. destruct (bls_g1_nonzero xp yp OP RP) as [X Y].
  destruct (jac_affine (Zp bls_p) bls_K1 0 (zero_fill_y _ std) tP xp yp TP) as [AP ZP].
  destruct (jac_affine (t12_Fp2 bls_t) bls_K2 0 (zero_fill_y _ std) tQ xq yq TQ) as [AQ _].
  destruct (bls_gen2 xp yp xq yq X Y OQ RQ 0 (zero_fill_y _ std) tQ AQ) as (x & y & f & g & _ & _ & _ & E & G0 & V).
  exists g. split; [|split; [exact G0|exact (V eq_refl)]].
  unfold bls12_381_pair, bls12_381_precompute_g1, a40_precompute_g1.
  assert (ZP' : jac_is_zero (Zp (t12_p bls_t)) tP = false) by exact ZP. rewrite ZP'.
  assert (AP' : jac_to_affine (Zp (t12_p bls_t)) 0 (zero_fill_y (Zp (t12_p bls_t)) std) tP = mkA xp yp) by exact AP.
  rewrite AP'. exact E.
Qed.
