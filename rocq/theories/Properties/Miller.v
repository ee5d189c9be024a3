(** C47: the Miller loops of bls12-381, mnt4-298 and mnt6-298. *)
From Coq Require Import ZArith NArith List Bool Lia Znumtheory Ring Field_theory.
From Verif Require Import Base.Field Base.Zp Base.Ext Spec.Weierstrass Spec.Pairing Spec.AtePairing
  Model.FieldParams Model.Shipped Model.CurveParams Model.Generators Model.ShortWeierstrass Model.Wnaf Model.FinalExp Model.Pairing
  Proof.FiniteField Proof.Bls381 Proof.Marshalling Proof.PairingCore Proof.PairingMiller Proof.PairingA40 Proof.PairingBls Proof.PairingProj Proof.PairingMnt Proof.PairingShip Proof.PairingFinal
  Properties.Pairing.
Import ListNotations.
Local Open Scope fld_scope.

Lemma bls_running std P Q tP tQ : bls_g1 P tP -> bls_g2 Q tQ ->
  exists xq yq x y f, Q = Aff xq yq /\ ec_mul (t12_Fp2 bls_t) 0 (Pos.to_nat bls_n) Q = Aff x y /\
    hrep (t12_Fp2 bls_t) (fst (a40_g2_loop (Zp bls_p) (t12_Fp2 bls_t) bls12_381_smul bls12_381_twist bls12_381_g2_b bls12_381_ate_loop_count
      bls12_381_max_bits (mkA xq yq) (finv (fofZ 2)) (mkT xq yq 1, []))) x y /\
    a40_miller_state (Zp bls_p) (t12_Fp2 bls_t) (t12_Fp12 bls_t) bls12_381_smul bls12_381_squared bls12_381_mul_by_045 bls12_381_ate_loop_count
      bls12_381_max_bits (bls12_381_precompute_g1 std tP) (bls12_381_precompute_g2 std tQ) = Some (f, length (coeffs (bls12_381_precompute_g2 std tQ))).
Proof.
  intros (NP & OP & RP & TP) (NQ & OQ & RQ & TQ). destruct P as [|xp yp]; [congruence|]. destruct Q as [|xq yq]; [congruence|].
  destruct (bls_g1_nonzero xp yp OP RP) as [X Y].
  destruct (jac_affine (Zp bls_p) bls_K1 0 (zero_fill_y _ std) tP xp yp TP) as [AP ZP].
  destruct (jac_affine (t12_Fp2 bls_t) bls_K2 0 (zero_fill_y _ std) tQ xq yq TQ) as [AQ _].
  destruct (bls_gen2 xp yp xq yq X Y OQ RQ 0 (zero_fill_y _ std) tQ AQ) as (x & y & f & g & M & R & S & _).
  exists xq, yq, x, y, f. split; [reflexivity|]. split; [exact M|]. split; [exact R|].
  unfold bls12_381_precompute_g1, a40_precompute_g1.
  assert (ZP' : jac_is_zero (Zp (t12_p bls_t)) tP = false) by exact ZP. rewrite ZP'.
  assert (AP' : jac_to_affine (Zp (t12_p bls_t)) 0 (zero_fill_y (Zp (t12_p bls_t)) std) tP = mkA xp yp) by exact AP.
  rewrite AP'. exact S.
Qed.
Lemma mnt4_running std P Q tP tQ : mnt4_g1 P tP -> mnt4_g2 Q tQ ->
  exists xq yq x y f, Q = Aff xq yq /\ ec_mul (t4_Fp2 mnt4_tower) mnt4_g2_a (Pos.to_nat mnt_n) Q = Aff x y /\
    jrep (t4_Fp2 mnt4_tower) (fst (fst (pr_g2_loop (Zp mnt4_p) (t4_Fp2 mnt4_tower) mnt4_smul mnt4_g2_a mnt4_ate_loop_count mnt_max_bits
      xq yq (yq * yq) (mkXP xq yq 1 1, [], [])))) x y /\
    pr_miller_end (Zp mnt4_p) (t4_Fp2 mnt4_tower) (t4_Fp4 mnt4_tower) mnt4_of_base mnt4_gt mnt4_squared mnt4_ate_loop_count mnt4_ate_is_loop_count_neg mnt_max_bits
      (pr_g_RR (Zp mnt4_p) (t4_Fp2 mnt4_tower) (t4_Fp4 mnt4_tower) mnt4_gt) (mnt4_precompute_g1 std tP) (mnt4_precompute_g2 std tQ) =
      Some (f, length (dbls (mnt4_precompute_g2 std tQ)), length (adds (mnt4_precompute_g2 std tQ))).
Proof.
  intros (NP & OP & RP & TP) (NQ & OQ & RQ & TQ). destruct P as [|xp yp]; [congruence|]. destruct Q as [|xq yq]; [congruence|].
  destruct (mnt4_gen 0 (zero_fill_y _ std) 0 (zero_fill_y _ std) tP tQ xp yp xq yq OP RP OQ RQ TP TQ) as (x & y & f & M & R & E & _).
  exists xq, yq, x, y, f. exact (conj eq_refl (conj M (conj R E))).
Qed.
Lemma mnt6_running P Q tP tQ : mnt6_g1 P tP -> mnt6_g2 Q tQ ->
  exists xq yq x y f, Q = Aff xq yq /\ ec_mul (t6_Fp3 mnt6_tower) mnt6_g2_a (Pos.to_nat mnt_n) Q = Aff x y /\
    jrep (t6_Fp3 mnt6_tower) (fst (fst (pr_g2_loop (Zp mnt6_p) (t6_Fp3 mnt6_tower) mnt6_smul mnt6_g2_a mnt6_ate_loop_count mnt_max_bits
      xq yq (yq * yq) (mkXP xq yq 1 1, [], [])))) x y /\
    pr_miller_end (Zp mnt6_p) (t6_Fp3 mnt6_tower) (t6_Fp6 mnt6_tower) mnt6_of_base mnt6_gt mnt6_squared mnt6_ate_loop_count mnt6_ate_is_loop_count_neg mnt_max_bits
      (pr_g_RR' (Zp mnt6_p) (t6_Fp3 mnt6_tower) (t6_Fp6 mnt6_tower) mnt6_gt) (mnt6_precompute_g1 tP) (mnt6_precompute_g2 tQ) =
      Some (f, length (dbls (mnt6_precompute_g2 tQ)), length (adds (mnt6_precompute_g2 tQ))).
Proof.
  intros (NP & OP & RP & TP) (NQ & OQ & RQ & TQ). destruct P as [|xp yp]; [congruence|]. destruct Q as [|xq yq]; [congruence|].
  destruct (mnt6_gen 0 1 0 1 tP tQ xp yp xq yq OP RP OQ RQ TP TQ) as (x & y & f & M & R & E & _).
  exists xq, yq, x, y, f. exact (conj eq_refl (conj M (conj R E))).
Qed.
(** homogeneous coordinates with Z <> 0 (jacobian_with_a4_0 uses them inside the loop) and
    Jacobian coordinates with T = Z^2 (the projective variant) *)
Definition rep_homogeneous {F : FieldOps} (R : triple F) (x y : F) : Prop := tZ R <> 0 /\ tX R = x * tZ R /\ tY R = y * tZ R.
Definition rep_ext_jacobian {F : FieldOps} (R : ext_proj F) (x y : F) : Prop :=
  pZ R <> 0 /\ pT R = pZ R * pZ R /\ pX R = x * (pZ R * pZ R) /\ pY R = y * (pZ R * pZ R * pZ R).
(** one doubling: the point is doubled, and multiplying the accumulator by the produced
    coefficients multiplies it by the tangent at the untwisted point, up to a factor of the
    g2 field (which the final exponentiation removes) *)
Theorem C47_bls12_381_doubling_step R x y xp yp f : rep_homogeneous R x y -> on_curve (t12_Fp2 bls_t) 0 bls12_381_g2_b (Aff x y) -> y <> 0 ->
  exists x3 y3 u, ec_add (t12_Fp2 bls_t) 0 (Aff x y) (Aff x y) = Aff x3 y3 /\
    let step := a40_doubling_step (Zp bls_p) (t12_Fp2 bls_t) bls12_381_smul bls12_381_twist bls12_381_g2_b (finv (fofZ 2)) R in
    rep_homogeneous (fst step) x3 y3 /\ u <> 0 /\
    a40_line (Zp bls_p) (t12_Fp2 bls_t) (t12_Fp12 bls_t) bls12_381_smul bls12_381_mul_by_045 (mkP1 xp yp) (snd step) f =
      f * (line (t12_Fp12 bls_t) 0 (untwist bls_emb bls_w (Aff x y)) (untwist bls_emb bls_w (Aff x y))
             (Aff (bls_emb (bls_inc xp)) (bls_emb (bls_inc yp))) * bls_emb u).
Proof. exact (bls_steps_dbl R x y xp yp f). Qed.
Print Assumptions C47_bls12_381_doubling_step.

(** one mixed addition of the affine point (x2, y2): chord instead of tangent *)
Theorem C47_bls12_381_addition_step R x y x2 y2 xp yp f : rep_homogeneous R x y -> x <> x2 ->
  exists x3 y3 u, ec_add (t12_Fp2 bls_t) 0 (Aff x y) (Aff x2 y2) = Aff x3 y3 /\
    let step := a40_mixed_addition_step (t12_Fp2 bls_t) bls12_381_twist (mkA x2 y2) R in
    rep_homogeneous (fst step) x3 y3 /\ u <> 0 /\
    a40_line (Zp bls_p) (t12_Fp2 bls_t) (t12_Fp12 bls_t) bls12_381_smul bls12_381_mul_by_045 (mkP1 xp yp) (snd step) f =
      f * (line (t12_Fp12 bls_t) 0 (untwist bls_emb bls_w (Aff x y)) (untwist bls_emb bls_w (Aff x2 y2))
             (Aff (bls_emb (bls_inc xp)) (bls_emb (bls_inc yp))) * bls_emb u).
Proof. exact (bls_steps_add R x y x2 y2 xp yp f). Qed.
Print Assumptions C47_bls12_381_addition_step.
(** on points of order r the loop ends at [n]Q and miller_loop reads exactly the coefficients
    that precompute_g2 wrote (never one past the end) *)
Theorem C47_bls12_381_running_point std P Q tP tQ : bls_g1 P tP -> bls_g2 Q tQ ->
  exists xq yq x y f, Q = Aff xq yq /\ ec_mul (t12_Fp2 bls_t) 0 (Pos.to_nat bls_n) Q = Aff x y /\
    rep_homogeneous (fst (a40_g2_loop (Zp bls_p) (t12_Fp2 bls_t) bls12_381_smul bls12_381_twist bls12_381_g2_b bls12_381_ate_loop_count
      bls12_381_max_bits (mkA xq yq) (finv (fofZ 2)) (mkT xq yq 1, []))) x y /\
    a40_miller_state (Zp bls_p) (t12_Fp2 bls_t) (t12_Fp12 bls_t) bls12_381_smul bls12_381_squared bls12_381_mul_by_045 bls12_381_ate_loop_count
      bls12_381_max_bits (bls12_381_precompute_g1 std tP) (bls12_381_precompute_g2 std tQ) = Some (f, length (coeffs (bls12_381_precompute_g2 std tQ))).
Proof. exact (bls_running std P Q tP tQ). Qed.
Print Assumptions C47_bls12_381_running_point.
(** the double loop is the product of two single loops, for any stored points *)
Theorem C47_bls12_381_double_miller_loop std P1 P2 tQ1 tQ2 : exists f1 f2,
  bls12_381_miller_loop P1 (bls12_381_precompute_g2 std tQ1) = Some f1 /\
  bls12_381_miller_loop P2 (bls12_381_precompute_g2 std tQ2) = Some f2 /\
  bls12_381_double_miller_loop P1 (bls12_381_precompute_g2 std tQ1) P2 (bls12_381_precompute_g2 std tQ2) = Some (f1 * f2).
Proof. exact (bls_steps_double P1 P2 0 (zero_fill_y _ std) tQ1 tQ2). Qed.
Print Assumptions C47_bls12_381_double_miller_loop.

(** mnt4-298 *)
Theorem C47_mnt4_doubling_step std R x y xp yp tP : rep_ext_jacobian R x y -> y <> 0 -> rep_projective (tX tP) (tY tP) (tZ tP) (Aff xp yp) ->
  exists x3 y3 u, ec_add (t4_Fp2 mnt4_tower) mnt4_g2_a (Aff x y) (Aff x y) = Aff x3 y3 /\
    let step := pr_doubling_step (Zp mnt4_p) (t4_Fp2 mnt4_tower) mnt4_smul mnt4_g2_a R in
    rep_ext_jacobian (fst step) x3 y3 /\ u <> 0 /\
    pr_g_RR (Zp mnt4_p) (t4_Fp2 mnt4_tower) (t4_Fp4 mnt4_tower) mnt4_gt (mnt4_precompute_g1 std tP) (snd step) =
      line (t4_Fp4 mnt4_tower) (mnt4_emb (mnt4_inc mnt4_a)) (untwist mnt4_emb mnt4_wt (Aff x y)) (untwist mnt4_emb mnt4_wt (Aff x y))
        (Aff (mnt4_emb (mnt4_inc xp)) (mnt4_emb (mnt4_inc yp))) * (mnt4_emb u * mnt4_wt).
Proof. exact (mnt4_dbl R x y 0 (zero_fill_y _ std) tP xp yp). Qed.
Print Assumptions C47_mnt4_doubling_step.
Theorem C47_mnt4_addition_step std R x y x2 y2 xp yp tP tQ : rep_ext_jacobian R x y -> x <> x2 ->
  rep_projective (tX tP) (tY tP) (tZ tP) (Aff xp yp) -> rep_projective (tX tQ) (tY tQ) (tZ tQ) (Aff x2 y2) ->
  exists x3 y3 u, ec_add (t4_Fp2 mnt4_tower) mnt4_g2_a (Aff x y) (Aff x2 y2) = Aff x3 y3 /\
    let step := pr_mixed_addition_step (t4_Fp2 mnt4_tower) x2 y2 (y2 * y2) R in
    rep_ext_jacobian (fst step) x3 y3 /\ u <> 0 /\
    pr_g_RQ (Zp mnt4_p) (t4_Fp2 mnt4_tower) (t4_Fp4 mnt4_tower) mnt4_of_base mnt4_gt (mnt4_precompute_g1 std tP) (mnt4_precompute_g2 std tQ) (snd step) =
      line (t4_Fp4 mnt4_tower) (mnt4_emb (mnt4_inc mnt4_a)) (untwist mnt4_emb mnt4_wt (Aff x y)) (untwist mnt4_emb mnt4_wt (Aff x2 y2))
        (Aff (mnt4_emb (mnt4_inc xp)) (mnt4_emb (mnt4_inc yp))) * mnt4_emb u.
Proof. exact (mnt4_add R x y x2 y2 0 (zero_fill_y _ std) tP xp yp mnt_n mnt4_ate_is_loop_count_neg mnt_max_bits 0 (zero_fill_y _ std) tQ mnt_bits). Qed.
Print Assumptions C47_mnt4_addition_step.
Theorem C47_mnt4_running_point std P Q tP tQ : mnt4_g1 P tP -> mnt4_g2 Q tQ ->
  exists xq yq x y f, Q = Aff xq yq /\ ec_mul (t4_Fp2 mnt4_tower) mnt4_g2_a (Pos.to_nat mnt_n) Q = Aff x y /\
    rep_ext_jacobian (fst (fst (pr_g2_loop (Zp mnt4_p) (t4_Fp2 mnt4_tower) mnt4_smul mnt4_g2_a mnt4_ate_loop_count mnt_max_bits
      xq yq (yq * yq) (mkXP xq yq 1 1, [], [])))) x y /\
    pr_miller_end (Zp mnt4_p) (t4_Fp2 mnt4_tower) (t4_Fp4 mnt4_tower) mnt4_of_base mnt4_gt mnt4_squared mnt4_ate_loop_count mnt4_ate_is_loop_count_neg mnt_max_bits
      (pr_g_RR (Zp mnt4_p) (t4_Fp2 mnt4_tower) (t4_Fp4 mnt4_tower) mnt4_gt) (mnt4_precompute_g1 std tP) (mnt4_precompute_g2 std tQ) =
      Some (f, length (dbls (mnt4_precompute_g2 std tQ)), length (adds (mnt4_precompute_g2 std tQ))).
Proof. exact (mnt4_running std P Q tP tQ). Qed.
Print Assumptions C47_mnt4_running_point.
Theorem C47_mnt4_double_miller_loop std P1 P2 tQ1 tQ2 : exists f1 f2,
  mnt4_miller_loop P1 (mnt4_precompute_g2 std tQ1) = Some f1 /\
  mnt4_miller_loop P2 (mnt4_precompute_g2 std tQ2) = Some f2 /\
  mnt4_double_miller_loop P1 (mnt4_precompute_g2 std tQ1) P2 (mnt4_precompute_g2 std tQ2) = Some (f1 * f2).
Proof. exact (mnt4_double P1 P2 0 (zero_fill_y _ std) tQ1 tQ2). Qed.
Print Assumptions C47_mnt4_double_miller_loop.

(** mnt6-298 *)
Theorem C47_mnt6_doubling_step R x y xp yp tP : rep_ext_jacobian R x y -> y <> 0 -> rep_projective (tX tP) (tY tP) (tZ tP) (Aff xp yp) ->
  exists x3 y3 u, ec_add (t6_Fp3 mnt6_tower) mnt6_g2_a (Aff x y) (Aff x y) = Aff x3 y3 /\
    let step := pr_doubling_step (Zp mnt6_p) (t6_Fp3 mnt6_tower) mnt6_smul mnt6_g2_a R in
    rep_ext_jacobian (fst step) x3 y3 /\ u <> 0 /\
    pr_g_RR' (Zp mnt6_p) (t6_Fp3 mnt6_tower) (t6_Fp6 mnt6_tower) mnt6_gt (mnt6_precompute_g1 tP) (snd step) =
      line (t6_Fp6 mnt6_tower) (mnt6_emb (mnt6_inc mnt6_a)) (untwist mnt6_emb mnt6_wt (Aff x y)) (untwist mnt6_emb mnt6_wt (Aff x y))
        (Aff (mnt6_emb (mnt6_inc xp)) (mnt6_emb (mnt6_inc yp))) * (mnt6_emb u * mnt6_wt).
Proof. exact (mnt6_dbl R x y 0 1 tP xp yp). Qed.
Print Assumptions C47_mnt6_doubling_step.
Theorem C47_mnt6_addition_step R x y x2 y2 xp yp tP tQ : rep_ext_jacobian R x y -> x <> x2 ->
  rep_projective (tX tP) (tY tP) (tZ tP) (Aff xp yp) -> rep_projective (tX tQ) (tY tQ) (tZ tQ) (Aff x2 y2) ->
  exists x3 y3 u, ec_add (t6_Fp3 mnt6_tower) mnt6_g2_a (Aff x y) (Aff x2 y2) = Aff x3 y3 /\
    let step := pr_mixed_addition_step (t6_Fp3 mnt6_tower) x2 y2 (y2 * y2) R in
    rep_ext_jacobian (fst step) x3 y3 /\ u <> 0 /\
    pr_g_RQ (Zp mnt6_p) (t6_Fp3 mnt6_tower) (t6_Fp6 mnt6_tower) mnt6_of_base mnt6_gt (mnt6_precompute_g1 tP) (mnt6_precompute_g2 tQ) (snd step) =
      line (t6_Fp6 mnt6_tower) (mnt6_emb (mnt6_inc mnt6_a)) (untwist mnt6_emb mnt6_wt (Aff x y)) (untwist mnt6_emb mnt6_wt (Aff x2 y2))
        (Aff (mnt6_emb (mnt6_inc xp)) (mnt6_emb (mnt6_inc yp))) * mnt6_emb u.
Proof. exact (mnt6_add R x y x2 y2 0 1 tP xp yp mnt_n mnt6_ate_is_loop_count_neg mnt_max_bits 0 1 tQ mnt_bits). Qed.
Print Assumptions C47_mnt6_addition_step.
Theorem C47_mnt6_running_point P Q tP tQ : mnt6_g1 P tP -> mnt6_g2 Q tQ ->
  exists xq yq x y f, Q = Aff xq yq /\ ec_mul (t6_Fp3 mnt6_tower) mnt6_g2_a (Pos.to_nat mnt_n) Q = Aff x y /\
    rep_ext_jacobian (fst (fst (pr_g2_loop (Zp mnt6_p) (t6_Fp3 mnt6_tower) mnt6_smul mnt6_g2_a mnt6_ate_loop_count mnt_max_bits
      xq yq (yq * yq) (mkXP xq yq 1 1, [], [])))) x y /\
    pr_miller_end (Zp mnt6_p) (t6_Fp3 mnt6_tower) (t6_Fp6 mnt6_tower) mnt6_of_base mnt6_gt mnt6_squared mnt6_ate_loop_count mnt6_ate_is_loop_count_neg mnt_max_bits
      (pr_g_RR' (Zp mnt6_p) (t6_Fp3 mnt6_tower) (t6_Fp6 mnt6_tower) mnt6_gt) (mnt6_precompute_g1 tP) (mnt6_precompute_g2 tQ) =
      Some (f, length (dbls (mnt6_precompute_g2 tQ)), length (adds (mnt6_precompute_g2 tQ))).
Proof. exact (mnt6_running P Q tP tQ). Qed.
Print Assumptions C47_mnt6_running_point.
Theorem C47_mnt6_double_miller_loop P1 P2 tQ1 tQ2 : exists f1 f2,
  mnt6_miller_loop P1 (mnt6_precompute_g2 tQ1) = Some f1 /\
  mnt6_miller_loop P2 (mnt6_precompute_g2 tQ2) = Some f2 /\
  mnt6_double_miller_loop P1 (mnt6_precompute_g2 tQ1) P2 (mnt6_precompute_g2 tQ2) = Some (f1 * f2).
Proof. exact (mnt6_double P1 P2 0 1 tQ1 tQ2). Qed.
Print Assumptions C47_mnt6_double_miller_loop.

(** the start of the loop meets the hypotheses of the steps, at any point *)
Lemma start_ok (F : FieldOps) (KF : FieldLaws F) (x y : F) : rep_ext_jacobian (mkXP x y 1 1) x y /\ rep_homogeneous (mkT x y 1) x y.
Proof.
  assert (N := F_1_neq_0 (FL_th F KF)). assert (O : forall z : F, z * 1 = z) by (intros; rewrite (Rmul_comm (RL_th F (FieldLaws_Ring F KF))); apply (Rmul_1_l (RL_th F (FieldLaws_Ring F KF)))).
  split; (split; [exact N|]); cbn [pX pY pZ pT tX tY tZ]; rewrite !O; repeat split; reflexivity.
Qed.
Definition c47_x : t4_Fp2 mnt4_tower := fst (lits2 (t4_p mnt4_tower) mnt4_298_g2_one).
Definition c47_y : t4_Fp2 mnt4_tower := snd (lits2 (t4_p mnt4_tower) mnt4_298_g2_one).
Example C47_case : rep_ext_jacobian (mkXP c47_x c47_y 1 1) c47_x c47_y /\ c47_y <> 0.
Proof.
  split; [exact (proj1 (start_ok (t4_Fp2 mnt4_tower) mnt4_KF c47_x c47_y))|].
  intros E. apply (f_equal (fun x => zval (q0 x))) in E. vm_compute in E. discriminate E.
Qed.
(** the points of the running_point theorems: C62_*_g1 and C62_*_g2 in Properties/Pairing.v *)
