(** Step, line and double-loop facts of the shipped pairings, over abstract prime fields. *)
From Coq Require Import ZArith NArith List Bool Lia Ring Field Znumtheory.
From Verif Require Import Base.Field Base.Zp Base.Ext Base.Hom Spec.Group Spec.Weierstrass Spec.Pairing Model.Power Model.Fp2 Model.Fp3 Model.Fp4
  Model.Fp6_2over3 Model.Fp6_3over2 Model.Fp12 Model.ShortWeierstrass Model.Pairing
  Proof.ExtTheory Proof.FiniteField Proof.WeierstrassCoords Proof.WeierstrassGroup
  Proof.PairingCore Proof.PairingMiller Proof.PairingA40 Proof.PairingBls Proof.PairingProj Proof.PairingMnt.
Import ListNotations.
Local Open Scope fld_scope.

Section Defined.
  Variable F : FieldOps.
  Hypothesis KF : FieldLaws F.
  Hypothesis two : (2 : F) <> 0.
  Lemma dbl_def a x y : y <> 0 -> exists x3 y3, ec_add F a (Aff x y) (Aff x y) = Aff x3 y3.
  Proof. intros Y. rewrite (ec_tangent F KF two a x y Y). do 2 eexists. reflexivity. Qed.
  Lemma add_def a x y x2 y2 : x <> x2 -> exists x3 y3, ec_add F a (Aff x y) (Aff x2 y2) = Aff x3 y3.
  Proof.
    intros N. rewrite (ec_chord F KF a x y x2 y2); [do 2 eexists; reflexivity|]. intros E. apply N. symmetry. apply (fsub_0_eq F (FieldLaws_Ring F KF)), E.
  Qed.
  Lemma neq_sub (x y : F) : x <> y -> x - y <> 0.
  Proof. intros N E. apply N, (fsub_0_eq F (FieldLaws_Ring F KF)), E. Qed.
End Defined.

Section BlsSteps.
  Variable K : FieldOps.
  Variable nr : K.
  Local Notation F := (Fp2 K nr).
  Variable xi : F.
  Local Notation Fsqr := (fp2_sqr K nr).
  Local Notation G := (Fp12 F Fsqr xi xi).
  Hypothesis KK : FieldLaws K.
  Hypothesis KF : FieldLaws F.
  Hypothesis KG : FieldLaws G.
  Let RF := FieldLaws_Ring F KF.
  Add Field Fbs : (FL_th F KF).
  Hypothesis two : (2 : F) <> 0.
  Hypothesis xi0 : xi <> 0.
  Variable b' : F.
  Local Notation emb := (emb12 F Fsqr xi).
  Local Notation w := (w12 F Fsqr xi).
  Local Notation sq := (fp12_sqr F Fsqr xi xi).
  Local Notation m045 := (fp12_mul_by_045 F Fsqr xi xi).
  Local Notation at_P xp yp := (Aff (emb (inc2 K nr xp)) (emb (inc2 K nr yp))).
  Lemma bls_dbl_gen (R : triple F) x y xp yp (f : G) : hrep F R x y -> on_curve F 0 b' (Aff x y) -> y <> 0 ->
    exists x3 y3 u, ec_add F 0 (Aff x y) (Aff x y) = Aff x3 y3 /\
      hrep F (fst (a40_doubling_step K F (fp2_smul K) xi b' (finv (fofZ 2)) R)) x3 y3 /\ u <> 0 /\
      a40_line K F G (fp2_smul K) m045 (mkP1 xp yp) (snd (a40_doubling_step K F (fp2_smul K) xi b' (finv (fofZ 2)) R)) f =
        f * (line G 0 (untwist emb w (Aff x y)) (untwist emb w (Aff x y)) (at_P xp yp) * emb u).
  Proof.
    intros Rp O Y. destruct (dbl_def F KF two 0 x y Y) as (x3 & y3 & A).
    assert (HI := inc2_hom K nr KK KF). assert (HE := emb12_hom F Fsqr xi KF KG).
    exists x3, y3, (- (2 * y) * (tZ R * tZ R) * xi). split; [exact A|]. split; [|split].
    - exact (a40_double K F KK KF (fp2_smul K) (inc2 K nr) HI (inc2_smul K nr KK) xi b' two R x y x3 y3 Rp O Y A).
    - destruct Rp as (Z & _). apply (fmul_neq_0 F KF); [|exact xi0]. apply (fmul_neq_0 F KF); [|apply (fmul_neq_0 F KF); exact Z].
      intros E. apply (fmul_neq_0 F KF 2 y two Y). transitivity (- - (2 * y)); [ring|rewrite E; ring].
    - rewrite (a40_line_val K F G (fp2_smul K) (inc2 K nr) (inc2_smul K nr KK) emb w m045 (slots_045 F Fsqr xi KF) xp yp).
      rewrite (a40_val_double K F G KF KG (fp2_smul K) (inc2 K nr) HI (inc2_smul K nr KK) emb HE w (w12_0 F Fsqr xi KF) xi b'
        (w12_6 F Fsqr xi KF) two xp yp R x y Rp O Y). reflexivity.
  Qed.
  Lemma bls_add_gen (R : triple F) x y x2 y2 xp yp (f : G) : hrep F R x y -> x <> x2 ->
    exists x3 y3 u, ec_add F 0 (Aff x y) (Aff x2 y2) = Aff x3 y3 /\
      hrep F (fst (a40_mixed_addition_step F xi (mkA x2 y2) R)) x3 y3 /\ u <> 0 /\
      a40_line K F G (fp2_smul K) m045 (mkP1 xp yp) (snd (a40_mixed_addition_step F xi (mkA x2 y2) R)) f =
        f * (line G 0 (untwist emb w (Aff x y)) (untwist emb w (Aff x2 y2)) (at_P xp yp) * emb u).
  Proof.
    intros Rp N. destruct (add_def F KF 0 x y x2 y2 N) as (x3 & y3 & A).
    assert (HE := emb12_hom F Fsqr xi KF KG).
    exists x3, y3, (tZ R * (x - x2) * xi). split; [exact A|]. split; [|split].
    - exact (a40_add F KF xi R x y x2 y2 x3 y3 Rp N A).
    - destruct Rp as (Z & _). apply (fmul_neq_0 F KF); [|exact xi0]. apply (fmul_neq_0 F KF); [exact Z|]. apply (neq_sub F KF), N.
    - rewrite (a40_line_val K F G (fp2_smul K) (inc2 K nr) (inc2_smul K nr KK) emb w m045 (slots_045 F Fsqr xi KF) xp yp).
      rewrite (a40_val_add K F G KF KG (inc2 K nr) emb HE w (w12_0 F Fsqr xi KF) xi (w12_6 F Fsqr xi KF) xp yp R x y x2 y2 Rp N). reflexivity.
  Qed.
  Lemma bls_double_gen n neg mb (Hb : (N.size (Npos n) <= N.of_nat (S mb))%N) P1 P2 zx zy t1 t2 :
    let prec := a40_precompute_g2 K F (fp2_smul K) xi b' (Npos n) mb zx zy in
    exists f1 f2 : G,
      a40_miller_loop K F G (fp2_smul K) sq m045 (Npos n) neg mb P1 (prec t1) = Some f1 /\
      a40_miller_loop K F G (fp2_smul K) sq m045 (Npos n) neg mb P2 (prec t2) = Some f2 /\
      a40_double_miller_loop K F G (fp2_smul K) sq m045 (Npos n) neg mb P1 (prec t1) P2 (prec t2) = Some (f1 * f2).
  Proof.
    intros prec.
    destruct (jac_to_affine F zx zy t1) as [x1 y1] eqn:E1. destruct (jac_to_affine F zx zy t2) as [x2 y2] eqn:E2.
    unfold prec. rewrite (a40_precompute_g2_eq K F (fp2_smul K) xi b' n mb Hb zx zy x1 y1 t1 E1).
    rewrite (a40_precompute_g2_eq K F (fp2_smul K) xi b' n mb Hb zx zy x2 y2 t2 E2).
    exact (a40_double_eq K F G KG (fp2_smul K) (inc2 K nr) (inc2_smul K nr KK) sq (fun f => eq_refl) emb w m045
      (slots_045 F Fsqr xi KF) xi b' n neg mb Hb P1 P2 x1 y1 x2 y2 (inv12_0 F Fsqr xi KF)).
  Qed.
End BlsSteps.

(** mnt4 and mnt6 *)
Section MntSteps.
  Variables K F G : FieldOps.
  Hypothesis KK : FieldLaws K.
  Hypothesis KF : FieldLaws F.
  Hypothesis KG : FieldLaws G.
  Let RF := FieldLaws_Ring F KF.
  Add Field Fms : (FL_th F KF).
  Variable smul : K -> F -> F.
  Variable inc : K -> F.
  Hypothesis HI : Hom K F inc.
  Hypothesis Hs : forall k x, smul k x = inc k * x.
  Variable squared : G -> G.
  Hypothesis Hq : forall f, squared f = f * f.
  Variable emb : F -> G.
  Hypothesis H : Hom F G emb.
  Variable w : G.
  Hypothesis Hw : w <> 0.
  Variable mkgt : F -> F -> G.
  Hypothesis Hmk : forall u v, mkgt u v = emb u + emb v * w.
  Variable twist : F.
  Hypothesis Htw : emb twist = w * w.
  Variables a : K.
  Variables a' : F.
  Hypothesis Ea' : a' = inc a * twist * twist.
  Hypothesis two : (2 : F) <> 0.
  Variable g_RR : pr_g1_prec K F -> dbl_coeffs F -> G.
  Hypothesis HRR : forall P dc, g_RR P dc = pr_g_RR K F G mkgt P dc.
  Hypothesis I0 : finv (0 : G) = 0.
  Local Notation at_P xp yp := (Aff (emb (inc xp)) (emb (inc yp))).
  Let tw0 := twist_0 F G KG emb H w Hw twist Htw.
  Lemma prec1_eq zx zy tP xp yp : rep_projective (tX tP) (tY tP) (tZ tP) (Aff xp yp) ->
    pr_precompute_g1 K F smul twist zx zy tP = mkR1 xp yp (inc xp * twist) (inc yp * twist).
  Proof.
    intros TP. destruct (proj_affine K KK zx zy tP xp yp TP) as [AP ZP].
    unfold pr_precompute_g1. rewrite ZP, AP. cbn [aX aY]. rewrite !Hs. reflexivity.
  Qed.
  Lemma mnt_dbl_gen (R : ext_proj F) x y zx zy tP xp yp : jrep F R x y -> y <> 0 -> rep_projective (tX tP) (tY tP) (tZ tP) (Aff xp yp) ->
    exists x3 y3 u, ec_add F a' (Aff x y) (Aff x y) = Aff x3 y3 /\ jrep F (fst (pr_doubling_step K F smul a' R)) x3 y3 /\ u <> 0 /\
      g_RR (pr_precompute_g1 K F smul twist zx zy tP) (snd (pr_doubling_step K F smul a' R)) =
        line G (emb (inc a)) (untwist emb w (Aff x y)) (untwist emb w (Aff x y)) (at_P xp yp) * (emb u * w).
  Proof.
    intros Rp Y TP. destruct (dbl_def F KF two a' x y Y) as (x3 & y3 & A). rewrite HRR, (prec1_eq zx zy tP xp yp TP).
    exists x3, y3, (2 * 2 * y * (pZ R * pZ R * pZ R * pZ R * pZ R * pZ R) * twist). split; [exact A|]. split; [|split].
    - exact (pr_double K F KF smul inc HI Hs a' two R x y x3 y3 Rp Y A).
    - destruct Rp as (Z & _). repeat apply (fmul_neq_0 F KF); first [exact two|exact Y|exact Z|exact tw0].
    - exact (pr_val_double K F G KF KG smul inc emb H w Hw mkgt Hmk twist Htw a a' Ea' two xp yp R x y Rp Y).
  Qed.
  Lemma mnt_add_gen (R : ext_proj F) x y x2 y2 zx zy tP xp yp n neg mb zx2 zy2 tQ (Hb : (N.size (Npos n) <= N.of_nat mb)%N) : jrep F R x y -> x <> x2 ->
    rep_projective (tX tP) (tY tP) (tZ tP) (Aff xp yp) -> rep_projective (tX tQ) (tY tQ) (tZ tQ) (Aff x2 y2) ->
    let Q := pr_precompute_g2 K F smul twist a' (Npos n) neg mb zx2 zy2 tQ in
    exists x3 y3 u, ec_add F a' (Aff x y) (Aff x2 y2) = Aff x3 y3 /\
      jrep F (fst (pr_mixed_addition_step F x2 y2 (y2 * y2) R)) x3 y3 /\ u <> 0 /\
      pr_g_RQ K F G inc mkgt (pr_precompute_g1 K F smul twist zx zy tP) Q (snd (pr_mixed_addition_step F x2 y2 (y2 * y2) R)) =
        line G (emb (inc a)) (untwist emb w (Aff x y)) (untwist emb w (Aff x2 y2)) (at_P xp yp) * emb u.
  Proof.
    intros Rp N TP TQ Q. destruct (proj_affine F KF zx2 zy2 tQ x2 y2 TQ) as [AQ _].
    assert (EQ : Q = _) by (exact (pr_precompute_g2_eq K F smul twist a' n neg mb Hb zx2 zy2 x2 y2 tQ AQ)).
    assert (QX : rQX_over_twist Q = x2 * finv twist) by (rewrite EQ; reflexivity).
    assert (QY : rQY_over_twist Q = y2 * finv twist) by (rewrite EQ; reflexivity). clearbody Q.
    destruct (add_def F KF a' x y x2 y2 N) as (x3 & y3 & A). rewrite (prec1_eq zx zy tP xp yp TP).
    exists x3, y3, (2 * (pZ R * pZ R * pZ R) * (x2 - x) * twist). split; [exact A|]. split; [|split].
    - exact (pr_add F KF a' two R x y x2 y2 x3 y3 Rp N A).
    - destruct Rp as (Z & _). apply (fmul_neq_0 F KF); [|exact tw0]. apply (fmul_neq_0 F KF).
      + apply (fmul_neq_0 F KF); [exact two|]. repeat apply (fmul_neq_0 F KF); exact Z.
      + apply (neq_sub F KF). intros E. apply N. symmetry. exact E.
    - exact (pr_val_add K F G KF KG inc emb H w Hw mkgt Hmk twist Htw a xp yp R x y x2 y2 Q Rp N QX QY).
  Qed.
  Lemma mnt_double_gen n neg mb (Hb : (N.size (Npos n) <= N.of_nat mb)%N) P1 P2 zx zy t1 t2 :
    let prec := pr_precompute_g2 K F smul twist a' (Npos n) neg mb zx zy in
    exists f1 f2 : G,
      pr_miller_loop K F G inc mkgt squared (Npos n) neg mb g_RR P1 (prec t1) = Some f1 /\
      pr_miller_loop K F G inc mkgt squared (Npos n) neg mb g_RR P2 (prec t2) = Some f2 /\
      pr_double_miller_loop K F G inc mkgt squared (Npos n) neg mb P1 (prec t1) P2 (prec t2) = Some (f1 * f2).
  Proof.
    intros prec.
    destruct (proj_to_affine F zx zy t1) as [x1 y1] eqn:E1. destruct (proj_to_affine F zx zy t2) as [x2 y2] eqn:E2.
    unfold prec. rewrite (pr_precompute_g2_eq K F smul twist a' n neg mb Hb zx zy x1 y1 t1 E1).
    rewrite (pr_precompute_g2_eq K F smul twist a' n neg mb Hb zx zy x2 y2 t2 E2).
    exact (pr_double_eq K F G KG smul inc squared Hq mkgt twist a' n neg mb Hb g_RR HRR P1 P2 x1 y1 x2 y2 I0).
  Qed.
End MntSteps.
