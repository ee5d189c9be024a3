(** The steps and lines of jacobian_with_a4_0 (bls12). *)
From Coq Require Import ZArith NArith List Bool Lia Ring Field Znumtheory.
From Verif Require Import Base.Field Base.Hom Spec.Group Spec.Weierstrass Spec.Pairing Model.Power Model.ShortWeierstrass Model.Pairing
  Proof.WeierstrassCoords Proof.WeierstrassGroup Proof.WeierstrassRep Proof.PairingCore Proof.PairingMiller.
Import ListNotations.
Local Open Scope fld_scope.

Lemma value_ext {St C GT : Type} (d a : St -> St * C) R (one : GT) ld la ld' la' n :
  (forall c f, ld c f = ld' c f) -> (forall c f, la c f = la' c f) -> value d a R one ld la n = value d a R one ld' la' n.
Proof. intros A B. induction n as [m IH|m IH|]; cbn [value]; rewrite ?IH, ?A, ?B; reflexivity. Qed.
Lemma value2_ext {St C GT : Type} (d1 a1 d2 a2 : St -> St * C) R1 R2 (one : GT) ld la ld' la' n :
  (forall c c' f, ld c c' f = ld' c c' f) -> (forall c c' f, la c c' f = la' c c' f) ->
  value2 d1 a1 d2 a2 R1 R2 one ld la n = value2 d1 a1 d2 a2 R1 R2 one ld' la' n.
Proof. intros A B. induction n as [m IH|m IH|]; cbn [value2]; rewrite ?IH, ?A, ?B; reflexivity. Qed.

Section A40.
  Variables K F GT : FieldOps.
  Hypothesis KK : FieldLaws K.
  Hypothesis KF : FieldLaws F.
  Hypothesis KG : FieldLaws GT.
  Let RF := FieldLaws_Ring F KF.
  Let RG := FieldLaws_Ring GT KG.
  Add Field Fa40 : (FL_th F KF).
  Add Field GTa40 : (FL_th GT KG).
  Lemma finv_mul (x y : GT) : finv (0 : GT) = 0 -> finv (x * y) = finv x * finv y.
  Proof.
    intros I0. destruct (feq_dec GT RG x 0) as [->|X].
    - replace (0 * y) with (0 : GT) by ring. rewrite I0. ring.
    - destruct (feq_dec GT RG y 0) as [->|Y].
      + replace (x * 0) with (0 : GT) by ring. rewrite I0. ring.
      + field. auto.
  Qed.
  Variable smul : K -> F -> F.
  Variable inc : K -> F.
  Hypothesis HI : Hom K F inc.
  Hypothesis Hs : forall k x, smul k x = inc k * x.
  Variable squared : GT -> GT.
  Hypothesis Hq : forall f, squared f = f * f.
  Variable emb : F -> GT.
  Hypothesis H : Hom F GT emb.
  Variable w : GT.
  Hypothesis Hw : w <> 0.
  Variable mul_by_045 : GT -> F -> F -> F -> GT.
  Definition slots (u v t : F) : GT := emb u + emb v * (w * w * w) + emb t * (w * w * w * w * w).
  Hypothesis H045 : forall f x0 xVW xVV, mul_by_045 f x0 xVW xVV = f * slots xVW x0 xVV.
  Hypothesis Hslots : forall u v t, u <> 0 -> slots u v t <> 0.
  Variables twist b' : F.
  Hypothesis Htw : emb twist = w * w * w * w * w * w.
  Hypothesis two : (2 : F) <> 0.
  Variable n : positive.
  Variable loop_neg : bool.
  Variable max_bits : nat.
  Hypothesis Hbits : (N.size (Npos n) <= N.of_nat (S max_bits))%N.
  Variables zx1 zy1 : K.
  Variables zx2 zy2 : F.
  Variable e : N.
  Hypothesis Hkill : forall c : F, c <> 0 -> killed GT e (emb c).

  Let two_inv : K := finv (fofZ 2).
  Local Notation dstep := (a40_doubling_step K F smul twist b' two_inv).
  Local Notation astep := (a40_mixed_addition_step F twist).

  Lemma smul_3 x : smul (fofZ 3) x = (1 + (1 + 1)) * x.
  Proof. rewrite Hs. f_equal. change (fofZ 3 : K) with (1 + (1 + 1) : K). rewrite !(hom_add _ _ _ HI), !(hom_1 _ _ _ HI). reflexivity. Qed.
  Lemma smul_half x : smul two_inv x = x / (1 + 1).
  Proof.
    rewrite Hs. unfold two_inv. change (fofZ 2 : K) with (1 + 1 : K).
    assert (T : (1 + 1 : K) <> 0).
    { intros Z. apply two. rewrite <- (hom_1 _ _ _ HI), <- (hom_add _ _ _ HI), Z. apply (hom_0 _ _ _ HI). }
    rewrite (emb_inv K F KK KF inc HI (1 + 1) T), (hom_add _ _ _ HI), (hom_1 _ _ _ HI). field. exact two.
  Qed.

  (** homogeneous coordinates *)
  Definition hrep (R : triple F) (x y : F) : Prop := tZ R <> 0 /\ tX R = x * tZ R /\ tY R = y * tZ R.

  Lemma a40_double R x y x3 y3 : hrep R x y -> on_curve F 0 b' (Aff x y) -> y <> 0 ->
    ec_add F 0 (Aff x y) (Aff x y) = Aff x3 y3 -> hrep (fst (dstep R)) x3 y3.
  Proof.
    intros (Z0 & EX & EY) O Y A. destruct R as [X Y' Z]. cbn [tX tY tZ] in *. subst X Y'.
    assert (B : b' = y * y - x * x * x).
    { cbn in O. rewrite O. ring. }
    rewrite (ec_tangent F KF two 0 x y Y) in A. injection A as <- <-.
    unfold hrep, a40_doubling_step. cbn [tX tY tZ fst]. rewrite !smul_3, !smul_half, B.
    split; [|split; field; auto].
    intros E. apply (fmul_neq_0 F KF (2 * (y * y * y)) (Z * Z * Z * Z)).
    - repeat apply (fmul_neq_0 F KF); assumption.
    - repeat apply (fmul_neq_0 F KF); assumption.
    - rewrite <- E. ring.
  Qed.
  Lemma a40_add R x y x2 y2 x3 y3 : hrep R x y -> x <> x2 ->
    ec_add F 0 (Aff x y) (Aff x2 y2) = Aff x3 y3 -> hrep (fst (astep (mkA x2 y2) R)) x3 y3.
  Proof.
    intros (Z0 & EX & EY) N A. destruct R as [X Y' Z]. cbn [tX tY tZ] in *. subst X Y'.
    assert (D : x2 - x <> 0) by (intros E; apply N; symmetry; apply (fsub_0_eq F RF), E).
    rewrite (ec_chord F KF 0 x y x2 y2 D) in A. injection A as <- <-.
    unfold hrep, a40_mixed_addition_step. cbn [tX tY tZ aX aY fst].
    split; [|split; field; auto].
    intros E. apply (fmul_neq_0 F KF ((x2 - x) * (x2 - x) * (x2 - x)) (Z * Z * Z * Z)).
    - repeat apply (fmul_neq_0 F KF); assumption.
    - repeat apply (fmul_neq_0 F KF); assumption.
    - transitivity (- (Z * ((x * Z - x2 * Z) * ((x * Z - x2 * Z) * (x * Z - x2 * Z))))); [ring|]. rewrite E. ring.
  Qed.

  (** the line values *)
  Variables xp yp : K.
  Hypothesis yp0 : yp <> 0.
  Let S : point GT := Aff (emb (inc xp)) (emb (inc yp)).
  Let P := mkP1 xp yp.
  Definition a40_val (c : ell_coeffs F) : GT := slots (inc yp * ell_VW c) (ell_0 c) (inc xp * ell_VV c).
  Lemma a40_line_val c f : a40_line K F GT smul mul_by_045 P c f = f * a40_val c.
  Proof. unfold a40_line, P. cbn [PX PY]. rewrite H045, !Hs. reflexivity. Qed.
  Lemma inc_yp : inc yp <> 0.
  Proof. apply (emb_neq0 K F KK KF inc HI), yp0. Qed.
  Lemma twist0 : twist <> 0.
  Proof. intros Z. assert (E := Htw). rewrite Z, (hom_0 _ _ _ H) in E.
    apply (fmul_neq_0 GT KG (w * w * w) (w * w * w)); [| |symmetry; rewrite E; ring]; apply (ww3 GT KG w Hw). Qed.
  Ltac embs := repeat first [rewrite (hom_add _ _ _ H) | rewrite (hom_mul _ _ _ H) | rewrite (hom_sub _ _ _ H) |
    rewrite (hom_opp _ _ _ H) | rewrite (hom_1 _ _ _ H) | rewrite (hom_0 _ _ _ H)].
  Lemma a40_val_double R x y : hrep R x y -> on_curve F 0 b' (Aff x y) -> y <> 0 ->
    a40_val (snd (dstep R)) =
    line GT 0 (untwist emb w (Aff x y)) (untwist emb w (Aff x y)) S * emb (- (2 * y) * (tZ R * tZ R) * twist).
  Proof.
    intros (Z0 & EX & EY) O Y. destruct R as [X Y' Z]. cbn [tX tY tZ] in *. subst X Y'.
    assert (B : b' = y * y - x * x * x).
    { cbn in O. rewrite O. ring. }
    assert (A0 : emb 0 = 0 * (w * w * w * w)) by (rewrite (hom_0 _ _ _ H); ring).
    assert (L := line_tangent F GT KF KG emb H w Hw 0 0 A0 two x y (emb (inc xp)) (emb (inc yp)) Y). fold S in L.
    set (l := line GT 0 _ _ S) in *.
    transitivity (l * (w * w * w * emb (2 * y)) * (- (w * w * w * emb (Z * Z)))).
    2:{ embs. rewrite Htw. ring. }
    rewrite L. clearbody l. unfold a40_val, slots, a40_doubling_step. cbn [snd ell_0 ell_VW ell_VV tX tY tZ].
    rewrite !smul_3, B. embs. rewrite Htw. ring.
  Qed.
  Lemma a40_val_add R x y x2 y2 : hrep R x y -> x <> x2 ->
    a40_val (snd (astep (mkA x2 y2) R)) =
    line GT 0 (untwist emb w (Aff x y)) (untwist emb w (Aff x2 y2)) S * emb (tZ R * (x - x2) * twist).
  Proof.
    intros (Z0 & EX & EY) N. destruct R as [X Y' Z]. cbn [tX tY tZ] in *. subst X Y'.
    assert (D : x2 - x <> 0) by (intros E; apply N; symmetry; apply (fsub_0_eq F RF), E).
    assert (L := line_chord F GT KF KG emb H w Hw 0 x y x2 y2 (emb (inc xp)) (emb (inc yp)) D). fold S in L.
    set (l := line GT 0 _ _ S) in *.
    transitivity (l * (w * w * w * emb (x2 - x)) * (- (w * w * w * emb Z))).
    2:{ embs. rewrite Htw. ring. }
    rewrite L. clearbody l. unfold a40_val, slots, a40_mixed_addition_step. cbn [snd ell_0 ell_VW ell_VV tX tY tZ aX aY].
    embs. rewrite Htw. ring.
  Qed.

  (** the loops *)
  Section Loops.
    Variables xq yq : F.
    Let Q := mkA xq yq.
    Let R0 := mkT xq yq 1.
    Local Notation out := (out dstep (astep Q) R0 n).
    Lemma a40_g2_loop_eq : a40_g2_loop K F smul twist b' (Npos n) max_bits Q two_inv (R0, []) = (run dstep (astep Q) R0 n, out).
    Proof. unfold a40_g2_loop. rewrite bit_loop_pos by exact Hbits. apply (pre_loop dstep (astep Q)). Qed.
    Lemma a40_miller_state_eq PP :
      a40_miller_state K F GT smul squared mul_by_045 (Npos n) max_bits PP (mkP2 xq yq out) =
      Some (value dstep (astep Q) R0 1 (fun c f => a40_line K F GT smul mul_by_045 PP c (squared f)) (a40_line K F GT smul mul_by_045 PP) n,
            length out).
    Proof.
      unfold a40_miller_state. rewrite bit_loop_pos by exact Hbits. cbn [coeffs].
      assert (E := read_loop dstep (astep Q) R0 (1 : GT) (fun c f => a40_line K F GT smul mul_by_045 PP c (squared f))
        (a40_line K F GT smul mul_by_045 PP) n []).
      rewrite app_nil_r in E. exact E.
    Qed.
    Lemma a40_precompute_g2_eq t : jac_to_affine F zx2 zy2 t = Q ->
      a40_precompute_g2 K F smul twist b' (Npos n) max_bits zx2 zy2 t = mkP2 xq yq out.
    Proof.
      intros E. unfold a40_precompute_g2. rewrite E.
      change (mkP2 xq yq (snd (a40_g2_loop K F smul twist b' (Npos n) max_bits Q two_inv (R0, []))) = mkP2 xq yq out).
      rewrite a40_g2_loop_eq. reflexivity.
    Qed.
    Lemma a40_value PP :
      value dstep (astep Q) R0 1 (fun c f => a40_line K F GT smul mul_by_045 PP c (squared f)) (a40_line K F GT smul mul_by_045 PP) n =
      value dstep (astep Q) R0 1 (fun c f => f * f * slots (inc (PY PP) * ell_VW c) (ell_0 c) (inc (PX PP) * ell_VV c))
        (fun c f => f * slots (inc (PY PP) * ell_VW c) (ell_0 c) (inc (PX PP) * ell_VV c)) n.
    Proof. apply value_ext; intros c f; unfold a40_line; rewrite H045, !Hs, ?Hq; reflexivity. Qed.
  End Loops.
  (** the double loop *)
  Lemma a40_double_eq P1 P2 x1 y1 x2 y2 : finv (0 : GT) = 0 ->
    let Q1 := mkP2 x1 y1 (out dstep (astep (mkA x1 y1)) (mkT x1 y1 1) n) in
    let Q2 := mkP2 x2 y2 (out dstep (astep (mkA x2 y2)) (mkT x2 y2 1) n) in
    exists f1 f2,
      a40_miller_loop K F GT smul squared mul_by_045 (Npos n) loop_neg max_bits P1 Q1 = Some f1 /\
      a40_miller_loop K F GT smul squared mul_by_045 (Npos n) loop_neg max_bits P2 Q2 = Some f2 /\
      a40_double_miller_loop K F GT smul squared mul_by_045 (Npos n) loop_neg max_bits P1 Q1 P2 Q2 = Some (f1 * f2).
  Proof.
    intros I0 Q1 Q2. unfold a40_miller_loop, Q1, Q2. rewrite !a40_miller_state_eq. eexists. eexists.
    split; [reflexivity|]. split; [reflexivity|].
    unfold a40_double_miller_loop, a40_double_miller_state. rewrite bit_loop_pos by exact Hbits. cbn [coeffs].
    assert (E := read2_loop dstep (astep (mkA x1 y1)) dstep (astep (mkA x2 y2)) (mkT x1 y1 1) (mkT x2 y2 1) (1 : GT)
      (fun c1 c2 f => a40_line K F GT smul mul_by_045 P2 c2 (a40_line K F GT smul mul_by_045 P1 c1 (squared f)))
      (fun c1 c2 f => a40_line K F GT smul mul_by_045 P2 c2 (a40_line K F GT smul mul_by_045 P1 c1 f)) n [] []).
    rewrite !app_nil_r in E.
    match goal with |- match ?x with _ => _ end = _ => change x with
      (pos_loop n (read2_body
        (fun c1 c2 f => a40_line K F GT smul mul_by_045 P2 c2 (a40_line K F GT smul mul_by_045 P1 c1 (squared f)))
        (fun c1 c2 f => a40_line K F GT smul mul_by_045 P2 c2 (a40_line K F GT smul mul_by_045 P1 c1 f))
        (out dstep (astep (mkA x1 y1)) (mkT x1 y1 1) n) (out dstep (astep (mkA x2 y2)) (mkT x2 y2 1) n)) (Some (1 : GT, O))) end.
    rewrite E.
    assert (V : value2 dstep (astep (mkA x1 y1)) dstep (astep (mkA x2 y2)) (mkT x1 y1 1) (mkT x2 y2 1) (1 : GT)
      (fun c1 c2 f => a40_line K F GT smul mul_by_045 P2 c2 (a40_line K F GT smul mul_by_045 P1 c1 (squared f)))
      (fun c1 c2 f => a40_line K F GT smul mul_by_045 P2 c2 (a40_line K F GT smul mul_by_045 P1 c1 f)) n =
      value dstep (astep (mkA x1 y1)) (mkT x1 y1 1) 1 (fun c f => a40_line K F GT smul mul_by_045 P1 c (squared f)) (a40_line K F GT smul mul_by_045 P1) n *
      value dstep (astep (mkA x2 y2)) (mkT x2 y2 1) 1 (fun c f => a40_line K F GT smul mul_by_045 P2 c (squared f)) (a40_line K F GT smul mul_by_045 P2) n).
    { rewrite !a40_value, <- (value2_product RG). apply value2_ext; intros c c' f; unfold a40_line; rewrite !H045, !Hs, ?Hq; ring. }
    rewrite V. destruct loop_neg; [|reflexivity]. f_equal. apply finv_mul, I0.
  Qed.

  (** the Miller function *)
  Hypothesis NS : nonsingular F 0 b'.
  Variable r : N.
  Hypothesis Pr : prime (Z.of_N r).
  Hypothesis nr : (Npos n < r)%N.
  Variables xq yq : F.
  Hypothesis onQ : on_curve F 0 b' (Aff xq yq).
  Hypothesis Qr : ec_mul F 0 (N.to_nat r) (Aff xq yq) = Inf.
  Hypothesis HV : forall x y, on_curve F 0 b' (Aff x y) -> killed GT e (vertical GT (untwist emb w (Aff x y)) S).
  Let Q : point F := Aff xq yq.
  Let Q2 := mkP2 xq yq (out dstep (astep (mkA xq yq)) (mkT xq yq 1) n).
  Lemma a40_neq (z x : F) : z <> 0 -> x <> 0 -> z * x * twist <> 0.
  Proof. intros A B. apply (fmul_neq_0 F KF); [apply (fmul_neq_0 F KF); assumption|apply twist0]. Qed.
  Theorem a40_miller_main : exists x y f,
    ec_mul F 0 (Pos.to_nat n) Q = Aff x y /\ on_curve F 0 b' (Aff x y) /\
    hrep (fst (a40_g2_loop K F smul twist b' (Npos n) max_bits (mkA xq yq) two_inv (mkT xq yq 1, []))) x y /\
    a40_miller_state K F GT smul squared mul_by_045 (Npos n) max_bits P Q2 = Some (f, length (coeffs Q2)) /\
    f <> 0 /\ eqv GT e f (miller_fun GT 0 n (untwist emb w Q) S) /\
    snd (miller GT 0 n (untwist emb w Q) S) = untwist emb w (Aff x y).
  Proof.
    assert (A0 : emb 0 = 0 * (w * w * w * w)) by (rewrite (hom_0 _ _ _ H); ring).
    assert (M := miller_equiv F GT KF KG emb H w Hw 0 b' 0 A0 two NS e S xq yq onQ r Pr Qr dstep (astep (mkA xq yq)) (mkT xq yq 1)
      a40_val a40_val hrep).
    destruct M with (n := n) as (x & y & E & O & Rp & V0 & V & W).
    - split; [apply (F_1_neq_0 (FL_th F KF))|]. cbn. split; ring.
    - intros R x y x3 y3 Rp O Y A. split; [apply (a40_double R x y); assumption|]. split.
      + apply Hslots. destruct Rp as (Z0 & EX & EY). destruct R as [X Y' Z]. cbn in *. rewrite EY.
        apply (fmul_neq_0 F KF); [apply inc_yp|]. intros E.
        apply (a40_neq (2 * y) (Z * Z)); [apply (fmul_neq_0 F KF); assumption|apply (fmul_neq_0 F KF); assumption|].
        transitivity (- (- twist * ((y * Z + Z) * (y * Z + Z) - (y * Z * (y * Z) + Z * Z)))); [ring|rewrite E; ring].
      + rewrite (a40_val_double R x y Rp O Y). apply (eqv_killed GT KG), Hkill, (a40_neq (- (2 * y)) (tZ R * tZ R)).
        * intros E. apply (fmul_neq_0 F KF 2 y two Y). transitivity (- - (2 * y)); [ring|rewrite E; ring].
        * destruct Rp as (Z0 & _). apply (fmul_neq_0 F KF); assumption.
    - intros R x y x3 y3 Rp O Y A. split; [apply (a40_add R x y xq yq); assumption|].
      assert (D : x - xq <> 0) by (intros E; apply Y, (fsub_0_eq F RF), E). split.
      + apply Hslots. destruct Rp as (Z0 & EX & EY). destruct R as [X Y' Z]. cbn in *. rewrite EX.
        apply (fmul_neq_0 F KF); [apply inc_yp|]. intros E. apply (a40_neq Z (x - xq) Z0 D). rewrite <- E. ring.
      + rewrite (a40_val_add R x y xq yq Rp Y). apply (eqv_killed GT KG), Hkill, (a40_neq (tZ R) (x - xq)); [apply Rp|exact D].
    - exact HV.
    - exact nr.
    - exists x, y. eexists. unfold Q2. rewrite a40_miller_state_eq, a40_g2_loop_eq, run_prun, a40_value, value_pvalue. cbn [fst coeffs].
      split; [rewrite <- E; symmetry; unfold mult; rewrite (sw_gmul F KF two 0 b' NS); reflexivity|].
      split; [exact O|]. split; [exact Rp|]. split; [reflexivity|]. split; [exact V0|]. split; [exact V|exact W].
  Qed.
  Theorem a40_miller_pow : exists g,
    a40_miller_loop K F GT smul squared mul_by_045 (Npos n) loop_neg max_bits P Q2 = Some g /\ g <> 0 /\
    fpow g e = fpow (if loop_neg then miller_fun_neg GT 0 n (untwist emb w Q) S else miller_fun GT 0 n (untwist emb w Q) S) e.
  Proof.
    destruct a40_miller_main as (x & y & f & _ & O & _ & E & F0 & V & W). unfold a40_miller_loop. rewrite E.
    eexists. split; [reflexivity|]. destruct loop_neg.
    - split.
      + intros Z. apply (F_1_neq_0 (FL_th GT KG)). transitivity (f * finv f); [field; exact F0|rewrite Z; ring].
      + apply (eqv_pow GT KG). unfold miller_fun_neg. destruct (miller GT 0 n (untwist emb w Q) S) as [fm R] eqn:EM.
        cbn [snd] in W. subst R. unfold miller_fun in V. rewrite EM in V. cbn [fst] in V.
        assert (KV := HV x y O). set (v := vertical _ _ S) in *. assert (FM := proj1 (eqv_neq0 GT KG e _ _ V) F0).
        apply (eqv_inv GT KG); [|apply (fmul_neq_0 GT KG); [exact FM|apply KV]].
        destruct V as (m & M & ->). exists (m * finv v). split; [apply (killed_mul GT KG); [exact M|apply (killed_inv GT KG), KV]|].
        field. apply KV.
    - split; [exact F0|]. apply (eqv_pow GT KG), V.
  Qed.
End A40.
