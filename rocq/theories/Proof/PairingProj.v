(** The steps and lines of the projective form (mnt4, mnt6). *)
From Coq Require Import ZArith NArith List Bool Lia Ring Field Znumtheory.
From Verif Require Import Base.Field Base.Hom Spec.Group Spec.Weierstrass Spec.Pairing Model.Power Model.ShortWeierstrass Model.Pairing
  Proof.WeierstrassCoords Proof.WeierstrassGroup Proof.WeierstrassRep Proof.PairingCore Proof.PairingMiller Proof.PairingA40.
Import ListNotations.
Local Open Scope fld_scope.

Lemma pvalue_ext {St C D GT : Type} (d : St -> St * C) (a : St -> St * D) R (one : GT) ld la ld' la' n :
  (forall c f, ld c f = ld' c f) -> (forall c f, la c f = la' c f) -> pvalue d a R one ld la n = pvalue d a R one ld' la' n.
Proof. intros A B. induction n as [m IH|m IH|]; cbn [pvalue]; rewrite ?IH, ?A, ?B; reflexivity. Qed.
Lemma pvalue2_ext {St C D GT : Type} (d1 d2 : St -> St * C) (a1 a2 : St -> St * D) R1 R2 (one : GT) ld la ld' la' n :
  (forall c c' f, ld c c' f = ld' c c' f) -> (forall c c' f, la c c' f = la' c c' f) ->
  pvalue2 d1 d2 a1 a2 R1 R2 one ld la n = pvalue2 d1 d2 a1 a2 R1 R2 one ld' la' n.
Proof. intros A B. induction n as [m IH|m IH|]; cbn [pvalue2]; rewrite ?IH, ?A, ?B; reflexivity. Qed.

Section Proj.
  Variables K F GT : FieldOps.
  Hypothesis KK : FieldLaws K.
  Hypothesis KF : FieldLaws F.
  Hypothesis KG : FieldLaws GT.
  Let RF := FieldLaws_Ring F KF.
  Let RG := FieldLaws_Ring GT KG.
  Add Field Fproj : (FL_th F KF).
  Add Field GTproj : (FL_th GT KG).
  Variable smul : K -> F -> F.
  Variable inc : K -> F.
  Hypothesis HI : Hom K F inc.
  Hypothesis Hs : forall k x, smul k x = inc k * x.
  Variable squared : GT -> GT.
  Hypothesis Hq : forall f, squared f = f * f.
  Variable emb : F -> GT.
  Hypothesis H : Hom F GT emb.
  Variable w : GT.
  Hypothesis Hw : w <> 0.
  Variable mkgt : F -> F -> GT.
  Hypothesis Hmk : forall u v, mkgt u v = emb u + emb v * w.
  Hypothesis Hmk0 : forall u v, u <> 0 \/ v <> 0 -> mkgt u v <> 0.
  Variable twist : F.
  Hypothesis Htw : emb twist = w * w.
  Variables a b : K.
  Variables a' b' : F.
  Hypothesis Ea' : a' = inc a * twist * twist.
  Hypothesis Eb' : b' = inc b * twist * twist * twist.
  Hypothesis two : (2 : F) <> 0.
  Variable n : positive.
  Variable loop_neg : bool.
  Variable max_bits : nat.
  Hypothesis Hbits : (N.size (Npos n) <= N.of_nat max_bits)%N.
  Variables zx2 zy2 : F.
  Variable e : N.
  Hypothesis Hkill : forall c : F, c <> 0 -> killed GT e (emb c).
  Hypothesis Hkw : killed GT e w.
  Hypothesis Hns : forall s : F, s * s <> twist.

  Local Notation dstep := (pr_doubling_step K F smul a').
  Local Notation astep xq yq := (pr_mixed_addition_step F xq yq (yq * yq)).

  Lemma twist_0 : twist <> 0.
  Proof. intros Z. assert (E := Htw). rewrite Z, (hom_0 _ _ _ H) in E. apply (fmul_neq_0 GT KG w w Hw Hw). symmetry. exact E. Qed.
  Lemma smul_m8 x : smul (- fofZ 8) x = - (2 * 2 * 2 * x).
  Proof.
    rewrite Hs. change (fofZ 8 : K) with (fdbl (fdbl (fdbl 1)) : K). unfold fdbl.
    rewrite (hom_opp _ _ _ HI), !(hom_add _ _ _ HI), !(hom_1 _ _ _ HI). ring.
  Qed.
  (** Jacobian coordinates with T = Z^2 *)
  Definition jrep (R : ext_proj F) (x y : F) : Prop :=
    pZ R <> 0 /\ pT R = pZ R * pZ R /\ pX R = x * (pZ R * pZ R) /\ pY R = y * (pZ R * pZ R * pZ R).
  Lemma pr_double R x y x3 y3 : jrep R x y -> y <> 0 ->
    ec_add F a' (Aff x y) (Aff x y) = Aff x3 y3 -> jrep (fst (dstep R)) x3 y3.
  Proof.
    intros (Z0 & ET & EX & EY) Y A. destruct R as [X Y' Z T]. cbn [pX pY pZ pT] in *. subst X Y' T.
    rewrite (ec_tangent F KF two a' x y Y) in A. injection A as <- <-.
    unfold jrep, pr_doubling_step. cbn [pX pY pZ pT fst]. rewrite !smul_m8. unfold fdbl.
    split; [|split; [reflexivity|split; field; auto]].
    intros E. apply (fmul_neq_0 F KF (2 * y) (Z * Z * Z * Z)).
    - repeat apply (fmul_neq_0 F KF); assumption.
    - repeat apply (fmul_neq_0 F KF); assumption.
    - rewrite <- E. ring.
  Qed.
  Lemma pr_add R x y x2 y2 x3 y3 : jrep R x y -> x <> x2 ->
    ec_add F a' (Aff x y) (Aff x2 y2) = Aff x3 y3 -> jrep (fst (astep x2 y2 R)) x3 y3.
  Proof.
    intros (Z0 & ET & EX & EY) N A. destruct R as [X Y' Z T]. cbn [pX pY pZ pT] in *. subst X Y' T.
    assert (D : x2 - x <> 0) by (intros E; apply N; symmetry; apply (fsub_0_eq F RF), E).
    rewrite (ec_chord F KF a' x y x2 y2 D) in A. injection A as <- <-.
    unfold jrep, pr_mixed_addition_step. cbn [pX pY pZ pT fst].
    split; [|split; [reflexivity|split; field; auto]].
    intros E. apply (fmul_neq_0 F KF (2 * (x2 - x)) (Z * Z * Z)).
    - apply (fmul_neq_0 F KF); assumption.
    - repeat apply (fmul_neq_0 F KF); assumption.
    - rewrite <- E. ring.
  Qed.

  (** the line values *)
  Variables xp yp : K.
  Hypothesis yp0 : yp <> 0.
  Hypothesis onP : on_curve K a b (Aff xp yp).
  Let S : point GT := Aff (emb (inc xp)) (emb (inc yp)).
  Let P := mkR1 xp yp (inc xp * twist) (inc yp * twist).
  Let aG : GT := emb (inc a).
  Lemma HaG : emb a' = aG * (w * w * w * w).
  Proof. unfold aG. rewrite Ea', !(hom_mul _ _ _ H), Htw. ring. Qed.
  Lemma inc_yp' : inc yp <> 0.
  Proof. apply (emb_neq0 K F KK KF inc HI), yp0. Qed.
  Ltac embs := repeat first [rewrite (hom_add _ _ _ H) | rewrite (hom_mul _ _ _ H) | rewrite (hom_sub _ _ _ H) |
    rewrite (hom_opp _ _ _ H) | rewrite (hom_1 _ _ _ H) | rewrite (hom_0 _ _ _ H)].
  Lemma pr_val_double R x y : jrep R x y -> y <> 0 ->
    pr_g_RR K F GT mkgt P (snd (dstep R)) =
    line GT aG (untwist emb w (Aff x y)) (untwist emb w (Aff x y)) S *
    (emb (2 * 2 * y * (pZ R * pZ R * pZ R * pZ R * pZ R * pZ R) * twist) * w).
  Proof.
    intros (Z0 & ET & EX & EY) Y. destruct R as [X Y' Z T]. cbn [pX pY pZ pT] in *. subst X Y' T.
    assert (L := line_tangent F GT KF KG emb H w Hw a' aG HaG two x y (emb (inc xp)) (emb (inc yp)) Y). fold S in L.
    set (l := line GT aG _ _ S) in *.
    transitivity (l * (w * w * w * emb (2 * y)) * emb (2 * (Z * Z * Z * Z * Z * Z))).
    2:{ embs. rewrite Htw. ring. }
    rewrite L. clearbody l. unfold pr_g_RR, pr_doubling_step, P. cbn [snd c_H c_4C c_J c_L rPX_twist rPY_twist pX pY pZ pT].
    rewrite Hmk. embs. rewrite Htw. ring.
  Qed.
  Lemma pr_val_add R x y x2 y2 (Q : pr_g2_prec F) : jrep R x y -> x <> x2 ->
    rQX_over_twist Q = x2 * finv twist -> rQY_over_twist Q = y2 * finv twist ->
    pr_g_RQ K F GT inc mkgt P Q (snd (astep x2 y2 R)) =
    line GT aG (untwist emb w (Aff x y)) (untwist emb w (Aff x2 y2)) S *
    emb (2 * (pZ R * pZ R * pZ R) * (x2 - x) * twist).
  Proof.
    intros (Z0 & ET & EX & EY) N QX QY. destruct R as [X Y' Z T]. cbn [pX pY pZ pT] in *. subst X Y' T.
    assert (D : x2 - x <> 0) by (intros E; apply N; symmetry; apply (fsub_0_eq F RF), E).
    assert (L := line_chord F GT KF KG emb H w Hw aG x y x2 y2 (emb (inc xp)) (emb (inc yp)) D). fold S in L.
    set (l := line GT aG _ _ S) in *.
    assert (TW := emb_inv F GT KF KG emb H twist twist_0).
    transitivity (l * (w * w * w * emb (x2 - x)) * (emb (2 * (Z * Z * Z)) / w)).
    2:{ embs. rewrite Htw. field. exact Hw. }
    rewrite L. clearbody l. unfold pr_g_RQ, pr_L1_coeff, pr_mixed_addition_step, P. cbn [snd c_L1 c_RZ rPX rPX_twist rPY_twist pX pY pZ pT].
    rewrite Hmk, QX, QY. embs. rewrite TW, Htw. field. exact Hw.
  Qed.
  (** vertical lines *)
  Lemma pr_vert x y : on_curve F a' b' (Aff x y) -> inc xp - x * finv twist <> 0.
  Proof.
    intros O Z. assert (T0 := twist_0). assert (X : x = inc xp * twist).
    { transitivity ((inc xp - (inc xp - x * finv twist)) * twist); [field; exact T0|]. rewrite Z. ring. }
    assert (OP : inc yp * inc yp = inc xp * inc xp * inc xp + inc a * inc xp + inc b).
    { cbn in onP. rewrite <- !(hom_mul _ _ _ HI), <- !(hom_add _ _ _ HI). f_equal. exact onP. }
    cbn in O. apply (Hns (y / (inc yp * twist))). assert (I := inc_yp').
    transitivity (y * y / (inc yp * inc yp * twist * twist)); [field; auto|]. rewrite O, X, Ea', Eb'.
    transitivity ((inc xp * inc xp * inc xp + inc a * inc xp + inc b) * twist / (inc yp * inc yp)); [field; auto|].
    rewrite <- OP. field. auto.
  Qed.
  Lemma pr_vertical x y : on_curve F a' b' (Aff x y) -> killed GT e (vertical GT (untwist emb w (Aff x y)) S).
  Proof.
    intros O. assert (V := Hkill _ (pr_vert x y O)).
    replace (vertical GT (untwist emb w (Aff x y)) S) with (emb (inc xp - x * finv twist)); [exact V|].
    unfold S. cbn [untwist vertical]. embs. rewrite (emb_inv F GT KF KG emb H twist twist_0), Htw. field. exact Hw.
  Qed.

  (** the loops *)
  Variable g_RR : pr_g1_prec K F -> dbl_coeffs F -> GT.
  Hypothesis HRR : forall P dc, g_RR P dc = pr_g_RR K F GT mkgt P dc.
  Section Loops.
    Variables xq yq : F.
    Let R0 := mkXP xq yq (1 : F) 1.
    Local Notation ds := (pouts dstep (astep xq yq) R0 n).
    Local Notation az := (pouta dstep (astep xq yq) R0 n).
    Definition pr_last : add_coeffs F :=
      let R := prun dstep (astep xq yq) R0 n in
      let RZ_inv := finv (pZ R) in
      let x := pX R * (RZ_inv * RZ_inv) in
      let y := - pY R * (RZ_inv * RZ_inv * RZ_inv) in
      snd (astep x y R).
    Definition pr_tail : list (add_coeffs F) := if loop_neg then [pr_last] else [].
    Definition pr_prec : pr_g2_prec F := mkR2 xq yq (yq * yq) (xq * finv twist) (yq * finv twist) ds (az ++ pr_tail).
    Lemma pr_g2_loop_eq : pr_g2_loop K F smul a' (Npos n) max_bits xq yq (yq * yq) (R0, [], []) = (prun dstep (astep xq yq) R0 n, ds, az).
    Proof. unfold pr_g2_loop. rewrite bit_loop_pos by exact Hbits. apply (pre2_loop dstep (astep xq yq)). Qed.
    Lemma pr_precompute_g2_eq t : proj_to_affine F zx2 zy2 t = mkA xq yq ->
      pr_precompute_g2 K F smul twist a' (Npos n) loop_neg max_bits zx2 zy2 t = pr_prec.
    Proof.
      intros E. unfold pr_precompute_g2. rewrite E. cbn [aX aY]. cbv zeta. fold R0. rewrite pr_g2_loop_eq.
      unfold pr_prec, pr_tail. destruct loop_neg; [|rewrite app_nil_r; reflexivity].
      unfold pr_last. cbv zeta. destruct (pr_mixed_addition_step F _ _ _ _). reflexivity.
    Qed.
    Local Notation val PP := (pvalue dstep (astep xq yq) R0 (1 : GT) (fun c f => f * f * pr_g_RR K F GT mkgt PP c)
      (fun c f => f * pr_g_RQ K F GT inc mkgt PP pr_prec c) n).
    Lemma pr_miller_state_eq PP :
      pr_miller_state K F GT inc mkgt squared (Npos n) max_bits g_RR PP pr_prec = Some (val PP, length ds, length az).
    Proof.
      unfold pr_miller_state. rewrite bit_loop_pos by exact Hbits.
      assert (E := pread_loop dstep (astep xq yq) R0 (1 : GT) (fun c f => squared f * g_RR PP c)
        (fun c f => f * pr_g_RQ K F GT inc mkgt PP pr_prec c) n [] pr_tail).
      rewrite app_nil_r in E. etransitivity; [exact E|]. do 3 f_equal.
      apply pvalue_ext; intros c f; [rewrite Hq, HRR|]; reflexivity.
    Qed.
    Lemma pr_miller_end_eq PP :
      pr_miller_end K F GT inc mkgt squared (Npos n) loop_neg max_bits g_RR PP pr_prec =
      Some (if loop_neg then finv (val PP * pr_g_RQ K F GT inc mkgt PP pr_prec pr_last) else val PP,
            length (dbls pr_prec), length (adds pr_prec)).
    Proof.
      unfold pr_miller_end. rewrite pr_miller_state_eq.
      assert (A : adds pr_prec = az ++ pr_tail) by reflexivity. assert (D : dbls pr_prec = ds) by reflexivity. rewrite A, D.
      unfold pr_tail.
      destruct loop_neg.
      - assert (E := nth_mid az pr_last []). rewrite app_nil_r in E. rewrite E, app_length, Nat.add_1_r. reflexivity.
      - rewrite app_nil_r. reflexivity.
    Qed.
  End Loops.
  Local Notation mloop := (pr_miller_loop K F GT inc mkgt squared (Npos n) loop_neg max_bits g_RR).
  Local Notation dloop := (pr_double_miller_loop K F GT inc mkgt squared (Npos n) loop_neg max_bits).
  Lemma pr_double_eq P1 P2 x1 y1 x2 y2 : finv (0 : GT) = 0 ->
    exists f1 f2, mloop P1 (pr_prec x1 y1) = Some f1 /\ mloop P2 (pr_prec x2 y2) = Some f2 /\
      dloop P1 (pr_prec x1 y1) P2 (pr_prec x2 y2) = Some (f1 * f2).
  Proof.
    intros I0. unfold pr_miller_loop. rewrite !pr_miller_end_eq. cbn [option_map]. eexists. eexists.
    split; [reflexivity|]. split; [reflexivity|].
    unfold pr_double_miller_loop, pr_double_miller_state. rewrite bit_loop_pos by exact Hbits.
    assert (E := pread2_loop dstep dstep (astep x1 y1) (astep x2 y2) (mkXP x1 y1 1 1) (mkXP x2 y2 1 1) (1 : GT)
      (fun c1 c2 f => squared f * pr_g_RR K F GT mkgt P1 c1 * pr_g_RR K F GT mkgt P2 c2)
      (fun c1 c2 f => f * pr_g_RQ K F GT inc mkgt P1 (pr_prec x1 y1) c1 * pr_g_RQ K F GT inc mkgt P2 (pr_prec x2 y2) c2)
      n [] [] (pr_tail x1 y1) (pr_tail x2 y2)).
    rewrite !app_nil_r in E.
    match goal with |- match ?x with _ => _ end = _ => change x with
      (pos_loop n (pread2_body
      (fun c1 c2 f => squared f * pr_g_RR K F GT mkgt P1 c1 * pr_g_RR K F GT mkgt P2 c2)
      (fun c1 c2 f => f * pr_g_RQ K F GT inc mkgt P1 (pr_prec x1 y1) c1 * pr_g_RQ K F GT inc mkgt P2 (pr_prec x2 y2) c2)
        (pouts dstep (astep x1 y1) (mkXP x1 y1 1 1) n) (pouts dstep (astep x2 y2) (mkXP x2 y2 1 1) n)
        (pouta dstep (astep x1 y1) (mkXP x1 y1 1 1) n ++ pr_tail x1 y1)
        (pouta dstep (astep x2 y2) (mkXP x2 y2 1 1) n ++ pr_tail x2 y2)) (Some (1 : GT, O, O))) end.
    rewrite E.
    assert (V : pvalue2 dstep dstep (astep x1 y1) (astep x2 y2) (mkXP x1 y1 1 1) (mkXP x2 y2 1 1) (1 : GT)
      (fun c1 c2 f => squared f * pr_g_RR K F GT mkgt P1 c1 * pr_g_RR K F GT mkgt P2 c2)
      (fun c1 c2 f => f * pr_g_RQ K F GT inc mkgt P1 (pr_prec x1 y1) c1 * pr_g_RQ K F GT inc mkgt P2 (pr_prec x2 y2) c2) n =
      pvalue dstep (astep x1 y1) (mkXP x1 y1 1 1) 1 (fun c f => f * f * pr_g_RR K F GT mkgt P1 c)
        (fun c f => f * pr_g_RQ K F GT inc mkgt P1 (pr_prec x1 y1) c) n *
      pvalue dstep (astep x2 y2) (mkXP x2 y2 1 1) 1 (fun c f => f * f * pr_g_RR K F GT mkgt P2 c)
        (fun c f => f * pr_g_RQ K F GT inc mkgt P2 (pr_prec x2 y2) c) n).
    { rewrite <- (pvalue2_product RG). apply pvalue2_ext; intros c c' f; rewrite ?Hq; ring. }
    rewrite V.
    assert (A1 : adds (pr_prec x1 y1) = pouta dstep (astep x1 y1) (mkXP x1 y1 1 1) n ++ pr_tail x1 y1) by reflexivity.
    assert (A2 : adds (pr_prec x2 y2) = pouta dstep (astep x2 y2) (mkXP x2 y2 1 1) n ++ pr_tail x2 y2) by reflexivity.
    rewrite A1, A2. unfold pr_tail. destruct loop_neg; [|reflexivity].
    assert (N1 := nth_mid (pouta dstep (astep x1 y1) (mkXP x1 y1 1 1) n) (pr_last x1 y1) []). rewrite app_nil_r in N1. rewrite N1.
    rewrite (pouta_length dstep dstep (astep x1 y1) (astep x2 y2) (mkXP x1 y1 1 1) (mkXP x2 y2 1 1) n).
    assert (N2 := nth_mid (pouta dstep (astep x2 y2) (mkXP x2 y2 1 1) n) (pr_last x2 y2) []). rewrite app_nil_r in N2. rewrite N2.
    f_equal. rewrite <- (finv_mul GT KG) by exact I0. f_equal. ring.
  Qed.

  (** the Miller function *)
  Hypothesis NS : nonsingular F a' b'.
  Variable r : N.
  Hypothesis Pr : prime (Z.of_N r).
  Hypothesis nr : (2 * Npos n < r)%N.
  Variables xq yq : F.
  Hypothesis onQ : on_curve F a' b' (Aff xq yq).
  Hypothesis Qr : ec_mul F a' (N.to_nat r) (Aff xq yq) = Inf.
  Let Q : point F := Aff xq yq.
  Lemma mul4 (u v x y : F) : u <> 0 -> v <> 0 -> x <> 0 -> y <> 0 -> u * v * x * y <> 0.
  Proof. intros. repeat apply (fmul_neq_0 F KF); assumption. Qed.
  Theorem pr_miller_main : exists x y f,
    ec_mul F a' (Pos.to_nat n) Q = Aff x y /\
    jrep (fst (fst (pr_g2_loop K F smul a' (Npos n) max_bits xq yq (yq * yq) (mkXP xq yq 1 1, [], [])))) x y /\
    pr_miller_end K F GT inc mkgt squared (Npos n) loop_neg max_bits g_RR P (pr_prec xq yq) =
      Some (f, length (dbls (pr_prec xq yq)), length (adds (pr_prec xq yq))) /\
    f <> 0 /\
    (loop_neg = false -> fpow f e = fpow (miller_fun GT aG n (untwist emb w Q) S) e) /\
    (loop_neg = true -> fpow f e = fpow (miller_fun_neg GT aG n (untwist emb w Q) S) e).
  Proof.
    assert (M := miller_equiv F GT KF KG emb H w Hw a' b' aG HaG two NS e S xq yq onQ r Pr Qr dstep (astep xq yq) (mkXP xq yq 1 1)
      (fun c => pr_g_RR K F GT mkgt P c) (fun c => pr_g_RQ K F GT inc mkgt P (pr_prec xq yq) c) jrep).
    destruct M with (n := n) as (x & y & E & O & Rp & V0 & V & W).
    - split; [apply (F_1_neq_0 (FL_th F KF))|]. cbn. repeat split; ring.
    - intros R x y x3 y3 Rp O Y A. split; [apply (pr_double R x y); assumption|].
      assert (Z : 2 * 2 * y * (pZ R * pZ R * pZ R * pZ R * pZ R * pZ R) * twist <> 0).
      { destruct Rp as (Z0 & _). repeat apply (fmul_neq_0 F KF); try assumption. apply twist_0. }
      split.
      + unfold pr_g_RR, P, pr_doubling_step. cbn [snd c_H c_4C c_J c_L rPX_twist rPY_twist]. apply Hmk0. right.
        destruct Rp as (Z0 & ET & EX & EY). rewrite EY, ET. intros E.
        apply (mul4 (2 * 2) (y * (pZ R * pZ R * pZ R * pZ R * pZ R * pZ R)) (inc yp) twist).
        * apply (fmul_neq_0 F KF); assumption.
        * repeat apply (fmul_neq_0 F KF); assumption.
        * apply inc_yp'.
        * apply twist_0.
        * rewrite <- E. ring.
      + rewrite (pr_val_double R x y Rp Y). apply (eqv_killed GT KG). apply (killed_mul GT KG); [apply Hkill, Z|exact Hkw].
    - intros R x y x3 y3 Rp O Y A. split; [apply (pr_add R x y xq yq); assumption|].
      assert (D : xq - x <> 0) by (intros E; apply Y; symmetry; apply (fsub_0_eq F RF), E).
      assert (Z : 2 * (pZ R * pZ R * pZ R) * (xq - x) * twist <> 0).
      { destruct Rp as (Z0 & _). repeat apply (fmul_neq_0 F KF); try assumption. apply twist_0. }
      split.
      + unfold pr_g_RQ, P, pr_mixed_addition_step. cbn [snd c_L1 c_RZ rPY_twist]. apply Hmk0. left.
        destruct Rp as (Z0 & ET & EX & EY). rewrite EX, ET. intros E.
        apply (mul4 2 ((pZ R * pZ R * pZ R) * (xq - x)) (inc yp) twist); try assumption.
        * repeat apply (fmul_neq_0 F KF); assumption.
        * apply inc_yp'.
        * apply twist_0.
        * rewrite <- E. ring.
      + rewrite (pr_val_add R x y xq yq (pr_prec xq yq) Rp Y eq_refl eq_refl). apply (eqv_killed GT KG), Hkill, Z.
    - exact pr_vertical.
    - lia.
    - exists x, y. eexists. rewrite pr_miller_end_eq, pr_g2_loop_eq. cbn [fst].
      split; [rewrite <- E; symmetry; unfold mult; rewrite (sw_gmul F KF two a' b' NS); reflexivity|].
      split; [exact Rp|]. split; [reflexivity|].
      assert (Y : y <> 0).
      { apply (mult_y F KF a' b' two NS xq yq onQ r Pr Qr (Npos n) x y); [lia|lia|exact E]. }
      set (f := pvalue _ _ _ _ _ _ _) in *.
      assert (KL : killed GT e (pr_g_RQ K F GT inc mkgt P (pr_prec xq yq) (pr_last xq yq))).
      { unfold pr_last. cbv zeta. set (R := prun _ _ _ _) in *. destruct Rp as (Z0 & ET & EX & EY).
        unfold pr_g_RQ, P, pr_L1_coeff, pr_mixed_addition_step, pr_prec. cbn [snd c_L1 c_RZ rPX rPY_twist rQX_over_twist rQY_over_twist].
        rewrite Hmk, ET, EX, EY. assert (T0 := twist_0).
        match goal with |- killed _ _ (emb ?u + emb ?v * w) =>
          replace u with (0 : F) by (field; exact Z0);
          replace v with (2 * 2 * y * (pZ R * pZ R * pZ R) * (inc xp - xq * finv twist)) by (field; repeat split; assumption) end.
        rewrite (hom_0 _ _ _ H).
        match goal with |- killed _ _ (0 + ?x * w) => replace (0 + x * w) with (x * w) by ring end.
        apply (killed_mul GT KG); [|exact Hkw]. apply Hkill.
        repeat apply (fmul_neq_0 F KF); try assumption. apply (pr_vert xq yq onQ). }
      set (g := pr_g_RQ _ _ _ _ _ _ _ _) in *.
      assert (FG : f * g <> 0) by (apply (fmul_neq_0 GT KG); [exact V0|apply KL]).
      split.
      { destruct loop_neg; [|exact V0].
        intros Z. apply (F_1_neq_0 (FL_th GT KG)). transitivity (f * g * finv (f * g)); [field|rewrite Z; ring].
        split; [apply KL|exact V0]. }
      split; intros L; rewrite L.
      { apply (eqv_pow GT KG). exact V. }
      apply (eqv_pow GT KG). unfold miller_fun_neg. destruct (miller GT aG n (untwist emb w Q) S) as [fm R] eqn:EM.
      unfold Q in EM. rewrite EM in W, V. cbn [fst snd] in W, V. subst R.
      assert (KV := pr_vertical x y O). set (v := vertical _ _ S) in *. assert (FM := proj1 (eqv_neq0 GT KG e _ _ V) V0).
      apply (eqv_inv GT KG); [|apply (fmul_neq_0 GT KG); [exact FM|apply KV]].
      destruct V as (m & M2 & EV). exists (m * g * finv v).
      split; [apply (killed_mul GT KG); [apply (killed_mul GT KG); assumption|apply (killed_inv GT KG), KV]|].
      rewrite EV. field. apply KV.
  Qed.
End Proj.
