(** The steps and lines of the edwards<183> pairing. *)
From Coq Require Import ZArith NArith List Bool Lia Ring Field Znumtheory.
From Verif Require Import Base.Field Base.Hom Spec.Group Spec.Weierstrass Spec.Edwards Spec.EdwardsWeierstrass Spec.Pairing Model.Power
  Model.ShortWeierstrass Model.Edwards Model.Pairing
  Proof.WeierstrassCoords Proof.WeierstrassGroup Proof.WeierstrassRep Proof.EdwardsOps Proof.EdwardsGroup Proof.EdwardsTorsion Proof.EdwardsDual Proof.EdwardsWeierstrass
  Proof.PairingCore Proof.PairingMiller Proof.PairingA40 Proof.PairingProj.
Import ListNotations.
Local Open Scope fld_scope.

Lemma value2_ext {St C GT : Type} (d1 a1 d2 a2 : St -> St * C) R1 R2 (one : GT) ld la ld' la' n :
  (forall c c' f, ld c c' f = ld' c c' f) -> (forall c c' f, la c c' f = la' c c' f) ->
  value2 d1 a1 d2 a2 R1 R2 one ld la n = value2 d1 a1 d2 a2 R1 R2 one ld' la' n.
Proof. intros A B. induction n as [m IH|m IH|]; cbn [value2]; rewrite ?IH, ?A, ?B; reflexivity. Qed.

(** an extended point *)
Definition xrep (F : FieldOps) (R : ext_proj F) (P : F * F) : Prop :=
  pZ R <> 0 /\ pX R = fst P * pZ R /\ pY R = snd P * pZ R /\ pT R = fst P * snd P * pZ R.

Section EdHom.
  Variables A B : FieldOps.
  Hypothesis KA : FieldLaws A.
  Hypothesis KB : FieldLaws B.
  Add Field AEdHom : (FL_th A KA).
  Add Field BEdHom : (FL_th B KB).
  Variable h : A -> B.
  Hypothesis H : Hom A B h.
  Lemma h_fofpos p : h (fofpos p) = fofpos p.
  Proof. induction p; cbn [fofpos]; unfold fdbl; rewrite ?(hom_add _ _ _ H), ?IHp, ?(hom_1 _ _ _ H); reflexivity. Qed.
  Lemma h_WX a d y : 1 - y <> 0 -> h (WX A a d y) = WX B (h a) (h d) (h y).
  Proof.
    intros N. unfold WX. repeat first [rewrite (hom_add _ _ _ H)|rewrite (hom_mul _ _ _ H)|rewrite (hom_sub _ _ _ H)|rewrite (hom_1 _ _ _ H)].
    rewrite (emb_inv A B KA KB h H _ N), (hom_sub _ _ _ H), (hom_1 _ _ _ H). reflexivity.
  Qed.
  Lemma h_WY a d x y : x <> 0 -> 1 - y <> 0 -> h (WY A a d x y) = WY B (h a) (h d) (h x) (h y).
  Proof.
    intros Nx N. unfold WY. repeat first [rewrite (hom_add _ _ _ H)|rewrite (hom_mul _ _ _ H)|rewrite (hom_sub _ _ _ H)|rewrite (hom_1 _ _ _ H)].
    rewrite (emb_inv A B KA KB h H _ N), (emb_inv A B KA KB h H _ Nx), (hom_sub _ _ _ H), (hom_1 _ _ _ H). reflexivity.
  Qed.
  Lemma h_wa a d : h (te_wa A a d) = te_wa B (h a) (h d).
  Proof.
    unfold te_wa, fofZ.
    repeat first [rewrite (hom_opp _ _ _ H)|rewrite (hom_add _ _ _ H)|rewrite (hom_mul _ _ _ H)|rewrite (hom_sub _ _ _ H)|rewrite h_fofpos]. reflexivity.
  Qed.
  Lemma h_wb a d : h (te_wb A a d) = te_wb B (h a) (h d).
  Proof.
    unfold te_wb, fofZ.
    repeat first [rewrite (hom_opp _ _ _ H)|rewrite (hom_add _ _ _ H)|rewrite (hom_mul _ _ _ H)|rewrite (hom_sub _ _ _ H)|rewrite h_fofpos]. reflexivity.
  Qed.
End EdHom.

Section Ed.
  Variables K F GT : FieldOps.
  Hypothesis KK : FieldLaws K.
  Hypothesis KF : FieldLaws F.
  Hypothesis KG : FieldLaws GT.
  Let RK := FieldLaws_Ring K KK.
  Let RF := FieldLaws_Ring F KF.
  Let RG := FieldLaws_Ring GT KG.
  Add Field Ked : (FL_th K KK).
  Add Field Fed : (FL_th F KF).
  Add Field GTed : (FL_th GT KG).
  Variable smul : K -> F -> F.
  Variable inc : K -> F.
  Hypothesis HI : Hom K F inc.
  Hypothesis Hs : forall k x, smul k x = inc k * x.
  Variable squared : GT -> GT.
  Hypothesis Hq : forall f, squared f = f * f.
  Variable emb : F -> GT.
  Hypothesis H : Hom F GT emb.
  Variable w : GT.
  Hypothesis Hw : w <> 0.
  Variable mkgt : F -> F -> GT.
  Hypothesis Hmk : forall u v, mkgt u v = emb u + emb v * w.
  Hypothesis Hmk0 : forall u v, u <> 0 \/ v <> 0 -> mkgt u v <> 0.
  Variable twist : F.
  Hypothesis Htw : emb twist = w * w.
  Variable d : K.
  Variables aF dF : F.
  Hypothesis EaF : aF = twist.
  Hypothesis EdF : dF = inc d * twist.
  Variable mul_by_a : F -> F.
  Hypothesis Hma : forall x, mul_by_a x = aF * x.
  Hypothesis two : (2 : F) <> 0.
  Hypothesis three : (3 : F) <> 0.
  Hypothesis cmp : complete F dF aF.
  Variable r : N.
  Hypothesis odd : N.odd r = true.
  Variable n : positive.
  Variable max_bits : nat.
  Hypothesis Hbits : (N.size (Npos n) <= N.of_nat max_bits)%N.
  Variable e : N.
  Hypothesis Hkill : forall c : F, c <> 0 -> killed GT e (emb c).
  Hypothesis Hkw : killed GT e w.
  Hypothesis Hns : forall s : F, s * s <> twist.
  Local Notation IN P := (@gin (dual_group F KF two aF dF cmp r odd) P).
  Local Notation W := (te_weier F aF dF).
  Local Notation dstep := (ed_doubling_step F mul_by_a).
  Local Notation astep Q := (ed_mixed_addition_step F mul_by_a Q).
  Local Notation base x y := (mkXP x y (1 : F) (x * y)).
  Let ad := odd_ad F KF aF dF cmp.
  Let adK : 1 - d <> 0.
  Proof.
    intros E. apply ad. rewrite EaF, EdF. apply (fsub_0_eq K RK) in E. rewrite <- E, (hom_1 _ _ _ HI). ring.
  Qed.
  Let tw0 := twist_0 F GT KG emb H w Hw twist Htw.
  Ltac incs := repeat first [rewrite (hom_add _ _ _ HI) | rewrite (hom_mul _ _ _ HI) | rewrite (hom_sub _ _ _ HI) |
    rewrite (hom_opp _ _ _ HI) | rewrite (hom_1 _ _ _ HI)].
  Ltac embs := repeat first [rewrite (hom_add _ _ _ H) | rewrite (hom_mul _ _ _ H) | rewrite (hom_sub _ _ _ H) |
    rewrite (hom_opp _ _ _ H) | rewrite (hom_1 _ _ _ H)].

  (** ** the steps on extended coordinates *)
  Lemma ed_double R P : xrep F R P -> IN P -> xrep F (fst (dstep R)) (te_add F aF dF P P).
  Proof.
    intros (Z & EX & EY & ET) I. destruct R as [X Y Z' T]. cbn [pX pY pZ pT] in *. destruct P as [x y]. cbn [fst snd] in *.
    destruct (din_add F KF two aF dF cmp r odd _ _ I I) as ([D1 D2] & _ & _). cbn [fst snd] in D1, D2.
    assert (O := odd_on F KF two aF dF cmp r odd _ I). cbn in O.
    assert (E1 : aF * (x * x) + y * y <> 0) by (intros E; apply D1; rewrite <- E, O; ring).
    assert (E2 : 2 - (aF * (x * x) + y * y) <> 0) by (intros E; apply D2; rewrite <- E, O; ring).
    assert (Ed1 : 1 + dF * x * x * y * y = aF * (x * x) + y * y) by (rewrite O; ring).
    assert (Ed2 : 1 - dF * x * x * y * y = 2 - (aF * (x * x) + y * y)) by (rewrite O; ring).
    unfold ed_doubling_step. cbn [fst pX pY pZ pT]. unfold te_add, fdiv. rewrite !Hma, Ed1, Ed2, EX, EY. clear EX EY ET.
    unfold xrep. cbn [pX pY pZ pT fst snd].
    assert (ZZ : aF * (x * Z' * (x * Z')) + y * Z' * (y * Z') = (aF * (x * x) + y * y) * (Z' * Z')) by ring.
    assert (ZK : Z' * Z' - (aF * (x * Z' * (x * Z')) + y * Z' * (y * Z')) + Z' * Z' = (2 - (aF * (x * x) + y * y)) * (Z' * Z')) by ring.
    rewrite ZK, ZZ. split; [repeat apply (fmul_neq_0 F KF); assumption|].
    set (I0 := aF * (x * x) + y * y) in *. split; [|split].
    - transitivity (2 * x * y * (2 - I0) * (Z' * Z' * (Z' * Z'))); [unfold I0; ring|]. field. exact E1.
    - transitivity (I0 * (y * y - aF * x * x) * (Z' * Z' * (Z' * Z'))); [unfold I0; ring|]. field. exact E2.
    - transitivity (2 * x * y * (y * y - aF * x * x) * (Z' * Z' * (Z' * Z'))); [unfold I0; ring|]. field. auto.
  Qed.
  Lemma ed_addition R P x2 y2 : xrep F R P -> IN P -> IN (x2, y2) -> P <> te_zero -> (x2, y2) <> te_zero -> P <> (x2, y2) -> P <> te_neg (x2, y2) ->
    xrep F (fst (astep (base x2 y2) R)) (te_add F aF dF P (x2, y2)).
  Proof.
    intros (Z & EX & EY & ET) I I2 N1 N2 N M. destruct R as [X Y Z' T]. cbn [pX pY pZ pT] in *. destruct P as [x1 y1]. cbn [fst snd] in *.
    destruct (odd_pair F KF two aF dF cmp r odd x1 y1 x2 y2 I I2 N1 N2 N M) as (D1 & D2 & D3 & D4 & DD).
    rewrite (add_dual F KF aF dF _ _ _ _ (odd_on F KF two aF dF cmp r odd _ I) (odd_on F KF two aF dF cmp r odd _ I2) DD D3 D2).
    unfold ed_mixed_addition_step, xrep. cbn [fst snd pX pY pZ pT]. rewrite !Hma, EX, EY, ET. clear EX EY ET.
    assert (EF : (x1 * Z' - y1 * Z') * (x2 + y2) + y1 * Z' * y2 - x1 * Z' * x2 = (x1 * y2 - y1 * x2) * Z') by ring.
    assert (EG : y1 * Z' * y2 + aF * (x1 * Z' * x2) = (y1 * y2 + aF * x1 * x2) * Z') by ring.
    rewrite EF, EG. split; [repeat apply (fmul_neq_0 F KF); assumption|].
    split; [|split]; field; auto.
  Qed.
  (** ** the conics *)
  Lemma ed_double_conic R x1 y1 : xrep F R (x1, y1) ->
    let c := snd (dstep R) in let z := pZ R * pZ R in
    c_ZZ c = 2 * (y1 * (x1 * y1 - x1)) * z /\ c_XY c = 2 * (1 - aF * (x1 * x1) - y1 * y1 + y1) * z /\
    c_XZ c = 2 * (aF * (x1 * (x1 * y1)) - y1 * y1) * z.
  Proof.
    intros (Z & EX & EY & ET). destruct R as [X Y Z' T]. cbn [pX pY pZ pT fst snd] in *. unfold ed_doubling_step.
    cbn [snd c_ZZ c_XY c_XZ pX pY pZ pT]. rewrite !Hma, EX, EY, ET. repeat split; ring.
  Qed.
  Lemma ed_add_conic R x1 y1 x2 y2 : xrep F R (x1, y1) ->
    let c := snd (astep (base x2 y2) R) in let z := pZ R in
    c_ZZ c = twist * (x1 * x2 * (y1 - y2)) * z /\ c_XY c = (x1 - x2 + (x1 * y2 - y1 * x2)) * z /\
    c_XZ c = (y1 * y2 * (x2 - x1) - (x1 * y1 - x2 * y2)) * z.
  Proof.
    intros (Z & EX & EY & ET). destruct R as [X Y Z' T]. cbn [pX pY pZ pT fst snd] in *. unfold ed_mixed_addition_step.
    cbn [snd c_ZZ c_XY c_XZ pX pY pZ pT]. rewrite !Hma, EX, EY, ET, EaF. repeat split; ring.
  Qed.

  (** ** the line values at a point of the base curve *)
  Variables xp yp : K.
  Hypothesis onP : on_te K 1 d (xp, yp).
  Hypothesis xp0 : xp <> 0.
  Let yp1 : 1 - yp <> 0 := on_y1 K KK 1 d adK xp yp onP xp0.
  Let yp2 : 1 + yp <> 0 := on_x K KK 1 d adK yp xp onP xp0.
  Let P := mkE1 (xp * yp) xp (1 + yp).
  Let S : point GT := Aff (emb (inc (WX K 1 d yp))) (emb (inc (WY K 1 d xp yp))).
  Let aG := emb (inc (te_wa K 1 d)).
  Lemma inc0 x : x <> 0 -> inc x <> 0.
  Proof. exact (emb_neq0 K F KK KF inc HI x). Qed.
  Lemma emb0 x : x <> 0 -> emb x <> 0.
  Proof. exact (emb_neq0 F GT KF KG emb H x). Qed.
  Lemma ed_HaG : emb (te_wa F aF dF) = aG * (w * w * w * w).
  Proof.
    unfold aG. rewrite (h_wa K F inc HI), (h_wa F GT emb H), (h_wa F GT emb H), EaF, EdF. embs. rewrite Htw, (hom_1 _ _ _ HI), (hom_1 _ _ _ H).
    unfold te_wa. ring.
  Qed.
  Lemma ed_wb : te_wb F aF dF = inc (te_wb K 1 d) * twist * twist * twist.
  Proof. rewrite (h_wb K F inc HI), EaF, EdF, (hom_1 _ _ _ HI). unfold te_wb. ring. Qed.
  Lemma ed_wa : te_wa F aF dF = inc (te_wa K 1 d) * twist * twist.
  Proof. rewrite (h_wa K F inc HI), EaF, EdF, (hom_1 _ _ _ HI). unfold te_wa. ring. Qed.
  (** S on the twisted curve *)
  Local Notation x' := (emb (inc xp) / w).
  Local Notation y' := (emb (inc yp)).
  Lemma y'1 : 1 - y' <> 0.
  Proof. intros E. apply (emb0 (inc (1 - yp)) (inc0 _ yp1)). incs. embs. exact E. Qed.
  Lemma x'0 : x' <> 0.
  Proof.
    intros E. apply (emb0 _ (inc0 _ xp0)). transitivity (x' * w); [field; exact Hw|]. rewrite E. ring.
  Qed.
  Lemma S_x : w * w * emb (inc (WX K 1 d yp)) = WX GT (emb aF) (emb dF) y'.
  Proof.
    assert (N : 1 - inc yp <> 0) by (intros E; apply (inc0 _ yp1); incs; exact E).
    rewrite (h_WX K F KK KF inc HI 1 d yp yp1), (h_WX F GT KF KG emb H _ _ _ N), EaF, EdF. embs. rewrite Htw, (hom_1 _ _ _ HI), (hom_1 _ _ _ H).
    unfold WX. assert (Y := y'1). field. exact Y.
  Qed.
  Lemma S_y : w * w * w * emb (inc (WY K 1 d xp yp)) = WY GT (emb aF) (emb dF) x' y'.
  Proof.
    assert (N : 1 - inc yp <> 0) by (intros E; apply (inc0 _ yp1); incs; exact E).
    rewrite (h_WY K F KK KF inc HI 1 d xp yp xp0 yp1), (h_WY F GT KF KG emb H _ _ _ _ (inc0 _ xp0) N), EaF, EdF. embs.
    rewrite Htw, (hom_1 _ _ _ HI), (hom_1 _ _ _ H).
    unfold WY. assert (Y := y'1). assert (X := emb0 _ (inc0 _ xp0)). field. auto.
  Qed.
  Lemma emb_conic czz cxy cxz : w * conic_at GT (emb czz) (emb cxy) (emb cxz) x' y' =
    mkgt (inc (xp * yp) * cxy + inc xp * cxz) (inc (1 + yp) * czz).
  Proof. rewrite Hmk. unfold conic_at. incs. embs. field. exact Hw. Qed.
  Local Notation c54 := (2 * 3 * 3 * 3 * (aF - dF)).
  Let c54_0 : c54 <> 0.
  Proof. repeat apply (fmul_neq_0 F KF); assumption. Qed.
  Let twoG : (2 : GT) <> 0 := two_GT F GT KF KG emb H two.
  Let threeG : (3 : GT) <> 0.
  Proof. intros E. apply (emb0 _ three). embs. exact E. Qed.
  Let adG : emb aF - emb dF <> 0.
  Proof. intros E. apply (emb0 _ ad). embs. exact E. Qed.
  Local Notation psi := (untwist emb w).
  Definition u_dbl (z x1 y1 : F) : F := z * (inc xp * (1 - inc yp)) * (2 * (y1 * (x1 * y1 - x1))) * twist / c54.
  Definition u_add (z x1 y1 x2 y2 : F) : F := z * (inc xp * (1 - inc yp)) * (x1 * x2 * (y1 - y2)) * (twist * twist) / c54.
  Let ip0 : inc xp * (1 - inc yp) <> 0.
  Proof.
    intros E. apply (inc0 (xp * (1 - yp))); [apply (fmul_neq_0 K KK); [exact xp0|exact yp1]|]. incs. exact E.
  Qed.
  Lemma u_dbl_0 z x1 y1 : z <> 0 -> IN (x1, y1) -> (x1, y1) <> te_zero -> u_dbl z x1 y1 <> 0.
  Proof.
    intros Z I N. destruct (odd_reg F KF two aF dF cmp r odd _ I N) as [X Y]. cbn [fst snd] in X, Y.
    assert (Y1 := on_y1 F KF aF dF ad x1 y1 (odd_on F KF two aF dF cmp r odd _ I) X).
    assert (C0 := finv_neq_0 F KF _ c54_0).
    unfold u_dbl, fdiv. replace (x1 * y1 - x1) with (- (1) * x1 * (1 - y1)) by ring.
    assert (O : - (1 : F) <> 0).
    { intros E. apply (F_1_neq_0 (FL_th F KF)). transitivity (- - (1 : F)); [ring|]. rewrite E. ring. }
    repeat apply (fmul_neq_0 F KF); try assumption.
    - intros E. apply ip0. rewrite E. ring.
    - intros E. apply ip0. rewrite E. ring.
  Qed.
  Lemma u_add_0 z x1 y1 x2 y2 : z <> 0 -> x1 <> 0 -> x2 <> 0 -> y1 - y2 <> 0 -> u_add z x1 y1 x2 y2 <> 0.
  Proof.
    intros Z X X2 Y. assert (C0 := finv_neq_0 F KF _ c54_0).
    unfold u_add, fdiv. repeat apply (fmul_neq_0 F KF); try assumption.
    - intros E. apply ip0. rewrite E. ring.
    - intros E. apply ip0. rewrite E. ring.
  Qed.
  Lemma emb_on x1 y1 : on_te F aF dF (x1, y1) -> on_te GT (emb aF) (emb dF) (emb x1, emb y1).
  Proof. unfold on_te. intros E. apply (f_equal emb) in E. revert E. embs. exact (fun e => e). Qed.
  Lemma ed_line_tangent x1 y1 : IN (x1, y1) -> (x1, y1) <> te_zero ->
    line GT aG (psi (Aff (WX F aF dF y1) (WY F aF dF x1 y1))) (psi (Aff (WX F aF dF y1) (WY F aF dF x1 y1))) S * (w * w * w) *
    (x' * (1 - y') * emb (2 * (y1 * (x1 * y1 - x1)))) =
    conic_at GT (emb (2 * (y1 * (x1 * y1 - x1)))) (emb (2 * (1 - aF * (x1 * x1) - y1 * y1 + y1))) (emb (2 * (aF * (x1 * (x1 * y1)) - y1 * y1))) x' y' *
    emb c54.
  Proof.
    intros I N. destruct (odd_reg F KF two aF dF cmp r odd _ I N) as [X Y]. cbn [fst snd] in X, Y.
    assert (O := odd_on F KF two aF dF cmp r odd _ I).
    assert (Y1 := on_y1 F KF aF dF ad x1 y1 O X). assert (Y2 := on_x F KF aF dF ad y1 x1 O X).
    assert (WY0 : WY F aF dF x1 y1 <> 0).
    { unfold WY. assert (C0 := finv_neq_0 F KF _ X). assert (C1 := finv_neq_0 F KF _ Y1). repeat apply (fmul_neq_0 F KF); assumption. }
    assert (L := line_tangent F GT KF KG emb H w Hw (te_wa F aF dF) aG ed_HaG two (WX F aF dF y1) (WY F aF dF x1 y1)
      (emb (inc (WX K 1 d yp))) (emb (inc (WY K 1 d xp yp))) WY0). fold S in L.
    rewrite S_x, S_y in L. set (l := line GT aG _ _ S) in *.
    assert (C := conic_tangent GT KG twoG threeG (emb aF) (emb dF) adG (emb x1) (emb y1) x' y' (emb_on _ _ O) (emb0 _ X) (emb0 _ Y)).
    assert (Y2' : emb y1 + 1 <> 0) by (intros E; apply (emb0 _ Y2); embs; rewrite <- E; ring).
    specialize (C Y2' x'0 y'1). cbv zeta in C.
    assert (WX' := h_WX F GT KF KG emb H aF dF y1 Y1). assert (WY' := h_WY F GT KF KG emb H aF dF x1 y1 X Y1).
    assert (WYG := emb0 _ WY0).
    embs. rewrite C, <- WX', <- WY', <- (h_wa F GT emb H).
    match goal with |- _ = ?R * _ => assert (E : l * (w * w * w) = R) end.
    { transitivity (l * (w * w * w * emb (2 * WY F aF dF x1 y1)) * finv (emb (2 * WY F aF dF x1 y1))).
      - field. apply emb0. apply (fmul_neq_0 F KF); assumption.
      - rewrite L. embs. field. auto. }
    rewrite E. reflexivity.
  Qed.
  Lemma ed_line_chord x1 y1 x2 y2 : IN (x1, y1) -> IN (x2, y2) -> (x1, y1) <> te_zero -> (x2, y2) <> te_zero -> y2 - y1 <> 0 ->
    line GT aG (psi (Aff (WX F aF dF y1) (WY F aF dF x1 y1))) (psi (Aff (WX F aF dF y2) (WY F aF dF x2 y2))) S * (w * w * w) *
    (x' * (1 - y') * emb (x1 * x2 * (y1 - y2))) =
    conic_at GT (emb (x1 * x2 * (y1 - y2))) (emb (x1 - x2 + (x1 * y2 - y1 * x2))) (emb (y1 * y2 * (x2 - x1) - (x1 * y1 - x2 * y2))) x' y' *
    emb c54.
  Proof.
    intros I I2 N N2 D. destruct (odd_reg F KF two aF dF cmp r odd _ I N) as [X _]. destruct (odd_reg F KF two aF dF cmp r odd _ I2 N2) as [X2 _].
    cbn [fst] in X, X2.
    assert (Y1 := on_y1 F KF aF dF ad x1 y1 (odd_on F KF two aF dF cmp r odd _ I) X).
    assert (Y2 := on_y1 F KF aF dF ad x2 y2 (odd_on F KF two aF dF cmp r odd _ I2) X2).
    assert (W0 := WX_inj F KF two three aF dF ad y1 y2 Y1 Y2 D).
    assert (L := line_chord F GT KF KG emb H w Hw aG (WX F aF dF y1) (WY F aF dF x1 y1) (WX F aF dF y2) (WY F aF dF x2 y2)
      (emb (inc (WX K 1 d yp))) (emb (inc (WY K 1 d xp yp))) W0). fold S in L.
    rewrite S_x, S_y in L. set (l := line GT aG _ _ S) in *.
    assert (Y1' : 1 - emb y1 <> 0) by (intros E; apply (emb0 _ Y1); embs; rewrite <- E; ring).
    assert (Y2' : 1 - emb y2 <> 0) by (intros E; apply (emb0 _ Y2); embs; rewrite <- E; ring).
    assert (D' : emb y2 - emb y1 <> 0) by (intros E; apply (emb0 _ D); embs; rewrite <- E; ring).
    assert (C := conic_chord GT KG twoG threeG (emb aF) (emb dF) adG (emb x1) (emb y1) (emb x2) (emb y2) x' y' Y1' Y2' (emb0 _ X) (emb0 _ X2) D' x'0 y'1).
    cbv zeta in C.
    assert (WX1 := h_WX F GT KF KG emb H aF dF y1 Y1). assert (WY1 := h_WY F GT KF KG emb H aF dF x1 y1 X Y1).
    assert (WX2 := h_WX F GT KF KG emb H aF dF y2 Y2). assert (WY2 := h_WY F GT KF KG emb H aF dF x2 y2 X2 Y2).
    assert (WG := emb0 _ W0). rewrite (hom_sub _ _ _ H) in WG.
    embs. rewrite C, <- WX1, <- WY1, <- WX2, <- WY2.
    match goal with |- _ = ?R * _ => assert (E : l * (w * w * w) = R) end.
    { transitivity (l * (w * w * w * emb (WX F aF dF y2 - WX F aF dF y1)) * finv (emb (WX F aF dF y2 - WX F aF dF y1))).
      - field. apply emb0. exact W0.
      - rewrite L. embs. field. exact WG. }
    rewrite E. reflexivity.
  Qed.
  Local Notation gRR := (ed_g_RR K F GT smul mkgt P).
  Local Notation gRQ := (ed_g_RQ K F GT smul mkgt P).
  Lemma ed_val_double R x1 y1 : xrep F R (x1, y1) -> IN (x1, y1) -> (x1, y1) <> te_zero ->
    gRR (snd (dstep R)) =
    line GT aG (psi (Aff (WX F aF dF y1) (WY F aF dF x1 y1))) (psi (Aff (WX F aF dF y1) (WY F aF dF x1 y1))) S *
    (emb (u_dbl (pZ R * pZ R) x1 y1) * w).
  Proof.
    intros Rp I N. assert (L := ed_line_tangent x1 y1 I N). set (l := line GT aG _ _ S) in *.
    destruct (ed_double_conic R x1 y1 Rp) as (E1 & E2 & E3). set (c := snd (dstep R)) in *. clearbody c.
    unfold ed_g_RR, P. cbn [P_XY P_XZ P_ZZplusYZ]. rewrite !Hs, E1, E2, E3.
    set (czz := 2 * (y1 * (x1 * y1 - x1))) in *. set (cxy := 2 * (1 - aF * (x1 * x1) - y1 * y1 + y1)) in *.
    set (cxz := 2 * (aF * (x1 * (x1 * y1)) - y1 * y1)) in *. set (z := pZ R * pZ R).
    transitivity (emb z * mkgt (inc (xp * yp) * cxy + inc xp * cxz) (inc (1 + yp) * czz)).
    { rewrite !Hmk. embs. ring. }
    rewrite <- (emb_conic czz cxy cxz).
    unfold u_dbl. fold czz. rewrite (emb_div F GT KF KG emb H _ _ c54_0).
    assert (CE := emb0 _ c54_0). set (C54 := emb c54) in *. clearbody C54.
    set (cn := conic_at GT _ _ _ _ _) in *. clearbody cn.
    transitivity (emb z * w * (cn * C54) / C54); [field; exact CE|]. rewrite <- L. embs. rewrite Htw. field. auto.
  Qed.
  Lemma ed_val_add R x1 y1 x2 y2 : xrep F R (x1, y1) -> IN (x1, y1) -> IN (x2, y2) -> (x1, y1) <> te_zero -> (x2, y2) <> te_zero -> y2 - y1 <> 0 ->
    gRQ (snd (astep (base x2 y2) R)) =
    line GT aG (psi (Aff (WX F aF dF y1) (WY F aF dF x1 y1))) (psi (Aff (WX F aF dF y2) (WY F aF dF x2 y2))) S *
    emb (u_add (pZ R) x1 y1 x2 y2).
  Proof.
    intros Rp I I2 N N2 D. assert (L := ed_line_chord x1 y1 x2 y2 I I2 N N2 D). set (l := line GT aG _ _ S) in *.
    destruct (ed_add_conic R x1 y1 x2 y2 Rp) as (E1 & E2 & E3). set (c := snd (astep _ R)) in *. clearbody c.
    unfold ed_g_RQ, P. cbn [P_XY P_XZ P_ZZplusYZ]. rewrite !Hs, E1, E2, E3.
    set (czz := x1 * x2 * (y1 - y2)) in *. set (cxy := x1 - x2 + (x1 * y2 - y1 * x2)) in *.
    set (cxz := y1 * y2 * (x2 - x1) - (x1 * y1 - x2 * y2)) in *. set (z := pZ R).
    transitivity (emb z * w * mkgt (inc (xp * yp) * cxy + inc xp * cxz) (inc (1 + yp) * czz)).
    { rewrite !Hmk. embs. rewrite Htw. ring. }
    rewrite <- (emb_conic czz cxy cxz).
    unfold u_add. fold czz. rewrite (emb_div F GT KF KG emb H _ _ c54_0).
    assert (CE := emb0 _ c54_0). set (C54 := emb c54) in *. clearbody C54.
    set (cn := conic_at GT _ _ _ _ _) in *. clearbody cn.
    transitivity (emb z * w * w * (cn * C54) / C54); [field; exact CE|]. rewrite <- L. embs. rewrite Htw. field. auto.
  Qed.
  Lemma ed_vertical x y : on_curve F (te_wa F aF dF) (te_wb F aF dF) (Aff x y) -> killed GT e (vertical GT (psi (Aff x y)) S).
  Proof.
    apply (pr_vertical K F GT KK KF KG inc HI emb H w Hw twist Htw (te_wa K 1 d) (te_wb K 1 d) _ _ ed_wa ed_wb e Hkill Hns).
    - unfold WY. assert (C0 := finv_neq_0 K KK _ xp0). assert (C1 := finv_neq_0 K KK _ yp1).
      assert (t2 : (2 : K) <> 0) by (intros E; apply two; rewrite <- (hom_1 _ _ _ HI), <- (hom_add _ _ _ HI), E; apply (hom_0 _ _ _ HI)).
      assert (t3 : (3 : K) <> 0) by (intros E; apply three; rewrite <- (hom_1 _ _ _ HI), <- !(hom_add _ _ _ HI), E; apply (hom_0 _ _ _ HI)).
      repeat apply (fmul_neq_0 K KK); assumption.
    - apply (W_on K KK 1 d adK xp yp onP xp0).
  Qed.
  Lemma ed_step_dbl R P1 : xrep F R P1 -> IN P1 -> P1 <> te_zero ->
    exists u, xrep F (fst (dstep R)) (te_add F aF dF P1 P1) /\ u <> 0 /\
      gRR (snd (dstep R)) = line GT aG (psi (W P1)) (psi (W P1)) S * (emb u * w).
  Proof.
    intros Rp I N. destruct P1 as [x1 y1]. exists (u_dbl (pZ R * pZ R) x1 y1). split; [exact (ed_double R (x1, y1) Rp I)|].
    split; [apply (u_dbl_0 _ x1 y1 (fmul_neq_0 F KF _ _ (proj1 Rp) (proj1 Rp)) I N)|].
    rewrite (W_aff F KF two aF dF cmp r odd (x1, y1) I N). exact (ed_val_double R x1 y1 Rp I N).
  Qed.
  Lemma ed_step_add R P1 P2 : xrep F R P1 -> IN P1 -> IN P2 -> P1 <> te_zero -> P2 <> te_zero -> P1 <> P2 -> P1 <> te_neg P2 ->
    let Q := mkXP (fst P2) (snd P2) (1 : F) (fst P2 * snd P2) in
    exists u, xrep F (fst (astep Q R)) (te_add F aF dF P1 P2) /\ u <> 0 /\
      gRQ (snd (astep Q R)) = line GT aG (psi (W P1)) (psi (W P2)) S * emb u.
  Proof.
    intros Rp I1 I2 N1 N2 D1 D2 Q. destruct P1 as [x1 y1], P2 as [x2 y2]. cbn [fst snd] in Q. subst Q.
    destruct (odd_pair F KF two aF dF cmp r odd x1 y1 x2 y2 I1 I2 N1 N2 D1 D2) as (Y & _).
    destruct (odd_reg F KF two aF dF cmp r odd _ I1 N1) as [X1 _]. destruct (odd_reg F KF two aF dF cmp r odd _ I2 N2) as [X2 _].
    cbn [fst] in X1, X2.
    assert (Y1 : y1 - y2 <> 0) by (intros E; apply Y; transitivity ((y1 - y2) * (y1 + y2)); [ring|rewrite E; ring]).
    assert (Y2 : y2 - y1 <> 0) by (intros E; apply Y; transitivity (- ((y2 - y1) * (y1 + y2))); [ring|rewrite E; ring]).
    exists (u_add (pZ R) x1 y1 x2 y2). split; [exact (ed_addition R (x1, y1) x2 y2 Rp I1 I2 N1 N2 D1 D2)|].
    split; [apply (u_add_0 (pZ R) x1 y1 x2 y2 (proj1 Rp) X1 X2 Y1)|].
    rewrite (W_aff F KF two aF dF cmp r odd (x1, y1) I1 N1), (W_aff F KF two aF dF cmp r odd (x2, y2) I2 N2).
    exact (ed_val_add R x1 y1 x2 y2 Rp I1 I2 N1 N2 Y2).
  Qed.

  (** ** the loops *)
  Section Loops.
    Variables xq yq : F.
    Let R0 := base xq yq.
    Local Notation cs := (out dstep (astep R0) R0 n).
    Lemma ed_g2_loop_eq : ed_g2_loop F mul_by_a (Npos n) max_bits R0 (R0, []) = (run dstep (astep R0) R0 n, cs).
    Proof. unfold ed_g2_loop. rewrite bit_loop_pos by exact Hbits. apply (pre_loop dstep (astep R0)). Qed.
    Lemma ed_precompute_g2_eq : ed_precompute_g2 F mul_by_a (Npos n) max_bits (mkI xq yq 1) = cs.
    Proof. unfold ed_precompute_g2. cbn [iX iY iZ]. fold R0. rewrite ed_g2_loop_eq. reflexivity. Qed.
    Local Notation val PP := (value dstep (astep R0) R0 (1 : GT) (fun c f => f * f * ed_g_RR K F GT smul mkgt PP c)
      (fun c f => f * ed_g_RQ K F GT smul mkgt PP c) n).
    Lemma ed_miller_state_eq PP : ed_miller_state K F GT smul mkgt squared (Npos n) max_bits PP cs = Some (val PP, length cs).
    Proof.
      unfold ed_miller_state. rewrite bit_loop_pos by exact Hbits.
      assert (E := read_loop dstep (astep R0) R0 (1 : GT) (fun c f => squared f * ed_g_RR K F GT smul mkgt PP c)
        (fun c f => f * ed_g_RQ K F GT smul mkgt PP c) n []).
      rewrite app_nil_r in E. etransitivity; [exact E|]. rewrite !value_pvalue. do 2 f_equal.
      apply pvalue_ext; intros c f; rewrite ?Hq; reflexivity.
    Qed.
  End Loops.
  Lemma ed_double_eq P1 P2 x1 y1 x2 y2 : exists f1 f2,
    ed_miller_loop K F GT smul mkgt squared (Npos n) max_bits P1 (ed_precompute_g2 F mul_by_a (Npos n) max_bits (mkI x1 y1 1)) = Some f1 /\
    ed_miller_loop K F GT smul mkgt squared (Npos n) max_bits P2 (ed_precompute_g2 F mul_by_a (Npos n) max_bits (mkI x2 y2 1)) = Some f2 /\
    ed_double_miller_loop K F GT smul mkgt squared (Npos n) max_bits P1 (ed_precompute_g2 F mul_by_a (Npos n) max_bits (mkI x1 y1 1))
      P2 (ed_precompute_g2 F mul_by_a (Npos n) max_bits (mkI x2 y2 1)) = Some (f1 * f2).
  Proof.
    rewrite !ed_precompute_g2_eq. unfold ed_miller_loop. rewrite !ed_miller_state_eq. cbn [option_map fst]. eexists. eexists.
    split; [reflexivity|]. split; [reflexivity|].
    unfold ed_double_miller_loop. rewrite bit_loop_pos by exact Hbits.
    assert (E := read2_loop dstep (astep (base x1 y1)) dstep (astep (base x2 y2)) (base x1 y1) (base x2 y2) (1 : GT)
      (fun c1 c2 f => squared f * ed_g_RR K F GT smul mkgt P1 c1 * ed_g_RR K F GT smul mkgt P2 c2)
      (fun c1 c2 f => f * ed_g_RQ K F GT smul mkgt P1 c1 * ed_g_RQ K F GT smul mkgt P2 c2) n [] []).
    rewrite !app_nil_r in E.
    match goal with |- option_map fst ?x = _ => replace x with (pos_loop n (read2_body
      (fun c1 c2 f => squared f * ed_g_RR K F GT smul mkgt P1 c1 * ed_g_RR K F GT smul mkgt P2 c2)
      (fun c1 c2 f => f * ed_g_RQ K F GT smul mkgt P1 c1 * ed_g_RQ K F GT smul mkgt P2 c2)
      (out dstep (astep (base x1 y1)) (base x1 y1) n) (out dstep (astep (base x2 y2)) (base x2 y2) n)) (Some (1 : GT, O))) by reflexivity end.
    rewrite E. cbn [option_map fst]. f_equal. rewrite <- (value2_product RG).
    apply value2_ext; intros c c' f; rewrite ?Hq; reflexivity.
  Qed.

  (** ** the Miller function *)
  Definition ed_rep (R : ext_proj F) (x y : F) : Prop :=
    exists x1 y1, xrep F R (x1, y1) /\ IN (x1, y1) /\ (x1, y1) <> te_zero /\ x = WX F aF dF y1 /\ y = WY F aF dF x1 y1.
  Hypothesis Pr : prime (Z.of_N r).
  Hypothesis nlt : (Npos n < r)%N.
  Variables xq yq : F.
  Hypothesis inQ : IN (xq, yq).
  Hypothesis Q0 : (xq, yq) <> te_zero.
  Let NS := odd_ns F KF two three aF dF cmp.
  Lemma ed_WQ : W (xq, yq) = Aff (WX F aF dF yq) (WY F aF dF xq yq).
  Proof. exact (W_aff F KF two aF dF cmp r odd (xq, yq) inQ Q0). Qed.
  Lemma ed_order : te_mul F aF dF (N.to_nat r) (xq, yq) = te_zero.
  Proof.
    destruct (dual_mul F KF two aF dF cmp r odd (N.to_nat r) _ inQ) as [E D].
    destruct inQ as (_ & _ & E2). cbn in E2.
    apply (dual_inj F KF); [exact (proj1 D)|cbn; apply (F_1_neq_0 (FL_th F KF))|]. rewrite E, (dual_zero F KF).
    rewrite <- (te_gmul F KF two dF aF cmp). exact E2.
  Qed.
  Lemma W_inj P1 P2 : IN P1 -> IN P2 -> W P1 = W P2 -> P1 = P2.
  Proof.
    intros I1 I2 E. apply (odd_neg F KF two aF dF cmp r odd P1 P2 I1 I2).
    assert (I3 := din_neg F KF two aF dF cmp r _ I2).
    destruct (din_add F KF two aF dF cmp r odd _ _ I1 I3) as (_ & _ & I4).
    set (P3 := te_add F aF dF P1 (te_neg P2)) in *.
    assert (Z : W P3 = Inf).
    { unfold P3. rewrite <- (W_hom F KF two three aF dF cmp r odd P1 (te_neg P2) I1 I3), (W_negate F KF two aF dF cmp r odd P2 I2), E.
      exact (g_negr (sw_group F KF two _ _ NS) (W P2) (W_odd_on F KF two aF dF cmp r odd P2 I2)). }
    assert (D : P3 = te_zero \/ P3 <> te_zero).
    { destruct P3 as [u v]. unfold te_zero. destruct (feq_dec F RF u 0) as [->|U]; [destruct (feq_dec F RF v 1) as [->|U]; [left; reflexivity|]|];
        right; intros Q; injection Q; auto. }
    destruct D as [D|D]; [exact D|]. rewrite (W_aff F KF two aF dF cmp r odd P3 I4 D) in Z. discriminate Z.
  Qed.
  Theorem ed_miller_main : exists x y f,
    te_mul F aF dF (Pos.to_nat n) (xq, yq) = (x, y) /\
    xrep F (fst (ed_g2_loop F mul_by_a (Npos n) max_bits (base xq yq) (base xq yq, []))) (x, y) /\
    ed_miller_state K F GT smul mkgt squared (Npos n) max_bits P (ed_precompute_g2 F mul_by_a (Npos n) max_bits (mkI xq yq 1)) =
      Some (f, length (ed_precompute_g2 F mul_by_a (Npos n) max_bits (mkI xq yq 1))) /\
    f <> 0 /\
    fpow f e = fpow (miller_fun GT aG n (psi (W (xq, yq))) S) e.
  Proof.
    assert (WQ := ed_WQ).
    assert (OQ := W_odd_on F KF two aF dF cmp r odd (xq, yq) inQ). rewrite WQ in OQ.
    assert (RQ : ec_mul F (te_wa F aF dF) (N.to_nat r) (Aff (WX F aF dF yq) (WY F aF dF xq yq)) = Inf).
    { rewrite <- WQ, (W_mul F KF two three aF dF cmp r odd _ (xq, yq) inQ), ed_order. apply (W_zero F KF). }
    assert (M := miller_equiv F GT KF KG emb H w Hw (te_wa F aF dF) (te_wb F aF dF) aG ed_HaG two NS e S _ _ OQ r Pr RQ
      dstep (astep (base xq yq)) (base xq yq) (fun c => gRR c) (fun c => gRQ c) ed_rep).
    destruct M with (n := n) as (x & y & E & O & Rp & V0 & V & _).
    - exists xq, yq. split; [|auto]. split; [apply (F_1_neq_0 (FL_th F KF))|]. cbn. repeat split; ring.
    - intros R x y x3 y3 (x1 & y1 & Rp & I & N & -> & ->) O Y A.
      assert (WP := W_aff F KF two aF dF cmp r odd (x1, y1) I N). cbn [fst snd] in WP.
      rewrite <- WP, (W_hom F KF two three aF dF cmp r odd (x1, y1) (x1, y1) I I) in A.
      destruct (din_add F KF two aF dF cmp r odd _ _ I I) as (_ & _ & I3).
      assert (Rp3 := ed_double R (x1, y1) Rp I). set (P3 := te_add F aF dF (x1, y1) (x1, y1)) in *.
      assert (N3 : P3 <> te_zero) by (intros Z; rewrite Z, (W_zero F KF) in A; discriminate A).
      assert (WP3 := W_aff F KF two aF dF cmp r odd P3 I3 N3). rewrite WP3 in A. injection A as <- <-.
      assert (U0 := u_dbl_0 (pZ R * pZ R) x1 y1 (fmul_neq_0 F KF _ _ (proj1 Rp) (proj1 Rp)) I N).
      split; [|split].
      + exists (fst P3), (snd P3). rewrite <- !(surjective_pairing P3). exact (conj Rp3 (conj I3 (conj N3 (conj eq_refl eq_refl)))).
      + unfold ed_g_RR, P. cbn [P_XY P_XZ P_ZZplusYZ]. apply Hmk0. right. rewrite Hs.
        destruct (ed_double_conic R x1 y1 Rp) as (E1 & _ & _). rewrite E1. intros Z.
        apply (fmul_neq_0 F KF (inc (1 + yp)) (2 * (y1 * (x1 * y1 - x1)) * (pZ R * pZ R))); [exact (inc0 _ yp2)| |exact Z].
        intros Z2. apply U0. unfold u_dbl. transitivity (2 * (y1 * (x1 * y1 - x1)) * (pZ R * pZ R) * (inc xp * (1 - inc yp) * twist / c54)).
        * unfold fdiv. ring.
        * rewrite Z2. unfold fdiv. ring.
      + rewrite (ed_val_double R x1 y1 Rp I N). apply (eqv_killed GT KG). apply (killed_mul GT KG); [apply Hkill, U0|exact Hkw].
    - intros R x y x3 y3 (x1 & y1 & Rp & I & N & -> & ->) O X A.
      assert (WP := W_aff F KF two aF dF cmp r odd (x1, y1) I N). cbn [fst snd] in WP.
      assert (Y : yq - y1 <> 0) by (intros Z; apply X; apply (fsub_0_eq F RF) in Z; rewrite Z; reflexivity).
      assert (D1 : (x1, y1) <> (xq, yq)) by (intros Z; injection Z as _ Z; apply Y; rewrite Z; ring).
      assert (D2 : (x1, y1) <> te_neg (xq, yq)) by (intros Z; injection Z as _ Z; apply Y; rewrite Z; ring).
      rewrite <- WP, <- WQ, (W_hom F KF two three aF dF cmp r odd (x1, y1) (xq, yq) I inQ) in A.
      destruct (din_add F KF two aF dF cmp r odd _ _ I inQ) as (_ & _ & I3).
      assert (Rp3 := ed_addition R (x1, y1) xq yq Rp I inQ N Q0 D1 D2). set (P3 := te_add F aF dF (x1, y1) (xq, yq)) in *.
      assert (N3 : P3 <> te_zero) by (intros Z; rewrite Z, (W_zero F KF) in A; discriminate A).
      assert (WP3 := W_aff F KF two aF dF cmp r odd P3 I3 N3). rewrite WP3 in A. injection A as <- <-.
      destruct (odd_reg F KF two aF dF cmp r odd _ I N) as [X1 _]. destruct (odd_reg F KF two aF dF cmp r odd _ inQ Q0) as [X2 _].
      cbn [fst] in X1, X2.
      assert (Y' : y1 - yq <> 0) by (intros Z; apply Y; apply (fsub_0_eq F RF) in Z; rewrite Z; ring).
      assert (U0 := u_add_0 (pZ R) x1 y1 xq yq (proj1 Rp) X1 X2 Y').
      split; [|split].
      + exists (fst P3), (snd P3). rewrite <- !(surjective_pairing P3). exact (conj Rp3 (conj I3 (conj N3 (conj eq_refl eq_refl)))).
      + unfold ed_g_RQ, P. cbn [P_XY P_XZ P_ZZplusYZ]. apply Hmk0. left. rewrite Hs.
        destruct (ed_add_conic R x1 y1 xq yq Rp) as (E1 & _ & _). rewrite E1. assert (Z0 := proj1 Rp).
        apply (fmul_neq_0 F KF); [exact (inc0 _ yp2)|]. repeat apply (fmul_neq_0 F KF); try assumption.
      + rewrite (ed_val_add R x1 y1 xq yq Rp I inQ N Q0 Y). apply (eqv_killed GT KG), Hkill, U0.
    - exact ed_vertical.
    - exact nlt.
    - destruct Rp as (x1 & y1 & Rp & I & N & -> & ->). exists x1, y1. eexists.
      rewrite ed_g2_loop_eq, ed_precompute_g2_eq, ed_miller_state_eq. cbn [fst]. rewrite run_prun, value_pvalue, WQ.
      split; [|split; [exact Rp|split; [reflexivity|split; [exact V0|apply (eqv_pow GT KG); exact V]]]].
      unfold mult in E. rewrite (sw_gmul F KF two _ _ NS), <- WQ in E.
      rewrite (W_mul F KF two three aF dF cmp r odd _ (xq, yq) inQ) in E.
      assert (I' := proj2 (dual_mul F KF two aF dF cmp r odd (Pos.to_nat n) _ inQ)).
      change (N.to_nat (Npos n)) with (Pos.to_nat n) in E.
      set (P3 := te_mul F aF dF (Pos.to_nat n) (xq, yq)) in *.
      assert (WP := W_aff F KF two aF dF cmp r odd (x1, y1) I N). cbn [fst snd] in WP. rewrite <- WP in E.
      exact (W_inj P3 (x1, y1) I' I E).
  Qed.
End Ed.
