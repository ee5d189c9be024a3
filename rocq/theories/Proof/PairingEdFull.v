(** The addition step with a projective base point (not called by the code): the mixed
    step, scaled by the denominator of the base. *)
From Coq Require Import ZArith NArith List Bool Lia Znumtheory Field_theory Field.
From Verif Require Import Base.Field Base.Zp Base.Ext Base.Hom Spec.Group Spec.Weierstrass Spec.Edwards Spec.EdwardsWeierstrass Spec.Pairing Spec.AtePairing
  Model.FieldParams Model.Shipped Model.CurveParams Model.Generators Model.Edwards Model.EdwardsG2 Model.FinalExp Model.Pairing Model.Fp3 Model.Fp6_2over3
  Proof.FiniteField Proof.Shipped Proof.ShippedTowers Proof.PairingCore Proof.PairingMiller Proof.PairingProj Proof.PairingMnt Proof.EdwardsDual Proof.PairingEd Proof.PairingEdShip.
Import ListNotations.
Local Open Scope fld_scope.

Section Full.
  Variables K F GT : FieldOps.
  Hypothesis KF : FieldLaws F.
  Hypothesis KG : FieldLaws GT.
  Add Field Ffull : (FL_th F KF).
  Add Field Gfull : (FL_th GT KG).
  Variable smul : K -> F -> F.
  Variable inc : K -> F.
  Hypothesis Hs : forall k x, smul k x = inc k * x.
  Variable emb : F -> GT.
  Hypothesis H : Hom F GT emb.
  Variable w : GT.
  Variable mkgt : F -> F -> GT.
  Hypothesis Hmk : forall u v, mkgt u v = emb u + emb v * w.
  Variable aF : F.
  Variable mul_by_a : F -> F.
  Hypothesis Hma : forall x, mul_by_a x = aF * x.
  Local Notation full := (ed_full_addition_step F mul_by_a).
  Local Notation mixed := (ed_mixed_addition_step F mul_by_a).
  Lemma full_point B R x2 y2 P : xrep F B (x2, y2) -> xrep F (fst (mixed (mkXP x2 y2 1 (x2 * y2)) R)) P -> xrep F (fst (full B R)) P.
  Proof.
    destruct B as [X Y Z T]. destruct R as [X1 Y1 Z1 T1]. unfold xrep. cbn [pX pY pZ pT fst snd]. intros (NZ & EX & EY & ET).
    unfold ed_full_addition_step, ed_mixed_addition_step. cbn [fst pX pY pZ pT]. rewrite !Hma, EX, EY, ET.
    intros (N & E1 & E2 & E3). destruct P as [x y]. cbn [fst snd] in *.
    assert (SZ : forall u v : F, u <> 0 -> v <> 0 -> u * v <> 0) by (exact (fmul_neq_0 F KF)).
    split; [intros E0; apply (SZ _ _ N (SZ _ _ NZ NZ)); rewrite <- E0; ring|].
    split; [|split].
    - transitivity ((T1 + Z1 * (x2 * y2)) * ((X1 - Y1) * (x2 + y2) + Y1 * y2 - X1 * x2) * (Z * Z)); [ring|]. rewrite E1. ring.
    - transitivity ((Y1 * y2 + aF * (X1 * x2)) * (T1 - Z1 * (x2 * y2)) * (Z * Z)); [ring|]. rewrite E2. ring.
    - transitivity ((T1 + Z1 * (x2 * y2)) * (T1 - Z1 * (x2 * y2)) * (Z * Z)); [ring|]. rewrite E3. ring.
  Qed.
  Lemma full_line B R x2 y2 p : xrep F B (x2, y2) ->
    ed_g_RQ K F GT smul mkgt p (snd (full B R)) = ed_g_RQ K F GT smul mkgt p (snd (mixed (mkXP x2 y2 1 (x2 * y2)) R)) * emb (pZ B).
  Proof.
    destruct B as [X Y Z T]. destruct R as [X1 Y1 Z1 T1]. unfold xrep. cbn [pX pY pZ pT fst snd]. intros (NZ & EX & EY & ET).
    unfold ed_g_RQ, ed_full_addition_step, ed_mixed_addition_step. cbn [snd c_ZZ c_XY c_XZ pX pY pZ pT]. rewrite !Hma, EX, EY, ET, !Hs, !Hmk.
    match goal with |- emb ?a + emb ?b * w = (emb ?c + emb ?d * w) * emb Z =>
      assert (E1 : a = c * Z) by ring; assert (E2 : b = d * Z) by ring; rewrite E1, E2, !(hom_mul _ _ _ H) end. ring.
  Qed.
End Full.

Section FullGen.
  Variable K : FieldOps.
  Variable nr : K.
  Hypothesis KK : FieldLaws K.
  Local Notation F := (Fp3 K nr).
  Local Notation G := (Fp6t K nr nr).
  Hypothesis KF : FieldLaws F.
  Hypothesis KG : FieldLaws G.
  Definition full_gen_point := full_point F KF (mkc 0 1 0) (eg2_mul_by_a K nr 1) (ed_mul_a K nr KK).
  Definition full_gen_line := full_line K F G KF KG (fp3_smul K) (inc3 K nr) (inc3_smul K nr KK) (emb6 K nr) (emb6_hom K nr KK KF KG)
    (w6 K nr) (fun x y => mkq x y) (mk6 K nr KK) (mkc 0 1 0) (eg2_mul_by_a K nr 1) (ed_mul_a K nr KK).
End FullGen.

Local Notation edF := (Zp edwards_p).
Local Notation edK := (t6_Fp3 edwards_tower).
Local Notation edG := (t6_Fp6 edwards_tower).
Local Notation edline P1 P2 P := (line edG (edwards_emb (edwards_inc (te_wa edF 1 edwards_d)))
  (untwist edwards_emb edwards_wt (te_weier edK edwards_ta (edwards_td edwards_d) P1))
  (untwist edwards_emb edwards_wt (te_weier edK edwards_ta (edwards_td edwards_d) P2))
  (point_map (fun x => edwards_emb (edwards_inc x)) (te_weier edF 1 edwards_d P))).
Lemma edwards_full_add std R B P1 P2 P tP : xrep edK R P1 -> xrep edK B P2 -> edwards_in P1 -> edwards_in P2 -> P1 <> te_zero -> P2 <> te_zero ->
  P1 <> P2 -> P1 <> te_neg P2 ->
  P <> te_zero -> on_te edF 1 edwards_d P -> rep_inverted (iX tP) (iY tP) (iZ tP) P ->
  exists u, let step := ed_full_addition_step edK edwards_mul_by_a B R in
    xrep edK (fst step) (te_add edK edwards_ta (edwards_td edwards_d) P1 P2) /\ u <> 0 /\
    ed_g_RQ edF edK edG edwards_smul edwards_gt (edwards_precompute_g1 std tP) (snd step) = edline P1 P2 P * edwards_emb u.
Proof.
  intros R1 RB I1 I2 N1 N2 D1 D2 NP OP TP. destruct P2 as [x2 y2].
  destruct (edwards_add std R P1 (x2, y2) P tP R1 I1 I2 N1 N2 D1 D2 NP OP TP) as (u & E1 & U & E2). cbv zeta in E1, E2. cbn [fst snd] in E1, E2.
  exists (u * pZ B). cbv zeta. split; [|split].
  - exact (full_gen_point edF (tozp edwards_p edwards_fp3_non_residue) edwards_K edwards_KF B R x2 y2 _ RB E1).
  - apply (fmul_neq_0 edK edwards_KF); [exact U|exact (proj1 RB)].
  - etransitivity; [exact (full_gen_line edF (tozp edwards_p edwards_fp3_non_residue) edwards_K edwards_KF edwards_KG B R x2 y2 (edwards_precompute_g1 std tP) RB)|].
    assert (HM : forall x y : edK, edwards_emb (x * y) = edwards_emb x * edwards_emb y)
      by exact (hom_mul _ _ _ (emb6_hom edF (tozp edwards_p edwards_fp3_non_residue) edwards_K edwards_KF edwards_KG)).
    rewrite HM. rewrite (Rmul_assoc (RL_th edG (FieldLaws_Ring edG edwards_KG))).
    exact (f_equal (fun z => z * edwards_emb (pZ B)) E2).
Qed.
