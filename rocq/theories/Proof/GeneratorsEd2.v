(** The generator of edwards<183>::g2_type. *)
From Coq Require Import ZArith NArith List Bool Lia Znumtheory Ring Field.
From Bignums Require Import BigN.
From Verif Require Import Base.Field Base.Zp Base.Ext Base.Hom Base.BigZp Spec.Group Spec.Edwards
  Model.ShortWeierstrass Model.Edwards Model.EdwardsG2 Model.Fp3 Model.FieldParams Model.Shipped Model.CurveParams Model.Generators
  Proof.ExtTheory Proof.Towers Proof.FiniteField Proof.Homs Proof.Shipped Proof.ShippedTowers
  Proof.EdwardsGroup Proof.EdwardsOps Proof.EdwardsTorsion Proof.EdwardsDual
  Proof.PrimesPairing Proof.PrimesMisc Proof.OrderCheck Proof.Generators.
Import ListNotations.
Local Open Scope fld_scope.

(** generic check: (Z/X, Z/Y) on the curve (a, d), with d = s^2 and a not a square *)
Section Gen.
  Context {A K : FieldOps} (h : A -> K) (H : Hom A K h) (KL : FieldLaws K).
  Let R := FieldLaws_Ring K KL.
  Add Field KGen : (FL_th K KL).
  Variables (q : N) (r : Z).
  Variables a d s X Y W : A.
  Definition ed2_gen_check : bool :=
    let t : triple A := mkT (W * W) (X * Y) (X * W) in
    negb (2 =? (0 : A)) && negb (X =? 0) && negb (Y =? 0) && negb (W =? 0) &&
    (s * s =? d) && negb (s =? 0) && nonpower A 2 q a && te_on_ok A d a t && te_order_ok A d a t (Z.to_pos r).
  Hypothesis NP : nonpower K 2 q (h a) = true -> not_square (h a).
  Local Notation one := ((h W * finv (h X), h W * finv (h Y)) : K * K).
  Lemma ed2_gen : (0 < r)%Z -> ed2_gen_check = true ->
    (2 : K) <> 0 /\ complete K (h d) (h a) /\ is_inv K (mkI (h X) (h Y) (h W)) one /\ on_te K (h a) (h d) one /\ snd one <> 0 /\
    on_te K (h d) (h a) (dual K one) /\ te_mul K (h d) (h a) (Z.to_nat r) (dual K one) = te_zero.
  Proof.
    intros Hr C. unfold ed2_gen_check in C. cbv zeta in C. rewrite !andb_true_iff in C.
    destruct C as ((((((((C2 & CX) & CY) & CZ) & C3) & C4) & C5) & C6) & C7).
    assert (NN : forall (b : A), negb (b =? 0) = true -> h b <> (0 : K)).
    { intros b E. apply negb_true_iff in E. rewrite <- (hom_eqb _ _ _ H), (hom_0 _ _ _ H) in E. apply (feqb_false K R), E. }
    apply NN in CX, CY, CZ, C4.
    assert (two : (2 : K) <> 0).
    { apply NN in C2. rewrite !(hom_add _ _ _ H), !(hom_1 _ _ _ H) in C2. exact C2. }
    assert (CM : complete K (h d) (h a)).
    { split.
      - exists (h s). split; [exact C4|]. rewrite <- (hom_eqb _ _ _ H), (hom_mul _ _ _ H) in C3. apply (feqb_true K R) in C3. exact C3.
      - apply NP. rewrite (nonpower_hom _ H). exact C5. }
    assert (IV : is_inv K (mkI (h X) (h Y) (h W)) one).
    { right. cbn [iX iY iZ fst snd]. repeat split; auto; field; assumption. }
    assert (NS : snd one <> 0).
    { destruct (is_inv_regular K KL _ _ IV) as [E|[_ E]]; [|exact E]. rewrite E. apply (f1_neq_0 K KL). }
    assert (T : te_prep (tmap h (mkT (W * W) (X * Y) (X * W) : triple A)) (dual K one)).
    { unfold te_prep, tmap, dual; cbn [tX tY tZ fst snd]. rewrite !(hom_mul _ _ _ H).
      split; [apply (fmul_neq_0 K KL); assumption|]. split; field; repeat split; auto. }
    assert (O' := te_on_sound h H KL _ _ _ _ T C6).
    assert (M := te_order_sound h H KL two _ _ CM _ _ _ O' T C7).
    split; [exact two|]. split; [exact CM|]. split; [exact IV|].
    split; [apply (dual_on K KL); [exact NS|exact O']|]. split; [exact NS|]. split; [exact O'|].
    replace (Z.to_nat r) with (Pos.to_nat (Z.to_pos r)) by (rewrite <- (Z2Nat.inj_pos (Z.to_pos _)), Z2Pos.id by exact Hr; reflexivity).
    exact M.
  Qed.
End Gen.

Section R01.
  Variable F : FieldOps.
  Hypothesis R : RingLaws F.
  Add Ring FR01 : (RL_th F R).
  Lemma mul_01 (x : F) : x * 0 = 0 /\ x * 1 = x.
  Proof. split; ring. Qed.
  Lemma mul_0l (x : F) : 0 * x = 0.
  Proof. ring. Qed.
End R01.
Section Ed2.
  Variables (t : tower6) (gd : Z) (one root : list Z) (r : Z).
  Hypothesis Hp : prime (t6_p t).
  Hypothesis Hf : t6_field_check t = true.
  Local Notation p := (t6_p t).
  Local Notation F := (Zp p).
  Local Notation K := (t6_Fp3 t).
  Local Notation BF := (BigZp (bigz p)).
  Local Notation B := (Fp3 BF (bigz (t6_nr3 t))).
  Local Notation bA := (mkc (0 : BF) (1 : BF) (0 : BF) : B).
  Local Notation bD := (mkc (0 : BF) (bigz gd : BF) (0 : BF) : B).
  Definition ed2_check : bool :=
    (2 <? p)%Z && (0 <? r)%Z && nonneg [t6_nr3 t; gd] && nonneg one && nonneg root &&
    ed2_gen_check (Z.to_N p ^ 3) r bA bD (big3 root : B) (big3 one : B) (big3 (skipn 3 one) : B) (big3 (skipn 6 one) : B).
  Definition ed2_point : K * K :=
    inverted_one K (lit3 p one : K) (lit3 p (skipn 3 one) : K) (lit3 p (skipn 6 one) : K).
  Definition ed2_obj : inverted K := mkI (lit3 p one : K) (lit3 p (skipn 3 one) : K) (lit3 p (skipn 6 one) : K).
  Local Notation tA := (eg2_twist_a F (tozp p (t6_nr3 t)) 1 : K).
  Local Notation tD := (eg2_twist_d F (tozp p (t6_nr3 t)) (tozp p gd) : K).
  Lemma ed2_sound : ed2_check = true ->
    (2 : K) <> 0 /\ complete K tD tA /\ is_inv K ed2_obj ed2_point /\ on_te K tA tD ed2_point /\ snd ed2_point <> 0 /\
    on_te K tD tA (dual K ed2_point) /\ te_mul K tD tA (Z.to_nat r) (dual K ed2_point) = te_zero.
  Proof.
    unfold ed2_check. rewrite !andb_true_iff. intros (((((C1 & C2) & C3) & C4) & C5) & C). apply Z.ltb_lt in C1, C2.
    assert (N1 := nonneg_nth _ 0 C3). assert (N2 := nonneg_nth _ 1 C3). cbn [nth] in N1, N2.
    assert (HH := t6_hom t C1 N1).
    assert (FF := proj1 (t6_fields _ Hp Hf)). assert (KL := FF_field _ _ _ FF).
    assert (HB : Hom BF F (of_big p)) by (apply BigZp_hom; [lia|apply bigz_spec; lia]).
    assert (P1 : (1 < p)%Z) by lia. assert (RF := FieldLaws_Ring _ (Zp_field p P1 Hp)).
    assert (EA : cmap (of_big p) bA = tA).
    { unfold cmap, eg2_twist_a, eg2_twist, fp3_smul; cbn [c0 c1 c2]. rewrite (hom_0 _ _ _ HB), (hom_1 _ _ _ HB).
      rewrite (Rmul_1_l (RL_th F RF) 0), (Rmul_1_l (RL_th F RF) 1). reflexivity. }
    assert (ED : cmap (of_big p) bD = tD).
    { unfold cmap, eg2_twist_d, eg2_twist, fp3_smul; cbn [c0 c1 c2]. rewrite (hom_0 _ _ _ HB), of_big_bigz by exact N2.
      assert (E0 : forall x : F, x * 0 = 0 /\ x * 1 = x) by (apply (mul_01 F RF)).
      rewrite (proj1 (E0 _)), (proj2 (E0 _)). reflexivity. }
    assert (S := ed2_gen (A := B) (K := K) (cmap (of_big p)) HH KL _ r bA bD _ _ _ _ (nonpower_2 _ _ _ FF (cmap (of_big p) bA)) C2 C).
    rewrite <- !lit3_big3 in S by (auto using nonneg_skipn). rewrite EA, ED in S. exact S.
  Qed.
End Ed2.
(** square root of the twisted d *)
Definition ed2_root : list Z := [0; 0; 0x431861c0f2d66376d1f7a5c3a1fce1abd4d121f4d950b]%Z.
Lemma ed2_checked : ed2_check edwards_tower edwards_183_d edwards_183_g2_inverted_one ed2_root edwards_scalar_field_183_modulus = true.
Proof. vm_compute. reflexivity. Qed.
