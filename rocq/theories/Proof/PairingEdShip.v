(** The edwards<183> pairing over its tower. *)
From Coq Require Import ZArith NArith List Bool Lia Ring Field Znumtheory.
From Verif Require Import Base.Field Base.Zp Base.Ext Base.Hom Spec.Group Spec.Weierstrass Spec.Edwards Spec.EdwardsWeierstrass Spec.Pairing Spec.AtePairing
  Model.Power Model.Fp3 Model.Fp6_2over3
  Model.Edwards Model.EdwardsG2 Model.FieldParams Model.Shipped Model.CurveParams Model.FinalExp Model.Pairing
  Proof.ExtTheory Proof.Towers Proof.FiniteField Proof.Shipped Proof.ShippedTowers Proof.PrimesPairing
  Proof.EdwardsOps Proof.EdwardsGroup Proof.EdwardsTorsion Proof.EdwardsDual Proof.EdwardsWeierstrass Proof.GeneratorsEd2
  Proof.PairingCore Proof.PairingMiller Proof.PairingProj Proof.PairingMnt Proof.PairingEd.
Import ListNotations.
Local Open Scope fld_scope.

Section Gen.
  Variable K : FieldOps.
  Variable nr : K.
  Hypothesis KK : FieldLaws K.
  Local Notation F := (Fp3 K nr).
  Local Notation G := (Fp6t K nr nr).
  Variable p : N.
  Hypothesis FF3 : FinField F p 3.
  Hypothesis KG : FieldLaws G.
  Let KF := FF_field _ _ _ FF3.
  Add Field Kedg : (FL_th K KK).
  Variable e : N.
  Hypothesis He : (2 * (p ^ 3 - 1) * (e / (2 * (p ^ 3 - 1))) = e)%N.
  Variable d : K.
  Local Notation A := (mkc 0 1 0 : F).
  Local Notation D := (mkc 0 d 0 : F).
  Hypothesis two : (2 : F) <> 0.
  Hypothesis three : (3 : F) <> 0.
  Hypothesis cmp : complete F D A.
  Variable r : N.
  Hypothesis odd : N.odd r = true.
  Variable n : positive.
  Variable mb : nat.
  Hypothesis Hb : (N.size (Npos n) <= N.of_nat mb)%N.
  Hypothesis Pr : prime (Z.of_N r).
  Hypothesis nlt : (2 * Npos n < r)%N.
  Lemma ed_mul_a (x : F) : eg2_mul_by_a K nr 1 x = A * x.
  Proof. apply cub_ext; cbn; ring. Qed.
  Lemma ed_D : D = inc3 K nr d * A.
  Proof. apply cub_ext; cbn; ring. Qed.
  Let HI := inc3_hom K nr KK KF.
  Let H := emb6_hom K nr KK KF KG.
  Let Hkill := kill_emb F G p 3 FF3 KG e He (emb6 K nr) H n mb Hb r nlt.
  Let Hkw := kill_w F G p 3 FF3 KG e He (emb6 K nr) H (w6 K nr) (w6_0 K nr KK) A (tw6 K nr KK) n mb Hb r nlt.
  Let Hns := twist_ns F G p 3 FF3 KG (emb6 K nr) H (w6 K nr) (fun x y => mkq x y) (mk6 K nr KK) (mk6_0 K nr) A (tw6 K nr KK).
  Let nlt1 : (Npos n < r)%N.
  Proof. lia. Qed.
  Definition ed_gen_main := fun xp yp (onP : on_te K 1 d (xp, yp)) (xp0 : xp <> 0) xq yq =>
    ed_miller_main K F G KK KF KG (fp3_smul K) (inc3 K nr) HI (inc3_smul K nr KK) (fp6t_sqr K nr nr) (sqr6 K nr KK)
      (emb6 K nr) H (w6 K nr) (w6_0 K nr KK) (fun x y => mkq x y) (mk6 K nr KK) (mk6_0 K nr) A (tw6 K nr KK)
      d A D eq_refl ed_D (eg2_mul_by_a K nr 1) ed_mul_a two three cmp r odd n mb Hb e Hkill Hkw Hns xp yp onP xp0 Pr nlt1 xq yq.
  Definition ed_gen_dbl := fun xp yp (onP : on_te K 1 d (xp, yp)) (xp0 : xp <> 0) =>
    ed_step_dbl K F G KK KF KG (fp3_smul K) (inc3 K nr) HI (inc3_smul K nr KK)
      (emb6 K nr) H (w6 K nr) (w6_0 K nr KK) (fun x y => mkq x y) (mk6 K nr KK) A (tw6 K nr KK)
      d A D eq_refl ed_D (eg2_mul_by_a K nr 1) ed_mul_a two three cmp r odd xp yp onP xp0.
  Definition ed_gen_add := fun xp yp (onP : on_te K 1 d (xp, yp)) (xp0 : xp <> 0) =>
    ed_step_add K F G KK KF KG (fp3_smul K) (inc3 K nr) HI (inc3_smul K nr KK)
      (emb6 K nr) H (w6 K nr) (w6_0 K nr KK) (fun x y => mkq x y) (mk6 K nr KK) A (tw6 K nr KK)
      d A D eq_refl ed_D (eg2_mul_by_a K nr 1) ed_mul_a two three cmp r odd xp yp onP xp0.
  Definition ed_gen_double := ed_double_eq K F G KG (fp3_smul K) (fp6t_sqr K nr nr) (sqr6 K nr KK) (fun x y => mkq x y)
    (eg2_mul_by_a K nr 1) n mb Hb.
End Gen.

(** ** the shipped instance *)
Local Notation edF := (Zp edwards_p).
Local Notation edK := (t6_Fp3 edwards_tower).
Local Notation edG := (t6_Fp6 edwards_tower).
Definition edwards_d : edF := tozp edwards_p edwards_183_d.
Local Notation nr3 := (tozp edwards_p edwards_fp3_non_residue : edF).
Lemma edwards_K : FieldLaws edF.
Proof. apply Zp_field; [vm_compute; reflexivity|exact edwards_p_prime]. Qed.
Definition edwards_FF3 : FinField edK (Z.to_N edwards_p) 3 := proj1 (t6_fields _ edwards_p_prime edwards_field_check).
Definition edwards_FF6 : FinField edG (Z.to_N edwards_p) 6 := proj2 (t6_fields _ edwards_p_prime edwards_field_check).
Definition edwards_KF : FieldLaws edK := FF_field _ _ _ edwards_FF3.
Definition edwards_KG : FieldLaws edG := FF_field _ _ _ edwards_FF6.
Lemma edwards_He : (2 * (Z.to_N edwards_p ^ 3 - 1) * (edwards_e / (2 * (Z.to_N edwards_p ^ 3 - 1))) = edwards_e)%N.
Proof. vm_compute. reflexivity. Qed.
Lemma edwards_r_prime : prime (Z.of_N edwards_r).
Proof. exact prime_edwards_scalar_field_183. Qed.
Lemma edwards_r_odd : N.odd edwards_r = true.
Proof. vm_compute. reflexivity. Qed.
Lemma edwards_bits : (N.size (Npos edwards_n) <= N.of_nat edwards_max_bits)%N.
Proof. vm_compute. discriminate. Qed.
Lemma edwards_nlt : (2 * Npos edwards_n < edwards_r)%N.
Proof. reflexivity. Qed.
Lemma edwards_coeffs : eg2_twist_a edF nr3 1 = edwards_ta /\ eg2_twist_d edF nr3 edwards_d = edwards_td edwards_d.
Proof.
  assert (M := mul_01 edF (FieldLaws_Ring edF edwards_K)).
  unfold edwards_ta, edwards_td, eg2_twist_a, eg2_twist_d, eg2_twist, fp3_smul; cbn [c0 c1 c2].
  rewrite !(proj1 (M _)), !(proj2 (M _)). auto.
Qed.
Definition ed2_facts := ed2_sound edwards_tower edwards_183_d edwards_183_g2_inverted_one ed2_root edwards_scalar_field_183_modulus
    edwards_p_prime edwards_field_check ed2_checked.
Definition edwards_two : (2 : edK) <> 0 := proj1 ed2_facts.
Lemma edwards_three : (3 : edK) <> 0.
Proof. intros E. apply (f_equal (fun x : edK => zval (c0 x))) in E. vm_compute in E. discriminate E. Qed.
Lemma edwards_cmp : complete edK (edwards_td edwards_d) edwards_ta.
Proof.
  destruct edwards_coeffs as [EA ED]. assert (C := proj1 (proj2 ed2_facts)). rewrite <- EA, <- ED. exact C.
Qed.
(** on the group of points of order r of the twist *)
Definition edwards_in (Q : edK * edK) : Prop := din edK edwards_KF edwards_two edwards_ta (edwards_td edwards_d) edwards_cmp edwards_r Q.
Definition edwards_main xp yp (onP : on_te edF 1 edwards_d (xp, yp)) (xp0 : xp <> 0) xq yq :=
  ed_gen_main edF nr3 edwards_K (Z.to_N edwards_p) edwards_FF3 edwards_KG edwards_e edwards_He edwards_d edwards_two edwards_three edwards_cmp
    edwards_r edwards_r_odd edwards_n edwards_max_bits edwards_bits edwards_r_prime edwards_nlt xp yp onP xp0 xq yq.
Definition edwards_double := ed_gen_double edF nr3 edwards_K edwards_KG edwards_n edwards_max_bits edwards_bits.

Section Stored.
  Lemma ed_stored_g1 (K : FieldOps) (KK : FieldLaws K) zy t (P : K * K) : P <> te_zero -> rep_inverted (iX t) (iY t) (iZ t) P ->
    ed_precompute_g1 K (inv_to_affine K 0 zy t) = mkE1 (fst P * snd P) (fst P) (1 + snd P) /\ fst P <> 0.
  Proof.
    intros N T. assert (A := inv_to_affine_ok K KK 0 zy t P T). destruct A as [[A B]|(_ & _ & Z)]; [|contradiction].
    unfold ed_precompute_g1. rewrite A, B. split; [reflexivity|].
    destruct T as [(_ & _ & Z)|(X & Y & Z & E & _)]; [contradiction|]. intros W. apply Z. rewrite E, W. apply (mul_0l K (FieldLaws_Ring K KK)).
  Qed.
End Stored.
Lemma edwards_pre2 t (Q : edK * edK) : rep_inverted (iX t) (iY t) (iZ t) Q ->
  edwards_precompute_g2 t = ed_precompute_g2 edK edwards_mul_by_a edwards_ate_loop_count edwards_max_bits (mkI (fst Q) (snd Q) 1).
Proof. intros T. unfold edwards_precompute_g2. f_equal. exact (eg2_to_affine_ok edF nr3 edwards_KF t Q T). Qed.
Lemma edwards_W P : P <> te_zero -> fst P <> 0 -> te_weier edF 1 edwards_d P =
  Aff (WX edF 1 edwards_d (snd P)) (WY edF 1 edwards_d (fst P) (snd P)).
Proof. intros _ X. destruct P as [x y]. exact (W_eq edF edwards_K 1 edwards_d x y X). Qed.
Lemma edwards_miller std (P : edF * edF) (Q : edK * edK) tP tQ :
  P <> te_zero -> on_te edF 1 edwards_d P -> rep_inverted (iX tP) (iY tP) (iZ tP) P ->
  Q <> te_zero -> edwards_in Q -> rep_inverted (iX tQ) (iY tQ) (iZ tQ) Q ->
  exists x y f,
    te_mul edK edwards_ta (edwards_td edwards_d) (Pos.to_nat edwards_n) Q = (x, y) /\
    xrep edK (fst (ed_g2_loop edK edwards_mul_by_a edwards_ate_loop_count edwards_max_bits (mkXP (fst Q) (snd Q) 1 (fst Q * snd Q))
      (mkXP (fst Q) (snd Q) 1 (fst Q * snd Q), []))) (x, y) /\
    ed_miller_state edF edK edG edwards_smul edwards_gt edwards_squared edwards_ate_loop_count edwards_max_bits
      (edwards_precompute_g1 std tP) (edwards_precompute_g2 tQ) = Some (f, length (edwards_precompute_g2 tQ)) /\
    f <> 0 /\ fpow f edwards_e = ate_edwards edwards_d P Q.
Proof.
  intros NP OP TP NQ IQ TQ. destruct (ed_stored_g1 edF edwards_K (zero_fill_y _ std) tP P NP TP) as [E1 X].
  destruct P as [xp yp], Q as [xq yq]. cbn [fst snd] in *.
  rewrite (edwards_pre2 tQ (xq, yq) TQ). cbn [fst snd].
  assert (E1' : edwards_precompute_g1 std tP = mkE1 (xp * yp) xp (1 + yp)) by exact E1. rewrite E1'.
  unfold ate_edwards. rewrite (edwards_W (xp, yp) NP X).
  exact (edwards_main xp yp OP X xq yq IQ NQ).
Qed.

Local Notation edline P1 P2 P := (line edG (edwards_emb (edwards_inc (te_wa edF 1 edwards_d)))
  (untwist edwards_emb edwards_wt (te_weier edK edwards_ta (edwards_td edwards_d) P1))
  (untwist edwards_emb edwards_wt (te_weier edK edwards_ta (edwards_td edwards_d) P2))
  (point_map (fun x => edwards_emb (edwards_inc x)) (te_weier edF 1 edwards_d P))).
Lemma edwards_dbl std R P1 P tP : xrep edK R P1 -> edwards_in P1 -> P1 <> te_zero ->
  P <> te_zero -> on_te edF 1 edwards_d P -> rep_inverted (iX tP) (iY tP) (iZ tP) P ->
  exists u, let step := ed_doubling_step edK edwards_mul_by_a R in
    xrep edK (fst step) (te_add edK edwards_ta (edwards_td edwards_d) P1 P1) /\ u <> 0 /\
    ed_g_RR edF edK edG edwards_smul edwards_gt (edwards_precompute_g1 std tP) (snd step) = edline P1 P1 P * (edwards_emb u * edwards_wt).
Proof.
  intros Rp I N NP OP TP. destruct (ed_stored_g1 edF edwards_K (zero_fill_y _ std) tP P NP TP) as [E1 X].
  destruct P as [xp yp]. cbn [fst snd] in *.
  assert (E1' : edwards_precompute_g1 std tP = mkE1 (xp * yp) xp (1 + yp)) by exact E1. rewrite E1', (edwards_W (xp, yp) NP X).
  exact (ed_gen_dbl edF nr3 edwards_K (Z.to_N edwards_p) edwards_FF3 edwards_KG edwards_d edwards_two edwards_three edwards_cmp
    edwards_r edwards_r_odd xp yp OP X R P1 Rp I N).
Qed.
Lemma edwards_add std R P1 P2 P tP : xrep edK R P1 -> edwards_in P1 -> edwards_in P2 -> P1 <> te_zero -> P2 <> te_zero ->
  P1 <> P2 -> P1 <> te_neg P2 ->
  P <> te_zero -> on_te edF 1 edwards_d P -> rep_inverted (iX tP) (iY tP) (iZ tP) P ->
  exists u, let step := ed_mixed_addition_step edK edwards_mul_by_a (mkXP (fst P2) (snd P2) 1 (fst P2 * snd P2)) R in
    xrep edK (fst step) (te_add edK edwards_ta (edwards_td edwards_d) P1 P2) /\ u <> 0 /\
    ed_g_RQ edF edK edG edwards_smul edwards_gt (edwards_precompute_g1 std tP) (snd step) = edline P1 P2 P * edwards_emb u.
Proof.
  intros Rp I1 I2 N1 N2 D1 D2 NP OP TP. destruct (ed_stored_g1 edF edwards_K (zero_fill_y _ std) tP P NP TP) as [E1 X].
  destruct P as [xp yp]. cbn [fst snd] in *.
  assert (E1' : edwards_precompute_g1 std tP = mkE1 (xp * yp) xp (1 + yp)) by exact E1. rewrite E1', (edwards_W (xp, yp) NP X).
  exact (ed_gen_add edF nr3 edwards_K (Z.to_N edwards_p) edwards_FF3 edwards_KG edwards_d edwards_two edwards_three edwards_cmp
    edwards_r edwards_r_odd xp yp OP X R P1 P2 Rp I1 I2 N1 N2 D1 D2).
Qed.
