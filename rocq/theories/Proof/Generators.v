(** Evaluation of the checks of Proof/OrderCheck.v on the constants of Model/CurveParams.v. *)
From Coq Require Import ZArith NArith List Bool Lia Znumtheory Ring Field.
From Bignums Require Import BigN.
From Verif Require Import Base.Field Base.Zp Base.Ext Base.Hom Base.BigZp Spec.Group Spec.Weierstrass Spec.Edwards Spec.Montgomery
  Model.ShortWeierstrass Model.Fp2 Model.Fp3 Model.FieldParams Model.Shipped Model.CurveParams Model.Generators
  Proof.Towers Proof.FiniteField Proof.Homs Proof.Shipped Proof.ShippedTowers
  Proof.PrimesPairing Proof.PrimesSecp Proof.PrimesMisc Proof.OrderCheck.
Import ListNotations.
Local Open Scope fld_scope.

Definition ptX (l : list Z) : Z := nth 0 l 0%Z.
Definition ptY (l : list Z) : Z := nth 1 l 0%Z.

Section SWG1.
  Definition sw_check (c : sw_curve) : bool :=
    let m := bigz (swc_p c) in
    let K := BigZp m in
    let a : K := bigz (swc_a c) in let b : K := bigz (swc_b c) in
    let x : K := bigz (ptX (swc_one c)) in let y : K := bigz (ptY (swc_one c)) in
    (2 <? swc_p c)%Z && (0 <? swc_r c)%Z && nonneg [swc_a c; swc_b c] && nonneg (swc_one c) &&
    (y * y =? x * x * x + a * x + b) && negb (2 * 2 * (a * a * a) + 3 * 3 * 3 * (b * b) =? 0) &&
    sw_order_ok K a x y (Z.to_pos (swc_r c)).
  Variable c : sw_curve.
  Hypothesis Hp : prime (swc_p c).
  Hypothesis Hc : sw_check c = true.
  Local Notation K := (Zp (swc_p c)).
  Local Notation cst z := (tozp (swc_p c) z : K).
  Lemma Zp_two (p : Z) : (2 < p)%Z -> (2 : Zp p) <> 0.
  Proof. intros H E. change (2 : Zp p) with (tozp p (1 mod p + 1 mod p)) in E. apply (f_equal zval) in E. change (zval (0 : Zp p)) with (0 mod p)%Z in E. rewrite zval_tozp, !Z.mod_small in E; rewrite ?Z.mod_small; lia. Qed.
  Lemma sw_check_sound : nonsingular K (cst (swc_a c)) (cst (swc_b c)) /\
    on_curve K (cst (swc_a c)) (cst (swc_b c)) (Aff (cst (ptX (swc_one c))) (cst (ptY (swc_one c)))) /\
    (0 < swc_r c)%Z /\ (2 : K) <> 0 /\
    ec_mul K (cst (swc_a c)) (Z.to_nat (swc_r c)) (Aff (cst (ptX (swc_one c))) (cst (ptY (swc_one c)))) = Inf.
  Proof.
    assert (C := Hc). unfold sw_check in C. cbv zeta in C. rewrite !andb_true_iff in C.
    destruct C as ((((((C1 & C2) & C3) & C4) & C5) & C6) & C7). apply Z.ltb_lt in C1, C2.
    assert (HH : Hom (BigZp (bigz (swc_p c))) K (of_big (swc_p c))) by (apply BigZp_hom; [lia|apply bigz_spec; lia]).
    assert (KL := Zp_field (swc_p c) (ltac:(lia)) Hp). assert (R := FieldLaws_Ring K KL). assert (two := Zp_two _ C1).
    assert (Ha : of_big (swc_p c) (bigz (swc_a c)) = cst (swc_a c)) by (apply of_big_bigz, (nonneg_nth _ 0 C3)).
    assert (Hb : of_big (swc_p c) (bigz (swc_b c)) = cst (swc_b c)) by (apply of_big_bigz, (nonneg_nth _ 1 C3)).
    assert (Hx : of_big (swc_p c) (bigz (ptX (swc_one c))) = cst (ptX (swc_one c))) by (apply of_big_bigz, (nonneg_nth _ 0 C4)).
    assert (Hy : of_big (swc_p c) (bigz (ptY (swc_one c))) = cst (ptY (swc_one c))) by (apply of_big_bigz, (nonneg_nth _ 1 C4)).
    assert (ON : on_curve K (cst (swc_a c)) (cst (swc_b c)) (Aff (cst (ptX (swc_one c))) (cst (ptY (swc_one c))))).
    { rewrite <- (hom_eqb _ _ _ HH) in C5. apply (feqb_true K R) in C5. revert C5. repeat progress (homs HH).
      rewrite Ha, Hb, Hx, Hy. exact id. }
    assert (NS : nonsingular K (cst (swc_a c)) (cst (swc_b c))).
    { apply negb_true_iff in C6. rewrite <- (hom_eqb _ _ _ HH) in C6. apply (feqb_false K R) in C6. revert C6.
      repeat progress (homs HH). rewrite Ha, Hb. exact id. }
    split; [exact NS|]. split; [exact ON|]. split; [exact C2|]. split; [exact two|].
    replace (Z.to_nat (swc_r c)) with (Pos.to_nat (Z.to_pos (swc_r c))) by (rewrite <- (Z2Nat.inj_pos (Z.to_pos _)), Z2Pos.id by exact C2; reflexivity).
    rewrite <- Ha in *. rewrite <- Hx, <- Hy in *. exact (sw_order_sound (A := BigZp (bigz (swc_p c))) (K := K) (of_big (swc_p c)) HH KL two _ _ _ _ _ NS ON C7).
  Qed.
End SWG1.

Lemma sw_primes : Forall (fun c => prime (swc_p c)) shipped_sw_g1.
Proof.
  repeat apply Forall_cons; try apply Forall_nil.
  - exact prime_secp_r1_base_field_160.
  - exact prime_secp_r1_base_field_192.
  - exact prime_secp_r1_base_field_224.
  - exact prime_secp_r1_base_field_256.
  - exact prime_secp_r1_base_field_384.
  - exact prime_secp_r1_base_field_521.
  - exact prime_secp_k1_base_field_160.
  - exact prime_secp_k1_base_field_192.
  - exact prime_secp_k1_base_field_224.
  - exact prime_secp_k1_base_field_256.
  - exact prime_pallas_base_field.
  - exact prime_vesta_base_field.
  - exact prime_alt_bn128_base_field_254.
  - exact prime_bls12_base_field_381.
  - exact prime_bls12_base_field_377.
  - exact prime_mnt4_base_field_298.
  - exact prime_mnt6_base_field_298.
Qed.
Lemma sw_checks : Forall (fun c => sw_check c = true) shipped_sw_g1.
Proof. repeat apply Forall_cons; try apply Forall_nil; vm_compute; reflexivity. Qed.

(** ** Second groups over Fp2 and Fp3 *)
Definition big3 (l : list Z) : cub BigN.t := mkc (bigz (nth 0 l 0%Z)) (bigz (nth 1 l 0%Z)) (bigz (nth 2 l 0%Z)).
Lemma lit3_big3 p l : nonneg l = true -> lit3 p l = cmap (of_big p) (big3 l).
Proof.
  intros H. unfold lit3, big3, cmap; cbn [c0 c1 c2]. rewrite !of_big_bigz by (apply nonneg_nth, H). reflexivity.
Qed.
Lemma nonneg_skipn k l : nonneg l = true -> nonneg (skipn k l) = true.
Proof.
  unfold nonneg. revert l. induction k as [|k IH]; intros [|z l]; cbn; auto.
  rewrite andb_true_iff. intros [_ H]. apply IH, H.
Qed.

(** generic: the curve check in A, transported to K; w y^2 = w (x^3 + a x) + v with w b = v *)
Section G2.
  Context {A K : FieldOps} (h : A -> K) (H : Hom A K h) (KL : FieldLaws K).
  Let R := FieldLaws_Ring K KL.
  Add Field KG2 : (FL_th K KL).
  Definition g2_check (a x y w v : A) (r : Z) : bool :=
    (0 <? r)%Z && negb (2 =? (0 : A)) && negb (w =? 0) && (w * (y * y) =? w * (x * x * x + a * x) + v) &&
    negb (2 * 2 * (a * a * a) * (w * w) + 3 * 3 * 3 * (v * v) =? 0) && sw_order_ok A a x y (Z.to_pos r).
  Lemma g2_check_sound a x y w v r b : h w * b = h v -> g2_check a x y w v r = true ->
    nonsingular K (h a) b /\ on_curve K (h a) b (Aff (h x) (h y)) /\ (0 < r)%Z /\ (2 : K) <> 0 /\
    ec_mul K (h a) (Z.to_nat r) (Aff (h x) (h y)) = Inf.
  Proof.
    intros HB C. unfold g2_check in C. rewrite !andb_true_iff in C. destruct C as (((((C1 & C2) & C3) & C4) & C5) & C6).
    apply Z.ltb_lt in C1.
    assert (two : (2 : K) <> 0).
    { apply negb_true_iff in C2. rewrite <- (hom_eqb _ _ _ H) in C2. apply (feqb_false K R) in C2. revert C2.
      repeat progress (homs H). exact id. }
    assert (NW : h w <> 0).
    { apply negb_true_iff in C3. rewrite <- (hom_eqb _ _ _ H) in C3. apply (feqb_false K R) in C3. revert C3.
      repeat progress (homs H). exact id. }
    assert (ON : on_curve K (h a) b (Aff (h x) (h y))).
    { rewrite <- (hom_eqb _ _ _ H) in C4. apply (feqb_true K R) in C4. revert C4. repeat progress (homs H).
      rewrite <- HB. intros E. cbn. apply (fmul_cancel_l K KL (h w)); [exact NW|]. rewrite E. ring. }
    assert (NS : nonsingular K (h a) b).
    { apply negb_true_iff in C5. rewrite <- (hom_eqb _ _ _ H) in C5. apply (feqb_false K R) in C5. revert C5.
      repeat progress (homs H). rewrite <- HB. intros E F. apply E. unfold nonsingular in F.
      transitivity ((2 * 2 * (h a * h a * h a) + 3 * 3 * 3 * (b * b)) * (h w * h w)); [ring|]. rewrite F. ring. }
    split; [exact NS|]. split; [exact ON|]. split; [exact C1|]. split; [exact two|].
    replace (Z.to_nat r) with (Pos.to_nat (Z.to_pos r)) by (rewrite <- (Z2Nat.inj_pos (Z.to_pos _)), Z2Pos.id by exact C1; reflexivity).
    exact (sw_order_sound h H KL two _ _ _ _ _ NS ON C6).
  Qed.
End G2.

Lemma t12_hom t : (2 < t12_p t)%Z -> (0 <= t12_nr2 t)%Z ->
  Hom (Fp2 (BigZp (bigz (t12_p t))) (bigz (t12_nr2 t))) (t12_Fp2 t) (qmap (of_big (t12_p t))).
Proof.
  intros H1 H2. unfold t12_Fp2. rewrite <- (of_big_bigz (t12_p t) _ H2).
  apply (@hom_fp2 (BigZp (bigz (t12_p t))) (Zp (t12_p t))). apply BigZp_hom; [lia|apply bigz_spec; lia].
Qed.
Lemma t4_hom t : (2 < t4_p t)%Z -> (0 <= t4_nr2 t)%Z ->
  Hom (Fp2 (BigZp (bigz (t4_p t))) (bigz (t4_nr2 t))) (t4_Fp2 t) (qmap (of_big (t4_p t))).
Proof.
  intros H1 H2. unfold t4_Fp2. rewrite <- (of_big_bigz (t4_p t) _ H2).
  apply (@hom_fp2 (BigZp (bigz (t4_p t))) (Zp (t4_p t))). apply BigZp_hom; [lia|apply bigz_spec; lia].
Qed.
Lemma t6_hom t : (2 < t6_p t)%Z -> (0 <= t6_nr3 t)%Z ->
  Hom (Fp3 (BigZp (bigz (t6_p t))) (bigz (t6_nr3 t))) (t6_Fp3 t) (cmap (of_big (t6_p t))).
Proof.
  intros H1 H2. unfold t6_Fp3. rewrite <- (of_big_bigz (t6_p t) _ H2).
  apply (@hom_fp3 (BigZp (bigz (t6_p t))) (Zp (t6_p t))). apply BigZp_hom; [lia|apply bigz_spec; lia].
Qed.

Definition ok_g2 (K : FieldOps) (a b : K) (G : K * K) (r : Z) : Prop :=
  nonsingular K a b /\ on_curve K a b (Aff (fst G) (snd G)) /\ (0 < r)%Z /\ (2 : K) <> 0 /\
  ec_mul K a (Z.to_nat r) (Aff (fst G) (snd G)) = Inf.

Section T12.
  Variable t : tower12.
  Hypothesis Hp : prime (t12_p t).
  Hypothesis Hf : t12_field_check t = true.
  Variables (b : Z) (tw one : list Z) (r : Z).
  Local Notation A := (Fp2 (BigZp (bigz (t12_p t))) (bigz (t12_nr2 t))).
  Definition t12_g2_side : bool :=
    (2 <? t12_p t)%Z && (0 <=? t12_nr2 t)%Z && (0 <=? b)%Z && nonneg tw && nonneg one.
  Let tw' : A := big2 tw.
  Let b' : A := mkq (bigz b) (0 : BigZp (bigz (t12_p t))).
  Definition t12_g2_inv_check : bool :=
    t12_g2_side && g2_check (0 : A) (big2 one : A) (big2 (skipn 2 one) : A) tw' b' r.
  Definition t12_g2_mul_check : bool :=
    t12_g2_side && g2_check (0 : A) (big2 one : A) (big2 (skipn 2 one) : A) (1 : A) (b' * tw') r.
  Lemma t12_laws : FieldLaws (t12_Fp2 t).
  Proof. apply (FF_field _ _ _ (proj1 (t12_fields t Hp Hf))). Qed.
  Lemma t12_smul (z : Z) (x : t12_Fp2 t) : fp2_smul (Zp (t12_p t)) (tozp _ z) x =
    ((mkq (tozp (t12_p t) z : Zp (t12_p t)) (0 : Zp (t12_p t)) : t12_Fp2 t) * x)%fld.
  Proof.
    assert (H1 : (1 < t12_p t)%Z) by (assert (X := prime_ge_2 _ Hp); lia).
    apply (fp2_smul_eq (Zp (t12_p t)) _ (FieldLaws_Ring _ (Zp_field _ H1 Hp))).
  Qed.
  Lemma b'_h : (0 <= b)%Z -> (2 < t12_p t)%Z -> qmap (of_big (t12_p t)) b' = (mkq (tozp (t12_p t) b : Zp (t12_p t)) (0 : Zp (t12_p t)) : t12_Fp2 t).
  Proof.
    intros Hb H2. assert (HB : Hom (BigZp (bigz (t12_p t))) (Zp (t12_p t)) (of_big (t12_p t))) by (apply BigZp_hom; [lia|apply bigz_spec; lia]).
    unfold b', qmap; cbn [q0 q1]. rewrite (hom_0 _ _ _ HB), (of_big_bigz _ _ Hb). reflexivity.
  Qed.
  Lemma t12_g2_inv_sound : t12_g2_inv_check = true -> ok_g2 (t12_Fp2 t) 0 (g2_b_inv t b tw) (lits2 (t12_p t) one) r.
  Proof.
    unfold t12_g2_inv_check, t12_g2_side. rewrite !andb_true_iff. intros (((((C1 & C2) & C3) & C4) & C5) & C).
    apply Z.ltb_lt in C1. apply Z.leb_le in C2, C3.
    assert (HH := t12_hom t C1 C2). assert (KL := t12_laws).
    unfold ok_g2, lits2; cbn [fst snd]. rewrite !lit2_big2 by (auto using nonneg_skipn).
    replace (0 : t12_Fp2 t) with (qmap (of_big (t12_p t)) (0 : A)) by apply (hom_0 _ _ _ HH).
    refine (g2_check_sound _ HH KL _ _ _ _ _ r _ _ C).
    assert (NW : qmap (of_big (t12_p t)) tw' <> (0 : t12_Fp2 t)).
    { unfold g2_check in C. rewrite !andb_true_iff in C. destruct C as (((((_ & _) & D) & _) & _) & _).
      apply negb_true_iff in D. rewrite <- (hom_eqb _ _ _ HH), (hom_0 _ _ _ HH) in D.
      apply (feqb_false _ (FieldLaws_Ring _ KL)) in D. exact D. }
    rewrite b'_h by assumption. unfold g2_b_inv. rewrite t12_smul. 
    replace (lit2 (t12_p t) tw) with (qmap (of_big (t12_p t)) tw') by (symmetry; apply lit2_big2, C4).
    rewrite (Rmul_assoc (F_R (FL_th _ KL))), (Rmul_comm (F_R (FL_th _ KL)) (qmap _ tw')), <- (Rmul_assoc (F_R (FL_th _ KL))).
    rewrite (finv_r _ KL) by exact NW. rewrite (Rmul_comm (F_R (FL_th _ KL))). apply (Rmul_1_l (F_R (FL_th _ KL))).
  Qed.
  Lemma t12_g2_mul_sound : t12_g2_mul_check = true -> ok_g2 (t12_Fp2 t) 0 (g2_b_mul t b tw) (lits2 (t12_p t) one) r.
  Proof.
    unfold t12_g2_mul_check, t12_g2_side. rewrite !andb_true_iff. intros (((((C1 & C2) & C3) & C4) & C5) & C).
    apply Z.ltb_lt in C1. apply Z.leb_le in C2, C3.
    assert (HH := t12_hom t C1 C2). assert (KL := t12_laws).
    unfold ok_g2, lits2; cbn [fst snd]. rewrite !lit2_big2 by (auto using nonneg_skipn).
    replace (0 : t12_Fp2 t) with (qmap (of_big (t12_p t)) (0 : A)) by apply (hom_0 _ _ _ HH).
    refine (g2_check_sound _ HH KL _ _ _ _ _ r _ _ C).
    rewrite (hom_1 _ _ _ HH), (hom_mul _ _ _ HH), b'_h by assumption. unfold g2_b_mul. rewrite t12_smul.
    replace (lit2 (t12_p t) tw) with (qmap (of_big (t12_p t)) tw') by (symmetry; apply lit2_big2, C4).
    apply (Rmul_1_l (F_R (FL_th _ KL))).
  Qed.
End T12.

Lemma alt_bn128_g2_check : t12_g2_inv_check alt_bn128_tower alt_bn128_254_b alt_bn128_254_g2_twist alt_bn128_254_g2_one alt_bn128_scalar_field_254_modulus = true.
Proof. vm_compute. reflexivity. Qed.
Lemma bls12_377_g2_check : t12_g2_inv_check bls12_377_tower bls12_377_b bls12_377_g2_twist bls12_377_g2_one bls12_scalar_field_377_modulus = true.
Proof. vm_compute. reflexivity. Qed.
Lemma bls12_381_g2_check : t12_g2_mul_check bls12_381_tower bls12_381_b bls12_381_g2_twist bls12_381_g2_one bls12_scalar_field_381_modulus = true.
Proof. vm_compute. reflexivity. Qed.
Section T4.
  Variable t : tower4.
  Hypothesis Hp : prime (t4_p t).
  Hypothesis Hf : t4_field_check t = true.
  Variables (a0 b1 : Z) (one : list Z) (r : Z).
  Local Notation B := (BigZp (bigz (t4_p t))).
  Local Notation A := (Fp2 B (bigz (t4_nr2 t))).
  Let a' : A := mkq ((bigz a0 : B) * (bigz (t4_nr2 t) : B)) (0 : B).
  Let b' : A := mkq (0 : B) ((bigz b1 : B) * (bigz (t4_nr2 t) : B)).
  Definition t4_g2_check : bool :=
    (2 <? t4_p t)%Z && (0 <=? t4_nr2 t)%Z && nonneg [a0; b1] && nonneg one &&
    g2_check a' (big2 one : A) (big2 (skipn 2 one) : A) (1 : A) b' r.
  Local Notation F := (Zp (t4_p t)).
  Lemma t4_g2_sound : t4_g2_check = true ->
    ok_g2 (t4_Fp2 t) (mkq ((tozp _ a0 : F) * (tozp _ (t4_nr2 t) : F)) (0 : F)) (mkq (0 : F) ((tozp _ b1 : F) * (tozp _ (t4_nr2 t) : F)))
      (lits2 (t4_p t) one) r.
  Proof.
    unfold t4_g2_check. rewrite !andb_true_iff. intros ((((C1 & C2) & C3) & C4) & C).
    apply Z.ltb_lt in C1. apply Z.leb_le in C2.
    assert (HH := t4_hom t C1 C2). assert (KL : FieldLaws (t4_Fp2 t)) by apply (FF_field _ _ _ (proj1 (t4_fields t Hp Hf))).
    assert (HB : Hom B F (of_big (t4_p t))) by (apply BigZp_hom; [lia|apply bigz_spec; lia]).
    assert (Ea : of_big (t4_p t) (bigz a0) = (tozp _ a0 : F)) by (apply of_big_bigz, (nonneg_nth _ 0 C3)).
    assert (Eb : of_big (t4_p t) (bigz b1) = (tozp _ b1 : F)) by (apply of_big_bigz, (nonneg_nth _ 1 C3)).
    assert (En : of_big (t4_p t) (bigz (t4_nr2 t)) = (tozp _ (t4_nr2 t) : F)) by (apply of_big_bigz, C2).
    unfold ok_g2, lits2; cbn [fst snd]. rewrite !lit2_big2 by (auto using nonneg_skipn).
    assert (Ha : qmap (of_big (t4_p t)) a' = mkq ((tozp _ a0 : F) * (tozp _ (t4_nr2 t) : F)) (0 : F)).
    { unfold a', qmap; cbn [q0 q1]. rewrite <- Ea, <- En, <- (hom_mul _ _ _ HB), (hom_0 _ _ _ HB). reflexivity. }
    rewrite <- Ha. refine (g2_check_sound _ HH KL _ _ _ _ _ r _ _ C).
    rewrite (hom_1 _ _ _ HH). etransitivity; [apply (Rmul_1_l (F_R (FL_th _ KL)))|].
    unfold b', qmap; cbn [q0 q1]. rewrite <- Eb, <- En, <- (hom_mul _ _ _ HB), (hom_0 _ _ _ HB). reflexivity.
  Qed.
End T4.
Section T6.
  Variable t : tower6.
  Hypothesis Hp : prime (t6_p t).
  Hypothesis Hf : t6_field_check t = true.
  Variables (a2 b0 : Z) (one : list Z) (r : Z).
  Local Notation B := (BigZp (bigz (t6_p t))).
  Local Notation A := (Fp3 B (bigz (t6_nr3 t))).
  Let a' : A := mkc (0 : B) (0 : B) (bigz a2 : B).
  Let b' : A := mkc ((bigz b0 : B) * (bigz (t6_nr3 t) : B)) (0 : B) (0 : B).
  Definition t6_g2_check : bool :=
    (2 <? t6_p t)%Z && (0 <=? t6_nr3 t)%Z && nonneg [a2; b0] && nonneg one &&
    g2_check a' (big3 one : A) (big3 (skipn 3 one) : A) (1 : A) b' r.
  Local Notation F := (Zp (t6_p t)).
  Lemma t6_g2_sound : t6_g2_check = true ->
    ok_g2 (t6_Fp3 t) (mkc (0 : F) (0 : F) (tozp _ a2 : F)) (mkc ((tozp _ b0 : F) * (tozp _ (t6_nr3 t) : F)) (0 : F) (0 : F))
      (lits3 (t6_p t) one) r.
  Proof.
    unfold t6_g2_check. rewrite !andb_true_iff. intros ((((C1 & C2) & C3) & C4) & C).
    apply Z.ltb_lt in C1. apply Z.leb_le in C2.
    assert (HH := t6_hom t C1 C2). assert (KL : FieldLaws (t6_Fp3 t)) by apply (FF_field _ _ _ (proj1 (t6_fields t Hp Hf))).
    assert (HB : Hom B F (of_big (t6_p t))) by (apply BigZp_hom; [lia|apply bigz_spec; lia]).
    assert (Ea : of_big (t6_p t) (bigz a2) = (tozp _ a2 : F)) by (apply of_big_bigz, (nonneg_nth _ 0 C3)).
    assert (Eb : of_big (t6_p t) (bigz b0) = (tozp _ b0 : F)) by (apply of_big_bigz, (nonneg_nth _ 1 C3)).
    assert (En : of_big (t6_p t) (bigz (t6_nr3 t)) = (tozp _ (t6_nr3 t) : F)) by (apply of_big_bigz, C2).
    unfold ok_g2, lits3; cbn [fst snd]. rewrite !lit3_big3 by (auto using nonneg_skipn).
    assert (Ha : cmap (of_big (t6_p t)) a' = mkc (0 : F) (0 : F) (tozp _ a2 : F)).
    { unfold a', cmap; cbn [c0 c1 c2]. rewrite <- Ea, !(hom_0 _ _ _ HB). reflexivity. }
    rewrite <- Ha. refine (g2_check_sound _ HH KL _ _ _ _ _ r _ _ C).
    rewrite (hom_1 _ _ _ HH). etransitivity; [apply (Rmul_1_l (F_R (FL_th _ KL)))|].
    unfold b', cmap; cbn [c0 c1 c2]. rewrite <- Eb, <- En, <- (hom_mul _ _ _ HB), !(hom_0 _ _ _ HB). reflexivity.
  Qed.
End T6.
Lemma mnt4_g2_check : t4_g2_check mnt4_tower mnt4_298_a mnt4_298_b mnt4_298_g2_one mnt6_base_field_298_modulus = true.
Proof. vm_compute. reflexivity. Qed.
Lemma mnt6_g2_check : t6_g2_check mnt6_tower mnt6_298_a mnt6_298_b mnt6_298_g2_one mnt4_base_field_298_modulus = true.
Proof. vm_compute. reflexivity. Qed.
