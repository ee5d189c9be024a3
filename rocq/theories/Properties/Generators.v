(** C29: the shipped generators.  The curves and constants are those of
    Model/CurveParams.v and Model/Generators.v; curves, group laws and scalar
    multiples those of Spec/. *)
From Coq Require Import ZArith NArith List Bool Lia Znumtheory Ring Field.
From Verif Require Proof.Towers.
From Verif Require Import Base.Field Base.Zp Base.Ext Spec.Group Spec.Weierstrass Spec.Edwards Spec.Montgomery
  Model.ShortWeierstrass Model.Edwards Model.EdwardsG2 Model.Montgomery Model.Fp2 Model.Fp3 Model.FieldParams Model.Shipped Model.CurveParams Model.Generators
  Proof.FiniteField Proof.Shipped Proof.ShippedTowers Proof.WeierstrassGroup Proof.EdwardsGroup Proof.MontgomeryGroup
  Proof.WeierstrassRep Proof.EdwardsOps Proof.EdwardsTorsion Proof.EdwardsDual
  Proof.PrimesPairing Proof.PrimesSecp Proof.PrimesEcpp Proof.PrimesMisc Proof.OrderCheck Proof.Generators Proof.GeneratorsTE Proof.GeneratorsEd2 Proof.Instances
  Properties.Weierstrass Properties.Edwards.
Import ListNotations.
Local Open Scope fld_scope.

(** on a non-singular curve, not the identity, killed by r *)
Definition sw_generator (K : FieldOps) (a b : K) (G : point K) (r : Z) : Prop :=
  nonsingular K a b /\ on_curve K a b G /\ G <> Inf /\ (0 < r)%Z /\ ec_mul K a (Z.to_nat r) G = Inf.
(** exact order r *)
Definition sw_order (K : FieldOps) (a : K) (G : point K) (r : Z) : Prop :=
  forall n, (0 < n)%nat -> ec_mul K a n G = Inf <-> (r | Z.of_nat n)%Z.

(** if r is prime the order is exactly r *)
Lemma prime_divides (G : AbGroup) (x : G) r n : prime (Z.of_N r) -> gin x -> x <> g0 -> gmul r x = g0 ->
  gmul n x = g0 <-> (Z.of_N r | Z.of_N n)%Z.
Proof.
  intros PR X N RX. assert (R2 := prime_ge_2 _ PR). assert (R0 : r <> 0%N) by lia. split.
  - intros NX. destruct (N.eq_dec (n mod r)%N 0%N) as [E|E].
    + exists (Z.of_N (n / r)). assert (D := N.div_mod n r R0). nia.
    + exfalso. apply N. assert (D := N.div_mod n r R0). assert (L := N.mod_lt n r R0).
      apply (prime_order G r x (n mod r) PR X RX); [split; [apply N.neq_0_lt_0, E|exact L]|].
      assert (E1 : gmul n x = gadd (gmul (n / r) (gmul r x)) (gmul (n mod r) x)).
      { rewrite D at 1. rewrite gmul_add, N.mul_comm, gmul_mul by exact X. reflexivity. }
      rewrite NX, RX, gmul_zero, g_0l in E1 by (apply gmul_in, X). symmetry. exact E1.
  - intros [c C]. assert (C0 : (0 <= c)%Z) by nia.
    replace n with (Z.to_N c * r)%N by lia. rewrite gmul_mul, RX by exact X. apply gmul_zero.
Qed.
Lemma sw_order_prime (K : FieldOps) (KL : FieldLaws K) (two : (2 : K) <> 0) a b G r :
  sw_generator K a b G r -> prime r -> sw_order K a G r.
Proof.
  intros (NS & ON & NI & R0 & RG) PR n Hn.
  assert (D := prime_divides (sw_group K KL two a b NS) G (Z.to_N r) (N.of_nat n)).
  rewrite !(sw_gmul K KL two a b NS), Nat2N.id, nat_N_Z, Z2N.id in D by lia. apply D; auto.
  rewrite Z_N_nat. exact RG.
Qed.

(** ** G1 of the short Weierstrass curves *)
Definition swK (c : sw_curve) : FieldOps := Zp (swc_p c).
Definition swa (c : sw_curve) : swK c := tozp (swc_p c) (swc_a c).
Definition swb (c : sw_curve) : swK c := tozp (swc_p c) (swc_b c).
Definition swG (c : sw_curve) : point (swK c) :=
  Aff (tozp (swc_p c) (ptX (swc_one c)) : swK c) (tozp (swc_p c) (ptY (swc_one c)) : swK c).
Lemma sw_shipped c : In c shipped_sw_g1 -> prime (swc_p c) /\ sw_check c = true.
Proof.
  intros I. split; [exact (proj1 (Forall_forall _ _) sw_primes c I)|exact (proj1 (Forall_forall _ _) sw_checks c I)].
Qed.
Lemma sw_laws c : In c shipped_sw_g1 -> FieldLaws (swK c) /\ (2 : swK c) <> 0.
Proof.
  intros I. destruct (sw_shipped c I) as [P C]. destruct (sw_check_sound c P C) as (_ & _ & _ & two & _).
  assert (H : (1 < swc_p c)%Z) by (assert (X := prime_ge_2 _ P); lia). exact (conj (Zp_field _ H P) two).
Qed.
Theorem C29_short_weierstrass c : In c shipped_sw_g1 -> sw_generator (swK c) (swa c) (swb c) (swG c) (swc_r c).
Proof.
  intros I. destruct (sw_shipped c I) as [P C]. destruct (sw_check_sound c P C) as (A & B & D & _ & E).
  split; [exact A|]. split; [exact B|]. split; [discriminate|]. split; [exact D|exact E].
Qed.
(** exact order: the scalar field moduli are prime *)
Lemma order_primes : Forall (fun c => prime (swc_r c)) shipped_sw_g1.
Proof.
  cbv [shipped_sw_g1]. repeat apply Forall_cons; try apply Forall_nil.
  - exact prime_secp_r1_scalar_field_160.
  - exact prime_secp_r1_scalar_field_192.
  - exact prime_secp_r1_scalar_field_224.
  - exact prime_secp_r1_scalar_field_256.
  - exact prime_secp_r1_scalar_field_384.
  - exact prime_secp_r1_scalar_field_521.
  - exact prime_secp_k1_scalar_field_160.
  - exact prime_secp_k1_scalar_field_192.
  - exact prime_secp_k1_scalar_field_224.
  - exact prime_secp_k1_scalar_field_256.
  - exact prime_vesta_base_field.
  - exact prime_pallas_base_field.
  - exact prime_alt_bn128_scalar_field_254.
  - exact prime_bls12_scalar_field_381.
  - exact prime_bls12_scalar_field_377.
  - exact prime_mnt6_base_field_298.
  - exact prime_mnt4_base_field_298.
Qed.
Theorem C29_short_weierstrass_order c : In c shipped_sw_g1 -> sw_order (swK c) (swa c) (swG c) (swc_r c).
Proof.
  intros I. assert (PR := proj1 (Forall_forall _ _) order_primes c I). destruct (sw_laws c I) as [KL two].
  exact (sw_order_prime (swK c) KL two (swa c) (swb c) _ _ (C29_short_weierstrass c I) PR).
Qed.

(** ** G2 of the pairing-friendly short Weierstrass curves *)
Definition aff2 {K : FieldOps} (G : K * K) : point K := Aff (fst G) (snd G).
Definition g2_generator (K : FieldOps) (a b : K) (G : K * K) (r : Z) : Prop :=
  sw_generator K a b (aff2 G) r /\ sw_order K a (aff2 G) r.
Lemma ok_g2_generator (K : FieldOps) (KL : FieldLaws K) a b G r : ok_g2 K a b G r -> prime r -> g2_generator K a b G r.
Proof.
  intros (A & B & C & two & D) PR.
  assert (S : sw_generator K a b (aff2 G) r).
  { split; [exact A|]. split; [exact B|]. split; [discriminate|]. split; [exact C|exact D]. }
  split; [exact S|]. exact (sw_order_prime K KL two a b _ _ S PR).
Qed.
Theorem C29_alt_bn128_g2 : g2_generator (t12_Fp2 alt_bn128_tower) 0 alt_bn128_g2_b
  (lits2 (t12_p alt_bn128_tower) alt_bn128_254_g2_one) alt_bn128_scalar_field_254_modulus.
Proof.
  apply ok_g2_generator; [exact (t12_laws _ alt_bn_p_prime alt_bn_field_check)| |exact prime_alt_bn128_scalar_field_254].
  exact (t12_g2_inv_sound _ alt_bn_p_prime alt_bn_field_check _ _ _ _ alt_bn128_g2_check).
Qed.
Theorem C29_bls12_377_g2 : g2_generator (t12_Fp2 bls12_377_tower) 0 bls12_377_g2_b
  (lits2 (t12_p bls12_377_tower) bls12_377_g2_one) bls12_scalar_field_377_modulus.
Proof.
  apply ok_g2_generator; [exact (t12_laws _ bls377_p_prime bls377_field_check)| |exact prime_bls12_scalar_field_377].
  exact (t12_g2_inv_sound _ bls377_p_prime bls377_field_check _ _ _ _ bls12_377_g2_check).
Qed.
Theorem C29_bls12_381_g2 : g2_generator (t12_Fp2 bls12_381_tower) 0 bls12_381_g2_b
  (lits2 (t12_p bls12_381_tower) bls12_381_g2_one) bls12_scalar_field_381_modulus.
Proof.
  apply ok_g2_generator; [exact (t12_laws _ bls381_p_prime bls381_field_check)| |exact prime_bls12_scalar_field_381].
  exact (t12_g2_mul_sound _ bls381_p_prime bls381_field_check _ _ _ _ bls12_381_g2_check).
Qed.
Theorem C29_mnt4_g2 : g2_generator (t4_Fp2 mnt4_tower) mnt4_g2_a mnt4_g2_b
  (lits2 (t4_p mnt4_tower) mnt4_298_g2_one) mnt6_base_field_298_modulus.
Proof.
  apply ok_g2_generator; [exact (FF_field _ _ _ (proj1 (t4_fields _ mnt4_p_prime mnt4_field_check)))| |exact prime_mnt6_base_field_298].
  exact (t4_g2_sound _ mnt4_p_prime mnt4_field_check _ _ _ _ mnt4_g2_check).
Qed.
Theorem C29_mnt6_g2 : g2_generator (t6_Fp3 mnt6_tower) mnt6_g2_a mnt6_g2_b
  (lits3 (t6_p mnt6_tower) mnt6_298_g2_one) mnt4_base_field_298_modulus.
Proof.
  apply ok_g2_generator; [exact (FF_field _ _ _ (proj1 (t6_fields _ mnt6_p_prime mnt6_field_check)))| |exact prime_mnt4_base_field_298].
  exact (t6_g2_sound _ mnt6_p_prime mnt6_field_check _ _ _ _ mnt6_g2_check).
Qed.

(** ** Twisted Edwards and Montgomery *)
Definition te_generator (K : FieldOps) (a d : K) (G : K * K) (r : Z) : Prop :=
  complete K a d /\ on_te K a d G /\ G <> te_zero /\ (0 < r)%Z /\
  forall n, te_mul K a d n G = te_zero <-> (r | Z.of_nat n)%Z.
Lemma te_order_prime (K : FieldOps) (KL : FieldLaws K) (two : (2 : K) <> 0) a d G r (CM : complete K a d) :
  on_te K a d G -> G <> te_zero -> (0 < r)%Z -> te_mul K a d (Z.to_nat r) G = te_zero -> prime r ->
  forall n, te_mul K a d n G = te_zero <-> (r | Z.of_nat n)%Z.
Proof.
  intros ON NI R0 RG PR n.
  assert (D := prime_divides (te_group K KL two a d CM) G (Z.to_N r) (N.of_nat n)).
  rewrite !(te_gmul K KL two a d CM), Nat2N.id, nat_N_Z, Z2N.id in D by lia. apply D; auto.
  rewrite Z_N_nat. exact RG.
Qed.
Definition teK (c : te_curve) : FieldOps := Zp (tec_p c).
Definition teG (c : te_curve) : teK c * teK c := (tozp (tec_p c) (ptX (tec_one c)), tozp (tec_p c) (ptY (tec_one c))).
Lemma te_r_primes : Forall (fun c => prime (tec_r c) /\ zval (tozp (tec_p c) (ptX (tec_one c))) <> 0%Z) shipped_te_g1.
Proof.
  cbv [shipped_te_g1]. repeat apply Forall_cons; try apply Forall_nil; (split; [|intros H; vm_compute in H; discriminate H]).
  - exact prime_jubjub_scalar_field.
  - exact prime_babyjubjub_scalar_field.
  - exact prime_curve25519_scalar_field.
Qed.
Lemma in_combine_ex {A B} (l : list A) (l' : list B) x : length l = length l' -> In x l -> exists y, In (x, y) (combine l l').
Proof.
  revert l'. induction l as [|u l IH]; intros [|v l'] H I; cbn in *; try contradiction; try discriminate.
  destruct I as [->|I]; [exists v; auto|]. destruct (IH l' (ltac:(lia)) I) as [y Y]. exists y. auto.
Qed.
Theorem C29_twisted_edwards c : In c shipped_te_g1 ->
  te_generator (teK c) (tozp (tec_p c) (tec_a c)) (tozp (tec_p c) (tec_d c)) (teG c) (tec_r c).
Proof.
  intros I. assert (P := proj1 (Forall_forall _ _) te_primes c I). destruct (proj1 (Forall_forall _ _) te_r_primes c I) as [PR NX].
  destruct (in_combine_ex shipped_te_g1 te_roots c eq_refl I) as [s S].
  assert (C := proj1 (forallb_forall _ _) te_checks _ S). unfold te_curve_check in C. cbn [fst snd] in C.
  assert (P1 : (1 < tec_p c)%Z) by (assert (X := prime_ge_2 _ P); lia). assert (KL := Zp_field _ P1 P).
  assert (T : te_prep (K := teK c) (mkT (tozp (tec_p c) (ptX (tec_one c)) : teK c) (tozp (tec_p c) (ptY (tec_one c)) : teK c) (tozp (tec_p c) 1 : teK c)) (teG c)).
  { change (tozp (tec_p c) 1 : teK c) with (1 : teK c). unfold te_prep, teG; cbn [tX tY tZ fst snd].
    split; [apply (f1_neq_0 _ KL)|]. split; symmetry; apply (mul_01 _ (FieldLaws_Ring _ KL)). }
  destruct (te_check_sound _ _ _ _ _ _ _ _ P C (teG c) T) as (CM & ON & R0 & two & RG).
  assert (NI : teG c <> te_zero).
  { intros E. apply (f_equal fst) in E. apply (f_equal zval) in E. cbn [teG te_zero fst] in E. rewrite E in NX. apply NX. apply Z.mod_0_l. lia. }
  split; [exact CM|]. split; [exact ON|]. split; [exact NI|]. split; [exact R0|].
  exact (te_order_prime (teK c) KL two _ _ _ _ CM ON NI R0 RG PR).
Qed.
(** edwards<183> G1; the generator is given in inverted coordinates *)
Theorem C29_edwards_g1 : te_generator (Zp edwards_base_field_183_modulus) (tozp _ edwards_183_a) (tozp _ edwards_183_d)
  edwards_g1_one edwards_scalar_field_183_modulus.
Proof.
  assert (P : prime edwards_base_field_183_modulus) by exact edwards_p_prime. assert (C := edwards_g1_check). cbv zeta in C.
  assert (P1 : (1 < edwards_base_field_183_modulus)%Z) by (assert (X := prime_ge_2 _ P); lia). assert (KL := Zp_field _ P1 P).
  set (p := edwards_base_field_183_modulus) in *. set (K := Zp p) in *.
  set (X := nth 0 edwards_183_g1_inverted_one 0%Z) in *. set (Y := nth 1 edwards_183_g1_inverted_one 0%Z) in *.
  set (Z := nth 2 edwards_183_g1_inverted_one 0%Z) in *.
  assert (N : forall z, negb (z mod p =? 0)%Z = true -> (tozp p z : K) <> 0).
  { intros z H E. apply (f_equal zval) in E. rewrite zval_tozp in E. change (zval (0 : K)) with (0 mod p)%Z in E.
    rewrite E in H. vm_compute in H. discriminate H. }
  assert (NX : (tozp p X : K) <> 0) by (apply N; vm_compute; reflexivity).
  assert (NY : (tozp p Y : K) <> 0) by (apply N; vm_compute; reflexivity).
  assert (NZ : (tozp p Z : K) <> 0) by (apply N; vm_compute; reflexivity).
  assert (M : forall u v, (tozp p (u * v) : K) = (tozp p u : K) * (tozp p v : K)) by (intros u v; change (tozp p (u * v) = tozp p (zval (tozp p u) * zval (tozp p v))); apply tozp_eq; rewrite !zval_tozp; apply Zmult_mod).
  set (x := tozp p X : K) in *. set (y := tozp p Y : K) in *. set (z := tozp p Z : K) in *.
  assert (EG : edwards_g1_one = (z * finv x, z * finv y)) by reflexivity.
  assert (T : te_prep (K := K) (mkT (tozp p (Z * Y) : K) (tozp p (Z * X) : K) (tozp p (X * Y) : K)) edwards_g1_one).
  { rewrite !M, EG. fold x y z. unfold te_prep; cbn [tX tY tZ fst snd].
    assert (D : forall u : K, u <> 0 -> finv u * u = 1) by (apply (finv_l K KL)).
    assert (T3 := F_R (FL_th K KL)).
    split; [apply (fmul_neq_0 K KL); assumption|]. split.
    - rewrite (Rmul_assoc T3), <- (Rmul_assoc T3 z (finv x) x), (D _ NX), (Rmul_comm T3 z 1), (Rmul_1_l T3). reflexivity.
    - rewrite (Rmul_comm T3 x y), (Rmul_assoc T3), <- (Rmul_assoc T3 z (finv y) y), (D _ NY), (Rmul_comm T3 z 1), (Rmul_1_l T3). reflexivity. }
  destruct (te_check_sound _ _ _ _ _ _ _ _ P C edwards_g1_one T) as (CM & ON & R0 & two & RG).
  assert (NI : edwards_g1_one <> te_zero).
  { rewrite EG. intros E. apply (f_equal fst) in E. cbn [fst te_zero] in E. revert E. apply (fmul_neq_0 K KL); [exact NZ|].
    intros E. apply (f1_neq_0 K KL). rewrite <- (finv_r K KL x NX), E. apply (mul_01 K (FieldLaws_Ring K KL)). }
  split; [exact CM|]. split; [exact ON|]. split; [exact NI|]. split; [exact R0|].
  apply (te_order_prime K KL two _ _ _ _ CM ON NI R0 RG). exact prime_edwards_scalar_field_183.
Qed.

Definition mcK (c : mont_curve) : FieldOps := Zp (mc_p c).
Definition mcG (c : mont_curve) : point (mcK c) := Aff (tozp (mc_p c) (ptX (mc_one c)) : mcK c) (tozp (mc_p c) (ptY (mc_one c)) : mcK c).
Lemma mc_r_primes : Forall (fun c => prime (mc_r c)) shipped_mont_g1.
Proof.
  cbv [shipped_mont_g1]. repeat apply Forall_cons; try apply Forall_nil.
  - exact prime_jubjub_scalar_field. - exact prime_babyjubjub_scalar_field. - exact prime_curve25519_scalar_field.
Qed.
Theorem C29_montgomery c : In c shipped_mont_g1 ->
  let A : mcK c := tozp (mc_p c) (mc_A c) in let B : mcK c := tozp (mc_p c) (mc_B c) in
  mont_nonsingular (mcK c) A B /\ on_mont (mcK c) A B (mcG c) /\ mcG c <> Inf /\ (0 < mc_r c)%Z /\
  forall n, mont_mul (mcK c) A B n (mcG c) = Inf <-> (mc_r c | Z.of_nat n)%Z.
Proof.
  intros I. cbv zeta. assert (P := proj1 (Forall_forall _ _) mont_primes c I). assert (PR := proj1 (Forall_forall _ _) mc_r_primes c I).
  destruct (in_combine_ex shipped_mont_g1 mont_thirds c eq_refl I) as [s S].
  assert (C := proj1 (forallb_forall _ _) mont_checks _ S). cbn [fst snd] in C.
  assert (P1 : (1 < mc_p c)%Z) by (assert (X := prime_ge_2 _ P); lia). assert (KL := Zp_field _ P1 P).
  destruct (mont_check_sound c s P C) as (NS & ON & R0 & two & three & RG).
  split; [exact NS|]. split; [exact ON|]. split; [discriminate|]. split; [exact R0|]. intros n.
  assert (D := prime_divides (mont_group (mcK c) KL two three _ _ NS) (mcG c) (Z.to_N (mc_r c)) (N.of_nat n)).
  rewrite !(mont_gmul (mcK c) KL two three _ _ NS), Nat2N.id, nat_N_Z, Z2N.id in D by lia. apply D; auto; [discriminate|].
  rewrite Z_N_nat. exact RG.
Qed.

(** ** edwards<183> G2 (element_edwards_g2, over Fp3): the twisted curve with
    coefficients (twist, d twist).  There a is not a square and d is, so the
    addition law is not complete; (x, y) |-> (x, 1/y) identifies the curve with
    the complete one with exchanged coefficients, and that is where orders are
    measured. *)
Definition odd_point (K : FieldOps) (a d : K) (n : N) (P : K * K) : Prop :=
  snd P <> 0 /\ on_te K a d P /\ te_mul K d a (N.to_nat n) (fst P, finv (snd P)) = te_zero.
Section EdwardsWf.
  Variable K : FieldOps.
  Hypothesis KL : FieldLaws K.
  Add Field KfieldWf : (FL_th K KL).
  Lemma eg2_wf_aux (X Y Z x y a d : K) (T : Prop) : X <> 0 -> Y <> 0 -> Z <> 0 -> Z = x * X -> Z = y * Y -> ~ T ->
    a * (Z * Z) * (Y * Y) + Z * Z * (X * X) = X * X * (Y * Y) + d * (Z * Z) * (Z * Z) <-> T \/ on_te K a d (x, y).
  Proof.
    intros NX NY NZ EX EY NT. unfold on_te. cbn [fst snd].
    assert (C : a * (Z * Z) * (Y * Y) + Z * Z * (X * X) - (X * X * (Y * Y) + d * (Z * Z) * (Z * Z))
      = X * X * (Y * Y) * (a * (x * x) + y * y - (1 + d * (x * x) * (y * y)))).
    { transitivity (a * ((x * X) * (x * X)) * (Y * Y) + (y * Y) * (y * Y) * (X * X)
        - (X * X * (Y * Y) + d * ((x * X) * (x * X)) * ((y * Y) * (y * Y)))); [rewrite <- EX, <- EY; reflexivity|ring]. }
    split.
    - intros E. right. apply (fsub_0_eq K (FieldLaws_Ring K KL)).
      apply (fmul_cancel_l K KL (X * X * (Y * Y))); [repeat apply (fmul_neq_0 K KL); auto|].
      transitivity (a * (Z * Z) * (Y * Y) + Z * Z * (X * X) - (X * X * (Y * Y) + d * (Z * Z) * (Z * Z))); [rewrite C; ring|rewrite E; ring].
    - intros [H|H]; [contradiction|]. apply (fsub_0_eq K (FieldLaws_Ring K KL)). rewrite C.
      assert (E : a * (x * x) + y * y - (1 + d * (x * x) * (y * y)) = 0).
      { transitivity ((1 + d * (x * x) * (y * y)) - (1 + d * (x * x) * (y * y))); [rewrite <- H; ring|ring]. }
      rewrite E. ring.
  Qed.
End EdwardsWf.
Section EdwardsG2.
  Variable F : FieldOps.
  Hypothesis FL : FieldLaws F.
  Variables nr fd : F.
  Local Notation K := (Fp3 F nr).
  Hypothesis KL : FieldLaws K.
  Let R := FieldLaws_Ring K KL.
  Hypothesis two : (2 : K) <> 0.
  (** the coefficients of the twisted curve *)
  Local Notation A := (mkc (0 : F) 1 0 : K).
  Local Notation D := (mkc (0 : F) fd 0 : K).
  Hypothesis cmp : complete K D A.
  Variable n : N.
  Hypothesis odd : N.odd n = true.
  Lemma eg2_coeffs : eg2_twist_a F nr 1 = A /\ eg2_twist_d F nr fd = D.
  Proof.
    assert (M := mul_01 F (FieldLaws_Ring F FL)).
    unfold eg2_twist_a, eg2_twist_d, eg2_twist, fp3_smul; cbn [c0 c1 c2].
    rewrite !(proj1 (M _)), !(proj2 (M _)). auto.
  Qed.
  Lemma odd_din (a d : K) P (CM : complete K d a) : odd_point K a d n P <-> din K KL two a d CM n P.
  Proof.
    unfold odd_point, din. cbn [gin gtors te_group]. fold (dual K P).
    rewrite <- (te_gmul K KL two d a CM). split.
    - intros (N & O & E). split; [exact N|]. split; [apply (dual_on K KL); assumption|exact E].
    - intros (N & O & E). split; [exact N|]. split; [apply (dual_on K KL); assumption|exact E].
  Qed.
  (** +, +=, -, double_inplace, mixed_add, unary -, == and scalar multiples on points of odd order *)
  Theorem C25_edwards_g2 P Q t u zx k : odd_point K A D n P -> odd_point K A D n Q -> is_inverted t P -> is_inverted u Q ->
    is_inverted (eg2_add F nr 1 fd t u) (te_add K A D P Q) /\ is_inverted (eg2_add_assign F nr 1 fd t u) (te_add K A D P Q) /\
    is_inverted (eg2_sub F nr 1 fd t u) (te_add K A D P (te_neg Q)) /\
    is_inverted (eg2_sub_assign F nr 1 fd t u) (te_add K A D P (te_neg Q)) /\ is_inverted (eg2_dbl F nr 1 fd t) (te_add K A D P P) /\
    (iZ u = 1 -> is_inverted (eg2_mixed_add F nr 1 fd t u) (te_add K A D P Q)) /\
    is_inverted (inv_neg t) (te_neg P) /\ (inv_eqb t u = true <-> P = Q) /\
    is_inverted (eg2_mul F nr fd zx t k) (te_mul K A D (N.to_nat k) P) /\
    odd_point K A D n (te_add K A D P Q) /\ odd_point K A D n (te_neg P).
  Proof.
    destruct eg2_coeffs as [EA ED]. assert (CM := cmp). rewrite <- EA, <- ED in CM.
    rename CM into CM'. rewrite <- EA, <- ED. rewrite !(odd_din _ _ _ CM'). intros HP HQ T U.
    set (G := dual_group K KL two _ _ CM' n odd).
    assert (RP : eg2_rep F nr KL fd two CM' n odd t P) by (split; assumption).
    assert (RQ : eg2_rep F nr KL fd two CM' n odd u Q) by (split; assumption).
    split; [apply (eg2_add_ok F FL nr KL fd two CM' n odd t u P Q RP RQ)|].
    split; [apply (eg2_add_ok F FL nr KL fd two CM' n odd t u P Q RP RQ)|].
    split; [apply (eg2_add_ok F FL nr KL fd two CM' n odd t (inv_neg u) P _ RP (eg2_neg_ok F nr KL fd two CM' n odd u Q RQ))|].
    split; [apply (eg2_add_ok F FL nr KL fd two CM' n odd t (inv_neg u) P _ RP (eg2_neg_ok F nr KL fd two CM' n odd u Q RQ))|].
    split; [apply (eg2_dbl_ok F FL nr KL fd two CM' n odd t P RP)|].
    split; [intros Z; apply (eg2_mixed_add_ok F FL nr KL fd two CM' n odd t u P Q RP RQ Z)|].
    split; [apply (inv_neg_ok K KL), T|].
    split; [apply (inv_eqb_ok K KL 0 0 (conj eq_refl (or_introl eq_refl))); assumption|].
    split; [rewrite <- (dual_gmul K KL two _ _ CM' n odd); apply (eg2_mul_ok F FL nr KL fd two CM' n odd zx t P k RP)|].
    split; [apply (g_inadd G P Q HP HQ)|apply (g_inneg G P HP)].
  Qed.
  (** the points of odd order dividing n are a commutative group under the addition law *)
  Theorem C27_edwards_g2 P Q S : odd_point K A D n P -> odd_point K A D n Q -> odd_point K A D n S ->
    te_add K A D (te_add K A D P Q) S = te_add K A D P (te_add K A D Q S) /\
    te_add K A D P Q = te_add K A D Q P /\ te_add K A D te_zero P = P /\ te_add K A D P (te_neg P) = te_zero.
  Proof.
    rewrite !(odd_din _ _ _ cmp). set (G := dual_group K KL two _ _ cmp n odd). intros HP HQ HS.
    split; [apply (g_assoc G); assumption|]. split; [apply (g_comm G); assumption|].
    split; [apply (g_0l G); assumption|apply (g_negr G); assumption].
  Qed.
  (** to_affine gives (x, y, 1); to_projective keeps the point *)
  Theorem C25_edwards_g2_reduce (P : K * K) t : is_inverted t P ->
    eg2_to_affine F nr t = mkI (fst P) (snd P) 1 /\ is_inverted (eg2_to_projective F nr t) P.
  Proof. intros T. split; [apply (eg2_to_affine_ok F nr KL), T|apply (eg2_to_projective_ok F nr KL), T]. Qed.
  (** zero() with any fill; is_special() is "identity or Z = 1" *)
  Theorem C25_edwards_g2_zero zx (P : K * K) t : is_inverted t P ->
    is_inverted (eg2_zero F nr zx) (te_zero : K * K) /\ (inv_is_zero t = true <-> P = te_zero) /\
    (eg2_is_special t = true <-> P = te_zero \/ iZ t = 1).
  Proof.
    intros T. split; [left; auto|]. split; [apply (inv_is_zero_ok K KL t P T)|].
    unfold eg2_is_special. rewrite orb_true_iff, (inv_is_zero_ok K KL t P T), (RL_eqb K R). reflexivity.
  Qed.
  (** is_well_formed tests the equation of the curve with the coefficients a, d of the prime field
      (C21 asks for the twisted ones; see C21_edwards_g2_refuted) *)
  Theorem C21_edwards_g2_partial fa (P : K * K) t : is_inverted t P ->
    eg2_is_well_formed F nr fa fd t = true <-> P = te_zero \/ on_te K (mkc fa 0 0) (mkc fd 0 0) P.
  Proof.
    assert (KF := FL_th K KL).
    intros T. unfold eg2_is_well_formed. destruct (inv_is_zero t) eqn:Z.
    - apply (inv_is_zero_ok K KL t P T) in Z. split; auto.
    - destruct T as [(HY & HZ & _)|(NX & NY & NZ & EX & EY)].
      { unfold inv_is_zero in Z. rewrite HY, HZ, (feqb_refl K R) in Z. discriminate Z. }
      assert (NP : P <> te_zero). { intros E. apply NZ. rewrite EX, E. cbn [fst te_zero]. apply (mul_0l K R). }
      cbv zeta. rewrite !(Proof.Towers.fp3_smul_eq F nr (FieldLaws_Ring F FL)), (RL_eqb K R).
      destruct P as [x y]. exact (eg2_wf_aux K KL (iX t) (iY t) (iZ t) x y (mkc fa 0 0) (mkc fd 0 0) ((x, y) = te_zero) NX NY NZ EX EY NP).
  Qed.
  (** to_affine of the identity is not an is_zero() object *)
  Theorem C25_edwards_g2_to_affine_refuted t : is_inverted t (te_zero : K * K) ->
    inv_is_zero t = true /\ inv_is_zero (eg2_to_affine F nr t) = false.
  Proof.
    intros T. split; [apply (inv_is_zero_ok K KL t _ T); reflexivity|].
    rewrite (eg2_to_affine_ok F nr KL t _ T). unfold inv_is_zero. cbn [iY iZ]. apply andb_false_iff. right.
    apply (feqb_false K R), (f1_neq_0 K KL).
  Qed.
End EdwardsG2.

Local Notation edK := (t6_Fp3 edwards_tower).
Local Notation edF := (Zp edwards_base_field_183_modulus).
Definition ed2_a : edK := mkc (0 : edF) (1 : edF) (0 : edF).
Definition ed2_d : edK := mkc (0 : edF) (tozp _ edwards_183_d : edF) (0 : edF).
(** the coefficients declared for the group are those of the curve of its generator *)
Theorem C29_edwards_g2_coefficients : edwards_g2_a = ed2_a /\ edwards_g2_d = ed2_d.
Proof.
  assert (E : forall x y : edK, (x =? y) = true -> x = y)
    by exact (feqb_true _ (FieldLaws_Ring _ (FF_field _ _ _ (proj1 (t6_fields _ edwards_p_prime edwards_field_check))))).
  split; apply E; vm_compute; reflexivity.
Qed.
Print Assumptions C29_edwards_g2_coefficients.
Theorem C29_edwards_g2 :
  on_te edK ed2_a ed2_d edwards_g2_one /\ edwards_g2_one <> te_zero /\
  (forall n, te_mul edK ed2_a ed2_d n edwards_g2_one = te_zero <-> (edwards_scalar_field_183_modulus | Z.of_nat n)%Z) /\
  is_inverted (ed2_obj edwards_tower edwards_183_g2_inverted_one) edwards_g2_one /\
  (forall zx, inv_is_zero (eg2_mul edF (tozp _ edwards_fp3_non_residue) (tozp _ edwards_183_d) zx
     (ed2_obj edwards_tower edwards_183_g2_inverted_one) (Z.to_N edwards_scalar_field_183_modulus)) = true).
Proof.
  destruct (ed2_sound edwards_tower edwards_183_d edwards_183_g2_inverted_one ed2_root edwards_scalar_field_183_modulus
    edwards_p_prime edwards_field_check ed2_checked) as (two & CM & IV & ON & NS & O' & RG).
  assert (FL : FieldLaws edF) by (apply Zp_field; [vm_compute; reflexivity|exact edwards_p_prime]).
  assert (KL : FieldLaws edK) by apply (FF_field _ _ _ (proj1 (t6_fields _ edwards_p_prime edwards_field_check))).
  change (ed2_point edwards_tower edwards_183_g2_inverted_one) with edwards_g2_one in *.
  destruct (eg2_coeffs edF FL (tozp _ edwards_fp3_non_residue) (tozp _ edwards_183_d)) as [EA ED].
  change (t6_p edwards_tower) with edwards_base_field_183_modulus in *. change (t6_nr3 edwards_tower) with edwards_fp3_non_residue in *.
  rewrite EA, ED in *. fold ed2_a ed2_d in CM, ON, O', RG.
  assert (PR : prime edwards_scalar_field_183_modulus) by exact prime_edwards_scalar_field_183. assert (odd : N.odd (Z.to_N edwards_scalar_field_183_modulus) = true) by (vm_compute; reflexivity).
  set (r := edwards_scalar_field_183_modulus) in *. assert (R2 := prime_ge_2 _ PR). clearbody r.
  assert (OP : odd_point edK ed2_a ed2_d (Z.to_N r) edwards_g2_one).
  { split; [exact NS|]. split; [exact ON|]. rewrite Z_N_nat. exact RG. }
  assert (NI : edwards_g2_one <> te_zero).
  { intros E. destruct IV as [(Y0 & _)|(_ & _ & NZ & E1 & _)].
    - apply (f_equal (fun e : edK => zval (c0 e))) in Y0. vm_compute in Y0. discriminate Y0.
    - apply NZ. rewrite E1, E. cbn [fst te_zero]. apply (mul_0l edK (FieldLaws_Ring _ KL)). }
  set (G := dual_group edK KL two ed2_a ed2_d CM (Z.to_N r) odd).
  assert (GP : gin (edwards_g2_one : G)) by (apply (odd_din edF (tozp _ edwards_fp3_non_residue) KL two (Z.to_N r) _ _ edwards_g2_one CM); exact OP).
  assert (RG' : te_mul edK ed2_a ed2_d (Z.to_nat r) edwards_g2_one = te_zero).
  { destruct (dual_mul edK KL two ed2_a ed2_d CM (Z.to_N r) odd (Z.to_nat r) _ GP) as [E1 [N1 _]].
    apply (dual_inj edK KL); [exact N1|apply (f1_neq_0 edK KL)|]. rewrite E1, (dual_zero edK KL). exact RG. }
  split; [exact ON|]. split; [exact NI|]. split; [|split; [exact IV|]].
  - intros n. assert (D := prime_divides G edwards_g2_one (Z.to_N r) (N.of_nat n)). unfold G in D.
    rewrite !(dual_gmul edK KL two), Nat2N.id, nat_N_Z, Z2N.id in D by lia. apply D; auto. rewrite Z_N_nat. exact RG'.
  - intros zx.
    destruct (C25_edwards_g2 edF FL (tozp _ edwards_fp3_non_residue) (tozp _ edwards_183_d) KL two CM (Z.to_N r) odd
      _ _ _ _ zx (Z.to_N r) OP OP IV IV) as (_ & _ & _ & _ & _ & _ & _ & _ & M & _).
    change (te_mul _ _ _ _ _) with (te_mul edK ed2_a ed2_d (N.to_nat (Z.to_N r)) edwards_g2_one) in M.
    rewrite Z_N_nat, RG' in M. apply (inv_is_zero_ok edK KL _ _ M). reflexivity.
Qed.
(** is_well_formed uses the coefficients of the untwisted curve: it rejects one() *)
Theorem C21_edwards_g2_refuted :
  eg2_is_well_formed edF (tozp _ edwards_fp3_non_residue) (tozp _ edwards_183_a) (tozp _ edwards_183_d)
    (ed2_obj edwards_tower edwards_183_g2_inverted_one) = false /\
  is_inverted (ed2_obj edwards_tower edwards_183_g2_inverted_one) edwards_g2_one /\ on_te edK ed2_a ed2_d edwards_g2_one.
Proof.
  split; [vm_compute; reflexivity|]. destruct C29_edwards_g2 as (A & _ & _ & B & _). auto.
Qed.


(** ** r * one() as the code computes it, in the default coordinates of each curve
    (scalar * point, operator*=): is_zero() holds *)
Definition sw_one (c : sw_curve) : triple (swK c) :=
  mkT (tozp (swc_p c) (ptX (swc_one c)) : swK c) (tozp (swc_p c) (ptY (swc_one c)) : swK c) 1.
Lemma sw_one_rep c : In c shipped_sw_g1 -> is_jacobian (sw_one c) (swG c) /\ is_projective (sw_one c) (swG c).
Proof.
  intros I. destruct (sw_laws c I) as [KL _]. assert (M := mul_01 _ (FieldLaws_Ring _ KL)).
  unfold is_jacobian, is_projective, rep_jacobian, rep_projective, sw_one, swG; cbn [tX tY tZ].
  rewrite !(proj2 (M _)). repeat split; try exact (f1_neq_0 _ KL).
Qed.
(** any curve (the default of secp_r1, mnt4, mnt6): projective *)
Theorem C29_projective_class c zy : In c shipped_sw_g1 ->
  let n := Z.to_N (swc_r c) in
  tZ (proj_mul (swK c) (swa c) 0 zy (sw_one c) n) = 0 /\ tZ (proj_mul_assign (swK c) (swa c) 0 zy (sw_one c) n) = 0.
Proof.
  intros I n. destruct (sw_laws c I) as [KL two]. destruct (C29_short_weierstrass c I) as (NS & ON & _ & _ & RG).
  destruct (C26_projective (swK c) KL two (swa c) (swb c) 0 zy NS (swG c) (sw_one c) n eq_refl ON (proj2 (sw_one_rep c I))) as [A B].
  unfold n in *. rewrite Z_N_nat, RG in A, B. split; [apply A|apply B].
Qed.
(** curves with a = 0 (the default of secp_k1, pallas, vesta, alt_bn128, bls12): jacobian_with_a4_0 *)
Theorem C29_jacobian_class c zx zy : In c shipped_sw_g1 -> swa c = 0 ->
  let n := Z.to_N (swc_r c) in
  tZ (jac_mul (swK c) zx zy (jac0_dbl (swK c)) (sw_one c) n) = 0 /\ tZ (jac_mul_assign (swK c) zx zy (jac0_dbl (swK c)) (sw_one c) n) = 0.
Proof.
  intros I A0 n. assert (PR := proj1 (Forall_forall _ _) order_primes c I). destruct (sw_laws c I) as [KL two]. destruct (C29_short_weierstrass c I) as (NS & ON & _ & R0 & RG).
  destruct (C26_jacobian_a4_0_partial (swK c) KL two (swa c) (swb c) zx zy NS A0 (swG c) (sw_one c) n ON (proj1 (sw_one_rep c I))) as [A B].
  - intros _ j J1 J2 E. apply (C29_short_weierstrass_order c I) in E; [|lia]. destruct E as [q Q]. rewrite N_nat_Z in Q. unfold n in J2.
    assert (0 < q)%Z by nia. nia.
  - unfold n in *. rewrite Z_N_nat, RG in A, B. split; [exact A|exact B].
Qed.
Example C29_jacobian_case : Forall (fun c => swa c = 0) (firstn 4 (skipn 6 shipped_sw_g1) ++ firstn 5 (skipn 10 shipped_sw_g1)).
Proof.
  cbv [shipped_sw_g1]. repeat apply Forall_cons; try apply Forall_nil; apply zp_ext; vm_compute; reflexivity.
Qed.
Lemma te_two c : In c shipped_te_g1 -> (2 : teK c) <> 0.
Proof.
  cbv [shipped_te_g1 In]. intros [<-|[<-|[<-|[]]]] E; apply (f_equal zval) in E; vm_compute in E; discriminate E.
Qed.
(** jubjub, babyjubjub: affine twisted Edwards *)
Theorem C29_te_affine_class c zy : In c shipped_te_g1 -> zy = 0 \/ zy = 1 ->
  let a : teK c := tozp (tec_p c) (tec_a c) in let d : teK c := tozp (tec_p c) (tec_d c) in
  tea_is_zero (teK c) 0 zy (tea_mul (teK c) a d 0 zy (mkE (fst (teG c)) (snd (teG c))) (Z.to_N (tec_r c))) = true.
Proof.
  intros I Zy a d. assert (P := proj1 (Forall_forall _ _) te_primes c I).
  assert (P1 : (1 < tec_p c)%Z) by (assert (X := prime_ge_2 _ P); lia). assert (KL : FieldLaws (teK c)) by exact (Zp_field _ P1 P).
  assert (two := te_two c I).
  destruct (C29_twisted_edwards c I) as (CM & ON & _ & R0 & RG).
  assert (T : is_te_affine 0 zy (mkE (fst (teG c)) (snd (teG c))) (teG c)) by (left; split; reflexivity).
  destruct (C26_te_affine (teK c) KL two _ _ CM 0 zy (conj eq_refl Zy) _ _ (Z.to_N (tec_r c)) ON T) as [A _].
  rewrite Z_N_nat in A. assert (E : te_mul (teK c) a d (Z.to_nat (tec_r c)) (teG c) = te_zero) by (apply RG; exists 1%Z; lia).
  unfold a, d in E. rewrite E in A.
  apply (tea_is_zero_ok (teK c) KL a d 0 zy (conj eq_refl Zy) _ _ A); [|reflexivity].
  apply (te_zero_on (teK c) KL).
Qed.
(** curve25519 (ed25519): extended coordinates; one() = (x, y, xy, 1) *)
Theorem C29_extended_class c : In c shipped_te_g1 ->
  let a : teK c := tozp (tec_p c) (tec_a c) in let d : teK c := tozp (tec_p c) (tec_d c) in a = - (1) ->
  let one := mkX (fst (teG c)) (snd (teG c)) (fst (teG c) * snd (teG c)) 1 in
  ext_is_zero (ext_mul (teK c) a d one (Z.to_N (tec_r c))) = true.
Proof.
  intros I a d AM one. assert (P := proj1 (Forall_forall _ _) te_primes c I).
  assert (P1 : (1 < tec_p c)%Z) by (assert (X := prime_ge_2 _ P); lia). assert (KL : FieldLaws (teK c)) by exact (Zp_field _ P1 P).
  assert (two := te_two c I).
  destruct (C29_twisted_edwards c I) as (CM & ON & _ & R0 & RG).
  assert (M := mul_01 _ (FieldLaws_Ring _ KL)).
  assert (T : is_extended one (teG c)).
  { unfold is_extended, rep_extended, one; cbn [xX xY xT xZ]. rewrite !(proj2 (M _)). repeat split; auto. apply (f1_neq_0 _ KL). }
  assert (E : te_mul (teK c) a d (N.to_nat (Z.to_N (tec_r c))) (teG c) = te_zero) by (apply RG; exists 1%Z; lia).
  assert (O : N.odd (Z.to_N (tec_r c)) = true).
  { revert I. clear. cbv [shipped_te_g1 In]. intros [<-|[<-|[<-|[]]]]; vm_compute; reflexivity. }
  destruct (C26_extended_order_partial (teK c) KL two a d CM 0 1 (conj eq_refl (or_intror eq_refl)) AM (Z.to_N (tec_r c)) (teG c) one (Z.to_N (tec_r c)) O ON E T) as [A _].
  - intros _ j J1 J2 F. exfalso. apply RG in F. destruct F as [q Q]. rewrite N_nat_Z in Q. assert (0 < q)%Z by nia. nia.
  - rewrite E in A. apply (ext_is_zero_ok (teK c) KL _ _ A). reflexivity.
Qed.
Example C29_extended_case : match shipped_te_g1 with [_; _; c] => (tozp (tec_p c) (tec_a c) : teK c) = - (1) | _ => False end.
Proof. apply zp_ext. vm_compute. reflexivity. Qed.
