(** Facts about the bls12-381 curves used by the (de)serialisation theorems:
    no point has y = 0, square roots are found, and both curves have points
    outside the prime-order subgroup. *)
From Coq Require Import ZArith NArith List Bool Lia Znumtheory Ring Field.
From Bignums Require Import BigN.
From Verif Require Import Base.Field Base.Zp Base.Ext Base.Hom Base.BigZp Spec.Group Spec.Weierstrass
  Model.ShortWeierstrass Model.Fp Model.Fp2 Model.FieldParams Model.Shipped Model.Sqrt Model.CurveParams Model.Generators Model.Marshalling
  Proof.ExtTheory Proof.Towers Proof.FiniteField Proof.Homs Proof.Shipped Proof.ShippedTowers Proof.SqrtShipped
  Proof.PrimesPairing Proof.PrimesMisc Proof.OrderCheck Proof.Generators Proof.Bytes Proof.Marshalling.
Import ListNotations.
Local Open Scope fld_scope.

Definition bls_p : Z := bls12_base_field_381_modulus.
Definition bls_nr : Z := bls12_381_fp2_non_residue.
Notation K1 := (Zp bls_p).
Notation K2 := (Fp2 K1 (tozp bls_p bls_nr)).
Definition bls_b1 : K1 := tozp bls_p bls12_381_b.
Definition bls_b2 : K2 := bls12_381_g2_b.

Lemma bls_p_gt : (2 < bls_p)%Z.
Proof. vm_compute. reflexivity. Qed.
Lemma bls_p_small : (bls_p <= 2 ^ 381)%Z.
Proof. vm_compute. discriminate. Qed.
Lemma bls_K1 : FieldLaws K1.
Proof. apply Zp_field; [vm_compute; reflexivity|exact bls381_p_prime]. Qed.
Lemma bls_K2 : FieldLaws K2.
Proof. exact (t12_laws _ bls381_p_prime bls381_field_check). Qed.
Lemma bls_b1_4 : bls_b1 = fp_of_int bls_p 4.
Proof. reflexivity. Qed.
Lemma bls_b2_4 : bls_b2 = (mkq (fp_of_int bls_p 4) (fp_of_int bls_p 4) : K2).
Proof. unfold bls_b2, bls12_381_g2_b, g2_b_mul, fp2_smul, lit2. cbn [q0 q1 bls12_381_g2_twist nth]. f_equal; apply (zp_ext bls_p); vm_compute; reflexivity. Qed.

(** ** no point has y = 0 *)
Section Cube.
  Variables (K : FieldOps) (KL : FieldLaws K).
  Add Ring KCube : (RL_th K (FieldLaws_Ring K KL)).
  Lemma not_cube_sum (b : K) : not_cube (- b) -> forall x : K, x * x * x + b <> 0.
  Proof.
    intros N x E. apply (N x). apply (fsub_0_eq K (FieldLaws_Ring K KL)). rewrite <- E. ring.
  Qed.
  Lemma zero_sqr : (0 : K) * 0 = 0.
  Proof. ring. Qed.
End Cube.
Lemma bls_check1 : nonpower (BigZp (bigz bls_p)) 3 (Z.to_N bls_p ^ 1) (fopp (bigz 4 : BigZp (bigz bls_p))) = true.
Proof. vm_compute. reflexivity. Qed.
Lemma bls_no2_g1 (x : K1) : x * x * x + bls_b1 <> 0.
Proof.
  apply (not_cube_sum K1 bls_K1). 
  assert (HH : Hom (BigZp (bigz bls_p)) K1 (of_big bls_p)) by (apply BigZp_hom; [vm_compute; reflexivity|apply bigz_spec; vm_compute; discriminate]).
  assert (C := bls_check1). rewrite <- (nonpower_hom _ HH), (hom_opp _ _ _ HH) in C.
  assert (E : of_big bls_p (bigz 4) = bls_b1) by (apply of_big_bigz; lia).
  rewrite E in C. exact (proj1 (nonpower_3 K1 (Z.to_N bls_p) 1 (Zp_FinField bls_p bls381_p_prime) _ C)).
Qed.
Notation A2 := (Fp2 (BigZp (bigz bls_p)) (bigz bls_nr)).
Lemma bls_check2 : nonpower A2 3 (Z.to_N bls_p ^ 2) (fopp (mkq (bigz 4) (bigz 4) : A2)) = true.
Proof. vm_compute. reflexivity. Qed.
Lemma bls_no2_g2 (x : K2) : x * x * x + bls_b2 <> 0.
Proof.
  apply (not_cube_sum K2 bls_K2).
  assert (HH : Hom A2 K2 (qmap (of_big bls_p))) by (apply (t12_hom bls12_381_tower); [vm_compute; reflexivity|vm_compute; discriminate]).
  assert (C := bls_check2). rewrite <- (nonpower_hom _ HH), (hom_opp _ _ _ HH) in C.
  assert (E : qmap (of_big bls_p) (mkq (bigz 4) (bigz 4)) = bls_b2).
  { rewrite bls_b2_4. unfold qmap; cbn [q0 q1]. rewrite !of_big_bigz by lia. reflexivity. }
  rewrite E in C. exact (proj1 (nonpower_3 K2 (Z.to_N bls_p) 2 (proj1 (t12_fields _ bls381_p_prime bls381_field_check)) _ C)).
Qed.

(** ** square roots *)
(** the contract of boost::multiprecision::ressol: a root of any non-zero square *)
Definition ressol_contract (ressol : K1 -> K1) : Prop := forall a, a <> 0 -> (exists y, y * y = a) -> ressol a * ressol a = a.
Lemma bls_root1 ressol : ressol_contract ressol -> finds_roots (fp_sqrt bls_p ressol).
Proof.
  intros C a N E. assert (Q := C a N E). unfold fp_sqrt. assert (R := FieldLaws_Ring K1 bls_K1).
  assert (Z : fp_is_zero bls_p a = false) by (apply (feqb_false K1 R); exact N). rewrite Z. exists (ressol a). split; [|exact Q].
  assert (Z' : fp_is_zero bls_p (ressol a) = false).
  { apply (feqb_false K1 R). intros Z'. apply N. rewrite <- Q, Z'. apply (zero_sqr K1 bls_K1). }
  cbv zeta. rewrite Z'. reflexivity.
Qed.
Lemma bls_root2 fuel : (Z.to_nat (sp_s bls12_381_sqrt) <= fuel)%nat -> finds_roots (fp2_sqrt bls_p bls_nr bls12_381_sqrt fuel : K2 -> option K2).
Proof.
  intros F a N [y E].
  destruct (fp2_sqrt_square _ _ _ bls381_sqrt_check (proj1 (t12_fields _ bls381_p_prime bls381_field_check)) y a E N) as (r & H & Q).
  exists r. split; [exact (H fuel F)|exact Q].
Qed.

(** ** points outside the subgroup: orders 3 and 13 *)
Definition bls_small1 : sw_curve := mkSW bls_p bls12_381_a bls12_381_b [0; 2]%Z 3.
Lemma bls_small1_check : sw_check bls_small1 = true.
Proof. vm_compute. reflexivity. Qed.
Definition bls_small2 : list Z := [
  0x157573f4c77585787c2c988585c1f6afe39f5b91aacb37509b42ec71fceb51a1576fda15dac1031f8d26785d6b139784;
  0xe074268358ced055a27ab8de3bbdeb6d0c2949685103095e491dc537fc8ee474a73ce0b2826fae8eabfb3078a910b64;
  0x1409bd0f66a342adbd89fd4c49a9a06580309dbfaeac7449cd8a58ba5d71f8cbe0299d203f9ff6a6ad6e05649125132e;
  0x1020564df685fc6f4568cc6f629ad422e43d4dd78d42c2771f48cd192290803a19fecc8a030e65cf4efb07d4158771c7]%Z.
Lemma bls_small2_check : t12_g2_mul_check bls12_381_tower bls12_381_b bls12_381_g2_twist bls_small2 13 = true.
Proof. vm_compute. reflexivity. Qed.
