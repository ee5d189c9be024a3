(** C64: the constants of arithmetic_params are what their names say. *)
From Coq Require Import ZArith NArith List Bool Lia Znumtheory.
From Verif Require Import Base.Field Base.Zp Base.Ext Spec.Order Spec.PolyQuot Model.Fp2 Model.Fp3 Model.FieldParams
  Model.ArithmeticParams Model.Shipped Proof.FiniteField Proof.Shipped Proof.ShippedTowers Proof.Order Proof.ArithmeticParams
  Proof.PrimesArith Proof.PrimesMisc Proof.ArithmeticOrders.
Import ListNotations.
Local Open Scope fld_scope.

(** s and t: p - 1 = 2^s * t with t odd, and t_minus_1_over_2 = (t - 1)/2 *)
Theorem C64_two_adicity (A : arith) : In A shipped_arith ->
  exists t, (a_p A - 1 = 2 ^ a_s A * t)%Z /\ Z.Odd t /\ (1 <= a_s A)%Z /\
    (forall v, a_t A = Some v -> v = t) /\ (forall v, a_tm1h A = Some v -> v = (t - 1) / 2)%Z.
Proof.
  intros H. destruct (arith_ints A H) as (_ & H1 & H2 & H3 & H4 & H5 & _).
  exists (odd_part A). repeat split; try assumption.
  intros v Hv. apply H5 in Hv. rewrite <- Hv. replace (2 * v + 1 - 1)%Z with (v * 2)%Z by lia. symmetry. apply Z.div_mul. lia.
Qed.

(** root_of_unity is reduced and is a primitive 2^s-th root of unity: its powers
    repeat with period exactly 2^s *)
Theorem C64_root_of_unity (A : arith) : In A shipped_arith ->
  (0 <= a_root A < a_p A)%Z /\ has_order (tozp (a_p A) (a_root A) : Zp (a_p A)) (Z.to_N (2 ^ a_s A)) /\
  powers_period (tozp (a_p A) (a_root A) : Zp (a_p A)) (Z.to_N (2 ^ a_s A)).
Proof.
  intros H. split; [apply root_range, H|]. split; [apply root_order, H|].
  apply order_period; [apply Zp_ring|apply pow2_pos, H|apply root_order, H].
Qed.

(** multiplicative_generator shifts the subgroup of 2^s-th roots of unity off itself,
    so no point of the coset is a root of x^(2^k) - 1 *)
Theorem C64_coset_shift (A : arith) (i j : N) : In A shipped_arith ->
  (tozp (a_p A) (a_mult A) : Zp (a_p A)) * fpow (tozp (a_p A) (a_root A) : Zp (a_p A)) i
    <> fpow (tozp (a_p A) (a_root A) : Zp (a_p A)) j.
Proof. intros H. apply coset_disjoint, H. Qed.

(** nqr is not a square and nqr_to_t = nqr^t, both reduced *)
Theorem C64_nqr (A : arith) (n : Z) : In A shipped_arith -> a_nqr A = Some n ->
  (0 < n < a_p A)%Z /\ (forall y : Zp (a_p A), y * y <> tozp (a_p A) n) /\
  forall v t, a_nqr_to_t A = Some v -> (a_p A - 1 = 2 ^ a_s A * t)%Z ->
    (0 <= v < a_p A)%Z /\ fpow (tozp (a_p A) n : Zp (a_p A)) (Z.to_N t) = tozp (a_p A) v.
Proof.
  intros H Hn. destruct (nqr_facts A H n Hn) as (H1 & H2 & H3). split; [exact H1|]. split; [exact H2|].
  intros v t Hv Ht. destruct (arith_ints A H) as (_ & Hs & Ht' & _).
  assert (E : t = odd_part A).
  { apply (Z.mul_reg_l _ _ (2 ^ a_s A)); [apply Z.pow_nonzero; lia|]. rewrite <- Ht, <- Ht'. reflexivity. }
  rewrite E. apply H3, Hv.
Qed.

(** Rsquared and Rcubed are R^2 and R^3 modulo p, R the least power of 2^64 above p *)
Theorem C64_montgomery_radix (A : arith) : In A shipped_arith ->
  exists k, (2 ^ (64 * (k - 1)) <= a_p A < 2 ^ (64 * k))%Z /\ (1 <= k)%Z /\
    (forall v, a_R2 A = Some v -> v = (2 ^ (64 * k)) ^ 2 mod a_p A)%Z /\
    (forall v, a_R3 A = Some v -> v = (2 ^ (64 * k)) ^ 3 mod a_p A)%Z.
Proof.
  intros H. destruct (arith_ints A H) as (_ & _ & _ & _ & _ & _ & H2 & H3 & _).
  destruct (limbs_spec A H) as [H4 H5]. exists (limbs (a_p A)). auto.
Qed.

(** group_order_minus_one_half is (p-1)/2, and so is the member called group_order *)
Theorem C64_group_order_half (A : arith) (v : Z) : In A shipped_arith ->
  a_order A = Some v \/ a_half A = Some v -> (2 * v = a_p A - 1)%Z.
Proof.
  intros H. destruct (arith_ints A H) as (_ & _ & _ & _ & _ & _ & _ & _ & H1 & H2 & _). intros [E|E]; auto.
Qed.
(** the number of units is p - 1, so no shipped group_order is the order of the group *)
Theorem C64_group_order_refuted (A : arith) (v : Z) : In A shipped_arith -> a_order A = Some v ->
  exists x : Zp (a_p A), x <> 0 /\ fpow x (Z.to_N v) <> 1.
Proof.
  intros H E. assert (Hv := C64_group_order_half A v H (or_introl E)).
  destruct (arith_ints A H) as (Hp2 & Hs & Et & Ho & _).
  set (w := tozp (a_p A) (a_root A) : Zp (a_p A)). assert (Hw := root_order A H).
  assert (Hn : fpow w (Z.to_N v) <> 1).
  { intros X. apply Hw in X. apply Ndivide_to_Z in X.
    assert (0 < 2 ^ a_s A)%Z by (apply Z.pow_pos_nonneg; lia).
    rewrite !Z2N.id in X by lia. destruct X as [k Ek]. destruct Ho as [m Hm].
    assert (X : (2 * k = 2 * m + 1)%Z) by (apply (Z.mul_reg_l _ _ (2 ^ a_s A)); lia). lia. }
  exists w. split; [|exact Hn]. intros X. apply Hn.
  assert (P := pow2_pos A H). assert (X1 : fpow w (Z.to_N (2 ^ a_s A)) = 1) by (apply Hw, N.divide_refl).
  rewrite X, (fpow_zero _ (Zp_ring _)) in X1 by lia.
  exfalso. exact (f1_neq_0 _ (Zp_field (a_p A) ltac:(lia) (arith_prime A H)) (eq_sym X1)).
Qed.

(** arithmetic_generator: the arithmetic sequence i*g meets no element twice before p steps *)
Theorem C64_arithmetic_generator (A : arith) (i j : Z) : In A shipped_arith ->
  tozp (a_p A) (i * a_arith A) = tozp (a_p A) (j * a_arith A) <-> (i mod a_p A = j mod a_p A)%Z.
Proof.
  intros H. destruct (arith_ints A H) as (_ & _ & _ & _ & _ & _ & _ & _ & _ & _ & ->). rewrite !Z.mul_1_r. split.
  - intros E. apply (f_equal zval) in E. rewrite !zval_tozp in E. exact E.
  - apply tozp_eq.
Qed.

(** multiplicative_generator generates the multiplicative group *)
Lemma factored_all A : In A shipped_arith -> In A (map fst gen_fields).
Proof. unfold gen_fields, shipped_arith. cbn [map fst In]. tauto. Qed.
Theorem C64_multiplicative_generator (A : arith) : In A shipped_arith ->
  generates (tozp (a_p A) (a_mult A) : Zp (a_p A)) /\
  has_order (tozp (a_p A) (a_mult A) : Zp (a_p A)) (Z.to_N (a_p A - 1)).
Proof.
  intros H. assert (O := gen_order A (factored_all A H)). split; [|exact O].
  apply order_generates; [exact (arith_prime A H)|exact O].
Qed.
Theorem C64_ed25519_multiplicative_generator :
  generates (tozp curve25519_base_field_modulus ed25519_multiplicative_generator : Zp curve25519_base_field_modulus).
Proof. apply order_generates; [exact prime_curve25519_base_field|exact ed25519_generator_order]. Qed.

(** geometric_generator: the claim is that its first 2^s powers are distinct, so that a
    geometric sequence domain of any supported size has distinct points.  It holds for
    every field but goldilocks64, where the sequence repeats after 192 steps. *)
Theorem C64_geometric_generator_partial (A : arith) (i j : N) : In A shipped_arith -> A <> goldilocks64_base_field_arith ->
  (Z.of_N i < 2 ^ a_s A)%Z -> (Z.of_N j < 2 ^ a_s A)%Z ->
  fpow (tozp (a_p A) (a_geom A) : Zp (a_p A)) i = fpow (tozp (a_p A) (a_geom A) : Zp (a_p A)) j -> i = j.
Proof.
  intros H Hg. apply geo_distinct. unfold shipped_arith in H. unfold geo_fields. cbn [map fst In] in *.
  assert (goldilocks64_base_field_arith <> A) by (intros E; exact (Hg (eq_sym E))). tauto.
Qed.
Theorem C64_goldilocks_geometric_order :
  has_order (tozp (a_p goldilocks64_base_field_arith) (a_geom goldilocks64_base_field_arith) : Zp (a_p goldilocks64_base_field_arith)) 192.
Proof. exact goldilocks_geometric_order. Qed.
Theorem C64_geometric_generator_refuted :
  exists (A : arith) (i j : N), In A shipped_arith /\ (Z.of_N i < 2 ^ a_s A)%Z /\ (Z.of_N j < 2 ^ a_s A)%Z /\ i <> j /\
  fpow (tozp (a_p A) (a_geom A) : Zp (a_p A)) i = fpow (tozp (a_p A) (a_geom A) : Zp (a_p A)) j.
Proof.
  exists goldilocks64_base_field_arith, 0%N, 192%N. split; [unfold shipped_arith; cbn [In]; tauto|].
  split; [reflexivity|]. split; [reflexivity|]. split; [discriminate|].
  symmetry. apply C64_goldilocks_geometric_order. apply N.divide_refl.
Qed.

(** the extension fields: q - 1 = 2^s * t, t odd, nqr not a square in the field and
    nqr_to_t = nqr^t.  group_order and group_order_minus_one_half are (q - 1)/2. *)
Definition ext_spec (X : ext_arith) (n : Z) (F : FieldOps) (nqr nqr_to_t : F) : Prop :=
  (1 <= x_s X)%Z /\ (x_p X ^ n - 1 = 2 ^ x_s X * x_t X)%Z /\ Z.Odd (x_t X) /\ (2 * x_tm1h X + 1 = x_t X)%Z /\
  (forall v, x_order X = Some v \/ x_half X = Some v -> (2 * v = x_p X ^ n - 1)%Z) /\
  (forall y : F, y * y <> nqr) /\ fpow nqr (Z.to_N (x_t X)) = nqr_to_t.
Definition fp2_spec (X : ext_arith) (nr : Z) : Prop :=
  ext_spec X 2 (Fp2 (Zp (x_p X)) (tozp (x_p X) nr)) (lit2 (x_p X) (x_nqr X)) (lit2 (x_p X) (x_nqr_to_t X)).
Definition fp3_spec (X : ext_arith) (nr : Z) : Prop :=
  ext_spec X 3 (Fp3 (Zp (x_p X)) (tozp (x_p X) nr)) (lit3 (x_p X) (x_nqr X)) (lit3 (x_p X) (x_nqr_to_t X)).
Lemma fp2_spec_ok X nr : ext_check2 X nr = true ->
  FinField (Fp2 (Zp (x_p X)) (tozp (x_p X) nr)) (Z.to_N (x_p X)) 2 -> fp2_spec X nr.
Proof.
  intros C FF. destruct (ext2_facts X nr C FF) as ((E1 & E2 & E3 & E4 & E5 & E6) & En & N1 & N2).
  rewrite En in *. unfold fp2_spec, ext_spec. repeat (split; [assumption|]). split; [intros v [E|E]; auto|]. split; assumption.
Qed.
Lemma fp3_spec_ok X nr : ext_check3 X nr = true ->
  FinField (Fp3 (Zp (x_p X)) (tozp (x_p X) nr)) (Z.to_N (x_p X)) 3 -> fp3_spec X nr.
Proof.
  intros C FF. destruct (ext3_facts X nr C FF) as ((E1 & E2 & E3 & E4 & E5 & E6) & En & N1 & N2).
  rewrite En in *. unfold fp3_spec, ext_spec. repeat (split; [assumption|]). split; [intros v [E|E]; auto|]. split; assumption.
Qed.
Lemma ext_check_each :
  ext_check2 alt_bn128_fp2_254_arith alt_bn128_fp2_non_residue = true /\ ext_check2 bls12_fp2_381_arith bls12_381_fp2_non_residue = true /\
  ext_check2 bls12_fp2_377_arith bls12_377_fp2_non_residue = true /\ ext_check2 bn128_fp2_254_arith bn128_fp2_non_residue = true /\
  ext_check2 mnt4_fp2_298_arith mnt4_fp2_non_residue = true /\ ext_check3 edwards_fp3_183_arith edwards_fp3_non_residue = true /\
  ext_check3 mnt6_fp3_298_arith mnt6_fp3_non_residue = true.
Proof.
  generalize ext_checks.
  generalize (ext_check2 alt_bn128_fp2_254_arith alt_bn128_fp2_non_residue) (ext_check2 bls12_fp2_381_arith bls12_381_fp2_non_residue)
    (ext_check2 bls12_fp2_377_arith bls12_377_fp2_non_residue) (ext_check2 bn128_fp2_254_arith bn128_fp2_non_residue)
    (ext_check2 mnt4_fp2_298_arith mnt4_fp2_non_residue) (ext_check3 edwards_fp3_183_arith edwards_fp3_non_residue)
    (ext_check3 mnt6_fp3_298_arith mnt6_fp3_non_residue).
  intros a b c d e f g H. rewrite !andb_true_iff in H. tauto.
Qed.
Theorem C64_extension_nqr :
  fp2_spec alt_bn128_fp2_254_arith alt_bn128_fp2_non_residue /\ fp2_spec bls12_fp2_381_arith bls12_381_fp2_non_residue /\
  fp2_spec bls12_fp2_377_arith bls12_377_fp2_non_residue /\ fp2_spec bn128_fp2_254_arith bn128_fp2_non_residue /\
  fp2_spec mnt4_fp2_298_arith mnt4_fp2_non_residue /\ fp3_spec edwards_fp3_183_arith edwards_fp3_non_residue /\
  fp3_spec mnt6_fp3_298_arith mnt6_fp3_non_residue.
Proof.
  destruct ext_check_each as (H1 & H2 & H3 & H4 & H5 & H6 & H7).
  split; [exact (fp2_spec_ok _ _ H1 (proj1 (t12_fields _ alt_bn_p_prime alt_bn_field_check)))|].
  split; [exact (fp2_spec_ok _ _ H2 (proj1 (t12_fields _ bls381_p_prime bls381_field_check)))|].
  split; [exact (fp2_spec_ok _ _ H3 (proj1 (t12_fields _ bls377_p_prime bls377_field_check)))|].
  split; [exact (fp2_spec_ok _ _ H4 (proj1 (t12_fields _ bn_p_prime bn_field_check)))|].
  split; [exact (fp2_spec_ok _ _ H5 (proj1 (t4_fields _ mnt4_p_prime mnt4_field_check)))|].
  split; [exact (fp3_spec_ok _ _ H6 (proj1 (t6_fields _ edwards_p_prime edwards_field_check)))|].
  exact (fp3_spec_ok _ _ H7 (proj1 (t6_fields _ mnt6_p_prime mnt6_field_check))).
Qed.
(** the copies of these constants in fields/detail/extension_params, which sqrt and is_square read, agree with
    the ones above, so they meet the same specification *)
Definition same_params (X : ext_arith) (p s t tm1h : Z) (nqr nqr_to_t : list Z) : Prop :=
  x_p X = p /\ x_s X = s /\ x_t X = t /\ x_tm1h X = tm1h /\ x_nqr X = nqr /\ x_nqr_to_t X = nqr_to_t.
Theorem C64_extension_params_agree :
  same_params alt_bn128_fp2_254_arith alt_bn128_base_field_254_modulus alt_bn128_fp2_s alt_bn128_fp2_t alt_bn128_fp2_t_minus_1_over_2 alt_bn128_fp2_nqr alt_bn128_fp2_nqr_to_t /\
  same_params bls12_fp2_381_arith bls12_base_field_381_modulus bls12_381_fp2_s bls12_381_fp2_t bls12_381_fp2_t_minus_1_over_2 bls12_381_fp2_nqr bls12_381_fp2_nqr_to_t /\
  same_params bls12_fp2_377_arith bls12_base_field_377_modulus bls12_377_fp2_s bls12_377_fp2_t bls12_377_fp2_t_minus_1_over_2 bls12_377_fp2_nqr bls12_377_fp2_nqr_to_t /\
  same_params bn128_fp2_254_arith bn128_base_field_254_modulus bn128_fp2_s bn128_fp2_t bn128_fp2_t_minus_1_over_2 bn128_fp2_nqr bn128_fp2_nqr_to_t /\
  same_params mnt4_fp2_298_arith mnt4_base_field_298_modulus mnt4_fp2_s mnt4_fp2_t mnt4_fp2_t_minus_1_over_2 mnt4_fp2_nqr mnt4_fp2_nqr_to_t /\
  same_params edwards_fp3_183_arith edwards_base_field_183_modulus edwards_fp3_s edwards_fp3_t edwards_fp3_t_minus_1_over_2 edwards_fp3_nqr edwards_fp3_nqr_to_t /\
  same_params mnt6_fp3_298_arith mnt6_base_field_298_modulus mnt6_fp3_s mnt6_fp3_t mnt6_fp3_t_minus_1_over_2 mnt6_fp3_nqr mnt6_fp3_nqr_to_t /\
  x_order edwards_fp3_183_arith = nth_error edwards_fp3_group_order 0.
Proof. vm_compute. repeat split. Qed.
Print Assumptions C64_extension_params_agree.
(** every shipped extension is one of the seven *)
Theorem C64_extension_list (X : ext_arith) : In X shipped_ext_arith ->
  (exists nr, fp2_spec X nr) \/ (exists nr, fp3_spec X nr).
Proof.
  destruct C64_extension_nqr as (H1 & H2 & H3 & H4 & H5 & H6 & H7).
  unfold shipped_ext_arith. cbn [In].
  intros [<-|[<-|[<-|[<-|[<-|[<-|[<-|[]]]]]]]];
    first [left; eexists; eassumption | right; eexists; eassumption].
Qed.

(** DSA groups: mul_generator is reduced, not 1, and mul_generator^group_order = 1 *)
Theorem C64_dl_groups (D : dl_group) : In D shipped_dl_groups ->
  (0 <= d_g D < d_p D)%Z /\ (d_q D | d_p D - 1)%Z /\
  (tozp (d_p D) (d_g D) : Zp (d_p D)) <> 1 /\ fpow (tozp (d_p D) (d_g D) : Zp (d_p D)) (Z.to_N (d_q D)) = 1.
Proof. intros H. destruct (dl_facts D H) as (H1 & H2 & _ & H3 & H4 & _). auto. Qed.
(** and group_order is prime and its exact order *)
Theorem C64_dl_order (D : dl_group) : In D shipped_dl_groups ->
  prime (d_q D) /\ has_order (tozp (d_p D) (d_g D) : Zp (d_p D)) (Z.to_N (d_q D)).
Proof.
  intros H. assert (P : prime (d_q D)).
  { destruct H as [<-|[<-|[<-|[]]]]; [exact dsa_botan_2048_group_q_prime|exact dsa_botan_3072_group_q_prime|exact dsa_jce_1024_group_q_prime]. }
  split; [exact P|]. exact (proj2 (proj2 (proj2 (proj2 (proj2 (dl_facts D H))))) P).
Qed.

(** bls12-381's scalar field: s = 32, and 7 generates *)
Example C64_bls_scalar : In bls12_scalar_field_381_arith shipped_arith /\
  a_s bls12_scalar_field_381_arith = 32%Z /\ a_mult bls12_scalar_field_381_arith = 7%Z /\
  a_nqr bls12_scalar_field_381_arith = Some 5%Z /\ a_R2 bls12_scalar_field_381_arith <> None.
Proof. unfold shipped_arith. cbn [In]. repeat split; try tauto. discriminate. Qed.
Example C64_group_order_example : In alt_bn128_base_field_254_arith shipped_arith /\ a_order alt_bn128_base_field_254_arith <> None.
Proof. split; [unfold shipped_arith; cbn [In]; tauto|discriminate]. Qed.
Example C64_geometric_example : In pallas_base_field_arith shipped_arith /\ pallas_base_field_arith <> goldilocks64_base_field_arith /\
  a_s pallas_base_field_arith = 32%Z.
Proof. split; [unfold shipped_arith; cbn [In]; tauto|]. split; [discriminate|reflexivity]. Qed.
Example C64_dl_example : In dsa_botan_2048_group shipped_dl_groups.
Proof. left. reflexivity. Qed.

Print Assumptions C64_two_adicity.
Print Assumptions C64_root_of_unity.
Print Assumptions C64_coset_shift.
Print Assumptions C64_nqr.
Print Assumptions C64_montgomery_radix.
Print Assumptions C64_group_order_half.
Print Assumptions C64_group_order_refuted.
Print Assumptions C64_arithmetic_generator.
Print Assumptions C64_multiplicative_generator.
Print Assumptions C64_ed25519_multiplicative_generator.
Print Assumptions C64_geometric_generator_partial.
Print Assumptions C64_goldilocks_geometric_order.
Print Assumptions C64_geometric_generator_refuted.
Print Assumptions C64_extension_nqr.
Print Assumptions C64_extension_list.
Print Assumptions C64_dl_groups.
Print Assumptions C64_dl_order.
