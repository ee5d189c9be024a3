(** Checks on the arithmetic_params constants, evaluated on BigN. *)
From Coq Require Import ZArith NArith List Bool Lia Ring Znumtheory Zpow_facts.
From Bignums Require Import BigN.
From Verif Require Import Base.Field Base.Zp Base.Ext Base.Hom Base.BigZp Spec.Order Spec.PolyQuot Model.Fp2 Model.Fp3
  Model.Power Model.FieldParams Model.ArithmeticParams Model.Shipped Model.Sqrt Proof.ExtTheory Proof.Power Proof.Towers Proof.Homs
  Proof.FpHelpers Proof.Frob Proof.FiniteField Proof.Shipped Proof.Sqrt Proof.SqrtShipped
  Proof.Pocklington Proof.Order Proof.PrimesPairing Proof.PrimesMisc.
Import ListNotations.
Local Open Scope fld_scope.

Definition opt_all {A} (f : A -> bool) (o : option A) : bool := match o with Some v => f v | None => true end.
Lemma opt_all_spec {A} (f : A -> bool) o v : opt_all f o = true -> o = Some v -> f v = true.
Proof. intros H ->. exact H. Qed.

(** number of 64-bit limbs of p *)
Definition limbs (p : Z) : Z := ((Z.log2 p + 64) / 64)%Z.
Definition odd_part (A : arith) : Z := ((a_p A - 1) / 2 ^ a_s A)%Z.

Definition pow_is (p g e v : Z) : bool :=
  let F := BigZp (bigz p) in @feqb F (fpower (K := F) (bigz g) (Z.to_N e)) (bigz v).
Lemma pow_is_spec p g e v : (1 < p)%Z -> (0 <= g)%Z -> (0 <= v)%Z ->
  pow_is p g e v = true -> fpow (tozp p g : Zp p) (Z.to_N e) = tozp p v.
Proof.
  intros Hp Hg Hv. assert (H := BigZp_hom p (bigz p) Hp (bigz_spec p ltac:(lia))).
  unfold pow_is. rewrite <- (hom_eqb _ _ _ H), (hom_fpower _ H), !of_big_bigz by assumption.
  rewrite (fpower_fpow _ _ _ (Zp_ring p)). apply (RL_eqb _ (Zp_ring p)).
Qed.

Definition int_check (A : arith) : bool :=
  ((2 <? a_p A) && (1 <=? a_s A) && ((a_p A - 1) mod 2 ^ a_s A =? 0) && Z.odd (odd_part A) &&
   opt_all (fun v => v =? odd_part A) (a_t A) && opt_all (fun v => 2 * v + 1 =? odd_part A) (a_tm1h A) &&
   opt_all (fun v => v =? (2 ^ (64 * limbs (a_p A))) ^ 2 mod a_p A) (a_R2 A) &&
   opt_all (fun v => v =? (2 ^ (64 * limbs (a_p A))) ^ 3 mod a_p A) (a_R3 A) &&
   opt_all (fun v => 2 * v =? a_p A - 1) (a_order A) && opt_all (fun v => 2 * v =? a_p A - 1) (a_half A) &&
   (a_arith A =? 1))%Z.
Definition root_check (A : arith) : bool :=
  ((0 <=? a_root A) && (a_root A <? a_p A))%Z && order_check (a_p A) (a_root A) [(2, a_s A)]%Z.
Definition nqr_check (A : arith) : bool :=
  opt_all (fun n => (0 <? n)%Z && (n <? a_p A)%Z && negb (pow_is1 (a_p A) n ((a_p A - 1) / 2)) &&
    opt_all (fun v => (0 <=? v)%Z && (v <? a_p A)%Z && pow_is (a_p A) n (odd_part A) v) (a_nqr_to_t A)) (a_nqr A).
Definition coset_check (A : arith) : bool :=
  (0 <=? a_mult A)%Z && negb (pow_is1 (a_p A) (a_mult A) (2 ^ a_s A)).
Definition arith_check (A : arith) : bool := int_check A && root_check A && nqr_check A && coset_check A.

Lemma shipped_arith_check : forallb arith_check shipped_arith = true.
Proof. vm_cast_no_check (eq_refl true). Qed.
Lemma shipped_arith_primes : Forall (fun A => prime (a_p A)) shipped_arith.
Proof.
  unfold shipped_arith.
  apply (Forall_cons alt_bn128_base_field_254_arith); [exact prime_alt_bn128_base_field_254|].
  apply (Forall_cons alt_bn128_scalar_field_254_arith); [exact prime_alt_bn128_scalar_field_254|].
  apply (Forall_cons bls12_base_field_381_arith); [exact prime_bls12_base_field_381|].
  apply (Forall_cons bls12_scalar_field_381_arith); [exact prime_bls12_scalar_field_381|].
  apply (Forall_cons bls12_base_field_377_arith); [exact prime_bls12_base_field_377|].
  apply (Forall_cons bls12_scalar_field_377_arith); [exact prime_bls12_scalar_field_377|].
  apply (Forall_cons bn128_base_field_254_arith); [exact prime_alt_bn128_base_field_254|].
  apply (Forall_cons bn128_scalar_field_254_arith); [exact prime_alt_bn128_scalar_field_254|].
  apply (Forall_cons edwards_base_field_183_arith); [exact prime_edwards_base_field_183|].
  apply (Forall_cons edwards_scalar_field_183_arith); [exact prime_edwards_scalar_field_183|].
  apply (Forall_cons goldilocks64_base_field_arith); [exact prime_goldilocks64_base_field|].
  apply (Forall_cons mnt4_base_field_298_arith); [exact prime_mnt4_base_field_298|].
  apply (Forall_cons mnt6_base_field_298_arith); [exact prime_mnt6_base_field_298|].
  apply (Forall_cons pallas_base_field_arith); [exact prime_pallas_base_field|].
  apply (Forall_cons vesta_base_field_arith); [exact prime_vesta_base_field|].
  apply Forall_nil.
Qed.

Section One.
  Variable A : arith.
  Hypothesis Hin : In A shipped_arith.
  Local Notation p := (a_p A).
  Local Notation F := (Zp (a_p A)).
  Lemma arith_prime : prime p.
  Proof. exact (proj1 (Forall_forall _ _) shipped_arith_primes A Hin). Qed.
  Lemma arith_checks : int_check A = true /\ root_check A = true /\ nqr_check A = true /\ coset_check A = true.
  Proof.
    assert (H := proj1 (forallb_forall _ _) shipped_arith_check A Hin). unfold arith_check in H.
    rewrite !andb_true_iff in H. tauto.
  Qed.
  Lemma arith_ints : (2 < p)%Z /\ (1 <= a_s A)%Z /\ (p - 1 = 2 ^ a_s A * odd_part A)%Z /\ Z.Odd (odd_part A) /\
    (forall v, a_t A = Some v -> v = odd_part A) /\ (forall v, a_tm1h A = Some v -> 2 * v + 1 = odd_part A)%Z /\
    (forall v, a_R2 A = Some v -> v = (2 ^ (64 * limbs p)) ^ 2 mod p)%Z /\
    (forall v, a_R3 A = Some v -> v = (2 ^ (64 * limbs p)) ^ 3 mod p)%Z /\
    (forall v, a_order A = Some v -> 2 * v = p - 1)%Z /\ (forall v, a_half A = Some v -> 2 * v = p - 1)%Z /\ a_arith A = 1%Z.
  Proof.
    destruct arith_checks as (H & _). unfold int_check in H.
    rewrite !andb_true_iff, Z.ltb_lt, Z.leb_le, Z.odd_spec, !Z.eqb_eq in H.
    destruct H as ((((((((((H1 & H2) & H3) & H4) & H5) & H6) & H7) & H8) & H9) & H10) & H11).
    assert (E : (p - 1 = 2 ^ a_s A * odd_part A)%Z).
    { apply Z_div_exact_full_2; [|exact H3]. apply Z.pow_nonzero; lia. }
    repeat split; try assumption; intros v Hv.
    - apply (opt_all_spec _ _ v H5) in Hv. apply Z.eqb_eq, Hv.
    - apply (opt_all_spec _ _ v H6) in Hv. apply Z.eqb_eq, Hv.
    - apply (opt_all_spec _ _ v H7) in Hv. apply Z.eqb_eq, Hv.
    - apply (opt_all_spec _ _ v H8) in Hv. apply Z.eqb_eq, Hv.
    - apply (opt_all_spec _ _ v H9) in Hv. apply Z.eqb_eq, Hv.
    - apply (opt_all_spec _ _ v H10) in Hv. apply Z.eqb_eq, Hv.
  Qed.
  Lemma limbs_spec : (2 ^ (64 * (limbs p - 1)) <= p < 2 ^ (64 * limbs p))%Z /\ (1 <= limbs p)%Z.
  Proof.
    destruct arith_ints as (H2 & _). assert (HL := Z.log2_spec p ltac:(lia)). assert (Hn := Z.log2_nonneg p).
    unfold limbs. set (L := Z.log2 p) in *.
    assert (HD := Z.div_mod (L + 64) 64 ltac:(lia)). assert (HM := Z.mod_pos_bound (L + 64) 64 ltac:(lia)).
    set (k := ((L + 64) / 64)%Z) in *. assert (1 <= k)%Z by lia.
    split; [split|assumption].
    - apply Z.le_trans with (2 ^ L)%Z; [apply Z.pow_le_mono_r; lia|lia].
    - apply Z.lt_le_trans with (2 ^ Z.succ L)%Z; [lia|apply Z.pow_le_mono_r; lia].
  Qed.
  Lemma root_range : (0 <= a_root A < p)%Z.
  Proof.
    destruct arith_checks as (_ & H & _). unfold root_check in H. rewrite !andb_true_iff, Z.leb_le, Z.ltb_lt in H. lia.
  Qed.
  Lemma root_order : has_order (tozp p (a_root A) : F) (Z.to_N (2 ^ a_s A)).
  Proof.
    destruct arith_checks as (_ & H & _). unfold root_check in H. apply andb_true_iff in H. destruct H as [_ H].
    assert (Ho := order_check_sound _ _ _ H (Forall_cons (2, a_s A)%Z prime_2 (Forall_nil _))).
    cbn [fval] in Ho. rewrite Z.mul_1_r in Ho. exact Ho.
  Qed.
  Lemma pow2_pos : (0 < Z.to_N (2 ^ a_s A))%N.
  Proof. destruct arith_ints as (_ & H & _). assert (0 < 2 ^ a_s A)%Z by (apply Z.pow_pos_nonneg; lia). lia. Qed.
  Lemma coset_order : fpow (tozp p (a_mult A) : F) (Z.to_N (2 ^ a_s A)) <> 1.
  Proof.
    destruct arith_checks as (_ & _ & _ & H). unfold coset_check in H.
    rewrite andb_true_iff, Z.leb_le, negb_true_iff in H. destruct H as [H0 H1].
    destruct arith_ints as (H2 & _).
    intros E. apply not_true_iff_false in H1. apply H1. apply pow_is1_spec; [lia|exact H0|exact E].
  Qed.
  Lemma coset_disjoint (i j : N) : (tozp p (a_mult A) : F) * fpow (tozp p (a_root A) : F) i <> fpow (tozp p (a_root A) : F) j.
  Proof.
    intros E. apply coset_order. assert (R := Zp_ring p). set (w := tozp p (a_root A) : F) in *. set (m := Z.to_N (2 ^ a_s A)).
    assert (W1 : fpow w m = 1) by (apply root_order; exists 1%N; symmetry; apply N.mul_1_l).
    assert (W : forall k, fpow (fpow w k) m = 1).
    { intros k. rewrite <- (fpow_mul _ R), N.mul_comm, (fpow_mul _ R). 
      rewrite W1. apply (fpow_one _ R). }
    apply (f_equal (fun z => fpow z m)) in E. rewrite (fpow_mul_l _ R), !W in E.
    rewrite (Rmul_comm (RL_th _ R)), (Rmul_1_l (RL_th _ R)) in E. exact E.
  Qed.
  Lemma nqr_facts n : a_nqr A = Some n -> (0 < n < p)%Z /\ not_square (tozp p n : F) /\
    forall v, a_nqr_to_t A = Some v -> (0 <= v < p)%Z /\ fpow (tozp p n : F) (Z.to_N (odd_part A)) = tozp p v.
  Proof.
    intros Hn. destruct arith_checks as (_ & _ & H & _). unfold nqr_check in H.
    assert (H' := opt_all_spec _ _ _ H Hn). cbv beta in H'.
    rewrite !andb_true_iff, !Z.ltb_lt, negb_true_iff in H'. destruct H' as (((H1 & H2) & H3) & H4).
    destruct arith_ints as (Hp2 & Hs & Et & _). split; [lia|]. split.
    - assert (FF := Zp_FinField p arith_prime).
      assert (Ev : (2 * ((p - 1) / 2) = p - 1)%Z).
      { symmetry. apply Z_div_exact_full_2; [lia|]. rewrite Et. replace (a_s A) with (Z.succ (a_s A - 1)) by lia.
        rewrite Z.pow_succ_r by lia. rewrite <- Z.mul_assoc, Z.mul_comm. apply Z_mod_mult. }
      apply (not_square_test _ _ _ FF (Z.to_N ((p - 1) / 2))).
      + intros E. apply (f_equal zval) in E. rewrite zval_tozp, Z.mod_small in E by lia. revert E. zcbn. rewrite Z.mod_0_l; lia.
      + rewrite N.pow_1_r. assert (0 <= (p - 1) / 2)%Z by (apply Z.div_pos; lia). lia.
      + intros E. apply not_true_iff_false in H3. apply H3. apply pow_is1_spec; [lia|lia|exact E].
    - intros v Hv. assert (H5 := opt_all_spec _ _ _ H4 Hv). cbv beta in H5.
      rewrite !andb_true_iff, Z.ltb_lt, Z.leb_le in H5. destruct H5 as ((H5 & H6) & H7).
      split; [lia|]. apply pow_is_spec; [lia|lia|lia|exact H7].
  Qed.
End One.

(** ** Extension fields *)
Section ExtNonsquare.
  Variable F : FieldOps.
  Variables p n : N.
  Hypothesis FF : FinField F p n.
  Let R := FieldLaws_Ring F (FF_field F p n FF).
  Add Ring Fr_ap : (RL_th F R).
  Lemma ext_nonsquare (s : nat) (u : N) (c : F) : (p <> 2)%N -> (1 <= s)%nat ->
    (p ^ n - 1 = 2 ^ N.of_nat s * (2 * u + 1))%N -> isq (s - 1) (fpow c (2 * u + 1)) = - (1) -> not_square c.
  Proof.
    intros Hp Hs Hq Hz. assert (M := FF_m1 F p n FF Hp s u Hs Hq).
    apply (not_square_test _ _ _ FF (2 ^ N.of_nat (s - 1) * (2 * u + 1))).
    - intros ->. rewrite (fpow_zero _ R) in Hz by lia. rewrite (isq_0 _ R) in Hz.
      apply (f1_neq_0 _ (FF_field _ _ _ FF)). transitivity (- - (1) : F); [ring|]. rewrite <- Hz. ring.
    - rewrite Hq. replace (N.of_nat s) with (N.succ (N.of_nat (s - 1))) by lia. rewrite N.pow_succ_r'. lia.
    - rewrite N.mul_comm, (fpow_mul _ R), <- (isq_fpow _ R), Hz. intros E. apply M. symmetry. exact E.
  Qed.
End ExtNonsquare.

Definition ext_int_check (X : ext_arith) (nr : Z) : bool :=
  ((2 <? x_p X) && (0 <=? nr) && (1 <=? x_s X) && (x_p X ^ x_n X - 1 =? 2 ^ x_s X * x_t X) && (2 * x_tm1h X + 1 =? x_t X) &&
   (0 <=? x_tm1h X) && (0 <=? x_n X) && nonneg (x_nqr X) && nonneg (x_nqr_to_t X) &&
   opt_all (fun v => 2 * v =? x_p X ^ x_n X - 1) (x_order X) && opt_all (fun v => 2 * v =? x_p X ^ x_n X - 1) (x_half X))%Z.
Definition ext_check2 (X : ext_arith) (nr : Z) : bool :=
  let F := Fp2 (BigZp (bigz (x_p X))) (bigz nr) in
  ext_int_check X nr && (x_n X =? 2)%Z && @feqb F (fpower (K := F) (big2 (x_nqr X)) (Z.to_N (x_t X))) (big2 (x_nqr_to_t X)) &&
  @feqb F (isq (F := F) (Z.to_nat (x_s X) - 1) (big2 (x_nqr_to_t X))) (@fopp F f1).
Definition ext_check3 (X : ext_arith) (nr : Z) : bool :=
  let F := Fp3 (BigZp (bigz (x_p X))) (bigz nr) in
  ext_int_check X nr && (x_n X =? 3)%Z && @feqb F (fpower (K := F) (big3 (x_nqr X)) (Z.to_N (x_t X))) (big3 (x_nqr_to_t X)) &&
  @feqb F (isq (F := F) (Z.to_nat (x_s X) - 1) (big3 (x_nqr_to_t X))) (@fopp F f1).

(** what the integer members say *)
Definition ext_ints (X : ext_arith) : Prop :=
  (1 <= x_s X)%Z /\ (x_p X ^ x_n X - 1 = 2 ^ x_s X * x_t X)%Z /\ Z.Odd (x_t X) /\ (2 * x_tm1h X + 1 = x_t X)%Z /\
  (forall v, x_order X = Some v -> 2 * v = x_p X ^ x_n X - 1)%Z /\
  (forall v, x_half X = Some v -> 2 * v = x_p X ^ x_n X - 1)%Z.
Lemma ext_int_facts X nr : ext_int_check X nr = true ->
  ext_ints X /\ (2 < x_p X)%Z /\ (0 <= nr)%Z /\ nonneg (x_nqr X) = true /\ nonneg (x_nqr_to_t X) = true /\
  (Z.to_N (x_p X) ^ Z.to_N (x_n X) - 1 = 2 ^ N.of_nat (Z.to_nat (x_s X)) * (2 * Z.to_N (x_tm1h X) + 1))%N /\
  (Z.to_N (x_t X) = 2 * Z.to_N (x_tm1h X) + 1)%N.
Proof.
  unfold ext_int_check. rewrite !andb_true_iff, Z.ltb_lt, !Z.leb_le, !Z.eqb_eq.
  intros ((((((((((H1 & H2) & H3) & H4) & H5) & H6) & H7) & H8) & H9) & H10) & H11).
  split; [|repeat split; try assumption].
  - repeat split; try assumption.
    + exists (x_tm1h X). lia.
    + intros v Hv. apply Z.eqb_eq, (opt_all_spec _ _ v H10 Hv).
    + intros v Hv. apply Z.eqb_eq, (opt_all_spec _ _ v H11 Hv).
  - apply N2Z.inj. rewrite N2Z.inj_mul, N2Z.inj_pow, nat_N_Z, Z2Nat.id, N2Z.inj_add, N2Z.inj_mul, Z2N.id by lia.
    rewrite N2Z.inj_sub.
    + rewrite N2Z.inj_pow, !Z2N.id by lia. change (Z.of_N 1) with 1%Z. change (Z.of_N 2) with 2%Z. rewrite H4, <- H5. reflexivity.
    + assert (H := N.pow_nonzero (Z.to_N (x_p X)) (Z.to_N (x_n X)) ltac:(lia)). lia.
  - lia.
Qed.

Lemma ext2_facts X nr : ext_check2 X nr = true ->
  let F := Fp2 (Zp (x_p X)) (tozp (x_p X) nr) in FinField F (Z.to_N (x_p X)) 2 ->
  ext_ints X /\ x_n X = 2%Z /\ not_square (lit2 (x_p X) (x_nqr X) : F) /\
  fpow (lit2 (x_p X) (x_nqr X) : F) (Z.to_N (x_t X)) = lit2 (x_p X) (x_nqr_to_t X).
Proof.
  unfold ext_check2. rewrite !andb_true_iff, Z.eqb_eq. intros (((Hi & Hn) & Hp) & Hq). set (F := Fp2 (Zp (x_p X)) (tozp (x_p X) nr)). intros FF.
  destruct (ext_int_facts _ _ Hi) as (E & H2 & H3 & H4 & H5 & H6 & H7). rewrite Hn in H6.
  assert (HH : Hom (BigZp (bigz (x_p X))) (Zp (x_p X)) (of_big (x_p X))) by (apply BigZp_hom; [lia|apply bigz_spec; lia]).
  assert (R := FieldLaws_Ring _ (FF_field _ _ _ FF)).
  assert (HF := hom_fp2 _ HH (bigz nr)).
  assert (Q : fpow (lit2 (x_p X) (x_nqr X) : F) (Z.to_N (x_t X)) = lit2 (x_p X) (x_nqr_to_t X) /\
    isq (F := F) (Z.to_nat (x_s X) - 1) (lit2 (x_p X) (x_nqr_to_t X)) = fopp f1).
  { rewrite (lit2_big2 _ _ H4), (lit2_big2 _ _ H5). revert R. unfold F. clear FF F. rewrite <- (of_big_bigz (x_p X) nr H3). intros R.
    rewrite <- (fpower_fpow _ _ _ R), <- (hom_fpower _ HF), <- (hom_isq _ HF), <- (hom_1 _ _ _ HF), <- (hom_opp _ _ _ HF).
    split; apply (hom_eqb_true _ HF _ _ R); assumption. }
  destruct Q as [Q1 Q2]. repeat split; try apply E; try assumption.
  apply (ext_nonsquare F (Z.to_N (x_p X)) 2 FF (Z.to_nat (x_s X)) (Z.to_N (x_tm1h X))); [lia|destruct E; lia|exact H6|].
  rewrite <- H7, Q1. exact Q2.
Qed.
Lemma ext3_facts X nr : ext_check3 X nr = true ->
  let F := Fp3 (Zp (x_p X)) (tozp (x_p X) nr) in FinField F (Z.to_N (x_p X)) 3 ->
  ext_ints X /\ x_n X = 3%Z /\ not_square (lit3 (x_p X) (x_nqr X) : F) /\
  fpow (lit3 (x_p X) (x_nqr X) : F) (Z.to_N (x_t X)) = lit3 (x_p X) (x_nqr_to_t X).
Proof.
  unfold ext_check3. rewrite !andb_true_iff, Z.eqb_eq. intros (((Hi & Hn) & Hp) & Hq). set (F := Fp3 (Zp (x_p X)) (tozp (x_p X) nr)). intros FF.
  destruct (ext_int_facts _ _ Hi) as (E & H2 & H3 & H4 & H5 & H6 & H7). rewrite Hn in H6.
  assert (HH : Hom (BigZp (bigz (x_p X))) (Zp (x_p X)) (of_big (x_p X))) by (apply BigZp_hom; [lia|apply bigz_spec; lia]).
  assert (R := FieldLaws_Ring _ (FF_field _ _ _ FF)).
  assert (HF := hom_fp3 _ HH (bigz nr)).
  assert (Q : fpow (lit3 (x_p X) (x_nqr X) : F) (Z.to_N (x_t X)) = lit3 (x_p X) (x_nqr_to_t X) /\
    isq (F := F) (Z.to_nat (x_s X) - 1) (lit3 (x_p X) (x_nqr_to_t X)) = fopp f1).
  { rewrite (lit3_big3 _ _ H4), (lit3_big3 _ _ H5). revert R. unfold F. clear FF F. rewrite <- (of_big_bigz (x_p X) nr H3). intros R.
    rewrite <- (fpower_fpow _ _ _ R), <- (hom_fpower _ HF), <- (hom_isq _ HF), <- (hom_1 _ _ _ HF), <- (hom_opp _ _ _ HF).
    split; apply (hom_eqb_true _ HF _ _ R); assumption. }
  destruct Q as [Q1 Q2]. repeat split; try apply E; try assumption.
  apply (ext_nonsquare F (Z.to_N (x_p X)) 3 FF (Z.to_nat (x_s X)) (Z.to_N (x_tm1h X))); [lia|destruct E; lia|exact H6|].
  rewrite <- H7, Q1. exact Q2.
Qed.

Lemma ext_checks :
  ext_check2 alt_bn128_fp2_254_arith alt_bn128_fp2_non_residue && ext_check2 bls12_fp2_381_arith bls12_381_fp2_non_residue &&
  ext_check2 bls12_fp2_377_arith bls12_377_fp2_non_residue && ext_check2 bn128_fp2_254_arith bn128_fp2_non_residue &&
  ext_check2 mnt4_fp2_298_arith mnt4_fp2_non_residue && ext_check3 edwards_fp3_183_arith edwards_fp3_non_residue &&
  ext_check3 mnt6_fp3_298_arith mnt6_fp3_non_residue = true.
Proof. vm_cast_no_check (eq_refl true). Qed.
