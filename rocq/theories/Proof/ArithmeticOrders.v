(** Orders of the generators of arithmetic_params. *)
From Coq Require Import ZArith NArith List Bool Lia Znumtheory.
From Verif Require Import Base.Field Base.Zp Spec.Order Model.FieldParams Model.ArithmeticParams Proof.Order
  Proof.ArithmeticParams Proof.PrimesArith Proof.PrimesMisc Proof.Pocklington.
Import ListNotations.
Local Open Scope fld_scope.

(** ** multiplicative_generator *)
Definition gen_fields : list (arith * list (Z * Z)) := [
  (alt_bn128_base_field_254_arith, fs_alt_bn128_base_field_254);
  (alt_bn128_scalar_field_254_arith, fs_alt_bn128_scalar_field_254);
  (bls12_base_field_381_arith, fs_bls12_base_field_381);
  (bls12_scalar_field_381_arith, fs_bls12_scalar_field_381);
  (bls12_base_field_377_arith, fs_bls12_base_field_377);
  (bls12_scalar_field_377_arith, fs_bls12_scalar_field_377);
  (bn128_base_field_254_arith, fs_bn128_base_field_254);
  (bn128_scalar_field_254_arith, fs_bn128_scalar_field_254);
  (edwards_base_field_183_arith, fs_edwards_base_field_183);
  (edwards_scalar_field_183_arith, fs_edwards_scalar_field_183);
  (goldilocks64_base_field_arith, fs_goldilocks64_base_field);
  (mnt4_base_field_298_arith, fs_mnt4_base_field_298);
  (mnt6_base_field_298_arith, fs_mnt6_base_field_298);
  (pallas_base_field_arith, fs_pallas_base_field);
  (vesta_base_field_arith, fs_vesta_base_field)].
Definition gen_check (q : arith * list (Z * Z)) : bool :=
  (fval (snd q) =? a_p (fst q) - 1)%Z && order_check (a_p (fst q)) (a_mult (fst q)) (snd q).
Lemma gen_checked : forallb gen_check gen_fields = true.
Proof. vm_cast_no_check (eq_refl true). Qed.
Lemma gen_primes : Forall (fun q => Forall (fun '(l, _) => prime l) (snd q)) gen_fields.
Proof.
  unfold gen_fields.
  apply (Forall_cons (alt_bn128_base_field_254_arith, fs_alt_bn128_base_field_254)); [exact fs_alt_bn128_base_field_254_primes|].
  apply (Forall_cons (alt_bn128_scalar_field_254_arith, fs_alt_bn128_scalar_field_254)); [exact fs_alt_bn128_scalar_field_254_primes|].
  apply (Forall_cons (bls12_base_field_381_arith, fs_bls12_base_field_381)); [exact fs_bls12_base_field_381_primes|].
  apply (Forall_cons (bls12_scalar_field_381_arith, fs_bls12_scalar_field_381)); [exact fs_bls12_scalar_field_381_primes|].
  apply (Forall_cons (bls12_base_field_377_arith, fs_bls12_base_field_377)); [exact fs_bls12_base_field_377_primes|].
  apply (Forall_cons (bls12_scalar_field_377_arith, fs_bls12_scalar_field_377)); [exact fs_bls12_scalar_field_377_primes|].
  apply (Forall_cons (bn128_base_field_254_arith, fs_bn128_base_field_254)); [exact fs_bn128_base_field_254_primes|].
  apply (Forall_cons (bn128_scalar_field_254_arith, fs_bn128_scalar_field_254)); [exact fs_bn128_scalar_field_254_primes|].
  apply (Forall_cons (edwards_base_field_183_arith, fs_edwards_base_field_183)); [exact fs_edwards_base_field_183_primes|].
  apply (Forall_cons (edwards_scalar_field_183_arith, fs_edwards_scalar_field_183)); [exact fs_edwards_scalar_field_183_primes|].
  apply (Forall_cons (goldilocks64_base_field_arith, fs_goldilocks64_base_field)); [exact fs_goldilocks64_base_field_primes|].
  apply (Forall_cons (mnt4_base_field_298_arith, fs_mnt4_base_field_298)); [exact fs_mnt4_base_field_298_primes|].
  apply (Forall_cons (mnt6_base_field_298_arith, fs_mnt6_base_field_298)); [exact fs_mnt6_base_field_298_primes|].
  apply (Forall_cons (pallas_base_field_arith, fs_pallas_base_field)); [exact fs_pallas_base_field_primes|].
  apply (Forall_cons (vesta_base_field_arith, fs_vesta_base_field)); [exact fs_vesta_base_field_primes|].
  apply Forall_nil.
Qed.
Lemma gen_order A : In A (map fst gen_fields) -> has_order (tozp (a_p A) (a_mult A) : Zp (a_p A)) (Z.to_N (a_p A - 1)).
Proof.
  intros H. apply in_map_iff in H. destruct H as ([A' fs] & E & Hin). cbn [fst] in E. subst A'.
  assert (C := proj1 (forallb_forall _ _) gen_checked _ Hin). unfold gen_check in C. cbn [fst snd] in C.
  apply andb_true_iff in C. destruct C as [C1 C2]. apply Z.eqb_eq in C1. rewrite <- C1.
  apply order_check_sound; [exact C2|]. exact (proj1 (Forall_forall _ _) gen_primes _ Hin).
Qed.

(** ** geometric_generator *)
Definition geo_fields : list (arith * list Z) := [
  (alt_bn128_base_field_254_arith, qs_alt_bn128_base_field_254);
  (alt_bn128_scalar_field_254_arith, qs_alt_bn128_scalar_field_254);
  (bls12_base_field_381_arith, qs_bls12_base_field_381);
  (bls12_scalar_field_381_arith, qs_bls12_scalar_field_381);
  (bls12_base_field_377_arith, qs_bls12_base_field_377);
  (bls12_scalar_field_377_arith, qs_bls12_scalar_field_377);
  (bn128_base_field_254_arith, qs_bn128_base_field_254);
  (bn128_scalar_field_254_arith, qs_bn128_scalar_field_254);
  (edwards_base_field_183_arith, qs_edwards_base_field_183);
  (edwards_scalar_field_183_arith, qs_edwards_scalar_field_183);
  (mnt4_base_field_298_arith, qs_mnt4_base_field_298);
  (mnt6_base_field_298_arith, qs_mnt6_base_field_298);
  (pallas_base_field_arith, qs_pallas_base_field);
  (vesta_base_field_arith, qs_vesta_base_field)].
Fixpoint nodupb (l : list Z) : bool :=
  match l with nil => true | x :: r => negb (existsb (Z.eqb x) r) && nodupb r end.
Lemma nodupb_ok l : nodupb l = true -> NoDup l.
Proof.
  induction l as [|x r IH]; cbn; intros H; [apply NoDup_nil|].
  apply andb_true_iff in H. destruct H as [H1 H2]. apply NoDup_cons; [|apply IH, H2].
  intros Hin. apply negb_true_iff in H1. apply not_true_iff_false in H1. apply H1.
  apply existsb_exists. exists x. split; [exact Hin|apply Z.eqb_refl].
Qed.
Definition geo_check (q : arith * list Z) : bool :=
  nodupb (snd q) && (2 ^ a_s (fst q) <=? fold_right Z.mul 1 (snd q))%Z && large_order_check (a_p (fst q)) (a_geom (fst q)) (snd q).
Lemma geo_checked : forallb geo_check geo_fields = true.
Proof. vm_cast_no_check (eq_refl true). Qed.
Lemma geo_primes : Forall (fun q => Forall prime (snd q)) geo_fields.
Proof.
  unfold geo_fields.
  apply (Forall_cons (alt_bn128_base_field_254_arith, qs_alt_bn128_base_field_254)); [exact qs_alt_bn128_base_field_254_primes|].
  apply (Forall_cons (alt_bn128_scalar_field_254_arith, qs_alt_bn128_scalar_field_254)); [exact qs_alt_bn128_scalar_field_254_primes|].
  apply (Forall_cons (bls12_base_field_381_arith, qs_bls12_base_field_381)); [exact qs_bls12_base_field_381_primes|].
  apply (Forall_cons (bls12_scalar_field_381_arith, qs_bls12_scalar_field_381)); [exact qs_bls12_scalar_field_381_primes|].
  apply (Forall_cons (bls12_base_field_377_arith, qs_bls12_base_field_377)); [exact qs_bls12_base_field_377_primes|].
  apply (Forall_cons (bls12_scalar_field_377_arith, qs_bls12_scalar_field_377)); [exact qs_bls12_scalar_field_377_primes|].
  apply (Forall_cons (bn128_base_field_254_arith, qs_bn128_base_field_254)); [exact qs_bn128_base_field_254_primes|].
  apply (Forall_cons (bn128_scalar_field_254_arith, qs_bn128_scalar_field_254)); [exact qs_bn128_scalar_field_254_primes|].
  apply (Forall_cons (edwards_base_field_183_arith, qs_edwards_base_field_183)); [exact qs_edwards_base_field_183_primes|].
  apply (Forall_cons (edwards_scalar_field_183_arith, qs_edwards_scalar_field_183)); [exact qs_edwards_scalar_field_183_primes|].
  apply (Forall_cons (mnt4_base_field_298_arith, qs_mnt4_base_field_298)); [exact qs_mnt4_base_field_298_primes|].
  apply (Forall_cons (mnt6_base_field_298_arith, qs_mnt6_base_field_298)); [exact qs_mnt6_base_field_298_primes|].
  apply (Forall_cons (pallas_base_field_arith, qs_pallas_base_field)); [exact qs_pallas_base_field_primes|].
  apply (Forall_cons (vesta_base_field_arith, qs_vesta_base_field)); [exact qs_vesta_base_field_primes|].
  apply Forall_nil.
Qed.
Lemma geo_order A n : In A (map fst geo_fields) -> fpow (tozp (a_p A) (a_geom A) : Zp (a_p A)) n = 1 -> n = 0%N \/ (2 ^ a_s A <= Z.of_N n)%Z.
Proof.
  intros H E. apply in_map_iff in H. destruct H as ([A' qs] & EA & Hin). cbn [fst] in EA. subst A'.
  assert (C := proj1 (forallb_forall _ _) geo_checked _ Hin). unfold geo_check in C. cbn [fst snd] in C.
  rewrite !andb_true_iff, Z.leb_le in C. destruct C as [[C1 C2] C3].
  assert (D := large_order_sound _ _ _ _ C3 (proj1 (Forall_forall _ _) geo_primes _ Hin) (nodupb_ok _ C1) E).
  destruct n as [|n]; [left; reflexivity|right]. apply Z.divide_pos_le in D; lia.
Qed.
Lemma geo_shipped : incl (map fst geo_fields) shipped_arith.
Proof.
  intros A H. unfold geo_fields in H. cbn [map fst] in H. unfold shipped_arith. cbn [In] in *. tauto.
Qed.
Lemma geo_distinct A i j : In A (map fst geo_fields) -> (Z.of_N i < 2 ^ a_s A)%Z -> (Z.of_N j < 2 ^ a_s A)%Z ->
  fpow (tozp (a_p A) (a_geom A) : Zp (a_p A)) i = fpow (tozp (a_p A) (a_geom A) : Zp (a_p A)) j -> i = j.
Proof.
  intros H. assert (Hp := arith_prime A (geo_shipped A H)). assert (Hp2 := prime_ge_2 _ Hp).
  assert (Hp1 : (1 < a_p A)%Z) by lia.
  assert (KL := Zp_field _ Hp1 Hp). assert (R := Zp_ring (a_p A)).
  set (g := tozp (a_p A) (a_geom A) : Zp (a_p A)).
  assert (G0 : forall k, fpow g k <> 0).
  { intros k. apply (fpow_neq_0 _ KL). intros E. clear k.
    assert (C : exists qs, In (A, qs) geo_fields).
    { apply in_map_iff in H. destruct H as ([A' qs] & EA & Hin). cbn [fst] in EA. subst A'. exists qs. exact Hin. }
    destruct C as [qs Hin]. assert (C := proj1 (forallb_forall _ _) geo_checked _ Hin).
    unfold geo_check in C. cbn [fst snd] in C. rewrite !andb_true_iff in C. destruct C as [_ C].
    unfold large_order_check in C. rewrite !andb_true_iff, Z.ltb_lt, Z.leb_le in C. destruct C as [[[C1 C2] C3] _].
    apply pow_is1_spec in C3; [|assumption|assumption]. fold g in C3.
    rewrite E, (fpow_zero _ R) in C3 by lia. exact (f1_neq_0 _ KL (eq_sym C3)). }
  assert (W : forall i j, (i <= j)%N -> (Z.of_N j < 2 ^ a_s A)%Z -> fpow g i = fpow g j -> i = j).
  { clear i j. intros i j Hij Hj E. replace j with (i + (j - i))%N in E by lia. rewrite (fpow_add _ R) in E.
    assert (E1 : fpow g (j - i) = 1).
    { apply (fmul_cancel_l _ KL (fpow g i)); [apply G0|]. rewrite <- E. symmetry. transitivity (1 * fpow g i).
      - apply (Rmul_comm (RL_th _ R)).
      - apply (Rmul_1_l (RL_th _ R)). }
    apply (geo_order A _ H) in E1. lia. }
  intros Hi Hj E. destruct (N.le_ge_cases i j) as [L|L]; [apply W; assumption|symmetry; apply W; [exact L|exact Hi|symmetry; exact E]].
Qed.

(** 2 = geometric_generator of goldilocks64 has order 192 *)
Lemma goldilocks_geometric_order : has_order (tozp goldilocks64_base_field_modulus (a_geom goldilocks64_base_field_arith) : Zp goldilocks64_base_field_modulus) 192.
Proof.
  refine (order_check_sound goldilocks64_base_field_modulus _ [(2, 6); (3, 1)]%Z _ (Forall_cons (2, 6)%Z prime_2 (Forall_cons (3, 1)%Z prime_3 (Forall_nil _)))).
  vm_cast_no_check (eq_refl true).
Qed.

(** multiplicative_generator of ed25519.hpp *)
Lemma prime_65147 : prime 65147.
Proof. apply small_prime_sound. vm_cast_no_check (eq_refl true). Qed.
Lemma ed25519_generator_order :
  has_order (tozp curve25519_base_field_modulus ed25519_multiplicative_generator : Zp curve25519_base_field_modulus)
    (Z.to_N (curve25519_base_field_modulus - 1)).
Proof.
  assert (E : (fval [(2, 2); (3, 1); (65147, 1); (74058212732561358302231226437062788676166966415465897661863160754340907, 1)]
    = curve25519_base_field_modulus - 1)%Z) by (vm_compute; reflexivity).
  rewrite <- E. apply order_check_sound; [vm_cast_no_check (eq_refl true)|].
  exact (Forall_cons (2, 2)%Z prime_2 (Forall_cons (3, 1)%Z prime_3
    (Forall_cons (65147, 1)%Z prime_65147 (Forall_cons (74058212732561358302231226437062788676166966415465897661863160754340907, 1)%Z
      pr236_54340907 (Forall_nil _))))).
Qed.

(** ** DSA groups *)
Definition dl_check (D : dl_group) : bool :=
  order_check (d_p D) (d_g D) [(d_q D, 1)]%Z && ((d_p D - 1) mod d_q D =? 0)%Z && (d_g D <? d_p D)%Z.
Lemma dl_checked : forallb dl_check shipped_dl_groups = true.
Proof. vm_cast_no_check (eq_refl true). Qed.
Lemma dl_facts (D : dl_group) : In D shipped_dl_groups -> (0 <= d_g D < d_p D)%Z /\ (d_q D | d_p D - 1)%Z /\ (1 < d_q D)%Z /\
  (tozp (d_p D) (d_g D) : Zp (d_p D)) <> 1 /\ fpow (tozp (d_p D) (d_g D) : Zp (d_p D)) (Z.to_N (d_q D)) = 1 /\
  (prime (d_q D) -> has_order (tozp (d_p D) (d_g D) : Zp (d_p D)) (Z.to_N (d_q D))).
Proof.
  intros H. assert (C := proj1 (forallb_forall _ _) dl_checked _ H). unfold dl_check in C.
  rewrite !andb_true_iff, Z.eqb_eq, Z.ltb_lt in C. destruct C as [[C1 C2] C3].
  assert (O := fun P => order_check_sound _ _ _ C1 (Forall_cons (d_q D, 1%Z) P (Forall_nil _))).
  unfold order_check in C1. cbn [fval forallb] in C1. rewrite !andb_true_iff, !Z.ltb_lt, Z.leb_le in C1.
  assert (E : (d_q D ^ 1 * 1 = d_q D)%Z) by lia. cbn [fval] in O. rewrite E in *.
  destruct C1 as (((((D1 & D2) & D3) & _) & D4) & D5 & _). apply negb_true_iff in D5.
  rewrite Z.div_same in D5 by lia. apply pow_is1_spec in D4; [|assumption|assumption].
  assert (N1 : (tozp (d_p D) (d_g D) : Zp (d_p D)) <> 1).
  { intros X. apply not_true_iff_false in D5. apply D5. apply pow_is1_spec; [assumption|assumption|].
    change (Z.to_N 1) with 1%N. rewrite (fpow_1 _ (Zp_ring _)). exact X. }
  split; [lia|]. split; [apply Z.mod_divide; [lia|exact C2]|]. split; [|auto].
  destruct (Z.eq_dec (d_q D) 1) as [X|X]; [exfalso|lia]. apply N1. rewrite X in D4.
  change (Z.to_N 1) with 1%N in D4. rewrite (fpow_1 _ (Zp_ring _)) in D4. exact D4.
Qed.
