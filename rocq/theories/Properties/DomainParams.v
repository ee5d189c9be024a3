(** C65: the domain parameters of the curve headers without group types. *)
From Coq Require Import ZArith List Bool Lia Znumtheory.
From Verif Require Import Base.Field Base.Zp Spec.Weierstrass Model.FieldParams Model.CurveParams Model.DomainParams
  Proof.Generators Proof.PrimesSecp Proof.DomainParams Properties.Generators.
Import ListNotations.
Local Open Scope Z_scope.

(** p and q are prime, the curve is non-singular, (x, y) is on it and has order exactly q.
    sw_generator and sw_order are those of C29.  The full claim is for all of
    domain_curves; x962_p_v3<192> violates it. *)
Lemma domain_sound c : prime (swc_p c) -> prime (swc_r c) -> sw_check c = true ->
  sw_generator (swK c) (swa c) (swb c) (swG c) (swc_r c) /\ sw_order (swK c) (swa c) (swG c) (swc_r c).
Proof.
  intros P Q C. destruct (sw_check_sound c P C) as (A & B & D & two & E).
  assert (S : sw_generator (swK c) (swa c) (swb c) (swG c) (swc_r c)).
  { split; [exact A|]. split; [exact B|]. split; [discriminate|]. split; [exact D|exact E]. }
  split; [exact S|]. assert (H : 1 < swc_p c) by (assert (X := prime_ge_2 _ P); lia).
  exact (sw_order_prime (swK c) (Zp_field _ H P) two (swa c) (swb c) _ _ S Q).
Qed.
Theorem C65_domain_parameters_partial c : In c domain_curves -> c <> x962_p_v3_192 ->
  prime (swc_p c) /\ prime (swc_r c) /\
  sw_generator (swK c) (swa c) (swb c) (swG c) (swc_r c) /\ sw_order (swK c) (swa c) (swG c) (swc_r c).
Proof.
  intros I N. assert (I' : In c good_curves).
  { unfold domain_curves in I. unfold good_curves. cbn [In] in *.
    assert (x962_p_v3_192 <> c) by (intros E; exact (N (eq_sym E))). tauto. }
  destruct (proj1 (Forall_forall _ _) good_primes c I') as [P Q].
  split; [exact P|]. split; [exact Q|]. apply domain_sound; [exact P|exact Q|].
  exact (proj1 (forallb_forall _ _) good_checks c I').
Qed.
(** x962_p_v3<192> takes q from x962_p_v2<192>: [q](x, y) is not the identity *)
Theorem C65_x962_p192v3_refuted : In x962_p_v3_192 domain_curves /\
  on_curve (swK x962_p_v3_192) (swa x962_p_v3_192) (swb x962_p_v3_192) (swG x962_p_v3_192) /\
  ec_mul (swK x962_p_v3_192) (swa x962_p_v3_192) (Z.to_nat (swc_r x962_p_v3_192)) (swG x962_p_v3_192) <> Inf.
Proof.
  split; [unfold domain_curves; cbn [In]; tauto|].
  destruct fixed_primes as [P Q]. destruct (domain_sound x962_p_v3_192_fixed P Q fixed_check) as [(_ & ON & _) O].
  split; [exact ON|]. intros E.
  assert (D : (swc_r x962_p_v3_192_fixed | Z.of_nat (Z.to_nat (swc_r x962_p_v3_192)))%Z).
  { apply (proj1 (O (Z.to_nat (swc_r x962_p_v3_192)) ltac:(rewrite <- Z2Nat.inj_0; apply Z2Nat.inj_lt; vm_compute; congruence))). exact E. }
  rewrite Z2Nat.id in D by (vm_compute; discriminate). apply Z.mod_divide in D; [|discriminate].
  vm_compute in D. discriminate D.
Qed.
(** its own scalar field would be right *)
Theorem C65_x962_p192v3_own_order : sw_order (swK x962_p_v3_192) (swa x962_p_v3_192) (swG x962_p_v3_192) x962_p_v3_scalar_field_192_modulus.
Proof. destruct fixed_primes as [P Q]. exact (proj2 (domain_sound x962_p_v3_192_fixed P Q fixed_check)). Qed.
(** the NIST headers only give p, which is the modulus of the matching secp_r1 field *)
Theorem C65_nist_primes : Forall prime [p192_p; p224_p; p384_p; p521_p] /\
  p192_p = 2 ^ 192 - 2 ^ 64 - 1 /\ p224_p = 2 ^ 224 - 2 ^ 96 + 1 /\
  p384_p = 2 ^ 384 - 2 ^ 128 - 2 ^ 96 + 2 ^ 32 - 1 /\ p521_p = 2 ^ 521 - 1.
Proof.
  split; [|repeat split; reflexivity].
  exact (Forall_cons p192_p prime_secp_r1_base_field_192 (Forall_cons p224_p prime_secp_r1_base_field_224
    (Forall_cons p384_p prime_secp_r1_base_field_384 (Forall_cons p521_p prime_secp_r1_base_field_521 (Forall_nil _))))).
Qed.
Example C65_sm2 : In sm2p_v1_256 domain_curves /\ sm2p_v1_256 <> x962_p_v3_192.
Proof. split; [unfold domain_curves; cbn [In]; tauto|discriminate]. Qed.

Print Assumptions C65_domain_parameters_partial.
Print Assumptions C65_x962_p192v3_refuted.
Print Assumptions C65_x962_p192v3_own_order.
Print Assumptions C65_nist_primes.
