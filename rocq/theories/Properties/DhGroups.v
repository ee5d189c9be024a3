(** C72: the finite-field Diffie-Hellman moduli are those of the standards. *)
From Coq Require Import ZArith List Bool Lia Lra Reals.
From Verif Require Import Spec.DhGroups Model.FieldParams Proof.PiDigits.
Import ListNotations.
Local Open Scope Z_scope.

(** bit length, the X of the standard, the shipped modulus *)
Definition modp_groups : list (Z * Z * Z) :=
  [(1024, 129093, modp_ietf_1024_modulus); (1536, 741804, modp_ietf_1536_modulus); (2048, 124476, modp_ietf_2048_modulus);
   (3072, 1690314, modp_ietf_3072_modulus); (4096, 240904, modp_ietf_4096_modulus); (6144, 929484, modp_ietf_6144_modulus);
   (8192, 4743158, modp_ietf_8192_modulus)].
(** RFC 5054 takes the four larger groups from RFC 3526 *)
Definition srp_groups : list (Z * Z * Z) :=
  [(3072, 1690314, modp_srp_3072_modulus); (4096, 240904, modp_srp_4096_modulus); (6144, 929484, modp_srp_6144_modulus);
   (8192, 4743158, modp_srp_8192_modulus)].
Definition ffdhe_groups : list (Z * Z * Z) :=
  [(2048, 560316, ffdhe_ietf_2048_modulus); (3072, 2625351, ffdhe_ietf_3072_modulus); (4096, 5736041, ffdhe_ietf_4096_modulus);
   (6144, 15705020, ffdhe_ietf_6144_modulus); (8192, 10965728, ffdhe_ietf_8192_modulus)].

Lemma modp_checks : forallb (check modp_formula pi_mid) (modp_groups ++ srp_groups) = true.
Proof. vm_compute. reflexivity. Qed.
Lemma ffdhe_checks : forallb (check ffdhe_formula e_mid) ffdhe_groups = true.
Proof. vm_compute. reflexivity. Qed.

(** fields/modp_ietf.hpp: the moduli of RFC 2409 (1024 bits) and RFC 3526 *)
Theorem C72_modp b X p : In (b, X, p) modp_groups -> rfc3526 b X p.
Proof. intros H. apply (modp_sound _ modp_checks), in_or_app. left. exact H. Qed.
(** fields/modp_srp.hpp: the four moduli RFC 5054 shares with RFC 3526 *)
Theorem C72_srp b X p : In (b, X, p) srp_groups -> rfc3526 b X p.
Proof. intros H. apply (modp_sound _ modp_checks), in_or_app. right. exact H. Qed.
(** fields/ffdhe_ietf.hpp: the moduli of RFC 7919 *)
Theorem C72_ffdhe b X p : In (b, X, p) ffdhe_groups -> rfc7919 b X p.
Proof. exact (ffdhe_sound _ ffdhe_checks b X p). Qed.

(** Every one of the sixteen moduli has exactly its nominal length and is 7 modulo 8 (so that 2,
    the declared generator, is a square modulo p once p is prime). *)
Theorem C72_shape b X p : In (b, X, p) (modp_groups ++ srp_groups ++ ffdhe_groups) -> 2 ^ (b - 1) < p < 2 ^ b /\ p mod 8 = 7.
Proof.
  intros H.
  assert (Q : forallb (fun r => let '(b, _, p) := r in (2 ^ (b - 1) <? p) && (p <? 2 ^ b) && (p mod 8 =? 7)) (modp_groups ++ srp_groups ++ ffdhe_groups) = true)
    by (vm_compute; reflexivity).
  rewrite forallb_forall in Q. specialize (Q _ H). cbv beta iota in Q. rewrite !andb_true_iff, !Z.ltb_lt, Z.eqb_eq in Q. tauto.
Qed.

(** the formula determines the modulus: one bit length and X, one modulus *)
Theorem C72_unique b X p q : (rfc3526 b X p -> rfc3526 b X q -> p = q) /\ (rfc7919 b X p -> rfc7919 b X q -> p = q).
Proof.
  assert (F : forall m n x, is_floor m x -> is_floor n x -> m = n).
  { intros m n x [A B] [C D]. assert (m < n + 1) by (apply lt_IZR; rewrite plus_IZR; lra).
    assert (n < m + 1) by (apply lt_IZR; rewrite plus_IZR; lra). lia. }
  split; intros (m & A & ->) (n & B & ->); rewrite (F _ _ _ A B); reflexivity.
Qed.

Example C72_pi : is_floor 3 PI /\ is_floor 2 (exp 1).
Proof.
  split.
  - assert (H := floor_at_ok _ _ 130 3 pi_enclosure ltac:(vm_compute; reflexivity)). change (IZR (2 ^ (130 - 130))) with 1%R in H. rewrite Rmult_1_l in H. exact H.
  - assert (H := floor_at_ok _ _ 130 2 e_enclosure ltac:(vm_compute; reflexivity)). change (IZR (2 ^ (130 - 130))) with 1%R in H. rewrite Rmult_1_l in H. exact H.
Qed.
(** the sharing of the standards *)
Example C72_oakley_2 : rfc3526 1024 129093 modp_ietf_1024_modulus /\ modp_ietf_8192_modulus = modp_srp_8192_modulus.
Proof. split; [apply C72_modp; left; reflexivity|vm_compute; reflexivity]. Qed.

Print Assumptions C72_modp.
Print Assumptions C72_srp.
Print Assumptions C72_ffdhe.
Print Assumptions C72_shape.
Print Assumptions C72_unique.
