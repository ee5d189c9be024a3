(** C74: the mul_generator of the Diffie-Hellman groups generates the group the standards name. *)
From Coq Require Import ZArith NArith List Bool Lia Znumtheory.
From Verif Require Import Base.Field Base.Zp Spec.Order Model.FieldParams Model.ArithmeticParams Model.MulGenerators Proof.GaussLemma Properties.ArithmeticParams.
Import ListNotations.
Local Open Scope Z_scope.

(** [g] has order [n] modulo [p]: its powers are 1 at the multiples of n and nowhere else *)
Definition order_mod (p g n : Z) : Prop := forall k, 0 <= k -> (g ^ k mod p = 1 <-> (n | k)).

Definition sign_check (s : Z) (r : Z * Z) : bool :=
  let '(g, p) := r in (400 <? p) && (1 <? g) && (g <? 20) && (euler_sign g (p mod (4 * g)) (Z.to_nat g) =? s).
Lemma sub_checks : forallb (sign_check 1) (modp_ietf_generators ++ ffdhe_ietf_generators) = true.
Proof. vm_compute. reflexivity. Qed.
Lemma full_checks : forallb (sign_check (-1)) modp_srp_generators = true.
Proof. vm_compute. reflexivity. Qed.

Lemma sign_facts s g p : sign_check s (g, p) = true -> 400 < p /\ 1 < g < 20 /\ (prime p -> cong p (g ^ (p / 2)) s).
Proof.
  unfold sign_check. rewrite !andb_true_iff, !Z.ltb_lt, Z.eqb_eq. intros (((P & G1) & G2) & E). repeat split; try assumption.
  intros Q. rewrite <- E. apply euler_criterion_small; [exact Q|lia|lia].
Qed.
Lemma small_not_one p x : 1 < x <= p -> ~ cong p x 1.
Proof. intros X D. apply Z.divide_pos_le in D; lia. Qed.
Lemma cong_one p x : 1 < p -> (cong p x 1 <-> x mod p = 1).
Proof. intros P. rewrite cong_mod, (Z.mod_small 1 p) by lia. reflexivity. Qed.
Lemma half p : prime p -> 2 < p -> (p - 1) / 2 = p / 2 /\ p - 1 = 2 * (p / 2).
Proof. intros P Q. assert (O := p_odd p P Q). split; [|lia]. symmetry. apply Z.div_unique_pos with (r := 0); lia. Qed.

(** The statement: for modp_ietf and ffdhe_ietf, mul_generator generates the subgroup of prime
    order (p-1)/2.  Missing: the primality of p and of (p-1)/2, which the RFCs assert and which is
    a hypothesis here (C30). *)
Theorem C74_prime_order_subgroup_partial g p : In (g, p) (modp_ietf_generators ++ ffdhe_ietf_generators) ->
  prime p -> prime ((p - 1) / 2) -> order_mod p g ((p - 1) / 2).
Proof.
  intros H P Q k K. assert (C := sub_checks). rewrite forallb_forall in C. destruct (sign_facts _ _ _ (C _ H)) as (P4 & G & S). specialize (S P).
  destruct (half p P ltac:(lia)) as [E1 E2]. rewrite E1 in *. rewrite <- cong_one by lia.
  apply order_prime; [lia|exact Q|exact S|apply small_not_one; lia|exact K].
Qed.
(** RFC 5054: the generator of an SRP group is a primitive root, so that its powers are all the
    units.  Missing: the same two primalities. *)
Theorem C74_primitive_root_partial g p : In (g, p) modp_srp_generators ->
  prime p -> prime ((p - 1) / 2) -> order_mod p g (p - 1).
Proof.
  intros H P Q k K. assert (C := full_checks). rewrite forallb_forall in C. destruct (sign_facts _ _ _ (C _ H)) as (P4 & G & S). specialize (S P).
  destruct (half p P ltac:(lia)) as [E1 E2]. rewrite E2. rewrite E1 in Q. rewrite <- cong_one by lia.
  apply order_full; [lia|exact Q|exact S|apply small_not_one; nia|exact K].
Qed.
(** The generator is the least one: 2 for modp_ietf and ffdhe_ietf, and for the SRP groups every
    smaller number is a square modulo p, hence no primitive root.  Missing: the primality of p. *)
Definition squares_below (r : Z * Z) : bool :=
  let '(g, p) := r in forallb (fun a => euler_sign a (p mod (4 * a)) (Z.to_nat a) =? 1) (map Z.of_nat (seq 2 (Z.to_nat g - 2))).
Lemma below_checks : forallb squares_below modp_srp_generators = true.
Proof. vm_compute. reflexivity. Qed.
Theorem C74_least_partial g p : prime p ->
  (In (g, p) (modp_ietf_generators ++ ffdhe_ietf_generators) -> g = 2) /\
  (In (g, p) modp_srp_generators -> forall a, 1 < a < g -> ~ order_mod p a (p - 1)).
Proof.
  intros P. split.
  - intros H. assert (C : forallb (fun r : Z * Z => fst r =? 2) (modp_ietf_generators ++ ffdhe_ietf_generators) = true) by reflexivity.
    rewrite forallb_forall in C. apply Z.eqb_eq. exact (C _ H).
  - intros H a A O. assert (C := full_checks). rewrite forallb_forall in C. destruct (sign_facts _ _ _ (C _ H)) as (P4 & G & _).
    assert (D := below_checks). rewrite forallb_forall in D. specialize (D _ H). unfold squares_below in D. rewrite forallb_forall in D.
    assert (I : In a (map Z.of_nat (seq 2 (Z.to_nat g - 2)))) by (apply in_map_iff; exists (Z.to_nat a); rewrite in_seq; lia).
    specialize (D _ I). apply Z.eqb_eq in D. assert (X := euler_criterion_small p a P ltac:(lia) ltac:(lia)). rewrite D in X.
    destruct (half p P ltac:(lia)) as [_ E2]. apply cong_one in X; [|lia]. apply O in X; [|lia]. rewrite E2 in X. apply Z.divide_pos_le in X; lia.
Qed.
(** The sign alone needs only the primality of p: the generators of modp_ietf and ffdhe_ietf are
    squares modulo p (their powers leak no parity of the exponent), those of modp_srp are not. *)
Theorem C74_residue_partial g p : prime p ->
  (In (g, p) (modp_ietf_generators ++ ffdhe_ietf_generators) -> g ^ ((p - 1) / 2) mod p = 1) /\
  (In (g, p) modp_srp_generators -> g ^ ((p - 1) / 2) mod p = p - 1).
Proof.
  intros P. split; intros H.
  - assert (C := sub_checks). rewrite forallb_forall in C. destruct (sign_facts _ _ _ (C _ H)) as (P4 & G & S).
    rewrite (proj1 (half p P ltac:(lia))). apply cong_one; [lia|exact (S P)].
  - assert (C := full_checks). rewrite forallb_forall in C. destruct (sign_facts _ _ _ (C _ H)) as (P4 & G & S).
    rewrite (proj1 (half p P ltac:(lia))). assert (X := S P). apply cong_mod in X; [|lia]. rewrite X.
    symmetry. apply Z.mod_unique_pos with (q := -1); lia.
Qed.
(** The rule used, for all odd primes: whether a is a square modulo p depends on p mod 4a only *)
Theorem C74_euler p q a : prime p -> prime q -> 1 <= a < p -> a < q -> 2 < p -> 2 < q -> p mod (4 * a) = q mod (4 * a) ->
  (a ^ ((p - 1) / 2) mod p = 1 <-> a ^ ((q - 1) / 2) mod q = 1).
Proof.
  intros P Q A A' P2 Q2 E. rewrite (proj1 (half p P P2)), (proj1 (half q Q Q2)), <- !cong_one by lia.
  assert (X := euler_criterion_small p a P P2 A). assert (Y := euler_criterion_small q a Q Q2 ltac:(lia)). rewrite E in X.
  set (s := euler_sign a (q mod (4 * a)) (Z.to_nat a)) in *.
  assert (S : s = 1 \/ s = -1).
  { unfold s. clear X Y s. generalize (q mod (4 * a)) as r. generalize (Z.to_nat a) as n. intros n r. induction n as [|j IH]; [left; reflexivity|]. cbn [euler_sign].
    assert (T : step_sign a r j = 1 \/ step_sign a r j = -1) by (unfold step_sign; destruct (Nat.even j); [auto|]; destruct (Z.even _); auto).
    destruct IH as [-> | ->], T as [-> | ->]; auto. }
  destruct S as [S|S]; rewrite S in *; [tauto|]. split; intros H; exfalso.
  - assert (W := cong_trans _ _ _ _ (cong_sym _ _ _ X) H). unfold cong in W. apply Z.divide_opp_r, Z.divide_pos_le in W; lia.
  - assert (W := cong_trans _ _ _ _ (cong_sym _ _ _ Y) H). unfold cong in W. apply Z.divide_opp_r, Z.divide_pos_le in W; lia.
Qed.
(** alt_bn128's mul_generator generates the whole multiplicative group of its field *)
Theorem C74_alt_bn128 :
  generates (tozp alt_bn128_base_field_254_modulus alt_bn128_base_mul_generator : Zp alt_bn128_base_field_254_modulus) /\
  generates (tozp alt_bn128_scalar_field_254_modulus alt_bn128_scalar_mul_generator : Zp alt_bn128_scalar_field_254_modulus).
Proof.
  split.
  - apply (C64_multiplicative_generator alt_bn128_base_field_254_arith). unfold shipped_arith. cbn [In]. tauto.
  - apply (C64_multiplicative_generator alt_bn128_scalar_field_254_arith). unfold shipped_arith. cbn [In]. tauto.
Qed.

(** a safe prime that is 7 modulo 8, and one that is 3 modulo 8 *)
Example C74_small : 2 ^ ((23 - 1) / 2) mod 23 = 1 /\ 2 ^ ((11 - 1) / 2) mod 11 = 10 /\ euler_sign 2 (23 mod 8) 2 = 1 /\ euler_sign 2 (11 mod 8) 2 = -1.
Proof. repeat split; vm_compute; reflexivity. Qed.
Example C74_order_23 : order_mod 23 2 11.
Proof.
  intros k K. assert (P : prime 11).
  { apply prime_intro; [lia|]. intros n N. apply Zgcd_1_rel_prime. assert (W : n = 1 \/ n = 2 \/ n = 3 \/ n = 4 \/ n = 5 \/ n = 6 \/ n = 7 \/ n = 8 \/ n = 9 \/ n = 10) by lia.
    repeat (destruct W as [W|W]; [subst n; reflexivity|]). subst n. reflexivity. }
  rewrite <- cong_one by lia. apply order_prime; [lia|exact P|exists 89; reflexivity|apply small_not_one; lia|exact K].
Qed.
Example C74_in : In (0x13, modp_srp_8192_modulus) modp_srp_generators.
Proof. unfold modp_srp_generators. cbn [In]. tauto. Qed.

Print Assumptions C74_prime_order_subgroup_partial.
Print Assumptions C74_primitive_root_partial.
Print Assumptions C74_residue_partial.
Print Assumptions C74_least_partial.
Print Assumptions C74_euler.
Print Assumptions C74_alt_bn128.
