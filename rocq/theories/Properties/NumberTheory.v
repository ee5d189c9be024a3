(** C53, C54, C58: totient, factorisation, prime search. *)
From Coq Require Import ZArith NArith List Bool Lia Znumtheory.
From Verif Require Import Spec.Arith Model.NumberTheory Proof.NumberTheory Proof.Totient.
Import ListNotations.
Local Open Scope N_scope.

(** a correct primality test (miller_rabin_test is external and probabilistic) *)
Definition decides_primes (is_prime : N -> bool) : Prop := forall n, is_prime n = true <-> is_prime_number n.
(** the first external reading: the modular number nn(n, n) keeps the value n *)
Definition unreduced (n : N) : N := n.
(** the second: it is reduced modulo n, as every modular number *)
Definition reduced (n : N) : N := n mod n.
(** [static_cast<int>] keeps small values *)
Definition converts (to_int : N -> Z) : Prop := forall n, n < 2 ^ 31 -> to_int n = Z.of_N n.

(** ** C54.  Full statement: prime_factorize terminates for every n and seed and returns the
    prime divisors of n.  Proved: when it terminates, the set is right (reading [unreduced]),
    and the inner loop always terminates.  The recursion does not: see the refutations. *)
Theorem C54_factorize_partial rng0 rng1 to_int is_prime fuel n l :
  converts to_int -> decides_primes is_prime -> n <> 0 ->
  prime_factorize rng0 rng1 unreduced to_int is_prime fuel n [] = Some l -> is_prime_divisors n l.
Proof. intros T P. exact (factorize_ok rng0 rng1 to_int (T 1 eq_refl) is_prime P fuel n l). Qed.
Print Assumptions C54_factorize_partial.
Theorem C54_pollard_divisor rng0 rng1 to_int fuel n d : converts to_int ->
  pollard_rho rng0 rng1 unreduced to_int fuel n = Some d -> (d | n) /\ d <> 1.
Proof. intros T. exact (pollard_divides rng0 rng1 to_int (T 1 eq_refl) fuel n d). Qed.
Print Assumptions C54_pollard_divisor.
Theorem C54_pollard_terminates rng0 rng1 to_int n : (forall d, to_int d = 1%Z -> d = 1) -> 1 < n ->
  exists d, pollard_rho rng0 rng1 unreduced to_int (N.to_nat n) n = Some d.
Proof. exact (pollard_terminates rng0 rng1 to_int n). Qed.
Print Assumptions C54_pollard_terminates.

(** the first 512 bits of a default-seeded mt19937, as independent_bits_engine<mt19937, 256>
    packs them (computed outside; only their residues modulo 9 matter here) *)
Definition mt19937_first : N := 94338558440246670533766299624774536825745512877347148712543818519496430563297.
Definition mt19937_second : N := 73222198712380060011778887725006639011079894034799419387461336330972926146576.
Lemma composite (is_prime : N -> bool) n a b : decides_primes is_prime -> n = a * b -> 1 < a -> 1 < b -> is_prime n = false.
Proof.
  intros P -> A B. destruct (is_prime (a * b)) eqn:E; [|reflexivity]. apply P in E. unfold is_prime_number in E. rewrite N2Z.inj_mul in E.
  exfalso. destruct (prime_divisors _ E (Z.of_N a)) as [F|[F|[F|F]]]; try nia. exists (Z.of_N b). lia.
Qed.
(** a test that can be run: trial division *)
Definition trial (n : Z) : bool := ((1 <? n) && forallb (fun d => negb (n mod Z.of_nat d =? 0)) (seq 2 (Z.to_nat n - 2)))%Z.
Lemma trial_ok n : trial n = true <-> prime n.
Proof.
  unfold trial. rewrite andb_true_iff, forallb_forall, Z.ltb_lt. rewrite <- prime_alt. split.
  - intros [G H]. split; [exact G|]. intros d D V.
    assert (I : In (Z.to_nat d) (seq 2 (Z.to_nat n - 2))) by (apply in_seq; lia).
    apply H in I. rewrite Z2Nat.id in I by lia. rewrite (Zdivide_mod _ _ V) in I. discriminate I.
  - intros [G H]. split; [exact G|]. intros k I. apply in_seq in I. destruct (n mod Z.of_nat k =? 0)%Z eqn:E; [|reflexivity].
    apply Z.eqb_eq, Zmod_divide in E; [|lia]. exfalso. apply (H (Z.of_nat k)); [lia|exact E].
Qed.
Definition trial_N (n : N) : bool := trial (Z.of_N n).
Lemma trial_N_ok : decides_primes trial_N.
Proof. intros n. apply trial_ok. Qed.
Example C54_case : decides_primes trial_N /\ converts Z.of_N /\
  prime_factorize mt19937_first mt19937_second unreduced Z.of_N trial_N 20 105 [] = Some [3; 5; 7].
Proof. split; [exact trial_N_ok|]. split; [intros n _; reflexivity|]. vm_compute; reflexivity. Qed.
Example C54_pollard_case : (forall d, Z.of_N d = 1%Z -> d = 1) /\
  pollard_rho mt19937_first mt19937_second unreduced Z.of_N 91 91 = Some 13 /\ pollard_rho 5 2 unreduced Z.of_N 143 143 = Some 11.
Proof. split; [intros d; lia|]. split; vm_compute; reflexivity. Qed.

(** prime_factorize(9) recurses for ever *)
Theorem C54_terminates_refuted to_int is_prime : converts to_int -> decides_primes is_prime ->
  forall fuel l, prime_factorize mt19937_first mt19937_second unreduced to_int is_prime fuel 9 l = None.
Proof.
  intros T P. apply factorize_stuck; [discriminate|discriminate| |].
  - apply (composite is_prime 9 3 3 P); reflexivity.
  - intros [|fuel]; [exact I|]. unfold pollard_rho. change (9 mod 2 =? 0) with false. cbv iota zeta. cbn [rho_loop]. cbv zeta.
    match goal with |- context [to_int ?e] => let v := eval vm_compute in e in change e with v end.
    rewrite (T 9 eq_refl). reflexivity.
Qed.
Print Assumptions C54_terminates_refuted.
(** "primes whose product is n" fails whenever n has a square factor: repeated primes are dropped *)
Theorem C54_product_refuted rng0 rng1 to_int is_prime : decides_primes is_prime ->
  prime_factorize rng0 rng1 unreduced to_int is_prime 3 4 [] = Some [2].
Proof.
  intros P. assert (E4 : is_prime 4 = false) by (apply (composite is_prime 4 2 2 P); reflexivity).
  assert (E2 : is_prime 2 = true) by (apply P; exact prime_2).
  cbn [prime_factorize N.eqb Pos.eqb orb]. rewrite E4. unfold pollard_rho. change (4 mod 2 =? 0) with true. cbv iota.
  cbn [N.eqb]. rewrite E2. change (4 / 2) with 2. cbn [N.eqb Pos.eqb orb]. rewrite E2. reflexivity.
Qed.
Print Assumptions C54_product_refuted.
(** Under the second reading pollard_rho need not return a divisor, and prime_factorize
    returns primes that do not divide n *)
Theorem C54_reduced_refuted to_int is_prime : converts to_int -> decides_primes is_prime ->
  pollard_rho mt19937_first mt19937_second reduced to_int 1 25 = Some 22 /\
  prime_factorize mt19937_first mt19937_second reduced to_int is_prime 3 25 [] = Some [2; 11].
Proof.
  intros T P.
  assert (E25 : is_prime 25 = false) by (apply (composite is_prime 25 5 5 P); reflexivity).
  assert (E22 : is_prime 22 = false) by (apply (composite is_prime 22 2 11 P); reflexivity).
  assert (E2 : is_prime 2 = true) by (apply P; exact prime_2).
  assert (E11 : is_prime 11 = true).
  { apply P. apply prime_alt. split; [reflexivity|]. intros n N [c C].
    assert (H : (n = 2 \/ n = 3 \/ n = 4 \/ n = 5 \/ n = 6 \/ n = 7 \/ n = 8 \/ n = 9 \/ n = 10)%Z) by lia. lia. }
  assert (R : forall k, pollard_rho mt19937_first mt19937_second reduced to_int (S k) 25 = Some 22).
  { intros k. unfold pollard_rho. change (25 mod 2 =? 0) with false. cbv beta iota zeta. cbn [rho_loop]. cbv zeta.
    match goal with |- context [to_int ?e] => let v := eval vm_compute in e in change e with v end.
    rewrite (T 22 eq_refl). reflexivity. }
  split; [apply R|]. cbn [prime_factorize N.eqb Pos.eqb orb]. rewrite E25, R. cbn [N.eqb]. rewrite E22.
  unfold pollard_rho. change (22 mod 2 =? 0) with true. cbv iota. cbn [N.eqb]. rewrite E2. change (22 / 2) with 11. change (25 / 22) with 1.
  cbn [N.eqb Pos.eqb orb]. rewrite E11. reflexivity.
Qed.
Print Assumptions C54_reduced_refuted.

(** ** C53.  totient, when the factorisation it calls terminates.  Full statement: for every n. *)
Theorem C53_totient_partial rng0 rng1 to_int is_prime fuel n v :
  converts to_int -> decides_primes is_prime -> n <> 0 ->
  totient rng0 rng1 unreduced to_int is_prime fuel n = Some v -> v = euler_phi n.
Proof.
  intros T P N0. unfold totient. destruct (prime_factorize rng0 rng1 unreduced to_int is_prime fuel n []) as [l|] eqn:E; [|discriminate].
  apply (C54_factorize_partial _ _ _ _ _ _ _ T P N0) in E. assert (H := totient_divisors n l N0 E).
  destruct (fold_left _ l (1, 1)) as [a b]. intros F. injection F as <-. exact H.
Qed.
Print Assumptions C53_totient_partial.
Example C53_case : euler_phi 105 = 48 /\
  totient mt19937_first mt19937_second unreduced Z.of_N trial_N 20 105 = Some 48.
Proof. split; vm_compute; reflexivity. Qed.
(** totient(9) never returns (the factorisation diverges), although the value is 6 *)
Theorem C53_totient_refuted to_int is_prime : converts to_int -> decides_primes is_prime ->
  forall fuel, totient mt19937_first mt19937_second unreduced to_int is_prime fuel 9 = None.
Proof. intros T P fuel. unfold totient. rewrite (C54_terminates_refuted to_int is_prime T P). reflexivity. Qed.
Print Assumptions C53_totient_refuted.
(** totient_list: n >= 2, in increasing order and of the right length *)
Theorem C53_totient_list n : 1 < n ->
  totient_list n = filter (fun m => N.gcd m n =? 1) (up_to n) /\ N.of_nat (length (totient_list n)) = euler_phi n.
Proof.
  intros H. assert (E : totient_list n = filter (fun m => N.gcd m n =? 1) (up_to n)); [|split; [exact E|rewrite E; reflexivity]].
  unfold totient_list, up_to. replace (N.to_nat n) with (S (pred (N.to_nat n))) at 2 by lia.
  rewrite seq_S, map_app, filter_app. cbn [map filter]. replace (N.of_nat (1 + pred (N.to_nat n))) with n by lia.
  rewrite N.gcd_diag. rewrite (proj2 (N.eqb_neq n 1)) by lia. rewrite app_nil_r. reflexivity.
Qed.
Print Assumptions C53_totient_list.
Example C53_list_case : totient_list 12 = [1; 5; 7; 11] /\ euler_phi 12 = 4.
Proof. split; vm_compute; reflexivity. Qed.
(** for n = 1 the list is empty although 1 is coprime to 1 *)
Theorem C53_totient_list_refuted : totient_list 1 = [] /\ filter (fun m => N.gcd m 1 =? 1) (up_to 1) = [1] /\ euler_phi 1 = 1.
Proof. repeat split; vm_compute; reflexivity. Qed.
Print Assumptions C53_totient_list_refuted.

(** ** C58.  Prime search.  [fuel] bounds the number of candidates; when a prime is returned
    it is the nearest one in the progression. *)
Definition decides_Z (is_prime : Z -> bool) : Prop := forall n, is_prime n = true <-> prime n.
Local Open Scope Z_scope.
Theorem C58_first_prime is_prime fuel nBits m p : decides_Z is_prime -> 0 <= nBits -> 0 < m ->
  first_prime is_prime fuel nBits m = Some p ->
  prime p /\ 2 ^ nBits < p /\ (m | p - 1) /\ forall p', prime p' -> 2 ^ nBits < p' < p -> ~ (m | p' - 1).
Proof. intros D. exact (first_prime_ok is_prime D fuel nBits m p). Qed.
Print Assumptions C58_first_prime.
Theorem C58_next_prime is_prime fuel q m p : decides_Z is_prime -> 0 < m -> next_prime is_prime fuel q m = Some p ->
  prime p /\ q < p /\ (m | p - q) /\ forall p', prime p' -> q < p' < p -> ~ (m | p' - q).
Proof. intros D. exact (next_prime_ok is_prime D fuel q m p). Qed.
Print Assumptions C58_next_prime.
Theorem C58_previous_prime is_prime fuel q m p : decides_Z is_prime -> 0 < m -> previous_prime is_prime fuel q m = Some p ->
  prime p /\ p < q /\ (m | q - p) /\ forall p', prime p' -> p < p' < q -> ~ (m | q - p').
Proof. intros D. exact (previous_prime_ok is_prime D fuel q m p). Qed.
Print Assumptions C58_previous_prime.
Example C58_case : decides_Z trial /\ first_prime trial 9 5 6 = Some 37 /\ next_prime trial 9 37 6 = Some 43 /\
  previous_prime trial 9 37 6 = Some 31 /\ previous_prime trial 9 37 10 = Some 17.
Proof. split; [exact trial_ok|]. repeat split; vm_compute; reflexivity. Qed.
(** the search never ends when q and m have a common factor *)
Theorem C58_next_prime_refuted is_prime : decides_Z is_prime -> forall fuel, next_prime is_prime fuel 9 3 = None.
Proof.
  intros D. assert (G : forall fuel k, 0 <= k -> next_prime_loop is_prime fuel 9 3 (12 + 3 * k) = None).
  { induction fuel as [|fuel IH]; intros k K; [reflexivity|]. cbn [next_prime_loop].
    destruct (is_prime (12 + 3 * k)) eqn:E.
    - apply D in E. exfalso. destruct (prime_divisors _ E 3) as [F|[F|[F|F]]]; try lia. exists (4 + k). lia.
    - destruct (9 <=? 12 + 3 * k + 3); [|reflexivity]. replace (12 + 3 * k + 3) with (12 + 3 * (k + 1)) by lia. apply IH. lia. }
  intros fuel. exact (G fuel 0 ltac:(lia)).
Qed.
Print Assumptions C58_next_prime_refuted.
