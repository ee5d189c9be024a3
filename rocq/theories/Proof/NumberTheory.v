From Coq Require Import ZArith NArith List ListDec Bool Lia Znumtheory.
From Verif Require Import Spec.Arith Model.NumberTheory.
Import ListNotations.
Local Open Scope N_scope.

Lemma inc_cons x l : increasing (x :: l) <-> (forall y, In y l -> x < y) /\ increasing l.
Proof.
  revert x. induction l as [|a l IH]; intros x.
  - cbn. intuition.
  - change (increasing (x :: a :: l)) with (x < a /\ increasing (a :: l)). rewrite IH. split.
    + intros (A & B & C). split; [|auto]. intros y [<-|Y]; [exact A|]. specialize (B y Y). lia.
    + intros (A & B & C). split; [apply A; left; reflexivity|auto].
Qed.
Lemma insert_in x s y : In y (set_insert x s) <-> y = x \/ In y s.
Proof.
  induction s as [|a s IH]; cbn; [intuition|]. destruct (N.ltb_spec x a); [cbn; intuition|].
  destruct (N.eqb_spec x a); [subst; cbn; intuition|]. cbn. rewrite IH. intuition.
Qed.
Lemma insert_inc x s : increasing s -> increasing (set_insert x s).
Proof.
  induction s as [|a s IH]; intros H; [exact I|]. cbn [set_insert]. destruct (N.ltb_spec x a).
  - rewrite inc_cons. split; [|exact H]. intros y [<-|Y]; [lia|]. apply inc_cons in H. specialize (proj1 H y Y). lia.
  - destruct (N.eqb_spec x a); [exact H|]. apply inc_cons in H. destruct H as [A B]. apply inc_cons. split; [|apply IH, B].
    intros y Y. apply insert_in in Y. destruct Y as [->|Y]; [lia|auto].
Qed.
Lemma inc_unique l m : increasing l -> increasing m -> (forall x, In x l <-> In x m) -> l = m.
Proof.
  revert m. induction l as [|a l IH]; intros m L M E.
  - destruct m as [|b m]; [reflexivity|]. exfalso. apply (proj2 (E b)). left. reflexivity.
  - destruct m as [|b m]; [exfalso; apply (proj1 (E a)); left; reflexivity|].
    apply inc_cons in L, M. destruct L as [L1 L2], M as [M1 M2].
    assert (AB : a = b).
    { destruct (proj1 (E a) (or_introl eq_refl)) as [|A]; [congruence|]. destruct (proj2 (E b) (or_introl eq_refl)) as [|B]; [congruence|].
      specialize (L1 b B). specialize (M1 a A). lia. }
    subst b. f_equal. apply IH; auto. intros x. split; intros X.
    + destruct (proj1 (E x) (or_intror X)) as [->|]; [|assumption]. specialize (L1 x X). lia.
    + destruct (proj2 (E x) (or_intror X)) as [->|]; [|assumption]. specialize (M1 x X). lia.
Qed.
Lemma prime_divisors_unique n l m : is_prime_divisors n l -> is_prime_divisors n m -> l = m.
Proof. intros [A B] [C D]. apply inc_unique; auto. intros x. rewrite B, D. tauto. Qed.

Lemma N_divide_Z a b : (a | b) <-> (Z.of_N a | Z.of_N b)%Z.
Proof.
  split; intros [c C].
  - exists (Z.of_N c). lia.
  - destruct (N.eq_dec a 0) as [->|Na]; [exists 0; lia|]. exists (Z.to_N c). assert (0 <= c)%Z by nia. nia.
Qed.
Lemma prime_mul_div p a b : is_prime_number p -> (p | a * b) -> (p | a) \/ (p | b).
Proof. intros P. rewrite !N_divide_Z, N2Z.inj_mul. apply prime_mult, P. Qed.

Section Factor.
  Variables rng0 rng1 : N.
  Variable to_int : N -> Z.
  Hypothesis to_int_1 : to_int 1 = 1%Z.
  Local Notation nn := (fun n : N => n).
  Local Notation rho := (rho_loop nn to_int).
  Local Notation pollard := (pollard_rho rng0 rng1 nn to_int).

  Lemma rho_divides fuel n c : forall x xx d, rho fuel n c x xx = Some d -> (d | n) /\ d <> 1.
  Proof.
    induction fuel as [|k IH]; intros x xx d; cbn [rho_loop]; [discriminate|].
    match goal with |- context [N.gcd ?e n] => set (g := e) end.
    destruct (Z.eqb_spec (to_int (N.gcd g n)) 1) as [E|E]; [apply IH|].
    intros H. injection H as <-. split; [apply N.gcd_divide_r|]. intros F. rewrite F in E. contradiction.
  Qed.
  Lemma pollard_divides fuel n d : pollard fuel n = Some d -> (d | n) /\ d <> 1.
  Proof.
    unfold pollard_rho. destruct (N.eqb_spec (n mod 2) 0) as [E|E].
    - intros H. injection H as <-. split; [apply N.mod_divide; [discriminate|exact E]|discriminate].
    - apply rho_divides.
  Qed.

  (** Floyd: the loop meets x = xx within n iterations *)
  Section Floyd.
    Variables n c x0 : N.
    Hypothesis n0 : n <> 0.
    Let f (x : N) := (x * x + c) mod n.
    Fixpoint it (k : nat) : N := match k with O => x0 | S k => f (it k) end.
    Lemma it_lt k : it (S k) < n. Proof. cbn. apply N.mod_lt, n0. Qed.
    Lemma it_period i j : it i = it j -> forall k, it (i + k) = it (j + k).
    Proof. intros E. induction k; [rewrite !Nat.add_0_r; exact E|]. rewrite !Nat.add_succ_r. cbn. rewrite IHk. reflexivity. Qed.
    Lemma it_mult i l : it i = it (i + l) -> forall m k, (i <= k)%nat -> it k = it (k + m * l).
    Proof.
      intros E m. induction m as [|m IH]; intros k K; [rewrite Nat.add_0_r; reflexivity|].
      replace (k + S m * l)%nat with ((k + l) + m * l)%nat by lia.
      rewrite <- IH by lia. replace k with (i + (k - i))%nat at 1 by lia.
      rewrite (it_period i (i + l) E). f_equal. lia.
    Qed.
    Lemma pigeon (h : nat -> nat) (m : nat) : (forall k, (k <= m)%nat -> (h k < m)%nat) ->
      exists i j, (i < j <= m)%nat /\ h i = h j.
    Proof.
      intros H. destruct (NoDup_dec Nat.eq_dec (map h (seq 0 (S m)))) as [ND|D].
      - exfalso. assert (L := NoDup_incl_length ND (l' := seq 0 m)). rewrite map_length, !seq_length in L.
        assert (S m <= m)%nat; [|lia]. apply L. intros y Y. apply in_map_iff in Y. destruct Y as (k & <- & K). apply in_seq in K.
        apply in_seq. specialize (H k). lia.
      - clear H. assert (G : forall s w, ~ NoDup (map h (seq s w)) -> exists i j, (s <= i < j /\ j < s + w)%nat /\ h i = h j).
        { intros s w. revert s. induction w as [|w IH]; intros s N; [exfalso; apply N; constructor|].
          cbn [seq map] in N. destruct (in_dec Nat.eq_dec (h s) (map h (seq (S s) w))) as [I|I].
          - apply in_map_iff in I. destruct I as (k & E & K). apply in_seq in K. exists s, k. split; [lia|congruence].
          - destruct (IH (S s)) as (i & j & B & E); [intros ND; apply N; constructor; auto|]. exists i, j. split; [lia|exact E]. }
        destruct (G _ _ D) as (i & j & B & E). exists i, j. split; [lia|exact E].
    Qed.
    Lemma meet : exists k, (1 <= k <= N.to_nat n)%nat /\ it k = it (k + k).
    Proof.
      destruct (pigeon (fun k => N.to_nat (it (S k))) (N.to_nat n)) as (i & j & B & E).
      { intros k _. assert (H := it_lt k). lia. }
      apply N2Nat.inj in E. set (l := (j - i)%nat). assert (L : (1 <= l)%nat) by (unfold l; lia).
      replace (S j) with (S i + l)%nat in E by (unfold l; lia).
      (* k = the least positive multiple of l that is at least S i *)
      set (m := S (i / l)). set (k := (m * l)%nat).
      assert (D := Nat.div_mod i l ltac:(lia)). assert (DM := Nat.mod_upper_bound i l ltac:(lia)).
      assert (D1 : (l * (i / l) <= i)%nat) by (apply Nat.mul_div_le; lia).
      assert (K1 : (S i <= k)%nat) by (unfold k, m; lia).
      assert (K2 : (k <= N.to_nat n)%nat) by (unfold k, m, l in *; nia).
      exists k. split; [lia|]. exact (it_mult (S i) l E m k K1).
    Qed.
    Hypothesis to_int_n : forall d, to_int d = 1%Z -> d = 1.
    Lemma rho_terminates : n <> 1 -> x0 < n -> forall fuel k m, (k + fuel = m)%nat -> it m = it (m + m) -> (k < m)%nat ->
      exists d, rho fuel n c (it k) (it (k + k)) = Some d.
    Proof.
      intros n1 X0. induction fuel as [|fuel IH]; intros k m E M L; [lia|]. cbn [rho_loop].
      change ((it k * it k + c) mod n) with (it (S k)).
      change ((it (k + k) * it (k + k) + c) mod n) with (it (S (k + k))).
      change ((it (S (k + k)) * it (S (k + k)) + c) mod n) with (it (S (S (k + k)))).
      replace (S (S (k + k))) with (S k + S k)%nat by lia.
      destruct (Z.eqb_spec (to_int (N.gcd (if it (S k + S k) <? it (S k) then it (S k) - it (S k + S k) else it (S k + S k) - it (S k)) n)) 1) as [T|T];
        [|eauto].
      destruct (Nat.eq_dec (S k) m) as [<-|NE]; [|apply (IH (S k) m); lia || auto].
      exfalso. apply to_int_n in T. rewrite <- M, N.ltb_irrefl, N.sub_diag, N.gcd_0_l in T. contradiction.
    Qed.
  End Floyd.
  Lemma rho_mono n c : forall k' d k x xx, (k <= k')%nat -> rho k n c x xx = Some d -> rho k' n c x xx = Some d.
  Proof.
    induction k' as [|k' IH]; intros d [|k] x xx L; cbn [rho_loop]; try discriminate; [lia|].
    destruct (Z.eqb _ 1); [apply IH; lia|auto].
  Qed.
  Lemma pollard_terminates n : (forall d, to_int d = 1%Z -> d = 1) -> 1 < n -> exists d, pollard (N.to_nat n) n = Some d.
  Proof.
    intros TI N1. unfold pollard_rho. destruct (N.eqb_spec (n mod 2) 0); [eauto|].
    destruct (meet n (rng0 mod n) (rng1 mod n) ltac:(lia)) as (k & K & M).
    destruct (rho_terminates n (rng0 mod n) (rng1 mod n) ltac:(lia) TI ltac:(lia) ltac:(apply N.mod_lt; lia) k 0%nat k eq_refl M ltac:(lia)) as (d & D).
    exists d. apply (rho_mono n _ _ d k); [lia|exact D].
  Qed.

  Variable is_prime : N -> bool.
  Hypothesis ip : forall n, is_prime n = true <-> is_prime_number n.
  Local Notation factorize := (prime_factorize rng0 rng1 nn to_int is_prime).
  Lemma factorize_sound fuel : forall n S S', n <> 0 -> increasing S -> factorize fuel n S = Some S' ->
    increasing S' /\ forall x, In x S' <-> In x S \/ (is_prime_number x /\ (x | n)).
  Proof.
    induction fuel as [|fuel IH]; intros n S S' N0 I; cbn [prime_factorize]; [discriminate|].
    rewrite (proj2 (N.eqb_neq n 0) N0). cbn [orb]. destruct (N.eqb_spec n 1) as [->|N1].
    { intros E. injection E as <-. split; [exact I|]. intros x. split; [tauto|]. intros [|[P D]]; [assumption|].
      exfalso. assert (2 <= Z.of_N x)%Z by (apply prime_ge_2, P). apply N.divide_1_r in D. lia. }
    destruct (is_prime n) eqn:IP.
    { apply ip in IP. intros E. injection E as <-. split; [apply insert_inc, I|]. intros x. rewrite insert_in. split.
      - intros [->|]; [right; split; [exact IP|apply N.divide_refl]|tauto].
      - intros [|[P D]]; [tauto|]. left. apply N_divide_Z in D. assert (E := prime_div_prime _ _ P IP D). lia. }
    destruct (pollard (Datatypes.S fuel) n) as [d|] eqn:PO; [|discriminate]. apply pollard_divides in PO. destruct PO as [D _].
    destruct (N.eqb_spec d 0) as [->|D0]; [discriminate|].
    destruct (factorize fuel d S) as [S1|] eqn:E1; [|discriminate]. intros E2.
    assert (EN : n = d * (n / d)). { destruct D as [q ->]. rewrite N.div_mul by exact D0. lia. }
    apply IH in E1; auto. destruct E1 as [I1 M1]. apply IH in E2; auto; [|intros Q; rewrite Q in EN; lia]. destruct E2 as [I2 M2].
    split; [exact I2|]. intros x. rewrite M2, M1. split.
    - intros [[|[P X]]|[P X]]; [tauto|..]; right; (split; [exact P|]); rewrite EN; [apply N.divide_mul_l, X|apply N.divide_mul_r, X].
    - intros [|[P X]]; [tauto|]. rewrite EN in X. apply prime_mul_div in X; [|exact P]. tauto.
  Qed.
  Lemma factorize_ok fuel n l : n <> 0 -> factorize fuel n [] = Some l -> is_prime_divisors n l.
  Proof. intros N0 E. apply factorize_sound in E; [|exact N0|exact I]. destruct E as [A B]. split; [exact A|]. intros x. rewrite B. cbn. tauto. Qed.
End Factor.

(** prime_factorize cannot make progress when pollard_rho returns n itself *)
Lemma factorize_stuck rng0 rng1 nn to_int is_prime n : n <> 0 -> n <> 1 -> is_prime n = false ->
  (forall fuel, match pollard_rho rng0 rng1 nn to_int fuel n with Some d => d = n | None => True end) ->
  forall fuel l, prime_factorize rng0 rng1 nn to_int is_prime fuel n l = None.
Proof.
  intros N0 N1 IP H. induction fuel as [|fuel IH]; intros l; [reflexivity|]. cbn [prime_factorize].
  rewrite (proj2 (N.eqb_neq n 0) N0), (proj2 (N.eqb_neq n 1) N1), IP. cbn [orb]. specialize (H (S fuel)).
  destruct (pollard_rho rng0 rng1 nn to_int (S fuel) n) as [d|]; [|reflexivity]. subst d.
  rewrite (proj2 (N.eqb_neq n 0) N0), IH. reflexivity.
Qed.

Section Search.
  Variable is_prime : Z -> bool.
  Hypothesis ip : forall n, is_prime n = true <-> prime n.
  Local Open Scope Z_scope.
  Lemma first_loop_ok m : 0 < m -> forall fuel q p, first_prime_loop is_prime fuel m q = Some p ->
    prime p /\ q <= p /\ (m | p - q) /\ forall p', prime p' -> q <= p' < p -> ~ (m | p' - q).
  Proof.
    intros M. induction fuel as [|k IH]; intros q p; cbn [first_prime_loop]; [discriminate|].
    destruct (is_prime q) eqn:E; [intros H; injection H as <-; apply ip in E|].
    - split; [exact E|]. split; [lia|]. split; [exists 0; lia|]. intros p' _ B. lia.
    - intros H. apply IH in H. destruct H as (P & L & [c D] & H). split; [exact P|]. split; [lia|].
      split; [exists (c + 1); lia|]. intros p' P' B [c' D']. destruct (Z.eq_dec p' q) as [->|NE].
      + apply ip in P'. congruence.
      + apply (H p' P'); [|exists (c' - 1); lia]. split; [|lia]. assert (0 < c') by nia. nia.
  Qed.
  Lemma first_prime_ok fuel nBits m p : 0 <= nBits -> 0 < m -> first_prime is_prime fuel nBits m = Some p ->
    prime p /\ 2 ^ nBits < p /\ (m | p - 1) /\ forall p', prime p' -> 2 ^ nBits < p' < p -> ~ (m | p' - 1).
  Proof.
    intros B M. unfold first_prime. rewrite (proj2 (Z.eqb_neq m 0)) by lia. rewrite Z.shiftl_1_l. set (Q := 2 ^ nBits).
    assert (R := Z.mod_pos_bound Q m M). assert (DM := Z.div_mod Q m ltac:(lia)).
    destruct (Z.ltb_spec 0 (Q mod m)) as [RP|RP]; intros H; apply (first_loop_ok m M) in H; destruct H as (P & L & [c D] & H).
    - split; [exact P|]. split; [lia|]. split; [exists (c + Q / m + 1); nia|]. intros p' P' BB [c' D'].
      apply (H p' P'); [|exists (c' - Q / m - 1); nia].
      split; [|lia]. assert (Q / m < c') by nia. nia.
    - assert (Q mod m = 0) as Z0 by lia. split; [exact P|]. split; [lia|]. split; [exists (c + Q / m); nia|]. intros p' P' BB [c' D'].
      apply (H p' P'); [lia|exists (c' - Q / m); nia].
  Qed.
  Lemma next_loop_ok m q : 0 < m -> forall fuel x p, next_prime_loop is_prime fuel q m x = Some p ->
    prime p /\ x <= p /\ (m | p - x) /\ forall p', prime p' -> x <= p' < p -> ~ (m | p' - x).
  Proof.
    intros M. induction fuel as [|k IH]; intros x p; cbn [next_prime_loop]; [discriminate|].
    destruct (is_prime x) eqn:E; [intros H; injection H as <-; apply ip in E|].
    - split; [exact E|]. split; [lia|]. split; [exists 0; lia|]. intros p' _ B. lia.
    - destruct (Z.leb_spec q (x + m)); [|discriminate].
      intros H'. apply IH in H'. destruct H' as (P & L & [c D] & H'). split; [exact P|]. split; [lia|].
      split; [exists (c + 1); lia|]. intros p' P' B [c' D']. destruct (Z.eq_dec p' x) as [->|NE].
      + apply ip in P'. congruence.
      + apply (H' p' P'); [|exists (c' - 1); lia]. split; [|lia]. assert (0 < c') by nia. nia.
  Qed.
  Lemma next_prime_ok fuel q m p : 0 < m -> next_prime is_prime fuel q m = Some p ->
    prime p /\ q < p /\ (m | p - q) /\ forall p', prime p' -> q < p' < p -> ~ (m | p' - q).
  Proof.
    intros M H. apply (next_loop_ok m q M) in H. destruct H as (P & L & [c D] & H). split; [exact P|]. split; [lia|].
    split; [exists (c + 1); lia|]. intros p' P' B [c' D']. apply (H p' P'); [|exists (c' - 1); lia].
    split; [|lia]. assert (0 < c') by nia. nia.
  Qed.
  Lemma prev_loop_ok m q : 0 < m -> forall fuel x p, previous_prime_loop is_prime fuel q m x = Some p ->
    prime p /\ p <= x /\ (m | x - p) /\ forall p', prime p' -> p < p' <= x -> ~ (m | x - p').
  Proof.
    intros M. induction fuel as [|k IH]; intros x p; cbn [previous_prime_loop]; [discriminate|].
    destruct (is_prime x) eqn:E; [intros H; injection H as <-; apply ip in E|].
    - split; [exact E|]. split; [lia|]. split; [exists 0; lia|]. intros p' _ B. lia.
    - destruct (Z.leb_spec (x - m) q); [|discriminate].
      intros H'. apply IH in H'. destruct H' as (P & L & [c D] & H'). split; [exact P|]. split; [lia|].
      split; [exists (c + 1); lia|]. intros p' P' B [c' D']. destruct (Z.eq_dec p' x) as [->|NE].
      + apply ip in P'. congruence.
      + apply (H' p' P'); [|exists (c' - 1); lia]. split; [lia|]. assert (0 < c') by nia. nia.
  Qed.
  Lemma previous_prime_ok fuel q m p : 0 < m -> previous_prime is_prime fuel q m = Some p ->
    prime p /\ p < q /\ (m | q - p) /\ forall p', prime p' -> p < p' < q -> ~ (m | q - p').
  Proof.
    intros M H. apply (prev_loop_ok m q M) in H. destruct H as (P & L & [c D] & H). split; [exact P|]. split; [lia|].
    split; [exists (c + 1); lia|]. intros p' P' B [c' D']. apply (H p' P'); [|exists (c' - 1); lia].
    split; [lia|]. assert (0 < c') by nia. nia.
  Qed.
End Search.
