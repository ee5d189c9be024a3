(** n / prod p * prod (p-1) over the prime divisors p of n is Euler's function (by
    mathcomp's totientE). *)
Set Warnings "-notation-overridden,-ambiguous-paths".
From Coq Require Import ZArith NArith List Lia Znumtheory.
From Verif Require Import Spec.Arith Model.NumberTheory Proof.NumberTheory.
From mathcomp Require Import all_ssreflect zify.

Lemma div_iff (a b : nat) : reflect (Nat.divide a b) (a %| b).
Proof. apply: (iffP (@dvdnP a b)) => - [c C]; exists c; lia. Qed.
Lemma prime_iff (p : nat) : prime.prime p <-> Znumtheory.prime (Z.of_nat p).
Proof.
  split.
  - move=> P. apply prime_alt. have P1 := prime_gt1 P. split; first lia.
    move=> n Hn [c C]. have D : Z.to_nat n %| p. { apply/dvdnP. exists (Z.to_nat c). nia. }
    move/primeP: P => [_ P]. move/orP: (P _ D) => [/eqP E|/eqP E]; lia.
  - move=> P. have P1 := prime_ge_2 _ P. apply/primeP. split; first lia.
    move=> d /dvdnP [c C]. have D : (Z.of_nat d | Z.of_nat p)%Z by exists (Z.of_nat c); lia.
    apply/orP. destruct (prime_divisors _ P _ D) as [E|[E|[E|E]]];
      [exfalso; lia|left; apply/eqP; lia|right; apply/eqP; lia|exfalso; lia].
Qed.

Lemma gcd_coprime m n : (N.gcd (N.of_nat m) (N.of_nat n) =? 1)%num = coprime n m.
Proof.
  have E : N.gcd (N.of_nat m) (N.of_nat n) = N.of_nat (gcdn n m).
  { apply N.gcd_unique; first exact: N.le_0_l.
    - have /dvdnP [c C] := dvdn_gcdr n m. exists (N.of_nat c). move: (gcdn n m) C => g C. nia.
    - have /dvdnP [c C] := dvdn_gcdl n m. exists (N.of_nat c). move: (gcdn n m) C => g C. nia.
    - move=> q [c C] [d D]. have [c' [d' [G1 G2]]] : exists c d, m = (c * N.to_nat q)%N /\ n = (d * N.to_nat q)%N by exists (N.to_nat c), (N.to_nat d); lia.
      have /dvdnP [e E] : N.to_nat q %| gcdn n m. { rewrite dvdn_gcd. apply/andP. split; apply/dvdnP; [exists d'|exists c']; lia. }
      exists (N.of_nat e). move: (gcdn n m) E => g E. nia. }
  rewrite E /coprime. apply/idP/idP; first by move/N.eqb_eq => H; apply/eqP; lia.
  move/eqP => ->. by [].
Qed.
Lemma filter_count (f : nat -> bool) l : length (List.filter f l) = count f l.
Proof. elim: l => //= a l IH. case: (f a) => /=; lia. Qed.
Lemma count_sum (f : nat -> bool) n s : count f (List.seq s n) = \sum_(s <= k < s + n) f k.
Proof.
  elim: n s => [|n IH] s; first by rewrite addn0 big_geq.
  rewrite /= IH. rewrite [in RHS]big_ltn; last lia. by rewrite addSnnS.
Qed.
Lemma phi_totient n : (0 < n)%N -> euler_phi (N.of_nat n) = N.of_nat (totient n).
Proof.
  move=> n0. rewrite /euler_phi /up_to. rewrite Nnat.Nat2N.id. f_equal.
  have -> : forall l, length (List.filter (fun m => N.gcd m (N.of_nat n) =? 1)%num (List.map N.of_nat l)) = count (fun m => coprime n m) l.
  { elim=> //= a l IH. rewrite gcd_coprime. case: coprime => /=; rewrite ?IH; lia. }
  rewrite (count_sum _ n 1) totient_count_coprime.
  rewrite add1n big_nat_recr //= [in RHS]big_ltn //.
  have -> : coprime n n = coprime n 0 by rewrite /coprime gcdn0 gcdnn.
  by rewrite addnC.
Qed.

(** the loop of totient *)
Lemma fold_prod l a b :
  List.fold_left (fun st r => let '(num, pp) := st in (num * (r - 1), pp * r)%num) (List.map N.of_nat l) (N.of_nat a, N.of_nat b)
  = (N.of_nat (a * \prod_(p <- l) p.-1), N.of_nat (b * \prod_(p <- l) p)).
Proof.
  elim: l a b => [|x l IH] a b /=; first by rewrite !big_nil !muln1.
  rewrite !big_cons !mulnA -IH. f_equal. f_equal; lia.
Qed.
Lemma totient_formula n : (0 < n)%N ->
  (n %/ (\prod_(p <- primes n) p) * \prod_(p <- primes n) p.-1)%N = totient n.
Proof.
  move=> n0. rewrite totientE // big_split /= [in RHS]mulnC. congr (_ * _)%N.
  rewrite {1}(prod_prime_decomp n0) prime_decompE big_map /=.
  have -> : (\prod_(p <- primes n) p ^ logn p n = (\prod_(p <- primes n) p ^ (logn p n).-1) * (\prod_(p <- primes n) p))%N.
  { rewrite -big_split /=. rewrite !big_seq. apply: eq_bigr => p Hp.
    rewrite mulnC -expnS prednK // logn_gt0 //. }
  rewrite mulnK // big_seq. apply: (big_ind (fun x => 0 < x)%N) => // [x y|p].
  - by rewrite muln_gt0 => -> ->.
  - by rewrite mem_primes => /andP [/prime_gt0].
Qed.
Lemma primes_divisors n : (0 < n)%N -> is_prime_divisors (N.of_nat n) (List.map N.of_nat (primes n)).
Proof.
  move=> n0. split.
  - have := sorted_primes n. elim: (primes n) => //= a [|b l] IH //= /andP [ab S]. split; [lia|exact: IH].
  - move=> x. rewrite List.in_map_iff. split.
    + move=> [p [<- I]]. have : p \in primes n by elim: (primes n) I => //= c l IH [->|I]; rewrite in_cons ?eqxx // IH // orbT.
      rewrite mem_primes => /and3P [P _ D]. split; first by rewrite /is_prime_number nat_N_Z; apply prime_iff.
      move/dvdnP: D => [c C]. exists (N.of_nat c). lia.
    + move=> [P [c C]]. exists (N.to_nat x). split; first lia.
      have : N.to_nat x \in primes n.
      { rewrite mem_primes n0. apply/and3P. split=> //; first by (apply prime_iff; rewrite N_nat_Z).
        apply/dvdnP. exists (N.to_nat c). lia. }
      elim: (primes n) => //= d l IH. rewrite in_cons => /orP [/eqP ->|]; [by left|by right; apply: IH].
Qed.
Lemma totient_divisors n l : (n <> 0)%num -> is_prime_divisors n l ->
  (let '(numerator, primeProd) :=
     List.fold_left (fun st r => let '(num, pp) := st in (num * (r - 1), pp * r)%num) l (1, 1)%num in
   (n / primeProd) * numerator)%num = euler_phi n.
Proof.
  move=> n0 H. have [m [m0 E]] : exists m, (0 < m)%N /\ n = N.of_nat m by exists (N.to_nat n); lia. subst n.
  rewrite (prime_divisors_unique _ _ _ H (primes_divisors m m0)).
  rewrite (fold_prod _ 1 1) !mul1n phi_totient // -totient_formula //.
  set a := \prod_(p <- primes m) p. set b := \prod_(p <- primes m) p.-1.
  have a0 : (0 < a)%N. { rewrite /a big_seq. apply: (big_ind (fun x => 0 < x)%N) => // [x y|p].
    - by rewrite muln_gt0 => -> ->.
    - by rewrite mem_primes => /andP [/prime_gt0]. }
  have -> : (N.of_nat m / N.of_nat a)%num = N.of_nat (m %/ a).
  { symmetry. apply N.div_unique with (N.of_nat (m %% a)); first by have := ltn_pmod m a0; lia.
    rewrite {1}(divn_eq m a). lia. }
  lia.
Qed.
