(** A/primes.hpp and A/totient.hpp.  IntegerType is modelled by unbounded integers
    (cpp_int); [miller_rabin_test] is external: an oracle [is_prime]. *)
From Coq Require Import ZArith NArith List Bool.
Import ListNotations.
Local Open Scope N_scope.

Section Factor.
  (** The two values taken from the generator (54, 56).  The generator is a local,
      default-seeded object, so they are the same in every call *)
  Variables rng0 rng1 : N.
  (** The value of [nn(n, n)] (56) once it is a modular number, and
      [static_cast<int>] of a modular number (62); both external *)
  Variable nn : N -> N.
  Variable to_int : N -> Z.

  (** primes.hpp:57-63 *)
  Fixpoint rho_loop (fuel : nat) (n c x xx : N) : option N :=
    match fuel with
    | O => None
    | S fuel' =>
        let x := (x * x + c) mod n in
        let xx := (xx * xx + c) mod n in
        let xx := (xx * xx + c) mod n in
        let divisor := N.gcd (if xx <? x then x - xx else xx - x) (nn n) in
        if Z.eqb (to_int divisor) 1 then rho_loop fuel' n c x xx else Some divisor
    end.
  (** primes.hpp:44-64 *)
  Definition pollard_rho (fuel : nat) (n : N) : option N :=
    if n mod 2 =? 0 then Some 2
    else let c := rng0 mod n in
         let x := rng1 mod n in
         rho_loop fuel n c x x.

  (** std::set<IntegerType>: increasing lists *)
  (** external; std::set::insert, called at A/primes.hpp:76 *)
  Fixpoint set_insert (x : N) (s : list N) : list N :=
    match s with
    | [] => [x]
    | y :: s' => if x <? y then x :: s else if x =? y then s else y :: set_insert x s'
    end.

  Variable is_prime : N -> bool.
  (** primes.hpp:71-84.  Division by zero is undefined: None *)
  Fixpoint prime_factorize (fuel : nat) (n : N) (prime_factors : list N) : option (list N) :=
    match fuel with
    | O => None
    | S fuel' =>
        if (n =? 0) || (n =? 1) then Some prime_factors
        else if is_prime n then Some (set_insert n prime_factors)
        else match pollard_rho fuel n with
             | None => None
             | Some divisor =>
                 if divisor =? 0 then None
                 else let n_div := n / divisor in
                      match prime_factorize fuel' divisor prime_factors with
                      | None => None
                      | Some prime_factors => prime_factorize fuel' n_div prime_factors
                      end
             end
    end.

  (** totient.hpp:40-55 *)
  Definition totient (fuel : nat) (n : N) : option N :=
    match prime_factorize fuel n [] with
    | None => None
    | Some factors =>
        let '(numerator, primeProd) :=
          fold_left (fun st r => let '(numerator, primeProd) := st in (numerator * (r - 1), primeProd * r))
            factors (1, 1) in
        Some ((n / primeProd) * numerator)
    end.
End Factor.

(** totient.hpp:63-74: i = 1, 2, .. while i < n *)
Definition totient_list (n : N) : list N :=
  filter (fun i => N.gcd i n =? 1) (map N.of_nat (seq 1 (pred (N.to_nat n)))).

Section Search.
  Variable is_prime : Z -> bool.
  Local Open Scope Z_scope.
  (** primes.hpp:86-100.  [qNew % mi] with mi = 0 is undefined: None.  The overflow
      assertions (94, 97) cannot fire with unbounded integers *)
  Fixpoint first_prime_loop (fuel : nat) (mi qNew2 : Z) : option Z :=
    match fuel with
    | O => None
    | S fuel' => let qNew := qNew2 in
                 if is_prime qNew then Some qNew else first_prime_loop fuel' mi (qNew + mi)
    end.
  (** primes.hpp:86-100.  [qNew % mi] with mi = 0 is undefined: None.  The overflow assertions (94, 97) cannot fire with unbounded integers *)
  Definition first_prime (fuel : nat) (nBits m : Z) : option Z :=
    if m =? 0 then None
    else let qNew := Z.shiftl 1 nBits in
         let r := qNew mod m in
         let qNew2 := qNew + 1 in
         let qNew2 := if 0 <? r then qNew2 + (m - r) else qNew2 in
         first_prime_loop fuel m qNew2.
  (** primes.hpp:102-109.  A failing BOOST_VERIFY (106) is None; it cannot fail here
      for m >= 0 *)
  Fixpoint next_prime_loop (fuel : nat) (q M qNew : Z) : option Z :=
    match fuel with
    | O => None
    | S fuel' => if is_prime qNew then Some qNew
                 else let qNew := qNew + M in
                      if q <=? qNew then next_prime_loop fuel' q M qNew else None
    end.
  (** primes.hpp:102-109.  A failing BOOST_VERIFY (106) is None; it cannot fail here for m >= 0 *)
  Definition next_prime (fuel : nat) (q m : Z) : option Z := next_prime_loop fuel q m (q + m).
  (** primes.hpp:111-118, signed integers *)
  Fixpoint previous_prime_loop (fuel : nat) (q M qNew : Z) : option Z :=
    match fuel with
    | O => None
    | S fuel' => if is_prime qNew then Some qNew
                 else let qNew := qNew - M in
                      if qNew <=? q then previous_prime_loop fuel' q M qNew else None
    end.
  (** primes.hpp:111-118, signed integers *)
  Definition previous_prime (fuel : nat) (q m : Z) : option Z := previous_prime_loop fuel q m (q - m).
End Search.
