(** Elementary number theory used in statements. *)
From Coq Require Import ZArith NArith List Znumtheory.
Import ListNotations.
Local Open Scope N_scope.

Definition is_prime_number (n : N) : Prop := prime (Z.of_N n).
(** 1, .., n *)
Definition up_to (n : N) : list N := map N.of_nat (seq 1 (N.to_nat n)).
(** Euler's function: how many of 1, .., n are coprime to n *)
Definition euler_phi (n : N) : N := N.of_nat (length (filter (fun m => N.gcd m n =? 1) (up_to n))).
(** strictly increasing *)
Fixpoint increasing (l : list N) : Prop :=
  match l with
  | x :: ((y :: _) as l') => x < y /\ increasing l'
  | _ => True
  end.
(** l enumerates, in increasing order, the primes dividing n *)
Definition is_prime_divisors (n : N) (l : list N) : Prop :=
  increasing l /\ forall x, In x l <-> is_prime_number x /\ (x | n).
