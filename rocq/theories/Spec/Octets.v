(** Octet strings as numbers, and the canonical encodings of
    draft-irtf-cfrg-pairing-friendly-curves-09, appendix C (bls12-381). *)
From Coq Require Import NArith List.
Import ListNotations.
Local Open Scope N_scope.

(** OS2IP: most significant octet first *)
Definition be_value (o : list N) : N := fold_left (fun acc b => 256 * acc + b) o 0.
Definition octets (o : list N) : Prop := Forall (fun b => b < 256) o.
(** the k-th group of 48 octets *)
Definition piece (k : nat) (o : list N) : N := be_value (firstn 48 (skipn (48 * k) o)).
(** bit i of the first octet *)
Definition flag (i : N) (o : list N) : bool := match o with [] => false | b :: _ => N.testbit b i end.
(** After the three flag bits (7: compressed, 6: infinity, 5: sign): zero if
    the infinity bit is set, n field elements below p otherwise. *)
Definition canonical (p : N) (n : nat) (o : list N) : Prop :=
  if flag 6 o then be_value o mod 2 ^ (384 * N.of_nat n - 3) = 0
  else piece 0 o mod 2 ^ 381 < p /\ forall k, (0 < k < n)%nat -> piece k o < p.
