(** Signed digit recoding used by cyclotomic_exp and by A/wnaf.hpp.

    [boost::multiprecision::find_wnaf] belongs to an external library; models
    that call it take the digit list as the result of a function parameter.
    This file gives the textbook algorithm (libff's find_wnaf, from which the
    library function descends) so that those parameters are known to have an
    instance meeting the contract; the contract itself is in Spec/Digits.v. *)
From Coq Require Import ZArith NArith List.
Import ListNotations.
Local Open Scope Z_scope.

(** One digit per step, least significant first:
    u = 0 if c even, else c mods 2^(w+1) in (-2^w, 2^w]; c := (c - u) / 2. *)
(** external: boost::multiprecision::find_wnaf, called at wnaf.hpp:39 *)
Fixpoint wnaf_digits (fuel : nat) (w c : Z) : list Z :=
  match fuel with
  | O => []
  | S f =>
      if c =? 0 then []
      else
        let u := if Z.odd c then
                   let m := c mod (2 ^ (w + 1)) in
                   if 2 ^ w <? m then m - 2 ^ (w + 1) else m
                 else 0 in
        u :: wnaf_digits f w ((c - u) / 2)
  end.

(** external: boost::multiprecision::find_wnaf, called at wnaf.hpp:39 *)
Definition find_wnaf_ref (w : nat) (e : N) : list Z :=
  wnaf_digits (N.to_nat (N.size e) + 2) (Z.of_nat w) (Z.of_N e).
