(** A/fields/detail/exponentiation.hpp: [power]. *)
From Coq Require Import NArith List.
From Verif Require Import Base.Field.

(** Iteration [for (i = n-1; i >= 0; --i) st = f(i, st)]. *)
(** auxiliary: the loop of exponentiation.hpp:49-59 and the downward loops elsewhere *)
Fixpoint for_down {S : Type} (n : nat) (f : nat -> S -> S) (st : S) : S :=
  match n with
  | O => st
  | Datatypes.S m => for_down m f (f m st)
  end.

(** Iteration [for (i = 0; i < n; ++i) st = f(i, st)], starting at [i0]. *)
(** auxiliary: upward loops, as in multiexp/policies.hpp:130-201 and multiexp.hpp:144-171 *)
Fixpoint for_up {S : Type} (i0 n : nat) (f : nat -> S -> S) (st : S) : S :=
  match n with
  | O => st
  | Datatypes.S m => for_up (Datatypes.S i0) m f (f i0 st)
  end.

(** Number of loop iterations of [for (i = msb(e); i >= 0; --i)]. *)
(** exponentiation.hpp:49 *)
Definition nbits (e : N) : nat := N.to_nat (N.size e).

Section Power.
  (** The element class: only [one], [operator*] and [squared] are used. *)
  Variable T : Type.
  Variable one : T.
  Variable mul : T -> T -> T.
  Variable sqr : T -> T.

  (** exponentiation.hpp:40-62.
      40 template<FieldValueType, NumberType> power(base, exponent) {
         result = one(); if (exponent == 0) return result;
         bool found_one = false;
         for (i = msb(exponent); i >= 0; --i) {
           if (found_one) result = result.squared();
           if (bit_test(exponent, i)) { found_one = true; result = result * base; } }
         return result; } *)
  Definition power (base : T) (e : N) : T :=
    if N.eqb e 0 then one
    else snd (for_down (nbits e)
           (fun i '(found_one, result) =>
              let result := if found_one : bool then sqr result else result in
              if N.testbit e (N.of_nat i) then (true, mul result base)
              else (found_one, result))
           (false, one)).
End Power.
Arguments power {T} one mul sqr base e.
