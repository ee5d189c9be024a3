(** A/random_element.hpp.  The distribution object and the generator are external;
    a call [d(rng)] is a value between the two (inclusive) bounds given to the
    distribution, and the functions below map the draws to the returned element. *)
From Coq Require Import ZArith NArith List.
From Verif Require Import Base.Field Base.Zp.
Import ListNotations.
Local Open Scope Z_scope.

(** [uniform_int_distribution d(0, field_type::modulus)] (63): its possible values,
    0 .. modulus, both included *)
(** random_element.hpp:63 *)
Definition draws (modulus : Z) : list Z := map Z.of_nat (seq 0 (S (Z.to_nat modulus))).

(** 51-71: [value(d(rng))] *)
Definition random_prime_field (p d : Z) : zp p := tozp p d.

(** 73-95: component n is drawn n-th; over a tower the recursive calls draw the
    prime-field coefficients from left to right, so an element is given by its list
    of coefficients, one draw each *)
Definition random_extension (p : Z) (ds : list Z) : list (zp p) := map (random_prime_field p) ds.
(** the possible sequences of draws *)
(** random_element.hpp:73-95 *)
Fixpoint draw_lists (p : Z) (arity : nat) : list (list Z) :=
  match arity with
  | O => [[]]
  | S k => flat_map (fun d => map (cons d) (draw_lists p k)) (draws p)
  end.

(** 97-112: [random_element<scalar_field_type>() * one()], with the class's operator* *)
Definition random_group {T : Type} (smul : N -> T -> T) (one : T) (r d : Z) : T :=
  smul (Z.to_N (zval (random_prime_field r d))) one.
