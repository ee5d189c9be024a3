(** Multiplicative order of an element of a ring. *)
From Coq Require Import NArith.
From Verif Require Import Base.Field.
Local Open Scope fld_scope.

(** x has order m: the powers of x equal to 1 are those with exponent a multiple of m *)
Definition has_order {K : FieldOps} (x : K) (m : N) : Prop :=
  forall n, fpow x n = 1 <-> N.divide m n.
(** the powers of x repeat with period m and not earlier *)
Definition powers_period {K : FieldOps} (x : K) (m : N) : Prop :=
  forall i j, fpow x i = fpow x j <-> (i mod m = j mod m)%N.
(** every nonzero element is a power of x *)
Definition generates {K : FieldOps} (x : K) : Prop := forall y : K, y <> 0 -> exists i, fpow x i = y.
