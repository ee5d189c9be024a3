(** Matrices as lists of rows: shapes, entries and the textbook meaning of the
    matrix operations, entry by entry. *)
From Coq Require Import List Arith.
From Verif Require Import Base.Field.
Import ListNotations.

Definition shape {A : Type} (M N : nat) (m : list (list A)) : Prop :=
  length m = M /\ forall i r, nth_error m i = Some r -> length r = N.

(** the entry in row [i], column [j]; [None] outside the matrix *)
Definition entry {A : Type} (m : list (list A)) (i j : nat) : option A :=
  match nth_error m i with Some r => nth_error r j | None => None end.

(** [m] is the M x N matrix with entries [f i j] *)
Definition matrix_of {A : Type} (M N : nat) (f : nat -> nat -> option A) (m : list (list A)) : Prop :=
  shape M N m /\ forall i j, i < M -> j < N -> entry m i j = f i j /\ f i j <> None.

(** sum_{k < n} f k *)
Fixpoint bigsum {F : FieldOps} (n : nat) (f : nat -> F) : F :=
  match n with O => f0 | S n' => fadd (bigsum n' f) (f n') end.

(** the entries of [m] as a total function, given a shape (zero elsewhere) *)
Definition coef {F : FieldOps} (m : list (list F)) (i j : nat) : F :=
  match entry m i j with Some x => x | None => f0 end.
Definition vcoef {F : FieldOps} (v : list F) (i : nat) : F :=
  match nth_error v i with Some x => x | None => f0 end.
