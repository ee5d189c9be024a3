(** A mathcomp field seen through the interface the models use, and a matrix
    (list of rows) seen as a mathcomp matrix. *)
Set Warnings "-notation-overridden,-ambiguous-paths".
From mathcomp Require Import all_ssreflect all_algebra.
From Verif Require Import Base.Field Spec.LinAlg.
Set Implicit Arguments. Unset Strict Implicit. Unset Printing Implicit Defensive.
Import GRing.Theory.
Local Open Scope ring_scope.

Definition mc_ops (F : fieldType) : FieldOps :=
  mkFieldOps F 0 1 +%R *%R (fun a b => a - b) -%R GRing.inv (fun a b => a == b).

Definition to_mx (F : fieldType) (M N : nat) (m : list (list F)) : 'M[F]_(M, N) :=
  \matrix_(i < M, j < N) @coef (mc_ops F) m i j.

(** reduced row-echelon form with [r] pivots, row k having its pivot in column [c k] *)
Definition is_rref (F : fieldType) (M N : nat) (R : 'M[F]_(M, N)) (r : nat) : Prop :=
  exists c : nat -> nat,
    [/\ (r <= M)%N,
        (forall k : 'I_M, (k < r)%N -> (c k < N)%N),
        (forall k k' : 'I_M, (k < k')%N -> (k' < r)%N -> (c k < c k')%N),
        (forall (k a : 'I_M) (b : 'I_N), (k < r)%N -> b = c k :> nat -> R a b = (a == k)%:R) &
        (forall (k : 'I_M) (b : 'I_N), (k < r)%N -> (b < c k)%N -> R k b = 0) /\
        (forall (k : 'I_M) (b : 'I_N), (r <= k)%N -> R k b = 0)].
