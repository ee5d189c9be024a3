(** A class of group element representations: its operations and what it means
    for them to implement a commutative group. *)
From Coq Require Import NArith ZArith List.
From Verif Require Import Spec.Group.
Import ListNotations.

(** zero(), the default constructor, +, +=, -, double_inplace, scalar * point *)
Record class_ops (T : Type) := mkOps {
  c_zero : T; c_dflt : T;
  c_add : T -> T -> T; c_add_assign : T -> T -> T; c_sub : T -> T -> T;
  c_dbl : T -> T; c_smul : N -> T -> T
}.
Arguments c_zero {T}. Arguments c_dflt {T}. Arguments c_add {T}. Arguments c_add_assign {T}.
Arguments c_sub {T}. Arguments c_dbl {T}. Arguments c_smul {T}.

(** [rep t x]: the object t stands for x.  scalar * point is required to be right
    for the scalars in [okn]. *)
Record implements (G : AbGroup) {T : Type} (o : class_ops T) (rep : T -> G -> Prop) (okn : N -> Prop) : Prop := {
  i_in : forall t x, rep t x -> gin x;
  i_zero : rep (c_zero o) g0;
  i_dflt : rep (c_dflt o) g0;
  i_add : forall s t x y, rep s x -> rep t y -> rep (c_add o s t) (gadd x y);
  i_add_assign : forall s t x y, rep s x -> rep t y -> rep (c_add_assign o s t) (gadd x y);
  i_sub : forall s t x y, rep s x -> rep t y -> rep (c_sub o s t) (gadd x (gneg y));
  i_dbl : forall s x, rep s x -> rep (c_dbl o s) (gadd x x);
  i_smul : forall s x n, okn n -> rep s x -> rep (c_smul o n s) (gmul n x);
  i_okn : forall m n, okn n -> (m <= n)%N -> okn m
}.

(** sum_i n_i x_i *)
Fixpoint msum {G : AbGroup} (ns : list N) (xs : list G) : G :=
  match ns, xs with n :: ns', x :: xs' => gadd (gmul n x) (msum ns' xs') | _, _ => g0 end.
