(* Transcription of algebra/vector/{utility,math,operators}.hpp and of the
   access functions of algebra/vector/vector.hpp.

   vector<T, N> is a list of length N (the class asserts N <> 0 statically,
   vector/vector.hpp:51).  Reading past the end of the plain array member
   (vector.hpp:66-73, no check) is undefined behaviour: outcome [None]. *)
From Coq Require Import List ZArith Arith Bool.
From Verif Require Import Base.Field.
Import ListNotations.
Local Open Scope Z_scope.

(* [for (i = 0; i < n; ++i) out[i] = f(i)]: the loop shape shared by all the
   functions below; any undefined read makes the whole result undefined. *)
(* auxiliary: the loops of A/vector/utility.hpp and A/vector/math.hpp cited below *)
Fixpoint build_from {A} (i n : nat) (f : nat -> option A) : option (list A) :=
  match n with
  | O => Some []
  | S n' => match f i with
            | None => None
            | Some a => match build_from (S i) n' f with
                        | None => None
                        | Some l => Some (a :: l)
                        end
            end
  end.
(* auxiliary: the same loop from 0, as in A/vector/utility.hpp:50-58 *)
Definition build {A} (n : nat) (f : nat -> option A) : option (list A) := build_from 0 n f.

(* A/vector/vector.hpp:66-73 operator[] *)
Definition vget {A} (v : list A) (i : nat) : option A := nth_error v i.

(* A/vector/utility.hpp:50-58 elementwise, with one and with two vectors (the
   C++ is variadic; N is the common static size). *)
Definition elementwise1 {A B} (f : A -> B) (v : list A) : option (list B) :=
  build (length v) (fun i => match vget v i with Some a => Some (f a) | None => None end).
(* A/vector/utility.hpp:50-58 elementwise *)
Definition elementwise2 {A B C} (f : A -> B -> C) (v : list A) (w : list B) : option (list C) :=
  build (length v) (fun i => match vget v i, vget w i with
                             | Some a, Some b => Some (f a b)
                             | _, _ => None
                             end).

(* A/vector/utility.hpp:69-75 accumulate: r = f(r, v[i]) for i = 0 .. N-1 *)
Fixpoint accumulate_from {A U} (v : list A) (i n : nat) (r : U) (f : U -> A -> U) : option U :=
  match n with
  | O => Some r
  | S n' => match vget v i with
            | None => None
            | Some a => accumulate_from v (S i) n' (f r a) f
            end
  end.
(* A/vector/utility.hpp:69-75 *)
Definition accumulate {A U} (v : list A) (init : U) (f : U -> A -> U) : option U :=
  accumulate_from v 0 (length v) init f.

(* A/vector/utility.hpp:94-102 iota: x = value; value += 1 *)
Fixpoint iota_loop {A} (n : nat) (value : A) (succ : A -> A) : list A :=
  match n with
  | O => []
  | S n' => value :: iota_loop n' (succ value) succ
  end.
(* A/vector/utility.hpp:94-102 *)
Definition iota (F : FieldOps) (n : nat) (value : car F) : list (car F) :=
  iota_loop n value (fun v => @fadd F v (@f1 F)).
(* A/vector/utility.hpp:94-102 *)
Definition iota_size (n : nat) : list nat := iota_loop n 0%nat S.

(* A/vector/utility.hpp:122-128 fill *)
Definition fill {A} (n : nat) (value : A) : option (list A) := build n (fun _ => Some value).

(* A/vector/utility.hpp:136-139 generate: elementwise(f, iota<N, size_t>()) *)
Definition generate {A} (n : nat) (f : nat -> option A) : option (list A) :=
  build (length (iota_size n))
        (fun i => match vget (iota_size n) i with Some k => f k | None => None end).

(* A/vector/utility.hpp:111-114 linspace: ((max - min)/(N - 1)) * iota<N,T>() + min;
   N - 1 is converted to T. *)
Definition linspace (F : FieldOps) (n : nat) (min max : car F) : option (list (car F)) :=
  let step := @fmul F (@fsub F max min) (@finv F (@fofN F (N.of_nat (n - 1)))) in
  match elementwise1 (fun x => @fmul F step x) (iota F n (@f0 F)) with
  | Some l => elementwise1 (fun x => @fadd F x min) l
  | None => None
  end.

(* A/vector/utility.hpp:149-158 rotate.
   [n] is a 32-bit int; [n += N] converts both to 64-bit size_t and the sum back
   to int (two's complement); [i + n] is computed in size_t. *)
Definition to_size_t (z : Z) : Z := z mod 2 ^ 64.
(* A/vector/utility.hpp:149-158: conversion to int *)
Definition to_int (z : Z) : Z := let r := z mod 2 ^ 32 in if r <? 2 ^ 31 then r else r - 2 ^ 32.
(* A/vector/utility.hpp:149-158: n += N *)
Definition int_plus_size (n : Z) (N : nat) : Z := to_int (to_size_t (to_size_t n + Z.of_nat N)).
(* A/vector/utility.hpp:149-158: the adjustment of n *)
Fixpoint rotate_norm (fuel : nat) (n : Z) (N : nat) : option Z :=
  if n <? 0 then
    match fuel with
    | O => None                      (* out of fuel: the loop has not ended *)
    | S fuel' => rotate_norm fuel' (int_plus_size n N) N
    end
  else Some n.
(* A/vector/utility.hpp:149-158 *)
Definition rotate {A} (fuel : nat) (v : list A) (n : Z) : option (list A) :=
  match rotate_norm fuel n (length v) with
  | None => None
  | Some n' =>
    build (length v)
      (fun i => vget v (Z.to_nat (to_size_t (Z.of_nat i + to_size_t n') mod Z.of_nat (length v))))
  end.

(* A/vector/utility.hpp:169-177 slice<M>: no range check *)
Definition slice {A} (m : nat) (v : list A) (start : nat) : option (list A) :=
  build m (fun i => vget v (i + start)).

(* A/vector/utility.hpp:188-196 concat: two loops writing concatted[0..N-1] and
   concatted[N..N+M-1] *)
Definition concat {A} (a b : list A) : option (list A) :=
  match build (length a) (fun i => vget a i), build (length b) (fun i => vget b i) with
  | Some x, Some y => Some (x ++ y)
  | _, _ => None
  end.

(* A/vector/math.hpp:109-115 dot (r += a[i] * conj(b[i])) *)
Fixpoint dot_loop (F : FieldOps) (conj : car F -> car F) (a b : list (car F)) (i n : nat)
         (r : car F) : option (car F) :=
  match n with
  | O => Some r
  | S n' => match vget a i, vget b i with
            | Some x, Some y => dot_loop F conj a b (S i) n' (@fadd F r (@fmul F x (conj y)))
            | _, _ => None
            end
  end.
(* A/vector/math.hpp:109-115 *)
Definition dot (F : FieldOps) (conj : car F -> car F) (a b : list (car F)) : option (car F) :=
  dot_loop F conj a b 0 (length a) (@f0 F).

(* A/vector/math.hpp:123-126 sum *)
Definition vsum (F : FieldOps) (v : list (car F)) : option (car F) :=
  accumulate v (@f0 F) (@fadd F).

(* std::min / std::max of the C++ standard library *)
(* external; called at A/vector/math.hpp:134-137 *)
Definition std_min {A} (ltb : A -> A -> bool) (a b : A) : A := if ltb b a then b else a.
(* external; called at A/vector/math.hpp:145-148 *)
Definition std_max {A} (ltb : A -> A -> bool) (a b : A) : A := if ltb a b then b else a.

(* A/vector/math.hpp:134-137 min, 145-148 max *)
Definition vmin {A} (ltb : A -> A -> bool) (v : list A) : option A :=
  match vget v 0 with None => None | Some a => accumulate v a (std_min ltb) end.
(* A/vector/math.hpp:145-148 *)
Definition vmax {A} (ltb : A -> A -> bool) (v : list A) : option A :=
  match vget v 0 with None => None | Some a => accumulate v a (std_max ltb) end.

(* A/vector/math.hpp:157-167 min_index, 176-186 max_index ([v > max] is [max < v]) *)
Fixpoint index_loop {A} (better : A -> A -> bool) (v : list A) (i n : nat) (best : A)
         (index : nat) : option nat :=
  match n with
  | O => Some index
  | S n' => match vget v i with
            | None => None
            | Some a => if better a best then index_loop better v (S i) n' a i
                        else index_loop better v (S i) n' best index
            end
  end.
(* A/vector/math.hpp:157-167 *)
Definition min_index {A} (ltb : A -> A -> bool) (v : list A) : option nat :=
  match vget v 0 with
  | None => None
  | Some a => index_loop ltb v 0 (length v) a 0
  end.
(* A/vector/math.hpp:176-186 *)
Definition max_index {A} (ltb : A -> A -> bool) (v : list A) : option nat :=
  match vget v 0 with
  | None => None
  | Some a => index_loop (fun x m => ltb m x) v 0 (length v) a 0
  end.

(* A/vector/operators.hpp:47-54 operator== (a[i] != b[i] is [negb (eqb ..)]) *)
Fixpoint veq_loop {A} (eqb : A -> A -> bool) (a b : list A) (i n : nat) : option bool :=
  match n with
  | O => Some true
  | S n' => match vget a i, vget b i with
            | Some x, Some y => if negb (eqb x y) then Some false else veq_loop eqb a b (S i) n'
            | _, _ => None
            end
  end.
(* A/vector/operators.hpp:47-54 *)
Definition veq {A} (eqb : A -> A -> bool) (a b : list A) : option bool :=
  veq_loop eqb a b 0 (length a).

(* A/vector/operators.hpp:75-167: the arithmetic operators are [elementwise] of
   the scalar operator. *)
Definition vadd (F : FieldOps) := elementwise2 (@fadd F).
(* A/vector/operators.hpp:75-167 *)
Definition vmul (F : FieldOps) := elementwise2 (@fmul F).
(* A/vector/operators.hpp:75-167 *)
Definition vdiv (F : FieldOps) := elementwise2 (fun a b => @fmul F a (@finv F b)).
(* A/vector/operators.hpp:75-167 *)
Definition vadd_scalar (F : FieldOps) (v : list (car F)) (a : car F) := elementwise1 (fun x => @fadd F x a) v.
(* A/vector/operators.hpp:75-167 *)
Definition vmul_scalar (F : FieldOps) (v : list (car F)) (a : car F) := elementwise1 (fun x => @fmul F x a) v.
(* A/vector/operators.hpp:75-167 *)
Definition scalar_div (F : FieldOps) (a : car F) (v : list (car F)) :=
  elementwise1 (fun x => @fmul F a (@finv F x)) v.
