(* The remaining operators of algebra/vector/operators.hpp, those of
   algebra/matrix/operators.hpp, and the elementwise functions of
   algebra/vector/math.hpp and algebra/matrix/math.hpp.  Shapes as in
   Model/Vector.v and Model/Matrix.v; [None] is an undefined read. *)
From Coq Require Import List ZArith Arith Bool.
From Verif Require Import Base.Field Model.Vector Model.Matrix.
Import ListNotations.

(* A/vector/operators.hpp:64-67 operator!= *)
Definition vneq {A} (eqb : A -> A -> bool) (a b : list A) : option bool :=
  option_map negb (veq eqb a b).
(* A/vector/operators.hpp:88-91 a + v, 126-129 a * v *)
Definition scalar_vadd (F : FieldOps) (a : car F) (v : list (car F)) := elementwise1 (fun x => @fadd F a x) v.
(* A/vector/operators.hpp:88-91 a + v, 126-129 a * v *)
Definition scalar_vmul (F : FieldOps) (a : car F) (v : list (car F)) := elementwise1 (fun x => @fmul F a x) v.

(* A/vector/math.hpp:50-53 conj, 74-77 real, 87-90 imag, 100-103 abs *)
Definition vconj {A} (conj : A -> A) (v : list A) := elementwise1 conj v.
(* A/vector/math.hpp:50-53 conj, 74-77 real, 87-90 imag, 100-103 abs *)
Definition vreal {A} (v : list (A * A)) := elementwise1 (@fst A A) v.
(* A/vector/math.hpp:50-53 conj, 74-77 real, 87-90 imag, 100-103 abs *)
Definition vimag {A} (v : list (A * A)) := elementwise1 (@snd A A) v.
(* A/vector/math.hpp:50-53 conj, 74-77 real, 87-90 imag, 100-103 abs *)
Definition vabs {A B} (abs : A -> B) (v : list A) := elementwise1 abs v.
(* A/matrix/math.hpp:57-60 conj, 70-73 real, 83-86 imag *)
Definition mconj {A} (conj : A -> A) (M N : nat) (m : matrix A) := melementwise1 M N conj m.
(* A/matrix/math.hpp:57-60 conj, 70-73 real, 83-86 imag *)
Definition mreal {A} (M N : nat) (m : matrix (A * A)) := melementwise1 M N (@fst A A) m.
(* A/matrix/math.hpp:57-60 conj, 70-73 real, 83-86 imag *)
Definition mimag {A} (M N : nat) (m : matrix (A * A)) := melementwise1 M N (@snd A A) m.

(* A/matrix/operators.hpp:48-56 operator==: the inner loop over the columns of
   row i, the outer one over the rows *)
Fixpoint meq_row {A} (eqb : A -> A -> bool) (a b : matrix A) (i j n : nat) : option bool :=
  match n with
  | O => Some true
  | S n' => match mget a i j, mget b i j with
            | Some x, Some y => if negb (eqb x y) then Some false else meq_row eqb a b i (S j) n'
            | _, _ => None
            end
  end.
(* A/matrix/operators.hpp:48-56 operator==: the inner loop over the columns of row i, the outer one over the rows *)
Fixpoint meq_loop {A} (eqb : A -> A -> bool) (a b : matrix A) (cols i n : nat) : option bool :=
  match n with
  | O => Some true
  | S n' => match meq_row eqb a b i 0 cols with
            | Some true => meq_loop eqb a b cols (S i) n'
            | r => r
            end
  end.
(* A/matrix/operators.hpp:48-56 operator==: the inner loop over the columns of row i, the outer one over the rows *)
Definition meq {A} (eqb : A -> A -> bool) (rows cols : nat) (a b : matrix A) : option bool :=
  meq_loop eqb a b cols 0 rows.
(* A/matrix/operators.hpp:66-68 operator!= *)
Definition mneq {A} (eqb : A -> A -> bool) (rows cols : nat) (a b : matrix A) : option bool :=
  option_map negb (meq eqb rows cols a b).
(* A/matrix/operators.hpp:78-80, 90-92, 103-105 *)
Definition madd_scalar (F : FieldOps) (M N : nat) (m : matrix F) (a : F) := melementwise1 M N (fun x => @fadd F x a) m.
(* A/matrix/operators.hpp:78-80, 90-92, 103-105 *)
Definition scalar_madd (F : FieldOps) (M N : nat) (a : F) (m : matrix F) := melementwise1 M N (fun x => @fadd F a x) m.
(* A/matrix/operators.hpp:78-80, 90-92, 103-105 *)
Definition madd (F : FieldOps) (M N : nat) (a b : matrix F) := melementwise2 M N (@fadd F) a b.
(* A/matrix/operators.hpp:115-117, 127-129, 140-142 *)
Definition mmul_scalar (F : FieldOps) (M N : nat) (m : matrix F) (a : F) := melementwise1 M N (fun x => @fmul F x a) m.
(* A/matrix/operators.hpp:115-117, 127-129, 140-142 *)
Definition scalar_mmul (F : FieldOps) (M N : nat) (a : F) (m : matrix F) := melementwise1 M N (fun x => @fmul F a x) m.
(* A/matrix/operators.hpp:115-117, 127-129, 140-142 *)
Definition mhadamard (F : FieldOps) (M N : nat) (a b : matrix F) := melementwise2 M N (@fmul F) a b.
(* A/matrix/operators.hpp:153-155, 168-170 *)
Definition scalar_mdiv (F : FieldOps) (M N : nat) (a : F) (m : matrix F) :=
  melementwise1 M N (fun x => @fmul F a (@finv F x)) m.
(* A/matrix/operators.hpp:153-155, 168-170 *)
Definition mdiv (F : FieldOps) (M N : nat) (a b : matrix F) :=
  melementwise2 M N (fun x y => @fmul F x (@finv F y)) a b.
