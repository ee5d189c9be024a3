(* Transcription of algebra/matrix/{matrix,utility,math}.hpp.

   matrix<T, M, N> (M rows, N columns, both non-zero by static_assert,
   matrix/matrix.hpp:53) is the list of its M rows.  Accesses outside the array
   are undefined behaviour: outcome [None].  The functions that throw return
   [None] as well where no confusion is possible; [submat] and [inverse]
   distinguish the two with [outcome]. *)
From Coq Require Import List ZArith Arith Bool.
From Verif Require Import Base.Field Model.Vector.
Import ListNotations.

(* A/matrix/matrix.hpp:52 *)
Definition matrix (A : Type) := list (list A).

(* A/matrix/matrix.hpp:97-105 operator[] applied twice, as a read and as a write *)
Definition mget {A} (m : matrix A) (i j : nat) : option A :=
  match nth_error m i with Some r => nth_error r j | None => None end.
(* auxiliary to the write through operator[], A/matrix/matrix.hpp:97-105 *)
Fixpoint set_nth {A} (l : list A) (i : nat) (x : A) : option (list A) :=
  match l, i with
  | [], _ => None
  | _ :: t, O => Some (x :: t)
  | h :: t, S i' => match set_nth t i' x with Some t' => Some (h :: t') | None => None end
  end.
(* A/matrix/matrix.hpp:97-105 operator[] applied twice, as a read and as a write *)
Definition mset {A} (m : matrix A) (i j : nat) (x : A) : option (matrix A) :=
  match nth_error m i with
  | Some r => match set_nth r j x with Some r' => set_nth m i r' | None => None end
  | None => None
  end.

(* for (k = i; k < i + n; ++k) s = body(k, s) *)
(* auxiliary: the for loops of A/matrix/{matrix,utility,math}.hpp *)
Fixpoint loop {S} (i n : nat) (body : nat -> S -> option S) (s : S) : option S :=
  match n with
  | O => Some s
  | Datatypes.S n' => match body i s with
                      | Some s' => loop (Datatypes.S i) n' body s'
                      | None => None
                      end
  end.

(* A/matrix/utility.hpp:83-92 generate<N, M> *)
Definition mgenerate {A} (rows cols : nat) (f : nat -> nat -> option A) : option (matrix A) :=
  build rows (fun i => build cols (fun j => f i j)).

(* A/matrix/utility.hpp:51-63 elementwise, with one and two matrices of static
   shape rows x cols *)
Definition melementwise1 {A B} (rows cols : nat) (f : A -> B) (m : matrix A) : option (matrix B) :=
  mgenerate rows cols (fun i j => match mget m i j with Some a => Some (f a) | None => None end).
(* A/matrix/utility.hpp:51-63 elementwise, with one and two matrices of static shape rows x cols *)
Definition melementwise2 {A B C} (rows cols : nat) (f : A -> B -> C) (m : matrix A) (n : matrix B)
  : option (matrix C) :=
  mgenerate rows cols (fun i j => match mget m i j, mget n i j with
                                  | Some a, Some b => Some (f a b) | _, _ => None end).

(* A/matrix/utility.hpp:101-104 fill *)
Definition mfill {A} (rows cols : nat) (value : A) : option (matrix A) :=
  mgenerate rows cols (fun _ _ => Some value).

(* A/matrix/utility.hpp:110-118 identity, get_identity *)
Definition get_identity (F : FieldOps) (n : nat) : option (matrix F) :=
  mgenerate n n (fun i j => Some (if Nat.eqb i j then @f1 F else @f0 F)).

(* A/matrix/utility.hpp:131-134 repmat<Row, Col> *)
Definition repmat {A} (row col M N : nat) (m : matrix A) : option (matrix A) :=
  mgenerate (M * row) (N * col) (fun i j => mget m (i mod M) (j mod N)).

(* A/matrix/utility.hpp:146-154 swaprow *)
Definition swaprow {A} (M N : nat) (m : matrix A) (a b : nat) : option (matrix A) :=
  loop 0 N (fun i m =>
    match mget m a i with
    | None => None
    | Some tmp =>
      match mget m b i with
      | None => None
      | Some y => match mset m a i y with
                  | None => None
                  | Some m1 => mset m1 b i tmp
                  end
      end
    end) m.

(* A/matrix/utility.hpp:166-174 swapcol: note the loop bound N (the number of
   columns) on the row index *)
Definition swapcol {A} (M N : nat) (m : matrix A) (a b : nat) : option (matrix A) :=
  loop 0 N (fun i m =>
    match mget m i a with
    | None => None
    | Some tmp =>
      match mget m i b with
      | None => None
      | Some y => match mset m i a y with
                  | None => None
                  | Some m1 => mset m1 i b tmp
                  end
      end
    end) m.

(* A/matrix/utility.hpp:185-189 horzcat, 201-205 vertcat *)
Definition horzcat {A} (M N P : nat) (a b : matrix A) : option (matrix A) :=
  mgenerate M (N + P) (fun i j => if Nat.ltb j N then mget a i j else mget b i (j - N)).
(* A/matrix/utility.hpp:201-205 vertcat *)
Definition vertcat {A} (M N P : nat) (a b : matrix A) : option (matrix A) :=
  mgenerate (M + N) P (fun i j => if Nat.ltb i M then mget a i j else mget b (i - M) j).

(* auxiliary: what a call may do; the throws are at A/matrix/utility.hpp:216-221 *)
Inductive outcome (A : Type) := Ok (a : A) | Throws | Undefined.
Arguments Ok {A}. Arguments Throws {A}. Arguments Undefined {A}.
(* auxiliary: what a call may do; the throws are at A/matrix/utility.hpp:216-221 *)
Definition of_option {A} (o : option A) : outcome A :=
  match o with Some a => Ok a | None => Undefined end.

(* A/matrix/utility.hpp:216-221 submat<P, Q> (size_t sums assumed not to wrap) *)
Definition submat {A} (P Q M N : nat) (m : matrix A) (a b : nat) : outcome (matrix A) :=
  if Nat.ltb M (a + P) || Nat.ltb N (b + Q) then Throws
  else of_option (mgenerate P Q (fun i j => mget m (a + i) (b + j))).

(* A/matrix/utility.hpp:229-234 reshape<P, Q> (P * Q = M * N statically) *)
Definition reshape {A} (P Q M N : nat) (m : matrix A) : option (matrix A) :=
  mgenerate P Q (fun i j => mget m ((i * Q + j) / N) ((i * Q + j) mod N)).

(* A/matrix/utility.hpp:242-256 as_column, as_row *)
Definition as_column {A} (N : nat) (v : list A) : option (matrix A) :=
  mgenerate N 1 (fun i _ => vget v i).
(* A/matrix/utility.hpp:242-256 as_row *)
Definition as_row {A} (N : nat) (v : list A) : option (matrix A) :=
  mgenerate 1 N (fun _ j => vget v j).

(* A/matrix/matrix.hpp:70-86 row, column (throw when out of range: [None]) *)
Definition mrow {A} (M N : nat) (m : matrix A) (i : nat) : option (list A) :=
  if Nat.leb M i then None else generate N (fun j => mget m i j).
(* A/matrix/matrix.hpp:70-86 column *)
Definition mcolumn {A} (M N : nat) (m : matrix A) (i : nat) : option (list A) :=
  if Nat.leb N i then None else generate M (fun j => mget m j i).

(* A/matrix/math.hpp:92-95 transpose *)
Definition transpose {A} (M N : nat) (m : matrix A) : option (matrix A) :=
  mgenerate N M (fun i j => mget m j i).

(* A/matrix/math.hpp:104-107 hermitian: transpose(conj(m)) *)
Definition hermitian {A} (conj : A -> A) (M N : nat) (m : matrix A) : option (matrix A) :=
  match melementwise1 M N conj m with Some c => transpose M N c | None => None end.

Section Mul.
  Variable F : FieldOps.
  (* A/matrix/math.hpp:117-142: sum(row * column) *)
  Definition sum_mul (x y : option (list F)) : option F :=
    match x, y with
    | Some r, Some c => match vmul F r c with Some p => vsum F p | None => None end
    | _, _ => None
    end.
  (* A/matrix/math.hpp:117-120 matmul *)
  Definition matmul (M N P : nat) (a b : matrix F) : option (matrix F) :=
    mgenerate M P (fun i j => sum_mul (mrow M N a i) (mcolumn N P b j)).
  (* A/matrix/math.hpp:128-131 vectmatmul *)
  Definition vectmatmul (M N : nat) (v : list F) (m : matrix F) : option (list F) :=
    generate N (fun i => sum_mul (Some v) (mcolumn M N m i)).
  (* A/matrix/math.hpp:139-142 matvectmul *)
  Definition matvectmul (M N : nat) (m : matrix F) (v : list F) : option (list F) :=
    generate M (fun i => sum_mul (mrow M N m i) (Some v)).
  (* A/matrix/math.hpp:154-157 kron *)
  Definition kron (M N P Q : nat) (a b : matrix F) : option (matrix F) :=
    mgenerate (M * P) (N * Q)
      (fun i j => match mget a (i / P) (j / Q), mget b (i mod P) (j mod Q) with
                  | Some x, Some y => Some (fmul x y) | _, _ => None end).
  (* A/matrix/math.hpp:325-328 trace *)
  Definition mtrace (M : nat) (m : matrix F) : option F :=
    match generate M (fun i => mget m i i) with Some l => vsum F l | None => None end.
End Mul.

(* Gauss-Jordan elimination.  [absgt a b] is [abs(a) > abs(b)], [negl v] is
   [abs(v) < tolerance]; T's own arithmetic is taken to be the field's (exact,
   no rounding). *)
Section GaussJordan.
  Variable F : FieldOps.
  Variable absgt : F -> F -> bool.
  Variable negl : F -> bool.

  (* A/matrix/math.hpp:186-197: the locals of gauss_jordan_impl *)
  Record gj_state := mkGJ { gj_m : matrix F; gj_det : F; gj_rank : nat; gj_i : nat; gj_j : nat }.

  (* A/matrix/math.hpp:201-205: exchange rows ip and i entry by entry *)
  Definition gj_swap (N ip i : nat) (m : matrix F) : option (matrix F) :=
    loop 0 N (fun jp m =>
      match mget m ip jp, mget m i jp with
      | Some tmp, Some y => match mset m ip jp y with
                            | Some m1 => mset m1 i jp tmp
                            | None => None
                            end
      | _, _ => None
      end) m.

  (* A/matrix/math.hpp:199-209: the first row below i with a larger entry in
     column j is exchanged with row i, and the search stops *)
  Fixpoint gj_pivot (M N : nat) (i j ip n : nat) (m : matrix F) (det : F)
    : option (matrix F * F) :=
    match n with
    | O => Some (m, det)
    | S n' =>
      match mget m ip j, mget m i j with
      | Some x, Some y =>
        if absgt x y then
          match gj_swap N ip i m with
          | Some m' => Some (m', fopp det)
          | None => None
          end
        else gj_pivot M N i j (S ip) n' m det
      | _, _ => None
      end
    end.

  (* A/matrix/math.hpp:215-216: m[i][jp] /= s *)
  Definition gj_scale (N i : nat) (s : F) (m : matrix F) : option (matrix F) :=
    loop 0 N (fun jp m =>
      match mget m i jp with Some x => mset m i jp (fdiv x s) | None => None end) m.

  (* A/matrix/math.hpp:226-227: m[ip][jp] -= s * m[i][jp] *)
  Definition gj_elim_row (N i ip : nat) (s : F) (m : matrix F) : option (matrix F) :=
    loop 0 N (fun jp m =>
      match mget m ip jp, mget m i jp with
      | Some x, Some y => mset m ip jp (fsub x (fmul s y))
      | _, _ => None
      end) m.

  (* A/matrix/math.hpp:220-230 *)
  Definition gj_elim (M N i j : nat) (m : matrix F) : option (matrix F) :=
    loop 0 M (fun ip m =>
      if Nat.eqb ip i then Some m
      else match mget m ip j with
           | None => None
           | Some s => if negl s then Some m else gj_elim_row N i ip s m
           end) m.

  (* one iteration of the loop at A/matrix/math.hpp:197-239 *)
  Definition gj_step (M N : nat) (s : gj_state) : option gj_state :=
    let i := gj_i s in
    let j := gj_j s in
    match gj_pivot M N i j (S i) (M - S i) (gj_m s) (gj_det s) with
    | None => None
    | Some (m, det) =>
      match mget m i j with
      | None => None
      | Some p =>
        if negl p then Some (mkGJ m det (gj_rank s) i (S j))
        else
          match gj_scale N i p m with
          | None => None
          | Some m1 =>
            match gj_elim M N i j m1 with
            | None => None
            | Some m2 => Some (mkGJ m2 (fdiv det p) (S (gj_rank s)) (S i) (S j))
            end
          end
      end
    end.

  (* while (i < M && j < N): j grows at every iteration, so N iterations are
     enough fuel *)
  (* A/matrix/math.hpp:197-239 *)
  Fixpoint gj_loop (fuel M N : nat) (s : gj_state) : option gj_state :=
    if Nat.ltb (gj_i s) M && Nat.ltb (gj_j s) N then
      match fuel with
      | O => None
      | S fuel' => match gj_step M N s with
                   | None => None
                   | Some s' => gj_loop fuel' M N s'
                   end
      end
    else Some s.

  (* A/matrix/math.hpp:186-242 gauss_jordan_impl(m, tolerance) *)
  Definition gauss_jordan (M N : nat) (m : matrix F) : option (matrix F * nat * F) :=
    match gj_loop N M N (mkGJ m f1 0 0 0) with
    | None => None
    | Some s => Some (gj_m s, gj_rank s, if Nat.eqb (gj_rank s) M then gj_det s else f0)
    end.
End GaussJordan.

Section WithTolerance.
  Variable F : FieldOps.
  Variable absgt : F -> F -> bool.
  (* A/matrix/math.hpp:244-249: the default tolerance depends on the shape and the
     matrix; [negl_of M N m] is the resulting test *)
  Variable negl_of : nat -> nat -> matrix F -> F -> bool.

  (* A/matrix/math.hpp:244-249 *)
  Definition gauss_jordan_default (M N : nat) (m : matrix F) :=
    gauss_jordan F absgt (negl_of M N m) M N m.
  (* A/matrix/math.hpp:261-264 rref, 287-290 rank, 298-301 det *)
  Definition rref (M N : nat) (m : matrix F) : option (matrix F) :=
    match gauss_jordan_default M N m with Some (r, _, _) => Some r | None => None end.
  (* A/matrix/math.hpp:287-290 rank *)
  Definition rank (M N : nat) (m : matrix F) : option nat :=
    match gauss_jordan_default M N m with Some (_, k, _) => Some k | None => None end.
  (* A/matrix/math.hpp:298-301 det *)
  Definition det (M : nat) (m : matrix F) : option F :=
    match gauss_jordan_default M M m with Some (_, _, d) => Some d | None => None end.
  (* A/matrix/math.hpp:311-316 inverse *)
  Definition inverse (M : nat) (m : matrix F) : outcome (matrix F) :=
    match rank M M m with
    | None => Undefined
    | Some k =>
      if Nat.ltb k M then Throws
      else
        match get_identity F M with
        | None => Undefined
        | Some id =>
          match horzcat M M M m id with
          | None => Undefined
          | Some h =>
            match rref M (M + M) h with
            | None => Undefined
            | Some r => submat M M M (M + M) r 0 M
            end
          end
        end
    end.
End WithTolerance.

(* Exact rationals with the default tolerance of A/matrix/math.hpp:247:
   max(N, M) * epsilon * mars(m) *)
From Coq Require Import QArith Qabs Qreduction Qcanon.
Section Rational.
  Local Open Scope Qc_scope.
  (* the exact rationals in place of the floating-point element type of A/matrix/math.hpp:186-249 *)
  Definition Qc_ops : FieldOps :=
    mkFieldOps Qc 0 1 Qcplus Qcmult Qcminus Qcopp Qcinv Qc_eq_bool.
  (* A/scalar/math.hpp:76-82 abs: x > 0 ? x : -x *)
  Definition qltb (a b : Qc) : bool := match Qccompare a b with Lt => true | _ => false end.
  (* A/scalar/math.hpp:76-82 abs: x > 0 ? x : -x *)
  Definition qabs (x : Qc) : Qc := if qltb 0 x then x else - x.
  (* A/matrix/math.hpp:186-239: the pivot comparison abs(x) > abs(y) *)
  Definition q_absgt (a b : Qc) : bool := qltb (qabs b) (qabs a).
  (* A/matrix/math.hpp:180-183 mars: the largest row sum of absolute values *)
  Definition mars (M N : nat) (m : matrix Qc) : option Qc :=
    match generate M (fun i =>
            match mrow M N m i with
            | Some r => match elementwise1 qabs r with Some l => vsum Qc_ops l | None => None end
            | None => None
            end) with
    | Some l => vmax qltb l
    | None => None
    end.
  (* A/matrix/math.hpp:167-170 macs: the largest column sum *)
  Definition macs (M N : nat) (m : matrix Qc) : option Qc :=
    match generate N (fun i =>
            match mcolumn M N m i with
            | Some r => match elementwise1 qabs r with Some l => vsum Qc_ops l | None => None end
            | None => None
            end) with
    | Some l => vmax qltb l
    | None => None
    end.
  (* A/matrix/math.hpp:186-239: abs(x) <= tolerance *)
  Definition q_negl (eps : Qc) (M N : nat) (m : matrix Qc) (v : Qc) : bool :=
    match mars M N m with
    | Some a => qltb (qabs v) (Q2Qc (inject_Z (Z.of_nat (Nat.max N M))) * eps * a)
    | None => true
    end.
End Rational.
