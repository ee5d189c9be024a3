(** Specification of simple field extensions: K[X]/(X^n - c), elements given by
    the list of their coefficients, lowest degree first. *)
From Coq Require Import List NArith.
From Verif Require Import Base.Field.
Import ListNotations.
Local Open Scope fld_scope.

Section Poly.
  Context {K : FieldOps}.

  (** Sum of two polynomials. *)
  Fixpoint padd (p q : list K) : list K :=
    match p, q with
    | [], _ => q
    | _, [] => p
    | a :: p', b :: q' => (a + b) :: padd p' q'
    end.

  (** Product of two polynomials (schoolbook). *)
  Fixpoint pmul (p q : list K) : list K :=
    match p with
    | [] => []
    | a :: p' => padd (map (fun b => a * b) q) (0 :: pmul p' q)
    end.

  (** Exactly n coefficients, missing ones are zero. *)
  Fixpoint ptake (n : nat) (p : list K) : list K :=
    match n with
    | O => []
    | S n' => match p with [] => 0 :: ptake n' [] | a :: p' => a :: ptake n' p' end
    end.

  (** Remainder modulo X^n - c: X^(i + n) is replaced by c X^i, repeatedly. *)
  Fixpoint predn (fuel n : nat) (c : K) (p : list K) : list K :=
    match fuel with
    | O => ptake n p
    | S f => padd (ptake n p) (map (fun b => c * b) (predn f n c (skipn n p)))
    end.

  Definition premainder (n : nat) (c : K) (p : list K) : list K :=
    predn (length p) n c p.

  (** Product in K[X]/(X^n - c). *)
  Definition qmul (n : nat) (c : K) (p q : list K) : list K :=
    premainder n c (pmul p q).
End Poly.
