(** Miller functions on y^2 = x^3 + a x + b, as in textbooks (Miller 1986; Cohen et al.,
    Handbook of Elliptic and Hyperelliptic Curve Cryptography, 16.1). *)
From Coq Require Import PArith NArith List.
From Verif Require Import Base.Field Base.Ext Spec.Weierstrass Model.Fp2 Model.Fp3 Model.Fp4 Model.Fp6_2over3 Model.Fp6_3over2 Model.Fp12.
Import ListNotations.
Local Open Scope fld_scope.

Section Miller.
  Variable K : FieldOps.
  Variable a : K.
  (** the line through A and B (the tangent if A = B, the vertical line if A = -B), at S *)
  Definition line (A B S : point K) : K :=
    match A, B, S with
    | Aff x1 y1, Aff x2 y2, Aff x y =>
        if x1 =? x2 then
          if y1 =? - y2 then x - x1
          else (y - y1) - fdiv (3 * (x1 * x1) + a) (2 * y1) * (x - x1)
        else (y - y1) - fdiv (y2 - y1) (x2 - x1) * (x - x1)
    | _, _, _ => 1
    end.
  (** the vertical line through A, at S *)
  Definition vertical (A S : point K) : K :=
    match A, S with Aff x1 _, Aff x _ => x - x1 | _, _ => 1 end.
  (** (f_n(S), [n] Q), where f_n has divisor n (Q) - ([n] Q) - (n - 1) (O) *)
  Fixpoint miller (n : positive) (Q S : point K) : K * point K :=
    match n with
    | xH => (1, Q)
    | xO m =>
        let '(f, R) := miller m Q S in
        let R2 := ec_add K a R R in
        (f * f * fdiv (line R R S) (vertical R2 S), R2)
    | xI m =>
        let '(f, R) := miller m Q S in
        let R2 := ec_add K a R R in
        let R3 := ec_add K a R2 Q in
        (f * f * fdiv (line R R S) (vertical R2 S) * fdiv (line R2 Q S) (vertical R3 S), R3)
    end.
  Definition miller_fun (n : positive) (Q S : point K) : K := fst (miller n Q S).
  (** f_(-n) = 1 / (f_n v_([n] Q)) *)
  Definition miller_fun_neg (n : positive) (Q S : point K) : K :=
    let '(f, R) := miller n Q S in finv (f * vertical R S).
End Miller.

(** (x, y) on a twist of y^2 = x^3 + a x + b by w^6, moved to that curve *)
Definition untwist {F GT : FieldOps} (emb : F -> GT) (w : GT) (Q : point F) : point GT :=
  match Q with
  | Inf => Inf
  | Aff x y => Aff (fdiv (emb x) (w * w)) (fdiv (emb y) (w * w * w))
  end.
Definition point_map {K GT : FieldOps} (emb : K -> GT) (P : point K) : point GT :=
  match P with Inf => Inf | Aff x y => Aff (emb x) (emb y) end.

(** F_p into F_(p^2), F_(p^2) into F_(p^12) = F_(p^2)[w] / (w^6 - xi), stored as
    (1, w^2, w^4), (w, w^3, w^5), and the element w *)
Definition inc2 (K : FieldOps) (nr : K) (x : K) : Fp2 K nr := mkq x 0.
Definition emb12 (F : FieldOps) (Fsqr : F -> F) (xi : F) (x : F) : Fp12 F Fsqr xi xi := mkq (mkc x 0 0) (mkc 0 0 0).
Definition w12 (F : FieldOps) (Fsqr : F -> F) (xi : F) : Fp12 F Fsqr xi xi := mkq (mkc 0 0 0) (mkc 1 0 0).
(** F_p into F_(p^3); F_(p^2) into F_(p^4) and F_(p^3) into F_(p^6), the quadratic
    extensions by w, a square root of the generator of the smaller field *)
Definition inc3 (K : FieldOps) (nr : K) (x : K) : Fp3 K nr := mkc x 0 0.
Definition emb4 (K : FieldOps) (nr : K) (x : Fp2 K nr) : Fp4 K nr nr := mkq x (mkq 0 0).
Definition w4 (K : FieldOps) (nr : K) : Fp4 K nr nr := mkq (mkq 0 0) (mkq 1 0).
Definition emb6 (K : FieldOps) (nr : K) (x : Fp3 K nr) : Fp6t K nr nr := mkq x (mkc 0 0 0).
Definition w6 (K : FieldOps) (nr : K) : Fp6t K nr nr := mkq (mkc 0 0 0) (mkc 1 0 0).
