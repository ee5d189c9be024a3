(** A/fields/detail/element/fp3.hpp: class element_fp3. *)
From Coq Require Import NArith List Bool.
From Verif Require Import Base.Field Base.Ext Model.Power.
Local Open Scope fld_scope.

Section Fp3.
  Variable K : FieldOps.
  Variable nr : K.
  Implicit Types x y : cub K.

  (** fp3.hpp:264-288 zero, one *)
  Definition fp3_zero : cub K := mkc 0 0 0.
  (** fp3.hpp:264-288 one *)
  Definition fp3_one : cub K := mkc 1 0 0.
  (** fp3.hpp:92-94 operator== *)
  Definition fp3_eqb x y : bool := (c0 x =? c0 y) && (c1 x =? c1 y) && (c2 x =? c2 y).
  (** fp3.hpp:96-98 operator!= *)
  Definition fp3_neqb x y : bool :=
    negb (c0 x =? c0 y) || negb (c1 x =? c1 y) || negb (c2 x =? c2 y).
  (** fp3.hpp:108-110 operator+ *)
  Definition fp3_add x y := mkc (c0 x + c0 y) (c1 x + c1 y) (c2 x + c2 y).
  (** fp3.hpp:112-114 doubled *)
  Definition fp3_doubled x := mkc (fdbl (c0 x)) (fdbl (c1 x)) (fdbl (c2 x)).
  (** fp3.hpp:116-118 operator- *)
  Definition fp3_sub x y := mkc (c0 x - c0 y) (c1 x - c1 y) (c2 x - c2 y).
  (** fp3.hpp:136-138 unary operator- *)
  Definition fp3_neg x := fp3_sub fp3_zero x.
  (** fp3.hpp:140-148 operator* *)
  Definition fp3_mul x y :=
    let A0B0 := c0 x * c0 y in let A1B1 := c1 x * c1 y in let A2B2 := c2 x * c2 y in
    mkc (A0B0 + nr * ((c1 x + c2 x) * (c1 y + c2 y) - A1B1 - A2B2))
        ((c0 x + c1 x) * (c0 y + c1 y) - A0B0 - A1B1 + nr * A2B2)
        ((c0 x + c2 x) * (c0 y + c2 y) - A0B0 + A1B1 - A2B2).
  (** fp3.hpp:150-162 operator*= *)
  Definition fp3_mul_assign x y :=
    let A0B0 := c0 x * c0 y in let A1B1 := c1 x * c1 y in let A2B2 := c2 x * c2 y in
    let r0 := A0B0 + nr * ((c1 x + c2 x) * (c1 y + c2 y) - A1B1 - A2B2) in
    let r1 := (c0 x + c1 x) * (c0 y + c1 y) - A0B0 - A1B1 + nr * A2B2 in
    let r2 := (c0 x + c2 x) * (c0 y + c2 y) - A0B0 + A1B1 - A2B2 in
    mkc r0 r1 r2.
  (** fp3.hpp:199-201 squared *)
  Definition fp3_sqr x := fp3_mul x x.
  (** fp3.hpp:213-232 inversed *)
  Definition fp3_inv x :=
    let A0 := c0 x in let A1 := c1 x in let A2 := c2 x in
    let t0 := fsqr A0 in let t1 := fsqr A1 in let t2 := fsqr A2 in
    let t3 := A0 * A1 in let t4 := A0 * A2 in let t5 := A1 * A2 in
    let d0 := t0 - nr * t5 in
    let d1 := nr * t2 - t3 in
    let d2 := t1 - t4 in
    let t6 := finv (A0 * d0 + nr * (A2 * d1 + A1 * d2)) in
    mkc (t6 * d0) (t6 * d1) (t6 * d2).
  (** fp3.hpp:208-211 pow *)
  Definition fp3_pow x (e : N) := power fp3_one fp3_mul fp3_sqr x e.
  (** fp3.hpp:248-258 operator* with an underlying field element *)
  Definition fp3_smul (a : K) x := mkc (a * c0 x) (a * c1 x) (a * c2 x).
  (** fp3.hpp:234-245 Frobenius_map *)
  Definition fp3_frob (fc1 fc2 : list K) x (pwr : N) :=
    let i := N.to_nat (pwr mod 3) in
    mkc (c0 x) (nth i fc1 0 * c1 x) (nth i fc2 0 * c2 x).

  (** the class (fp3.hpp:39) as a field class, made of the functions above *)
  Definition Fp3 : FieldOps := {|
    car := cub K; f0 := fp3_zero; f1 := fp3_one;
    fadd := fp3_add; fmul := fp3_mul; fsub := fp3_sub; fopp := fp3_neg;
    finv := fp3_inv; feqb := fp3_eqb |}.
End Fp3.
