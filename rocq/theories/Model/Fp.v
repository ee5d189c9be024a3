(** A/fields/detail/element/fp.hpp: class element_fp.  The modular number
    [data] is an element of Z/p (Base/Zp.v); the operators +, -, *, unary -,
    == and inversed are those of [Zp] (fp.hpp:100-150, 205-207). *)
From Coq Require Import ZArith NArith.
From Verif Require Import Base.Field Base.Zp.
Local Open Scope Z_scope.

Section Fp.
  Variable p : Z.
  Implicit Types x y : Zp p.

  (** fp.hpp:71-79 constructors from integers: reduction modulo p *)
  Definition fp_of_int (n : Z) : Zp p := tozp p n.
  (** fp.hpp:92-98 is_zero, is_one *)
  Definition fp_is_zero x : bool := feqb x f0.
  (** fp.hpp:96-98 *)
  Definition fp_is_one x : bool := feqb x f1.
  (** fp.hpp:104-106 operator!= *)
  Definition fp_neqb x y : bool := negb (Z.eqb (zval x) (zval y)).
  (** fp.hpp:152-166 <, >, <=, >=: comparison of the canonical residues *)
  Definition fp_ltb x y : bool := Z.ltb (zval x) (zval y).
  (** fp.hpp:156-158 *)
  Definition fp_gtb x y : bool := Z.ltb (zval y) (zval x).
  (** fp.hpp:160-162 *)
  Definition fp_leb x y : bool := Z.leb (zval x) (zval y).
  (** fp.hpp:164-166 *)
  Definition fp_geb x y : bool := Z.leb (zval y) (zval x).
  (** fp.hpp:168-178 prefix ++ (new state); postfix ++ returns (result, new state) *)
  Definition fp_incr x : Zp p := fadd x f1.
  (** fp.hpp:174-178 *)
  Definition fp_postincr x : Zp p * Zp p := (x, fp_incr x).
  (** fp.hpp:180-189 -- *)
  Definition fp_decr x : Zp p := fsub x (tozp p 1).
  (** fp.hpp:185-189 *)
  Definition fp_postdecr x : Zp p * Zp p := (x, fp_decr x).
  (** fp.hpp:191-193 doubled *)
  Definition fp_doubled x : Zp p := fadd x x.
  (** fp.hpp:213-215 squared *)
  Definition fp_sqr x : Zp p := fmul x x.
  (** fp.hpp:228-232 pow with a multiprecision exponent: external powm, i.e. the
      residue of the integer power (trusted) *)
  Definition fp_powm x (e : N) : Zp p := tozp p (zval x ^ Z.of_N e).
  (** fp.hpp:222-226 pow with a built-in integer: the exponent is converted to
      uint128_t first *)
  Definition fp_pow_int x (e : Z) : Zp p := fp_powm x (Z.to_N (e mod 2 ^ 128)).
End Fp.
