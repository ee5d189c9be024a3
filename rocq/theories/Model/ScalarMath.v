(** A/scalar/math.hpp.  double is IEEE 754 binary64 (the standard library's executable
    SpecFloat), round to nearest even, no contraction or excess precision. *)
From Coq Require Import ZArith NArith Bool Floats.SpecFloat.
From Verif Require Import Base.Field.
Local Open Scope Z_scope.

(** the double operation of the language, used throughout A/scalar/math.hpp:47-129 *)
Definition b64_add := SFadd 53 1024.
(** the double operation of the language, used throughout A/scalar/math.hpp:47-129 *)
Definition b64_sub := SFsub 53 1024.
(** the double operation of the language, used throughout A/scalar/math.hpp:47-129 *)
Definition b64_mul := SFmul 53 1024.
(** the double operation of the language, used throughout A/scalar/math.hpp:47-129 *)
Definition b64_div := SFdiv 53 1024.
(** conversion of an int *)
(** used in A/scalar/math.hpp:50-54, 92-109, 121-126 *)
Definition b64_of_int (n : Z) : spec_float := binary_normalize 53 1024 n 0 false.
(** used in A/scalar/math.hpp:50-54, 92-109, 121-126 *)
Definition b64_0 := S754_zero false.
(** used in A/scalar/math.hpp:50-54, 92-109, 121-126 *)
Definition b64_1 := b64_of_int 1.
(** used in A/scalar/math.hpp:50-54, 92-109, 121-126 *)
Definition b64_2 := b64_of_int 2.

(** What a call may do: return, throw, run out of fuel, or be undefined *)
(** outcomes of the functions A/scalar/math.hpp:47-129 *)
Inductive result := Value (v : spec_float) | Thrown | OutOfFuel | UndefinedInt.

(** sqrt, 52-56 *)
Fixpoint sqrt_loop (fuel : nat) (x prev est : spec_float) : result :=
  if SFeqb prev est then Value est
  else match fuel with
       | O => OutOfFuel
       | S fuel' => let prev := est in
                    let est := b64_div (b64_add est (b64_div x est)) b64_2 in
                    sqrt_loop fuel' x prev est
       end.
(** sqrt(double), 47-57 *)
Definition sqrt_double (fuel : nat) (x : spec_float) : result :=
  if SFltb x b64_0 then Thrown
  else let prev := b64_0 in
       let est := b64_div (b64_add b64_1 x) b64_2 in
       sqrt_loop fuel x prev est.

(** abs of a complex number, 79, and of a real one, 81 *)
(** A/scalar/math.hpp:79 *)
Definition abs_complex (fuel : nat) (re im : spec_float) : result :=
  sqrt_double fuel (b64_add (b64_mul re re) (b64_mul im im)).
(** A/scalar/math.hpp:81 *)
Definition abs_real (x : spec_float) : spec_float := if SFltb b64_0 x then x else SFopp x.

(** exponentiate, 99-107, over any arithmetic.  The double divisions of n are exact for
    an int, so they are integer divisions here *)
Section Exponentiate.
  Variable T : Type.
  Variables (one : T) (mul div : T -> T -> T).
  (** A/scalar/math.hpp:99-107 *)
  Fixpoint exp_loop (fuel : nat) (x y : T) (n : Z) : T * T :=
    match fuel with
    | O => (x, y)
    | S fuel' =>
        if 1 <? n then
          let '(y, n) := if n mod 2 =? 0 then (y, n / 2) else (mul y x, (n - 1) / 2) in
          exp_loop fuel' (mul x x) y n
        else (x, y)
    end.
  (** 91-109.  [n = -n] overflows for INT_MIN: undefined, None.  31 iterations
      exhaust any int *)
  Definition exponentiate (x : T) (n : Z) : option T :=
    if n =? 0 then Some one
    else if n =? - 2 ^ 31 then None
    else let '(x, n) := if n <? 0 then (div one x, - n) else (x, n) in
         let '(x, y) := exp_loop 31 x one n in
         Some (mul x y).
End Exponentiate.
(** A/scalar/math.hpp:91-109 at double *)
Definition exponentiate_double := exponentiate spec_float b64_1 b64_mul b64_div.
(** A/scalar/math.hpp:91-109 with the operations of a field in place of those of double *)
Definition exponentiate_field (F : FieldOps) := exponentiate F f1 (@fmul F) (@fdiv F).

(** nthroot, 121-128.  [n - 1] overflows for INT_MIN *)
Fixpoint nthroot_loop (fuel : nat) (x : spec_float) (n : Z) (prev est : spec_float) : result :=
  if SFeqb prev est then Value est
  else match fuel with
       | O => OutOfFuel
       | S fuel' =>
           let prev := est in
           if n =? - 2 ^ 31 then UndefinedInt
           else match exponentiate_double prev (n - 1) with
                | None => UndefinedInt
                | Some e =>
                    let dxk := b64_mul (b64_div b64_1 (b64_of_int n)) (b64_sub (b64_div x e) prev) in
                    nthroot_loop fuel' x n prev (b64_add prev dxk)
                end
       end.
(** 118-129 *)
Definition nthroot (fuel : nat) (x : spec_float) (n : Z) : result :=
  if SFltb x b64_0 then Thrown else nthroot_loop fuel x n (b64_of_int (-1)) b64_1.

(** conj, 137-144, of a complex number given by its parts *)
Definition conj_complex {T : Type} (opp : T -> T) (z : T * T) : T * T := (fst z, opp (snd z)).
