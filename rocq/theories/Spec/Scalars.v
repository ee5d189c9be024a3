(** Integer multiples of points and integer powers of field elements. *)
From Coq Require Import ZArith NArith.
From Verif Require Import Base.Field Spec.Weierstrass Spec.Edwards.
Local Open Scope fld_scope.

Definition ec_zmul (K : FieldOps) (a : K) (i : Z) (P : point K) : point K :=
  match i with
  | Z0 => Inf
  | Zpos n => ec_mul K a (N.to_nat (Npos n)) P
  | Zneg n => ec_neg (ec_mul K a (N.to_nat (Npos n)) P)
  end.
Definition te_zmul (K : FieldOps) (a d : K) (i : Z) (P : K * K) : K * K :=
  match i with
  | Z0 => te_zero
  | Zpos n => te_mul K a d (N.to_nat (Npos n)) P
  | Zneg n => te_neg (te_mul K a d (N.to_nat (Npos n)) P)
  end.
Definition fzpow {K : FieldOps} (x : K) (i : Z) : K :=
  match i with
  | Z0 => 1
  | Zpos n => fpow x (Npos n)
  | Zneg n => finv (fpow x (Npos n))
  end.
