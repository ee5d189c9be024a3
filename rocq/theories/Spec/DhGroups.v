(** How the standards define the finite-field Diffie-Hellman moduli.  Nothing here refers to the
    model: PI and exp are the real numbers of the standard library. *)
From Coq Require Import ZArith Reals.
Local Open Scope Z_scope.

(** [m] is the integer part [x] *)
Definition is_floor (m : Z) (x : R) : Prop := (IZR m <= x < IZR m + 1)%R.
(** RFC 2409 section 6.2 and RFC 3526 sections 2 to 7:
    p = 2^b - 2^(b-64) - 1 + 2^64 * { [2^(b-130) pi] + X } *)
Definition rfc3526 (b X p : Z) : Prop :=
  exists m, is_floor m (IZR (2 ^ (b - 130)) * PI) /\ p = 2 ^ b - 2 ^ (b - 64) - 1 + 2 ^ 64 * (m + X).
(** RFC 7919 appendix A: p = 2^b - 2^(b-64) + { [2^(b-130) e] + X } * 2^64 - 1 *)
Definition rfc7919 (b X p : Z) : Prop :=
  exists m, is_floor m (IZR (2 ^ (b - 130)) * exp 1) /\ p = 2 ^ b - 2 ^ (b - 64) + (m + X) * 2 ^ 64 - 1.
