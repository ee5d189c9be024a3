(** A/curves/detail/subgroup_check.hpp. *)
From Coq Require Import NArith.

(** 38-43: [(p * curve_type::q).is_zero()], for a point class with operator* [smul]
    and [is_zero].  Of the curve classes of the library only the brainpool_r1, frp_v1,
    gost_A, sm2p_v1 and x962_p headers declare a member q (= scalar_field_modulus), and
    those headers do not parse; for the others the template cannot be instantiated.
    The modulus is therefore a parameter here *)
Definition subgroup_check {T : Type} (smul : N -> T -> T) (is_zero : T -> bool) (q : N) (p : T) : bool :=
  is_zero (smul q p).
