(** Signed binary expansions: contract of [boost::multiprecision::find_wnaf]. *)
From Coq Require Import ZArith List.
Import ListNotations.
Local Open Scope Z_scope.

(** Value of a digit list, least significant digit first. *)
Fixpoint digits_value (ds : list Z) : Z :=
  match ds with [] => 0 | d :: ds' => d + 2 * digits_value ds' end.

(** Window w: every digit is zero, or odd and smaller than 2^w in absolute value. *)
Definition digits_ok (w : nat) (ds : list Z) : Prop :=
  forall d, In d ds -> d = 0 \/ (Z.odd d = true /\ Z.abs d < 2 ^ Z.of_nat w).

Definition wnaf_contract (find_wnaf : nat -> N -> list Z) : Prop :=
  forall w e, (1 <= w)%nat -> digits_value (find_wnaf w e) = Z.of_N e /\ digits_ok w (find_wnaf w e).
