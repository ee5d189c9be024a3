(** Pairs and triples of field elements ([std::array<underlying_type, 2>] and
    [std::array<underlying_type, 3>]: the [data] member of the extension field
    element classes, e.g. A/fields/detail/element/fp2.hpp:55-57, fp3.hpp:54-56). *)
From Coq Require Import Bool.

Record quad (A : Type) := mkq { q0 : A; q1 : A }.
Arguments mkq {A} _ _.
Arguments q0 {A} _.
Arguments q1 {A} _.

Record cub (A : Type) := mkc { c0 : A; c1 : A; c2 : A }.
Arguments mkc {A} _ _ _.
Arguments c0 {A} _.
Arguments c1 {A} _.
Arguments c2 {A} _.

Lemma quad_eta A (x : quad A) : x = mkq (q0 x) (q1 x).
Proof. destruct x; reflexivity. Qed.
Lemma cub_eta A (x : cub A) : x = mkc (c0 x) (c1 x) (c2 x).
Proof. destruct x; reflexivity. Qed.
