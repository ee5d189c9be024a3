(** Numbers in fixed-width slots. *)
From Coq Require Import ZArith List.
Import ListNotations.
Local Open Scope Z_scope.

(** [b] binary digits are needed, and enough, to write [p] *)
Definition bit_length (b p : Z) : Prop := 0 < b /\ 2 ^ (b - 1) <= p < 2 ^ b.
(** the coefficients side by side, each in b bits *)
Fixpoint pack (b : Z) (l : list Z) : Z := match l with [] => 0 | x :: l => x + 2 ^ b * pack b l end.
Definition residue (p x : Z) : Prop := 0 <= x < p.
Fixpoint product (l : list Z) : Z := match l with [] => 1 | x :: l => x * product l end.
(** x and the parity of y *)
Definition compress (x y : Z) : Z := 2 * x + y mod 2.
