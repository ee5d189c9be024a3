(** Numbers written in base 2^d, the most significant digit first. *)
From Coq Require Import NArith List.
Local Open Scope N_scope.
Definition joined (d : N) (digits : list N) : N := fold_left (fun acc x => acc * 2 ^ d + x) digits 0.
