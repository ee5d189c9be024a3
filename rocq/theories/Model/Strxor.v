(** A/algorithms/strxor.hpp. *)
From Coq Require Import NArith List Bool.
Import ListNotations.

(** What a call may do: finish having written [written] (and returned, when the
    function returns an iterator, the position after the last write); fail an enabled
    assertion; or be undefined *)
(** strxor.hpp:37-66 *)
Inductive run := Done (written : list N) | AssertionFailed | UndefinedBehaviour (written_before : list N).

(** the loops 46-48 and 63-65: stop at the end of either input *)
Fixpoint xor_loop (s1 s2 : list N) : list N :=
  match s1, s2 with
  | a :: s1', b :: s2' => N.lxor a b :: xor_loop s1' s2'
  | _, _ => []
  end.

(** 37-49, iterators.  The return type is OutputIterator but there is no return
    statement: flowing off the end is undefined. [asserts]: BOOST_ASSERT enabled *)
Definition strxor_iterators (asserts : bool) (s1 s2 : list N) : run :=
  if asserts && negb (Nat.eqb (length s1) (length s2)) then AssertionFailed
  else let written := xor_loop s1 s2 in
       UndefinedBehaviour written.

(** 51-66, ranges: [out] is an existing container, overwritten from its beginning.
    Writing past its end is undefined. The result is the container afterwards *)
Definition strxor_ranges (asserts : bool) (in1 in2 out : list N) : run :=
  if asserts && negb (Nat.eqb (length in1) (length in2) && Nat.eqb (length in1) (length out)) then AssertionFailed
  else let written := xor_loop in1 in2 in
       if Nat.ltb (length out) (length written) then UndefinedBehaviour (firstn (length out) written)
       else Done (written ++ skipn (length written) out).
