(** C55: strxor. *)
From Coq Require Import NArith List Bool Lia Arith.
From Verif Require Import Model.Strxor Proof.Strxor.
Import ListNotations.

(** s is the element-wise exclusive or of s1 and s2, which have the same length *)
Definition is_xor (s1 s2 s : list N) : Prop :=
  length s1 = length s /\ length s2 = length s /\
  forall i k, i < length s -> N.testbit (nth i s 0%N) k = xorb (N.testbit (nth i s1 0%N) k) (N.testbit (nth i s2 0%N) k).

(** the range overload *)
Theorem C55_ranges asserts in1 in2 out : length in1 = length in2 -> length in1 = length out ->
  exists s, strxor_ranges asserts in1 in2 out = Done s /\ is_xor in1 in2 s.
Proof. exact (strxor_ranges_ok asserts in1 in2 out). Qed.
Print Assumptions C55_ranges.
(** other lengths: rejected when assertions are enabled *)
Theorem C55_ranges_rejects in1 in2 out : length in1 <> length in2 \/ length in1 <> length out ->
  strxor_ranges true in1 in2 out = AssertionFailed.
Proof. exact (strxor_ranges_rejects in1 in2 out). Qed.
Print Assumptions C55_ranges_rejects.
(** with assertions disabled: the common prefix is combined, the rest of out is kept,
    and an output that is too short is filled, then overrun *)
Theorem C55_ranges_release in1 in2 out : 
  (min (length in1) (length in2) <= length out ->
   exists s, strxor_ranges false in1 in2 out = Done (s ++ skipn (length s) out) /\
     is_xor (firstn (length s) in1) (firstn (length s) in2) s /\ length s = min (length in1) (length in2)) /\
  (length out < min (length in1) (length in2) -> exists w, strxor_ranges false in1 in2 out = UndefinedBehaviour w /\
     is_xor (firstn (length out) in1) (firstn (length out) in2) w).
Proof. exact (strxor_ranges_release in1 in2 out). Qed.
Print Assumptions C55_ranges_release.
Example C55_case : strxor_ranges true [1;2;255]%N [3;2;15]%N [0;0;0]%N = Done [2;0;240]%N.
Proof. reflexivity. Qed.
Example C55_other_lengths : strxor_ranges true [1;2]%N [3;2;15]%N [0;0;0]%N = AssertionFailed /\
  strxor_ranges false [1;2]%N [3;2;15]%N [7;8;9]%N = Done [2;0;9]%N /\
  strxor_ranges false [1;2;4]%N [3;2;15]%N [7;8]%N = UndefinedBehaviour [2;0]%N.
Proof. repeat split. Qed.

(** the iterator overload writes the right elements, but then never returns a value.
    Full statement: it returns the iterator after the last write. *)
Theorem C55_iterators_partial s1 s2 : length s1 = length s2 ->
  exists s, strxor_iterators true s1 s2 = UndefinedBehaviour s /\ is_xor s1 s2 s.
Proof. exact (strxor_iterators_writes s1 s2). Qed.
Print Assumptions C55_iterators_partial.
Theorem C55_iterators_refuted asserts s1 s2 : forall s, strxor_iterators asserts s1 s2 <> Done s.
Proof. exact (strxor_iterators_never asserts s1 s2). Qed.
Print Assumptions C55_iterators_refuted.
Example C55_iterators_case : strxor_iterators true [1;2;255]%N [3;2;15]%N = UndefinedBehaviour [2;0;240]%N.
Proof. reflexivity. Qed.
