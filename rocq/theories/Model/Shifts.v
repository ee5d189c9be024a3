(** nil/crypto3/detail/unbounded_shift.hpp and nil/crypto3/detail/make_uint_t.hpp (no header
    of the algebra library includes them).  T is, but for the last three
    definitions, an unsigned integer type of [w] = 8, 16, 32
    or 64 bits, so its values are the N below 2^w.  Types narrower than int are promoted to
    int: the shifts by less than [w] below then stay within 32 bits and are defined, and the
    conversion of the result back to T keeps it modulo 2^w. *)
From Coq Require Import ZArith NArith List Bool.
Import ListNotations.
Local Open Scope N_scope.

(** the value of ~T() *)
(** as used in unbounded_shift.hpp:82-103 *)
Definition ones (w : N) : N := 2 ^ w - 1.
(** unbounded_shift.hpp:36-45, 47-56, unbounded_shifter<s, T>::shl, by recursion on the template argument *)
Fixpoint shifter_shl (w : N) (s : nat) (x : N) : N :=
  match s with O => x | S s' => shifter_shl w s' (N.shiftl x 1 mod 2 ^ w) end.
(** unbounded_shifter<s, T>::shr *)
(** unbounded_shift.hpp:36-45, 47-56 *)
Fixpoint shifter_shr (s : nat) (x : N) : N :=
  match s with O => x | S s' => shifter_shr s' (N.shiftr x 1) end.
(** 58-61, unbounded_shl<s>(x) *)
Definition static_shl (w : N) (s : nat) (x : N) : N := shifter_shl w s x.
(** 63-66, unbounded_shr<s>(x) *)
Definition static_shr (s : nat) (x : N) : N := shifter_shr s x.
(** 68-73, unbounded_shl(x, n) *)
Definition dynamic_shl (w x n : N) : N :=
  let n := if w <=? n then n mod w else n in N.shiftl x n mod 2 ^ w.
(** 75-80, unbounded_shr(x, n) *)
Definition dynamic_shr (w x n : N) : N := if w <=? n then 0 else N.shiftr x n.
(** 82-88, low_bits<s>(x) *)
Definition low_bits (w : N) (s : nat) (x : N) : N :=
  if w <=? N.of_nat s then x
  else let highmask := static_shl w s (ones w) in N.land x (N.lxor (ones w) highmask).
(** 90-95, low_bits<s, type_bits>(x); for s > type_bits the template recursion does not end, so s <= type_bits here *)
Definition low_bits_typed (w : N) (s type_bits : nat) (x : N) : N :=
  let real_shift := (type_bits - s)%nat in
  let lowmask := (if Nat.eqb s 0 then 0 else 1) * static_shr real_shift (ones w) in
  N.land x lowmask.
(** the difference of two std::size_t *)
(** as used in unbounded_shift.hpp:97-103 *)
Definition size_sub (a b : N) : N := (a + (2 ^ 64 - b mod 2 ^ 64)) mod 2 ^ 64.
(** 97-103, low_bits<type_bits>(x, shift) *)
Definition low_bits_dynamic (w type_bits x shift : N) : N :=
  if w <=? shift then x
  else let lowmask := (if shift =? 0 then 0 else 1) * dynamic_shr w (ones w) (size_sub type_bits shift) in
       N.land x lowmask.
(** 105-111, high_bits<type_bits>(x, shift) *)
Definition high_bits_dynamic (w type_bits x shift : N) : N :=
  if w <=? shift then x
  else let highmask := (if shift =? 0 then 0 else 1) * dynamic_shl w (ones w) (size_sub type_bits shift) in
       N.land x highmask.

(** make_uint_t.hpp:35-39, extract_uint_t<size>(v, position) for an Integer of [2 ^ k] octets;
    ~position is the complement of a 64-bit std::size_t *)
Definition extract_uint_t (size : N) (k : N) (v position : N) : N :=
  let amount := N.shiftl (N.land (2 ^ 64 - 1 - position) (2 ^ k - 1)) 3 in
  N.shiftr v amount mod 2 ^ size.
(** 46-49, one turn of the loop: result has [size] bits, itr is an unsigned value of [d] bits.
    The shift is done on the promoted result, of at least 32 bits: it is undefined for d not
    below that width, and for a promoted signed result when the value leaves 32 bits *)
Definition make_step (size d result itr : N) : option N :=
  if N.max 32 size <=? d then None
  else if (size <? 32) && (2 ^ 32 <=? N.shiftl result d) then None
  else Some (N.lor (N.shiftl result d mod 2 ^ N.max 32 size) itr mod 2 ^ size).
(** 41-52, make_uint_t<size, T>(args) *)
Fixpoint make_loop (size d : N) (args : list N) (result : N) : option N :=
  match args with
  | [] => Some result
  | itr :: rest => match make_step size d result itr with Some r => make_loop size d rest r | None => None end
  end.
(** 41-52, make_uint_t<size, T>(args) *)
Definition make_uint_t (size d : N) (args : list N) : option N := make_loop size d args 0.
(** make_uint_t.hpp:41-52 for a signed argument type T, whose numeric_limits::digits [d] leaves the sign out
    (7, 15, 31, 63): itr is promoted, a negative one with its sign bits, and converted to the result type *)
Definition make_step_signed (size d result : N) (itr : Z) : option N :=
  make_step size d result (Z.to_N (itr mod 2 ^ Z.of_N (N.max 32 (N.max size (d + 1))))%Z).
(** 41-52, the loop for a signed T *)
Fixpoint make_loop_signed (size d : N) (args : list Z) (result : N) : option N :=
  match args with
  | [] => Some result
  | itr :: rest => match make_step_signed size d result itr with Some r => make_loop_signed size d rest r | None => None end
  end.
(** 41-52, make_uint_t<size, T>(args), T signed *)
Definition make_uint_t_signed (size d : N) (args : list Z) : option N := make_loop_signed size d args 0.
