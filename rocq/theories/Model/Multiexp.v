(** A/multiexp/{multiexp,policies,inner_product}.hpp and A/wnaf.hpp, over any class of
    group elements; USE_MIXED_ADDITION and LOWMEM not defined.  Scalars are the integers
    behind the field elements.  [None]: an exception or undefined behaviour.
    std::size_t arithmetic is exact (sizes are far below 2^64). *)
From Coq Require Import NArith ZArith List Bool.
From Verif Require Import Model.Power Spec.GroupClass.
Import ListNotations.
Local Open Scope N_scope.

(** v[i] = x *)
(** auxiliary: the assignments buckets[id] = ... of policies.hpp:130-201 *)
Definition upd {A : Type} (v : nat -> A) (i : nat) (x : A) : nat -> A :=
  fun j => if Nat.eqb j i then x else v j.

(** bits k*w .. k*w + w - 1 of e, collected by `if (bit_test(e, k*w + j)) id |= 1 << j`
    (policies.hpp:146-151, multiexp.hpp:188-193) *)
Definition window_bits (w k : nat) (e : N) : N :=
  for_up 0 w (fun j id =>
    if N.testbit e (N.of_nat (k * w + j)) then N.lor id (N.shiftl 1 (N.of_nat j)) else id) 0.

(** ** multiexp_method_naive_plain, policies.hpp:65-88; [act] is scalar * base *)
Definition naive {S T : Type} (zero : T) (add : T -> T -> T) (act : S -> T -> T)
    (bases : list T) (scalars : list S) : T :=
  fold_left (fun result p => add result (act (snd p) (fst p))) (combine bases scalars) zero.
(** inner_product.hpp:39-45 *)
Definition inner_product {T : Type} (zero : T) (add mul : T -> T -> T) (a b : list T) : T :=
  naive zero add mul a b.

Section Class.
  Variable T : Type.
  Variable o : class_ops T.

  (** policies.hpp:65-88 *)
  Definition naive_plain (bases : list T) (scalars : list N) : option T :=
    Some (naive (c_zero o) (c_add o) (c_smul o) bases scalars).

  (** ** multiexp_method_BDLO12, policies.hpp:99-203 *)
  (** 114-115; std::log2 of a positive size is taken exact *)
  Definition bdlo12_c (length : nat) : nat :=
    let log2_length := Nat.log2 length in (log2_length - log2_length / 3 + 2)%nat.
  (** 117-128 *)
  Definition bdlo12_num_bits (exponents : list N) : nat :=
    fold_left (fun num_bits e => Nat.max num_bits (if N.eqb e 0 then 1%nat else nbits e)) exponents 0%nat.
  (** 142-167: the buckets, and bucket_nonzero *)
  Definition bdlo12_fill (c k : nat) (input : list (T * N)) : nat -> T * bool :=
    fold_left (fun (buckets : nat -> T * bool) (p : T * N) =>
      let '(base, e) := p in
      let id := N.to_nat (window_bits c k e) in
      if Nat.eqb id 0 then buckets
      else if snd (buckets id) then upd buckets id (c_add_assign o (fst (buckets id)) base, true)
      else upd buckets id (base, true))
      input (fun _ => (c_dflt o, false)).
  (** 173-198: i = 2^c - 1, ..., 1; the state is running_sum and result with their flags *)
  Definition bdlo12_sweep (c : nat) (buckets : nat -> T * bool) (result : T * bool) : T * bool :=
    snd (for_down (2 ^ c - 1)
      (fun i (st : (T * bool) * (T * bool)) =>
         let '(running_sum, result) := st in
         let bucket := buckets (S i) in
         let running_sum :=
           if snd bucket then
             (if snd running_sum then c_add_assign o (fst running_sum) (fst bucket) else fst bucket, true)
           else running_sum in
         let result :=
           if snd running_sum then
             (if snd result then c_add o (fst result) (fst running_sum) else fst running_sum, true)
           else result in
         (running_sum, result))
      ((c_dflt o, false), result)).
  (** 130-201 *)
  Definition bdlo12_groups (c : nat) (input : list (T * N)) (num_bits : nat) : T :=
    let num_groups := ((num_bits + c - 1) / c)%nat in
    fst (for_down num_groups
      (fun k result =>
         let result :=
           if snd result : bool then (for_up 0 c (fun _ r => c_dbl o r) (fst result), true) else result in
         bdlo12_sweep c (bdlo12_fill c k input) result)
      (c_dflt o, false)).
  (** log2(0) is minus infinity and its conversion to std::size_t undefined *)
  (** policies.hpp:99-201 *)
  Definition bdlo12 (bases : list T) (exponents : list N) : option T :=
    match bases with
    | [] => None
    | _ => Some (bdlo12_groups (bdlo12_c (length bases)) (combine bases exponents) (bdlo12_num_bits exponents))
    end.

  (** ** fixed_window_wnaf_exp, wnaf.hpp:35-67; find_wnaf is external *)
  Variable find_wnaf : nat -> N -> list Z.
  (** wnaf.hpp:40-47 *)
  Definition wnaf_table (window_size : nat) (base : T) : nat -> T :=
    let dbl := c_dbl o base in
    fst (for_up 0 (2 ^ (window_size - 1))
      (fun i st => let '(table, tmp) := st in (upd table i tmp, c_add o tmp dbl))
      (fun _ => c_dflt o, base)).
  (** wnaf.hpp:35-67 *)
  Definition fixed_window_wnaf_exp (window_size : nat) (base : T) (scalar : N) : T :=
    let naf := find_wnaf window_size scalar in
    let table := wnaf_table window_size base in
    fst (for_down (length naf)
      (fun i st =>
         let '(res, found_nonzero) := st in
         let res := if found_nonzero : bool then c_dbl o res else res in
         let d := nth i naf 0%Z in
         if Z.eqb d 0 then (res, found_nonzero)
         else if Z.ltb 0 d then (c_add o res (table (Z.to_nat (Z.quot d 2))), true)
         else (c_sub o res (table (Z.to_nat (Z.quot (- d) 2))), true))
      (c_zero o, false)).
  (** opt_window_wnaf_exp, 70-92: the last entry not above scalar_bits *)
  Variable wnaf_window_table : list N.
  (** wnaf.hpp:76-85 *)
  Fixpoint wnaf_scan (n : nat) (scalar_bits : N) : nat :=
    match n with
    | O => O
    | S i => if N.leb (nth i wnaf_window_table 0) scalar_bits then S i else wnaf_scan i scalar_bits
    end.
  (** wnaf.hpp:75-85 *)
  Definition wnaf_best (scalar_bits : N) : nat := wnaf_scan (length wnaf_window_table) scalar_bits.
  (** wnaf.hpp:70-92 *)
  Definition opt_window_wnaf_exp (base : T) (scalar : N) (scalar_bits : N) : T :=
    let best := wnaf_best scalar_bits in
    match best with O => c_smul o scalar base | _ => fixed_window_wnaf_exp best base scalar end.

  (** ** multiexp_method_bos_coster, policies.hpp:212-322 *)
  (** ordered_exponent, 43-56 *)
  Record oexp := mkO { idx : nat; r : N }.
  (** policies.hpp:43-56: operator< *)
  Definition olt (a b : oexp) : bool := N.ltb (r a) (r b).
  (** policies.hpp:301-317: the exchanges of the heap operations *)
  Definition swap (q : nat -> oexp) (i j : nat) : nat -> oexp := upd (upd q i (q j)) j (q i).
  (** 301-311 *)
  Fixpoint sift_down (fuel n : nat) (q : nat -> oexp) (a_pos : nat) : (nat -> oexp) * nat :=
    match fuel with
    | O => (q, a_pos)
    | S f =>
        if Nat.ltb (2 * a_pos + 2) n then
          if olt (q (2 * a_pos + 1)%nat) (q (2 * a_pos + 2)%nat)
          then sift_down f n (swap q a_pos (2 * a_pos + 2)) (2 * a_pos + 2)
          else sift_down f n (swap q a_pos (2 * a_pos + 1)) (2 * a_pos + 1)
        else (q, a_pos)
    end.
  (** 313-317 *)
  Fixpoint sift_up (fuel : nat) (q : nat -> oexp) (a_pos : nat) : nat -> oexp :=
    match fuel with
    | O => q
    | S f =>
        if Nat.ltb 0 a_pos && olt (q ((a_pos - 1) / 2)%nat) (q a_pos)
        then sift_up f (swap q a_pos ((a_pos - 1) / 2)) ((a_pos - 1) / 2)
        else q
    end.
  (** 267-318; msb of zero throws *)
  Fixpoint bos_loop (fuel n : nat) (q : nat -> oexp) (g : nat -> T) (opt_result : T) : option T :=
    match fuel with
    | O => None
    | S f =>
        let a := q 0%nat in
        let b_pos := if olt (q 1%nat) (q 2%nat) then 2%nat else 1%nat in
        let b := q b_pos in
        if N.eqb (r a) 0 then None
        else
          let abits := N.size (r a) in
          if N.eqb (r b) 0 then Some (c_add o opt_result (opt_window_wnaf_exp (g (idx a)) (r a) abits))
          else
            let bbits := N.size (r b) in
            let limit := if N.leb 20 (abits - bbits) then 20 else abits - bbits in
            let '(opt_result, a', g) :=
              if N.ltb bbits (N.shiftl 1 limit)
              then (c_add o opt_result (opt_window_wnaf_exp (g (idx a)) (r a) abits), mkO (idx a) 0, g)
              else (opt_result, mkO (idx a) (r a - r b), upd g (idx b) (c_add o (g (idx b)) (g (idx a)))) in
            let q := upd q 0 a' in
            let '(q, a_pos) := sift_down n n q 0 in
            bos_loop f n (sift_up n q a_pos) g opt_result
    end.
  (** 226-265.  std::make_heap is external; [fuel] bounds the iterations of the loop *)
  Variable make_heap : list oexp -> list oexp.
  (** policies.hpp:226-265 *)
  Definition bos_coster_fuel (fuel : nat) (bases : list T) (scalars : list N) : option T :=
    match bases, scalars with
    | [], _ => Some (c_zero o)
    | [base], scalar :: _ => Some (c_smul o scalar base)
    | _, _ =>
        let vec_len := length scalars in
        let odd_vec_len := if Nat.eqb (vec_len mod 2) 1 then vec_len else (vec_len + 1)%nat in
        let g := bases in
        let opt_q := make_heap (map (fun p => mkO (fst p) (snd p)) (combine (seq 0 (length bases)) scalars)) in
        let g := if negb (Nat.eqb vec_len odd_vec_len) then g ++ [c_zero o] else g in
        let opt_q := if negb (Nat.eqb vec_len odd_vec_len) then opt_q ++ [mkO (odd_vec_len - 1) 0] else opt_q in
        bos_loop fuel odd_vec_len (fun i => nth i opt_q (mkO 0 0)) (fun i => nth i g (c_dflt o)) (c_zero o)
    end.

  (** ** multiexp, multiexp.hpp:41-69 *)
  Section Policy.
    Variable process : list T -> list N -> option T.
    (** multiexp.hpp:41-69 *)
    Definition slice {A : Type} (l : list A) (from to : nat) : list A := firstn (to - from) (skipn from l).
    (** multiexp.hpp:41-69 *)
    Definition multiexp (bases : list T) (scalars : list N) (chunks_count : nat) : option T :=
      let total_size := length bases in
      if Nat.ltb total_size chunks_count || Nat.eqb chunks_count 1 then process bases scalars
      else if Nat.eqb chunks_count 0 then None (* division by zero *)
      else
        let one_chunk_size := (total_size / chunks_count)%nat in
        for_up 0 chunks_count
          (fun i result =>
             let last := Nat.eqb i (chunks_count - 1) in
             match result,
                   process (slice bases (i * one_chunk_size) (if last then total_size else ((i + 1) * one_chunk_size)%nat))
                           (slice scalars (i * one_chunk_size) (if last then length scalars else ((i + 1) * one_chunk_size)%nat)) with
             | Some result, Some v => Some (c_add o result v)
             | _, _ => None
             end)
          (Some (c_zero o)).
    (** 71-108 *)
    Definition multiexp_with_mixed_addition (bases : list T) (scalars : list N) (chunks_count : nat) : option T :=
      let '(acc, g, p) :=
        fold_left (fun st bs =>
          let '(acc, g, p) := st in
          let '(base, scalar) := bs in
          if N.eqb scalar 1 then (c_add o acc base, g, p)
          else if negb (N.eqb scalar 0) then (acc, g ++ [base], p ++ [scalar])
          else (acc, g, p))
          (combine bases scalars) (c_zero o, [], []) in
      match multiexp g p chunks_count with Some v => Some (c_add o acc v) | None => None end.
  End Policy.

  (** ** Fixed-base windows *)
  (** get_window_table, multiexp.hpp:144-171 *)
  Definition outer_count (scalar_size window : nat) : nat := ((scalar_size + window - 1) / window)%nat.
  (** get_window_table, multiexp.hpp:144-171 *)
  Definition get_window_table (scalar_size window : nat) (g : T) : nat -> nat -> T :=
    let in_window := (2 ^ window)%nat in
    let outerc := outer_count scalar_size window in
    let last_in_window := (2 ^ (scalar_size - (outerc - 1) * window))%nat in
    fst (for_up 0 outerc
      (fun outer st =>
         let '(powers_of_g, gouter) := st in
         let cur_in_window := if Nat.eqb outer (outerc - 1) then last_in_window else in_window in
         let row := fst (for_up 0 cur_in_window
           (fun inner st => let '(row, ginner) := st in (upd row inner ginner, c_add_assign o ginner gouter))
           (powers_of_g outer, c_zero o)) in
         (upd powers_of_g outer row, for_up 0 window (fun _ x => c_dbl o x) gouter))
      (fun _ _ => c_zero o, g)).
  (** windowed_exp, 174-199 *)
  Definition windowed_exp (scalar_size window : nat) (powers_of_g : nat -> nat -> T) (pow : N) : T :=
    let outerc := outer_count scalar_size window in
    for_up 0 outerc
      (fun outer res => c_add o res (powers_of_g outer (N.to_nat (window_bits window outer pow))))
      (powers_of_g 0 0)%nat.
  (** batch_exp, 201-215 *)
  Definition batch_exp (scalar_size window : nat) (table : nat -> nat -> T) (v : list N) : list T :=
    map (windowed_exp scalar_size window table) v.
  (** batch_exp_with_coeff, 217-233; the product is taken in the scalar field of order m *)
  Definition batch_exp_with_coeff (m : N) (scalar_size window : nat) (table : nat -> nat -> T) (coeff : N) (v : list N) : list T :=
    map (fun x => windowed_exp scalar_size window table (coeff * x mod m)) v.
End Class.
Arguments multiexp {T} o process. Arguments multiexp_with_mixed_addition {T} o process.
Arguments naive_plain {T}. Arguments bdlo12 {T}. Arguments bos_coster_fuel {T}.
Arguments fixed_window_wnaf_exp {T}. Arguments opt_window_wnaf_exp {T}.
Arguments get_window_table {T}. Arguments windowed_exp {T}. Arguments batch_exp {T}. Arguments batch_exp_with_coeff {T}.

(** get_exp_window_size, 117-142.  The index is unsigned, so the loop never ends by itself:
    with no entry matching it reads below the array *)
Fixpoint exp_window_scan (i : nat) (table : list N) (num_scalars : N) : option nat :=
  let t := nth i table 0 in
  if negb (N.eqb t 0) && N.leb t num_scalars then Some (i + 1)%nat
  else match i with O => None | S i' => exp_window_scan i' table num_scalars end.
(** get_exp_window_size, 117-142.  The index is unsigned, so the loop never ends by itself: with no entry matching it reads below the array *)
Definition get_exp_window_size (table : list N) (num_scalars : N) : option nat :=
  match table with [] => Some 17%nat | _ => exp_window_scan (length table - 1) table num_scalars end.
(** The same with the build option LOWMEM, multiexp.hpp:120-121, 138-140 *)
Definition get_exp_window_size_lowmem (table : list N) (num_scalars : N) : option nat :=
  match table with
  | [] => Some 14%nat
  | _ => option_map (Nat.min 14) (exp_window_scan (length table - 1) table num_scalars)
  end.
