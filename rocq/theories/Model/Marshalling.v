(** Point and field (de)serialisation: A/curves/detail/marshalling.hpp
    (curve_element_serializer<bls12_381>) and A/marshalling.hpp (bincode).
    Octets are naturals below 256; a std::array is the list of its elements.
    BOOST_ASSERT is modelled as switched on: a failing assertion gives [None].
    External, by contract: export_bits and import_bits (Boost.Multiprecision). *)
From Coq Require Import ZArith NArith List Bool.
From Verif Require Import Base.Field Base.Zp Base.Ext Model.Fp Model.Fp2 Model.ShortWeierstrass.
Import ListNotations.
Local Open Scope N_scope.

(** export_bits(v, out, 8, false): the 8-bit chunks of v, least significant
    first, as many as needed; one zero chunk when v = 0 *)
(** external; called at A/curves/detail/marshalling.hpp:79-137 *)
Definition export_chunks (v : N) : nat := if v =? 0 then 1%nat else N.to_nat ((N.size v + 7) / 8).
(** external; called at A/curves/detail/marshalling.hpp:79-137 *)
Definition export_bits (v : N) : list N :=
  map (fun i => (v / 2 ^ (8 * N.of_nat i)) mod 2 ^ 8) (seq 0 (export_chunks v)).
(** import_bits(x, first, last, 8, false): chunks least significant first.
    [fit] is the conversion to the fixed-width integral_type. *)
(** external; called at A/curves/detail/marshalling.hpp:205-236 *)
Definition chunks_value (l : list N) : N := fold_right (fun b acc => b + 2 ^ 8 * acc) 0 l.
(** external; called at A/curves/detail/marshalling.hpp:205-236 *)
Definition import_bits (fit : N -> N) (l : list N) : N := fit (chunks_value l).

(** writing [w] through an output iterator at offset [off] *)
(** A/curves/detail/marshalling.hpp:79-137: the output iterators *)
Definition write_at (l : list N) (off : nat) (w : list N) : list N :=
  firstn off l ++ w ++ skipn (off + length w) l.
(** the same through rbegin() + off *)
(** A/curves/detail/marshalling.hpp:79-137: the output iterators *)
Definition write_rev (l : list N) (off : nat) (w : list N) : list N := rev (write_at (rev l) off w).

(** ** curves/detail/marshalling.hpp *)
(* 65 *)
(** A/curves/detail/marshalling.hpp:65 *)
Definition sizeof_field_element : nat := 48.
(* 187-189 *)
Definition C_bit : N := 0x80.
(** A/curves/detail/marshalling.hpp:188 *)
Definition I_bit : N := 0x40.
(** A/curves/detail/marshalling.hpp:189 *)
Definition S_bit : N := 0x20.
(** (m & bit) as a condition *)
(** A/curves/detail/marshalling.hpp:78, 160, 199, 211 *)
Definition has (m bit : N) : bool := negb (N.land m bit =? 0).
(** *octets.begin() &= 0x1F; result[0] |= m_byte; *octets.begin() & 0xE0 *)
(** A/curves/detail/marshalling.hpp:82, 99, 116, 141, 154-160 *)
Definition map_first (f : N -> N) (l : list N) : list N :=
  match l with [] => [] | b :: r => f b :: r end.
(** A/curves/detail/marshalling.hpp:154, 173 *)
Definition m_byte_of (l : list N) : option N :=
  match l with [] => None | b :: _ => Some (N.land b 0xE0) end.
(** 155, 174: BOOST_ASSERT(m_byte != 0x20 && m_byte != 0x60 && m_byte != 0xE0) *)
(** A/curves/detail/marshalling.hpp:155, 174 *)
Definition m_byte_valid (m : N) : bool := negb (m =? 0x20) && negb (m =? 0x60) && negb (m =? 0xE0).
(** 200 etc.: end() == std::find(begin(), end(), true): no octet equals 1 *)
(** A/curves/detail/marshalling.hpp:200, 228 *)
Definition no_octet_one (l : list N) : bool := negb (existsb (fun b => b =? 1) l).
(** BOOST_ASSERT, A/curves/detail/marshalling.hpp:155, 174, 197, 225 *)
Definition check {A : Type} (c : bool) (k : option A) : option A := if c then k else None.

Section Serializer.
  (** base field modulus, fp2 non-residue, curve coefficients b of G1 and G2,
      zero_fill of G1 and G2 *)
  Variables (p nr : Z).
  Notation K := (Zp p).
  Notation K2 := (Fp2 K (tozp p nr)).
  Variables (b1 : K) (b2 : K2) (zx1 zy1 : K) (zx2 zy2 : K2).
  (** is_square and sqrt of the two fields (Model/Sqrt.v; element_fp::sqrt is ressol) *)
  Variables (fp_square : K -> bool) (fp_root : K -> option K) (fp2_square : K2 -> bool) (fp2_root : K2 -> option K2).
  (** conversion to integral_type *)
  Variable fit : N -> N.
  Local Open Scope fld_scope.

  (** x.data.convert_to<integral_type>() *)
  (** A/curves/detail/marshalling.hpp:79-137 *)
  Definition fp_int (x : K) : N := Z.to_N (zval x).
  (** g1_field_value_type(x) *)
  (** A/curves/detail/marshalling.hpp:205-236 *)
  Definition int_fp (x : N) : K := fp_of_int p (Z.of_N x).

  (** 306-314; half_p is converted to a field element for the comparison *)
  Definition sign_gf_p (v : K) : bool := fp_gtb p v (fp_of_int p ((p - 1) / 2)).
  (** 316-321 *)
  Definition sign_gf_p2 (v : K2) : bool :=
    if q1 v =? tozp p 0 then sign_gf_p (q0 v) else sign_gf_p (q1 v).

  (** 323-338 *)
  Definition evaluate_m_byte (zero : bool) (sign : bool) (compression : bool) : N :=
    let result := 0%N in
    let result := if compression then N.lor result C_bit else result in
    if zero then N.lor result I_bit
    else if compression && sign then N.lor result S_bit else result.

  (** 73-84 *)
  Definition g1_compress (P : triple K) : list N :=
    let result := repeat 0%N sizeof_field_element in
    let A := jac_to_affine K zx1 zy1 P in
    let m := evaluate_m_byte (jac_is_zero K P) (sign_gf_p (aY A)) true in
    let result := if negb (has m I_bit) then write_rev result 0 (export_bits (fp_int (aX A))) else result in
    map_first (fun b => N.lor b m) result.
  (** 86-101 *)
  Definition g1_octets (P : triple K) : list N :=
    let result := repeat 0%N (2 * sizeof_field_element) in
    let A := jac_to_affine K zx1 zy1 P in
    let m := evaluate_m_byte (jac_is_zero K P) (sign_gf_p (aY A)) false in
    let result :=
      if negb (has m I_bit) then
        let result := write_rev result 0 (export_bits (fp_int (aY A))) in
        write_rev result sizeof_field_element (export_bits (fp_int (aX A)))
      else result in
    map_first (fun b => N.lor b m) result.
  (** 103-118 *)
  Definition g2_compress (P : triple K2) : list N :=
    let result := repeat 0%N (2 * sizeof_field_element) in
    let A := jac_to_affine K2 zx2 zy2 P in
    let m := evaluate_m_byte (jac_is_zero K2 P) (sign_gf_p2 (aY A)) true in
    let result :=
      if negb (has m I_bit) then
        let result := write_rev result 0 (export_bits (fp_int (q0 (aX A)))) in
        write_rev result sizeof_field_element (export_bits (fp_int (q1 (aX A))))
      else result in
    map_first (fun b => N.lor b m) result.
  (** 120-143 *)
  Definition g2_octets (P : triple K2) : list N :=
    let result := repeat 0%N (4 * sizeof_field_element) in
    let A := jac_to_affine K2 zx2 zy2 P in
    let m := evaluate_m_byte (jac_is_zero K2 P) (sign_gf_p2 (aY A)) false in
    let result :=
      if negb (has m I_bit) then
        let result := write_rev result 0 (export_bits (fp_int (q0 (aY A)))) in
        let result := write_rev result sizeof_field_element (export_bits (fp_int (q1 (aY A)))) in
        let result := write_rev result (2 * sizeof_field_element) (export_bits (fp_int (q0 (aX A)))) in
        write_rev result (3 * sizeof_field_element) (export_bits (fp_int (q1 (aX A))))
      else result in
    map_first (fun b => N.lor b m) result.

  (** 196-219; [None] also when sqrt() does not return *)
  Definition compressed_to_g1 (l : list N) (m : N) : option (triple K) :=
    check (Nat.eqb (length l) sizeof_field_element) (
    if has m I_bit then check (no_octet_one l) (Some (trip_zero K zx1 zy1))
    else
      let x := import_bits fit (rev l) in
      let x_mod := int_fp x in
      let y2_mod := fp_pow_int p x_mod 3 + fp_of_int p 4 in
      check (fp_square y2_mod) (
      match fp_root y2_mod with
      | None => None
      | Some y_mod =>
          let Y_bit := sign_gf_p y_mod in
          if Bool.eqb Y_bit (has m S_bit) then
            let result := mkT x_mod y_mod 1 in
            check (jac0_is_well_formed K b1 result) (Some result)
          else
            let result := mkT x_mod (- y_mod) 1 in
            check (jac0_is_well_formed K b1 result) (Some result)
      end)).
  (** 224-240 *)
  Definition uncompressed_to_g1 (l : list N) (m : N) : option (triple K) :=
    check (Nat.eqb (length l) (2 * sizeof_field_element)) (
    if has m I_bit then check (no_octet_one l) (Some (trip_zero K zx1 zy1))
    else
      let y := import_bits fit (firstn sizeof_field_element (rev l)) in
      let x := import_bits fit (skipn sizeof_field_element (rev l)) in
      let result := mkT (int_fp x) (int_fp y) 1 in
      check (jac0_is_well_formed K b1 result) (Some result)).
  (** 151-164 *)
  Definition octets_to_g1 (octets : list N) : option (triple K) :=
    match m_byte_of octets with
    | None => None
    | Some m =>
        check (m_byte_valid m) (
        let point_octets := map_first (fun b => N.land b 0x1F) octets in
        if has m C_bit then compressed_to_g1 point_octets m else uncompressed_to_g1 point_octets m)
    end.

  (** 245-271 *)
  Definition compressed_to_g2 (l : list N) (m : N) : option (triple K2) :=
    check (Nat.eqb (length l) (2 * sizeof_field_element)) (
    if has m I_bit then check (no_octet_one l) (Some (trip_zero K2 zx2 zy2))
    else
      let x_0 := import_bits fit (firstn sizeof_field_element (rev l)) in
      let x_1 := import_bits fit (skipn sizeof_field_element (rev l)) in
      let x_mod : K2 := mkq (int_fp x_0) (int_fp x_1) in
      let y2_mod : K2 := (fp2_pow K (tozp p nr) x_mod 3 : K2) + (mkq (fp_of_int p 4) (fp_of_int p 4) : K2) in
      check (fp2_square y2_mod) (
      match fp2_root y2_mod with
      | None => None
      | Some y_mod =>
          let Y_bit := sign_gf_p2 y_mod in
          if Bool.eqb Y_bit (has m S_bit) then
            let result := mkT x_mod y_mod 1 in
            check (jac0_is_well_formed K2 b2 result) (Some result)
          else
            let result := mkT x_mod (- y_mod) 1 in
            check (jac0_is_well_formed K2 b2 result) (Some result)
      end)).
  (** 276-304 *)
  Definition uncompressed_to_g2 (l : list N) (m : N) : option (triple K2) :=
    check (Nat.eqb (length l) (4 * sizeof_field_element)) (
    if has m I_bit then check (no_octet_one l) (Some (trip_zero K2 zx2 zy2))
    else
      let n := sizeof_field_element in
      let y_0 := import_bits fit (firstn n (rev l)) in
      let y_1 := import_bits fit (firstn n (skipn n (rev l))) in
      let x_0 := import_bits fit (firstn n (skipn (2 * n) (rev l))) in
      let x_1 := import_bits fit (skipn (3 * n) (rev l)) in
      let result := mkT (mkq (int_fp x_0) (int_fp x_1) : K2) (mkq (int_fp y_0) (int_fp y_1) : K2) 1 in
      check (jac0_is_well_formed K2 b2 result) (Some result)).
  (** 170-184, for std::array arguments (a std::vector would be left empty by 176) *)
  Definition octets_to_g2 (octets : list N) : option (triple K2) :=
    match m_byte_of octets with
    | None => None
    | Some m =>
        check (m_byte_valid m) (
        let point_octets := map_first (fun b => N.land b 0x1F) octets in
        if has m C_bit then compressed_to_g2 point_octets m else uncompressed_to_g2 point_octets m)
    end.
End Serializer.

(** fields/detail/element/fp.hpp:195-203 sqrt(); [ressol] is the external
    boost::multiprecision::ressol *)
Definition fp_sqrt (p : Z) (ressol : Zp p -> Zp p) (x : Zp p) : option (Zp p) :=
  if fp_is_zero p x then Some f0
  else let result := ressol x in check (negb (fp_is_zero p result)) (Some result).

(** ** A/marshalling.hpp, bincode::field *)
(** 52-54 *)
Definition modulus_chunks (modulus_bits : nat) : nat :=
  (modulus_bits / 8 + (if Nat.eqb (modulus_bits mod 8) 0 then 0 else 1))%nat.
Section Bincode.
  Variables (p : Z) (modulus_bits : nat) (fit : N -> N).
  Notation n := (modulus_chunks modulus_bits).
  (** 66-73, prime field *)
  Definition fp_from_bytes (l : list N) : option (bool * Zp p) :=
    check (Nat.eqb n (length l)) (
    let result := import_bits fit l in
    Some ((Z.of_N result <? p)%Z, fp_of_int p (Z.of_N result))).
  (** 104-113, prime field: the new contents of the output range [out] *)
  Definition fp_to_bytes (x : Zp p) (out : list N) : option (list N) :=
    check (Nat.eqb n (length out)) (Some (write_at out 0 (export_bits (fp_int p x)))).
  (** 81-97 and 120-132 for an extension of degree [dim] over a field coded on
      [size] = underlying arity * modulus_chunks octets by [dec] and [enc];
      [modulus_chunks] of the extension is the one of the prime field.
      The element is the list of its coordinates data[0], data[1], ... *)
  Definition ext_from_bytes {A : Type} (size : nat) (dec : list N -> option (bool * A)) (dim : nat) (l : list N)
      : option (bool * list A) :=
    check (Nat.eqb (dim * size) (length l)) (
    fold_left (fun acc k =>
        match acc with
        | None => None
        | Some (bres, data) =>
            match dec (firstn size (skipn (k * size) l)) with
            | None => None
            | Some (valid, c) => Some (bres && valid, data ++ [c])
            end
        end) (seq 0 dim) (Some (true, []))).
  (** 126: offset += field<underlying>::field_element_to_bytes(...), which
      returns the underlying field_octets_num = [size] *)
  (** A/marshalling.hpp:126 *)
  Definition ext_to_bytes {A : Type} (size : nat) (enc : A -> list N -> option (list N)) (dim : nat) (data : list A)
      (out : list N) : option (list N) :=
    check (Nat.eqb (dim * size) (length out)) (
    option_map snd (fold_left (fun acc x =>
        match acc with
        | None => None
        | Some (offset, out) =>
            match enc x (firstn size (skipn offset out)) with
            | None => None
            | Some w => Some ((offset + size)%nat, write_at out offset w)
            end
        end) data (Some (0%nat, out)))).
End Bincode.
