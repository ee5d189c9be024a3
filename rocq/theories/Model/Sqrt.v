(** sqrt and is_square.
    A/fields/detail/element/fp2.hpp:198-234, 248-251; fp3.hpp:164-206; fp.hpp:217-220.
    The C++ loops need not terminate.  Each loop is modelled with a fuel bound
    shared by all loops of one call; [None] means that some loop did not finish
    within the bound.  The call terminates with y iff [Some y] is returned for
    some bound. *)
From Coq Require Import ZArith NArith List.
From Verif Require Import Base.Field Base.Zp Base.Ext Model.Power Model.Fp Model.Fp2 Model.Fp3 Model.Shipped Model.FieldParams.
Import ListNotations.
Local Open Scope fld_scope.

Section Tonelli.
  Variable F : FieldOps.
  (** the class's own squared() *)
  Variable sqr : F -> F.

  (** fp2.hpp:212-218, fp3.hpp:175-181: while (b2m != one) { b2m = b2m.squared(); m += 1; } *)
  Fixpoint ts_order (fuel : nat) (b2m : F) (m : nat) : option nat :=
    if b2m =? 1 then Some m
    else match fuel with O => None | S f => ts_order f (sqr b2m) (S m) end.
  (** fp2.hpp:221-225, fp3.hpp:184-188: while (j > 0) { w = w.squared(); --j; } *)
  Fixpoint ts_squarings (j : nat) (w : F) : F :=
    match j with O => w | S j' => ts_squarings j' (sqr w) end.
  (** fp2.hpp:211-231, fp3.hpp:174-194.  v and m are size_t (taken as unbounded),
      j = v - m - 1 is an int; for j <= 0 the loop at 222 (185) does nothing, which
      is what truncated subtraction gives. *)
  Fixpoint ts_loop (fuel : nat) (v : nat) (z x b : F) : option F :=
    if b =? 1 then Some x
    else match fuel with
         | O => None
         | S f =>
             match ts_order fuel b 0 with
             | None => None
             | Some m =>
                 let w := ts_squarings (v - m - 1) z in
                 let z := sqr w in
                 ts_loop f m z (x * w) (b * z)
             end
         end.
  (** fp2.hpp:202-206, fp3.hpp:165-169; [pow] is the class's own pow *)
  Definition ts_sqrt (pow : F -> N -> F) (s : nat) (nqr_to_t : F) (t_minus_1_over_2 : N)
      (fuel : nat) (a : F) : option F :=
    let v := s in
    let z := nqr_to_t in
    let w := pow a t_minus_1_over_2 in
    let x := a * w in
    let b := x * w in
    ts_loop fuel v z x b.
  (** fp2.hpp:248-251, fp3.hpp:203-206, fp.hpp:217-220 *)
  Definition is_square_m (pow : F -> N -> F) (half : N) (x : F) : bool :=
    let tmp := pow x half in (tmp =? 1) || (tmp =? 0).
End Tonelli.

(** Parameters of the sqrt of a class, from the fp2/fp3 extension parameter files *)
(** the members s, t, t_minus_1_over_2, nqr, nqr_to_t of extension_params/<curve>/fp2.hpp and fp3.hpp *)
Record sqrt_params := mkSqrtParams { sp_s : Z; sp_tm1h : Z; sp_nqr_t : list Z }.

(** fp2.hpp:198-246 *)
Definition fp2_sqrt (p nr : Z) (c : sqrt_params) (fuel : nat) (a : Fp2 (Zp p) (tozp p nr)) :=
  ts_sqrt (Fp2 (Zp p) (tozp p nr)) (fp2_sqr (Zp p) (tozp p nr)) (fp2_pow (Zp p) (tozp p nr))
    (Z.to_nat (sp_s c)) (lit2 p (sp_nqr_t c)) (Z.to_N (sp_tm1h c)) fuel a.
(** fp3.hpp:164-201 *)
Definition fp3_sqrt (p nr : Z) (c : sqrt_params) (fuel : nat) (a : Fp3 (Zp p) (tozp p nr)) :=
  ts_sqrt (Fp3 (Zp p) (tozp p nr)) (fp3_sqr (Zp p) (tozp p nr)) (fp3_pow (Zp p) (tozp p nr))
    (Z.to_nat (sp_s c)) (lit3 p (sp_nqr_t c)) (Z.to_N (sp_tm1h c)) fuel a.
(** fp2.hpp:248-251 *)
Definition fp2_is_square (p nr half : Z) (a : Fp2 (Zp p) (tozp p nr)) : bool :=
  is_square_m (Fp2 (Zp p) (tozp p nr)) (fp2_pow (Zp p) (tozp p nr)) (Z.to_N half) a.
(** fp3.hpp:203-206 *)
Definition fp3_is_square (p nr half : Z) (a : Fp3 (Zp p) (tozp p nr)) : bool :=
  is_square_m (Fp3 (Zp p) (tozp p nr)) (fp3_pow (Zp p) (tozp p nr)) (Z.to_N half) a.
(** fp.hpp:217-220 *)
Definition fp_is_square (p half : Z) (a : Zp p) : bool :=
  is_square_m (Zp p) (fp_powm p) (Z.to_N half) a.

(** A/fields/detail/extension_params/bls12/fp2.hpp:68-76 *)
Definition bls12_381_sqrt := mkSqrtParams bls12_381_fp2_s bls12_381_fp2_t_minus_1_over_2 bls12_381_fp2_nqr_to_t.
(** A/fields/detail/extension_params/bls12/fp2.hpp:114-122 *)
Definition bls12_377_sqrt := mkSqrtParams bls12_377_fp2_s bls12_377_fp2_t_minus_1_over_2 bls12_377_fp2_nqr_to_t.
(** A/fields/detail/extension_params/alt_bn128/fp2.hpp:66-74 *)
Definition alt_bn128_sqrt := mkSqrtParams alt_bn128_fp2_s alt_bn128_fp2_t_minus_1_over_2 alt_bn128_fp2_nqr_to_t.
(** A/fields/detail/extension_params/bn128/fp2.hpp:68-76 *)
Definition bn128_sqrt := mkSqrtParams bn128_fp2_s bn128_fp2_t_minus_1_over_2 bn128_fp2_nqr_to_t.
(** A/fields/detail/extension_params/mnt4/fp2.hpp:69-77 *)
Definition mnt4_sqrt := mkSqrtParams mnt4_fp2_s mnt4_fp2_t_minus_1_over_2 mnt4_fp2_nqr_to_t.
(** A/fields/detail/extension_params/mnt6/fp3.hpp:68-77 *)
Definition mnt6_sqrt := mkSqrtParams mnt6_fp3_s mnt6_fp3_t_minus_1_over_2 mnt6_fp3_nqr_to_t.
(** A/fields/detail/extension_params/edwards/fp3.hpp:66-75 *)
Definition edwards_sqrt := mkSqrtParams edwards_fp3_s edwards_fp3_t_minus_1_over_2 edwards_fp3_nqr_to_t.

(** group_order_minus_one_half of the prime fields that ship it *)
(* fields/mnt4/base_field.hpp:62-63 *)
Definition mnt4_base_half : Z := 0x1DE7BDE6A39D133124ED3D82A47657764B1AE89987520D4F1AF2890070964866B2D38B30000.
(* fields/mnt6/base_field.hpp:62-63 *)
Definition mnt6_base_half : Z := 0x1DE7BDE6A39D133124ED3D82A47657764B1AE7A20CA7DA4A603C92EB569DDA19A5200000000.
(* fields/bls12/scalar_field.hpp:66-67 *)
Definition bls12_381_scalar_half : Z := 0x39F6D3A994CEBEA4199CEC0404D0EC02A9DED2017FFF2DFF7FFFFFFF80000000.
(* fields/bls12/scalar_field.hpp:98-99 *)
Definition bls12_377_scalar_half : Z := 0x0955B2AF4D1652AB305A268F2E1BD800ACD53B7F680000008508C00000000000.
(* fields/bls12/base_field.hpp:64-65 *)
Definition bls12_381_base_half : Z := 0xD0088F51CBFF34D258DD3DB21A5D66BB23BA5C279C2895FB39869507B587B120F55FFFF58A9FFFFDCFF7FFFFFFFD555.
(* fields/bls12/base_field.hpp:97-98 *)
Definition bls12_377_base_half : Z := 0xD71D230BE28875631D82E03650A49D8D116CF9807A89C78F79B117DD04A4000B85AEA2180000004284600000000000.
(* fields/curve25519/base_field.hpp:62-63 *)
Definition curve25519_base_half : Z := 0x3ffffffffffffffffffffffffffffffffffffffffffffffffffffffffffffff6.
(* fields/alt_bn128/scalar_field.hpp:62-63 *)
Definition alt_bn128_scalar_half : Z := 0x183227397098d014dc2822db40c0ac2e9419f4243cdcb848a1f0fac9f8000000.
(* fields/alt_bn128/base_field.hpp:60-61 *)
Definition alt_bn128_base_half : Z := 0x183227397098D014DC2822DB40C0AC2ECBC0B548B438E5469E10460B6C3E7EA3.
(* fields/edwards/base_field.hpp:61-62 *)
Definition edwards_base_half : Z := 0x206AFE4E951CAD89C5C9276B1A16A0DB75B485C0000000.
