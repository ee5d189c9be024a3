(** A/fields/detail/element/operations.hpp: operators between a field element and an
    integer.  element_fp is the only class constructible from one integer. *)
From Coq Require Import ZArith.
From Verif Require Import Base.Field Base.Zp Model.Fp.
Local Open Scope fld_scope.

Section MixedOps.
  Variable p : Z.
  (* operations.hpp:36-41 *)
  Definition fp_add_int (A : Zp p) (B : Z) : Zp p := A + fp_of_int p B.
  (* operations.hpp:43-48 *)
  Definition fp_sub_int (A : Zp p) (B : Z) : Zp p := A - fp_of_int p B.
  (* operations.hpp:50-55 *)
  Definition fp_mul_int (A : Zp p) (B : Z) : Zp p := A * fp_of_int p B.
  (* operations.hpp:57-62 *)
  Definition int_add_fp (A : Z) (B : Zp p) : Zp p := fp_of_int p A + B.
  (* operations.hpp:64-69 *)
  Definition int_sub_fp (A : Z) (B : Zp p) : Zp p := fp_of_int p A - B.
  (* operations.hpp:71-76 *)
  Definition int_mul_fp (A : Z) (B : Zp p) : Zp p := fp_of_int p A * B.
End MixedOps.
