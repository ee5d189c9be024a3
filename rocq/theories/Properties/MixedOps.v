(** C57: operators between a prime field element and an integer. *)
From Coq Require Import ZArith.
From Verif Require Import Base.Field Base.Zp Model.Fp Model.MixedOps.
Local Open Scope Z_scope.

(** the result is the integer result reduced modulo p *)
Theorem C57_fp_integer_operators (p : Z) (x : Zp p) (n : Z) :
  zval (fp_add_int p x n) = (zval x + n) mod p /\ zval (fp_sub_int p x n) = (zval x - n) mod p /\
  zval (fp_mul_int p x n) = (zval x * n) mod p /\ zval (int_add_fp p n x) = (n + zval x) mod p /\
  zval (int_sub_fp p n x) = (n - zval x) mod p /\ zval (int_mul_fp p n x) = (n * zval x) mod p.
Proof.
  unfold fp_add_int, fp_sub_int, fp_mul_int, int_add_fp, int_sub_fp, int_mul_fp, fp_of_int.
  cbn [car fadd fsub fmul Zp]. rewrite !zval_tozp.
  repeat split; try (apply Zplus_mod_idemp_r || apply Zplus_mod_idemp_l || apply Zminus_mod_idemp_r ||
    apply Zminus_mod_idemp_l || apply Zmult_mod_idemp_r || apply Zmult_mod_idemp_l).
Qed.
Example C57_fp_integer_operators_ex :
  zval (fp_sub_int 7 (tozp 7 3) 5) = 5 /\ zval (int_sub_fp 7 (-5) (tozp 7 3)) = 6 /\ zval (fp_mul_int 7 (tozp 7 3) (-2)) = 1.
Proof. vm_compute. repeat split. Qed.
Print Assumptions C57_fp_integer_operators.
