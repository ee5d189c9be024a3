(** The reduced ate pairings of the shipped curves, as in textbooks:
    (f_(T,Q)(P))^e with Q moved from the twist to the curve over the full extension. *)
From Coq Require Import ZArith NArith PArith List.
From Verif Require Import Base.Field Base.Zp Base.Ext Spec.Weierstrass Spec.Pairing Spec.EdwardsWeierstrass Model.Fp2 Model.FieldParams Model.Shipped.
Local Open Scope fld_scope.

(** ** bls12-381: T = z = -0xd201000000010000, e = 3 (p^12 - 1) / r *)
Notation bls_t := bls12_381_tower.
Definition bls_r : N := Z.to_N bls12_scalar_field_381_modulus.
Definition bls_e : N := 3 * ((Z.to_N bls12_base_field_381_modulus ^ 12 - 1) / bls_r).
Definition bls_n : positive := 0xD201000000010000.
Definition bls_inc : Zp bls12_base_field_381_modulus -> t12_Fp2 bls_t :=
  inc2 (Zp bls12_base_field_381_modulus) (tozp bls12_base_field_381_modulus bls12_381_fp2_non_residue).
Definition bls_emb : t12_Fp2 bls_t -> t12_Fp12 bls_t :=
  emb12 (t12_Fp2 bls_t) (fp2_sqr (Zp bls12_base_field_381_modulus) (tozp bls12_base_field_381_modulus bls12_381_fp2_non_residue))
    (lit2 bls12_base_field_381_modulus (t12_xi6 bls_t)).
Definition bls_w : t12_Fp12 bls_t :=
  w12 (t12_Fp2 bls_t) (fp2_sqr (Zp bls12_base_field_381_modulus) (tozp bls12_base_field_381_modulus bls12_381_fp2_non_residue))
    (lit2 bls12_base_field_381_modulus (t12_xi6 bls_t)).
Definition ate_bls12_381 (P : point (Zp bls12_base_field_381_modulus)) (Q : point (t12_Fp2 bls_t)) : t12_Fp12 bls_t :=
  fpow (miller_fun_neg (t12_Fp12 bls_t) 0 bls_n (untwist bls_emb bls_w Q) (point_map (fun x => bls_emb (bls_inc x)) P)) bls_e.

(** ** mnt4-298 and mnt6-298: T = t - 1 = n and -n for the same n; each group order is the
    other curve's base field modulus *)
Definition mnt4_p : Z := mnt4_base_field_298_modulus.
Definition mnt6_p : Z := mnt6_base_field_298_modulus.
Definition mnt4_r : N := Z.to_N mnt6_base_field_298_modulus.
Definition mnt6_r : N := Z.to_N mnt4_base_field_298_modulus.
Definition mnt4_e : N := (Z.to_N mnt4_p ^ 4 - 1) / mnt4_r.
Definition mnt6_e : N := (Z.to_N mnt6_p ^ 6 - 1) / mnt6_r.
Definition mnt_n : positive := 0x1EEF5546609756BEC2A33F0DC9A1B671660000.
Definition mnt4_inc : Zp mnt4_p -> t4_Fp2 mnt4_tower := inc2 (Zp mnt4_p) (tozp mnt4_p mnt4_fp2_non_residue).
Definition mnt4_emb : t4_Fp2 mnt4_tower -> t4_Fp4 mnt4_tower := emb4 (Zp mnt4_p) (tozp mnt4_p mnt4_fp2_non_residue).
Definition mnt4_wt : t4_Fp4 mnt4_tower := w4 (Zp mnt4_p) (tozp mnt4_p mnt4_fp2_non_residue).
Definition mnt6_inc : Zp mnt6_p -> t6_Fp3 mnt6_tower := inc3 (Zp mnt6_p) (tozp mnt6_p mnt6_fp3_non_residue).
Definition mnt6_emb : t6_Fp3 mnt6_tower -> t6_Fp6 mnt6_tower := emb6 (Zp mnt6_p) (tozp mnt6_p mnt6_fp3_non_residue).
Definition mnt6_wt : t6_Fp6 mnt6_tower := w6 (Zp mnt6_p) (tozp mnt6_p mnt6_fp3_non_residue).
Definition ate_mnt4 (a : Zp mnt4_p) (P : point (Zp mnt4_p)) (Q : point (t4_Fp2 mnt4_tower)) : t4_Fp4 mnt4_tower :=
  fpow (miller_fun (t4_Fp4 mnt4_tower) (mnt4_emb (mnt4_inc a)) mnt_n (untwist mnt4_emb mnt4_wt Q)
    (point_map (fun x => mnt4_emb (mnt4_inc x)) P)) mnt4_e.
Definition ate_mnt6 (a : Zp mnt6_p) (P : point (Zp mnt6_p)) (Q : point (t6_Fp3 mnt6_tower)) : t6_Fp6 mnt6_tower :=
  fpow (miller_fun_neg (t6_Fp6 mnt6_tower) (mnt6_emb (mnt6_inc a)) mnt_n (untwist mnt6_emb mnt6_wt Q)
    (point_map (fun x => mnt6_emb (mnt6_inc x)) P)) mnt6_e.

(** ** edwards-183: x^2 + y^2 = 1 + d x^2 y^2 and its twist by v, both moved to Weierstrass form.
    n = -p modulo r, so this is the Miller function of -(t - 1); its power is the inverse of the
    ate pairing with T = t - 1. *)
Definition edwards_p : Z := edwards_base_field_183_modulus.
Definition edwards_r : N := Z.to_N edwards_scalar_field_183_modulus.
Definition edwards_e : N := (Z.to_N edwards_p ^ 6 - 1) / edwards_r.
Definition edwards_n : positive := 0xE841DEEC0A9E39280000003.
Definition edwards_inc : Zp edwards_p -> t6_Fp3 edwards_tower := inc3 (Zp edwards_p) (tozp edwards_p edwards_fp3_non_residue).
Definition edwards_emb : t6_Fp3 edwards_tower -> t6_Fp6 edwards_tower := emb6 (Zp edwards_p) (tozp edwards_p edwards_fp3_non_residue).
Definition edwards_wt : t6_Fp6 edwards_tower := w6 (Zp edwards_p) (tozp edwards_p edwards_fp3_non_residue).
Definition edwards_ta : t6_Fp3 edwards_tower := mkc (0 : Zp edwards_p) 1 0.
Definition edwards_td (d : Zp edwards_p) : t6_Fp3 edwards_tower := mkc (0 : Zp edwards_p) d 0.
Definition ate_edwards (d : Zp edwards_p) (P : Zp edwards_p * Zp edwards_p) (Q : t6_Fp3 edwards_tower * t6_Fp3 edwards_tower)
    : t6_Fp6 edwards_tower :=
  fpow (miller_fun (t6_Fp6 edwards_tower) (edwards_emb (edwards_inc (te_wa (Zp edwards_p) 1 d))) edwards_n
    (untwist edwards_emb edwards_wt (te_weier (t6_Fp3 edwards_tower) edwards_ta (edwards_td d) Q))
    (point_map (fun x => edwards_emb (edwards_inc x)) (te_weier (Zp edwards_p) 1 d P))) edwards_e.
