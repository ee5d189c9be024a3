(** C14, C15: sqrt and is_square.  [Terminates run y]: the call returns y;
    [Diverges run]: it never returns. *)
From Coq Require Import ZArith NArith List Bool Lia Znumtheory.
From Verif Require Import Base.Field Base.Zp Base.Ext Model.Fp Model.FieldParams Model.Shipped Model.Sqrt
  Proof.ExtTheory Proof.FpHelpers Proof.FiniteField Proof.Shipped Proof.ShippedTowers Proof.PrimesPairing Proof.PrimesMisc
  Proof.Sqrt Proof.SqrtShipped.
Import ListNotations.
Local Open Scope fld_scope.

Definition Terminates {A : Type} (run : nat -> option A) (y : A) : Prop :=
  exists n, forall fuel, (n <= fuel)%nat -> run fuel = Some y.
Definition Diverges {A : Type} (run : nat -> option A) : Prop := forall fuel, run fuel = None.
(** the full statement of C14, for a class with a given sqrt *)
Definition C14_statement (F : FieldOps) (sqrt : nat -> F -> option F) : Prop :=
  forall a : F, (exists y, y * y = a) -> exists r, Terminates (fun n => sqrt n a) r /\ r * r = a.

(** ** C14.  Proved for every square except zero; at zero it is false. *)
Theorem C14_bls12_381_partial (a : t12_Fp2 bls12_381_tower) : (exists y, y * y = a) -> a <> 0 ->
  exists r : t12_Fp2 bls12_381_tower, Terminates (fun fuel => fp2_sqrt bls12_base_field_381_modulus bls12_381_fp2_non_residue bls12_381_sqrt fuel a) r /\ r * r = a.
Proof.
  intros [y Hy] Ha.
  destruct (fp2_sqrt_square _ _ _ bls381_sqrt_check (proj1 (t12_fields _ bls381_p_prime bls381_field_check)) y a Hy Ha) as (r & H & E).
  exists r. split; [exists (Z.to_nat (sp_s bls12_381_sqrt)); exact H|exact E].
Qed.
Theorem C14_bls12_381_zero_refuted : ~ C14_statement (t12_Fp2 bls12_381_tower) (fp2_sqrt bls12_base_field_381_modulus bls12_381_fp2_non_residue bls12_381_sqrt).
Proof.
  intros H. destruct (H 0) as (r & [n Hn] & _).
  - exists 0. vm_compute. reflexivity.
  - specialize (Hn n (le_n n)).
    assert (E := fp2_sqrt_zero bls12_base_field_381_modulus bls12_381_fp2_non_residue bls12_381_sqrt (proj1 (t12_fields _ bls381_p_prime bls381_field_check)) n).
    assert (X : Some r = None) by (etransitivity; [symmetry; exact Hn|exact E]). discriminate X.
Qed.
Theorem C14_bls12_381_diverges (a : t12_Fp2 bls12_381_tower) : a = 0 \/ not_square a ->
  Diverges (fun fuel => fp2_sqrt bls12_base_field_381_modulus bls12_381_fp2_non_residue bls12_381_sqrt fuel a).
Proof.
  intros [->|H] fuel.
  - exact (fp2_sqrt_zero bls12_base_field_381_modulus bls12_381_fp2_non_residue bls12_381_sqrt (proj1 (t12_fields _ bls381_p_prime bls381_field_check)) fuel).
  - exact (fp2_sqrt_nonsquare _ _ _ bls381_sqrt_check (proj1 (t12_fields _ bls381_p_prime bls381_field_check)) fuel a H).
Qed.
Theorem C14_bls12_377_partial (a : t12_Fp2 bls12_377_tower) : (exists y, y * y = a) -> a <> 0 ->
  exists r : t12_Fp2 bls12_377_tower, Terminates (fun fuel => fp2_sqrt bls12_base_field_377_modulus bls12_377_fp2_non_residue bls12_377_sqrt fuel a) r /\ r * r = a.
Proof.
  intros [y Hy] Ha.
  destruct (fp2_sqrt_square _ _ _ bls377_sqrt_check (proj1 (t12_fields _ bls377_p_prime bls377_field_check)) y a Hy Ha) as (r & H & E).
  exists r. split; [exists (Z.to_nat (sp_s bls12_377_sqrt)); exact H|exact E].
Qed.
Theorem C14_bls12_377_zero_refuted : ~ C14_statement (t12_Fp2 bls12_377_tower) (fp2_sqrt bls12_base_field_377_modulus bls12_377_fp2_non_residue bls12_377_sqrt).
Proof.
  intros H. destruct (H 0) as (r & [n Hn] & _).
  - exists 0. vm_compute. reflexivity.
  - specialize (Hn n (le_n n)).
    assert (E := fp2_sqrt_zero bls12_base_field_377_modulus bls12_377_fp2_non_residue bls12_377_sqrt (proj1 (t12_fields _ bls377_p_prime bls377_field_check)) n).
    assert (X : Some r = None) by (etransitivity; [symmetry; exact Hn|exact E]). discriminate X.
Qed.
Theorem C14_bls12_377_diverges (a : t12_Fp2 bls12_377_tower) : a = 0 \/ not_square a ->
  Diverges (fun fuel => fp2_sqrt bls12_base_field_377_modulus bls12_377_fp2_non_residue bls12_377_sqrt fuel a).
Proof.
  intros [->|H] fuel.
  - exact (fp2_sqrt_zero bls12_base_field_377_modulus bls12_377_fp2_non_residue bls12_377_sqrt (proj1 (t12_fields _ bls377_p_prime bls377_field_check)) fuel).
  - exact (fp2_sqrt_nonsquare _ _ _ bls377_sqrt_check (proj1 (t12_fields _ bls377_p_prime bls377_field_check)) fuel a H).
Qed.
Theorem C14_alt_bn128_partial (a : t12_Fp2 alt_bn128_tower) : (exists y, y * y = a) -> a <> 0 ->
  exists r : t12_Fp2 alt_bn128_tower, Terminates (fun fuel => fp2_sqrt alt_bn128_base_field_254_modulus alt_bn128_fp2_non_residue alt_bn128_sqrt fuel a) r /\ r * r = a.
Proof.
  intros [y Hy] Ha.
  destruct (fp2_sqrt_square _ _ _ alt_bn_sqrt_check (proj1 (t12_fields _ alt_bn_p_prime alt_bn_field_check)) y a Hy Ha) as (r & H & E).
  exists r. split; [exists (Z.to_nat (sp_s alt_bn128_sqrt)); exact H|exact E].
Qed.
Theorem C14_alt_bn128_zero_refuted : ~ C14_statement (t12_Fp2 alt_bn128_tower) (fp2_sqrt alt_bn128_base_field_254_modulus alt_bn128_fp2_non_residue alt_bn128_sqrt).
Proof.
  intros H. destruct (H 0) as (r & [n Hn] & _).
  - exists 0. vm_compute. reflexivity.
  - specialize (Hn n (le_n n)).
    assert (E := fp2_sqrt_zero alt_bn128_base_field_254_modulus alt_bn128_fp2_non_residue alt_bn128_sqrt (proj1 (t12_fields _ alt_bn_p_prime alt_bn_field_check)) n).
    assert (X : Some r = None) by (etransitivity; [symmetry; exact Hn|exact E]). discriminate X.
Qed.
Theorem C14_alt_bn128_diverges (a : t12_Fp2 alt_bn128_tower) : a = 0 \/ not_square a ->
  Diverges (fun fuel => fp2_sqrt alt_bn128_base_field_254_modulus alt_bn128_fp2_non_residue alt_bn128_sqrt fuel a).
Proof.
  intros [->|H] fuel.
  - exact (fp2_sqrt_zero alt_bn128_base_field_254_modulus alt_bn128_fp2_non_residue alt_bn128_sqrt (proj1 (t12_fields _ alt_bn_p_prime alt_bn_field_check)) fuel).
  - exact (fp2_sqrt_nonsquare _ _ _ alt_bn_sqrt_check (proj1 (t12_fields _ alt_bn_p_prime alt_bn_field_check)) fuel a H).
Qed.
Theorem C14_bn128_partial (a : t12_Fp2 bn128_tower) : (exists y, y * y = a) -> a <> 0 ->
  exists r : t12_Fp2 bn128_tower, Terminates (fun fuel => fp2_sqrt bn128_base_field_254_modulus bn128_fp2_non_residue bn128_sqrt fuel a) r /\ r * r = a.
Proof.
  intros [y Hy] Ha.
  destruct (fp2_sqrt_square _ _ _ bn_sqrt_check (proj1 (t12_fields _ bn_p_prime bn_field_check)) y a Hy Ha) as (r & H & E).
  exists r. split; [exists (Z.to_nat (sp_s bn128_sqrt)); exact H|exact E].
Qed.
Theorem C14_bn128_zero_refuted : ~ C14_statement (t12_Fp2 bn128_tower) (fp2_sqrt bn128_base_field_254_modulus bn128_fp2_non_residue bn128_sqrt).
Proof.
  intros H. destruct (H 0) as (r & [n Hn] & _).
  - exists 0. vm_compute. reflexivity.
  - specialize (Hn n (le_n n)).
    assert (E := fp2_sqrt_zero bn128_base_field_254_modulus bn128_fp2_non_residue bn128_sqrt (proj1 (t12_fields _ bn_p_prime bn_field_check)) n).
    assert (X : Some r = None) by (etransitivity; [symmetry; exact Hn|exact E]). discriminate X.
Qed.
Theorem C14_bn128_diverges (a : t12_Fp2 bn128_tower) : a = 0 \/ not_square a ->
  Diverges (fun fuel => fp2_sqrt bn128_base_field_254_modulus bn128_fp2_non_residue bn128_sqrt fuel a).
Proof.
  intros [->|H] fuel.
  - exact (fp2_sqrt_zero bn128_base_field_254_modulus bn128_fp2_non_residue bn128_sqrt (proj1 (t12_fields _ bn_p_prime bn_field_check)) fuel).
  - exact (fp2_sqrt_nonsquare _ _ _ bn_sqrt_check (proj1 (t12_fields _ bn_p_prime bn_field_check)) fuel a H).
Qed.
Theorem C14_mnt4_partial (a : t4_Fp2 mnt4_tower) : (exists y, y * y = a) -> a <> 0 ->
  exists r : t4_Fp2 mnt4_tower, Terminates (fun fuel => fp2_sqrt mnt4_base_field_298_modulus mnt4_fp2_non_residue mnt4_sqrt fuel a) r /\ r * r = a.
Proof.
  intros [y Hy] Ha.
  destruct (fp2_sqrt_square _ _ _ mnt4_sqrt_check (proj1 (t4_fields _ mnt4_p_prime mnt4_field_check)) y a Hy Ha) as (r & H & E).
  exists r. split; [exists (Z.to_nat (sp_s mnt4_sqrt)); exact H|exact E].
Qed.
Theorem C14_mnt4_zero_refuted : ~ C14_statement (t4_Fp2 mnt4_tower) (fp2_sqrt mnt4_base_field_298_modulus mnt4_fp2_non_residue mnt4_sqrt).
Proof.
  intros H. destruct (H 0) as (r & [n Hn] & _).
  - exists 0. vm_compute. reflexivity.
  - specialize (Hn n (le_n n)).
    assert (E := fp2_sqrt_zero mnt4_base_field_298_modulus mnt4_fp2_non_residue mnt4_sqrt (proj1 (t4_fields _ mnt4_p_prime mnt4_field_check)) n).
    assert (X : Some r = None) by (etransitivity; [symmetry; exact Hn|exact E]). discriminate X.
Qed.
Theorem C14_mnt4_diverges (a : t4_Fp2 mnt4_tower) : a = 0 \/ not_square a ->
  Diverges (fun fuel => fp2_sqrt mnt4_base_field_298_modulus mnt4_fp2_non_residue mnt4_sqrt fuel a).
Proof.
  intros [->|H] fuel.
  - exact (fp2_sqrt_zero mnt4_base_field_298_modulus mnt4_fp2_non_residue mnt4_sqrt (proj1 (t4_fields _ mnt4_p_prime mnt4_field_check)) fuel).
  - exact (fp2_sqrt_nonsquare _ _ _ mnt4_sqrt_check (proj1 (t4_fields _ mnt4_p_prime mnt4_field_check)) fuel a H).
Qed.
Theorem C14_mnt6_partial (a : t6_Fp3 mnt6_tower) : (exists y, y * y = a) -> a <> 0 ->
  exists r : t6_Fp3 mnt6_tower, Terminates (fun fuel => fp3_sqrt mnt6_base_field_298_modulus mnt6_fp3_non_residue mnt6_sqrt fuel a) r /\ r * r = a.
Proof.
  intros [y Hy] Ha.
  destruct (fp3_sqrt_square _ _ _ mnt6_sqrt_check (proj1 (t6_fields _ mnt6_p_prime mnt6_field_check)) y a Hy Ha) as (r & H & E).
  exists r. split; [exists (Z.to_nat (sp_s mnt6_sqrt)); exact H|exact E].
Qed.
Theorem C14_mnt6_zero_refuted : ~ C14_statement (t6_Fp3 mnt6_tower) (fp3_sqrt mnt6_base_field_298_modulus mnt6_fp3_non_residue mnt6_sqrt).
Proof.
  intros H. destruct (H 0) as (r & [n Hn] & _).
  - exists 0. vm_compute. reflexivity.
  - specialize (Hn n (le_n n)).
    assert (E := fp3_sqrt_zero mnt6_base_field_298_modulus mnt6_fp3_non_residue mnt6_sqrt (proj1 (t6_fields _ mnt6_p_prime mnt6_field_check)) n).
    assert (X : Some r = None) by (etransitivity; [symmetry; exact Hn|exact E]). discriminate X.
Qed.
Theorem C14_mnt6_diverges (a : t6_Fp3 mnt6_tower) : a = 0 \/ not_square a ->
  Diverges (fun fuel => fp3_sqrt mnt6_base_field_298_modulus mnt6_fp3_non_residue mnt6_sqrt fuel a).
Proof.
  intros [->|H] fuel.
  - exact (fp3_sqrt_zero mnt6_base_field_298_modulus mnt6_fp3_non_residue mnt6_sqrt (proj1 (t6_fields _ mnt6_p_prime mnt6_field_check)) fuel).
  - exact (fp3_sqrt_nonsquare _ _ _ mnt6_sqrt_check (proj1 (t6_fields _ mnt6_p_prime mnt6_field_check)) fuel a H).
Qed.
Theorem C14_edwards_partial (a : t6_Fp3 edwards_tower) : (exists y, y * y = a) -> a <> 0 ->
  exists r : t6_Fp3 edwards_tower, Terminates (fun fuel => fp3_sqrt edwards_base_field_183_modulus edwards_fp3_non_residue edwards_sqrt fuel a) r /\ r * r = a.
Proof.
  intros [y Hy] Ha.
  destruct (fp3_sqrt_square _ _ _ edwards_sqrt_check (proj1 (t6_fields _ edwards_p_prime edwards_field_check)) y a Hy Ha) as (r & H & E).
  exists r. split; [exists (Z.to_nat (sp_s edwards_sqrt)); exact H|exact E].
Qed.
Theorem C14_edwards_zero_refuted : ~ C14_statement (t6_Fp3 edwards_tower) (fp3_sqrt edwards_base_field_183_modulus edwards_fp3_non_residue edwards_sqrt).
Proof.
  intros H. destruct (H 0) as (r & [n Hn] & _).
  - exists 0. vm_compute. reflexivity.
  - specialize (Hn n (le_n n)).
    assert (E := fp3_sqrt_zero edwards_base_field_183_modulus edwards_fp3_non_residue edwards_sqrt (proj1 (t6_fields _ edwards_p_prime edwards_field_check)) n).
    assert (X : Some r = None) by (etransitivity; [symmetry; exact Hn|exact E]). discriminate X.
Qed.
Theorem C14_edwards_diverges (a : t6_Fp3 edwards_tower) : a = 0 \/ not_square a ->
  Diverges (fun fuel => fp3_sqrt edwards_base_field_183_modulus edwards_fp3_non_residue edwards_sqrt fuel a).
Proof.
  intros [->|H] fuel.
  - exact (fp3_sqrt_zero edwards_base_field_183_modulus edwards_fp3_non_residue edwards_sqrt (proj1 (t6_fields _ edwards_p_prime edwards_field_check)) fuel).
  - exact (fp3_sqrt_nonsquare _ _ _ edwards_sqrt_check (proj1 (t6_fields _ edwards_p_prime edwards_field_check)) fuel a H).
Qed.
(** the theorem applies to 9 = 3 * 3 *)
Example C14_example : exists r : t6_Fp3 edwards_tower,
  Terminates (fun fuel => fp3_sqrt edwards_base_field_183_modulus edwards_fp3_non_residue edwards_sqrt fuel
    (lit3 edwards_base_field_183_modulus [9; 0; 0]%Z)) r /\ r * r = lit3 edwards_base_field_183_modulus [9; 0; 0]%Z.
Proof.
  apply C14_edwards_partial.
  - exists (lit3 edwards_base_field_183_modulus [3; 0; 0]%Z).
    apply (feqb_true _ (FieldLaws_Ring _ (FF_field _ _ _ (proj1 (t6_fields _ edwards_p_prime edwards_field_check))))).
    vm_compute. reflexivity.
  - intros E. apply (f_equal (fun z => zval (c0 z))) in E. vm_compute in E. discriminate E.
Qed.

(** ** C15 *)
Theorem C15_bls12_381_fp2 (x : t12_Fp2 bls12_381_tower) :
  fp2_is_square bls12_base_field_381_modulus bls12_381_fp2_non_residue bls12_381_fp2_group_order_minus_one_half x = true <->
  exists y : t12_Fp2 bls12_381_tower, y * y = x.
Proof.
  apply (fp2_is_square_ok _ _ _ bls381_sqrt_check (proj1 (t12_fields _ bls381_p_prime bls381_field_check))). vm_compute. reflexivity.
Qed.
Theorem C15_bls12_377_fp2 (x : t12_Fp2 bls12_377_tower) :
  fp2_is_square bls12_base_field_377_modulus bls12_377_fp2_non_residue bls12_377_fp2_group_order_minus_one_half x = true <->
  exists y : t12_Fp2 bls12_377_tower, y * y = x.
Proof.
  apply (fp2_is_square_ok _ _ _ bls377_sqrt_check (proj1 (t12_fields _ bls377_p_prime bls377_field_check))). vm_compute. reflexivity.
Qed.
Theorem C15_alt_bn128_fp2 (x : t12_Fp2 alt_bn128_tower) :
  fp2_is_square alt_bn128_base_field_254_modulus alt_bn128_fp2_non_residue alt_bn128_fp2_group_order_minus_one_half x = true <->
  exists y : t12_Fp2 alt_bn128_tower, y * y = x.
Proof.
  apply (fp2_is_square_ok _ _ _ alt_bn_sqrt_check (proj1 (t12_fields _ alt_bn_p_prime alt_bn_field_check))). vm_compute. reflexivity.
Qed.
Theorem C15_bn128_fp2 (x : t12_Fp2 bn128_tower) :
  fp2_is_square bn128_base_field_254_modulus bn128_fp2_non_residue bn128_fp2_group_order_minus_one_half x = true <->
  exists y : t12_Fp2 bn128_tower, y * y = x.
Proof.
  apply (fp2_is_square_ok _ _ _ bn_sqrt_check (proj1 (t12_fields _ bn_p_prime bn_field_check))). vm_compute. reflexivity.
Qed.
Theorem C15_mnt4_fp2 (x : t4_Fp2 mnt4_tower) :
  fp2_is_square mnt4_base_field_298_modulus mnt4_fp2_non_residue mnt4_fp2_group_order_minus_one_half x = true <->
  exists y : t4_Fp2 mnt4_tower, y * y = x.
Proof.
  apply (fp2_is_square_ok _ _ _ mnt4_sqrt_check (proj1 (t4_fields _ mnt4_p_prime mnt4_field_check))). vm_compute. reflexivity.
Qed.
Theorem C15_mnt6_fp3 (x : t6_Fp3 mnt6_tower) :
  fp3_is_square mnt6_base_field_298_modulus mnt6_fp3_non_residue mnt6_fp3_group_order_minus_one_half x = true <->
  exists y : t6_Fp3 mnt6_tower, y * y = x.
Proof.
  apply (fp3_is_square_ok _ _ _ mnt6_sqrt_check (proj1 (t6_fields _ mnt6_p_prime mnt6_field_check))). vm_compute. reflexivity.
Qed.
(** prime fields: for every odd prime, and the shipped constants *)
Theorem C15_prime (p half : Z) (x : Zp p) : prime p -> (2 < p)%Z -> half = ((p - 1) / 2)%Z ->
  fp_is_square p half x = true <-> exists y : Zp p, y * y = x.
Proof.
  intros Hp H2 ->. unfold fp_is_square.
  assert (Ho : (p mod 2 = 1)%Z).
  { destruct (Z.mod_pos_bound p 2 ltac:(lia)). destruct (Z.eq_dec (p mod 2) 0) as [E|E]; [|lia].
    apply Z.mod_divide in E; [|lia]. apply prime_div_prime in E; [lia|exact prime_2|exact Hp]. }
  apply (zp_is_square_ok p Hp H2); [intros; apply fp_powm_eq; lia|].
  assert (Hd := Z.div_mod p 2 ltac:(lia)). rewrite Ho in Hd.
  replace ((p - 1) / 2)%Z with (p / 2)%Z; [lia|].
  apply (Z.div_unique_exact (p - 1) 2); lia.
Qed.
Theorem C15_mnt4_base (x : Zp mnt4_base_field_298_modulus) :
  fp_is_square mnt4_base_field_298_modulus mnt4_base_half x = true <-> exists y : Zp mnt4_base_field_298_modulus, y * y = x.
Proof. apply C15_prime; [exact prime_mnt4_base_field_298|vm_compute; reflexivity|vm_compute; reflexivity]. Qed.
Theorem C15_mnt6_base (x : Zp mnt6_base_field_298_modulus) :
  fp_is_square mnt6_base_field_298_modulus mnt6_base_half x = true <-> exists y : Zp mnt6_base_field_298_modulus, y * y = x.
Proof. apply C15_prime; [exact prime_mnt6_base_field_298|vm_compute; reflexivity|vm_compute; reflexivity]. Qed.
Theorem C15_bls12_381_base (x : Zp bls12_base_field_381_modulus) :
  fp_is_square bls12_base_field_381_modulus bls12_381_base_half x = true <-> exists y : Zp bls12_base_field_381_modulus, y * y = x.
Proof. apply C15_prime; [exact prime_bls12_base_field_381|vm_compute; reflexivity|vm_compute; reflexivity]. Qed.
Theorem C15_bls12_377_base (x : Zp bls12_base_field_377_modulus) :
  fp_is_square bls12_base_field_377_modulus bls12_377_base_half x = true <-> exists y : Zp bls12_base_field_377_modulus, y * y = x.
Proof. apply C15_prime; [exact prime_bls12_base_field_377|vm_compute; reflexivity|vm_compute; reflexivity]. Qed.
Theorem C15_bls12_381_scalar (x : Zp bls12_scalar_field_381_modulus) :
  fp_is_square bls12_scalar_field_381_modulus bls12_381_scalar_half x = true <-> exists y : Zp bls12_scalar_field_381_modulus, y * y = x.
Proof. apply C15_prime; [exact prime_bls12_scalar_field_381|vm_compute; reflexivity|vm_compute; reflexivity]. Qed.
Theorem C15_bls12_377_scalar (x : Zp bls12_scalar_field_377_modulus) :
  fp_is_square bls12_scalar_field_377_modulus bls12_377_scalar_half x = true <-> exists y : Zp bls12_scalar_field_377_modulus, y * y = x.
Proof. apply C15_prime; [exact prime_bls12_scalar_field_377|vm_compute; reflexivity|vm_compute; reflexivity]. Qed.
Theorem C15_alt_bn128_base (x : Zp alt_bn128_base_field_254_modulus) :
  fp_is_square alt_bn128_base_field_254_modulus alt_bn128_base_half x = true <-> exists y : Zp alt_bn128_base_field_254_modulus, y * y = x.
Proof. apply C15_prime; [exact prime_alt_bn128_base_field_254|vm_compute; reflexivity|vm_compute; reflexivity]. Qed.
Theorem C15_alt_bn128_scalar (x : Zp alt_bn128_scalar_field_254_modulus) :
  fp_is_square alt_bn128_scalar_field_254_modulus alt_bn128_scalar_half x = true <-> exists y : Zp alt_bn128_scalar_field_254_modulus, y * y = x.
Proof. apply C15_prime; [exact prime_alt_bn128_scalar_field_254|vm_compute; reflexivity|vm_compute; reflexivity]. Qed.
Theorem C15_curve25519_base (x : Zp curve25519_base_field_modulus) :
  fp_is_square curve25519_base_field_modulus curve25519_base_half x = true <-> exists y : Zp curve25519_base_field_modulus, y * y = x.
Proof. apply C15_prime; [exact prime_curve25519_base_field|vm_compute; reflexivity|vm_compute; reflexivity]. Qed.
Theorem C15_edwards_base (x : Zp edwards_base_field_183_modulus) :
  fp_is_square edwards_base_field_183_modulus edwards_base_half x = true <-> exists y : Zp edwards_base_field_183_modulus, y * y = x.
Proof. apply C15_prime; [exact prime_edwards_base_field_183|vm_compute; reflexivity|vm_compute; reflexivity]. Qed.
(** both answers occur *)
Example C15_example_7 : fp_is_square 7 3 (tozp 7 2) = true /\ fp_is_square 7 3 (tozp 7 3) = false.
Proof. split; vm_compute; reflexivity. Qed.
Example C15_example_square : fp_is_square mnt4_base_field_298_modulus mnt4_base_half (tozp _ 9) = true.
Proof. apply C15_mnt4_base. exists (tozp _ 3). apply zp_ext. vm_compute. reflexivity. Qed.
(** an element of Fp2 outside the prime field with a root *)
Definition mnt4_u (a b : Z) : t4_Fp2 mnt4_tower := mkq (tozp mnt4_base_field_298_modulus a) (tozp mnt4_base_field_298_modulus b).
Example C14_mnt4_square : exists r : t4_Fp2 mnt4_tower,
  Terminates (fun fuel => fp2_sqrt mnt4_base_field_298_modulus mnt4_fp2_non_residue mnt4_sqrt fuel (mnt4_u 21 4)) r /\ r * r = mnt4_u 21 4.
Proof.
  apply C14_mnt4_partial.
  - exists (mnt4_u 2 1). apply (feqb_true _ (FieldLaws_Ring _ (FF_field _ _ _ (proj1 (t4_fields _ mnt4_p_prime mnt4_field_check))))).
    vm_compute. reflexivity.
  - intros E. apply (f_equal (fun z => zval (q0 z))) in E. vm_compute in E. discriminate E.
Qed.
