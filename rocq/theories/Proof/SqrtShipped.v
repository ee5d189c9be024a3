(** The sqrt parameters of the shipped fp2 and fp3 classes, evaluated on BigN. *)
From Coq Require Import ZArith NArith List Bool Lia Znumtheory.
From Bignums Require Import BigN.BigN.
From Verif Require Import Base.Field Base.Zp Base.Ext Base.Hom Base.BigZp Model.Fp2 Model.Fp3 Model.FieldParams
  Model.Shipped Model.Sqrt Proof.ExtTheory Proof.Power Proof.Towers Proof.Homs Proof.FiniteField Proof.Shipped Proof.Sqrt.
Import ListNotations.

Lemma hom_isq {A B : FieldOps} (h : A -> B) (H : Hom A B h) k : forall x, h (isq k x) = isq k (h x).
Proof. induction k as [|k IH]; intros x; [reflexivity|]. cbn. rewrite IH, (hom_mul _ _ _ H). reflexivity. Qed.

Definition big3 (l : list Z) : cub BigN.t :=
  mkc (bigz (nth 0 l 0%Z)) (bigz (nth 1 l 0%Z)) (bigz (nth 2 l 0%Z)).
Lemma lit3_big3 p l : nonneg l = true -> lit3 p l = cmap (of_big p) (big3 l).
Proof.
  intros H. unfold lit3, big3, cmap; cbn [c0 c1 c2]. rewrite !of_big_bigz by (apply nonneg_nth, H). reflexivity.
Qed.

Definition sqrt_int_check (n : N) (p nr : Z) (c : sqrt_params) : bool :=
  (2 <? p)%Z && (0 <=? nr)%Z && (1 <=? sp_s c)%Z && (0 <=? sp_tm1h c)%Z && nonneg (sp_nqr_t c) &&
  (p ^ Z.of_N n - 1 =? 2 ^ sp_s c * (2 * sp_tm1h c + 1))%Z.
Definition sqrt_check2 (p nr : Z) (c : sqrt_params) : bool :=
  let F := Fp2 (BigZp (bigz p)) (bigz nr) in
  sqrt_int_check 2 p nr c && @feqb F (isq (F := F) (Z.to_nat (sp_s c) - 1) (big2 (sp_nqr_t c))) (@fopp F f1).
Definition sqrt_check3 (p nr : Z) (c : sqrt_params) : bool :=
  let F := Fp3 (BigZp (bigz p)) (bigz nr) in
  sqrt_int_check 3 p nr c && @feqb F (isq (F := F) (Z.to_nat (sp_s c) - 1) (big3 (sp_nqr_t c))) (@fopp F f1).

Lemma sqrt_ints n p nr c : sqrt_int_check n p nr c = true ->
  (2 < p)%Z /\ (0 <= nr)%Z /\ (1 <= Z.to_nat (sp_s c))%nat /\ nonneg (sp_nqr_t c) = true /\
  (Z.to_N p ^ n - 1 = 2 ^ N.of_nat (Z.to_nat (sp_s c)) * (2 * Z.to_N (sp_tm1h c) + 1))%N.
Proof.
  unfold sqrt_int_check. rewrite !andb_true_iff, Z.ltb_lt, !Z.leb_le, Z.eqb_eq.
  intros [[[[[H1 H2] H3] H4] H5] H6]. repeat split; try assumption; [lia|].
  apply N2Z.inj. rewrite N2Z.inj_mul, N2Z.inj_pow, nat_N_Z, Z2Nat.id, N2Z.inj_add, N2Z.inj_mul, Z2N.id by lia.
  rewrite N2Z.inj_sub.
  - rewrite N2Z.inj_pow, Z2N.id by lia. exact H6.
  - assert (H := N.pow_nonzero (Z.to_N p) n ltac:(lia)). lia.
Qed.

Section Two.
  Variables (p nr : Z) (c : sqrt_params).
  Hypothesis Hc : sqrt_check2 p nr c = true.
  Local Notation F := (Fp2 (Zp p) (tozp p nr)).
  Hypothesis FF : FinField F (Z.to_N p) 2.
  Lemma sqrt2_facts : (1 <= Z.to_nat (sp_s c))%nat /\ Z.to_N p <> 2%N /\
    (Z.to_N p ^ 2 - 1 = 2 ^ N.of_nat (Z.to_nat (sp_s c)) * (2 * Z.to_N (sp_tm1h c) + 1))%N /\
    isq (F := F) (Z.to_nat (sp_s c) - 1) (lit2 p (sp_nqr_t c)) = fopp f1.
  Proof.
    unfold sqrt_check2 in Hc. apply andb_true_iff in Hc. destruct Hc as [Hi Hq].
    destruct (sqrt_ints _ _ _ _ Hi) as (H1 & H2 & H3 & H4 & H5).
    split; [exact H3|]. split; [lia|]. split; [exact H5|].
    assert (HH : Hom (BigZp (bigz p)) (Zp p) (of_big p)) by (apply BigZp_hom; [lia|apply bigz_spec; lia]).
    assert (R := FieldLaws_Ring _ (FF_field _ _ _ FF)). revert R.
    rewrite (lit2_big2 p _ H4), <- (of_big_bigz p _ H2). intros R.
    assert (H2' := hom_fp2 _ HH (bigz nr)).
    rewrite <- (hom_isq _ H2'), <- (hom_1 _ _ _ H2'), <- (hom_opp _ _ _ H2').
    apply (hom_eqb_true _ H2' _ _ R), Hq.
  Qed.
  Lemma fp2_sqr_mul (x : F) : fp2_sqr (Zp p) (tozp p nr) x = fmul x x.
  Proof. apply (fp2_sqr_eq (Zp p) (tozp p nr) (Zp_ring p)). Qed.
  Lemma fp2_pow_fpow (x : F) e : fp2_pow (Zp p) (tozp p nr) x e = fpow x e.
  Proof.
    apply (power_gen F (FieldLaws_Ring _ (FF_field _ _ _ FF))); [reflexivity|reflexivity|exact fp2_sqr_mul].
  Qed.
  Lemma fp2_sqrt_square (y a : F) : fmul y y = a -> a <> f0 ->
    exists r, (forall fuel, (Z.to_nat (sp_s c) <= fuel)%nat -> fp2_sqrt p nr c fuel a = Some r) /\ fmul r r = a.
  Proof.
    destruct sqrt2_facts as (H1 & H2 & H3 & H4).
    exact (ts_sqrt_square F _ _ FF H2 _ _ _ H1 H3 H4 _ _ fp2_sqr_mul fp2_pow_fpow y a).
  Qed.
  Lemma fp2_sqrt_zero fuel : fp2_sqrt p nr c fuel f0 = None.
  Proof. exact (ts_sqrt_zero F _ _ FF _ _ _ _ _ fp2_sqr_mul fuel). Qed.
  Lemma fp2_sqrt_nonsquare fuel (a : F) : not_square a -> fp2_sqrt p nr c fuel a = None.
  Proof.
    destruct sqrt2_facts as (H1 & H2 & H3 & H4).
    exact (ts_sqrt_nonsquare F _ _ FF H2 _ _ _ H1 H3 H4 _ _ fp2_sqr_mul fp2_pow_fpow fuel a).
  Qed.
  Lemma fp2_is_square_ok half : (2 * Z.to_N half = Z.to_N p ^ 2 - 1)%N -> forall x : F,
    fp2_is_square p nr half x = true <-> exists y, fmul y y = x.
  Proof.
    destruct sqrt2_facts as (H1 & H2 & H3 & H4).
    exact (is_square_ok F _ _ FF H2 _ _ _ H1 H3 H4 _ _ fp2_sqr_mul fp2_pow_fpow (Z.to_N half)).
  Qed.
End Two.

Section Three.
  Variables (p nr : Z) (c : sqrt_params).
  Hypothesis Hc : sqrt_check3 p nr c = true.
  Local Notation F := (Fp3 (Zp p) (tozp p nr)).
  Hypothesis FF : FinField F (Z.to_N p) 3.
  Lemma sqrt3_facts : (1 <= Z.to_nat (sp_s c))%nat /\ Z.to_N p <> 2%N /\
    (Z.to_N p ^ 3 - 1 = 2 ^ N.of_nat (Z.to_nat (sp_s c)) * (2 * Z.to_N (sp_tm1h c) + 1))%N /\
    isq (F := F) (Z.to_nat (sp_s c) - 1) (lit3 p (sp_nqr_t c)) = fopp f1.
  Proof.
    unfold sqrt_check3 in Hc. apply andb_true_iff in Hc. destruct Hc as [Hi Hq].
    destruct (sqrt_ints _ _ _ _ Hi) as (H1 & H2 & H3 & H4 & H5).
    split; [exact H3|]. split; [lia|]. split; [exact H5|].
    assert (HH : Hom (BigZp (bigz p)) (Zp p) (of_big p)) by (apply BigZp_hom; [lia|apply bigz_spec; lia]).
    assert (R := FieldLaws_Ring _ (FF_field _ _ _ FF)). revert R.
    rewrite (lit3_big3 p _ H4), <- (of_big_bigz p _ H2). intros R.
    assert (H2' := hom_fp3 _ HH (bigz nr)).
    rewrite <- (hom_isq _ H2'), <- (hom_1 _ _ _ H2'), <- (hom_opp _ _ _ H2').
    apply (hom_eqb_true _ H2' _ _ R), Hq.
  Qed.
  Lemma fp3_sqr_mul (x : F) : fp3_sqr (Zp p) (tozp p nr) x = fmul x x.
  Proof. reflexivity. Qed.
  Lemma fp3_pow_fpow (x : F) e : fp3_pow (Zp p) (tozp p nr) x e = fpow x e.
  Proof.
    apply (power_gen F (FieldLaws_Ring _ (FF_field _ _ _ FF))); reflexivity.
  Qed.
  Lemma fp3_sqrt_square (y a : F) : fmul y y = a -> a <> f0 ->
    exists r, (forall fuel, (Z.to_nat (sp_s c) <= fuel)%nat -> fp3_sqrt p nr c fuel a = Some r) /\ fmul r r = a.
  Proof.
    destruct sqrt3_facts as (H1 & H2 & H3 & H4).
    exact (ts_sqrt_square F _ _ FF H2 _ _ _ H1 H3 H4 _ _ fp3_sqr_mul fp3_pow_fpow y a).
  Qed.
  Lemma fp3_sqrt_zero fuel : fp3_sqrt p nr c fuel f0 = None.
  Proof. exact (ts_sqrt_zero F _ _ FF _ _ _ _ _ fp3_sqr_mul fuel). Qed.
  Lemma fp3_sqrt_nonsquare fuel (a : F) : not_square a -> fp3_sqrt p nr c fuel a = None.
  Proof.
    destruct sqrt3_facts as (H1 & H2 & H3 & H4).
    exact (ts_sqrt_nonsquare F _ _ FF H2 _ _ _ H1 H3 H4 _ _ fp3_sqr_mul fp3_pow_fpow fuel a).
  Qed.
  Lemma fp3_is_square_ok half : (2 * Z.to_N half = Z.to_N p ^ 3 - 1)%N -> forall x : F,
    fp3_is_square p nr half x = true <-> exists y, fmul y y = x.
  Proof.
    destruct sqrt3_facts as (H1 & H2 & H3 & H4).
    exact (is_square_ok F _ _ FF H2 _ _ _ H1 H3 H4 _ _ fp3_sqr_mul fp3_pow_fpow (Z.to_N half)).
  Qed.
End Three.

Lemma bls381_sqrt_check : sqrt_check2 bls12_base_field_381_modulus bls12_381_fp2_non_residue bls12_381_sqrt = true.
Proof. vm_cast_no_check (eq_refl true). Qed.
Lemma bls377_sqrt_check : sqrt_check2 bls12_base_field_377_modulus bls12_377_fp2_non_residue bls12_377_sqrt = true.
Proof. vm_cast_no_check (eq_refl true). Qed.
Lemma alt_bn_sqrt_check : sqrt_check2 alt_bn128_base_field_254_modulus alt_bn128_fp2_non_residue alt_bn128_sqrt = true.
Proof. vm_cast_no_check (eq_refl true). Qed.
Lemma bn_sqrt_check : sqrt_check2 bn128_base_field_254_modulus bn128_fp2_non_residue bn128_sqrt = true.
Proof. vm_cast_no_check (eq_refl true). Qed.
Lemma mnt4_sqrt_check : sqrt_check2 mnt4_base_field_298_modulus mnt4_fp2_non_residue mnt4_sqrt = true.
Proof. vm_cast_no_check (eq_refl true). Qed.
Lemma mnt6_sqrt_check : sqrt_check3 mnt6_base_field_298_modulus mnt6_fp3_non_residue mnt6_sqrt = true.
Proof. vm_cast_no_check (eq_refl true). Qed.
Lemma edwards_sqrt_check : sqrt_check3 edwards_base_field_183_modulus edwards_fp3_non_residue edwards_sqrt = true.
Proof. vm_cast_no_check (eq_refl true). Qed.
