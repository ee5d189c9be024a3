(** [pair] of the shipped curves, evaluated on machine integers. *)
From Coq Require Import ZArith NArith List Bool Lia Znumtheory Field_theory.
From Bignums Require Import BigN.
From Verif Require Import Base.Field Base.Zp Base.Ext Base.Hom Base.BigZp
  Model.FieldParams Model.Shipped Model.CurveParams Model.Generators Model.ShortWeierstrass Model.Edwards Model.EdwardsG2
  Model.FinalExp Model.Pairing Model.Fp2 Model.Fp3 Model.Fp4 Model.Fp6_2over3 Model.Fp6_3over2 Model.Fp12
  Proof.Homs Proof.FastField Proof.PairingMap Proof.PairingValues Proof.OrderCheck Proof.Shipped Proof.ShippedTowers Proof.Generators.
Import ListNotations.
Local Open Scope fld_scope.

Lemma zero_fill_map {A B : FieldOps} (h : A -> B) (H : FHom A B h) std : h (zero_fill_y A std) = zero_fill_y B std.
Proof. destruct std; cbn [zero_fill_y]; [apply (hom_1 _ _ _ (fh_hom _ _ _ H))|apply (hom_0 _ _ _ (fh_hom _ _ _ H))]. Qed.
Lemma lits_map p l : nonneg l = true -> lits p l = map (of_big p) (map bigz l).
Proof.
  unfold lits, nonneg. induction l as [|z l IH]; [reflexivity|]. cbn [forallb map]. intros E. apply andb_true_iff in E. destruct E as [E1 E2].
  rewrite of_big_bigz by (apply Z.leb_le, E1). rewrite IH by exact E2. reflexivity.
Qed.

Lemma gbls_pair_eq (K : FieldOps) n n' x x' y y' t t' u u' (v v' : K) w w' P qx qy qz : n = n' -> x = x' -> y = y' -> t = t' -> u = u' -> v = v' -> w = w' ->
  gbls_pair K n x y t u v w P qx qy qz = gbls_pair K n' x' y' t' u' v' w' P qx qy qz.
Proof. intros; subst; reflexivity. Qed.
Lemma gmnt4_pair_eq (K : FieldOps) n n' x x' t t' u u' (v v' : K) w w' P qx qy qz : n = n' -> x = x' -> t = t' -> u = u' -> v = v' -> w = w' ->
  gmnt4_pair K n x t u v w P qx qy qz = gmnt4_pair K n' x' t' u' v' w' P qx qy qz.
Proof. intros; subst; reflexivity. Qed.
Lemma gmnt6_pair_eq (K : FieldOps) n n' x x' t t' u u' (v v' : K) w w' P qx qy qz : n = n' -> x = x' -> t = t' -> u = u' -> v = v' -> w = w' ->
  gmnt6_pair K n x t u v w P qx qy qz = gmnt6_pair K n' x' t' u' v' w' P qx qy qz.
Proof. intros; subst; reflexivity. Qed.
Lemma ged_pair_eq (K : FieldOps) n n' x x' t t' (v v' : K) P qx qy qz : n = n' -> x = x' -> t = t' -> v = v' ->
  ged_pair K n x t v P qx qy qz = ged_pair K n' x' t' v' P qx qy qz.
Proof. intros; subst; reflexivity. Qed.

(** ** bls12-381 *)
Notation bls_p0 := (t12_p bls12_381_tower).
Notation bigb := (BigFp bls_p0).
Definition big_bls_pair (std : bool) (P : triple bigb) (qx qy qz : quad bigb) : option (quad (cub (quad bigb))) :=
  gbls_pair bigb (bigz (t12_nr2 bls12_381_tower)) (big2 (t12_xi6 bls12_381_tower)) (big2 (t12_xi12 bls12_381_tower))
    (big2 bls12_381_g2_twist) (fp2_smul bigb (bigz bls12_381_b) (big2 bls12_381_g2_twist))
    (zero_fill_y bigb std) (zero_fill_y (Fp2 bigb (bigz (t12_nr2 bls12_381_tower))) std) P qx qy qz.
Definition big_bls_final : quad (cub (quad bigb)) -> quad (cub (quad bigb)) :=
  gbls_final bigb (bigz (t12_nr2 bls12_381_tower)) (big2 (t12_xi6 bls12_381_tower)) (big2 (t12_xi12 bls12_381_tower))
    (map bigz (t12_fc2 bls12_381_tower)) (map bigz (t12_fc61 bls12_381_tower)) (map bigz (t12_fc62 bls12_381_tower)) (map bigz (t12_fc12 bls12_381_tower)).
Notation bls_h := (of_big bls_p0).
Notation bls_h2 := (qmap bls_h).
Notation bls_h12 := (qmap (cmap bls_h2)).
Lemma bls_fhom : FHom bigb (Zp bls_p0) bls_h.
Proof. apply BigFp_hom; [exact bls381_p_prime|reflexivity]. Qed.
Lemma bls_big_nr : bls_h (bigz (t12_nr2 bls12_381_tower)) = tozp bls_p0 (t12_nr2 bls12_381_tower).
Proof. apply of_big_bigz. discriminate. Qed.
Lemma bls_big_b : bls_h (bigz bls12_381_b) = tozp bls_p0 bls12_381_b.
Proof. apply of_big_bigz. discriminate. Qed.
Lemma bls_pair_g std P (qx qy qz : quad (Zp bls_p0)) : bls12_381_pair std P (mkT (qx : t12_Fp2 bls12_381_tower) (qy : t12_Fp2 bls12_381_tower) (qz : t12_Fp2 bls12_381_tower)) =
  gbls_pair (Zp bls_p0) (tozp bls_p0 (t12_nr2 bls12_381_tower)) (lit2 bls_p0 (t12_xi6 bls12_381_tower)) (lit2 bls_p0 (t12_xi12 bls12_381_tower))
    (lit2 bls_p0 bls12_381_g2_twist) (fp2_smul (Zp bls_p0) (tozp bls_p0 bls12_381_b) (lit2 bls_p0 bls12_381_g2_twist))
    (zero_fill_y (Zp bls_p0) std) (zero_fill_y (t12_Fp2 bls12_381_tower) std) P qx qy qz.
Proof. unfold bls12_381_pair, gbls_pair, bls12_381_miller_loop, bls12_381_precompute_g1, bls12_381_precompute_g2, bls12_381_smul, bls12_381_squared, bls12_381_mul_by_045, bls12_381_twist, bls12_381_g2_b, t12_Fp12, t12_Fp2. reflexivity. Qed.
Lemma bls_pair_big std P qx qy qz :
  bls12_381_pair std (tmap (A := bigb) bls_h P) (mkT (bls_h2 qx : t12_Fp2 bls12_381_tower) (bls_h2 qy : t12_Fp2 bls12_381_tower) (bls_h2 qz : t12_Fp2 bls12_381_tower)) =
  option_map bls_h12 (big_bls_pair std P qx qy qz).
Proof.
  unfold big_bls_pair. refine (eq_trans _ (eq_sym (@gbls_pair_map bigb (Zp bls_p0) bls_h bls_fhom _ _ _ _ _ _ _ _ _ _ _))).
  rewrite bls_pair_g. refine (@gbls_pair_eq (Zp bls_p0) _ _ _ _ _ _ _ _ _ _ _ _ _ _ _ _ _ _ (eq_sym bls_big_nr) _ _ _ _ _ _).
  - exact (lit2_big2 bls_p0 (t12_xi6 bls12_381_tower) eq_refl).
  - exact (lit2_big2 bls_p0 (t12_xi12 bls12_381_tower) eq_refl).
  - exact (lit2_big2 bls_p0 bls12_381_g2_twist eq_refl).
  - refine (eq_trans (y := fp2_smul (Zp bls_p0) (tozp bls_p0 bls12_381_b) (lit2 bls_p0 bls12_381_g2_twist)) eq_refl _).
    rewrite (lit2_big2 bls_p0) by reflexivity. rewrite <- bls_big_b. unfold fp2_smul, qmap; cbn [q0 q1]. rewrite !(hom_mul _ _ _ (fh_hom _ _ _ bls_fhom)). reflexivity.
  - exact (eq_sym (@zero_fill_map bigb (Zp bls_p0) bls_h bls_fhom std)).
  - exact (eq_sym (@zero_fill_map _ _ _ (@fhom_fp2 bigb (Zp bls_p0) bls_h bls_fhom (bigz (t12_nr2 bls12_381_tower))) std)).
Qed.
Lemma bls_final_big x : bls12_381_final_exponentiation (bls_h12 x) = bls_h12 (big_bls_final x).
Proof.
  unfold big_bls_final. rewrite (@gbls_final_map bigb (Zp bls_p0) bls_h bls_fhom), <- !(lit2_big2 bls_p0), <- !lits_map, bls_big_nr by reflexivity. reflexivity.
Qed.

(** ** mnt4-298 *)
Notation mnt4_p0 := (t4_p mnt4_tower).
Notation big4 := (BigFp mnt4_p0).
Definition big_mnt4_pair (std : bool) (P : triple big4) (qx qy qz : quad big4) : option (quad (quad big4)) :=
  gmnt4_pair big4 (bigz (t4_nr2 mnt4_tower)) (bigz (t4_nr4 mnt4_tower)) (mkq (0 : big4) (1 : big4))
    (mkq (@fmul big4 (bigz mnt4_298_a) (bigz mnt4_fp2_non_residue)) (0 : big4))
    (zero_fill_y big4 std) (zero_fill_y (Fp2 big4 (bigz (t4_nr2 mnt4_tower))) std) P qx qy qz.
Notation mnt4_h := (of_big mnt4_p0).
Notation mnt4_h2 := (qmap mnt4_h).
Notation mnt4_h4 := (qmap mnt4_h2).
Lemma mnt4_fhom : FHom big4 (Zp mnt4_p0) mnt4_h.
Proof. apply BigFp_hom; [exact mnt4_p_prime|reflexivity]. Qed.
Lemma mnt4_pair_g std P (qx qy qz : quad (Zp mnt4_p0)) : mnt4_pair std P (mkT (qx : t4_Fp2 mnt4_tower) (qy : t4_Fp2 mnt4_tower) (qz : t4_Fp2 mnt4_tower)) =
  gmnt4_pair (Zp mnt4_p0) (tozp mnt4_p0 (t4_nr2 mnt4_tower)) (tozp mnt4_p0 (t4_nr4 mnt4_tower)) mnt4_twist mnt4_g2_a
    (zero_fill_y (Zp mnt4_p0) std) (zero_fill_y (t4_Fp2 mnt4_tower) std) P qx qy qz.
Proof. unfold mnt4_pair, gmnt4_pair, mnt4_miller_loop, mnt4_precompute_g1, mnt4_precompute_g2, mnt4_smul, mnt4_squared, mnt4_of_base, mnt4_gt, t4_Fp4, t4_Fp2. reflexivity. Qed.
Lemma mnt4_pair_big std P qx qy qz :
  mnt4_pair std (tmap (A := big4) mnt4_h P) (mkT (mnt4_h2 qx : t4_Fp2 mnt4_tower) (mnt4_h2 qy : t4_Fp2 mnt4_tower) (mnt4_h2 qz : t4_Fp2 mnt4_tower)) =
  option_map mnt4_h4 (big_mnt4_pair std P qx qy qz).
Proof.
  assert (HH := fh_hom _ _ _ mnt4_fhom).
  unfold big_mnt4_pair. refine (eq_trans _ (eq_sym (@gmnt4_pair_map big4 (Zp mnt4_p0) mnt4_h mnt4_fhom _ _ _ _ _ _ _ _ _ _))).
  rewrite mnt4_pair_g. refine (@gmnt4_pair_eq (Zp mnt4_p0) _ _ _ _ _ _ _ _ _ _ _ _ _ _ _ _ _ _ _ _ _ _).
  - symmetry. apply (of_big_bigz mnt4_p0 (t4_nr2 mnt4_tower)). discriminate.
  - symmetry. apply (of_big_bigz mnt4_p0 (t4_nr4 mnt4_tower)). discriminate.
  - unfold qmap; cbn [q0 q1]; rewrite (hom_0 _ _ _ HH), (hom_1 _ _ _ HH); reflexivity.
  - unfold qmap; cbn [q0 q1]. rewrite (hom_0 _ _ _ HH), (hom_mul _ _ _ HH), !of_big_bigz by discriminate. reflexivity.
  - exact (eq_sym (@zero_fill_map big4 (Zp mnt4_p0) mnt4_h mnt4_fhom std)).
  - exact (eq_sym (@zero_fill_map _ _ _ (@fhom_fp2 big4 (Zp mnt4_p0) mnt4_h mnt4_fhom (bigz (t4_nr2 mnt4_tower))) std)).
Qed.

(** ** mnt6-298 *)
Notation mnt6_p0 := (t6_p mnt6_tower).
Notation big6 := (BigFp mnt6_p0).
Definition big_mnt6_pair (P : triple big6) (qx qy qz : cub big6) : option (quad (cub big6)) :=
  gmnt6_pair big6 (bigz (t6_nr3 mnt6_tower)) (bigz (t6_nr6 mnt6_tower)) (mkc (0 : big6) (1 : big6) (0 : big6))
    (mkc (0 : big6) (0 : big6) (bigz mnt6_298_a : big6)) (1 : big6) (mkc (1 : big6) (0 : big6) (0 : big6)) P qx qy qz.
Notation mnt6_h := (of_big mnt6_p0).
Notation mnt6_h3 := (cmap mnt6_h).
Notation mnt6_h6 := (qmap mnt6_h3).
Lemma mnt6_fhom : FHom big6 (Zp mnt6_p0) mnt6_h.
Proof. apply BigFp_hom; [exact mnt6_p_prime|reflexivity]. Qed.
Lemma mnt6_pair_g P (qx qy qz : cub (Zp mnt6_p0)) : mnt6_pair P (mkT (qx : t6_Fp3 mnt6_tower) (qy : t6_Fp3 mnt6_tower) (qz : t6_Fp3 mnt6_tower)) =
  gmnt6_pair (Zp mnt6_p0) (tozp mnt6_p0 (t6_nr3 mnt6_tower)) (tozp mnt6_p0 (t6_nr6 mnt6_tower)) mnt6_twist mnt6_g2_a
    (1 : Zp mnt6_p0) (1 : t6_Fp3 mnt6_tower) P qx qy qz.
Proof. unfold mnt6_pair, gmnt6_pair, mnt6_miller_loop, mnt6_precompute_g1, mnt6_precompute_g2, mnt6_smul, mnt6_squared, mnt6_of_base, mnt6_gt, t6_Fp6, t6_Fp3. reflexivity. Qed.
Lemma mnt6_pair_big P qx qy qz :
  mnt6_pair (tmap (A := big6) mnt6_h P) (mkT (mnt6_h3 qx : t6_Fp3 mnt6_tower) (mnt6_h3 qy : t6_Fp3 mnt6_tower) (mnt6_h3 qz : t6_Fp3 mnt6_tower)) =
  option_map mnt6_h6 (big_mnt6_pair P qx qy qz).
Proof.
  assert (HH := fh_hom _ _ _ mnt6_fhom).
  unfold big_mnt6_pair. refine (eq_trans _ (eq_sym (@gmnt6_pair_map big6 (Zp mnt6_p0) mnt6_h mnt6_fhom _ _ _ _ _ _ _ _ _ _))).
  rewrite mnt6_pair_g. refine (@gmnt6_pair_eq (Zp mnt6_p0) _ _ _ _ _ _ _ _ _ _ _ _ _ _ _ _ _ _ _ _ _ _).
  - symmetry. apply (of_big_bigz mnt6_p0 (t6_nr3 mnt6_tower)). discriminate.
  - symmetry. apply (of_big_bigz mnt6_p0 (t6_nr6 mnt6_tower)). discriminate.
  - unfold cmap; cbn [c0 c1 c2]; rewrite (hom_0 _ _ _ HH), (hom_1 _ _ _ HH); reflexivity.
  - unfold cmap; cbn [c0 c1 c2]. rewrite (hom_0 _ _ _ HH), !of_big_bigz by discriminate. reflexivity.
  - symmetry. exact (hom_1 _ _ _ HH).
  - unfold cmap; cbn [c0 c1 c2]; rewrite (hom_0 _ _ _ HH), (hom_1 _ _ _ HH); reflexivity.
Qed.

(** ** edwards-183 *)
Notation ed_p0 := (t6_p edwards_tower).
Notation bige := (BigFp ed_p0).
Definition big_edwards_pair (std : bool) (P : inverted bige) (qx qy qz : cub bige) : option (quad (cub bige)) :=
  ged_pair bige (bigz (t6_nr3 edwards_tower)) (bigz (t6_nr6 edwards_tower)) (bigz edwards_183_a) (zero_fill_y bige std) P qx qy qz.
Notation ed_h := (of_big ed_p0).
Notation ed_h3 := (cmap ed_h).
Notation ed_h6 := (qmap ed_h3).
Lemma edwards_fhom : FHom bige (Zp ed_p0) ed_h.
Proof. apply BigFp_hom; [exact edwards_p_prime|reflexivity]. Qed.
Lemma edwards_pair_g std P (qx qy qz : cub (Zp ed_p0)) : edwards_pair std P (mkI (qx : t6_Fp3 edwards_tower) (qy : t6_Fp3 edwards_tower) (qz : t6_Fp3 edwards_tower)) =
  ged_pair (Zp ed_p0) (tozp ed_p0 (t6_nr3 edwards_tower)) (tozp ed_p0 (t6_nr6 edwards_tower)) (tozp ed_p0 edwards_183_a)
    (zero_fill_y (Zp ed_p0) std) P qx qy qz.
Proof. unfold edwards_pair, ged_pair, edwards_miller_loop, edwards_precompute_g1, edwards_precompute_g2, edwards_smul, edwards_squared, edwards_mul_by_a, edwards_gt, t6_Fp6, t6_Fp3. reflexivity. Qed.
Lemma edwards_pair_big std P qx qy qz :
  edwards_pair std (imap (A := bige) ed_h P) (mkI (ed_h3 qx : t6_Fp3 edwards_tower) (ed_h3 qy : t6_Fp3 edwards_tower) (ed_h3 qz : t6_Fp3 edwards_tower)) =
  option_map ed_h6 (big_edwards_pair std P qx qy qz).
Proof.
  unfold big_edwards_pair. refine (eq_trans _ (eq_sym (@ged_pair_map bige (Zp ed_p0) ed_h edwards_fhom _ _ _ _ _ _ _ _))).
  rewrite edwards_pair_g. refine (@ged_pair_eq (Zp ed_p0) _ _ _ _ _ _ _ _ _ _ _ _ _ _ _ _).
  - symmetry. apply (of_big_bigz ed_p0 (t6_nr3 edwards_tower)). discriminate.
  - symmetry. apply (of_big_bigz ed_p0 (t6_nr6 edwards_tower)). discriminate.
  - symmetry. apply (of_big_bigz ed_p0 edwards_183_a). discriminate.
  - exact (eq_sym (@zero_fill_map bige (Zp ed_p0) ed_h edwards_fhom std)).
Qed.
