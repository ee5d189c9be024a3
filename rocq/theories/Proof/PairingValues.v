(** The Miller loops of the shipped curves, run on machine integers. *)
From Coq Require Import ZArith NArith List Bool Lia Znumtheory Field_theory.
From Bignums Require Import BigN.
From Verif Require Import Base.Field Base.Zp Base.Ext Base.Hom Base.BigZp
  Model.FieldParams Model.Shipped Model.CurveParams Model.Generators Model.ShortWeierstrass Model.Edwards Model.EdwardsG2
  Model.FinalExp Model.Pairing Model.Fp2 Model.Fp3 Model.Fp4 Model.Fp6_2over3 Model.Fp6_3over2 Model.Fp12
  Proof.Homs Proof.FastField Proof.PairingMap Proof.OrderCheck Proof.Shipped Proof.Generators.
Import ListNotations.
Local Open Scope fld_scope.

(** ** bls12-381 *)
Section Bls.
  Variables (K : FieldOps) (nr : K) (xi xi12 tw tb : quad K).
  Notation F := (Fp2 K nr).
  Notation sq := (fp2_sqr K nr).
  Definition gbls_pair (zy1 : K) (zy2 : quad K) (P : triple K) (qx qy qz : quad K) : option (quad (cub (quad K))) :=
    a40_miller_loop K F (Fp12 F sq xi xi12) (fp2_smul K) (fp12_sqr F sq xi xi12) (fp12_mul_by_045 F sq xi xi12)
      bls12_381_ate_loop_count bls12_381_ate_is_loop_count_neg bls12_381_max_bits
      (a40_precompute_g1 K 0 zy1 P)
      (a40_precompute_g2 K F (fp2_smul K) tw tb bls12_381_ate_loop_count bls12_381_max_bits 0 zy2 (mkT (qx : F) (qy : F) (qz : F))).
  Definition gbls_final (fc2 fc61 fc62 fc12 : list K) (x : quad (cub (quad K))) : quad (cub (quad K)) :=
    bls_final_exponentiation (Fp12 F sq xi xi12) (fp12_unitary_inversed F sq xi) (fp12_cyclotomic_squared F sq xi)
      (fp12_cyclotomic_exp F sq xi xi12) (fp12_frob K nr fc2 fc61 fc62 fc12)
      bls12_381_final_exponent_z bls12_381_final_exponent_is_z_neg x.
End Bls.
Section BlsMap.
  Context {A B : FieldOps} (h : A -> B) (H : FHom A B h).
  Let HH := fh_hom _ _ _ H.
  Variables (nr : A) (xi xi12 tw tb : quad A).
  Notation F2 := (Fp2 A nr). Notation F2' := (Fp2 B (h nr)).
  Notation h2 := (qmap h). Notation h12 := (qmap (cmap h2)).
  Let H2 := fhom_fp2 h H nr.
  Let H12 := @fhom_fp12 F2 F2' h2 H2 (fp2_sqr A nr) (fp2_sqr B (h nr)) xi xi12 (hom_fp2_sqr h HH nr).
  Notation G2 := (Fp12 F2 (fp2_sqr A nr) xi xi12). Notation G2' := (Fp12 F2' (fp2_sqr B (h nr)) (h2 xi) (h2 xi12)).
  Lemma gbls_pair_map zy1 zy2 P qx qy qz : option_map h12 (gbls_pair A nr xi xi12 tw tb zy1 zy2 P qx qy qz) =
    gbls_pair B (h nr) (h2 xi) (h2 xi12) (h2 tw) (h2 tb) (h zy1) (h2 zy2) (tmap h P) (h2 qx) (h2 qy) (h2 qz).
  Proof.
    assert (HS : forall k x, h2 (fp2_smul A k x) = fp2_smul B (h k) (h2 x)).
    { intros k x. unfold fp2_smul, qmap; cbn [q0 q1]. rewrite !(hom_mul _ _ _ HH). reflexivity. }
    unfold gbls_pair.
    refine (eq_trans (@map_a40_miller A F2 G2 B F2' G2' h h2 h12 H12 _ _ HS _ _ (@map_fp12_sqr F2 F2' h2 H2 _ (fp2_sqr B (h nr)) xi xi12) _ _
      (@map_fp12_045 F2 F2' h2 H2 _ (fp2_sqr B (h nr)) xi xi12) _ _ _ _ _) _).
    rewrite (map_a40_g1 h H). rewrite (@map_a40_g2 A F2 B F2' h h2 H H2 _ _ HS). rewrite (hom_0 _ _ _ HH), (hom_0 _ _ _ (fh_hom _ _ _ H2)). reflexivity.
  Qed.
  Lemma gbls_final_map f2 f61 f62 f12 x : h12 (gbls_final A nr xi xi12 f2 f61 f62 f12 x) =
    gbls_final B (h nr) (h2 xi) (h2 xi12) (map h f2) (map h f61) (map h f62) (map h f12) (h12 x).
  Proof.
    unfold gbls_final. apply (@map_bls_final G2 G2' h12 H12).
    - apply (@map_fp12_ui F2 F2' h2 H2).
    - apply (@map_fp12_csq F2 F2' h2 H2).
    - apply (@map_fp12_cexp F2 F2' h2 H2).
    - apply (map_fp12_frob h H).
  Qed.
End BlsMap.


(** ** mnt4-298 *)
Section Mnt4.
  Variables (K : FieldOps) (nr nr4 : K) (tw ta : quad K).
  Notation F := (Fp2 K nr).
  Notation G := (Fp4 K nr nr4).
  Definition gmnt4_pair (zy1 : K) (zy2 : quad K) (P : triple K) (qx qy qz : quad K) : option (quad (quad K)) :=
    pr_miller_loop K F G (fun x : K => mkq x 0 : F) (fun x y : F => mkq x y : G) (fp4_sqr K nr nr4)
      mnt4_ate_loop_count mnt4_ate_is_loop_count_neg mnt_max_bits (pr_g_RR K F G (fun x y : F => mkq x y : G))
      (pr_precompute_g1 K F (fp2_smul K) tw 0 zy1 P)
      (pr_precompute_g2 K F (fp2_smul K) tw ta mnt4_ate_loop_count mnt4_ate_is_loop_count_neg mnt_max_bits 0 zy2 (mkT (qx : F) (qy : F) (qz : F))).
End Mnt4.
Section Mnt4Map.
  Context {A B : FieldOps} (h : A -> B) (H : FHom A B h).
  Let HH := fh_hom _ _ _ H.
  Variables (nr nr4 : A) (tw ta : quad A).
  Notation F2 := (Fp2 A nr). Notation F2' := (Fp2 B (h nr)).
  Notation G4 := (Fp4 A nr nr4). Notation G4' := (Fp4 B (h nr) (h nr4)).
  Notation h2 := (qmap h). Notation h4 := (qmap h2).
  Let H2 := fhom_fp2 h H nr.
  Let H4 := fhom_fp4 h H nr nr4.
  Lemma map_fp4_sqr x : h4 (fp4_sqr A nr nr4 x) = fp4_sqr B (h nr) (h nr4) (h4 x).
  Proof. exact (hom_mul _ _ _ (fh_hom _ _ _ H4) x x). Qed.
  Lemma gmnt4_pair_map zy1 zy2 P qx qy qz : option_map h4 (gmnt4_pair A nr nr4 tw ta zy1 zy2 P qx qy qz) =
    gmnt4_pair B (h nr) (h nr4) (h2 tw) (h2 ta) (h zy1) (h2 zy2) (tmap h P) (h2 qx) (h2 qy) (h2 qz).
  Proof.
    assert (HS : forall k x, h2 (fp2_smul A k x) = fp2_smul B (h k) (h2 x)).
    { intros k x. unfold fp2_smul, qmap; cbn [q0 q1]. rewrite !(hom_mul _ _ _ HH). reflexivity. }
    assert (HB : forall k : A, h2 (mkq k 0) = mkq (h k) 0) by (intros k; unfold qmap; cbn [q0 q1]; rewrite (hom_0 _ _ _ HH); reflexivity).
    assert (HM : forall x y : F2, h4 (mkq x y) = mkq (h2 x) (h2 y)) by reflexivity.
    unfold gmnt4_pair.
    refine (eq_trans (@map_pr_miller A F2 G4 B F2' G4' h h2 h4 H2 H4 (fun x => mkq x 0) (fun x => mkq x 0) HB (fun x y => mkq x y) (fun x y => mkq x y) HM _ _ map_fp4_sqr _ _ _ _ _
      (@map_pr_gRR A F2 G4 B F2' G4' h h2 h4 H2 (fun x y => mkq x y) (fun x y => mkq x y) HM) _ _) _).
    rewrite (@map_pr_g1 A F2 B F2' h h2 H _ _ HS). rewrite (@map_pr_g2 A F2 B F2' h h2 H H2 _ _ HS).
    rewrite (hom_0 _ _ _ HH), (hom_0 _ _ _ (fh_hom _ _ _ H2)). reflexivity.
  Qed.
End Mnt4Map.

(** ** mnt6-298 *)
Section Mnt6.
  Variables (K : FieldOps) (nr nr6 : K) (tw ta : cub K).
  Notation F := (Fp3 K nr).
  Notation G := (Fp6t K nr nr6).
  Definition gmnt6_pair (zy1 : K) (zy2 : cub K) (P : triple K) (qx qy qz : cub K) : option (quad (cub K)) :=
    pr_miller_loop K F G (fun x : K => mkc x 0 0 : F) (fun x y : F => mkq x y : G) (fp6t_sqr K nr nr6)
      mnt6_ate_loop_count mnt6_ate_is_loop_count_neg mnt_max_bits (pr_g_RR' K F G (fun x y : F => mkq x y : G))
      (pr_precompute_g1 K F (fp3_smul K) tw 0 zy1 P)
      (pr_precompute_g2 K F (fp3_smul K) tw ta mnt6_ate_loop_count mnt6_ate_is_loop_count_neg mnt_max_bits 0 zy2 (mkT (qx : F) (qy : F) (qz : F))).
End Mnt6.
Section Six.
  Context {A B : FieldOps} (h : A -> B) (H : FHom A B h).
  Let HH := fh_hom _ _ _ H.
  Variables (nr nr6 : A).
  Notation F3 := (Fp3 A nr). Notation F3' := (Fp3 B (h nr)).
  Notation G6 := (Fp6t A nr nr6). Notation G6' := (Fp6t B (h nr) (h nr6)).
  Notation h3 := (cmap h). Notation h6 := (qmap h3).
  Let H3 := fhom_fp3 h H nr.
  Let H6 := fhom_fp6t h H nr nr6.
  Lemma map_fp3_smul k x : h3 (fp3_smul A k x) = fp3_smul B (h k) (h3 x).
  Proof. unfold fp3_smul, cmap; cbn [c0 c1 c2]. rewrite !(hom_mul _ _ _ HH). reflexivity. Qed.
  Lemma map_fp6t_sqr x : h6 (fp6t_sqr A nr nr6 x) = fp6t_sqr B (h nr) (h nr6) (h6 x).
  Proof.
    assert (E := fh_hom _ _ _ H3).
    assert (Hm : forall a : Fp3 A nr, h3 (fp6t_mbnr A nr nr6 a) = fp6t_mbnr B (h nr) (h nr6) (h3 a)).
    { intros a. unfold fp6t_mbnr, cmap. cbn [c0 c1 c2]. f_equal. apply HH. }
    unfold fp6t_sqr. unfold qmap at 1. cbn [q0 q1]. f_equal; repeat progress (homs E; rewrite ?Hm); reflexivity.
  Qed.
  Lemma gmnt6_pair_map tw ta zy1 zy2 P qx qy qz : option_map h6 (gmnt6_pair A nr nr6 tw ta zy1 zy2 P qx qy qz) =
    gmnt6_pair B (h nr) (h nr6) (h3 tw) (h3 ta) (h zy1) (h3 zy2) (tmap h P) (h3 qx) (h3 qy) (h3 qz).
  Proof.
    assert (HB : forall k : A, h3 (mkc k 0 0) = mkc (h k) 0 0) by (intros k; unfold cmap; cbn [c0 c1 c2]; rewrite (hom_0 _ _ _ HH); reflexivity).
    assert (HM : forall x y : F3, h6 (mkq x y) = mkq (h3 x) (h3 y)) by reflexivity.
    unfold gmnt6_pair.
    refine (eq_trans (@map_pr_miller A F3 G6 B F3' G6' h h3 h6 H3 H6 (fun x => mkc x 0 0) (fun x => mkc x 0 0) HB (fun x y => mkq x y) (fun x y => mkq x y) HM _ _ map_fp6t_sqr _ _ _ _ _
      (@map_pr_gRR' A F3 G6 B F3' G6' h h3 h6 H3 (fun x y => mkq x y) (fun x y => mkq x y) HM) _ _) _).
    rewrite (@map_pr_g1 A F3 B F3' h h3 H _ _ map_fp3_smul). rewrite (@map_pr_g2 A F3 B F3' h h3 H H3 _ _ map_fp3_smul).
    rewrite (hom_0 _ _ _ HH), (hom_0 _ _ _ (fh_hom _ _ _ H3)). reflexivity.
  Qed.
End Six.

(** ** edwards-183 *)
Definition imap {A B : FieldOps} (h : A -> B) (P : inverted A) : inverted B := mkI (h (iX P)) (h (iY P)) (h (iZ P)).
Section Ed.
  Variables (K : FieldOps) (nr nr6 a : K).
  Notation F := (Fp3 K nr).
  Notation G := (Fp6t K nr nr6).
  Definition ged_pair (zy : K) (P : inverted K) (qx qy qz : cub K) : option (quad (cub K)) :=
    ed_miller_loop K F G (fp3_smul K) (fun x y : F => mkq x y : G) (fp6t_sqr K nr nr6) edwards_ate_loop_count edwards_max_bits
      (ed_precompute_g1 K (inv_to_affine K 0 zy P))
      (ed_precompute_g2 F (eg2_mul_by_a K nr a) edwards_ate_loop_count edwards_max_bits (eg2_to_affine K nr (mkI (qx : F) (qy : F) (qz : F)))).
End Ed.
Section EdMap.
  Context {A B : FieldOps} (h : A -> B) (H : FHom A B h).
  Let HH := fh_hom _ _ _ H.
  Variables (nr nr6 a : A).
  Notation F3 := (Fp3 A nr). Notation F3' := (Fp3 B (h nr)).
  Notation G6 := (Fp6t A nr nr6). Notation G6' := (Fp6t B (h nr) (h nr6)).
  Notation h3 := (cmap h). Notation h6 := (qmap h3).
  Let H3 := fhom_fp3 h H nr.
  Let H6 := fhom_fp6t h H nr nr6.
  Lemma map_eg2_to_affine (Q : inverted F3) : @imap F3 F3' h3 (eg2_to_affine A nr Q) = eg2_to_affine B (h nr) (@imap F3 F3' h3 Q).
  Proof.
    assert (E3 := fh_hom _ _ _ H3).
    unfold eg2_to_affine, inv_is_zero. destruct Q as [x y z]. unfold imap at 2 3; cbn [iX iY iZ]. rewrite !(@map_eqb0 F3 F3' h3 H3).
    destruct (_ && _); unfold imap; cbn [iX iY iZ]; f_equal; repeat progress (homs E3; rewrite ?(fh_inv _ _ _ H3)); reflexivity.
  Qed.
  Lemma map_inv_to_affine zy P : inv_to_affine B 0 (h zy) (imap h P) = mkE (h (Edwards.eX (inv_to_affine A 0 zy P))) (h (Edwards.eY (inv_to_affine A 0 zy P))).
  Proof.
    unfold inv_to_affine, inv_is_zero, tea_zero. destruct P as [x y z]. cbn [imap iX iY iZ]. rewrite !(map_eqb0 h H).
    destruct (_ && _); cbn [Edwards.eX Edwards.eY]; repeat progress (homs HH; rewrite ?(fh_inv _ _ _ H)); reflexivity.
  Qed.
  Lemma map_mul_by_a e : h3 (eg2_mul_by_a A nr a e) = eg2_mul_by_a B (h nr) (h a) (h3 e).
  Proof. unfold eg2_mul_by_a, cmap; cbn [c0 c1 c2]. rewrite !(hom_mul _ _ _ HH). reflexivity. Qed.
  Lemma ged_pair_map zy P qx qy qz : option_map h6 (ged_pair A nr nr6 a zy P qx qy qz) =
    ged_pair B (h nr) (h nr6) (h a) (h zy) (imap h P) (h3 qx) (h3 qy) (h3 qz).
  Proof.
    assert (HM : forall x y : F3, h6 (mkq x y) = mkq (h3 x) (h3 y)) by reflexivity.
    unfold ged_pair.
    refine (eq_trans (@map_ed_miller A F3 G6 B F3' G6' h h3 h6 H3 H6 _ _ (map_fp3_smul h H) (fun x y => mkq x y) (fun x y => mkq x y) HM
      _ _ (map_fp6t_sqr h H nr nr6) _ _ _ _) _).
    rewrite map_inv_to_affine. rewrite <- (map_ed_g1 h H).
    assert (EQ := map_eg2_to_affine (mkI (qx : F3) (qy : F3) (qz : F3))).
    change (@imap F3 F3' h3 (mkI (qx : F3) (qy : F3) (qz : F3))) with (mkI (h3 qx : F3') (h3 qy : F3') (h3 qz : F3')) in EQ. rewrite <- EQ.
    destruct (eg2_to_affine A nr (mkI (qx : F3) (qy : F3) (qz : F3))) as [x y z]. unfold imap; cbn [iX iY iZ].
    rewrite <- (@map_ed_g2 F3 F3' h3 H3 _ _ map_mul_by_a).
    destruct (inv_to_affine A 0 zy P). reflexivity.
  Qed.
End EdMap.
