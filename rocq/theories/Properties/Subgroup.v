(** C56: subgroup_check. *)
From Coq Require Import NArith ZArith List Bool Lia Znumtheory.
From Verif Require Import Base.Field Base.Zp Spec.Group Spec.Weierstrass Spec.Edwards Model.ShortWeierstrass Model.Edwards
  Model.SubgroupCheck Model.Shipped Model.FieldParams Model.CurveParams Proof.WeierstrassRep Proof.WeierstrassCoords Proof.WeierstrassOps
  Proof.EdwardsGroup Proof.EdwardsOps Proof.Shipped Proof.Bls381 Properties.Weierstrass Properties.Edwards Properties.Marshalling.
Local Open Scope fld_scope.

Section Weierstrass.
  Variable K : FieldOps.
  Hypothesis KL : FieldLaws K.
  Hypothesis two : (2 : K) <> 0.
  Variables a b : K.
  Hypothesis ns : nonsingular K a b.
  Variables zx zy : K.
  Lemma proj_is_zero_iff t P : is_projective t P -> (proj_is_zero K t = true <-> P = Inf).
  Proof.
    assert (R := FieldLaws_Ring K KL). intros T. unfold proj_is_zero. destruct P as [|x y]; cbn in T.
    - split; [reflexivity|]. intros _. destruct T as [-> ->]. rewrite !(feqb_refl K R). reflexivity.
    - split; [|discriminate]. destruct T as (N & _). intros E. apply andb_true_iff in E. destruct E as [_ E].
      apply (feqb_true K R) in E. contradiction.
  Qed.
  Lemma jac_is_zero_iff t P : is_jacobian t P -> (jac_is_zero K t = true <-> P = Inf).
  Proof.
    assert (R := FieldLaws_Ring K KL). intros T. unfold jac_is_zero. destruct P as [|x y]; cbn in T.
    - split; [reflexivity|]. intros _. rewrite T. apply (feqb_refl K R).
    - split; [|discriminate]. destruct T as (N & _). intros E. apply (feqb_true K R) in E. contradiction.
  Qed.
  (** projective classes: every point of the curve, every q *)
  Theorem C56_projective P t q : zx = 0 -> on_curve K a b P -> is_projective t P ->
    (subgroup_check (fun n t => proj_mul K a zx zy t n) (proj_is_zero K) q t = true <-> ec_mul K a (N.to_nat q) P = Inf).
  Proof.
    intros Z HP T. destruct (C26_projective K KL two a b zx zy ns P t q Z HP T) as [E _]. unfold subgroup_check.
    exact (proj_is_zero_iff _ _ E).
  Qed.
  (** Jacobian classes.  Full statement: without the hypothesis on the multiples of P
      (P is allowed to have small order, which is exactly what the check is for) *)
  Theorem C56_jacobian_partial dbl P t q : jac_mul_ok K a b zx zy dbl -> on_curve K a b P -> is_jacobian t P ->
    (tZ t = 1 -> forall j, (0 < j)%N -> (j + 1 < q)%N -> ec_mul K a (N.to_nat j) P <> Inf) ->
    (subgroup_check (fun n t => jac_mul K zx zy dbl t n) (jac_is_zero K) q t = true <-> ec_mul K a (N.to_nat q) P = Inf).
  Proof. intros M HP T N. exact (jac_is_zero_iff _ _ (proj1 (M P t q HP T N))). Qed.
End Weierstrass.

Section Edwards.
  Variable K : FieldOps.
  Hypothesis KL : FieldLaws K.
  Hypothesis two : (2 : K) <> 0.
  Variables a d : K.
  Hypothesis cmp : complete K a d.
  Variables zx zy : K.
  Hypothesis zfill : zx = 0 /\ (zy = 0 \/ zy = 1).
  (** affine twisted Edwards classes: every point, every q *)
  Theorem C56_te_affine P t q : on_te K a d P -> is_te_affine zx zy t P ->
    (subgroup_check (fun n t => tea_mul K a d zx zy t n) (tea_is_zero K zx zy) q t = true <-> te_mul K a d (N.to_nat q) P = te_zero).
  Proof.
    intros HP T. destruct (C26_te_affine K KL two a d cmp zx zy zfill P t q HP T) as [E _].
    apply (tea_is_zero_ok K KL a d zx zy zfill); [exact E|]. rewrite <- (te_gmul K KL two a d cmp). apply (gmul_in (te_group K KL two a d cmp)), HP.
  Qed.
End Edwards.
Print Assumptions C56_projective.
Print Assumptions C56_jacobian_partial.
Print Assumptions C56_te_affine.

Example C56_case : on_curve F13 (z13 2) (z13 3) (P13 3 6) /\ is_projective (T13 3 6 1) (P13 3 6) /\ nonsingular F13 (z13 2) (z13 3) /\
  subgroup_check (fun n t => proj_mul F13 (z13 2) 0 0 t n) (proj_is_zero F13) 5 (T13 3 6 1) = false /\
  subgroup_check (fun n t => proj_mul F13 (z13 2) 0 0 t n) (proj_is_zero F13) 6 (T13 3 6 1) = true /\
  subgroup_check (fun n t => jac_mul F13 0 0 (jac_dbl F13 (z13 2)) t n) (jac_is_zero F13) 5 (T13 12 5 2) = false.
Proof. split; [dec13|]. split; [repeat split; dec13|]. split; [dec13|]. repeat split; vm_compute; reflexivity. Qed.

(** The check by r on the default (Jacobian, a = 0) class of bls12-381 G1 accepts the
    point (0, 2) given with Z = 1, which has order 3 and is not in the subgroup *)
Theorem C56_jacobian_refuted :
  let t : triple K1 := mkT (0 : K1) (tozp bls_p 2 : K1) (1 : K1) in
  let P : point K1 := Aff (0 : K1) (tozp bls_p 2 : K1) in
  on_curve K1 0 bls_b1 P /\ is_jacobian t P /\
  subgroup_check (fun n t => jac_mul K1 0 1 (jac0_dbl K1) t n) (jac_is_zero K1) (Z.to_N bls12_scalar_field_381_modulus) t = true /\
  ec_mul K1 0 (N.to_nat (Z.to_N bls12_scalar_field_381_modulus)) P <> Inf.
Proof.
  intros t P. destruct G1_small_out as [ON OUT]. split; [exact ON|].
  split; [split; [exact (f1_neq_0 K1 bls_K1)|split; apply zp_ext; vm_compute; reflexivity]|].
  split; [vm_compute; reflexivity|]. rewrite <- Z_N_nat in OUT. exact OUT.
Qed.
Print Assumptions C56_jacobian_refuted.
