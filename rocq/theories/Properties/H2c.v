(** C43, C44, C61: hashing to the bls12-381 curves. *)
From Coq Require Import ZArith NArith List Bool Lia Znumtheory.
From Verif Require Import Base.Field Base.Zp Base.Ext Base.Hom Spec.Weierstrass Spec.H2c
  Model.ShortWeierstrass Model.Fp Model.Fp2 Model.FieldParams Model.Shipped Model.Sqrt Model.CurveParams Model.Generators Model.Marshalling Model.H2c
  Proof.FiniteField Proof.Marshalling Proof.Bls381 Proof.SqrtShipped Proof.FpHelpers Proof.PolyEval Proof.H2c Proof.H2cBls
  Properties.Sqrt Properties.Marshalling Properties.Generators.
Import ListNotations.
Local Open Scope fld_scope.

(** E' : y^2 = x^3 + A x + B *)
Definition on_e1 (x y : K1) : Prop := on_curve K1 s1_A s1_B (Aff x y).
Definition on_e2 (x y : K2) : Prop := on_curve K2 s2_A s2_B (Aff x y).

(** ** C43 *)
(** any field and suite: is_square decides squares, sqrt returns a root of every
    square it is given, sgn0 is a sign, and inversed(0) is 0 *)
Theorem C43_any_suite (K : FieldOps) (pow : K -> N -> K) (is_square : K -> bool) (sqrt : K -> option K) (Ai Bi Z : K) (sgn0 : K -> bool) :
  FieldLaws K -> (forall x e, pow x e = fpow x e) -> (forall a, is_square a = true <-> is_sq a) ->
  (forall a, a <> 0 -> is_sq a -> exists r, sqrt a = Some r /\ r * r = a) ->
  (forall a b : K, ~ is_sq a -> ~ is_sq b -> is_sq (a * b)) -> @finv K 0 = 0 ->
  swu_conditions Ai Bi Z -> (forall x, rhs Ai Bi x <> 0) \/ sqrt 0 = Some 0 -> is_sign sgn0 ->
  forall u, exists x y, swu K pow is_square sqrt Ai Bi Z sgn0 u = Some (mkT x y 1) /\ rfc_swu Ai Bi Z sgn0 u x y.
Proof. intros KL P SQ RT NSQ I0 C RO SG u. exact (swu_ok K KL pow is_square sqrt Ai Bi Z sgn0 P SQ RT NSQ I0 C RO SG u). Qed.
Print Assumptions C43_any_suite.
(** the two suites: y is never zero *)
Theorem C43_g1 ressol sgn0 : ressol_contract ressol -> is_sign sgn0 ->
  forall u, exists x y, g1_swu ressol s1_A s1_B s1_Z sgn0 u = Some (mkT x y 1) /\ rfc_swu s1_A s1_B s1_Z sgn0 u x y /\ sgn0 y = sgn0 u.
Proof.
  intros RC SG u. destruct (g1_swu_ok ressol sgn0 C15_bls12_381_base RC SG u) as (x & y & E & H). exists x, y. exact (conj E H).
Qed.
Print Assumptions C43_g1.
Theorem C43_g2 fuel sgn0 : (Z.to_nat (sp_s bls12_381_sqrt) <= fuel)%nat -> is_sign sgn0 ->
  forall u, exists x y, g2_swu fuel s2_A s2_B s2_Z sgn0 u = Some (mkT x y 1) /\ rfc_swu s2_A s2_B s2_Z sgn0 u x y /\ sgn0 y = sgn0 u.
Proof.
  intros F SG u. destruct (g2_swu_ok fuel sgn0 C15_bls12_381_fp2 F SG u) as (x & y & E & H). exists x, y. exact (conj E H).
Qed.
Print Assumptions C43_g2.
(** the sgn0 of RFC 9380 is a sign; the exceptional u are 0 and the roots of Z u^2 = -1 *)
Example C43_sgn0_1 : @is_sign K1 (rfc_sgn0_1 bls_p).
Proof. exact sgn0_1_ok. Qed.
Example C43_sgn0_2 : @is_sign K2 (rfc_sgn0_2 bls_p).
Proof. exact sgn0_2_ok. Qed.
Example C43_exceptional : zval (swu_tv1 K1 (fp_powm bls_p) s1_Z 0) = 0%Z.
Proof. vm_compute. reflexivity. Qed.

(** ** C44 *)
(** G2: every point of E'; the denominators never vanish there *)
Theorem C44_g2 (x y : K2) : on_e2 x y ->
  exists X Y, g2_iso_map (mkT x y 1) = Some (mkT X Y 1) /\ rfc_iso2 x y X Y /\ on_g2 (Aff X Y).
Proof. exact (g2_iso_ok x y 1). Qed.
Print Assumptions C44_g2.
(** G1: as specified unless a denominator vanishes; always a point of the curve *)
Theorem C44_g1_partial (x y : K1) : on_e1 x y ->
  exists X Y, g1_iso_map (mkT x y 1) = Some (mkT X Y 1) /\
    (rfc_iso1 x y X Y \/ mkT X Y 1 = g1_gen /\ ~ dens1 x) /\ on_g1 (Aff X Y).
Proof. exact (g1_iso_ok x y 1). Qed.
Print Assumptions C44_g1_partial.
(** but where the denominators vanish it is the generator, not the identity *)
Definition C44_statement : Prop := forall x y : K1, on_e1 x y ->
  exists t, g1_iso_map (mkT x y 1) = Some t /\
    (peval (fp_lits g1_k_x_den ++ [1]) x = 0 -> rep_jacobian (tX t) (tY t) (tZ t) Inf).
Theorem C44_g1_refuted : ~ C44_statement.
Proof.
  intros H. destruct (H _ _ ker1_on) as (t & E & V). assert (Q := g1_iso_ker _ (tozp bls_p (snd g1_ker)) 1 ker1_den). rewrite E in Q. injection Q as ->.
  specialize (V ker1_den). apply (f_equal zval) in V. vm_compute in V. discriminate V.
Qed.
Print Assumptions C44_g1_refuted.
(** and map_to_curve reaches such a point *)
Theorem C44_reachable ressol sgn0 : ressol_contract ressol -> is_sign sgn0 ->
  g1_map_to_curve ressol s1_A s1_B s1_Z sgn0 (tozp bls_p g1_ker_u) = Some g1_gen.
Proof. exact (g1_reach ressol sgn0 C15_bls12_381_base). Qed.
Print Assumptions C44_reachable.
Example C44_case : on_e1 (tozp bls_p (fst g1_ker)) (tozp bls_p (snd g1_ker)).
Proof. exact ker1_on. Qed.
(** ordinary points of the two E' *)
Example C44_points :
  on_e1 (tozp bls_p 2) (tozp bls_p 658522096176515125667361255350269797307718222519385801637008089782287711363858559738763090642304321670226247205569) /\
  peval (fp_lits g1_k_x_den ++ [1]) (tozp bls_p 2) <> 0 /\
  on_e2 (pair2 (4, 1)%Z) (pair2 (1035349658213213122333623803433393684338210021215359309077698466247073082315363628120857238299490597248753916379433,
    684564269065346458054726468052075645283757611992772292990836542714214404824152765971532202419311057686755509818605)%Z).
Proof.
  split; [apply zp_ext; vm_compute; reflexivity|]. split; [intros H; apply (f_equal zval) in H; vm_compute in H; discriminate H|].
  vm_compute. reflexivity.
Qed.

(** ** C61: map_to_curve *)
Theorem C61_g1 ressol sgn0 : ressol_contract ressol -> is_sign sgn0 ->
  forall u, exists x y X Y, g1_map_to_curve ressol s1_A s1_B s1_Z sgn0 u = Some (mkT X Y 1) /\
    rfc_swu s1_A s1_B s1_Z sgn0 u x y /\ (rfc_iso1 x y X Y \/ mkT X Y 1 = g1_gen /\ ~ dens1 x) /\ on_g1 (Aff X Y).
Proof.
  intros RC SG u. destruct (C43_g1 ressol sgn0 RC SG u) as (x & y & E & H & _). unfold g1_map_to_curve. rewrite E.
  destruct (C44_g1_partial x y (rs_on _ _ _ _ _ _ _ H)) as (X & Y & Q). exists x, y, X, Y. exact (conj (proj1 Q) (conj H (proj2 Q))).
Qed.
Print Assumptions C61_g1.
Theorem C61_g2 fuel sgn0 : (Z.to_nat (sp_s bls12_381_sqrt) <= fuel)%nat -> is_sign sgn0 ->
  forall u, exists x y X Y, g2_map_to_curve fuel s2_A s2_B s2_Z sgn0 u = Some (mkT X Y 1) /\
    rfc_swu s2_A s2_B s2_Z sgn0 u x y /\ rfc_iso2 x y X Y /\ on_g2 (Aff X Y).
Proof.
  intros F SG u. destruct (C43_g2 fuel sgn0 F SG u) as (x & y & E & H & _). unfold g2_map_to_curve. rewrite E.
  destruct (C44_g2 x y (rs_on _ _ _ _ _ _ _ H)) as (X & Y & Q). exists x, y, X, Y. exact (conj (proj1 Q) (conj H (proj2 Q))).
Qed.
Print Assumptions C61_g2.
(** the hypotheses hold together: the sgn0 of RFC 9380, the root a^((p+1)/4), and s rounds; the
    ordinary case, away from the exceptional inputs and the kernel of the isogeny *)
Example C61_hypotheses : ressol_contract ressol_3mod4 /\ @is_sign K1 (rfc_sgn0_1 bls_p) /\
  (Z.to_nat (sp_s bls12_381_sqrt) <= bls_fuel)%nat /\ @is_sign K2 (rfc_sgn0_2 bls_p).
Proof. exact (conj ressol_3mod4_ok (conj sgn0_1_ok (conj (le_n _) sgn0_2_ok))). Qed.
