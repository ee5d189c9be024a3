(** The bls12-381 suites: conditions of the simplified SWU map, and the isogeny
    identities, evaluated on BigN residues. *)
From Coq Require Import ZArith NArith List Bool Lia Znumtheory Ring Field.
From Bignums Require Import BigN.
From Verif Require Import Base.Field Base.Zp Base.Ext Base.Hom Base.BigZp Spec.Weierstrass Spec.H2c
  Model.ShortWeierstrass Model.Fp Model.Fp2 Model.FieldParams Model.Shipped Model.Sqrt Model.CurveParams Model.Generators Model.Marshalling Model.H2c
  Proof.ExtTheory Proof.Towers Proof.FiniteField Proof.Homs Proof.Frob Proof.Shipped Proof.ShippedTowers Proof.SqrtShipped
  Proof.PrimesPairing Proof.Generators Proof.Marshalling Proof.Bls381 Proof.FpHelpers Proof.PolyEval Proof.H2c.
Import ListNotations.
Local Open Scope fld_scope.

(** ** constants *)
Definition s1_A : K1 := tozp bls_p rfc_g1_A.
Definition s1_B : K1 := tozp bls_p rfc_g1_B.
Definition s1_Z : K1 := tozp bls_p rfc_g1_Z.
Definition pair2 (c : Z * Z) : K2 := mkq (tozp bls_p (fst c)) (tozp bls_p (snd c)).
Definition s2_A : K2 := pair2 rfc_g2_A.
Definition s2_B : K2 := pair2 rfc_g2_B.
Definition s2_Z : K2 := pair2 rfc_g2_Z.

(** certificates: Bezout coefficients of x^q - x and x^3 + A x + B; the
    exceptional abscissa B/(ZA) and a square root of its right-hand side *)
Definition g1_bez_u := [0x17448748eeb644c01bd8057d96d58bf3f56dedb39ad2b8245ba9a28c10776e080b744052c94b6390529b9660a03a1986; 0x18187c126f186c0a9f6f0d1f8272d486eb52eafc397301284c33978f6725beed58618a096f407589d87a79f85692431c; 0x2025e63d1547326558ac99b4d2bc7467f029caf4cfdf46c95bd68e5dd6cce7df8b66358a41bc8255fb51cd887a4d803]%Z.
Definition g1_bez_v := [0xe9369a98e9f651cd5ccb2860b43a71df91aef922acd54ba1dcf4979dc0df090f6f65cebee48d808cad573f8ae76bf86; 0x8b7a7b69a9ff08ac60bcb3596e10d108b65ff23150c980f2ace058103b3d9ebd528c53cc28771d2e5eee3abfa72369]%Z.
Definition g1_exc := [0x123939a31626a32de772bc7a591ea140683bca0c62efb105310d5ce1d27d1aadf79a5d5cbe8e2c4ff7d4816af76d2814; 0x5be3446f07e910e291153e84f1dabd3dfe5c2b1080d8b6a640425c3826f2a429373f9bab7e8308f6dd10ffa11124dbc]%Z.
Definition g2_bez_u := [(0x5c759507e8e3340620545362904660ce10d0f220d7ec3cc9af0744a723f4584c573c055db22aab44b251c71c717ee1c, 0x5c759507e8e3340620545362904660ce10d0f220d7ec3cc9af0744a723f4584c573c055db22aab44b251c71c717ee1c); (0x0, 0x1439b899baf1b35b8fc02d1bfb73bf5231b21e4af64b0e94de7b4e7d31a614c6c285c71b6d7a38e357c655555555130d); (0x9077b8dc5be3012061110fff35bed1a25791cf8eeeadd822a7700d19c6b9071ff832a1c427d4e38d2ffae38e38e17b6, 0x10f9965c73c1b688450a96b64fefbfbd3efe2e8c049a353d3cb9d1cf5a4565b21f28d5e26ed6b1c6e6ff51c71c7192f5)]%Z.
Definition g2_bez_v := [(0x5c759507e8e2c5da28f46700e8c62d9b1ed3ba0dec63633e8778da76abee7d143c730c23ed0237c8909425ee31c7ad, 0x19a49c55319703d470f2b34f4262e6a9c95877cae598af5c28a959c6800507a70a6f8cf28d66fdc7f16e6bda11cde2fe); (0x15ab8eedda954033f260a7ad804420a94fa8f5a5f603ec5b1614abfca92cf2587f42a495912b84f076b2c25ed07fffdd, 0x0)]%Z.
Definition g2_exc := [(0x1a59d4b6bbf912a32d63b43028e2deeebe8d5d97ca64b6d66f64ac7a265a9305e1a40da5edb81b4e3ac4f5c28f5bd27, 0x15103a07f641331bb298f5ed3ba1230aa0bcc9f87d923077324df24a0f7ffa93045d3d6f94c17ae10efa11eb851e7336); (0x1776b5d3dd70bb2ac6e46be0849209c9c47853350da878bdc14a5042102f1f01cbc75043b8d13d709dd5ca27f92cb390, 0x2c094c100c4f8a157767045bc04279dd04f207fbddc4de6675911b512cddacc0061215698453b5b11125516029e4d21)]%Z.

(** ** transport from BigN residues *)
Notation B1 := (BigZp (bigz bls_p)).
Definition h1 : B1 -> K1 := of_big bls_p.
Definition h2 : A2 -> K2 := qmap (of_big bls_p).
Lemma hom1 : Hom B1 K1 h1.
Proof. apply BigZp_hom; [vm_compute; reflexivity|apply bigz_spec; vm_compute; discriminate]. Qed.
Lemma hom2 : Hom A2 K2 h2.
Proof. apply (t12_hom bls12_381_tower); [vm_compute; reflexivity|vm_compute; discriminate]. Qed.
Definition b1 : Z -> B1 := bigz.
Definition b2 (c : Z * Z) : A2 := mkq (bigz (fst c)) (bigz (snd c)).
Lemma b1_ok z : (0 <= z)%Z -> h1 (b1 z) = tozp bls_p z.
Proof. apply of_big_bigz. Qed.
Lemma b2_ok c : (0 <= fst c)%Z -> (0 <= snd c)%Z -> h2 (b2 c) = pair2 c.
Proof. intros. unfold h2, b2, qmap, pair2; cbn [q0 q1]. rewrite !of_big_bigz by assumption. reflexivity. Qed.
Lemma b1_list l : forallb (fun z => (0 <=? z)%Z) l = true -> map h1 (map b1 l) = fp_lits l.
Proof.
  unfold fp_lits. intros H. rewrite map_map. apply map_ext_in. intros z I. apply b1_ok. rewrite forallb_forall in H. apply Z.leb_le, H, I.
Qed.
Lemma b2_list l : forallb (fun c => (0 <=? fst c)%Z && (0 <=? snd c)%Z) l = true -> map h2 (map b2 l) = fp2_lits l.
Proof.
  unfold fp2_lits. intros H. rewrite map_map. apply map_ext_in. intros c I. rewrite forallb_forall in H.
  specialize (H c I). rewrite andb_true_iff, !Z.leb_le in H. apply b2_ok; apply H.
Qed.
Definition s2_Zn : Z * Z := (bls_p - 2, bls_p - 1)%Z.
Lemma s2_Zn_ok : pair2 s2_Zn = s2_Z.
Proof. unfold s2_Z, pair2. cbn [fst snd s2_Zn rfc_g2_Z]. f_equal; apply zp_ext; vm_compute; reflexivity. Qed.

Lemma FF1 : FinField K1 (Z.to_N bls_p) 1.
Proof. exact (Zp_FinField bls_p bls381_p_prime). Qed.
Lemma FF2 : FinField K2 (Z.to_N bls_p) 2.
Proof. exact (proj1 (t12_fields _ bls381_p_prime bls381_field_check)). Qed.
Lemma inv0_1 : @finv K1 0 = 0.
Proof. apply zp_ext. vm_compute. reflexivity. Qed.
Section Inv2.
  Variables (K : FieldOps) (R : RingLaws K) (nr : K).
  Add Ring KR4 : (RL_th K R).
  Lemma inv0_fp2 : @finv (Fp2 K nr) (mkq 0 0) = (mkq 0 0 : Fp2 K nr).
  Proof. cbn. unfold fp2_inv; cbn [q0 q1]. cbv zeta. f_equal; ring. Qed.
End Inv2.
Lemma inv0_2 : @finv K2 0 = 0.
Proof. exact (inv0_fp2 K1 (FieldLaws_Ring K1 bls_K1) (tozp bls_p bls_nr)). Qed.

(** ** no root *)
Definition q1_pos : positive := Z.to_pos bls_p.
Definition q2_pos : positive := Z.to_pos (bls_p * bls_p).
Lemma check_noroot1 : noroot_check B1 (b1 rfc_g1_A) (b1 rfc_g1_B) q1_pos (map b1 g1_bez_u) (map b1 g1_bez_v) = true.
Proof. vm_cast_no_check (eq_refl true). Qed.
Lemma check_noroot2 : noroot_check A2 (b2 rfc_g2_A) (b2 rfc_g2_B) q2_pos (map b2 g2_bez_u) (map b2 g2_bez_v) = true.
Proof. vm_cast_no_check (eq_refl true). Qed.
Lemma noroot1 (x : K1) : rhs s1_A s1_B x <> 0.
Proof.
  assert (C := check_noroot1). rewrite <- (map_noroot h1 hom1) in C.
  rewrite (b1_ok rfc_g1_A), (b1_ok rfc_g1_B) in C by (vm_compute; discriminate).
  refine (noroot_sound K1 s1_A s1_B (FieldLaws_Ring K1 bls_K1) _ _ _ _ _ C x).
  - intros E. apply (f_equal zval) in E. vm_compute in E. discriminate E.
  - intros y. assert (E := FF_fix K1 _ _ FF1 y). replace (Z.to_N bls_p ^ 1)%N with (Npos q1_pos) in E by reflexivity. exact E.
Qed.
Lemma noroot2 (x : K2) : rhs s2_A s2_B x <> 0.
Proof.
  assert (C := check_noroot2). rewrite <- (map_noroot h2 hom2) in C.
  rewrite (b2_ok rfc_g2_A), (b2_ok rfc_g2_B) in C by (vm_compute; discriminate).
  refine (noroot_sound K2 s2_A s2_B (FieldLaws_Ring K2 bls_K2) _ _ _ _ _ C x).
  - intros E. apply (f_equal (fun x => zval (q0 x))) in E. vm_compute in E. discriminate E.
  - intros y. assert (E := FF_fix K2 _ _ FF2 y). replace (Z.to_N bls_p ^ 2)%N with (Npos q2_pos) in E by (vm_compute; reflexivity). exact E.
Qed.

(** ** the conditions *)
Definition exc_check (A : FieldOps) (cA cB cZ x y : A) : bool :=
  feqb (x * (cZ * cA)) cB && feqb (y * y) (x * x * x + cA * x + cB) && negb (feqb cA 0).
Lemma exc_hom {A B : FieldOps} (h : A -> B) (H : Hom A B h) cA cB cZ x y :
  exc_check B (h cA) (h cB) (h cZ) (h x) (h y) = exc_check A cA cB cZ x y.
Proof.
  unfold exc_check. rewrite <- (hom_0 _ _ _ H), <- !(hom_mul _ _ _ H), <- !(hom_add _ _ _ H), !(hom_eqb _ _ _ H). reflexivity.
Qed.
Section Conditions.
  Variables (K : FieldOps) (KL : FieldLaws K).
  Let R := FieldLaws_Ring K KL.
  Add Field KF4 : (FL_th K KL).
  Lemma exc_sound (cA cB cZ x y : K) : not_square cZ -> exc_check K cA cB cZ x y = true -> swu_conditions cA cB cZ.
  Proof.
    unfold exc_check. rewrite !andb_true_iff, negb_true_iff. intros N [[E1 E2] E3].
    apply (feqb_true K R) in E1, E2. apply (feqb_false K R) in E3.
    assert (Z0 : cZ <> 0) by (intros E; apply (N 0); rewrite E; ring).
    split; [exact E3| |].
    - intros [s Hs]. exact (N s Hs).
    - exists y. unfold rhs. replace (cB * finv (cZ * cA)) with x; [exact E2|]. rewrite <- E1. field. split; assumption.
  Qed.
End Conditions.
Lemma check_exc1 : exc_check B1 (b1 rfc_g1_A) (b1 rfc_g1_B) (b1 rfc_g1_Z) (b1 (nth 0 g1_exc 0%Z)) (b1 (nth 1 g1_exc 0%Z)) = true.
Proof. vm_compute. reflexivity. Qed.
Lemma check_exc2 : exc_check A2 (b2 rfc_g2_A) (b2 rfc_g2_B) (b2 s2_Zn) (b2 (nth 0 g2_exc (0, 0)%Z)) (b2 (nth 1 g2_exc (0, 0)%Z)) = true.
Proof. vm_compute. reflexivity. Qed.
Lemma check_Z1 : nonpower B1 2 (Z.to_N bls_p ^ 1) (b1 rfc_g1_Z) = true.
Proof. vm_cast_no_check (eq_refl true). Qed.
Lemma check_Z2 : nonpower A2 2 (Z.to_N bls_p ^ 2) (b2 s2_Zn) = true.
Proof. vm_cast_no_check (eq_refl true). Qed.
Lemma conditions1 : swu_conditions s1_A s1_B s1_Z.
Proof.
  assert (C := check_exc1). rewrite <- (exc_hom h1 hom1) in C.
  rewrite (b1_ok rfc_g1_A), (b1_ok rfc_g1_B), (b1_ok rfc_g1_Z) in C by (vm_compute; discriminate).
  refine (exc_sound K1 bls_K1 s1_A s1_B s1_Z _ _ _ C).
  assert (N := check_Z1). rewrite <- (nonpower_hom h1 hom1), (b1_ok rfc_g1_Z) in N by (vm_compute; discriminate).
  exact (nonpower_2 K1 _ _ FF1 _ N).
Qed.
Lemma conditions2 : swu_conditions s2_A s2_B s2_Z.
Proof.
  assert (C := check_exc2). rewrite <- (exc_hom h2 hom2) in C.
  rewrite (b2_ok rfc_g2_A), (b2_ok rfc_g2_B), (b2_ok s2_Zn), s2_Zn_ok in C by (vm_compute; discriminate).
  refine (exc_sound K2 bls_K2 s2_A s2_B s2_Z _ _ _ C).
  assert (N := check_Z2). rewrite <- (nonpower_hom h2 hom2), (b2_ok s2_Zn), s2_Zn_ok in N by (vm_compute; discriminate).
  exact (nonpower_2 K2 _ _ FF2 _ N).
Qed.

(** ** isogenies *)
Lemma check_iso1 : iso_check B1 (map b1 g1_k_x_num) (map b1 g1_k_x_den) (map b1 g1_k_y_num) (map b1 g1_k_y_den)
  (b1 rfc_g1_A) (b1 rfc_g1_B) (b1 4) = true.
Proof. vm_cast_no_check (eq_refl true). Qed.
Lemma check_iso2 : iso_check A2 (map b2 g2_k_x_num) (map b2 g2_k_x_den) (map b2 g2_k_y_num) (map b2 g2_k_y_den)
  (b2 rfc_g2_A) (b2 rfc_g2_B) (b2 (4, 4)%Z) = true.
Proof. vm_cast_no_check (eq_refl true). Qed.
Lemma iso1 : iso_identity K1 (fp_lits g1_k_x_num) (fp_lits g1_k_x_den) (fp_lits g1_k_y_num) (fp_lits g1_k_y_den) s1_A s1_B bls_b1.
Proof.
  apply (iso_check_sound K1 (FieldLaws_Ring K1 bls_K1)). assert (C := check_iso1). rewrite <- (iso_check_hom h1 hom1) in C.
  rewrite (b1_ok rfc_g1_A), (b1_ok rfc_g1_B), (b1_ok 4) in C by (vm_compute; discriminate).
  rewrite !b1_list in C by reflexivity. exact C.
Qed.
Lemma pair2_4 : pair2 (4, 4)%Z = bls_b2.
Proof. rewrite bls_b2_4. reflexivity. Qed.
Lemma iso2 : iso_identity K2 (fp2_lits g2_k_x_num) (fp2_lits g2_k_x_den) (fp2_lits g2_k_y_num) (fp2_lits g2_k_y_den) s2_A s2_B bls_b2.
Proof.
  apply (iso_check_sound K2 (FieldLaws_Ring K2 bls_K2)). assert (C := check_iso2). rewrite <- (iso_check_hom h2 hom2) in C.
  rewrite (b2_ok rfc_g2_A), (b2_ok rfc_g2_B), (b2_ok (4, 4)%Z), pair2_4 in C by (vm_compute; discriminate).
  rewrite !b2_list in C by reflexivity. exact C.
Qed.

(** G2: the denominators are powers of x - x0, and x0 is not the abscissa of a point *)
Definition ker2 (A : FieldOps) (c : A) (xd yd : list A) (cA cB : A) (half : N) : bool :=
  leqb (xd ++ [1]) (lmul [- c; 1] [- c; 1]) && leqb (yd ++ [1]) (lcube [- c; 1]) &&
  nonpower A 2 half (c * c * c + cA * c + cB).
Lemma ker2_hom {A B : FieldOps} (h : A -> B) (H : Hom A B h) c xd yd cA cB q :
  ker2 B (h c) (map h xd) (map h yd) (h cA) (h cB) q = ker2 A c xd yd cA cB q.
Proof.
  unfold ker2, lcube. rewrite <- (nonpower_hom h H). rewrite !(hom_add _ _ _ H), !(hom_mul _ _ _ H).
  rewrite <- !(hom_1 _ _ _ H), <- (hom_opp _ _ _ H). change [h (- c); h 1] with (map h [- c; 1]). change [h 1] with (map h [1]).
  rewrite <- !map_app, <- !(map_lmul h H), !(map_leqb h H). reflexivity.
Qed.
Section Ker2.
  Variables (K : FieldOps) (p n : N) (FF : FinField K p n).
  Let KL := FF_field _ _ _ FF.
  Let R := FieldLaws_Ring K KL.
  Add Ring KR5 : (RL_th K R).
  Lemma ker2_sound c xd yd cA cB : ker2 K c xd yd cA cB (p ^ n) = true -> forall x y, y * y = rhs cA cB x ->
    peval (xd ++ [1]) x <> 0 /\ peval (yd ++ [1]) x <> 0.
  Proof.
    unfold ker2, lcube. rewrite !andb_true_iff. intros [[C1 C2] C3] x y E.
    apply (leqb_ok K R) with (x := x) in C1, C2. rewrite !(peval_mul K R) in C1, C2. rewrite C1, C2.
    assert (G : peval [- c; 1] x = x - c) by (cbn [peval]; ring). rewrite G.
    assert (N : x - c <> 0).
    { intros N. assert (x = c) by (transitivity (x - c + c); [ring|]; rewrite N; ring). subst x.
      exact (nonpower_2 K p n FF _ C3 y E). }
    assert (N2 := fmul_neq_0 K KL _ _ N N). rewrite ?(peval_mul K R), ?G. split; [exact N2|exact (fmul_neq_0 K KL _ _ N N2)].
  Qed.
End Ker2.
Definition g2_ker : Z * Z := (bls_p - 6, 6)%Z.
Lemma check_ker2 : ker2 A2 (b2 g2_ker) (map b2 g2_k_x_den) (map b2 g2_k_y_den) (b2 rfc_g2_A) (b2 rfc_g2_B) (Z.to_N bls_p ^ 2) = true.
Proof. vm_cast_no_check (eq_refl true). Qed.
Lemma den2 (x y : K2) : y * y = rhs s2_A s2_B x ->
  peval (fp2_lits g2_k_x_den ++ [1]) x <> 0 /\ peval (fp2_lits g2_k_y_den ++ [1]) x <> 0.
Proof.
  assert (C := check_ker2). rewrite <- (ker2_hom h2 hom2) in C.
  rewrite (b2_ok rfc_g2_A), (b2_ok rfc_g2_B) in C by (vm_compute; discriminate).
  rewrite !b2_list in C by reflexivity. exact (ker2_sound K2 _ _ FF2 _ _ _ _ _ C x y).
Qed.
(** G1: a point of E' whose abscissa is a root of the denominators *)
Definition g1_ker : Z * Z :=
  (0x10ef325dd1e98bdf0d97a4c6b7f968ed7f31f2fbff088acb39d5319cfc261ea18773405f325612742f0c5d90634bcf4,
   0xeb3efc0a8592166adb221f4b9158d9ff0d160ce6a2cc1a280b3ec28c01870fa13ca7cddd7ba78f6cd54fe36375cd5fd)%Z.
Definition g1_ker_u : Z := 0x1377c0192d99508a317127abf17c64205c7aad448380027efb47ae73ea231dbd6ecd3f2841b63d309c35bb8fd13e48f0.
Lemma check_ker1 : @feqb B1 (peval (map b1 g1_k_x_den ++ [1]) (b1 (fst g1_ker))) 0 = true.
Proof. vm_compute. reflexivity. Qed.
Lemma hom_peval {A B : FieldOps} (h : A -> B) (H : Hom A B h) l x : h (peval l x) = peval (map h l) (h x).
Proof. induction l as [|c l IH]; cbn [peval map]; homs H; [reflexivity|]. rewrite IH. reflexivity. Qed.
Lemma ker1_den : peval (fp_lits g1_k_x_den ++ [1]) (tozp bls_p (fst g1_ker) : K1) = 0.
Proof.
  assert (C := hom_eqb_true h1 hom1 _ _ (FieldLaws_Ring K1 bls_K1) check_ker1).
  rewrite (hom_peval h1 hom1), map_app, b1_list, b1_ok, (hom_0 _ _ _ hom1) in C by (vm_compute; first [reflexivity|discriminate]).
  cbn [map] in C. rewrite (hom_1 _ _ _ hom1) in C. exact C.
Qed.
Lemma ker1_on : (tozp bls_p (snd g1_ker) : K1) * tozp bls_p (snd g1_ker) = rhs s1_A s1_B (tozp bls_p (fst g1_ker) : K1).
Proof. apply zp_ext. vm_compute. reflexivity. Qed.

(** ** the maps *)
Definition dec1 := forall x : K1, fp_is_square bls_p bls12_381_base_half x = true <-> exists y : K1, y * y = x.
Definition dec2 := forall x : K2, fp2_is_square bls_p bls_nr bls12_381_fp2_group_order_minus_one_half x = true <-> exists y : K2, y * y = x.
Lemma g1_pow (x : K1) e : fp_powm bls_p x e = fpow x e.
Proof. apply fp_powm_eq. vm_compute. reflexivity. Qed.
Lemma g2_pow (x : K2) e : fp2_pow K1 (tozp bls_p bls_nr) x e = fpow x e.
Proof. exact (fp2_pow_fpow bls_p bls_nr FF2 x e). Qed.
Lemma half1 : (2 * Z.to_N bls12_381_base_half = Z.to_N bls_p ^ 1 - 1)%N.
Proof. vm_compute. reflexivity. Qed.
Lemma half2 : (2 * Z.to_N bls12_381_fp2_group_order_minus_one_half = Z.to_N bls_p ^ 2 - 1)%N.
Proof. vm_compute. reflexivity. Qed.
Lemma nonsq_fp (p half : Z) : FinField (Zp p) (Z.to_N p) 1 -> (1 < p)%Z -> (2 * Z.to_N half = Z.to_N p ^ 1 - 1)%N ->
  (forall x : Zp p, fp_is_square p half x = true <-> is_sq x) -> forall a b : Zp p, ~ is_sq a -> ~ is_sq b -> is_sq (a * b).
Proof. intros FF G H D. exact (nonsq_mul (Zp p) _ _ FF (fp_powm p) _ (fun x e => fp_powm_eq p x e G) H D). Qed.
Lemma nonsq_fp2 (p nr half : Z) : FinField (Fp2 (Zp p) (tozp p nr)) (Z.to_N p) 2 -> (2 * Z.to_N half = Z.to_N p ^ 2 - 1)%N ->
  (forall x : Fp2 (Zp p) (tozp p nr), fp2_is_square p nr half x = true <-> is_sq x) ->
  forall a b : Fp2 (Zp p) (tozp p nr), ~ is_sq a -> ~ is_sq b -> is_sq (a * b).
Proof. intros FF H D. exact (nonsq_mul _ _ _ FF (fp2_pow (Zp p) (tozp p nr)) _ (fp2_pow_fpow p nr FF) H D). Qed.
Lemma bls_gt1 : (1 < bls_p)%Z.
Proof. vm_compute. reflexivity. Qed.
Definition nonsq1 (D : dec1) := nonsq_fp bls_p bls12_381_base_half FF1 bls_gt1 half1 D.
Definition nonsq2 (D : dec2) := nonsq_fp2 bls_p bls_nr bls12_381_fp2_group_order_minus_one_half FF2 half2 D.
Lemma root1 ressol : ressol_contract ressol -> forall a : K1, a <> 0 -> is_sq a -> exists r, fp_sqrt bls_p ressol a = Some r /\ r * r = a.
Proof. exact (bls_root1 ressol). Qed.
Lemma root2 fuel : (Z.to_nat (sp_s bls12_381_sqrt) <= fuel)%nat ->
  forall a : K2, a <> 0 -> is_sq a -> exists r, fp2_sqrt bls_p bls_nr bls12_381_sqrt fuel a = Some r /\ r * r = a.
Proof. exact (bls_root2 fuel). Qed.
Definition g1_swu_at ressol sgn0 (D : dec1) (RC : ressol_contract ressol) (SG : is_sign sgn0) :=
  swu_at K1 bls_K1 (fp_powm bls_p) (fp_is_square bls_p bls12_381_base_half) (fp_sqrt bls_p ressol) s1_A s1_B s1_Z sgn0
    g1_pow D (root1 ressol RC) (nonsq1 D) inv0_1 conditions1 (or_introl noroot1) SG.
Definition g2_swu_at fuel sgn0 (D : dec2) (F : (Z.to_nat (sp_s bls12_381_sqrt) <= fuel)%nat) (SG : is_sign sgn0) :=
  swu_at K2 bls_K2 (fp2_pow K1 (tozp bls_p bls_nr)) (fp2_is_square bls_p bls_nr bls12_381_fp2_group_order_minus_one_half)
    (fp2_sqrt bls_p bls_nr bls12_381_sqrt fuel) s2_A s2_B s2_Z sgn0
    g2_pow D (root2 fuel F) (nonsq2 D) inv0_2 conditions2 (or_introl noroot2) SG.
Definition g1_swu_ok0 ressol sgn0 (D : dec1) (RC : ressol_contract ressol) (SG : is_sign sgn0) :=
  swu_ok K1 bls_K1 (fp_powm bls_p) (fp_is_square bls_p bls12_381_base_half) (fp_sqrt bls_p ressol) s1_A s1_B s1_Z sgn0
    g1_pow D (root1 ressol RC) (nonsq1 D) inv0_1 conditions1 (or_introl noroot1) SG.
Definition g2_swu_ok0 fuel sgn0 (D : dec2) (F : (Z.to_nat (sp_s bls12_381_sqrt) <= fuel)%nat) (SG : is_sign sgn0) :=
  swu_ok K2 bls_K2 (fp2_pow K1 (tozp bls_p bls_nr)) (fp2_is_square bls_p bls_nr bls12_381_fp2_group_order_minus_one_half)
    (fp2_sqrt bls_p bls_nr bls12_381_sqrt fuel) s2_A s2_B s2_Z sgn0
    g2_pow D (root2 fuel F) (nonsq2 D) inv0_2 conditions2 (or_introl noroot2) SG.
Section NZ.
  Variables (K : FieldOps) (KL : FieldLaws K).
  Add Ring KR6 : (RL_th K (FieldLaws_Ring K KL)).
  Lemma y_nz (g y : K) : g <> 0 -> y * y = g -> y <> 0.
  Proof. intros N E Y. apply N. rewrite <- E, Y. ring. Qed.
  Lemma add_0a (x y b : K) : y * y = x * x * x + b -> y * y = x * x * x + 0 * x + b.
  Proof. intros ->. ring. Qed.
End NZ.
Lemma g1_swu_ok ressol sgn0 : dec1 -> ressol_contract ressol -> is_sign sgn0 -> forall u,
  exists x y, g1_swu ressol s1_A s1_B s1_Z sgn0 u = Some (mkT x y 1) /\ rfc_swu s1_A s1_B s1_Z sgn0 u x y /\ sgn0 y = sgn0 u.
Proof.
  intros D RC SG u. destruct (g1_swu_ok0 ressol sgn0 D RC SG u) as (x & y & E & Q).
  exists x, y. split; [exact E|]. split; [exact Q|]. apply (rs_sgn _ _ _ _ _ _ _ Q). exact (y_nz K1 bls_K1 _ y (noroot1 x) (rs_on _ _ _ _ _ _ _ Q)).
Qed.
Lemma g2_swu_ok fuel sgn0 : dec2 -> (Z.to_nat (sp_s bls12_381_sqrt) <= fuel)%nat -> is_sign sgn0 -> forall u,
  exists x y, g2_swu fuel s2_A s2_B s2_Z sgn0 u = Some (mkT x y 1) /\ rfc_swu s2_A s2_B s2_Z sgn0 u x y /\ sgn0 y = sgn0 u.
Proof.
  intros D F SG u. destruct (g2_swu_ok0 fuel sgn0 D F SG u) as (x & y & E & Q).
  exists x, y. split; [exact E|]. split; [exact Q|]. apply (rs_sgn _ _ _ _ _ _ _ Q). exact (y_nz K2 bls_K2 _ y (noroot2 x) (rs_on _ _ _ _ _ _ _ Q)).
Qed.
Lemma g1_sizes : (length (fp_lits g1_k_x_num) <= 16 /\ length (fp_lits g1_k_y_num) <= 16 /\ length (fp_lits g1_k_x_den) <= 15 /\ length (fp_lits g1_k_y_den) <= 15)%nat.
Proof. unfold fp_lits. rewrite !map_length. cbn. lia. Qed.
Lemma g2_sizes : (length (fp2_lits g2_k_x_num) <= 4 /\ length (fp2_lits g2_k_y_num) <= 4 /\ length (fp2_lits g2_k_x_den) <= 3 /\ length (fp2_lits g2_k_y_den) <= 3)%nat.
Proof. unfold fp2_lits. rewrite !map_length. cbn. lia. Qed.
(** the isogenies with the constants of the repository *)
Definition rfc_iso1 := @rfc_iso K1 (fp_lits g1_k_x_num) (fp_lits g1_k_x_den) (fp_lits g1_k_y_num) (fp_lits g1_k_y_den).
Definition rfc_iso2 := @rfc_iso K2 (fp2_lits g2_k_x_num) (fp2_lits g2_k_x_den) (fp2_lits g2_k_y_num) (fp2_lits g2_k_y_den).
Definition dens1 (x : K1) : Prop := poly (fp_lits g1_k_x_den ++ [1]) x <> 0 /\ poly (fp_lits g1_k_y_den ++ [1]) x <> 0.
Lemma g2_iso_ok (x y z : K2) : y * y = rhs s2_A s2_B x ->
  exists X Y, g2_iso_map (mkT x y z) = Some (mkT X Y 1) /\ rfc_iso2 x y X Y /\ Y * Y = X * X * X + 0 * X + bls_b2.
Proof.
  intros E. destruct (den2 x y E) as [D1 D2].
  destruct (iso_curve K2 bls_K2 _ _ _ _ 3 g2_gen g2_sizes _ _ _ x y z iso2 E D1 D2) as (X & Y & H & I & Q).
  exists X, Y. split; [exact H|]. split; [exact I|]. exact (add_0a K2 bls_K2 X Y _ Q).
Qed.
Lemma g1_gen_on : let '(x, y) := (tX g1_gen, tY g1_gen) in y * y = x * x * x + bls_b1.
Proof. apply zp_ext. vm_compute. reflexivity. Qed.
Lemma g1_iso_ok (x y z : K1) : y * y = rhs s1_A s1_B x ->
  exists X Y, g1_iso_map (mkT x y z) = Some (mkT X Y 1) /\ (rfc_iso1 x y X Y \/ mkT X Y 1 = g1_gen /\ ~ dens1 x) /\ Y * Y = X * X * X + 0 * X + bls_b1.
Proof.
  intros E. assert (R := FieldLaws_Ring K1 bls_K1).
  assert (M := iso_map_eval K1 bls_K1 _ _ _ _ 15 g1_gen g1_sizes x y z).
  match type of M with context [if ?c then _ else _] => destruct c eqn:D end.
  - exists (tX g1_gen), (tY g1_gen). split; [exact M|]. split.
    { right. split; [reflexivity|]. intros [N1 N2]. rewrite <- peval_poly in N1, N2.
      apply orb_true_iff in D. destruct D as [D|D]; apply (feqb_true K1 R) in D; [exact (N1 D)|exact (N2 D)]. } exact (add_0a K1 bls_K1 _ _ _ g1_gen_on).
  - apply orb_false_iff in D. destruct D as [D1 D2]. apply (feqb_false K1 R) in D1, D2.
    destruct (iso_curve K1 bls_K1 _ _ _ _ 15 g1_gen g1_sizes _ _ _ x y z iso1 E D1 D2) as (X & Y & H & I & Q).
    exists X, Y. split; [exact H|]. split; [left; exact I|]. exact (add_0a K1 bls_K1 X Y _ Q).
Qed.
Lemma g1_iso_ker (x y z : K1) : peval (fp_lits g1_k_x_den ++ [1]) x = 0 -> g1_iso_map (mkT x y z) = Some g1_gen.
Proof. exact (iso_den0 K1 bls_K1 _ _ _ _ 15 g1_gen g1_sizes x y z). Qed.
Lemma g1_reach_x : swu_x1 K1 (fp_powm bls_p) s1_A s1_B s1_Z (tozp bls_p g1_ker_u) = tozp bls_p (fst g1_ker).
Proof. apply zp_ext. vm_compute. reflexivity. Qed.
Lemma g1_reach ressol sgn0 : dec1 -> ressol_contract ressol -> is_sign sgn0 ->
  g1_map_to_curve ressol s1_A s1_B s1_Z sgn0 (tozp bls_p g1_ker_u) = Some g1_gen.
Proof.
  intros D RC SG. destruct (g1_swu_at ressol sgn0 D RC SG (tozp bls_p g1_ker_u) (tozp bls_p (fst g1_ker))) as (y & E & _).
  - rewrite g1_reach_x. rewrite (proj2 (D _) (ex_intro _ _ ker1_on)). reflexivity.
  - assert (E' : g1_swu ressol s1_A s1_B s1_Z sgn0 (tozp bls_p g1_ker_u) = Some (@mkT K1 (tozp bls_p (fst g1_ker)) y 1)) by exact E.
    unfold g1_map_to_curve. rewrite E'. exact (g1_iso_ker _ _ _ ker1_den).
Qed.

(** ** sgn0 *)
Lemma zval_neg (y : K1) : zval y <> 0%Z -> zval (- y) = (bls_p - zval y)%Z.
Proof.
  intros N. zcbn. assert (B := zval_mod bls_p y). assert (0 <= zval y < bls_p)%Z by (rewrite <- B; apply Z.mod_pos_bound; vm_compute; reflexivity).
  symmetry. apply Z.mod_unique with (q := (-1)%Z); lia.
Qed.
Lemma odd_p z : Z.odd (bls_p - z) = negb (Z.odd z).
Proof. rewrite Z.odd_sub. replace (Z.odd bls_p) with true by reflexivity. destruct (Z.odd z); reflexivity. Qed.
Lemma zval_0 (y : K1) : zval y = 0%Z -> y = 0.
Proof. intros E. apply zp_ext. rewrite E. vm_compute. reflexivity. Qed.
Lemma sgn0_1_ok : @is_sign K1 (rfc_sgn0_1 bls_p).
Proof.
  intros y N. unfold rfc_sgn0_1. rewrite zval_neg, odd_p; [reflexivity|]. intros E. exact (N (zval_0 y E)).
Qed.
Lemma sgn0_2_ok : @is_sign K2 (rfc_sgn0_2 bls_p).
Proof.
  intros [a b] N. unfold rfc_sgn0_2, rfc_sgn0_1. change (- (mkq a b : K2)) with (mkq (- a) (- b) : K2). cbn [q0 q1].
  destruct (Z.eq_dec (zval a) 0) as [Ea|Ea].
  - assert (Ha := zval_0 a Ea). subst a. replace (zval (- (0 : K1))) with 0%Z by (vm_compute; reflexivity).
    rewrite Ea. cbn [Z.odd Z.eqb andb orb]. rewrite zval_neg; [apply odd_p|].
    intros Eb. apply N. rewrite (zval_0 b Eb). reflexivity.
  - rewrite (zval_neg a Ea), odd_p. assert (B := zval_mod bls_p a).
    assert (0 <= zval a < bls_p)%Z by (rewrite <- B; apply Z.mod_pos_bound; vm_compute; reflexivity).
    replace (bls_p - zval a =? 0)%Z with false by (symmetry; apply Z.eqb_neq; lia).
    replace (zval a =? 0)%Z with false by (symmetry; apply Z.eqb_neq; exact Ea). cbn [andb]. rewrite !orb_false_r. reflexivity.
Qed.
