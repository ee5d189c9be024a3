(** Evaluation of the twisted Edwards, Montgomery and edwards<183> G1 checks. *)
From Coq Require Import ZArith NArith List Bool Lia Znumtheory Ring Field.
From Bignums Require Import BigN.
From Verif Require Import Base.Field Base.Zp Base.Ext Base.Hom Base.BigZp Spec.Group Spec.Weierstrass Spec.Edwards Spec.Montgomery
  Model.ShortWeierstrass Model.FieldParams Model.Shipped Model.CurveParams Model.Generators
  Proof.ExtTheory Proof.FiniteField Proof.Homs Proof.Shipped Proof.ShippedTowers
  Proof.PrimesPairing Proof.PrimesSecp Proof.PrimesMisc Proof.OrderCheck Proof.Generators.
Import ListNotations.
Local Open Scope fld_scope.

(** ** Twisted Edwards: [s] is a square root of a *)
Section TE.
  Definition te_check (p a d s X Y Z r : Z) : bool :=
    let m := bigz p in
    let K := BigZp m in
    let a' : K := bigz a in let d' : K := bigz d in let s' : K := bigz s in
    let t : triple K := mkT (bigz X : K) (bigz Y : K) (bigz Z : K) in
    (2 <? p)%Z && (0 <? r)%Z && nonneg [a; d; s; X; Y; Z] && (s' * s' =? a') && negb (s' =? 0) &&
    nonpower K 2 (Z.to_N p) d' && te_on_ok K a' d' t && te_order_ok K a' d' t (Z.to_pos r).
  Variables p a d s X Y Z r : Z.
  Hypothesis Hp : prime p.
  Hypothesis Hc : te_check p a d s X Y Z r = true.
  Local Notation K := (Zp p).
  Local Notation cst z := (tozp p z : K).
  Lemma te_check_sound P : te_prep (mkT (cst X) (cst Y) (cst Z)) P ->
    complete K (cst a) (cst d) /\ on_te K (cst a) (cst d) P /\ (0 < r)%Z /\ (2 : K) <> 0 /\
    te_mul K (cst a) (cst d) (Z.to_nat r) P = te_zero.
  Proof.
    intros T. assert (C := Hc). unfold te_check in C. cbv zeta in C. rewrite !andb_true_iff in C.
    destruct C as (((((((C1 & C2) & C3) & C4) & C5) & C6) & C7) & C8). apply Z.ltb_lt in C1, C2.
    assert (HH : Hom (BigZp (bigz p)) K (of_big p)) by (apply BigZp_hom; [lia|apply bigz_spec; lia]).
    assert (H1 : (1 < p)%Z) by lia.
    assert (KL := Zp_field p H1 Hp). assert (R := FieldLaws_Ring K KL). assert (two := Zp_two _ C1).
    assert (E : forall k, of_big p (bigz (nth k [a; d; s; X; Y; Z] 0%Z)) = cst (nth k [a; d; s; X; Y; Z] 0%Z))
      by (intros k; apply of_big_bigz, nonneg_nth, C3).
    assert (Ea := E 0%nat). assert (Ed := E 1%nat). assert (Es := E 2%nat).
    assert (EX := E 3%nat). assert (EY := E 4%nat). assert (EZ := E 5%nat). cbn [nth] in Ea, Ed, Es, EX, EY, EZ.
    rewrite <- (hom_eqb _ _ _ HH) in C4, C5. rewrite (hom_mul _ _ _ HH) in C4. rewrite (hom_0 _ _ _ HH) in C5.
    apply (feqb_true K R) in C4. apply negb_true_iff, (feqb_false K R) in C5.
    rewrite <- (nonpower_hom _ HH) in C6. apply (nonpower_2K K (Z.to_N p) (Zp_FinField p Hp)) in C6.
    assert (CM : complete K (of_big p (bigz a)) (of_big p (bigz d))).
    { split; [exists (of_big p (bigz s)); split; assumption|exact C6]. }
    assert (T' : te_prep (K := K) (tmap (A := BigZp (bigz p)) (of_big p) (mkT (bigz X : BigZp (bigz p)) (bigz Y) (bigz Z))) P).
    { unfold tmap; cbn [tX tY tZ]. rewrite EX, EY, EZ. exact T. }
    assert (ON := te_on_sound (A := BigZp (bigz p)) (K := K) (of_big p) HH KL _ _ _ P T' C7).
    assert (MU := te_order_sound (A := BigZp (bigz p)) (K := K) (of_big p) HH KL two _ _ CM _ P _ ON T' C8).
    rewrite Ea, Ed in *. repeat split; auto; try apply CM.
    replace (Z.to_nat r) with (Pos.to_nat (Z.to_pos r)) by (rewrite <- (Z2Nat.inj_pos (Z.to_pos _)), Z2Pos.id by exact C2; reflexivity).
    exact MU.
  Qed.
  Lemma te_check_two : (2 : K) <> 0.
  Proof.
    assert (C := Hc). unfold te_check in C. cbv zeta in C. rewrite !andb_true_iff in C.
    destruct C as (((((((C1 & _) & _) & _) & _) & _) & _) & _). apply Z.ltb_lt in C1. apply Zp_two, C1.
  Qed.
End TE.

(** square roots of the coefficients a *)
Definition te_roots : list Z :=
  [0x8d51ccce760304d0ec030002760300000001000000000000;
   0xff3234afb38a3f8d1411ffb5591babf49072758c2a2322eefc605021164390b;
   0x2b8324804fc1df0b2b4d00993dfbd7a72f431806ad2fe478c4ee1b274a0ea0b0]%Z.
Definition te_curve_check (cs : te_curve * Z) : bool :=
  let c := fst cs in te_check (tec_p c) (tec_a c) (tec_d c) (snd cs) (ptX (tec_one c)) (ptY (tec_one c)) 1 (tec_r c).
Lemma te_checks : forallb te_curve_check (combine shipped_te_g1 te_roots) = true.
Proof. vm_compute. reflexivity. Qed.
Lemma te_primes : Forall (fun c => prime (tec_p c)) shipped_te_g1.
Proof.
  unfold shipped_te_g1. repeat (apply Forall_cons; cbn [tec_p]); try apply Forall_nil.
  - exact prime_bls12_scalar_field_381. - exact prime_alt_bn128_scalar_field_254. - exact prime_curve25519_base_field.
Qed.
(** edwards<183> G1: (Z/X, Z/Y) as the triple (ZY, ZX, XY) *)
Lemma edwards_g1_check : let l := edwards_183_g1_inverted_one in
  let X := nth 0 l 0%Z in let Y := nth 1 l 0%Z in let Z := nth 2 l 0%Z in
  te_check edwards_base_field_183_modulus edwards_183_a edwards_183_d 1 (Z * Y) (Z * X) (X * Y) edwards_scalar_field_183_modulus = true.
Proof. vm_compute. reflexivity. Qed.

(** ** Montgomery, B = 1; [a0] = A/3 *)
Section Mont.
  Definition mont_check (c : mont_curve) (a0 : Z) : bool :=
    let m := bigz (mc_p c) in
    let K := BigZp m in
    let A : K := bigz (mc_A c) in let z : K := bigz a0 in
    let x : K := bigz (ptX (mc_one c)) in let y : K := bigz (ptY (mc_one c)) in
    (2 <? mc_p c)%Z && (0 <? mc_r c)%Z && nonneg [mc_A c; a0] && nonneg (mc_one c) && (mc_B c =? 1)%Z &&
    (3 * z =? A) && negb (A * A - 2 * 2 =? 0) && negb (3 =? (0 : K)) &&
    (y * y =? x * x * x + A * (x * x) + x) && mont_order_ok z x y (Z.to_pos (mc_r c)).
  Variables (c : mont_curve) (a0 : Z).
  Hypothesis Hp : prime (mc_p c).
  Hypothesis Hc : mont_check c a0 = true.
  Local Notation K := (Zp (mc_p c)).
  Local Notation cst z := (tozp (mc_p c) z : K).
  Lemma mont_check_sound : let G := Aff (cst (ptX (mc_one c))) (cst (ptY (mc_one c))) in
    mont_nonsingular K (cst (mc_A c)) (cst (mc_B c)) /\ on_mont K (cst (mc_A c)) (cst (mc_B c)) G /\
    (0 < mc_r c)%Z /\ (2 : K) <> 0 /\ (3 : K) <> 0 /\
    mont_mul K (cst (mc_A c)) (cst (mc_B c)) (Z.to_nat (mc_r c)) G = Inf.
  Proof.
    cbv zeta. assert (C := Hc). unfold mont_check in C. cbv zeta in C. rewrite !andb_true_iff in C.
    destruct C as (((((((((C1 & C2) & C3) & C4) & C5) & C6) & C7) & C8) & C9) & C10). apply Z.ltb_lt in C1, C2. apply Z.eqb_eq in C5.
    assert (HH : Hom (BigZp (bigz (mc_p c))) K (of_big (mc_p c))) by (apply BigZp_hom; [lia|apply bigz_spec; lia]).
    assert (H1 : (1 < mc_p c)%Z) by lia.
    assert (KL := Zp_field _ H1 Hp). assert (R := FieldLaws_Ring K KL). assert (two := Zp_two _ C1).
    assert (EA : of_big (mc_p c) (bigz (mc_A c)) = cst (mc_A c)) by (apply of_big_bigz, (nonneg_nth _ 0 C3)).
    assert (Ex : of_big (mc_p c) (bigz (ptX (mc_one c))) = cst (ptX (mc_one c))) by (apply of_big_bigz, (nonneg_nth _ 0 C4)).
    assert (Ey : of_big (mc_p c) (bigz (ptY (mc_one c))) = cst (ptY (mc_one c))) by (apply of_big_bigz, (nonneg_nth _ 1 C4)).
    assert (EB : cst (mc_B c) = (1 : K)) by (rewrite C5; reflexivity).
    rewrite EB, <- EA, <- Ex, <- Ey.
    apply negb_true_iff in C7, C8.
    rewrite <- (hom_eqb _ _ _ HH) in C6, C7, C8, C9. apply (feqb_true K R) in C6, C9. apply (feqb_false K R) in C7, C8.
    revert C6 C7 C8 C9. repeat progress (homs HH). intros C6 C7 C8 C9.
    assert (NS : mont_nonsingular K (3 * of_big (mc_p c) (bigz a0)) 1).
    { unfold mont_nonsingular. rewrite C6. intros E. apply C7. rewrite <- E. symmetry. apply (Rmul_1_l (F_R (FL_th _ KL))). }
    assert (ON : on_mont K (3 * of_big (mc_p c) (bigz a0)) 1 (Aff (of_big (mc_p c) (bigz (ptX (mc_one c)))) (of_big (mc_p c) (bigz (ptY (mc_one c)))))).
    { unfold on_mont. rewrite C6, (Rmul_1_l (F_R (FL_th _ KL))). exact C9. }
    assert (MU := mont_order_sound (A := BigZp (bigz (mc_p c))) (K := K) (of_big (mc_p c)) HH KL two C8 _ _ _ NS _ ON C10).
    rewrite C6 in *. repeat split; auto.
    replace (Z.to_nat (mc_r c)) with (Pos.to_nat (Z.to_pos (mc_r c))) by (rewrite <- (Z2Nat.inj_pos (Z.to_pos _)), Z2Pos.id by exact C2; reflexivity).
    exact MU.
  Qed.
End Mont.
Definition mont_thirds : list Z :=
  [0x3556; 0x10216f7ba065e00de81ac1e7808072c9b8114d6d7de87adb16a0a7315000dba9;
   0x2aaaaaaaaaaaaaaaaaaaaaaaaaaaaaaaaaaaaaaaaaaaaaaaaaaaaaaaaaad2451]%Z.
Lemma mont_checks : forallb (fun cs => mont_check (fst cs) (snd cs)) (combine shipped_mont_g1 mont_thirds) = true.
Proof. vm_compute. reflexivity. Qed.
Lemma mont_primes : Forall (fun c => prime (mc_p c)) shipped_mont_g1.
Proof.
  unfold shipped_mont_g1. repeat (apply Forall_cons; cbn [mc_p]); try apply Forall_nil.
  - exact prime_bls12_scalar_field_381. - exact prime_alt_bn128_scalar_field_254. - exact prime_curve25519_base_field.
Qed.
