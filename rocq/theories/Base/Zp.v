(** Integers modulo p with a canonical representative.

    This stands for [boost::multiprecision::number<modular_adaptor<...>>], the
    [integral_type]-backed modular number used by A/fields/detail/element/fp.hpp:60-66
    ([modular_type data]).  That class is an external library: that it computes
    exact residues, and that [inverse_mod] returns the inverse of a unit and 0
    otherwise, is part of the trusted base. *)
From Coq Require Import ZArith NArith List Bool Lia Znumtheory Eqdep_dec Ring Field.
From Verif Require Import Base.Field.
Local Open Scope Z_scope.

Record zp (p : Z) := mkzp { zval : Z; zok : Z.eqb (zval mod p) zval = true }.
Arguments zval {p} _.
Arguments zok {p} _.
Arguments mkzp {p} _ _.

Lemma mod_mod_any a p : (a mod p) mod p = a mod p.
Proof. destruct (Z.eq_dec p 0) as [->|H]; [now rewrite !Zmod_0_r|apply Z.mod_mod, H]. Qed.

Lemma zok_mod a p : Z.eqb ((a mod p) mod p) (a mod p) = true.
Proof. rewrite mod_mod_any. apply Z.eqb_refl. Qed.

Definition tozp (p a : Z) : zp p := mkzp (a mod p) (zok_mod a p).

Lemma zp_ext p (x y : zp p) : zval x = zval y -> x = y.
Proof.
  destruct x as [x Hx], y as [y Hy]; cbn. intros E. subst y.
  f_equal. apply UIP_dec, bool_dec.
Qed.

Lemma zval_tozp p a : zval (tozp p a) = a mod p.
Proof. reflexivity. Qed.
Lemma zval_mod p (x : zp p) : zval x mod p = zval x.
Proof. apply Z.eqb_eq, zok. Qed.
Lemma tozp_zval p (x : zp p) : tozp p (zval x) = x.
Proof. apply zp_ext. cbn. apply zval_mod. Qed.
Lemma tozp_eq p a b : a mod p = b mod p -> tozp p a = tozp p b.
Proof. intros H. apply zp_ext. exact H. Qed.

(** Extended Euclid: returns (gcd, s) with gcd = s * a (mod p). *)
Fixpoint egcd (n : nat) (r0 r1 s0 s1 : Z) : Z * Z :=
  match n with
  | O => (0, 0)
  | S n => if r1 =? 0 then (r0, s0)
           else let q := r0 / r1 in egcd n r1 (r0 - q * r1) s1 (s0 - q * s1)
  end.

(** [inverse_mod a p]: the inverse of a unit, 0 otherwise. *)
Definition zinv_mod (p a : Z) : Z :=
  let '(g, s) := egcd (Z.to_nat (Z.log2 (p * p)) + 2) p (a mod p) 0 1 in
  if g =? 1 then s mod p else 0.

Definition Zp (p : Z) : FieldOps := {|
  car := zp p;
  f0 := tozp p 0;
  f1 := tozp p 1;
  fadd x y := tozp p (zval x + zval y);
  fmul x y := tozp p (zval x * zval y);
  fsub x y := tozp p (zval x - zval y);
  fopp x := tozp p (- zval x);
  finv x := tozp p (zinv_mod p (zval x));
  feqb x y := Z.eqb (zval x) (zval y)
|}.

Lemma egcd_spec a p : forall n r0 r1 s0 s1,
  0 <= r1 < r0 -> r0 * r1 < 2 ^ Z.of_nat n ->
  (r0 - s0 * a) mod p = 0 -> (r1 - s1 * a) mod p = 0 -> p > 0 ->
  exists s, egcd (S n) r0 r1 s0 s1 = (Z.gcd r0 r1, s) /\ (Z.gcd r0 r1 - s * a) mod p = 0.
Proof.
  induction n as [|n IH]; intros r0 r1 s0 s1 Hr Hf H0 H1 Hp.
  - assert (r1 = 0) by (change (2 ^ Z.of_nat 0) with 1 in Hf; nia). subst r1.
    cbn. exists s0. rewrite Z.gcd_0_r, Z.abs_eq by lia. auto.
  - cbn [egcd]. destruct (Z.eqb_spec r1 0) as [E|E].
    + subst r1. exists s0. rewrite Z.gcd_0_r, Z.abs_eq by lia. auto.
    + assert (Em : r0 - r0 / r1 * r1 = r0 mod r1) by (rewrite Z.mod_eq by lia; lia).
      rewrite Em.
      assert (Hm := Z.mod_pos_bound r0 r1 ltac:(lia)).
      assert (Hq : 1 <= r0 / r1) by (apply Z.div_le_lower_bound; lia).
      assert (H2 : 2 * (r0 mod r1) <= r0) by (rewrite <- Em in *; nia).
      destruct (IH r1 (r0 mod r1) s1 (s0 - r0 / r1 * s1)) as (s & Es & Hs); auto.
      * rewrite Nat2Z.inj_succ, Z.pow_succ_r in Hf by lia. nia.
      * rewrite <- Em.
        replace (r0 - r0 / r1 * r1 - (s0 - r0 / r1 * s1) * a)
          with ((r0 - s0 * a) - (r0 / r1) * (r1 - s1 * a)) by ring.
        rewrite Zminus_mod, H0, Zmult_mod, H1, Z.mul_0_r. reflexivity.
      * exists s. cbn [egcd] in Es. rewrite Es.
        rewrite Z.gcd_comm, Z.gcd_mod, Z.gcd_comm in * by lia.
        assert (Eg : Z.gcd r1 (r0 mod r1) = Z.gcd r0 r1).
        { rewrite Z.gcd_comm, Z.gcd_mod by lia. apply Z.gcd_comm. }
        rewrite ?Eg in *. split; [reflexivity|exact Hs].
Qed.

Lemma zinv_mod_spec p a : 1 < p -> Z.gcd p a = 1 -> (zinv_mod p a * a) mod p = 1.
Proof.
  intros Hp Hg. unfold zinv_mod.
  assert (Hb := Z.mod_pos_bound a p ltac:(lia)).
  assert (Hl := Z.log2_spec (p * p) ltac:(nia)).
  assert (Hn := Z.log2_nonneg (p*p)).
  destruct (egcd_spec a p (Z.to_nat (Z.log2 (p * p)) + 1) p (a mod p) 0 1) as (s & Es & Hs); try lia.
  - rewrite Nat2Z.inj_add, Z2Nat.id by lia. change (Z.of_nat 1) with 1.
    replace (Z.log2 (p*p) + 1) with (Z.succ (Z.log2 (p*p))) by lia. nia.
  - rewrite Z.mul_0_l, Z.sub_0_r. apply Z_mod_same_full.
  - rewrite Z.mul_1_l, Zminus_mod_idemp_l, Z.sub_diag. reflexivity.
  - assert (Eg : Z.gcd p (a mod p) = 1) by (rewrite Z.gcd_comm, Z.gcd_mod by lia; exact Hg).
    rewrite Eg in *.
    replace (Z.to_nat (Z.log2 (p * p)) + 2)%nat with (S (Z.to_nat (Z.log2 (p * p)) + 1)) by lia.
    rewrite Es. cbn [Z.eqb Pos.eqb].
    rewrite Zmult_mod_idemp_l.
    assert (E1 : 1 = (1 - s * a) + s * a) by ring.
    assert (H : 1 mod p = (s * a) mod p).
    { rewrite E1 at 1. rewrite Zplus_mod, Hs, Z.add_0_l. apply mod_mod_any. }
    rewrite <- H. apply Z.mod_1_l. exact Hp.
Qed.

Ltac zcbn := cbv [Zp f0 f1 fadd fmul fsub fopp finv feqb]; cbv beta iota; rewrite ?zval_tozp.

Section ZpRing.
  Variable p : Z.
  Hypothesis Hp : 1 < p.

  Lemma Zp_ring : RingLaws (Zp p).
  Proof.
    constructor.
    - constructor; intros; apply zp_ext; zcbn.
      + rewrite Zplus_mod_idemp_l. apply zval_mod.
      + f_equal. ring.
      + rewrite Zplus_mod_idemp_l, Zplus_mod_idemp_r. f_equal. ring.
      + rewrite Zmult_mod_idemp_l, Z.mul_1_l. apply zval_mod.
      + f_equal. ring.
      + rewrite Zmult_mod_idemp_l, Zmult_mod_idemp_r. f_equal. ring.
      + rewrite Zmult_mod_idemp_l, <- Zplus_mod. f_equal. ring.
      + rewrite Zplus_mod_idemp_r. f_equal. 
      + rewrite Zplus_mod_idemp_r, Z.add_opp_diag_r. reflexivity.
    - intros x y; zcbn. rewrite Z.eqb_eq. split; [apply zp_ext|congruence].
  Qed.

  Lemma Zp_field : prime p -> FieldLaws (Zp p).
  Proof.
    intros Hpr. constructor; [|apply Zp_ring].
    constructor.
    - apply Zp_ring.
    - intros H. apply (f_equal zval) in H. cbv [Zp f0 f1 tozp zval] in H.
      rewrite Z.mod_1_l, Z.mod_0_l in H by lia. discriminate.
    - reflexivity.
    - intros x Hx. apply zp_ext. zcbn. rewrite Zmult_mod_idemp_l.
      rewrite Z.mod_1_l by lia. apply zinv_mod_spec; [exact Hp|].
      apply Zgcd_1_rel_prime. apply prime_rel_prime; [exact Hpr|].
      intros Hd. apply Hx. apply zp_ext. zcbn. rewrite Z.mod_0_l by lia.
      rewrite <- zval_mod. apply Z.mod_divide; [lia|exact Hd].
  Qed.

  Lemma Zp_fofZ z : @fofZ (Zp p) z = tozp p z.
  Proof.
    assert (R := Zp_ring).
    induction z as [|z IH|z IH] using Z.peano_ind.
    - reflexivity.
    - rewrite (fofZ_succ _ R), IH. apply zp_ext. zcbn. rewrite <- Zplus_mod. f_equal. lia.
    - rewrite (fofZ_pred _ R), IH. apply zp_ext. zcbn. rewrite <- Zminus_mod. f_equal.
  Qed.

  Lemma Zp_char : @fofN (Zp p) (Z.to_N p) = f0.
  Proof.
    rewrite <- fofZ_of_N by apply Zp_ring. rewrite Z2N.id by lia. rewrite Zp_fofZ.
    apply zp_ext. zcbn. rewrite Z_mod_same_full, Z.mod_0_l by lia. reflexivity.
  Qed.

  Lemma zval_range (x : zp p) : 0 <= zval x < p.
  Proof. rewrite <- zval_mod. apply Z.mod_pos_bound. lia. Qed.
End ZpRing.
