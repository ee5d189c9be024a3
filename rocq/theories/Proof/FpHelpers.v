From Coq Require Import ZArith NArith List Bool Lia Ring.
From Verif Require Import Base.Field Base.Zp Model.Fp.
Local Open Scope Z_scope.

Lemma Zp_fpow_val p (x : Zp p) (e : N) : (1 < p) -> zval (fpow x e) = (zval x ^ Z.of_N e) mod p.
Proof.
  intros Hp. induction e as [|e IH] using N.peano_ind.
  - reflexivity.
  - rewrite fpow_succ. change (zval (fmul x (fpow x e))) with ((zval x * zval (fpow x e)) mod p).
    rewrite IH, N2Z.inj_succ, Z.pow_succ_r by lia.
    apply Zmult_mod_idemp_r.
Qed.

Lemma fp_powm_eq p (x : Zp p) (e : N) : 1 < p -> fp_powm p x e = fpow x e.
Proof.
  intros Hp. apply zp_ext. rewrite Zp_fpow_val by exact Hp. reflexivity.
Qed.

Lemma fp_powm_mod7 (e : N) : fp_powm 7 (tozp 7 3) e = fp_powm 7 (tozp 7 3) (e mod 6).
Proof.
  rewrite !(fp_powm_eq 7) by reflexivity.
  assert (R := Zp_ring 7).
  rewrite (N.div_mod' e 6) at 1.
  rewrite (fpow_add _ R), (fpow_mul _ R).
  assert (E : fpow (tozp 7 3 : Zp 7) 6 = f1) by (apply zp_ext; reflexivity).
  rewrite E, (fpow_one _ R). apply (Rmul_1_l (RL_th _ R)).
Qed.

Local Open Scope fld_scope.
Section Helpers.
Variable p : Z.
Add Ring Zr : (RL_th _ (Zp_ring p)).
Lemma fp_dbl_ring (x : Zp p) : x + x = x * 2.
Proof. ring. Qed.
End Helpers.
Lemma fp_helpers (p : Z) (x y : Zp p) (n : Z) : (1 < p)%Z ->
  fp_incr p x = x + 1 /\ fst (fp_postincr p x) = x /\ snd (fp_postincr p x) = x + 1
  /\ fp_decr p x = x - 1 /\ fst (fp_postdecr p x) = x /\ snd (fp_postdecr p x) = x - 1
  /\ fp_doubled p x = x * 2 /\ fp_sqr p x = fpow x 2
  /\ (fp_is_zero p x = true <-> x = 0) /\ (fp_is_one p x = true <-> x = 1)
  /\ (fp_neqb p x y = true <-> x <> y)
  /\ fp_of_int p n = fofZ n.
Proof.
  intros Hp. assert (R := Zp_ring p).
  repeat match goal with |- _ /\ _ => split end; try reflexivity.
  - apply fp_dbl_ring.
  - symmetry. apply (fpow_2 _ R).
  - apply (RL_eqb _ R).
  - apply (RL_eqb _ R).
  - unfold fp_neqb. rewrite negb_true_iff. apply (feqb_false _ R).
  - symmetry. apply Zp_fofZ.
Qed.

Lemma fp_order (p : Z) (x y : Zp p) :
  (fp_ltb p x y = true <-> (zval x < zval y)%Z)
  /\ fp_gtb p x y = fp_ltb p y x /\ fp_geb p x y = negb (fp_ltb p x y)
  /\ fp_leb p x y = negb (fp_ltb p y x)
  /\ (fp_leb p x y = true -> fp_leb p y x = true -> x = y).
Proof.
  unfold fp_ltb, fp_gtb, fp_geb, fp_leb.
  split; [apply Z.ltb_lt|]. split; [reflexivity|]. split; [apply Z.leb_antisym|].
  split; [apply Z.leb_antisym|].
  rewrite !Z.leb_le. intros H1 H2. apply zp_ext. lia.
Qed.
