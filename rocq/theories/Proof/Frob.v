(** In a commutative ring of prime characteristic p, x -> x^p is additive;
    Fermat's little theorem for Z/p. *)
From Coq Require Import ZArith NArith List Bool Lia Ring Znumtheory.
From Verif Require Import Base.Field Base.Zp.

Local Open Scope nat_scope.
(** ** Binomial coefficients *)
Fixpoint bin (n k : nat) : nat :=
  match n, k with
  | _, O => 1
  | O, S _ => 0
  | S n', S k' => bin n' k' + bin n' (S k')
  end.

Lemma bin_n_0 n : bin n 0 = 1. Proof. destruct n; reflexivity. Qed.
Lemma bin_S_S n k : bin (S n) (S k) = bin n k + bin n (S k). Proof. reflexivity. Qed.
Lemma bin_gt n : forall k, n < k -> bin n k = 0.
Proof.
  induction n as [|n IH]; intros [|k] H; try lia; [reflexivity|].
  rewrite bin_S_S, !IH by lia. reflexivity.
Qed.
Lemma bin_n_n n : bin n n = 1.
Proof. induction n as [|n IH]; [reflexivity|]. rewrite bin_S_S, IH, bin_gt by lia. reflexivity. Qed.

Lemma bin_absorb n : forall k, S k * bin (S n) (S k) = S n * bin n k.
Proof.
  induction n as [|n IH]; intros k.
  - destruct k; [reflexivity|]. rewrite bin_gt by lia. cbn. lia.
  - rewrite bin_S_S. rewrite Nat.mul_add_distr_l, IH.
    destruct k as [|k].
    + rewrite !bin_n_0. lia.
    + replace (S (S k) * bin (S n) (S k)) with (bin (S n) (S k) + S k * bin (S n) (S k)) by lia.
      rewrite IH. replace (bin (S n) (S k)) with (bin n k + bin n (S k)) by reflexivity.
      lia.
Qed.

Lemma prime_divides_bin p k : prime (Z.of_nat p) -> 0 < k < p -> exists m, bin p k = p * m.
Proof.
  intros Hp Hk. destruct p as [|n]; [lia|]. destruct k as [|k]; [lia|].
  assert (H := bin_absorb n k).
  assert (Hd : (Z.of_nat (S n) | Z.of_nat (bin (S n) (S k)))%Z).
  { apply Gauss with (b := Z.of_nat (S k)).
    - exists (Z.of_nat (bin n k)). rewrite <- !Nat2Z.inj_mul. f_equal. lia.
    - apply prime_rel_prime; [exact Hp|]. intros Hd. apply Z.divide_pos_le in Hd; lia. }
  destruct Hd as [m Hm].
  exists (Z.to_nat m). apply Nat2Z.inj. rewrite Nat2Z.inj_mul, Z2Nat.id; lia.
Qed.

Section Freshman.
  Variable K : FieldOps.
  Hypothesis R : RingLaws K.
  Add Ring Kr : (RL_th K R).
  Local Open Scope fld_scope.
  Implicit Types x y : K.

  Fixpoint npow x (n : nat) : K := match n with O => 1 | S m => x * npow x m end.
  Fixpoint nmul (n : nat) x : K := match n with O => 0 | S m => x + nmul m x end.
  (** f 0 + ... + f n *)
  Fixpoint fsum (n : nat) (f : nat -> K) : K := match n with O => f O | S m => fsum m f + f (S m) end.

  Lemma npow_fpow x n : npow x n = fpow x (N.of_nat n).
  Proof.
    induction n as [|n IH]; [reflexivity|]. rewrite Nat2N.inj_succ, fpow_succ, <- IH. reflexivity.
  Qed.
  Lemma nmul_add a b x : nmul (a + b)%nat x = nmul a x + nmul b x.
  Proof. induction a as [|a IH]; cbn; [ring|]. rewrite IH. ring. Qed.
  Lemma nmul_mul_l a x y : y * nmul a x = nmul a (y * x).
  Proof. induction a as [|a IH]; cbn; [ring|]. rewrite <- IH. ring. Qed.
  Lemma nmul_fofN a x : nmul a x = fofN (N.of_nat a) * x.
  Proof.
    induction a as [|a IH]; [change (fofN (N.of_nat 0)) with (0 : K); cbn; ring|].
    rewrite Nat2N.inj_succ, fofN_succ. cbn. rewrite IH. ring.
  Qed.
  Lemma fsum_ext n f g : (forall i, (i <= n)%nat -> f i = g i) -> fsum n f = fsum n g.
  Proof.
    induction n as [|n IH]; intros H; cbn; [apply H; lia|].
    rewrite IH, (H (S n)); [reflexivity|lia|]. intros; apply H; lia.
  Qed.
  Lemma fsum_add n f g : fsum n (fun i => f i + g i) = fsum n f + fsum n g.
  Proof. induction n as [|n IH]; cbn; [reflexivity|]. rewrite IH. ring. Qed.
  Lemma fsum_scale n c f : c * fsum n f = fsum n (fun i => c * f i).
  Proof. induction n as [|n IH]; cbn; [reflexivity|]. rewrite <- IH. ring. Qed.
  Lemma fsum_shift n f : fsum (S n) f = f O + fsum n (fun i => f (S i)).
  Proof. induction n as [|n IH]; [reflexivity|]. cbn in *. rewrite IH. ring. Qed.

  Lemma binomial x y n :
    npow (x + y) n = fsum n (fun k => nmul (bin n k) (npow x k * npow y (n - k))).
  Proof.
    induction n as [|n IH]; [cbn; ring|].
    cbn [npow]. rewrite IH.
    assert (E1 : x * fsum n (fun k => nmul (bin n k) (npow x k * npow y (n - k)))
                 = fsum n (fun k => nmul (bin n k) (npow x (S k) * npow y (S n - S k)))).
    { rewrite fsum_scale. apply fsum_ext. intros i Hi. rewrite nmul_mul_l. f_equal. cbn. ring. }
    assert (E2 : y * fsum n (fun k => nmul (bin n k) (npow x k * npow y (n - k)))
                 = fsum n (fun k => nmul (bin n k) (npow x k * npow y (S n - k)))).
    { rewrite fsum_scale. apply fsum_ext. intros i Hi. rewrite nmul_mul_l. f_equal.
      replace (S n - i)%nat with (S (n - i)) by lia. cbn. ring. }
    transitivity (x * fsum n (fun k => nmul (bin n k) (npow x k * npow y (n - k)))
                + y * fsum n (fun k => nmul (bin n k) (npow x k * npow y (n - k)))); [ring|].
    rewrite E1, E2.
    rewrite (fsum_shift n (fun k => nmul (bin (S n) k) _)).
    (* split the second sum: extend to n+1 with a zero term, then shift *)
    assert (E3 : fsum n (fun k => nmul (bin n k) (npow x k * npow y (S n - k)))
               = nmul (bin (S n) 0) (npow x 0 * npow y (S n - 0))
                 + fsum n (fun k => nmul (bin n (S k)) (npow x (S k) * npow y (S n - S k)))).
    { transitivity (fsum (S n) (fun k => nmul (bin n k) (npow x k * npow y (S n - k)))).
      - cbn [fsum]. rewrite (bin_gt n (S n)) by lia. cbn [nmul]. ring.
      - rewrite fsum_shift. rewrite !bin_n_0. reflexivity. }
    rewrite E3.
    transitivity (nmul (bin (S n) 0) (npow x 0 * npow y (S n - 0))
      + fsum n (fun k => nmul (bin n k) (npow x (S k) * npow y (S n - S k))
                         + nmul (bin n (S k)) (npow x (S k) * npow y (S n - S k)))).
    - rewrite fsum_add. ring.
    - f_equal. apply fsum_ext. intros i Hi. rewrite bin_S_S, nmul_add. reflexivity.
  Qed.

  Lemma fsum_zero n f : (forall i, (i <= n)%nat -> f i = 0) -> fsum n f = 0.
  Proof.
    induction n as [|n IH]; intros H; cbn; [apply H; lia|].
    rewrite IH by (intros; apply H; lia). rewrite H by lia. ring.
  Qed.

  Lemma freshman (p : N) x y : prime (Z.of_N p) -> fofN p = (0 : K) ->
    fpow (x + y) p = fpow x p + fpow y p.
  Proof.
    intros Hp Hc. rewrite <- (N2Nat.id p) in *. set (n := N.to_nat p) in *. clearbody n. clear p.
    rewrite nat_N_Z in Hp. rewrite <- !npow_fpow, binomial.
    assert (H2 := prime_ge_2 _ Hp).
    destruct n as [|[|n]]; [lia|lia|].
    rewrite fsum_shift. cbn [fsum].
    rewrite (fsum_zero n).
    - rewrite bin_n_0, bin_n_n. rewrite Nat.sub_diag, Nat.sub_0_r. cbn [nmul]. cbn [npow]. ring.
    - intros i Hi. destruct (prime_divides_bin (S (S n)) (S i) Hp) as [m Hm]; [lia|].
      rewrite Hm, nmul_fofN, Nat2N.inj_mul, (fofN_mul K R), Hc. ring.
  Qed.

  Lemma frob_add_iter (p : N) k x y : prime (Z.of_N p) -> fofN p = (0 : K) ->
    fpow (x + y) (p ^ k) = fpow x (p ^ k) + fpow y (p ^ k).
  Proof.
    intros Hp Hc. induction k as [|k IH] using N.peano_ind.
    - rewrite N.pow_0_r, !(fpow_1 K R). reflexivity.
    - rewrite N.pow_succ_r', N.mul_comm, !(fpow_mul K R), IH. apply freshman; assumption.
  Qed.
End Freshman.

Lemma Zp_fermat (p : Z) (x : Zp p) : prime p -> fpow x (Z.to_N p) = x.
Proof.
  intros Hp. assert (H2 := prime_ge_2 _ Hp). assert (R := Zp_ring p).
  assert (Hc : @fofN (Zp p) (Z.to_N p) = f0) by (apply Zp_char; lia).
  assert (HpN : prime (Z.of_N (Z.to_N p))) by (rewrite Z2N.id by lia; exact Hp).
  assert (H : forall n : nat, fpow (tozp p (Z.of_nat n) : Zp p) (Z.to_N p) = tozp p (Z.of_nat n)).
  { induction n as [|n IH].
    - change (tozp p (Z.of_nat 0)) with (@f0 (Zp p)). apply (fpow_zero _ R). lia.
    - assert (E : tozp p (Z.of_nat (S n)) = fadd (tozp p (Z.of_nat n) : Zp p) f1).
      { apply zp_ext. zcbn. rewrite <- Zplus_mod. f_equal. lia. }
      rewrite E, (freshman _ R) by assumption. rewrite IH, (fpow_one _ R). reflexivity. }
  specialize (H (Z.to_nat (zval x))).
  assert (Hv := zval_range p ltac:(lia) x).
  rewrite Z2Nat.id in H by lia. rewrite tozp_zval in H. exact H.
Qed.

Lemma Zp_fermat1 (p : Z) (x : Zp p) : prime p -> x <> f0 -> fpow x (Z.to_N (p - 1)) = f1.
Proof.
  intros Hp Hx. assert (H2 := prime_ge_2 _ Hp).
  assert (F := Zp_field p ltac:(lia) Hp).
  apply (fmul_cancel_l _ F x); [exact Hx|].
  rewrite <- fpow_succ. replace (N.succ (Z.to_N (p - 1))) with (Z.to_N p) by lia.
  rewrite Zp_fermat by exact Hp. symmetry.
  rewrite (Rmul_comm (RL_th _ (Zp_ring p))). apply (Rmul_1_l (RL_th _ (Zp_ring p))).
Qed.
