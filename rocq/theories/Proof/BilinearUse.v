(** Consequences of bilinearity: integer multiples, orders and non-degeneracy. *)
From Coq Require Import ZArith NArith List Bool Lia Ring Field Znumtheory.
From Verif Require Import Base.Field Spec.Group Spec.Weierstrass Spec.Scalars Proof.WeierstrassGroup Proof.WeierstrassRep Proof.TwistBilinear.
Local Open Scope fld_scope.

Section ZPow.
  Variable K : FieldOps.
  Hypothesis KL : FieldLaws K.
  Let R := FieldLaws_Ring K KL.
  Add Field Kzp : (FL_th K KL).
  Lemma fzpow_N (x : K) n : fzpow x (Z.of_N n) = fpow x n.
  Proof. destruct n; reflexivity. Qed.
  Lemma fzpow_neq0 (x : K) i : x <> 0 -> fzpow x i <> 0.
  Proof.
    intros X. destruct i; cbn [fzpow]; [exact (F_1_neq_0 (FL_th K KL))|apply (fpow_neq_0 K KL), X|apply (finv_neq_0 K KL), (fpow_neq_0 K KL), X].
  Qed.
  Lemma fzpow_succ (x : K) i : x <> 0 -> fzpow x (Z.succ i) = x * fzpow x i.
  Proof.
    intros X. assert (S : forall n, fpow x (N.succ n) = x * fpow x n) by (intros; apply (fpow_succ K)).
    destruct i as [|n|n].
    - change (fpow x 1 = x * 1). rewrite (fpow_1 K R). ring.
    - change (Z.succ (Zpos n)) with (Zpos (n + 1)). cbn [fzpow]. rewrite <- S. f_equal. lia.
    - destruct (Pos.eq_dec n 1) as [->|N].
      + change (1 = x * finv (fpow x 1)). rewrite (fpow_1 K R). field. exact X.
      + assert (E : Z.succ (Zneg n) = Zneg (Pos.pred n)) by lia. rewrite E. cbn [fzpow].
        assert (E' : Npos n = N.succ (Npos (Pos.pred n))) by lia. rewrite E', S. field. split; [apply (fpow_neq_0 K KL), X|exact X].
  Qed.
  Lemma fzpow_add (x : K) i j : x <> 0 -> fzpow x (i + j) = fzpow x i * fzpow x j.
  Proof.
    intros X. revert i. apply Z.bi_induction.
    - intros u v ->. reflexivity.
    - rewrite Z.add_0_l. cbn [fzpow]. ring.
    - intros i. rewrite Z.add_succ_l, !fzpow_succ by exact X. split; intros E.
      + rewrite E. ring.
      + apply (fmul_cancel_l K KL x _ _ X). rewrite E. ring.
  Qed.
  Lemma fzpow_opp (x : K) i : x <> 0 -> fzpow x (- i) = finv (fzpow x i).
  Proof.
    intros X. assert (A := fzpow_add x i (- i) X). rewrite Z.add_opp_diag_r in A. cbn [fzpow] in A.
    apply (fmul_cancel_l K KL (fzpow x i) _ _ (fzpow_neq0 x i X)). rewrite <- A. field. apply fzpow_neq0, X.
  Qed.
  Lemma fzpow_mul (x : K) i j : x <> 0 -> fzpow x (i * j) = fzpow (fzpow x i) j.
  Proof.
    intros X. assert (XI := fzpow_neq0 x i X). revert j. apply Z.bi_induction.
    - intros u v ->. reflexivity.
    - rewrite Z.mul_0_r. reflexivity.
    - intros j. rewrite Z.mul_succ_r, fzpow_add, fzpow_succ by assumption. split; intros E.
      + rewrite E. ring.
      + apply (fmul_cancel_l K KL (fzpow x i) _ _ XI). rewrite <- E. ring.
  Qed.
  Lemma fzpow_one i : fzpow (1 : K) i = 1.
  Proof.
    destruct i; cbn [fzpow]; rewrite ?(fpow_one K R); try reflexivity. field. exact (F_1_neq_0 (FL_th K KL)).
  Qed.
  Lemma fzpow_order (x : K) (r i : Z) : prime r -> fzpow x r = 1 -> x <> 0 -> x <> 1 -> (fzpow x i = 1 <-> (r | i)%Z).
  Proof.
    intros Pr E X N. split.
    - intros I. destruct (Zdivide_dec r i) as [D|D]; [exact D|]. exfalso. apply N.
      destruct (rel_prime_bezout _ _ (prime_rel_prime r Pr i D)) as [u v B].
      transitivity (fzpow x (u * r + v * i)); [rewrite B; symmetry; apply (fpow_1 K R)|].
      rewrite fzpow_add, (Z.mul_comm u), (Z.mul_comm v), !fzpow_mul, E, I, !fzpow_one by exact X. ring.
    - intros [k ->]. rewrite Z.mul_comm, fzpow_mul, E by exact X. apply fzpow_one.
  Qed.
End ZPow.

Section Mul.
  Variable K : FieldOps.
  Hypothesis KL : FieldLaws K.
  Hypothesis two : (2 : K) <> 0.
  Variables a b : K.
  Hypothesis ns : nonsingular K a b.
  Let G := sw_group K KL two a b ns.
  Lemma gm' k P : ec_mul K a (N.to_nat k) P = gmul (G := G) k P.
  Proof. symmetry. apply (sw_gmul K KL two a b ns). Qed.
  Lemma zmul_on i P : on_curve K a b P -> on_curve K a b (ec_zmul K a i P).
  Proof.
    intros O. destruct i; cbn [ec_zmul]; [exact I|rewrite gm'; apply (gmul_in G), O|rewrite gm'; apply (g_inneg G), (gmul_in G), O].
  Qed.
  Lemma zmul_order r i P : on_curve K a b P -> ec_mul K a (N.to_nat r) P = Inf -> ec_mul K a (N.to_nat r) (ec_zmul K a i P) = Inf.
  Proof.
    intros O E. rewrite gm' in E.
    assert (A : forall k, gmul (G := G) r (gmul (G := G) k P) = Inf).
    { intros k. rewrite <- (gmul_mul G) by exact O. rewrite N.mul_comm, (gmul_mul G) by exact O. rewrite E. apply (gmul_zero G). }
    destruct i; cbn [ec_zmul]; rewrite !gm'; [apply (gmul_zero G)|apply A|].
    refine (eq_trans (gmul_neg G r _ (gmul_in G _ _ O)) _). rewrite A. reflexivity.
  Qed.
  Lemma add_on P P' : on_curve K a b P -> on_curve K a b P' -> on_curve K a b (ec_add K a P P').
  Proof. apply (g_inadd G). Qed.
  Lemma add_order r P P' : on_curve K a b P -> on_curve K a b P' -> ec_mul K a (N.to_nat r) P = Inf -> ec_mul K a (N.to_nat r) P' = Inf ->
    ec_mul K a (N.to_nat r) (ec_add K a P P') = Inf.
  Proof.
    intros O O' E E'. rewrite gm' in *. refine (eq_trans (gmul_gadd G r P P' O O') _). rewrite E, E'. reflexivity.
  Qed.
  (** a multiple of a point of prime order is the identity only when the order divides the factor *)
  Lemma mul_inf r P k : prime (Z.of_N r) -> on_curve K a b P -> ec_mul K a (N.to_nat r) P = Inf -> P <> Inf -> ec_mul K a (N.to_nat k) P = Inf -> (Z.of_N r | Z.of_N k)%Z.
  Proof.
    intros Pr O E N Z. rewrite gm' in *. destruct (Zdivide_dec (Z.of_N r) (Z.of_N k)) as [D|D]; [exact D|]. exfalso. apply N.
    assert (R2 := prime_ge_2 _ Pr).
    destruct (rel_prime_bezout _ _ (prime_rel_prime _ Pr _ D)) as [u v B].
    assert (M0 : forall x y, gmul (G := G) x P = Inf -> gmul (G := G) (y * x) P = Inf).
    { intros x y Hx. rewrite (gmul_mul G) by exact O. rewrite Hx. apply (gmul_zero G). }
    (* 1 + m r + l k = m' r + l' k with natural coefficients *)
    set (p1 := Z.to_N (Z.max 0 u)). set (p2 := Z.to_N (Z.max 0 (- u))). set (p3 := Z.to_N (Z.max 0 v)). set (p4 := Z.to_N (Z.max 0 (- v))).
    assert (C : (1 + (p2 * r + p4 * k) = p1 * r + p3 * k)%N) by (apply N2Z.inj; unfold p1, p2, p3, p4; nia).
    assert (S := f_equal (fun n => gmul (G := G) n P) C). cbv beta in S.
    rewrite !(gmul_add G) in S by exact O. rewrite (gmul_1 G) in S by exact O. rewrite !M0 in S by assumption.
    assert (S' : ec_add K a P Inf = Inf) by exact S. destruct P; [reflexivity|discriminate S'].
  Qed.
  Lemma zmul_inf r P i : prime (Z.of_N r) -> on_curve K a b P -> ec_mul K a (N.to_nat r) P = Inf -> P <> Inf -> ec_zmul K a i P = Inf -> (Z.of_N r | i)%Z.
  Proof.
    intros Pr O E N Z. destruct i as [|k|k]; [exists 0%Z; reflexivity| |].
    - exact (mul_inf r P (Npos k) Pr O E N Z).
    - apply Z.divide_opp_r. apply (mul_inf r P (Npos k) Pr O E N). cbn [ec_zmul] in Z.
      destruct (ec_mul K a (N.to_nat (N.pos k)) P); [reflexivity|discriminate Z].
  Qed.
  Lemma zmul_N k P : ec_zmul K a (Z.of_N k) P = ec_mul K a (N.to_nat k) P.
  Proof. destruct k; reflexivity. Qed.
  (** multiples of a point of order r *)
  Lemma zmul_gen (r : N) Q0 k j : (0 < r)%N -> on_curve K a b Q0 -> ec_mul K a (N.to_nat r) Q0 = Inf ->
    exists k', ec_zmul K a j (ec_mul K a k Q0) = ec_mul K a k' Q0.
  Proof.
    intros R O E. rewrite gm' in E. rewrite <- (Nat2N.id k). destruct j as [|n|n]; cbn [ec_zmul].
    - exists 0%nat. reflexivity.
    - exists (N.to_nat (Npos n * N.of_nat k)). rewrite !gm'. symmetry. apply (gmul_mul G), O.
    - exists (N.to_nat ((r - 1) * (Npos n * N.of_nat k))). rewrite !gm'.
      rewrite <- (gmul_mul G) by exact O. set (m := (Npos n * N.of_nat k)%N). symmetry.
      apply (g_neg_unique G); [apply (gmul_in G), O|apply (gmul_in G), O|].
      rewrite <- (gmul_add G) by exact O. replace (m + (r - 1) * m)%N with (m * r)%N by nia.
      rewrite (gmul_mul G) by exact O. rewrite E. apply (gmul_zero G).
  Qed.
End Mul.

Section Use.
  Variables K F G : FieldOps.
  Hypothesis KK : FieldLaws K.
  Hypothesis KF : FieldLaws F.
  Hypothesis KG : FieldLaws G.
  Hypothesis twoK : (2 : K) <> 0.
  Hypothesis twoF : (2 : F) <> 0.
  Variables (a b : K) (a' b' : F).
  Hypothesis ns : nonsingular K a b.
  Hypothesis ns' : nonsingular F a' b'.
  Variables (Q0 : point F) (T : point K -> point F -> G).
  Hypothesis HB : bilinear a b a' Q0 T.
  Variable r : N.
  Hypothesis Pr : prime (Z.of_N r).
  Hypothesis OQ0 : on_curve F a' b' Q0.
  Hypothesis RQ0 : ec_mul F a' (N.to_nat r) Q0 = Inf.
  Let RG := FieldLaws_Ring G KG.
  Add Field Gbu : (FL_th G KG).
  Local Notation on := (on_curve K a b).
  Definition gen Q := exists k, Q = ec_mul F a' k Q0.
  Lemma gen_on Q : gen Q -> on_curve F a' b' Q.
  Proof. intros [k ->]. rewrite <- (Nat2N.id k). rewrite <- (zmul_N F a'). apply (zmul_on F KF twoF a' b' ns'), OQ0. Qed.
  Lemma gen_order Q : gen Q -> ec_mul F a' (N.to_nat r) Q = Inf.
  Proof. intros [k ->]. rewrite <- (Nat2N.id k). rewrite <- (zmul_N F a' (N.of_nat k)). apply (zmul_order F KF twoF a' b' ns' r); assumption. Qed.
  Lemma gen_zmul j Q : gen Q -> gen (ec_zmul F a' j Q).
  Proof. intros [k ->]. apply (zmul_gen F KF twoF a' b' ns' r); [|exact OQ0|exact RQ0]. assert (A := prime_ge_2 _ Pr). lia. Qed.
  Lemma T_neq0 P Q : on P -> gen Q -> T P Q <> 0. Proof. apply (proj1 HB). Qed.
  Lemma T_pow i j P Q : on P -> gen Q -> T (ec_mul K a (N.to_nat i) P) (ec_mul F a' (N.to_nat j) Q) = fpow (T P Q) (i * j).
  Proof. apply (proj2 (proj2 (proj2 HB))). Qed.
  Lemma mul1 (L : FieldOps) (KL : FieldLaws L) (c : L) P : ec_mul L c (N.to_nat 1) P = P.
  Proof. change (ec_add L c P Inf = P). destruct P; reflexivity. Qed.
  Lemma T_inf_l Q : gen Q -> T Inf Q = 1.
  Proof. intros G1. assert (E := T_pow 0 1 Inf Q I G1). rewrite (mul1 F KF) in E. exact E. Qed.
  Lemma T_inf_r P : on P -> T P Inf = 1.
  Proof.
    intros O. assert (E := T_pow 1 0 P Q0 O (ex_intro _ 1%nat (eq_sym (mul1 F KF a' Q0)))). rewrite (mul1 K KK) in E. exact E.
  Qed.
  Lemma T_neg_l P Q : on P -> gen Q -> T (ec_neg P) Q = finv (T P Q).
  Proof.
    intros O G1. assert (N := T_neq0 P Q O G1).
    assert (E := proj1 (proj2 HB) P (ec_neg P) Q O (g_inneg (sw_group K KK twoK a b ns) P O) G1).
    rewrite (g_negr (sw_group K KK twoK a b ns) P O : ec_add K a P (ec_neg P) = Inf), T_inf_l in E by exact G1.
    apply (fmul_cancel_l G KG (T P Q) _ _ N). rewrite <- E. field. exact N.
  Qed.
  Lemma T_neg_r P Q : on P -> gen Q -> T P (ec_neg Q) = finv (T P Q).
  Proof.
    intros O G1. assert (N := T_neq0 P Q O G1). assert (O' := gen_on Q G1).
    assert (G2 : gen (ec_neg Q)).
    { rewrite <- (mul1 F KF a' Q). exact (gen_zmul (-1) Q G1). }
    assert (E := proj1 (proj2 (proj2 HB)) P Q (ec_neg Q) O G1 G2).
    rewrite (g_negr (sw_group F KF twoF a' b' ns') Q O' : ec_add F a' Q (ec_neg Q) = Inf), T_inf_r in E by exact O.
    apply (fmul_cancel_l G KG (T P Q) _ _ N). rewrite <- E. field. exact N.
  Qed.
  Lemma T_zmul_l i P Q : on P -> gen Q -> T (ec_zmul K a i P) Q = fzpow (T P Q) i.
  Proof.
    intros O G1.
    assert (E : forall n, T (ec_mul K a (N.to_nat n) P) Q = fpow (T P Q) n).
    { intros n. assert (E := T_pow n 1 P Q O G1). rewrite (mul1 F KF), N.mul_1_r in E. exact E. }
    destruct i as [|n|n]; cbn [ec_zmul fzpow]; [apply T_inf_l, G1|apply E|].
    rewrite T_neg_l, E; [reflexivity| |exact G1]. rewrite <- (zmul_N K a). apply (zmul_on K KK twoK a b ns), O.
  Qed.
  Lemma T_zmul_r j P Q : on P -> gen Q -> T P (ec_zmul F a' j Q) = fzpow (T P Q) j.
  Proof.
    intros O G1.
    assert (E : forall n, T P (ec_mul F a' (N.to_nat n) Q) = fpow (T P Q) n).
    { intros n. assert (E := T_pow 1 n P Q O G1). rewrite (mul1 K KK), N.mul_1_l in E. exact E. }
    destruct j as [|n|n]; cbn [ec_zmul fzpow]; [apply T_inf_r, O|apply E|].
    rewrite T_neg_r, E; [reflexivity|exact O|]. rewrite <- (zmul_N F a'). apply gen_zmul, G1.
  Qed.
  Theorem T_zmul i j P Q : on P -> gen Q -> T (ec_zmul K a i P) (ec_zmul F a' j Q) = fzpow (T P Q) (i * j).
  Proof.
    intros O G1. rewrite T_zmul_r, T_zmul_l by (try apply (zmul_on K KK twoK a b ns); assumption).
    symmetry. apply (fzpow_mul G KG), T_neq0; assumption.
  Qed.
  Theorem T_order P Q : on P -> gen Q -> fpow (T P Q) r = 1.
  Proof.
    intros O G1. rewrite <- fzpow_N, <- T_zmul_r, zmul_N, (gen_order Q G1) by assumption. apply T_inf_r, O.
  Qed.
  Theorem T_one P Q i j : on P -> gen Q -> T P Q <> 1 ->
    (T (ec_zmul K a i P) (ec_zmul F a' j Q) = 1 <-> (Z.of_N r | i * j)%Z).
  Proof.
    intros O G1 N. rewrite T_zmul by assumption. apply (fzpow_order G KG); [exact Pr| |apply T_neq0; assumption|exact N].
    rewrite fzpow_N. apply T_order; assumption.
  Qed.
  Theorem T_add_l P P' Q : on P -> on P' -> gen Q -> T (ec_add K a P P') Q = T P Q * T P' Q.
  Proof. apply (proj1 (proj2 HB)). Qed.
  Theorem T_add_r P Q Q' : on P -> gen Q -> gen Q' -> T P (ec_add F a' Q Q') = T P Q * T P Q'.
  Proof. apply (proj1 (proj2 (proj2 HB))). Qed.
  Lemma gen_add Q Q' : gen Q -> gen Q' -> gen (ec_add F a' Q Q').
  Proof.
    intros [k ->] [k' ->]. exists (k + k')%nat. rewrite <- (Nat2N.id k), <- (Nat2N.id k'), <- N2Nat.inj_add, !(gm' F KF twoF a' b' ns').
    symmetry. apply (gmul_add (sw_group F KF twoF a' b' ns')), OQ0.
  Qed.
End Use.

Lemma nondeg (K : FieldOps) (KL : FieldLaws K) (x : K) r i j : prime (Z.of_N r) -> fpow x r = 1 -> x <> 0 -> x <> 1 ->
  ~ (Z.of_N r | i)%Z -> ~ (Z.of_N r | j)%Z ->
  fzpow x (i * j) <> 0 /\ fzpow x (i * j) <> 1 /\ fpow (fzpow x (i * j)) r = 1 /\ fzpow x (i * j) = fzpow x (i * j).
Proof.
  intros Pr E N0 N1 I J. split; [apply (fzpow_neq0 K KL), N0|]. split; [|split; [|reflexivity]].
  - intros Z. assert (E' : fzpow x (Z.of_N r) = 1) by (rewrite fzpow_N; exact E).
    apply (fzpow_order K KL x (Z.of_N r) (i * j) Pr E' N0 N1) in Z. destruct (prime_mult _ Pr _ _ Z); contradiction.
  - rewrite <- fzpow_N, <- (fzpow_mul K KL), Z.mul_comm, (fzpow_mul K KL) by exact N0. rewrite fzpow_N, E. apply (fzpow_one K KL).
Qed.
Section Ones.
  Variable K : FieldOps.
  Hypothesis KL : FieldLaws K.
  Add Field Kon : (FL_th K KL).
  Lemma one_jac (x y : K) : rep_jacobian x y 1 (Aff x y).
  Proof. split; [exact (F_1_neq_0 (FL_th K KL))|]. split; ring. Qed.
  Lemma one_proj (x y : K) : rep_projective x y 1 (Aff x y).
  Proof. split; [exact (F_1_neq_0 (FL_th K KL))|]. split; ring. Qed.
End Ones.
