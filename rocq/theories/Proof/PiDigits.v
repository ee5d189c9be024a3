(** Binary digits of pi (by Machin's formula) and of e (by its series), with proved error bounds. *)
From Coq Require Import ZArith List Bool Lia Lra Reals Machin Ratan Uint63.
From Verif Require Import Spec.DhGroups Proof.LimbSeries.
Import ListNotations.
Local Open Scope R_scope.

Lemma floor_div (a d : Z) : (0 < d)%Z -> IZR (a / d) <= IZR a / IZR d < IZR (a / d) + 1.
Proof.
  intros D. assert (D' : 0 < IZR d) by (apply IZR_lt; exact D).
  assert (A := Z.div_mod a d ltac:(lia)). assert (B := Z.mod_pos_bound a d D).
  assert (B1 := IZR_le _ _ (proj1 B)). assert (B2 := IZR_lt _ _ (proj2 B)).
  apply (f_equal IZR) in A. rewrite plus_IZR, mult_IZR in A.
  assert (E : IZR a / IZR d = IZR (a / d) + IZR (a mod d) / IZR d) by (rewrite A at 1; field; lra).
  rewrite E. split.
  - assert (0 <= IZR (a mod d) / IZR d) by (apply Rmult_le_pos; [exact B1|apply Rlt_le, Rinv_0_lt_compat, D']). lra.
  - assert (IZR (a mod d) / IZR d < 1) by (apply (Rmult_lt_reg_r (IZR d)); [exact D'|]; unfold Rdiv; rewrite Rmult_assoc, Rinv_l, Rmult_1_r by lra; lra). lra.
Qed.

Lemma abs_inv x e : Rabs x <= e -> - e <= x <= e.
Proof. unfold Rabs. destruct (Rcase_abs x); lra. Qed.

(** partial sums from index j *)
Fixpoint psum (u : nat -> R) (f j : nat) : R := match f with O => 0 | S f => u j + psum u f (S j) end.
Lemma psum_last u f : forall j, psum u (S f) j = psum u f j + u (j + f)%nat.
Proof.
  induction f as [|f IH]; intros j; [cbn; rewrite Nat.add_0_r; lra|].
  change (psum u (S (S f)) j) with (u j + psum u (S f) (S j)). rewrite IH. cbn [psum].
  replace (S j + f)%nat with (j + S f)%nat by lia. lra.
Qed.
Lemma sum_psum u f : sum_f_R0 u f = psum u (S f) 0.
Proof.
  induction f as [|f IH]; [cbn; lra|]. rewrite psum_last. cbn [sum_f_R0]. rewrite IH. rewrite Nat.add_0_l. reflexivity.
Qed.

(** ** the arctangent of 1/n *)
Section Arctan.
  Variables (n P : Z).
  Hypotheses (Hn : (1 < n)%Z) (HP : (0 <= P)%Z).
  Let u := Ratan_seq (/ IZR n).
  Let den (j : nat) : Z := (n ^ (2 * Z.of_nat j + 1) * (2 * Z.of_nat j + 1))%Z.
  Lemma pow_pos_n e : (0 <= e)%Z -> (0 < n ^ e)%Z.
  Proof. intros. apply Z.pow_pos_nonneg; lia. Qed.
  Lemma den_pos j : (0 < den j)%Z.
  Proof. unfold den. assert (H := pow_pos_n (2 * Z.of_nat j + 1) ltac:(lia)). nia. Qed.
  Lemma term_eq j : IZR P * u j = IZR P / IZR (den j).
  Proof.
    unfold u, den, Ratan_seq. assert (N : 0 < IZR n) by (apply IZR_lt; lia).
    rewrite mult_IZR. replace (2 * Z.of_nat j + 1)%Z with (Z.of_nat (2 * j + 1)) by lia.
    rewrite <- pow_IZR, <- INR_IZR_INZ. rewrite <- Rinv_pow by lra.
    assert (0 < INR (2 * j + 1)) by (apply lt_0_INR; lia). assert (0 < IZR n ^ (2 * j + 1)) by (apply pow_lt; lra).
    field. lra.
  Qed.
  Lemma alt_bound : forall fuel j sg s, (-1) ^ j = (if sg : bool then 1 else -1) ->
    Rabs (IZR (alt fuel (n * n) (P / n ^ (2 * Z.of_nat j + 1)) (2 * Z.of_nat j + 1) sg s) - IZR s - IZR P * psum (tg_alt u) fuel j) <= INR fuel.
  Proof.
    induction fuel as [|f IH]; intros j sg s H.
    - cbn [alt psum]. replace (IZR s - IZR s - IZR P * 0) with 0 by ring. rewrite Rabs_R0. cbn. lra.
    - cbn [alt psum]. assert (N0 := pow_pos_n (2 * Z.of_nat j + 1) ltac:(lia)).
      rewrite !Z.div_div by nia. fold (den j).
      replace (n ^ (2 * Z.of_nat j + 1) * (n * n))%Z with (n ^ (2 * Z.of_nat (S j) + 1))%Z.
      2:{ replace (2 * Z.of_nat (S j) + 1)%Z with ((2 * Z.of_nat j + 1) + 2)%Z by lia. rewrite Z.pow_add_r by lia. ring. }
      replace (2 * Z.of_nat j + 1 + 2)%Z with (2 * Z.of_nat (S j) + 1)%Z by lia.
      assert (F := floor_div P (den j) (den_pos j)). rewrite <- term_eq in F.
      set (q := (P / den j)%Z) in *.
      assert (H' : (-1) ^ S j = (if negb sg then 1 else -1)) by (cbn [pow]; rewrite H; destruct sg; cbn; lra).
      specialize (IH (S j) (negb sg) (if sg then (s + q)%Z else (s - q)%Z) H').
      set (A := alt _ _ _ _ _ _) in *. rewrite S_INR. unfold tg_alt at 1. rewrite H.
      apply Rabs_le. apply abs_inv in IH as IH'.
      destruct sg; [rewrite plus_IZR in IH'|rewrite minus_IZR in IH']; set (p := psum _ _ _) in *; lra.
  Qed.
  Lemma atan_bound N : IZR P <= IZR (n ^ (2 * Z.of_nat (S (2 * N)) + 1)) ->
    IZR (alt (S (S (2 * N))) (n * n) (P / n) 1 true 0) - INR (S (S (2 * N))) <= IZR P * atan (/ IZR n) <=
    IZR (alt (S (S (2 * N))) (n * n) (P / n) 1 true 0) + INR (S (S (2 * N))) + 1.
  Proof.
    intros HN. assert (N1 : 1 < IZR n) by (apply IZR_lt; lia).
    assert (I : 0 < / IZR n < 1).
    { split; [apply Rinv_0_lt_compat; lra|]. rewrite <- Rinv_1. apply Rinv_lt_contravar; lra. }
    assert (B := alt_bound (S (S (2 * N))) 0 true 0 eq_refl). cbn [Z.of_nat] in B. change (2 * 0 + 1)%Z with 1%Z in B. rewrite Z.pow_1_r in B.
    set (A := alt _ _ _ _ _ _) in *.
    assert (C : Un_cv (fun N => sum_f_R0 (tg_alt u) N) (atan (/ IZR n))).
    { rewrite atan_eq_ps_atan by exact I. unfold ps_atan. destruct (in_int (/ IZR n)) as [h|h]; [|exfalso; apply h; lra].
      destruct (ps_atan_exists_1 _ h) as [v Hv]. exact Hv. }
    assert (Q := alternated_series_ineq u _ N (Ratan_seq_decreasing (/ IZR n) ltac:(lra)) (Ratan_seq_converging (/ IZR n) ltac:(lra)) C).
    rewrite sum_psum in Q.
    assert (L : sum_f_R0 (tg_alt u) (2 * N) = psum (tg_alt u) (S (S (2 * N))) 0 + u (S (2 * N))).
    { rewrite sum_psum, (psum_last _ (S (2 * N)) 0). rewrite Nat.add_0_l.
      assert (Z0 : tg_alt u (S (2 * N)) = - u (S (2 * N))) by (unfold tg_alt; rewrite pow_1_odd; ring). rewrite Z0. ring. }
    rewrite L in Q. set (p := psum _ (S (S (2 * N))) 0) in *.
    assert (P0 : 0 <= IZR P) by (apply IZR_le; exact HP).
    assert (T : IZR P * u (S (2 * N)) <= 1).
    { rewrite term_eq. apply (Rmult_le_reg_r (IZR (den (S (2 * N))))); [apply IZR_lt, den_pos|].
      assert (D := IZR_lt _ _ (den_pos (S (2 * N)))). unfold Rdiv. rewrite Rmult_assoc, Rinv_l, Rmult_1_r, Rmult_1_l by lra.
      apply (Rle_trans _ _ _ HN). apply IZR_le. unfold den. assert (H := pow_pos_n (2 * Z.of_nat (S (2 * N)) + 1) ltac:(lia)). nia. }
    assert (B' : - INR (S (S (2 * N))) <= IZR A - 0 - IZR P * p <= INR (S (S (2 * N)))) by (apply abs_inv, B).
    destruct Q as [Q1 Q2]. apply (Rmult_le_compat_l (IZR P)) in Q1; [|exact P0]. apply (Rmult_le_compat_l (IZR P)) in Q2; [|exact P0]. lra.
  Qed.
End Arctan.

(** ** the exponential series *)
Lemma cv_le (u : nat -> R) l B N : Un_cv u l -> (forall m, (N <= m)%nat -> u m <= B) -> l <= B.
Proof.
  intros C H. destruct (Rle_lt_dec l B) as [L|L]; [exact L|exfalso].
  destruct (C (l - B) ltac:(lra)) as [M HM]. specialize (HM (N + M)%nat ltac:(lia)). specialize (H (N + M)%nat ltac:(lia)).
  unfold R_dist in HM. apply Rabs_def2 in HM. lra.
Qed.
Lemma fact_inv_pos k : 0 < / INR (fact k).
Proof. apply Rinv_0_lt_compat, INR_fact_lt_0. Qed.
Lemma E1_S m : E1 1 (S m) = E1 1 m + / INR (fact (S m)).
Proof. unfold E1. cbn [sum_f_R0]. rewrite pow1. lra. Qed.
Lemma E1_upper N : forall m, (N <= m)%nat -> E1 1 m + 2 * / INR (fact (S m)) <= E1 1 N + 2 * / INR (fact (S N)).
Proof.
  intros m H. induction H as [|m H IH]; [lra|]. eapply Rle_trans; [|exact IH]. rewrite E1_S.
  assert (F : / INR (fact (S (S m))) = / INR (S (S m)) * / INR (fact (S m))).
  { change (fact (S (S m))) with (S (S m) * fact (S m))%nat. rewrite mult_INR, Rinv_mult_distr; [reflexivity|apply not_0_INR; lia|apply INR_fact_neq_0]. }
  rewrite F. assert (G := fact_inv_pos (S m)).
  assert (I : / INR (S (S m)) <= / 2) by (apply Rinv_le_contravar; [lra|]; rewrite !S_INR; assert (0 <= INR m) by apply pos_INR; lra).
  assert (2 * (/ INR (S (S m)) * / INR (fact (S m))) <= / INR (fact (S m))) by nra. lra.
Qed.
Lemma e_bounds N : E1 1 N <= exp 1 <= E1 1 N + 2 * / INR (fact (S N)).
Proof.
  assert (C := E1_cvg 1). split.
  - apply (growing_ineq (E1 1)); [|exact C]. intros m. rewrite E1_S. assert (H := fact_inv_pos (S m)). lra.
  - apply (cv_le (E1 1) _ _ N C). intros m H. assert (Q := E1_upper N m H). assert (G := fact_inv_pos (S m)). lra.
Qed.
Section Exp.
  Variable P : Z.
  Hypothesis HP : (0 <= P)%Z.
  Let zf (k : nat) := Z.of_nat (fact k).
  Lemma zf_pos k : (0 < zf k)%Z.
  Proof. unfold zf. assert (H := lt_O_fact k). lia. Qed.
  Lemma zf_S k : (zf k * (Z.of_nat k + 1))%Z = zf (S k).
  Proof. unfold zf. change (fact (S k)) with (S k * fact k)%nat. lia. Qed.
  Lemma fac_last : forall f j s, fac (S f) (P / zf j) (Z.of_nat j + 1) s = (fac f (P / zf j) (Z.of_nat j + 1) s + P / zf (j + S f))%Z.
  Proof.
    induction f as [|f IH]; intros j s.
    - cbn [fac]. rewrite Z.div_div, zf_S by (assert (H := zf_pos j); lia). replace (j + 1)%nat with (S j) by lia. reflexivity.
    - assert (ST : forall g, fac (S g) (P / zf j) (Z.of_nat j + 1) s = fac g (P / zf (S j)) (Z.of_nat (S j) + 1) (s + P / zf (S j))).
      { intros g. cbn [fac]. rewrite Z.div_div, zf_S by (assert (H := zf_pos j); lia).
        replace (Z.of_nat j + 1 + 1)%Z with (Z.of_nat (S j) + 1)%Z by lia. reflexivity. }
      rewrite !ST, IH. replace (S j + S f)%nat with (j + S (S f))%nat by lia. reflexivity.
  Qed.
  Let run (f : nat) := fac f P 1 P.
  Lemma run_S f : run (S f) = (run f + P / zf (S f))%Z.
  Proof. assert (H := fac_last f 0 P). unfold zf in H at 1 2. cbn [fact Z.of_nat Nat.add] in H. change (Z.of_nat 1) with 1%Z in H. rewrite Z.div_1_r in H. exact H. Qed.
  Lemma run_bound f : IZR (run f) <= IZR P * E1 1 f <= IZR (run f) + INR f.
  Proof.
    induction f as [|f IH]; [unfold run, E1; cbn; lra|]. rewrite run_S, E1_S, plus_IZR, S_INR.
    assert (F := floor_div P (zf (S f)) (zf_pos (S f))). unfold zf in F. rewrite <- INR_IZR_INZ in F. fold (zf (S f)) in F. unfold Rdiv in F. lra.
  Qed.
  Lemma exp_bound f : run (S f) = run f -> IZR (run f) <= IZR P * exp 1 <= IZR (run f) + INR f + 2.
  Proof.
    intros E. rewrite run_S in E. assert (Q : (P / zf (S f) = 0)%Z) by lia.
    assert (F := floor_div P (zf (S f)) (zf_pos (S f))). rewrite Q in F. unfold zf in F. rewrite <- INR_IZR_INZ in F. unfold Rdiv in F.
    assert (B := run_bound f). destruct (e_bounds f) as [L U]. assert (P0 : 0 <= IZR P) by (apply IZR_le; exact HP).
    apply (Rmult_le_compat_l (IZR P)) in L; [|exact P0]. apply (Rmult_le_compat_l (IZR P)) in U; [|exact P0]. lra.
  Qed.
End Exp.

(** ** pi and e times 2^8122 *)
Definition bits : Z := 8122.
Definition pi_mid : Z := (16 * alt_run 5 25 262 (S (S (2 * 917))) - 4 * alt_run 239 57121 262 (S (S (2 * 262))))%Z.
Definition e_mid : Z := fac_run 262 970.
Definition err : Z := 40000.
Lemma pi_enclosure : IZR (pi_mid - err) <= IZR (2 ^ bits) * PI <= IZR (pi_mid + err).
Proof.
  assert (M := Machin_4_5_239).
  assert (P0 : (0 <= 2 ^ bits)%Z) by (apply Z.pow_nonneg; lia).
  assert (K : forall n e N, (1 < n)%Z -> (2 ^ 31 <= n ^ e)%Z -> (0 <= e)%Z -> (e * 262 <= 2 * Z.of_nat (S (2 * N)) + 1)%Z -> IZR (2 ^ bits) <= IZR (n ^ (2 * Z.of_nat (S (2 * N)) + 1))).
  { intros n e N Hn H He L. apply IZR_le. change bits with (31 * 262)%Z. rewrite Z.pow_mul_r by lia.
    eapply Z.le_trans; [apply Z.pow_le_mono_l; split; [|exact H]; apply Z.pow_nonneg; lia|]. rewrite <- Z.pow_mul_r by lia.
    apply Z.pow_le_mono_r; lia. }
  assert (A := atan_bound 5 (2 ^ bits) ltac:(lia) P0 917 (K 5%Z 14%Z 917%nat ltac:(lia) ltac:(vm_compute; discriminate) ltac:(lia) ltac:(vm_compute; discriminate))).
  assert (B := atan_bound 239 (2 ^ bits) ltac:(lia) P0 262 (K 239%Z 4%Z 262%nat ltac:(lia) ltac:(vm_compute; discriminate) ltac:(lia) ltac:(vm_compute; discriminate))).
  assert (RA := alt_run_ok 5 25 262 (S (S (2 * 917))) ltac:(vm_compute; split; reflexivity) ltac:(vm_compute; split; reflexivity) ltac:(vm_compute; reflexivity)).
  assert (RB := alt_run_ok 239 57121 262 (S (S (2 * 262))) ltac:(vm_compute; split; reflexivity) ltac:(vm_compute; split; reflexivity) ltac:(vm_compute; reflexivity)).
  change (Uint63.to_Z 25) with (5 * 5)%Z in RA. change (Uint63.to_Z 5) with 5%Z in RA. change (31 * Z.of_nat 262)%Z with bits in RA, RB.
  change (Uint63.to_Z 57121) with (239 * 239)%Z in RB. change (Uint63.to_Z 239) with 239%Z in RB.
  rewrite <- RA in A. rewrite <- RB in B. unfold pi_mid.
  set (a := alt_run 5 _ _ _) in *. set (b := alt_run 239 _ _ _) in *. clearbody a b. clear RA RB.
  set (x := atan (/ IZR 5)) in *. set (y := atan (/ IZR 239)) in *. clearbody x y.
  assert (EA : INR (S (S (2 * 917))) = 1836) by (rewrite INR_IZR_INZ; apply f_equal; reflexivity).
  assert (EB : INR (S (S (2 * 262))) = 526) by (rewrite INR_IZR_INZ; apply f_equal; reflexivity).
  rewrite EA in A. rewrite EB in B. clear EA EB K.
  set (p := IZR (2 ^ bits)) in *. clearbody p.
  assert (E : p * PI = 16 * (p * x) - 4 * (p * y)) by nra.
  rewrite E. unfold err. rewrite plus_IZR, !minus_IZR, !mult_IZR. lra.
Qed.
Lemma e_stable : fac_run 262 971 = fac_run 262 970.
Proof. vm_compute. reflexivity. Qed.
Lemma e_enclosure : IZR (e_mid - err) <= IZR (2 ^ bits) * exp 1 <= IZR (e_mid + err).
Proof.
  assert (P0 : (0 <= 2 ^ bits)%Z) by (apply Z.pow_nonneg; lia).
  assert (R0 := fac_run_ok 262 970 ltac:(vm_compute; reflexivity)). assert (R1 := fac_run_ok 262 971 ltac:(vm_compute; reflexivity)).
  change (31 * Z.of_nat 262)%Z with bits in R0, R1.
  assert (H := exp_bound (2 ^ bits) P0 970). cbv beta zeta in H. rewrite <- R0, <- R1 in H. specialize (H e_stable). unfold e_mid.
  set (a := fac_run 262 970) in *. clearbody a. clear R0 R1.
  assert (E : INR 970 = 970) by (rewrite INR_IZR_INZ; apply f_equal; reflexivity). rewrite E in H.
  unfold err. rewrite plus_IZR, minus_IZR. lra.
Qed.

(** ** integer parts *)
Definition floor_at (mid b : Z) : option Z :=
  let s := (bits - (b - 130))%Z in
  let m := Z.shiftr (mid - err) s in
  if (0 <=? s)%Z && (130 <=? b)%Z && (Z.shiftr (mid + err) s =? m)%Z then Some m else None.
Lemma floor_at_ok mid x b m : IZR (mid - err) <= IZR (2 ^ bits) * x <= IZR (mid + err) ->
  floor_at mid b = Some m -> is_floor m (IZR (2 ^ (b - 130)) * x).
Proof.
  intros [L U]. unfold floor_at. set (s := (bits - (b - 130))%Z).
  destruct ((0 <=? s)%Z) eqn:S0; [|discriminate]. destruct ((130 <=? b)%Z) eqn:B0; [|discriminate].
  destruct (Z.eqb_spec (Z.shiftr (mid + err) s) (Z.shiftr (mid - err) s)) as [E|]; [|discriminate]. cbn [andb]. intros H. injection H as <-.
  apply Z.leb_le in S0, B0. rewrite Z.shiftr_div_pow2 in * by exact S0. rewrite Z.shiftr_div_pow2 in E by exact S0.
  assert (T : (0 < 2 ^ s)%Z) by (apply Z.pow_pos_nonneg; lia). assert (T' := IZR_lt _ _ T).
  assert (F1 := floor_div (mid - err) (2 ^ s) T). assert (F2 := floor_div (mid + err) (2 ^ s) T). rewrite E in F2.
  replace bits with ((b - 130) + s)%Z in L, U by (unfold s; lia). rewrite Z.pow_add_r, mult_IZR in L, U by lia.
  set (t := IZR (2 ^ s)) in *. set (w := IZR (2 ^ (b - 130))) in *. set (m := IZR ((mid - err) / 2 ^ s)) in *.
  set (lo := IZR (mid - err)) in *. set (hi := IZR (mid + err)) in *.
  assert (L' : lo / t <= w * x) by (apply (Rmult_le_reg_r t); [exact T'|]; replace (lo / t * t) with lo by (field; lra); lra).
  assert (U' : w * x <= hi / t) by (apply (Rmult_le_reg_r t); [exact T'|]; replace (hi / t * t) with hi by (field; lra); lra).
  unfold is_floor. fold m. lra.
Qed.

Definition modp_formula (m b X : Z) : Z := (2 ^ b - 2 ^ (b - 64) - 1 + 2 ^ 64 * (m + X))%Z.
Definition ffdhe_formula (m b X : Z) : Z := (2 ^ b - 2 ^ (b - 64) + (m + X) * 2 ^ 64 - 1)%Z.
Definition check (formula : Z -> Z -> Z -> Z) (mid : Z) (r : Z * Z * Z) : bool :=
  let '(b, X, p) := r in match floor_at mid b with Some m => Z.eqb p (formula m b X) | None => false end.
Lemma modp_sound l : forallb (check modp_formula pi_mid) l = true -> forall b X p, In (b, X, p) l -> rfc3526 b X p.
Proof.
  intros H b X p I. rewrite forallb_forall in H. specialize (H _ I). unfold check in H.
  destruct (floor_at pi_mid b) as [m|] eqn:E; [|discriminate]. apply Z.eqb_eq in H.
  exists m. split; [exact (floor_at_ok _ _ _ _ pi_enclosure E)|exact H].
Qed.
Lemma ffdhe_sound l : forallb (check ffdhe_formula e_mid) l = true -> forall b X p, In (b, X, p) l -> rfc7919 b X p.
Proof.
  intros H b X p I. rewrite forallb_forall in H. specialize (H _ I). unfold check in H.
  destruct (floor_at e_mid b) as [m|] eqn:E; [|discriminate]. apply Z.eqb_eq in H.
  exists m. split; [exact (floor_at_ok _ _ _ _ e_enclosure E)|exact H].
Qed.
