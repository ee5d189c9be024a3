(** exponentiate(double, int) when the power overflows or underflows. *)
From Coq Require Import ZArith Reals Lia Lra Psatz Bool Floats.SpecFloat.
From Flocq Require Import Core Relative BinarySingleNaN.
From Verif Require Import Base.Field Model.ScalarMath Spec.Doubles Proof.SqrtReal Proof.SqrtDouble Proof.ExpDouble.
Local Open Scope R_scope.

Local Notation fe := (FLT_exp (-1074) 53).
Local Notation F := (generic_format radix2 fe).
Local Notation RN := (round radix2 fe ZnearestE).
Local Notation bp := (bpow radix2).
Local Notation B64 := (binary_float 53 1024).
Local Existing Instance prec53.
Local Existing Instance emax1024.
Local Notation loop := (exp_loop spec_float b64_mul).

(** ** an invariant of the loop *)
Section Invariant.
  Variables PX PY : nat -> B64 -> Prop.
  Hypothesis Hxx : forall m x, (1 <= m)%nat -> PX m x -> PX (m + m) (Bmult mode_NE x x).
  Hypothesis Hyx : forall k m y x, (1 <= m)%nat -> PY k y -> PX m x -> PY (k + m) (Bmult mode_NE y x).
  Lemma loop_inv : forall fuel (x y : B64) m k n total, (1 <= m)%nat -> PX m x -> PY k y ->
    (1 <= n < 2 ^ Z.of_nat (S fuel))%Z -> (k + m * Z.to_nat n = total)%nat ->
    exists (x' y' : B64) m' k', loop fuel (B2SF x) (B2SF y) n = (B2SF x', B2SF y') /\
      (1 <= m')%nat /\ (k' + m' = total)%nat /\ PX m' x' /\ PY k' y'.
  Proof.
    induction fuel as [| fuel IH]; intros x y m k n total Hm Nx Ny Hn E; cbn [exp_loop].
    { exists x, y, m, k. replace n with 1%Z in E by (change (2 ^ Z.of_nat 1)%Z with 2%Z in Hn; lia). repeat split; auto; lia. }
    destruct (Z.ltb_spec 1 n) as [L | L].
    2:{ exists x, y, m, k. replace n with 1%Z in E by lia. repeat split; auto; lia. }
    rewrite (Nat2Z.inj_succ (S fuel)), Z.pow_succ_r in Hn by lia.
    rewrite (mul_eq x x). pose proof (Z.div_mod n 2 ltac:(lia)) as D. pose proof (Z.mod_pos_bound n 2 ltac:(lia)) as D2.
    destruct (Z.eqb_spec (n mod 2) 0) as [P | P].
    - apply (IH (Bmult mode_NE x x) y (m + m)%nat k); auto; try lia; try nia.
    - assert (n mod 2 = 1)%Z by lia. assert ((n - 1) / 2 = n / 2)%Z by (symmetry; apply Z.div_unique with 0%Z; lia).
      rewrite H0, mul_eq.
      apply (IH (Bmult mode_NE x x) (Bmult mode_NE y x) (m + m)%nat (k + m)%nat); auto; try lia; try nia.
  Qed.
  Lemma power_inv (x : B64) total : (1 <= total)%nat -> (Z.of_nat total < 2 ^ 31)%Z -> PX 1 x -> PY 0 one64 ->
    exists (x' y' : B64) m' k', (let '(x, y) := loop 31 (B2SF x) b64_1 (Z.of_nat total) in b64_mul x y) = B2SF (Bmult mode_NE x' y') /\
      (1 <= m')%nat /\ (k' + m' = total)%nat /\ PX m' x' /\ PY k' y'.
  Proof.
    intros T T2 Nx Ny. destruct (loop_inv 31 x one64 1 0 (Z.of_nat total) total) as (x' & y' & m & k & E & W); auto.
    - change (2 ^ Z.of_nat 32)%Z with 4294967296%Z. lia.
    - lia.
    - rewrite one_sf in E. rewrite E. exists x', y', m, k. rewrite mul_eq. auto.
  Qed.
End Invariant.

(** ** values above a bound, or infinite *)
Definition big (s : bool) (L : R) (v : B64) : Prop :=
  v = B754_infinity s \/ (is_finite v = true /\ Bsign v = s /\ L <= Rabs (B2R v)).
Lemma big_fin_inf s L v s' : 0 < L -> big s L v -> Bmult mode_NE v (B754_infinity s') = B754_infinity (xorb s s') /\
  Bmult mode_NE (B754_infinity s') v = B754_infinity (xorb s' s).
Proof.
  intros P [-> | (Fv & S & B)]; [split; reflexivity |].
  destruct v as [sv | sv | | sv mv ev Bv]; cbn in Fv; try discriminate Fv.
  - cbn in B. rewrite Rabs_R0 in B. lra.
  - cbn in S. subst sv. split; reflexivity.
Qed.
Lemma big_mul s1 s2 L1 L2 a b : 1 <= L1 -> 1 <= L2 -> big s1 L1 a -> big s2 L2 b -> big (xorb s1 s2) (L1 * L2 * (1 - u)) (Bmult mode_NE a b).
Proof.
  intros P1 P2 A B.
  destruct A as [-> | A]. { left. apply (big_fin_inf s2 L2 b s1); [lra | exact B]. }
  destruct B as [-> | B]. { left. apply (big_fin_inf s1 L1 a s2); [lra | right; exact A]. }
  destruct A as (Fa & Sa & Ba). destruct B as (Fb & Sb & Bb).
  generalize (Bmult_correct 53 1024 _ _ mode_NE a b).
  change (round radix2 (SpecFloat.fexp 53 1024) (round_mode mode_NE) (B2R a * B2R b)) with (RN (B2R a * B2R b)).
  destruct (Rlt_bool _ _).
  - intros (E & G & H). rewrite Fa, Fb in G. right. split; [exact G |].
    split. { rewrite H, Sa, Sb; [reflexivity |]. destruct (Bmult mode_NE a b); auto; discriminate G. }
    rewrite E. pose proof u_small.
    assert (M : L1 * L2 <= Rabs (B2R a * B2R b)). { rewrite Rabs_mult. apply Rmult_le_compat; lra. }
    assert (O : 1 <= L1 * L2) by nra.
    destruct (RN_rel_abs (B2R a * B2R b)) as (e & He & ->).
    { apply Rle_trans with (2 := M). apply Rle_trans with (2 := O). apply (bpow_le radix2 (-1022) 0). lia. }
    rewrite (Rabs_mult _ e), (Rabs_pos_eq e) by lra. apply Rmult_le_compat; lra.
  - intros E. left. rewrite Sa, Sb in E. destruct (Bmult mode_NE a b); cbn in E; try discriminate E. now injection E as ->.
Qed.
Lemma power_over (x : B64) s c t : (1 <= t)%nat -> (Z.of_nat t < 2 ^ 31)%Z -> 1 <= c -> big s (c / (1 - u)) x -> bp 1024 <= c ^ t ->
  (let '(x, y) := loop 31 (B2SF x) b64_1 (Z.of_nat t) in b64_mul x y) = S754_infinity (s && Nat.odd t).
Proof.
  intros T T2 C X B. pose proof u_small as U.
  assert (CP : forall m, 1 <= c ^ m) by (intros m; apply pow_R1_Rle, C).
  assert (CQ : forall m, 1 <= c ^ m / (1 - u)).
  { intros m. apply Rmult_le_reg_r with (1 - u); [lra |]. unfold Rdiv. rewrite Rmult_assoc, Rinv_l by lra. specialize (CP m). lra. }
  assert (OD : forall a b, s && Nat.odd (a + b) = xorb (s && Nat.odd a) (s && Nat.odd b)).
  { intros a b. rewrite Nat.odd_add. destruct s, (Nat.odd a), (Nat.odd b); reflexivity. }
  assert (YX : forall k m y x', (1 <= m)%nat -> big (s && Nat.odd k) (c ^ k) y -> big (s && Nat.odd m) (c ^ m / (1 - u)) x' ->
    big (s && Nat.odd (k + m)) (c ^ (k + m)) (Bmult mode_NE y x')).
  { intros k m y x' Hm Y X'. rewrite OD. replace (c ^ (k + m)) with (c ^ k * (c ^ m / (1 - u)) * (1 - u)) by (rewrite pow_add; field; lra).
    now apply big_mul. }
  destruct (power_inv (fun m v => big (s && Nat.odd m) (c ^ m / (1 - u)) v) (fun k v => big (s && Nat.odd k) (c ^ k) v)) with (x := x) (total := t)
    as (x' & y' & m & k & E & Hm & S & X' & Y'); auto.
  - intros m v Hm V. rewrite OD.
    replace (c ^ (m + m) / (1 - u)) with (c ^ m / (1 - u) * (c ^ m / (1 - u)) * (1 - u)) by (rewrite pow_add; field; lra).
    now apply big_mul.
  - cbn [Nat.odd]. rewrite pow_1, andb_true_r. exact X.
  - right. rewrite one_val, Rabs_R1. cbn. rewrite andb_false_r. repeat split. lra.
  - rewrite E.
    assert (Z : big (s && Nat.odd t) (c ^ t) (Bmult mode_NE x' y')).
    { replace t with (m + k)%nat by lia. rewrite OD.
      replace (c ^ (m + k)) with (c ^ m / (1 - u) * c ^ k * (1 - u)) by (rewrite pow_add; field; lra). now apply big_mul. }
    destruct Z as [-> | (Fz & _ & Bz)]; [reflexivity |]. exfalso.
    pose proof (abs_B2R_lt_emax 53 1024 (Bmult mode_NE x' y')). lra.
Qed.
Lemma above_one y : F y -> 1 < y -> 1 + 2 * u <= y.
Proof.
  intros Fy L. assert (S : succ radix2 fe 1 = 1 + 2 * u).
  { rewrite succ_eq_pos by lra. f_equal. change 1 with (bp 0). rewrite ulp_bpow. unfold FLT_exp, u. change (Z.max (0 + 1 - 53) (-1074)) with (-53 + 1)%Z.
    rewrite bpow_plus. change (bp 1) with 2. ring. }
  rewrite <- S. apply succ_le_lt; auto with typeclass_instances. change 1 with (bp 0). apply F_bp. lia.
Qed.
Lemma pow_lo_few j : few j -> / 2 <= (1 - u) ^ j.
Proof. intros H. pose proof (pow_lo j). pose proof (few_u j H). lra. Qed.
Lemma big_start (x : B64) t : is_finite x = true -> (1 <= t)%nat -> bp 1024 <= (Rabs (B2R x) * (1 - u)) ^ t ->
  1 <= Rabs (B2R x) * (1 - u) /\ big (Bsign x) (Rabs (B2R x) * (1 - u) / (1 - u)) x.
Proof.
  intros Fx T B. pose proof u_small as U. split.
  - destruct (Rle_lt_dec (Rabs (B2R x)) 1) as [L | L].
    + exfalso. assert ((Rabs (B2R x) * (1 - u)) ^ t <= 1). { apply pow_le1. pose proof (Rabs_pos (B2R x)). nra. }
      assert (1 < bp 1024) by (apply (bpow_lt radix2 0 1024); lia). lra.
    + assert (V := above_one (Rabs (B2R x)) (generic_format_abs radix2 fe _ (generic_format_B2R 53 1024 x)) L). nra.
  - right. repeat split; auto. unfold Rdiv. rewrite Rmult_assoc, Rinv_r by lra. lra.
Qed.

Lemma bp_1025 : bp 1025 = 2 * bp 1024.
Proof. change 2 with (bp 1). rewrite <- bpow_plus. reflexivity. Qed.
Lemma sign_neg (x : B64) : Bsign x = negative (B2SF x).
Proof. destruct x; reflexivity. Qed.
Lemma exp_overflow x n : finite_double x -> (0 < Z.abs n < 2 ^ 31)%Z ->
  ((0 < n)%Z /\ bp 1025 <= Rabs (real x) ^ Z.abs_nat n) \/ ((n < 0)%Z /\ Rabs (real x) ^ Z.abs_nat n <= bp (-1025)) ->
  exponentiate_double x n = Some (S754_infinity (negative x && Z.odd n)).
Proof.
  intros Hx Hn H. destruct (B2R_real x Hx) as (X & FX & EX). destruct (real_B2R X FX) as [_ VX]. rewrite EX in VX. rewrite VX in H.
  rewrite <- EX, <- sign_neg. pose proof u_small as U. pose proof (bpow_gt_0 radix2 1024) as B0.
  unfold exponentiate_double, exponentiate.
  destruct (Z.eqb_spec n 0); [lia |]. destruct (Z.eqb_spec n (- 2 ^ 31)); [lia |].
  set (t := Z.abs_nat n) in *.
  assert (OD : Z.odd n = Nat.odd t).
  { unfold t.
    assert (A : Z.odd (Z.abs n) = Z.odd n) by (destruct n; reflexivity || destruct p; reflexivity).
    rewrite <- A, <- Zabs2Nat.id_abs. generalize (Z.abs_nat n). intros k. induction k as [| k IH]; [reflexivity |].
    rewrite Nat2Z.inj_succ, Z.odd_succ, Nat.odd_succ, <- Z.negb_odd, <- Nat.negb_odd, IH. reflexivity. }
  rewrite OD.
  destruct H as [[P H] | [P H]].
  - destruct (Z.ltb_spec n 0) as [L | L]; [lia |]. replace n with (Z.of_nat t) by lia.
    assert (W : few t) by (unfold few; lia).
    assert (C : bp 1024 <= (Rabs (B2R X) * (1 - u)) ^ t).
    { rewrite Rpow_mult_distr. rewrite bp_1025 in H. pose proof (pow_lo_few t W).
      apply Rle_trans with (2 * bp 1024 * / 2); [lra |]. apply Rmult_le_compat; lra. }
    destruct (big_start X t FX ltac:(lia) C) as [C1 C2].
    assert (E := power_over X (Bsign X) _ t ltac:(lia) ltac:(lia) C1 C2 C).
    destruct (exp_loop _ _ _ _ _ _) as [x' y']. now rewrite E.
  - destruct (Z.ltb_spec n 0) as [L | L]; [| lia]. replace (- n)%Z with (Z.of_nat t) by lia.
    rewrite <- one_sf, div_eq, one_sf. set (D := Bdiv mode_NE one64 X).
    assert (K : D = B754_infinity (Bsign X) \/ (is_finite D = true /\ Bsign D = Bsign X /\ bp 1024 <= (Rabs (B2R D) * (1 - u)) ^ t)).
    { destruct (Req_dec (B2R X) 0) as [Z | NZ].
      - left. unfold D. destruct X as [s | s | | s m e Bd]; try discriminate FX.
        + destruct s; reflexivity.
        + exfalso. apply eq_0_F2R in Z. destruct s; discriminate Z.
      - generalize (Bdiv_correct 53 1024 _ _ mode_NE one64 X NZ).
        change (round radix2 (SpecFloat.fexp 53 1024) (round_mode mode_NE) (B2R one64 / B2R X)) with (RN (B2R one64 / B2R X)).
        fold D. rewrite one_val. destruct (Rlt_bool _ _).
        + intros (E & G & S). right. assert (FD : is_finite D = true) by (rewrite G; reflexivity).
          split; [exact FD |]. split. { rewrite S; [change (Bsign one64) with false; apply xorb_false_l |]. destruct D; auto; discriminate FD. }
          assert (A0 : 0 < Rabs (B2R X)) by (now apply Rabs_pos_lt).
          assert (A1 : Rabs (B2R X) < 1).
          { apply Rnot_le_lt. intros A1. assert (1 <= Rabs (B2R X) ^ t) by (now apply pow_R1_Rle).
            assert (bp (-1025) < 1) by (apply (bpow_lt radix2 (-1025) 0); lia). lra. }
          assert (A2 : Rabs (1 / B2R X) = / Rabs (B2R X)). { unfold Rdiv. rewrite Rmult_1_l. apply Rabs_inv. }
          assert (A3 : 1 <= / Rabs (B2R X)). { rewrite <- Rinv_1 at 1. apply Rinv_le; lra. }
          destruct (RN_rel_abs (1 / B2R X)) as (e & He & Ee).
          { rewrite A2. apply Rle_trans with (2 := A3). apply (bpow_le radix2 (-1022) 0). lia. }
          rewrite E, Ee, Rabs_mult, A2, (Rabs_pos_eq e) by lra.
          assert (W : few (t + t)) by (unfold few; lia). pose proof (pow_lo_few _ W) as W2.
          apply Rle_trans with ((/ Rabs (B2R X)) ^ t * (1 - u) ^ (t + t)).
          * rewrite pow_inv. apply Rle_trans with (bp 1025 * / 2); [rewrite bp_1025; lra |].
            apply Rmult_le_compat; try lra. apply bpow_ge_0.
            change 1025%Z with (- (-1025))%Z. rewrite bpow_opp. apply Rinv_le; [now apply pow_lt | exact H].
          * rewrite pow_add, <- !Rpow_mult_distr. apply pow_incr. split.
            { apply Rmult_le_pos; [lra |]. apply Rmult_le_pos; lra. }
            rewrite <- Rmult_assoc. apply Rmult_le_compat_r; [lra |]. apply Rmult_le_compat_l; lra.
        + intros E. left. change (Bsign one64) with false in E. rewrite xorb_false_l in E.
          destruct D; cbn in E; try discriminate E. now injection E as ->. }
    assert (R : (let '(x, y) := loop 31 (B2SF D) b64_1 (Z.of_nat t) in b64_mul x y) = S754_infinity (Bsign X && Nat.odd t)).
    { destruct K as [K | (FD & SD & C)].
      - apply (power_over D (Bsign X) (bp 1024)); try lia.
        + apply (bpow_le radix2 0 1024). lia.
        + left. exact K.
        + replace t with (1 + (t - 1))%nat by lia. rewrite pow_add, pow_1. rewrite <- (Rmult_1_r (bp 1024)) at 1.
          apply Rmult_le_compat_l; [lra |]. apply pow_R1_Rle. apply (bpow_le radix2 0 1024). lia.
      - destruct (big_start D t FD ltac:(lia) C) as [C1 C2]. rewrite SD in C2.
        apply (power_over D (Bsign X) (Rabs (B2R D) * (1 - u))); auto; lia. }
    destruct (exp_loop _ _ _ _ _ _) as [x' y']. now rewrite R.
Qed.

(** ** values below a bound, or below the normal range *)
Definition small (L : R) (v : B64) : Prop := is_finite v = true /\ Rabs (B2R v) <= 1 /\ (Rabs (B2R v) <= L \/ Rabs (B2R v) <= bp (-1022)).
Lemma RN_abs_le y k : (-1022 <= k)%Z -> Rabs y <= bp k -> Rabs (RN y) <= bp k.
Proof. intros K H. apply abs_round_le_generic; auto with typeclass_instances. apply F_bp. lia. Qed.
Lemma small_mul L1 L2 a b : 0 <= L1 -> 0 <= L2 -> small L1 a -> small L2 b -> small (L1 * L2 * (1 + u)) (Bmult mode_NE a b).
Proof.
  intros P1 P2 (Fa & A1 & A2) (Fb & B1 & B2). pose proof u_small as U. pose proof (bpow_gt_0 radix2 (-1022)) as B0.
  pose proof (Rabs_pos (B2R a)) as Pa. pose proof (Rabs_pos (B2R b)) as Pb.
  assert (M : Rabs (B2R a * B2R b) <= 1) by (rewrite Rabs_mult; nra).
  assert (R1 : Rabs (RN (B2R a * B2R b)) <= 1) by (apply (RN_abs_le _ 0); [lia | exact M]).
  destruct (mul_ok a b Fa Fb) as [E Fm]. { apply Rle_lt_trans with (1 := R1). apply (bpow_lt radix2 0 1024). lia. }
  unfold small. rewrite E. split; [exact Fm |]. split; [exact R1 |].
  destruct (Rle_lt_dec (Rabs (B2R a * B2R b)) (bp (-1022))) as [L | L]; [right; apply RN_abs_le; [lia | exact L] |]. left.
  assert (A3 : Rabs (B2R a) <= L1). { destruct A2 as [A2 | A2]; auto. rewrite Rabs_mult in L. nra. }
  assert (B3 : Rabs (B2R b) <= L2). { destruct B2 as [B2 | B2]; auto. rewrite Rabs_mult in L. nra. }
  destruct (RN_rel_abs (B2R a * B2R b)) as (e & He & ->); [lra |].
  rewrite (Rabs_mult _ e), (Rabs_pos_eq e), Rabs_mult by lra. apply Rmult_le_compat; try lra; [nra |]. now apply Rmult_le_compat.
Qed.
Lemma power_under (x : B64) d t : (1 <= t)%nat -> (Z.of_nat t < 2 ^ 31)%Z -> 0 <= d -> small (d / (1 + u)) x -> exists r : B64,
  (let '(x, y) := loop 31 (B2SF x) b64_1 (Z.of_nat t) in b64_mul x y) = B2SF r /\ small (d ^ t) r.
Proof.
  intros T T2 C X. pose proof u_small as U.
  assert (CP : forall m, 0 <= d ^ m) by (intros m; apply pow_le, C).
  assert (CQ : forall m, 0 <= d ^ m / (1 + u)).
  { intros m. apply Rmult_le_pos; [apply CP |]. apply Rlt_le, Rinv_0_lt_compat. lra. }
  destruct (power_inv (fun m v => small (d ^ m / (1 + u)) v) (fun k v => small (d ^ k) v)) with (x := x) (total := t)
    as (x' & y' & m & k & E & Hm & S & X' & Y'); auto.
  - intros m v Hm V. replace (d ^ (m + m) / (1 + u)) with (d ^ m / (1 + u) * (d ^ m / (1 + u)) * (1 + u)) by (rewrite pow_add; field; lra).
    now apply small_mul.
  - intros k m y x' Hm Y X'. replace (d ^ (k + m)) with (d ^ k * (d ^ m / (1 + u)) * (1 + u)) by (rewrite pow_add; field; lra).
    now apply small_mul.
  - rewrite pow_1. exact X.
  - unfold small. rewrite one_val, Rabs_R1. cbn. repeat split; lra.
  - exists (Bmult mode_NE x' y'). split; [exact E |]. replace t with (m + k)%nat by lia.
    replace (d ^ (m + k)) with (d ^ m / (1 + u) * d ^ k * (1 + u)) by (rewrite pow_add; field; lra). now apply small_mul.
Qed.
Lemma pow_hi_few j : few j -> (1 + u) ^ j <= 2.
Proof. intros H. pose proof (pow_hi j H). pose proof (few_u j H). lra. Qed.
Lemma bp_1022 : bp (-1022) = 2 * bp (-1023).
Proof. change 2 with (bp 1). rewrite <- bpow_plus. reflexivity. Qed.
Lemma exp_underflow x n : finite_double x -> (0 < Z.abs n < 2 ^ 31)%Z ->
  ((0 < n)%Z /\ Rabs (real x) ^ Z.abs_nat n <= bp (-1023)) \/ ((n < 0)%Z /\ bp 1023 <= Rabs (real x) ^ Z.abs_nat n) ->
  exists r, exponentiate_double x n = Some r /\ finite_double r /\ Rabs (real r) <= bp (-1022).
Proof.
  intros Hx Hn H. destruct (B2R_real x Hx) as (X & FX & EX). destruct (real_B2R X FX) as [_ VX]. rewrite EX in VX. rewrite VX in H.
  rewrite <- EX. pose proof u_small as U. pose proof (bpow_gt_0 radix2 (-1023)) as B0.
  unfold exponentiate_double, exponentiate.
  destruct (Z.eqb_spec n 0); [lia |]. destruct (Z.eqb_spec n (- 2 ^ 31)); [lia |].
  set (t := Z.abs_nat n) in *. pose proof (Rabs_pos (B2R X)) as P0.
  assert (FIN : forall L r, L <= bp (-1022) -> small L r -> finite_double (B2SF r) /\ Rabs (real (B2SF r)) <= bp (-1022)).
  { intros L r HL (Fr & _ & Br). destruct (real_B2R r Fr) as [D V]. rewrite V. split; [exact D |]. destruct Br; lra. }
  destruct H as [[P H] | [P H]].
  - destruct (Z.ltb_spec n 0) as [L | L]; [lia |]. replace n with (Z.of_nat t) by lia.
    assert (W : few t) by (unfold few; lia).
    assert (A1 : Rabs (B2R X) <= 1).
    { apply Rnot_lt_le. intros A1. assert (1 <= Rabs (B2R X) ^ t) by (apply pow_R1_Rle; lra).
      assert (bp (-1023) < 1) by (apply (bpow_lt radix2 (-1023) 0); lia). lra. }
    destruct (power_under X (Rabs (B2R X) * (1 + u)) t ltac:(lia) ltac:(lia) ltac:(nra)) as (r & E & S).
    { split; [exact FX |]. split; [exact A1 |]. left. unfold Rdiv. rewrite Rmult_assoc, Rinv_r by lra. lra. }
    exists (B2SF r). destruct (exp_loop _ _ _ _ _ _) as [x' y']. rewrite E. split; [reflexivity |].
    apply (FIN _ r) with (2 := S). rewrite Rpow_mult_distr, bp_1022. rewrite (Rmult_comm 2). pose proof (pow_hi_few t W).
    apply Rmult_le_compat; try lra; [now apply pow_le |]. apply pow_le. lra.
  - destruct (Z.ltb_spec n 0) as [L | L]; [| lia]. replace (- n)%Z with (Z.of_nat t) by lia.
    assert (A1 : 1 < Rabs (B2R X)).
    { apply Rnot_le_lt. intros A1. assert (Rabs (B2R X) ^ t <= 1) by (apply pow_le1; lra).
      assert (1 < bp 1023) by (apply (bpow_lt radix2 0 1023); lia). lra. }
    assert (NZ : B2R X <> 0). { intros Z. rewrite Z, Rabs_R0 in A1. lra. }
    assert (A2 : Rabs (1 / B2R X) = / Rabs (B2R X)). { unfold Rdiv. rewrite Rmult_1_l. apply Rabs_inv. }
    assert (A3 : / Rabs (B2R X) <= 1). { rewrite <- Rinv_1. apply Rinv_le; lra. }
    assert (R1 : Rabs (RN (1 / B2R X)) <= 1) by (apply (RN_abs_le _ 0); [lia | rewrite A2; exact A3]).
    assert (A4 : 0 < / Rabs (B2R X)) by (apply Rinv_0_lt_compat; lra).
    rewrite <- one_sf, div_eq, one_sf. destruct (div_ok one64 X eq_refl NZ) as [E1 F1].
    { rewrite one_val. apply Rle_lt_trans with (1 := R1). apply (bpow_lt radix2 0 1024). lia. }
    rewrite one_val in E1. set (D := Bdiv mode_NE one64 X) in *.
    assert (SD : small (/ Rabs (B2R X) * (1 + u) * (1 + u) / (1 + u)) D).
    { split; [exact F1 |]. rewrite E1. split; [exact R1 |].
      destruct (Rle_lt_dec (Rabs (1 / B2R X)) (bp (-1022))) as [M | M]; [right; apply RN_abs_le; [lia | exact M] |]. left.
      destruct (RN_rel_abs (1 / B2R X)) as (e & He & ->); [lra |].
      rewrite Rabs_mult, (Rabs_pos_eq e), A2 by lra. unfold Rdiv. rewrite (Rmult_assoc _ (1 + u) (/ _)), Rinv_r, Rmult_1_r by lra.
      apply Rmult_le_compat_l; lra. }
    destruct (power_under D (/ Rabs (B2R X) * (1 + u) * (1 + u)) t ltac:(lia) ltac:(lia)) as (r & E & S).
    { repeat apply Rmult_le_pos; lra. } { exact SD. }
    exists (B2SF r). destruct (exp_loop _ _ _ _ _ _) as [x' y']. rewrite E. split; [reflexivity |].
    apply (FIN _ r) with (2 := S). rewrite Rmult_assoc, Rpow_mult_distr, pow_inv, Rpow_mult_distr, <- pow_add, bp_1022, (Rmult_comm 2).
    assert (W : few (t + t)) by (unfold few; lia). pose proof (pow_hi_few _ W).
    apply Rmult_le_compat; try lra.
    + apply Rlt_le, Rinv_0_lt_compat, pow_lt. lra.
    + apply pow_le. lra.
    + change (-1023)%Z with (- (1023))%Z. rewrite bpow_opp. apply Rinv_le; [apply bpow_gt_0 | exact H].
Qed.
