(** nthroot for the indices 1 and 2: it returns for every positive finite argument. *)
From Coq Require Import ZArith Reals Lia Lra Psatz Bool Floats.SpecFloat.
From Flocq Require Import Core Relative Sterbenz Plus_error BinarySingleNaN.
From Verif Require Import Base.Field Model.ScalarMath Spec.Doubles Proof.SqrtReal Proof.SqrtDouble Proof.AbsDouble Proof.ExpDouble.
Local Open Scope R_scope.

Local Notation fe := (FLT_exp (-1074) 53).
Local Notation F := (generic_format radix2 fe).
Local Notation RN := (round radix2 fe ZnearestE).
Local Notation bp := (bpow radix2).
Local Notation B64 := (binary_float 53 1024).
Local Existing Instance prec53.
Local Existing Instance emax1024.

(** ** halving *)
Lemma RN_half y : bp (-1021) <= Rabs y -> RN (y / 2) = RN y / 2.
Proof.
  intros H. assert (Y : y <> 0). { intros ->. rewrite Rabs_R0 in H. pose proof (bpow_gt_0 radix2 (-1021)). lra. }
  assert (M : (-1020 <= mag radix2 y)%Z). { apply mag_ge_bpow. exact H. }
  replace (y / 2) with (y * bp (-1)) by (change (bp (-1)) with (/ 2); reflexivity).
  unfold round, scaled_mantissa, cexp. rewrite mag_mult_bpow by auto. unfold FLT_exp. rewrite !Z.max_l by lia.
  unfold F2R; cbn [Fnum Fexp]. replace (y * bp (-1) * bp (- (mag radix2 y + -1 - 53))) with (y * bp (- (mag radix2 y - 53))).
  2:{ rewrite Rmult_assoc, <- bpow_plus. do 2 f_equal. lia. }
  unfold Rdiv. rewrite Rmult_assoc. f_equal. change (/ 2) with (bp (-1)). rewrite <- bpow_plus. f_equal. lia.
Qed.
Lemma F_apart a b : F a -> F b -> bp (-538) <= a -> a < b -> bp (-1021) <= b - a.
Proof.
  intros Fa Fb La H. assert (P : 0 < a) by (apply Rlt_le_trans with (2 := La), bpow_gt_0).
  assert (S : succ radix2 fe a <= b) by (apply succ_le_lt; auto with typeclass_instances).
  rewrite succ_eq_pos in S by lra. apply Rle_trans with (ulp radix2 fe a); [| lra].
  rewrite ulp_neq_0 by lra. apply bpow_le. unfold cexp, FLT_exp.
  assert (M : (-537 <= mag radix2 a)%Z). { apply mag_ge_bpow. rewrite Rabs_pos_eq by lra. exact La. } lia.
Qed.
Lemma F_half_diff a b : F a -> F b -> bp (-538) <= a -> bp (-538) <= b -> F (b - a) -> F ((b - a) / 2).
Proof.
  intros Fa Fb La Lb D. destruct (Rtotal_order a b) as [H | [-> | H]].
  - apply F_half; auto. now apply F_apart.
  - replace ((b - b) / 2) with 0 by lra. apply generic_format_0.
  - replace ((b - a) / 2) with (- ((a - b) / 2)) by lra. apply generic_format_opp, F_half.
    + replace (a - b) with (- (b - a)) by ring. now apply generic_format_opp.
    + now apply F_apart.
Qed.

(** ** index 2 on the real line *)
Definition halfstep (x c : R) : R := RN (c + RN (/ 2 * RN (RN (x / c) - c))).
Section Half.
  Variable x : R.
  Hypothesis Fx : F x.
  Hypothesis x_pos : 0 < x.
  Let s := sqrt x.
  Let m := root_dn x.
  Let M := root_up x.
  Lemma s_tight : s <= 1.01 * m.
  Proof.
    pose proof (m_le_s x) as L. fold m s in L. pose proof (s_pos x Fx x_pos) as P. fold s in P.
    pose proof (s_min x Fx x_pos) as Mn. fold s in Mn.
    assert (E : Rabs (m - s) <= bp (-53 + 1) * s).
    { rewrite <- (Rabs_pos_eq s) at 2 by lra. apply Rlt_le. apply (relative_error_FLT radix2 (-1074) 53 prec53); auto with typeclass_instances.
      rewrite Rabs_pos_eq by lra. apply Rle_trans with (2 := Mn), bpow_le. lia. }
    assert (U : bp (-53 + 1) <= / 1000). { apply Rle_trans with (bp (-10)); [apply bpow_le; lia |]. simpl. lra. }
    apply Rabs_le_inv in E. assert (bp (-53 + 1) * s <= / 1000 * s) by (apply Rmult_le_compat_r; lra). lra.
  Qed.
  Lemma M_tight : M <= 1.01 * s.
  Proof.
    pose proof (s_pos x Fx x_pos) as P. fold s in P. pose proof (s_min x Fx x_pos) as Mn. fold s in Mn.
    assert (E : Rabs (M - s) <= bp (-53 + 1) * s).
    { rewrite <- (Rabs_pos_eq s) at 2 by lra. apply Rlt_le. apply (relative_error_FLT radix2 (-1074) 53 prec53); auto with typeclass_instances.
      rewrite Rabs_pos_eq by lra. apply Rle_trans with (2 := Mn), bpow_le. lia. }
    assert (U : bp (-53 + 1) <= / 1000). { apply Rle_trans with (bp (-10)); [apply bpow_le; lia |]. simpl. lra. }
    apply Rabs_le_inv in E. assert (bp (-53 + 1) * s <= / 1000 * s) by (apply Rmult_le_compat_r; lra). lra.
  Qed.
  Lemma c_min c : m <= c -> bp (-537) <= c.
  Proof. intros H. pose proof (m_min x Fx x_pos) as K. fold m in K. lra. Qed.
  Lemma quot_2 c : m <= c -> F c -> RN (x / c) <= 2 * c.
  Proof.
    intros H Fc. pose proof s_tight as T. pose proof (s_sqr x x_pos) as SQ. fold s in SQ. pose proof (m_pos x Fx x_pos) as P. fold m in P.
    pose proof (s_pos x Fx x_pos) as P2. fold s in P2. apply RN_le; [now apply F_double |]. apply div_le_iff; [lra |]. nra.
  Qed.
  Lemma half_close c : F c -> m <= c -> c / 2 <= RN (x / c) -> halfstep x c = newton x c.
  Proof.
    intros Fc H Q. pose proof (quot_2 c H Fc) as Q2. pose proof (c_min c H) as Cm. set (q := RN (x / c)) in *.
    assert (Fq : F q) by apply RN_F. pose proof (bpow_gt_0 radix2 (-537)) as B0.
    assert (B1 : bp (-538) = bp (-537) / 2) by (change (-538)%Z with (-537 + -1)%Z; rewrite bpow_plus; reflexivity).
    assert (D : F (q - c)) by (apply sterbenz; auto with typeclass_instances; lra).
    unfold halfstep. fold q. rewrite (RN_id (q - c)) by exact D.
    assert (D2 : F ((q - c) / 2)) by (apply F_half_diff; auto; lra).
    replace (/ 2 * (q - c)) with ((q - c) / 2) by lra. rewrite (RN_id _ D2). replace (c + (q - c) / 2) with ((c + q) / 2) by lra.
    rewrite (newton_half x Fx x_pos c Fc H). fold q. apply RN_half. rewrite Rabs_pos_eq by lra.
    apply Rle_trans with (bp (-537)); [apply bpow_le; lia | lra].
  Qed.
  Lemma half_far c : F c -> m <= c -> RN (x / c) < c / 2 -> M <= c /\ m <= halfstep x c < c.
  Proof.
    intros Fc H Q. pose proof (c_min c H) as Cm. pose proof (s_sqr x x_pos) as SQ. fold s in SQ. pose proof (m_pos x Fx x_pos) as P. fold m in P.
    pose proof (s_pos x Fx x_pos) as P2. fold s in P2. pose proof (bpow_gt_0 radix2 (-537)) as B0. pose proof u_small as U.
    assert (MC : M <= c).
    { destruct (F_cases x c Fc H) as [E | G]; [| exact G]. exfalso. fold m in E.
      assert (c <= RN (x / c)); [| lra]. apply RN_ge; auto. apply le_div_iff; [lra |].
      pose proof (m_le_s x) as L. fold m s in L. rewrite E. nra. }
    split; [exact MC |].
    assert (q0 : 0 <= RN (x / c)). { apply RN_ge; [apply generic_format_0 |]. apply le_div_iff; lra. }
    destruct (RN_err (x / c)) as (e & d & He & Hd & Eq). apply Rabs_le_inv in He. apply Rabs_le_inv in Hd.
    set (y := x / c) in *. set (q := RN y) in *. assert (Y : y * c = s * s). { unfold y. rewrite SQ. field. lra. }
    assert (y0 : 0 < y) by nra.
    assert (d1 : bp (-1075) <= / 1000 * c).
    { apply Rle_trans with (/ 1000 * bp (-537)); [| apply Rmult_le_compat_l; lra].
      apply Rmult_le_reg_l with 1000; [lra |]. replace (1000 * (/ 1000 * bp (-537))) with (bp (-537)) by field.
      apply Rle_trans with (bp 10 * bp (-1075)); [apply Rmult_le_compat_r; [apply bpow_ge_0 | simpl; lra] |]. rewrite <- bpow_plus. apply bpow_le. lia. }
    assert (ye : y - / 1000 * y <= y * (1 + e) <= y + / 1000 * y) by nra.
    assert (Y1 : y <= 0.51 * c) by lra.
    assert (Q1 : y - 0.002 * c <= q) by lra.
    assert (S1 : s * s <= 0.51 * (c * c)) by (rewrite <- Y; nra).
    assert (S2 : s <= 0.72 * c) by nra.
    (* the difference and its half *)
    assert (DN : bp (-1022) <= Rabs (q - c)). { rewrite Rabs_left by lra. apply Rle_trans with (bp (-537) / 2); [| lra].
      change (bp (-537) / 2) with (bp (-537) * bp (-1)). rewrite <- bpow_plus. apply bpow_le. lia. }
    destruct (RN_rel_abs (q - c) DN) as (f & Hf & Ef). set (D := RN (q - c)) in *.
    assert (D1 : - (1.001 * (c - q)) <= D <= - (0.999 * (c - q))) by (rewrite Ef; nra).
    assert (DH : RN (/ 2 * D) = D / 2).
    { replace (/ 2 * D) with (- ((- D) / 2)) by lra. rewrite RN_id; [lra |]. apply generic_format_opp, F_half.
      - apply generic_format_opp, RN_F.
      - apply Rle_trans with (bp (-537) / 4); [| lra]. replace (bp (-537) / 4) with (bp (-537) * bp (-2)) by (change (bp (-2)) with (/ 4); reflexivity).
        rewrite <- bpow_plus. apply bpow_le. lia. }
    unfold halfstep. fold y q D. rewrite DH. set (z := c + D / 2).
    assert (Z1 : z <= 0.76 * c) by (unfold z; lra).
    assert (Z2 : s <= z).
    { assert (A : (c + y) / 2 - 0.002 * c <= z) by (unfold z; lra). apply Rle_trans with (2 := A).
      assert (B : (c - s) * (c - s) >= 0.0784 * (c * c)) by nra. assert (K : 0 <= c * ((c + y) / 2 - 0.002 * c - s)) by nra. nra. }
    split.
    - apply RN_ge; [apply m_F |]. pose proof (m_le_s x) as L. fold m s in L. lra.
    - destruct (RN_rel_abs z) as (g & Hg & ->).
      { rewrite Rabs_pos_eq by lra. pose proof (m_le_s x) as L. fold m s in L. pose proof (s_min x Fx x_pos) as Mn. fold s in Mn.
        apply Rle_trans with (bp (-537)); [apply bpow_le; lia | lra]. }
      apply Rle_lt_trans with (z * 1.001); [apply Rmult_le_compat_l; lra | lra].
  Qed.
  Lemma half_cases c : F c -> m <= c -> halfstep x c = newton x c \/ (M < c /\ m <= halfstep x c < c).
  Proof.
    intros Fc H. destruct (Rle_lt_dec (c / 2) (RN (x / c))) as [Q | Q]; [left; now apply half_close |].
    destruct (half_far c Fc H Q) as [A B]. destruct A as [A | A]; [now right |]. exfalso.
    (* c = M: the quotient is not that small *)
    revert Q. apply Rle_not_lt. pose proof s_tight as T. pose proof (s_sqr x x_pos) as SQ. fold s in SQ.
    pose proof (m_pos x Fx x_pos) as P. fold m in P. pose proof (m_le_s x) as L. fold m s in L.
    pose proof (c_min c H) as Cm.
    pose proof M_tight as MU. pose proof (s_pos x Fx x_pos) as SP. fold s in SP.
    apply RN_ge.
    - apply F_half; auto. apply Rle_trans with (2 := Cm), bpow_le. lia.
    - apply le_div_iff; [lra |]. rewrite <- A.
      assert (K : M * M <= (1.01 * s) * (1.01 * s)) by (apply Rmult_le_compat; lra). assert (0 < s * s) by nra. lra.
  Qed.
  Lemma half_F c : F (halfstep x c).
  Proof. apply RN_F. Qed.
  Lemma half_lt c : F c -> M < c -> halfstep x c < c.
  Proof.
    intros Fc H. pose proof (m_le_M x) as mM. fold m M in mM. destruct (half_cases c Fc) as [E | E]; [lra | | lra].
    rewrite E. now apply newton_lt.
  Qed.
  Lemma half_near c : c = m \/ c = M -> halfstep x c = newton x c.
  Proof.
    pose proof (m_le_M x) as mM. fold m M in mM. intros [-> | ->].
    - destruct (half_cases m (m_F x) (Rle_refl m)) as [E | E]; [exact E | lra].
    - destruct (half_cases M (M_F x) mM) as [E | E]; [exact E | lra].
  Qed.
  (** the first step from 1 *)
  Lemma half_first : 1 < m -> 1 + x / 2 <= bp 1023 ->
    m <= halfstep x 1 <= bp 1023 /\ 0 <= RN (x - 1) <= x /\ RN (/ 2 * RN (x - 1)) = RN (x - 1) / 2.
  Proof.
    intros H XM. pose proof (s_sqr x x_pos) as SQ. fold s in SQ. pose proof (m_le_s x) as L. fold m s in L. pose proof u_small as U.
    assert (X1 : 1 < x) by nra. assert (F1 : F 1) by (apply (F_bp 0); lia).
    unfold halfstep. replace (x / 1) with x by field. rewrite (RN_id x Fx). set (D := RN (x - 1)).
    assert (D1 : D <= x) by (apply RN_le; auto; lra).
    assert (D0 : 0 <= D) by (apply RN_ge; [apply generic_format_0 | lra]).
    assert (Dlow : bp (-1021) <= D /\ (D = x - 1 \/ (2 < x /\ (x - 1) * (1 - u) <= D))).
    { destruct (Rle_lt_dec x 2) as [X2 | X2].
      - assert (E : D = x - 1) by (apply RN_id, sterbenz; auto with typeclass_instances; lra). split; [| now left].
        rewrite E. apply (F_apart 1 x); auto. apply (bpow_le radix2 (-538) 0). lia.
      - split.
        + apply Rle_trans with 1; [apply (bpow_le radix2 (-1021) 0); lia |]. apply RN_ge; auto. lra.
        + right. split; auto. destruct (RN_rel_abs (x - 1)) as (f & Hf & Ef).
          { rewrite Rabs_pos_eq by lra. apply Rle_trans with 1; [apply (bpow_le radix2 (-1022) 0); lia | lra]. }
          unfold D. rewrite Ef. apply Rmult_le_compat_l; lra. }
    destruct Dlow as [Dn Dl].
    assert (H2 : RN (/ 2 * D) = D / 2). { replace (/ 2 * D) with (D / 2) by lra. apply RN_id, F_half; auto. apply RN_F. }
    rewrite H2. split; [| split; [lra | reflexivity]]. split.
    - apply RN_ge; [apply m_F |]. destruct Dl as [-> | [X2 Dl]].
      + assert (0 <= (s - 1) * (s - 1)) by apply Rle_0_sqr. lra.
      + assert (S1 : 1.4 <= s) by nra. assert (A : 0.08 * (s * s) <= (s - 1) * (s - 1)) by nra.
        assert (B : u * (x - 1) <= / 1000 * x) by nra. lra.
    - apply RN_le; [apply F_bp; lia |]. lra.
  Qed.
End Half.

(** ** the steps of the loop on doubles *)
Lemma minus_ok (a b : B64) : is_finite a = true -> is_finite b = true -> Rabs (RN (B2R a - B2R b)) < bp 1024 ->
  B2R (Bminus mode_NE a b) = RN (B2R a - B2R b) /\ is_finite (Bminus mode_NE a b) = true.
Proof.
  intros Fa Fb H. generalize (Bminus_correct 53 1024 _ _ mode_NE a b Fa Fb).
  change (round radix2 (SpecFloat.fexp 53 1024) (round_mode mode_NE) (B2R a - B2R b)) with (RN (B2R a - B2R b)).
  rewrite Rlt_bool_true by exact H. tauto.
Qed.
Definition half64 : B64 := SF2B (prec := 53) (emax := 1024) (S754_finite false 4503599627370496 (-53)) eq_refl.
Lemma half_val : B2R half64 = / 2.
Proof.
  change (B2R half64) with (IZR (2 ^ 52) * bp (-53)). change (IZR (2 ^ 52)) with (bp 52). rewrite <- bpow_plus. reflexivity.
Qed.
Lemma B_F (b : B64) : F (B2R b).
Proof. exact (generic_format_B2R 53 1024 b). Qed.
Lemma B_lt (b : B64) : Rabs (B2R b) < bp 1024.
Proof. apply abs_B2R_lt_emax. Qed.
Lemma loop_now x n (prev est : B64) fuel : is_finite prev = true -> is_finite est = true -> B2R prev = B2R est ->
  nthroot_loop fuel x n (B2SF prev) (B2SF est) = Value (B2SF est).
Proof.
  intros Fp Fe E. assert (Q : SFeqb (B2SF prev) (B2SF est) = true).
  { change (Beqb prev est = true). rewrite Beqb_correct by auto. rewrite E. apply Req_bool_true. reflexivity. }
  destruct fuel; simpl; rewrite Q; reflexivity.
Qed.
Lemma loop_next x n (prev est est' : B64) fuel : is_finite prev = true -> is_finite est = true -> B2R prev <> B2R est -> n <> (- 2 ^ 31)%Z ->
  nth_step x n (B2SF est) = Some (B2SF est') ->
  nthroot_loop (S fuel) x n (B2SF prev) (B2SF est) = nthroot_loop fuel x n (B2SF est) (B2SF est').
Proof.
  intros Fp Fe E Hn St. assert (Q : SFeqb (B2SF prev) (B2SF est) = false).
  { change (Beqb prev est = false). rewrite Beqb_correct by auto. apply Req_bool_false. exact E. }
  cbn [nthroot_loop]. rewrite Q. apply Z.eqb_neq in Hn. rewrite Hn. unfold nth_step in St.
  destruct (exponentiate_double (B2SF est) (n - 1)) as [e |]; [| discriminate]. cbn [option_map] in St.
  assert (K : forall a b : spec_float, Some a = Some b -> a = b) by congruence. apply K in St. now rewrite St.
Qed.
Definition minus_one64 : B64 := SF2B (prec := 53) (emax := 1024) (b64_of_int (-1)) eq_refl.

Lemma minus_one_val : B2R minus_one64 = -1.
Proof. change (B2R minus_one64) with (- IZR (2 ^ 52) * bp (-52)). change (IZR (2 ^ 52)) with (bp 52). rewrite Ropp_mult_distr_l_reverse, <- bpow_plus. reflexivity. Qed.
Lemma mul_1 (a : B64) : is_finite a = true -> B2R (Bmult mode_NE a one64) = B2R a /\ is_finite (Bmult mode_NE a one64) = true.
Proof.
  intros Fa. assert (E : RN (B2R a * B2R one64) = B2R a) by (rewrite one_val, Rmult_1_r; apply RN_id, B_F).
  rewrite <- E. apply mul_ok; auto. rewrite E. apply B_lt.
Qed.
Lemma mul_1_l (a : B64) : is_finite a = true -> B2R (Bmult mode_NE one64 a) = B2R a /\ is_finite (Bmult mode_NE one64 a) = true.
Proof.
  intros Fa. assert (E : RN (B2R one64 * B2R a) = B2R a) by (rewrite one_val, Rmult_1_l; apply RN_id, B_F).
  rewrite <- E. apply mul_ok; auto. rewrite E. apply B_lt.
Qed.
Lemma div_1 (a : B64) : is_finite a = true -> B2R (Bdiv mode_NE a one64) = B2R a /\ is_finite (Bdiv mode_NE a one64) = true.
Proof.
  intros Fa. assert (E : RN (B2R a / B2R one64) = B2R a) by (rewrite one_val; replace (B2R a / 1) with (B2R a) by field; apply RN_id, B_F).
  rewrite <- E. apply div_ok; auto. rewrite one_val; lra. rewrite E. apply B_lt.
Qed.
Lemma not_negative (X : B64) : is_finite X = true -> 0 <= B2R X -> SFltb (B2SF X) b64_0 = false.
Proof.
  intros FX P. change (Bltb X (B754_zero false) = false). rewrite Bltb_correct; auto. apply Rlt_bool_false. exact P.
Qed.

(** *** index 1 *)
Lemma step1 (X est : B64) : is_finite X = true -> is_finite est = true -> Rabs (RN (B2R X - B2R est)) < bp 1024 ->
  Rabs (RN (B2R est + RN (B2R X - B2R est))) < bp 1024 -> exists est' : B64,
  nth_step (B2SF X) 1 (B2SF est) = Some (B2SF est') /\ is_finite est' = true /\ B2R est' = RN (B2R est + RN (B2R X - B2R est)).
Proof.
  intros FX Fe H1 H2. destruct (div_1 X FX) as [Q1 Q2]. destruct (minus_ok _ est Q2 Fe) as [D1 D2]. { now rewrite Q1. }
  rewrite Q1 in D1. destruct (mul_1_l _ D2) as [E1 E2]. destruct (plus_ok est _ Fe E2) as [P1 P2]. { now rewrite E1, D1. }
  exists (Bplus mode_NE est (Bmult mode_NE one64 (Bminus mode_NE (Bdiv mode_NE X one64) est))). split; [| split; auto].
  - unfold nth_step. change (exponentiate_double (B2SF est) (1 - 1)) with (Some b64_1). cbn [option_map].
    replace (b64_div b64_1 (b64_of_int 1)) with (B2SF one64) by (vm_compute; reflexivity).
    rewrite <- one_sf, div_eq, sub_eq, mul_eq, add_eq. reflexivity.
  - now rewrite P1, E1, D1.
Qed.
Section One.
  Variable X : B64.
  Hypothesis X_fin : is_finite X = true.
  Let x := B2R X.
  Hypothesis x_pos : 0 <= x.
  Lemma one_max : x <= IZR (2 ^ 53 - 1) * bp 971.
  Proof.
    destruct x_pos as [P | P]; [now apply x_max |]. rewrite <- P. apply Rmult_le_pos; [apply IZR_le; lia | apply bpow_ge_0].
  Qed.
  Let c1 := RN (1 + RN (x - 1)).
  Lemma one_first : RN (x - 1) <= x /\ -1 <= RN (x - 1) /\ 0 <= c1 <= IZR (2 ^ 53 - 1) * bp 971 /\ F (x - c1) /\ (c1 = 1 -> x = 1).
  Proof.
    pose proof (B_F X) as Fx. fold x in Fx. assert (F1 : F 1) by (apply (F_bp 0); lia). pose proof u_small as U.
    assert (Fm1 : F (-1)) by (apply generic_format_opp; exact F1).
    assert (D1 : RN (x - 1) <= x) by (apply RN_le; auto; lra). assert (D2 : -1 <= RN (x - 1)) by (apply RN_ge; auto; lra).
    split; [exact D1 |]. split; [exact D2 |]. split.
    { split; [apply RN_ge; [apply generic_format_0 | lra] |]. unfold c1.
      apply round_N_le_midp; auto with typeclass_instances. apply F_int; lia.
      rewrite succ_int by lia. pose proof one_max as xm.
      assert (B : 2 < bp 971) by (change 2 with (bp 1); apply bpow_lt; lia).
      rewrite plus_IZR. simpl (IZR 1). lra. }
    destruct (Rle_lt_dec x 2) as [X2 | X2]; [destruct (Rle_lt_dec (1 / 2) x) as [X1 | X1] |].
    - (* exact at once *)
      assert (E : c1 = x). { unfold c1. rewrite (RN_id (x - 1)) by (apply sterbenz; auto with typeclass_instances; lra).
        replace (1 + (x - 1)) with x by ring. now apply RN_id. }
      rewrite E. split; [| auto]. rewrite Rminus_diag_eq by reflexivity. apply generic_format_0.
    - assert (HF : F (1 / 2)) by (change (1 / 2) with (1 * bp (-1)); rewrite Rmult_1_l; apply F_bp; lia).
      assert (D3 : RN (x - 1) <= - (1 / 2)) by (apply RN_le; [now apply generic_format_opp | lra]).
      assert (E : c1 = 1 + RN (x - 1)).
      { apply RN_id. replace (1 + RN (x - 1)) with (1 - (- RN (x - 1))) by ring.
        apply sterbenz; auto with typeclass_instances; [apply generic_format_opp, RN_F | lra]. }
      split; [| lra]. replace (x - c1) with (- (RN (x + -1) - (x + -1))).
      + apply generic_format_opp. apply plus_error; auto with typeclass_instances.
      + rewrite E. replace (x + -1) with (x - 1) by ring. ring.
    - destruct (RN_rel_abs (x - 1)) as (f & Hf & Ef).
      { rewrite Rabs_pos_eq by lra. apply Rle_trans with 1; [apply (bpow_le radix2 (-1022) 0); lia | lra]. }
      assert (D3 : 0.999 * (x - 1) <= RN (x - 1) <= 1.001 * (x - 1)) by (rewrite Ef; nra).
      destruct (RN_rel_abs (1 + RN (x - 1))) as (g & Hg & Eg).
      { rewrite Rabs_pos_eq by lra. apply Rle_trans with 1; [apply (bpow_le radix2 (-1022) 0); lia | lra]. }
      fold c1 in Eg. assert (C : 0.99 * x <= c1 <= 1.01 * x) by (rewrite Eg; set (z := 1 + RN (x - 1)) in *; assert (0.999 * x <= z <= 1.001 * x) by (unfold z; lra); nra).
      split; [| lra]. apply sterbenz; auto with typeclass_instances; [apply RN_F | lra].
  Qed.
  Lemma one_ends fuel : (3 <= fuel)%nat -> exists r : B64, nthroot fuel (B2SF X) 1 = Value (B2SF r) /\ is_finite r = true /\ B2R r = x.
  Proof.
    intros Hf. destruct one_first as (D1 & D2 & C & FC & C1). pose proof (B_lt X) as BX. fold x in BX. rewrite Rabs_pos_eq in BX by auto.
    assert (Fx : F x) by apply B_F.
    assert (E : IZR (2 ^ 53 - 1) * bp 971 < bp 1024).
    { replace (bp 1024) with (IZR (2 ^ 53) * bp 971).
      - apply Rmult_lt_compat_r. apply bpow_gt_0. apply IZR_lt. lia.
      - change (IZR (2 ^ 53)) with (bp 53). rewrite <- bpow_plus. reflexivity. }
    assert (B1 : 1 < bp 1024) by (change 1 with (bp 0); apply bpow_lt; lia).
    unfold nthroot. rewrite not_negative by auto. change (b64_of_int (-1)) with (B2SF minus_one64). rewrite <- one_sf.
    destruct (step1 X one64 X_fin eq_refl) as (e1 & S1 & F1 & V1).
    { rewrite one_val. fold x. apply Rabs_lt. lra. }
    { rewrite one_val. fold x. fold c1. apply Rabs_lt. lra. }
    rewrite one_val in V1. fold x in V1. fold c1 in V1.
    assert (G1 : RN (c1 + RN (x - c1)) = x). { rewrite (RN_id _ FC). replace (c1 + (x - c1)) with x by ring. now apply RN_id. }
    destruct (step1 X e1 X_fin F1) as (e2 & S2 & F2 & V2).
    { rewrite V1. fold x. rewrite (RN_id _ FC). apply Rabs_lt. lra. }
    { rewrite V1. fold x. rewrite G1. apply Rabs_lt. lra. }
    rewrite V1 in V2. fold x in V2. rewrite G1 in V2.
    assert (G2 : RN (x - x) = 0) by (rewrite Rminus_diag_eq by reflexivity; apply round_0; auto with typeclass_instances).
    assert (G3 : RN (x + RN (x - x)) = x) by (rewrite G2, Rplus_0_r; now apply RN_id).
    destruct (step1 X e2 X_fin F2) as (e3 & S3 & F3 & V3).
    { rewrite V2. fold x. rewrite G2, Rabs_R0. lra. }
    { rewrite V2. fold x. rewrite G3. apply Rabs_lt. lra. }
    rewrite V2 in V3. fold x in V3. rewrite G3 in V3.
    destruct fuel as [| fuel]; [lia |]. rewrite (loop_next _ 1 minus_one64 one64 e1); auto; [| rewrite minus_one_val, one_val; lra | lia].
    destruct (Req_dec c1 1) as [K | K].
    { exists e1. split; [| split; auto]. apply loop_now; auto. now rewrite one_val, V1. rewrite V1, K. symmetry. auto. }
    destruct fuel as [| fuel]; [lia |]. rewrite (loop_next _ 1 one64 e1 e2); auto; [| rewrite one_val, V1; auto | lia].
    destruct (Req_dec c1 x) as [K2 | K2].
    { exists e2. split; [| split; auto]. apply loop_now; auto. now rewrite V1, V2. }
    destruct fuel as [| fuel]; [lia |]. rewrite (loop_next _ 1 e1 e2 e3); auto; [| rewrite V1, V2; auto | lia].
    exists e3. split; [| split; auto]. apply loop_now; auto. now rewrite V2, V3.
  Qed.
End One.
Lemma nthroot_one x : finite_double x -> 0 <= real x -> forall fuel, (3 <= fuel)%nat -> exists r,
  nthroot fuel x 1 = Value r /\ finite_double r /\ real r = real x.
Proof.
  intros Fx Px fuel Hf. destruct (B2R_real x Fx) as (X & FX & EX). destruct (real_B2R X FX) as [_ RX]. rewrite EX in RX.
  rewrite RX in Px. destruct (one_ends X FX Px fuel Hf) as (r & H & Fr & V). rewrite EX in H. destruct (real_B2R r Fr) as [D R].
  exists (B2SF r). split; auto. split; auto. congruence.
Qed.

(** *** index 2 *)
Lemma exp_one (a : B64) : is_finite a = true -> exponentiate_double (B2SF a) 1 = Some (B2SF (Bmult mode_NE a one64)).
Proof. intros Fa. rewrite <- mul_eq, one_sf. reflexivity. Qed.
Lemma step2 (X est : B64) : is_finite X = true -> is_finite est = true -> B2R est <> 0 -> let x := B2R X in let c := B2R est in
  Rabs (RN (x / c)) < bp 1024 -> Rabs (RN (RN (x / c) - c)) < bp 1024 -> Rabs (RN (/ 2 * RN (RN (x / c) - c))) < bp 1024 ->
  Rabs (halfstep x c) < bp 1024 -> exists est' : B64,
  nth_step (B2SF X) 2 (B2SF est) = Some (B2SF est') /\ is_finite est' = true /\ B2R est' = halfstep x c.
Proof.
  intros FX Fe Ne x c H1 H2 H3 H4. destruct (mul_1 est Fe) as [M1 M2].
  destruct (div_ok X (Bmult mode_NE est one64) FX) as [Q1 Q2]. { now rewrite M1. } { now rewrite M1. }
  rewrite M1 in Q1. fold x c in Q1. destruct (minus_ok _ est Q2 Fe) as [D1 D2]. { now rewrite Q1. } rewrite Q1 in D1. fold c in D1.
  destruct (mul_ok half64 _ eq_refl D2) as [E1 E2]. { now rewrite half_val, D1. } rewrite half_val, D1 in E1.
  destruct (plus_ok est _ Fe E2) as [P1 P2]. { now rewrite E1. } rewrite E1 in P1.
  exists (Bplus mode_NE est (Bmult mode_NE half64 (Bminus mode_NE (Bdiv mode_NE X (Bmult mode_NE est one64)) est))). split; [| split; auto].
  unfold nth_step. change (2 - 1)%Z with 1%Z. rewrite exp_one by auto. cbn [option_map].
  replace (b64_div b64_1 (b64_of_int 2)) with (B2SF half64) by (vm_compute; reflexivity).
  rewrite div_eq, sub_eq, mul_eq, add_eq. reflexivity.
Qed.
Section Two.
  Variable X : B64.
  Hypothesis X_fin : is_finite X = true.
  Let x := B2R X.
  Hypothesis x_pos : 0 < x.
  Let m := root_dn x.
  Let M := root_up x.
  Let Fx : F x := x_F X.
  Lemma turn2 (est : B64) : is_finite est = true -> inv X (B2R est) -> exists est' : B64,
    nth_step (B2SF X) 2 (B2SF est) = Some (B2SF est') /\ is_finite est' = true /\ B2R est' = halfstep x (B2R est).
  Proof.
    intros Fe (Fc & Lo & Hi). pose proof (m_pos x Fx x_pos) as P. fold x in Lo. fold m in P, Lo.
    destruct (quot_max X X_fin x_pos (B2R est) Lo) as [Q0 Q1]. fold x in Q0, Q1.
    assert (RQ : 0 <= RN (x / B2R est) <= bp 514).
    { split. apply RN_ge; auto. apply generic_format_0. apply RN_le; auto. apply F_bp. lia. }
    assert (B514 : bp 514 <= bp 1022) by (apply bpow_le; lia).
    assert (E1023 : bp 1023 = 2 * bp 1022) by (change 2 with (bp 1); rewrite <- bpow_plus; reflexivity).
    assert (E1024 : bp 1024 = 4 * bp 1022) by (change 4 with (bp 2); rewrite <- bpow_plus; reflexivity).
    pose proof (bpow_gt_0 radix2 1022) as B0.
    assert (RD : - bp 1023 <= RN (RN (x / B2R est) - B2R est) <= bp 1022).
    { split; [apply RN_ge; [apply generic_format_opp, F_bp; lia | lra] | apply RN_le; [apply F_bp; lia | lra]]. }
    assert (RH : - bp 1022 <= RN (/ 2 * RN (RN (x / B2R est) - B2R est)) <= bp 1022).
    { split; [apply RN_ge; [apply generic_format_opp, F_bp; lia | lra] | apply RN_le; [apply F_bp; lia | lra]]. }
    assert (RS : - bp 1022 <= halfstep x (B2R est) <= 3 * bp 1022).
    { split; [apply RN_ge; [apply generic_format_opp, F_bp; lia | lra] | apply RN_le; [apply (F_int 3 1022); lia | lra]]. }
    apply step2; auto; [lra | | | |]; fold x; apply Rabs_lt; lra.
  Qed.
  Lemma inv_half c : inv X c -> inv X (halfstep x c).
  Proof.
    intros I. pose proof (inv_newton X X_fin x_pos c I) as N. destruct I as (Fc & Lo & Hi). fold x in Lo, N. 
    destruct (half_cases x Fx x_pos c Fc Lo) as [E | E]; [now rewrite E |]. split; [apply half_F |]. fold x. lra.
  Qed.
  Definition ends2 (prev est : B64) : Prop := exists n (r : B64),
    (forall fuel, (n <= fuel)%nat -> nthroot_loop fuel (B2SF X) 2 (B2SF prev) (B2SF est) = Value (B2SF r)) /\
    is_finite r = true /\ (B2R r = m \/ B2R r = M).
  Definition goes2 (est : B64) : Prop := forall est' : B64, is_finite est' = true -> B2R est' = halfstep x (B2R est) -> ends2 est est'.
  Lemma goes2_fix (est : B64) : is_finite est = true -> halfstep x (B2R est) = B2R est -> (B2R est = m \/ B2R est = M) -> goes2 est.
  Proof.
    intros Fe E H est' F' E'. exists O, est'. split; [| split; auto; now rewrite E', E].
    intros fuel _. apply loop_now; auto. now rewrite E'.
  Qed.
  Lemma goes2_step (est : B64) : is_finite est = true -> inv X (B2R est) -> halfstep x (B2R est) <> B2R est ->
    (forall e1 : B64, is_finite e1 = true -> B2R e1 = halfstep x (B2R est) -> goes2 e1) -> goes2 est.
  Proof.
    intros Fe I E H est' F' E'. assert (I' : inv X (B2R est')) by (rewrite E'; now apply inv_half).
    destruct (turn2 est' F' I') as (e2 & Sm & F2 & E2). destruct (H est' F' E' e2 F2 E2) as (n & r & K & R).
    exists (S n), r. split; auto. intros fuel Hf. destruct fuel as [| fuel]; [lia |].
    rewrite (loop_next _ 2 est est' e2); auto; [apply K; lia | now rewrite E'; auto | lia].
  Qed.
  Lemma goes2_near (est : B64) : is_finite est = true -> inv X (B2R est) -> B2R est = m \/ B2R est = M -> goes2 est.
  Proof.
    intros Fe I H. pose proof (m_le_M x) as mM. fold m M in mM.
    assert (HN : forall c, c = m \/ c = M -> halfstep x c = newton x c) by (apply half_near; auto).
    destruct (generic_format_EM radix2 fe (sqrt x)) as [Y | Nn].
    - assert (E2 : m = M).
      { unfold M, m, root_up, root_dn. rewrite !round_generic; auto with typeclass_instances. }
      assert (E : B2R est = M) by (destruct H; congruence).
      apply goes2_fix; auto. rewrite HN by auto. apply Rle_antisym.
      + rewrite E. apply newton_le; auto. apply M_F. apply Rle_refl.
      + rewrite E at 1. rewrite <- E2 at 1. apply newton_ge; auto; apply I.
    - assert (near : forall c, c = m \/ c = M -> newton x c = m \/ newton x c = M).
      { intros c [-> | ->].
        - destruct (F_cases x (newton x m) (newton_F x m)) as [A | A].
          + apply newton_ge; auto. apply m_F. apply Rle_refl.
          + auto.
          + right. apply Rle_antisym; auto. apply newton_dn_le; auto.
        - destruct (F_cases x (newton x M) (newton_F x M)) as [A | A].
          + apply newton_ge; auto. apply M_F.
          + auto.
          + right. apply Rle_antisym; auto. apply newton_le; auto. apply M_F. apply Rle_refl. }
      destruct (Req_dec (halfstep x (B2R est)) (B2R est)) as [E | E]; [now apply goes2_fix |].
      apply goes2_step; auto. intros e1 F1 E1. rewrite HN in E, E1 by auto. pose proof (near _ H) as N1. rewrite <- E1 in N1.
      apply goes2_fix; auto. rewrite HN by auto.
      destruct (near _ N1) as [A | A], N1 as [B | B]; try congruence; exfalso.
      + assert (C : B2R est = m) by (destruct H as [H | H]; congruence).
        apply (no_cycle x Fx x_pos Nn); fold m M; congruence.
      + assert (C : B2R est = M) by (destruct H as [H | H]; congruence).
        apply (no_cycle x Fx x_pos Nn); fold m M; congruence.
  Qed.
  Lemma goes2_all : forall n (est : B64), is_finite est = true -> inv X (B2R est) -> B2R est <= IZR (Z.of_nat n) * bp (-1074) -> goes2 est.
  Proof.
    pose proof (bpow_gt_0 radix2 (-1074)) as bpe.
    induction n as [| n IH]; intros est Fe I Hn.
    - exfalso. pose proof (m_pos x Fx x_pos). destruct I as (_ & I & _). fold x in I. simpl in Hn. lra.
    - destruct (F_cases x (B2R est) (proj1 I) (proj1 (proj2 I))) as [E | G]; [apply goes2_near; auto |].
      destruct G as [G | G]; [| apply goes2_near; auto].
      pose proof (half_lt x Fx x_pos (B2R est) (proj1 I) G) as L.
      apply goes2_step; auto; [lra |]. intros e1 F1 E1. apply IH; auto; [rewrite E1; now apply inv_half |].
      destruct (F_multiple (B2R e1)) as [z1 Z1]; [rewrite E1; apply half_F |].
      rewrite <- E1 in L. rewrite Z1 in L |- *. apply Rmult_le_compat_r; [lra |]. apply IZR_le.
      assert (K : IZR z1 < IZR (Z.of_nat (S n))) by (apply Rmult_lt_reg_r with (bp (-1074)); auto; lra).
      apply lt_IZR in K. lia.
  Qed.
  Lemma goes2_inv (est : B64) : is_finite est = true -> inv X (B2R est) -> goes2 est.
  Proof.
    intros Fe I. destruct (F_multiple (B2R est) (proj1 I)) as [z Z1]. apply (goes2_all (Z.to_nat z)); auto. rewrite Z1.
    apply Rmult_le_compat_r; [apply bpow_ge_0 |]. apply IZR_le. lia.
  Qed.
  Lemma two_first : exists e1 : B64, nth_step (B2SF X) 2 (B2SF one64) = Some (B2SF e1) /\ is_finite e1 = true /\ ends2 one64 e1.
  Proof.
    assert (B1 : 1 <= bp 1023) by (apply (bpow_le radix2 0 1023); lia).
    destruct (Rle_lt_dec m 1) as [H | H].
    - assert (I : inv X (B2R one64)). { rewrite one_val. split; [apply (F_bp 0); lia |]. fold x. fold m. lra. }
      destruct (turn2 one64 eq_refl I) as (e1 & Sm & F1 & V). exists e1. split; auto. split; auto.
      apply (goes2_inv one64 eq_refl I); auto.
    - assert (XM : 1 + x / 2 <= bp 1023).
      { pose proof (x_max X X_fin x_pos) as xm. fold x in xm.
        assert (E : bp 1023 = IZR (2 ^ 53 - 1) * bp 971 / 2 + bp 970).
        { rewrite minus_IZR. change (IZR (2 ^ 53)) with (bp 53). rewrite Rmult_minus_distr_r, <- bpow_plus.
          change (53 + 971)%Z with (1023 + 1)%Z. change 971%Z with (970 + 1)%Z at 1. rewrite !bpow_plus. change (bp 1) with 2. lra. }
        assert (1 <= bp 970) by (apply (bpow_le radix2 0 970); lia). lra. }
      destruct (half_first x Fx x_pos H XM) as (H1 & H2 & H3). pose proof (B_lt X) as BX. fold x in BX. rewrite Rabs_pos_eq in BX by lra.
      assert (Q : RN (x / 1) = x) by (replace (x / 1) with x by field; now apply RN_id).
      assert (B2 : bp 1023 < bp 1024) by (apply bpow_lt; lia).
      destruct (step2 X one64 X_fin eq_refl) as (e1 & Sm & F1 & V); try (rewrite one_val; fold x; rewrite ?Q, ?H3; try apply Rabs_lt; lra).
      { rewrite one_val. fold x. pose proof (m_pos x Fx x_pos) as P. apply Rabs_lt. lra. }
      rewrite one_val in V. fold x in V.
      assert (I : inv X (B2R e1)). { rewrite V. split; [apply half_F |]. fold x. lra. }
      exists e1. split; auto. split; auto. destruct (turn2 e1 F1 I) as (e2 & S2 & F2 & V2).
      destruct (goes2_inv e1 F1 I e2 F2 V2) as (n & r & K & R). exists (S n), r. split; auto.
      intros fuel Hf. destruct fuel as [| fuel]; [lia |].
      rewrite (loop_next _ 2 one64 e1 e2); auto; [apply K; lia | | lia]. rewrite one_val, V. fold m in H1. lra.
  Qed.
  Lemma two_ends : exists n (r : B64), (forall fuel, (n <= fuel)%nat -> nthroot fuel (B2SF X) 2 = Value (B2SF r)) /\
    is_finite r = true /\ (B2R r = m \/ B2R r = M).
  Proof.
    destruct two_first as (e1 & Sm & F1 & n & r & K & R). exists (S n), r. split; auto.
    intros fuel Hf. destruct fuel as [| fuel]; [lia |]. unfold nthroot. rewrite not_negative by (auto; fold x; lra).
    change (b64_of_int (-1)) with (B2SF minus_one64). rewrite <- one_sf.
    rewrite (loop_next _ 2 minus_one64 one64 e1); auto; [apply K; lia | rewrite minus_one_val, one_val; lra | lia].
  Qed.
End Two.
Lemma nthroot_two x : finite_double x -> 0 < real x -> exists n r,
  (forall fuel, (n <= fuel)%nat -> nthroot fuel x 2 = Value r) /\ (double_below (sqrt (real x)) r \/ double_above (sqrt (real x)) r).
Proof.
  intros Fx Px. destruct (B2R_real x Fx) as (X & FX & EX). destruct (real_B2R X FX) as [_ RX]. rewrite EX in RX.
  rewrite RX in *. destruct (two_ends X FX Px) as (n & r & H & Fr & C). rewrite EX in H.
  exists n, (B2SF r). split; auto. destruct (real_B2R r Fr) as [Dr Rr].
  destruct C as [C | C]; [left | right]; split; auto; rewrite Rr, C; split.
  - apply (m_le_s (B2R X)).
  - intros v Dv Lv. destruct (B2R_real v Dv) as (V & FV & EV). destruct (real_B2R V FV) as [_ RV]. rewrite <- EV, RV in *.
    apply F_le_m; auto. exact (generic_format_B2R 53 1024 V).
  - apply (s_le_M (B2R X)).
  - intros v Dv Lv. destruct (B2R_real v Dv) as (V & FV & EV). destruct (real_B2R V FV) as [_ RV]. rewrite <- EV, RV in *.
    apply F_ge_M; auto. exact (generic_format_B2R 53 1024 V).
Qed.
