(** Newton's iteration for the square root in binary64 rounding, on the real line (no overflow). *)
From Coq Require Import ZArith Znumtheory Zpow_facts Reals Lia Lra Psatz.
From Flocq Require Import Core Sterbenz.
Local Open Scope R_scope.

Local Notation fe := (FLT_exp (-1074) 53).
Local Notation F := (generic_format radix2 fe).
Local Notation RN := (round radix2 fe ZnearestE).
Local Notation bp := (bpow radix2).

Lemma prec53 : Prec_gt_0 53.
Proof. reflexivity. Qed.
Local Existing Instance prec53.

Lemma RN_ge a b : F a -> a <= b -> a <= RN b.
Proof. apply round_ge_generic; auto with typeclass_instances. Qed.
Lemma RN_le a b : F a -> b <= a -> RN b <= a.
Proof. apply round_le_generic; auto with typeclass_instances. Qed.
Lemma RN_F a : F (RN a).
Proof. apply generic_format_round; auto with typeclass_instances. Qed.
Lemma RN_id a : F a -> RN a = a.
Proof. apply round_generic; auto with typeclass_instances. Qed.

Lemma F_bp e : (-1074 <= e)%Z -> F (bp e).
Proof. intros. apply generic_format_FLT_bpow; auto. exact prec53. Qed.

Lemma F_int k e : (Z.abs k <= 2 ^ 53)%Z -> (-1074 <= e)%Z -> F (IZR k * bp e).
Proof.
  intros Hk He. destruct (Z.eq_dec (Z.abs k) (2 ^ 53)) as [E | E].
  - assert (H : F (bp (53 + e))) by (apply F_bp; lia).
    rewrite bpow_plus in H. change (bp 53) with (IZR (2 ^ 53)) in H.
    destruct (Z.abs_spec k) as [[_ A] | [_ A]]; rewrite A in E.
    + rewrite E. exact H.
    + replace k with (- 2 ^ 53)%Z by lia. rewrite opp_IZR, Ropp_mult_distr_l_reverse.
      apply generic_format_opp. exact H.
  - apply generic_format_FLT. exists (Float radix2 k e); simpl; auto.
    change (Z.abs k < 2 ^ 53)%Z. lia.
Qed.

Lemma F_double c : F c -> F (2 * c).
Proof.
  intros H. apply FLT_format_generic in H; [| exact prec53]. destruct H as [[n e] H1 H2 H3]. simpl in *.
  apply generic_format_FLT. exists (Float radix2 n (e + 1)); simpl; auto; [| lia].
  rewrite H1. unfold F2R. simpl. rewrite bpow_plus. change (bp 1) with 2. ring.
Qed.

Lemma F_half c : F c -> bp (-1021) <= c -> F (c / 2).
Proof.
  intros H B. assert (P : 0 < c) by (eapply Rlt_le_trans; [apply bpow_gt_0 | exact B]).
  assert (M : (-1020 <= mag radix2 c)%Z).
  { apply mag_ge_bpow. rewrite Rabs_pos_eq by lra. exact B. }
  unfold generic_format in H. set (n := Ztrunc (scaled_mantissa radix2 fe c)) in H.
  rewrite H. unfold F2R; simpl. set (e := cexp radix2 fe c).
  assert (He : (e = mag radix2 c - 53)%Z).
  { unfold e, cexp, FLT_exp. lia. }
  replace (IZR n * bp e / 2) with (IZR n * bp (e - 1)).
  2: { unfold Zminus. rewrite bpow_plus. change (bp (- (1))) with (/ 2). field. }
  apply F_int; [| lia].
  assert (A : IZR (Z.abs n) <= IZR (2 ^ 53)).
  { rewrite abs_IZR. apply Rmult_le_reg_r with (bp e). apply bpow_gt_0.
    replace (Rabs (IZR n) * bp e) with (Rabs c).
    2: { rewrite H at 1. unfold F2R; simpl. rewrite Rabs_mult, (Rabs_pos_eq (bp _)); auto. apply bpow_ge_0. }
    change (IZR (2 ^ 53)) with (bp 53). rewrite <- bpow_plus.
    replace (53 + e)%Z with (mag radix2 c : Z) by lia. apply Rlt_le, bpow_mag_gt. }
  apply le_IZR in A. exact A.
Qed.

(** one step of the iteration *)
Definition newton (x c : R) : R := RN (RN (c + RN (x / c)) / 2).

Lemma div_le_iff a b c : 0 < b -> (a / b <= c <-> a <= c * b).
Proof.
  intros H. split; intros L.
  - replace a with (a / b * b) by (field; lra). apply Rmult_le_compat_r; lra.
  - apply Rmult_le_reg_r with b; auto. replace (a / b * b) with a by (field; lra). exact L.
Qed.
Lemma le_div_iff a b c : 0 < b -> (c <= a / b <-> c * b <= a).
Proof.
  intros H. split; intros L.
  - replace a with (a / b * b) by (field; lra). apply Rmult_le_compat_r; lra.
  - apply Rmult_le_reg_r with b; auto. replace (a / b * b) with a by (field; lra). exact L.
Qed.
Lemma div_lt_iff a b c : 0 < b -> (a / b < c <-> a < c * b).
Proof.
  intros H. split; intros L; apply Rnot_le_lt; intros K; revert L; apply Rle_not_lt.
  - now apply le_div_iff.
  - now apply le_div_iff.
Qed.
Lemma lt_div_iff a b c : 0 < b -> (c < a / b <-> c * b < a).
Proof.
  intros H. split; intros L; apply Rnot_le_lt; intros K; revert L; apply Rle_not_lt.
  - now apply div_le_iff.
  - now apply div_le_iff.
Qed.

Section Newton.
  Variable x : R.
  Hypothesis Fx : F x.
  Hypothesis x_pos : 0 < x.
  Let s := sqrt x.
  (** the doubles next below and next above the root *)
  Definition root_dn := round radix2 fe Zfloor (sqrt x).
  Definition root_up := round radix2 fe Zceil (sqrt x).
  Let m := root_dn.
  Let M := root_up.

  Lemma s_sqr : s * s = x.
  Proof. apply sqrt_sqrt. lra. Qed.
  Lemma x_min : bp (-1074) <= x.
  Proof.
    assert (H : succ radix2 fe 0 <= x).
    { apply succ_le_lt; auto with typeclass_instances. apply generic_format_0. }
    rewrite succ_0 in H. rewrite ulp_FLT_0 in H. exact H. exact prec53.
  Qed.
  Lemma s_min : bp (-537) <= s.
  Proof.
    unfold s. replace (bp (-537)) with (sqrt (bp (-1074))).
    - apply sqrt_le_1_alt. exact x_min.
    - replace (-1074)%Z with (-537 + -537)%Z by reflexivity. rewrite bpow_plus.
      apply sqrt_square. apply bpow_ge_0.
  Qed.
  Lemma m_F : F m.
  Proof. apply generic_format_round; auto with typeclass_instances. Qed.
  Lemma M_F : F M.
  Proof. apply generic_format_round; auto with typeclass_instances. Qed.
  Lemma m_min : bp (-537) <= m.
  Proof. apply round_ge_generic; auto with typeclass_instances. apply F_bp; lia. exact s_min. Qed.
  Lemma m_le_s : m <= s.
  Proof. apply round_DN_pt. auto with typeclass_instances. Qed.
  Lemma s_le_M : s <= M.
  Proof. apply round_UP_pt. auto with typeclass_instances. Qed.
  Lemma m_pos : 0 < m.
  Proof. eapply Rlt_le_trans; [apply (bpow_gt_0 radix2 (-537)) | exact m_min]. Qed.
  Lemma s_pos : 0 < s.
  Proof. pose proof m_pos; pose proof m_le_s; lra. Qed.

  (** no double lies strictly between *)
  Lemma F_le_m c : F c -> c <= s -> c <= m.
  Proof. intros. apply round_DN_pt; auto with typeclass_instances. Qed.
  Lemma F_ge_M c : F c -> s <= c -> M <= c.
  Proof. intros. apply round_UP_pt; auto with typeclass_instances. Qed.
  Lemma F_cases c : F c -> m <= c -> c = m \/ M <= c.
  Proof.
    intros Fc H. destruct (Rle_or_lt c s) as [A | A].
    - left. apply Rle_antisym; auto. now apply F_le_m.
    - right. apply F_ge_M; auto. lra.
  Qed.

  Lemma small_half c : m <= c -> bp (-1021) <= c.
  Proof. intros. apply Rle_trans with (2 := H). apply Rle_trans with (2 := m_min). apply bpow_le. lia. Qed.

  (** the halving is exact *)
  Lemma sum_ge c : F c -> m <= c -> 2 * m <= RN (c + RN (x / c)).
  Proof.
    intros Fc H. pose proof m_pos as P. pose proof m_le_s as S. pose proof s_sqr as SQ. pose proof s_pos.
    apply RN_ge. apply F_double, m_F.
    destruct (Rle_or_lt (2 * m) c) as [L | L].
    - assert (0 <= RN (x / c)). { apply RN_ge. apply generic_format_0. apply le_div_iff; nra. }
      lra.
    - assert (A : 2 * m - c <= RN (x / c)).
      { apply RN_ge.
        - apply sterbenz; auto with typeclass_instances. apply F_double, m_F. lra.
        - apply le_div_iff. lra.
          assert (2 * m - c <= 2 * s - c) by lra.
          assert ((2 * m - c) * c <= (2 * s - c) * c) by (apply Rmult_le_compat_r; lra).
          assert (0 <= (s - c) * (s - c)) by apply Rle_0_sqr. nra. }
      lra.
  Qed.
  Lemma newton_half c : F c -> m <= c -> newton x c = RN (c + RN (x / c)) / 2.
  Proof.
    intros Fc H. unfold newton. apply RN_id, F_half. apply RN_F.
    apply small_half. pose proof (sum_ge c Fc H). pose proof m_pos. lra.
  Qed.
  Lemma newton_F c : F (newton x c).
  Proof. apply RN_F. Qed.
  Lemma newton_ge c : F c -> m <= c -> m <= newton x c.
  Proof. intros Fc H. rewrite newton_half by auto. pose proof (sum_ge c Fc H). lra. Qed.

  Lemma quot_le c : F c -> M <= c -> RN (x / c) <= c.
  Proof.
    intros Fc H. pose proof s_le_M. pose proof s_pos. pose proof s_sqr.
    apply RN_le; auto. apply div_le_iff. lra. nra.
  Qed.
  Lemma m_le_M : m <= M.
  Proof. pose proof m_le_s; pose proof s_le_M; lra. Qed.
  Lemma sum_le c : F c -> M <= c -> RN (c + RN (x / c)) <= 2 * c.
  Proof. intros Fc H. apply RN_le. now apply F_double. pose proof (quot_le c Fc H). lra. Qed.
  Lemma newton_le c : F c -> M <= c -> newton x c <= c.
  Proof.
    intros Fc H. rewrite newton_half; auto. 2: { pose proof m_le_M; lra. }
    pose proof (sum_le c Fc H). lra.
  Qed.

  (** above the root the iteration strictly decreases *)
  Lemma newton_lt c : F c -> M < c -> newton x c < c.
  Proof.
    intros Fc H. pose proof m_le_M as mM. pose proof m_pos as P. pose proof s_le_M as sM. pose proof s_pos as sp. pose proof s_sqr as SQ.
    destruct (newton_le c Fc ltac:(lra)) as [L | E]; auto. exfalso.
    rewrite newton_half in E by (auto; lra).
    set (q := RN (x / c)) in *.
    assert (E2 : RN (c + q) = 2 * c) by lra.
    assert (A : M <= q).
    { apply Rnot_lt_le. intros Q.
      assert (B : RN (c + q) <= pred radix2 fe (2 * c)).
      { apply round_N_le_midp; auto with typeclass_instances.
        - apply generic_format_pred; auto with typeclass_instances. now apply F_double.
        - rewrite succ_pred; auto with typeclass_instances; [| now apply F_double].
          assert (2 * M <= pred radix2 fe (2 * c)).
          { apply pred_ge_gt; auto with typeclass_instances. apply F_double, M_F. now apply F_double. lra. }
          lra. }
      assert (pred radix2 fe (2 * c) < 2 * c) by (apply pred_lt_id; auto with typeclass_instances; lra).
      lra. }
    assert (Mp : 0 < M) by lra.
    assert (Q : q <= pred radix2 fe M).
    { apply round_N_le_midp; auto with typeclass_instances.
      - apply generic_format_pred; auto with typeclass_instances. apply M_F.
      - rewrite succ_pred; auto with typeclass_instances; [| apply M_F].
        set (U := ulp radix2 fe M).
        assert (U1 : M + U <= c).
        { unfold U. rewrite <- succ_eq_pos by lra. apply succ_le_lt; auto with typeclass_instances. apply M_F. }
        assert (U2 : M - U <= pred radix2 fe M).
        { pose proof (pred_plus_ulp radix2 fe M Mp M_F) as PP.
          assert (0 <= pred radix2 fe M).
          { apply pred_ge_0; auto with typeclass_instances. apply M_F. }
          assert (ulp radix2 fe (pred radix2 fe M) <= U).
          { apply ulp_le_pos; auto with typeclass_instances. apply pred_le_id; auto with typeclass_instances. }
          lra. }
        assert (U3 : U < M).
        { unfold U. apply Rle_lt_trans with (Rabs M * bp (1 - 53)).
          - apply ulp_FLT_le. rewrite Rabs_pos_eq by lra.
            apply Rle_trans with (bp (-537)). apply bpow_le; lia. pose proof m_min. lra.
          - rewrite Rabs_pos_eq by lra. change (bp (1 - 53)) with (/ IZR (2 ^ 52)).
            assert (/ IZR (2 ^ 52) < 1). { rewrite <- Rinv_1. apply Rinv_lt_contravar. rewrite Rmult_1_l. apply IZR_lt; reflexivity. apply IZR_lt; reflexivity. }
            nra. }
        assert (U4 : 0 <= U) by apply ulp_ge_0.
        assert (0 < U). { unfold U. rewrite ulp_neq_0 by lra. apply bpow_gt_0. }
        apply div_lt_iff. lra.
        apply Rlt_le_trans with ((M - U / 2) * c).
        + apply Rlt_le_trans with ((M - U / 2) * (M + U)); nra.
        + apply Rmult_le_compat_r; lra. }
    assert (pred radix2 fe M < M) by (apply pred_lt_id; auto with typeclass_instances; lra).
    lra.
  Qed.

  (** ** When the root is not a double *)
  Hypothesis not_F : ~ F s.
  Lemma shape : exists k N e, (-1074 <= e)%Z /\ (2 ^ 52 <= k < 2 ^ 53)%Z /\ m = IZR k * bp e /\ M = IZR (k + 1) * bp e /\
    x = IZR (N * 2 ^ 52) * bp e * bp e /\ (k * k < N * 2 ^ 52 < (k + 1) * (k + 1))%Z.
  Proof.
    pose proof s_pos as sp. pose proof s_sqr as SQ.
    set (e := cexp radix2 fe s).
    set (k := Zfloor (scaled_mantissa radix2 fe s)).
    assert (mg : (-536 <= mag radix2 s)%Z).
    { apply mag_ge_bpow. rewrite Rabs_pos_eq by lra. exact s_min. }
    assert (He : (e = mag radix2 s - 53)%Z) by (unfold e, cexp, FLT_exp; lia).
    assert (Em : m = IZR k * bp e) by reflexivity.
    assert (EM : M = IZR (k + 1) * bp e).
    { assert (E : M = m + ulp radix2 fe s) by (apply round_UP_DN_ulp; exact not_F).
      rewrite E, Em, ulp_neq_0 by lra. fold e. rewrite plus_IZR. ring. }
    assert (bpe : 0 < bp e) by apply bpow_gt_0.
    assert (s_m : m < s).
    { destruct m_le_s as [A | A]; auto. exfalso. apply not_F. rewrite <- A. apply m_F. }
    assert (s_M : s < M).
    { destruct s_le_M as [A | A]; auto. exfalso. apply not_F. rewrite A. apply M_F. }
    assert (K1 : (2 ^ 52 <= k)%Z).
    { apply Zfloor_lub. unfold scaled_mantissa. fold e. apply Rmult_le_reg_r with (bp e); auto.
      rewrite Rmult_assoc, <- bpow_plus. replace (- e + e)%Z with 0%Z by lia. rewrite Rmult_1_r.
      change (IZR (2 ^ 52)) with (bp 52). rewrite <- bpow_plus.
      rewrite <- (Rabs_pos_eq s) by lra. replace (52 + e)%Z with (mag radix2 s - 1)%Z by lia.
      apply bpow_mag_le. lra. }
    assert (K2 : (k < 2 ^ 53)%Z).
    { apply lt_IZR. apply Rmult_lt_reg_r with (bp e); auto. rewrite <- Em.
      change (IZR (2 ^ 53)) with (bp 53). rewrite <- bpow_plus.
      replace (53 + e)%Z with (mag radix2 s : Z) by lia.
      apply Rlt_trans with s; auto. rewrite <- (Rabs_pos_eq s) at 1 by lra. apply bpow_mag_gt. }
    (* x *)
    set (ex := cexp radix2 fe x). set (n := Ztrunc (scaled_mantissa radix2 fe x)).
    assert (Ex : x = IZR n * bp ex) by exact Fx.
    assert (H : (2 * e + 52 <= ex)%Z).
    { assert (2 * mag radix2 s - 2 < mag radix2 x)%Z.
      { apply mag_gt_bpow. rewrite Rabs_pos_eq by lra. rewrite <- SQ.
        replace (2 * mag radix2 s - 2)%Z with ((mag radix2 s - 1) + (mag radix2 s - 1))%Z by lia.
        rewrite bpow_plus.
        assert (BM : bp (mag radix2 s - 1) <= Rabs s) by (apply bpow_mag_le; lra).
        rewrite Rabs_pos_eq in BM by lra.
        apply Rmult_le_compat; auto using bpow_ge_0. }
      unfold ex, cexp, FLT_exp. lia. }
    set (N := (n * 2 ^ (ex - 2 * e - 52))%Z).
    assert (EN : x = IZR (N * 2 ^ 52) * bp e * bp e).
    { rewrite Ex. unfold N. rewrite !mult_IZR.
      change (2 ^ (ex - 2 * e - 52))%Z with (radix2 ^ (ex - 2 * e - 52))%Z. change (2 ^ 52)%Z with (radix2 ^ 52)%Z.
      rewrite !IZR_Zpower by lia.
      rewrite !Rmult_assoc, <- !bpow_plus. f_equal. f_equal. lia. }
    exists k, N, e. repeat split; auto; try lia.
    - apply lt_IZR. rewrite (mult_IZR k k). apply Rmult_lt_reg_r with (bp e * bp e). nra.
      replace (IZR (N * 2 ^ 52) * (bp e * bp e)) with x by (rewrite EN at 1; ring).
      replace (IZR k * IZR k * (bp e * bp e)) with (m * m) by (rewrite Em; ring). rewrite <- SQ.
      pose proof m_pos. nra.
    - apply lt_IZR. rewrite (mult_IZR (k + 1) (k + 1)). apply Rmult_lt_reg_r with (bp e * bp e). nra.
      replace (IZR (N * 2 ^ 52) * (bp e * bp e)) with x by (rewrite EN at 1; ring).
      replace (IZR (k + 1) * IZR (k + 1) * (bp e * bp e)) with (M * M) by (rewrite EM; ring). rewrite <- SQ.
      pose proof m_pos. nra.
  Qed.
End Newton.

(** successors and predecessors of scaled integers *)
Lemma succ_int k e : (-1074 <= e)%Z -> (2 ^ 52 <= k < 2 ^ 53)%Z -> succ radix2 fe (IZR k * bp e) = IZR (k + 1) * bp e.
Proof.
  intros He Hk. pose proof (bpow_gt_0 radix2 e).
  assert (P : 0 < IZR k) by (apply IZR_lt; lia).
  assert (P2 : 0 < IZR k * bp e) by nra.
  rewrite succ_eq_pos by lra. rewrite ulp_neq_0 by lra.
  assert (Mg : mag radix2 (IZR k * bp e) = (53 + e)%Z :> Z).
  { apply mag_unique_pos. split.
    - replace (53 + e - 1)%Z with (52 + e)%Z by lia. rewrite bpow_plus. apply Rmult_le_compat_r. lra.
      change (bp 52) with (IZR (2 ^ 52)). apply IZR_le. lia.
    - rewrite bpow_plus. apply Rmult_lt_compat_r; auto. change (bp 53) with (IZR (2 ^ 53)). apply IZR_lt. lia. }
  unfold cexp, FLT_exp. rewrite Mg. replace (Z.max (53 + e - 53) (-1074)) with e by lia.
  rewrite plus_IZR. ring.
Qed.
Lemma succ_top e : (-1074 <= e)%Z -> succ radix2 fe (IZR (2 ^ 53) * bp e) = IZR (2 ^ 53 + 2) * bp e.
Proof.
  intros He. replace (IZR (2 ^ 53) * bp e) with (IZR (2 ^ 52) * bp (e + 1)).
  - rewrite succ_int by lia. rewrite !plus_IZR, bpow_plus. change (bp 1) with 2.
    change (2 ^ 53)%Z with (2 * 2 ^ 52)%Z. rewrite mult_IZR. ring.
  - rewrite bpow_plus. change (bp 1) with 2. change (2 ^ 53)%Z with (2 * 2 ^ 52)%Z. rewrite mult_IZR. ring.
Qed.
Lemma pred_int k e : (-1074 <= e)%Z -> (2 ^ 52 < k <= 2 ^ 53)%Z -> pred radix2 fe (IZR k * bp e) = IZR (k - 1) * bp e.
Proof.
  intros He Hk. replace k with (k - 1 + 1)%Z at 1 by lia. rewrite <- succ_int by lia.
  apply pred_succ; auto with typeclass_instances. apply F_int; lia.
Qed.

(** rounding a quotient of integers *)
Section Quot.
  Variables (X k e : Z).
  Hypothesis k_pos : (0 < k)%Z.
  Let y := IZR X * bp e * bp e / (IZR k * bp e).
  Lemma y_eq : y = IZR X / IZR k * bp e.
  Proof. unfold y. pose proof (bpow_gt_0 radix2 e). assert (0 < IZR k) by (apply IZR_lt; lia). field. lra. Qed.
  Lemma quot_up j d : F (IZR j * bp e) -> succ radix2 fe (IZR j * bp e) = IZR (j + d) * bp e ->
    (2 * X < (2 * j + d) * k)%Z -> RN y <= IZR j * bp e.
  Proof.
    intros Fj E H. apply round_N_le_midp; auto with typeclass_instances. rewrite E, y_eq.
    replace ((IZR j * bp e + IZR (j + d) * bp e) / 2) with (IZR (2 * j + d) / 2 * bp e).
    2: { rewrite !plus_IZR, mult_IZR. field. }
    apply Rmult_lt_compat_r. apply bpow_gt_0. assert (0 < IZR k) by (apply IZR_lt; lia).
    apply div_lt_iff; auto. apply IZR_lt in H. rewrite !mult_IZR in H. lra.
  Qed.
  Lemma quot_dn j d : F (IZR j * bp e) -> pred radix2 fe (IZR j * bp e) = IZR (j - d) * bp e ->
    ((2 * j - d) * k < 2 * X)%Z -> IZR j * bp e <= RN y.
  Proof.
    intros Fj E H. apply round_N_ge_midp; auto with typeclass_instances. rewrite E, y_eq.
    replace ((IZR j * bp e + IZR (j - d) * bp e) / 2) with (IZR (2 * j - d) / 2 * bp e).
    2: { rewrite !minus_IZR, mult_IZR. field. }
    apply Rmult_lt_compat_r. apply bpow_gt_0. assert (0 < IZR k) by (apply IZR_lt; lia).
    apply lt_div_iff; auto. apply IZR_lt in H. rewrite !mult_IZR in H. lra.
  Qed.
  Lemma quot_exact j : F (IZR j * bp e) -> X = (j * k)%Z -> RN y = IZR j * bp e.
  Proof.
    intros Fj H. rewrite y_eq, H, mult_IZR. assert (0 < IZR k) by (apply IZR_lt; lia).
    replace (IZR j * IZR k / IZR k) with (IZR j) by (field; lra). now apply RN_id.
  Qed.
End Quot.

Section Cycle.
  Variable x : R.
  Hypothesis Fx : F x.
  Hypothesis x_pos : 0 < x.
  Hypothesis not_F : ~ F (sqrt x).
  Let m := root_dn x.
  Let M := root_up x.

  Lemma m_lt_M : m < M.
  Proof.
    destruct (m_le_M x) as [A | A]; auto. exfalso. apply not_F.
    replace (sqrt x) with m. apply m_F.
    pose proof (m_le_s x). pose proof (s_le_M x). apply Rle_antisym; auto. unfold m. rewrite A. auto.
  Qed.

  (** from just below the root the next iterate is at most the double above it *)
  Lemma newton_dn_le : newton x m <= M.
  Proof.
    destruct (shape x Fx x_pos not_F) as (k & N & e & He & Hk & Em & EM & Ex & HN). fold m in Em. fold M in EM.
    rewrite newton_half by (first [assumption | apply m_F | apply Rle_refl]).
    enough (RN (m + RN (x / m)) <= 2 * M) by lra.
    apply RN_le. apply F_double, M_F.
    pose proof (bpow_gt_0 radix2 e) as bpe.
    destruct (Z.eq_dec (k + 1) (2 ^ 53)) as [T | T].
    - enough (RN (x / m) <= M) by (pose proof m_lt_M; lra).
      rewrite EM, Ex, Em. apply (quot_up (N * 2 ^ 52) k e ltac:(lia) (k + 1) 2).
      + apply F_int; lia.
      + rewrite T. apply succ_top. lia.
      + assert (k = 2 ^ 53 - 1)%Z by lia. subst k. lia.
    - enough (RN (x / m) <= IZR (k + 2) * bp e).
      { rewrite EM, Em. rewrite Em in H. rewrite !plus_IZR in *. lra. }
      rewrite Ex, Em. apply (quot_up (N * 2 ^ 52) k e ltac:(lia) (k + 2) (if (k + 2 =? 2 ^ 53)%Z then 2 else 1)).
      + apply F_int; lia.
      + destruct (Z.eqb_spec (k + 2) (2 ^ 53)) as [Q | Q]. rewrite Q. apply succ_top; lia. apply succ_int; lia.
      + destruct (k + 2 =? 2 ^ 53)%Z; nia.
  Qed.

  (** the iteration does not alternate between the two neighbours *)
  Lemma no_cycle : newton x m = M -> newton x M = m -> False.
  Proof.
    destruct (shape x Fx x_pos not_F) as (k & N & e & He & Hk & Em & EM & Ex & HN). fold m in Em. fold M in EM.
    rewrite (newton_half x Fx x_pos m) by (first [assumption | apply m_F | apply Rle_refl]).
    rewrite (newton_half x Fx x_pos M) by (first [assumption | apply M_F | apply m_le_M]).
    intros H1 H2. pose proof m_lt_M as mM.
    set (q' := RN (x / m)) in *. set (q := RN (x / M)) in *.
    assert (S' : RN (m + q') = 2 * M) by lra. assert (S : RN (M + q) = 2 * m) by lra.
    pose proof (bpow_gt_0 radix2 e) as bpe.
    assert (sM : succ radix2 fe m = M) by (rewrite Em, EM; apply succ_int; lia).
    assert (Q : q <= m).
    { apply Rnot_lt_le. intros A. assert (M <= q).
      { rewrite <- sM. apply succ_le_lt; auto with typeclass_instances. apply m_F. apply RN_F. }
      assert (2 * M <= RN (M + q)). { apply RN_ge. apply F_double, M_F. lra. }
      lra. }
    assert (Q' : M <= q').
    { apply Rnot_lt_le. intros A. assert (q' <= m).
      { replace m with (pred radix2 fe M). apply pred_ge_gt; auto with typeclass_instances. apply RN_F. apply M_F.
        rewrite <- sM. apply pred_succ; auto with typeclass_instances. apply m_F. }
      assert (RN (m + q') <= 2 * m). { apply RN_le. apply F_double, m_F. lra. }
      lra. }
    destruct (Z.eq_dec k (2 ^ 52)) as [K | K].
    { (* the lowest mantissa *)
      assert (N = 2 ^ 52 + 1 \/ N = 2 ^ 52 + 2)%Z as [A | A] by (subst k; lia).
      - assert (q' = M).
        { unfold q'. rewrite Ex, Em, EM. apply quot_exact. lia. apply F_int; lia. subst k N. lia. }
        assert (q = m).
        { unfold q. rewrite Ex, Em, EM. apply quot_exact. lia. apply F_int; lia. subst k N. lia. }
        rewrite H in S'. rewrite H0, Rplus_comm in S. lra.
      - assert (M <= q); [| lra].
        unfold q. rewrite Ex, EM. apply (quot_dn (N * 2 ^ 52) (k + 1) e ltac:(lia) (k + 1) 1).
        + apply F_int; lia.
        + rewrite pred_int by lia. reflexivity.
        + subst k N. lia. }
    destruct Q as [Q | Q].
    - (* q < m *)
      assert (A : (2 * (N * 2 ^ 52) <= (2 * k - 1) * (k + 1))%Z).
      { apply Znot_gt_le. intros A. apply (Rlt_not_le _ _ Q). unfold q. rewrite Ex, Em, EM.
        apply (quot_dn (N * 2 ^ 52) (k + 1) e ltac:(lia) k 1). apply F_int; lia. apply pred_int; lia. lia. }
      assert (B : ((2 * k + 1) * k <= 2 * (N * 2 ^ 52))%Z).
      { apply Znot_gt_le. intros B. assert (q' <= m); [| lra]. unfold q'. rewrite Ex, Em.
        apply (quot_up (N * 2 ^ 52) k e ltac:(lia) k 1). apply F_int; lia. apply succ_int; lia. lia. }
      nia.
    - destruct Q' as [Q' | Q'].
      2: { rewrite <- Q' in S'. rewrite Q, Rplus_comm in S. lra. }
      assert (A : (2 * (N * 2 ^ 52) <= (2 * k + 1) * (k + 1))%Z).
      { apply Znot_gt_le. intros A. assert (M <= q); [| lra]. unfold q. rewrite Ex, EM.
        apply (quot_dn (N * 2 ^ 52) (k + 1) e ltac:(lia) (k + 1) 1). apply F_int; lia. apply pred_int; lia. lia. }
      destruct (Z.eq_dec (k + 1) (2 ^ 53)) as [T | T].
      + assert (B : ((2 * (k + 1) + 2) * k <= 2 * (N * 2 ^ 52))%Z).
        { apply Znot_gt_le. intros B. apply (Rlt_not_le _ _ Q'). unfold q'. rewrite Ex, Em, EM.
          apply (quot_up (N * 2 ^ 52) k e ltac:(lia) (k + 1) 2). apply F_int; lia. rewrite T. apply succ_top; lia. lia. }
        nia.
      + assert (B : ((2 * (k + 1) + 1) * k <= 2 * (N * 2 ^ 52))%Z).
        { apply Znot_gt_le. intros B. apply (Rlt_not_le _ _ Q'). unfold q'. rewrite Ex, Em, EM.
          apply (quot_up (N * 2 ^ 52) k e ltac:(lia) (k + 1) 1). apply F_int; lia. apply succ_int; lia. lia. }
        assert (C : (N * 2 ^ 53 = k * (2 * k + 3) \/ N * 2 ^ 53 = (k + 1) * (2 * k + 1))%Z).
        { change (2 ^ 53)%Z with (2 * 2 ^ 52)%Z. nia. }
        assert (odd_div : forall a j, (0 < a < 2 ^ 53)%Z -> (N * 2 ^ 53 = a * (2 * j + 1))%Z -> False).
        { intros a j Ha E. assert (D : (2 ^ 53 | a)%Z).
          { apply Gauss with (2 * j + 1)%Z. exists N. lia.
            apply rel_prime_sym, rel_prime_Zpower_r. lia.
            apply bezout_rel_prime. apply Bezout_intro with 1%Z (- j)%Z. ring. }
          apply Z.divide_pos_le in D; lia. }
        destruct C as [C | C].
        * apply (odd_div k (k + 1)%Z). lia. rewrite C. ring.
        * apply (odd_div (k + 1)%Z k). lia. exact C.
  Qed.
End Cycle.
