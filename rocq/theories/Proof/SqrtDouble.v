(** sqrt(double) terminates on every positive finite argument, next to the root. *)
From Coq Require Import ZArith Reals Lia Lra Psatz Floats.SpecFloat.
From Flocq Require Import Core Relative BinarySingleNaN.
From Verif Require Import Base.Field Model.ScalarMath Spec.Doubles Proof.SqrtReal.
Local Open Scope R_scope.

Local Notation fe := (FLT_exp (-1074) 53).
Local Notation F := (generic_format radix2 fe).
Local Notation RN := (round radix2 fe ZnearestE).
Local Notation bp := (bpow radix2).
Local Notation B64 := (binary_float 53 1024).

Local Existing Instance prec53.
Lemma emax1024 : Prec_lt_emax 53 1024.
Proof. reflexivity. Qed.
Local Existing Instance emax1024.

(** the library operations are those of SpecFloat *)
Lemma round_aux_eq sx mx ex lx :
  SpecFloat.binary_round_aux 53 1024 sx mx ex lx = binary_round_aux 53 1024 mode_NE sx mx ex lx.
Proof.
  unfold SpecFloat.binary_round_aux, binary_round_aux.
  set (r := shr_fexp _ _ _). case r; intros m e; simpl.
  replace (round_nearest_even (shr_m m) (loc_of_shr_record m))
    with (choice_mode mode_NE sx (shr_m m) (loc_of_shr_record m)); [reflexivity |].
  unfold round_nearest_even. case (loc_of_shr_record m); [reflexivity |]. intros c. case c; simpl; try reflexivity.
  unfold Round.cond_incr. now case Z.even.
Qed.
Lemma round_eq s m e : SpecFloat.binary_round 53 1024 s m e = binary_round 53 1024 mode_NE s m e.
Proof.
  unfold SpecFloat.binary_round, binary_round, shl_align_fexp.
  set (r := shl_align _ _ _); case r as [mz ez]. apply round_aux_eq.
Qed.
Lemma normalize_eq m e z :
  SpecFloat.binary_normalize 53 1024 m e z = B2SF (binary_normalize 53 1024 prec53 emax1024 mode_NE m e z).
Proof. case m as [| p | p]; simpl; rewrite ?B2SF_SF2B; auto using round_eq. Qed.
Lemma add_eq (a b : B64) : b64_add (B2SF a) (B2SF b) = B2SF (Bplus mode_NE a b).
Proof.
  case a as [sx | sx | | sx mx ex Bx]; case b as [sy | sy | | sy my ey By];
    [now (trivial || simpl; case Bool.eqb).. |].
  apply normalize_eq.
Qed.
Lemma div_eq (a b : B64) : b64_div (B2SF a) (B2SF b) = B2SF (Bdiv mode_NE a b).
Proof.
  destruct a as [sx | sx | | sx mx ex Bx], b as [sy | sy | | sy my ey By]; unfold b64_div; try reflexivity.
  simpl. rewrite B2SF_SF2B.
  set (z := SFdiv_core_binary _ _ _ _ _ _). case z as [[mz ez] lz]. apply round_aux_eq.
Qed.

Lemma plus_ok (a b : B64) : is_finite a = true -> is_finite b = true -> Rabs (RN (B2R a + B2R b)) < bp 1024 ->
  B2R (Bplus mode_NE a b) = RN (B2R a + B2R b) /\ is_finite (Bplus mode_NE a b) = true.
Proof.
  intros Fa Fb H. generalize (Bplus_correct 53 1024 _ _ mode_NE a b Fa Fb).
  change (round radix2 (SpecFloat.fexp 53 1024) (round_mode mode_NE) (B2R a + B2R b)) with (RN (B2R a + B2R b)).
  rewrite Rlt_bool_true by exact H. tauto.
Qed.
Lemma div_ok (a b : B64) : is_finite a = true -> B2R b <> 0 -> Rabs (RN (B2R a / B2R b)) < bp 1024 ->
  B2R (Bdiv mode_NE a b) = RN (B2R a / B2R b) /\ is_finite (Bdiv mode_NE a b) = true.
Proof.
  intros Fa Fb H. generalize (Bdiv_correct 53 1024 _ _ mode_NE a b Fb).
  change (round radix2 (SpecFloat.fexp 53 1024) (round_mode mode_NE) (B2R a / B2R b)) with (RN (B2R a / B2R b)).
  rewrite Rlt_bool_true by exact H. intros (A & B & _). rewrite B. auto.
Qed.

(** the constants *)
Definition two64 : B64 := SF2B (prec := 53) (emax := 1024) b64_2 eq_refl.
Definition one64 : B64 := SF2B (prec := 53) (emax := 1024) b64_1 eq_refl.
Lemma two_sf : B2SF two64 = b64_2.
Proof. reflexivity. Qed.
Lemma one_sf : B2SF one64 = b64_1.
Proof. reflexivity. Qed.
Lemma two_val : B2R two64 = 2.
Proof.
  change (B2R two64) with (IZR (2 ^ 52) * bp (-51)). change (IZR (2 ^ 52)) with (bp 52). rewrite <- bpow_plus. reflexivity.
Qed.
Lemma one_val : B2R one64 = 1.
Proof.
  change (B2R one64) with (IZR (2 ^ 52) * bp (-52)). change (IZR (2 ^ 52)) with (bp 52). rewrite <- bpow_plus. reflexivity.
Qed.

Section Loop.
  Variable X : B64.
  Hypothesis X_fin : is_finite X = true.
  Let x := B2R X.
  Hypothesis x_pos : 0 < x.
  Let m := root_dn x.
  Let M := root_up x.

  Lemma x_F : F x.
  Proof. exact (generic_format_B2R 53 1024 X). Qed.
  Lemma x_max : x <= IZR (2 ^ 53 - 1) * bp 971.
  Proof.
    unfold x in *. destruct X as [sx | sx | | sx mx ex Bx]; cbn [B2R is_finite] in *; try lra.
    destruct sx. { exfalso. revert x_pos. unfold F2R; simpl. pose proof (bpow_gt_0 radix2 ex).
      assert (IZR (Z.neg mx) < 0) by (apply IZR_lt; reflexivity). nra. }
    pose proof (bounded_le_emax_minus_prec 53 1024 _ mx ex Bx) as H.
    eapply Rle_trans; [exact H |]. change (1024 - 53)%Z with 971%Z.
    rewrite minus_IZR. change (IZR (2 ^ 53)) with (bp 53). rewrite Rmult_minus_distr_r, <- bpow_plus, Rmult_1_l.
    change (53 + 971)%Z with 1024%Z. apply Rle_refl.
  Qed.
  Lemma s_max : sqrt x <= bp 512.
  Proof.
    replace (bp 512) with (sqrt (bp 1024)).
    - apply sqrt_le_1_alt. pose proof x_max as H. eapply Rle_trans; [exact H |].
      replace (bp 1024) with (IZR (2 ^ 53) * bp 971).
      + apply Rmult_le_compat_r. apply bpow_ge_0. apply IZR_le. lia.
      + change (IZR (2 ^ 53)) with (bp 53). rewrite <- bpow_plus. reflexivity.
    - replace (bp 1024) with (bp 512 * bp 512) by (rewrite <- bpow_plus; reflexivity).
      apply sqrt_square. apply bpow_ge_0.
  Qed.
  Lemma M_max : M <= bp 512.
  Proof. apply (F_ge_M x). apply F_bp. lia. exact s_max. Qed.
  Lemma quot_max c : m <= c -> 0 <= x / c <= bp 514.
  Proof.
    intros H. pose proof (m_pos x x_F x_pos) as P. pose proof (m_le_s x) as L.
    fold m in P, L. pose proof (s_sqr x x_pos) as SQ. pose proof s_max.
    assert (S2 : sqrt x <= 2 * m).
    { apply Rnot_lt_le. intros A. assert (2 * m <= m); [| lra].
      apply (F_le_m x). apply F_double. apply m_F. lra. }
    split. apply le_div_iff. lra. lra.
    apply div_le_iff. lra.
    replace (bp 514) with (4 * bp 512).
    2: { change 4 with (bp 2). rewrite <- bpow_plus. reflexivity. }
    rewrite <- SQ. apply Rle_trans with (2 * m * bp 512).
    - apply Rmult_le_compat; try lra; apply sqrt_pos.
    - pose proof (bpow_gt_0 radix2 512). nra.
  Qed.

  Definition inv (c : R) : Prop := F c /\ m <= c <= bp 1023.

  (** one turn of the loop *)
  Lemma turn (est : B64) : is_finite est = true -> inv (B2R est) -> exists est' : B64,
    b64_div (b64_add (B2SF est) (b64_div (B2SF X) (B2SF est))) b64_2 = B2SF est' /\
    is_finite est' = true /\ B2R est' = newton x (B2R est).
  Proof.
    intros Fe (Fc & Lo & Hi). set (c := B2R est) in *.
    pose proof (m_pos x x_F x_pos) as P. fold m in P.
    destruct (quot_max c Lo) as [Q0 Q1].
    assert (RQ : 0 <= RN (x / c) <= bp 514).
    { split. apply RN_ge; auto. apply generic_format_0. apply RN_le; auto. apply F_bp. lia. }
    destruct (div_ok X est X_fin) as [D1 D2].
    { fold c. lra. }
    { fold x c. rewrite Rabs_pos_eq by lra. apply Rle_lt_trans with (1 := proj2 RQ). apply bpow_lt. lia. }
    fold x c in D1.
    assert (B514 : bp 514 <= bp 1022) by (apply bpow_le; lia).
    assert (E1023 : bp 1023 = 2 * bp 1022) by (change 2 with (bp 1); rewrite <- bpow_plus; reflexivity).
    assert (E1024 : bp 1024 = 4 * bp 1022) by (change 4 with (bp 2); rewrite <- bpow_plus; reflexivity).
    pose proof (bpow_gt_0 radix2 1022) as B0.
    assert (RS : 0 <= RN (c + RN (x / c)) <= 3 * bp 1022).
    { split.
      - apply RN_ge. apply generic_format_0. lra.
      - apply RN_le. apply (F_int 3 1022); lia. lra. }
    destruct (plus_ok est (Bdiv mode_NE X est) Fe D2) as [S1 S2].
    { rewrite D1. fold c. rewrite Rabs_pos_eq by lra. lra. }
    fold c in S1. rewrite D1 in S1.
    assert (RH : 0 <= newton x c <= bp 1023).
    { unfold newton. split.
      - apply RN_ge. apply generic_format_0. lra.
      - apply RN_le. apply F_bp; lia. lra. }
    destruct (div_ok (Bplus mode_NE est (Bdiv mode_NE X est)) two64 S2) as [H1 H2].
    { rewrite two_val. lra. }
    { rewrite S1, two_val. fold (newton x c). rewrite Rabs_pos_eq by lra. lra. }
    exists (Bdiv mode_NE (Bplus mode_NE est (Bdiv mode_NE X est)) two64).
    split; [| split]; auto.
    - rewrite div_eq, add_eq, <- two_sf, div_eq. reflexivity.
    - rewrite H1, S1, two_val. reflexivity.
  Qed.

  Lemma inv_newton c : inv c -> inv (newton x c).
  Proof.
    intros (Fc & Lo & Hi). split; [apply newton_F |]. split.
    - apply newton_ge; auto. apply x_F.
    - destruct (F_cases x c Fc Lo) as [E | G].
      + destruct (generic_format_EM radix2 fe (sqrt x)) as [Y | Nn].
        * assert (E2 : M = m).
          { unfold M, m, root_up, root_dn. rewrite !round_generic; auto with typeclass_instances. }
          apply Rle_trans with c; auto. apply newton_le; auto. apply x_F. fold M. rewrite E2, E. apply Rle_refl.
        * rewrite E. apply Rle_trans with M. apply newton_dn_le; auto. apply x_F.
          apply Rle_trans with (1 := M_max). apply bpow_le. lia.
      + apply Rle_trans with c; auto. apply newton_le; auto. apply x_F.
  Qed.

  (** what the loop does from a given estimate, once the previous one was different *)
  Definition ends (prev est : B64) : Prop := exists n (r : B64),
    (forall fuel, (n <= fuel)%nat -> sqrt_loop fuel (B2SF X) (B2SF prev) (B2SF est) = Value (B2SF r)) /\
    is_finite r = true /\ (B2R r = m \/ B2R r = M).

  Lemma ends_now (prev est : B64) : is_finite prev = true -> is_finite est = true -> B2R prev = B2R est ->
    (B2R est = m \/ B2R est = M) -> ends prev est.
  Proof.
    intros Fp Fe E H. exists O, est. split; auto. intros fuel _.
    assert (Q : SFeqb (B2SF prev) (B2SF est) = true).
    { change (Beqb prev est = true). rewrite Beqb_correct by auto. rewrite E. apply Req_bool_true. reflexivity. }
    destruct fuel; simpl; rewrite Q; reflexivity.
  Qed.
  Lemma ends_step (prev est est' : B64) : is_finite prev = true -> is_finite est = true -> B2R prev <> B2R est ->
    b64_div (b64_add (B2SF est) (b64_div (B2SF X) (B2SF est))) b64_2 = B2SF est' -> ends est est' -> ends prev est.
  Proof.
    intros Fp Fe E ST (n & r & H & R). exists (S n), r. split; auto. intros fuel Hf.
    assert (Q : SFeqb (B2SF prev) (B2SF est) = false).
    { change (Beqb prev est = false). rewrite Beqb_correct by auto. apply Req_bool_false. exact E. }
    destruct fuel as [| fuel]; [lia |]. simpl. rewrite Q, ST. apply H. lia.
  Qed.

  (** [goes est]: started from est, the loop ends next to the root *)
  Definition goes (est : B64) : Prop := forall est' : B64, is_finite est' = true -> B2R est' = newton x (B2R est) -> ends est est'.
  Lemma goes_fix (est : B64) : is_finite est = true -> newton x (B2R est) = B2R est -> (B2R est = m \/ B2R est = M) -> goes est.
  Proof. intros Fe E H est' F' E'. apply ends_now; auto. now rewrite E'. rewrite E', E. exact H. Qed.
  Lemma goes_step (est : B64) : is_finite est = true -> inv (B2R est) -> newton x (B2R est) <> B2R est ->
    (forall e1 : B64, is_finite e1 = true -> B2R e1 = newton x (B2R est) -> goes e1) -> goes est.
  Proof.
    intros Fe I E H est' F' E'. assert (I' : inv (B2R est')) by (rewrite E'; now apply inv_newton).
    destruct (turn est' F' I') as (e2 & S & F2 & E2).
    apply (ends_step est est' e2); auto. rewrite E'; auto. apply H; auto.
  Qed.

  Lemma goes_near (est : B64) : is_finite est = true -> inv (B2R est) -> B2R est = m \/ B2R est = M -> goes est.
  Proof.
    intros Fe I H. pose proof (m_le_M x) as mM. fold m M in mM.
    destruct (generic_format_EM radix2 fe (sqrt x)) as [Y | Nn].
    - assert (E2 : m = M).
      { unfold M, m, root_up, root_dn. rewrite !round_generic; auto with typeclass_instances. }
      assert (E : B2R est = M) by (destruct H; congruence).
      apply goes_fix; auto. apply Rle_antisym.
      + rewrite E. apply newton_le; auto. apply x_F. apply M_F. apply Rle_refl.
      + rewrite E at 1. rewrite <- E2 at 1. apply newton_ge; auto using x_F; apply I.
    - assert (near : forall c, c = m \/ c = M -> newton x c = m \/ newton x c = M).
      { intros c [-> | ->].
        - destruct (F_cases x (newton x m) (newton_F x m)) as [A | A].
          + apply newton_ge; auto. apply x_F. apply m_F. apply Rle_refl.
          + auto.
          + right. apply Rle_antisym; auto. apply newton_dn_le; auto. apply x_F.
        - destruct (F_cases x (newton x M) (newton_F x M)) as [A | A].
          + apply newton_ge; auto. apply x_F. apply M_F.
          + auto.
          + right. apply Rle_antisym; auto. apply newton_le; auto. apply x_F. apply M_F. apply Rle_refl. }
      destruct (Req_dec (newton x (B2R est)) (B2R est)) as [E | E].
      { now apply goes_fix. }
      apply goes_step; auto. intros e1 F1 E1. pose proof (near _ H) as N1. rewrite <- E1 in N1.
      apply goes_fix; auto.
      destruct (near _ N1) as [A | A], N1 as [B | B]; try congruence; exfalso.
      + (* e1 = M, back to m *)
        assert (C : B2R est = m) by (destruct H as [H | H]; congruence).
        apply (no_cycle x x_F x_pos Nn); fold m M; congruence.
      + assert (C : B2R est = M) by (destruct H as [H | H]; congruence).
        apply (no_cycle x x_F x_pos Nn); fold m M; congruence.
  Qed.

  (** doubles are multiples of 2^-1074: the measure *)
  Lemma F_multiple c : F c -> exists z, c = IZR z * bp (-1074).
  Proof.
    intros H. apply FLT_format_generic in H; [| exact prec53]. destruct H as [[n e] H1 H2 H3]. cbn [Fnum Fexp] in *.
    exists (n * 2 ^ (e + 1074))%Z. rewrite H1. unfold F2R; cbn [Fnum Fexp]. rewrite mult_IZR.
    change (2 ^ (e + 1074))%Z with (radix2 ^ (e + 1074))%Z. rewrite IZR_Zpower by lia.
    rewrite Rmult_assoc, <- bpow_plus. do 2 f_equal. lia.
  Qed.
  Lemma goes_all : forall n (est : B64), is_finite est = true -> inv (B2R est) -> B2R est <= IZR (Z.of_nat n) * bp (-1074) -> goes est.
  Proof.
    pose proof (bpow_gt_0 radix2 (-1074)) as bpe.
    induction n as [| n IH]; intros est Fe I Hn.
    - exfalso. pose proof (m_pos x x_F x_pos). fold m in H. destruct I as (_ & I & _). simpl in Hn. lra.
    - destruct (F_cases x (B2R est) (proj1 I) (proj1 (proj2 I))) as [E | G].
      { apply goes_near; auto. }
      fold M in G. destruct G as [G | G]. 2: { apply goes_near; auto. }
      pose proof (newton_lt x x_F x_pos (B2R est) (proj1 I) G) as L.
      apply goes_step; auto. lra. intros e1 F1 E1. apply IH; auto.
      { rewrite E1. now apply inv_newton. }
      destruct (F_multiple (B2R e1)) as [z1 Z1]. rewrite E1; apply newton_F.
      rewrite <- E1 in L. rewrite Z1 in L |- *.
      apply Rmult_le_compat_r. lra. apply IZR_le.
      assert (IZR z1 < IZR (Z.of_nat (S n))).
      { apply Rmult_lt_reg_r with (bp (-1074)); auto. lra. }
      apply lt_IZR in H. lia.
  Qed.

  (** the first estimate *)
  Lemma first_est : exists est : B64, b64_div (b64_add b64_1 (B2SF X)) b64_2 = B2SF est /\ is_finite est = true /\ inv (B2R est).
  Proof.
    pose proof (m_pos x x_F x_pos) as P. pose proof (m_le_s x) as L. fold m in P, L. pose proof (s_sqr x x_pos) as SQ.
    assert (S1 : 2 * m <= RN (1 + x)).
    { apply RN_ge. apply F_double, m_F. assert (0 <= (sqrt x - 1) * (sqrt x - 1)) by apply Rle_0_sqr. lra. }
    assert (S2 : RN (1 + x) <= IZR (2 ^ 53 - 1) * bp 971).
    { apply round_N_le_midp; auto with typeclass_instances. apply F_int; lia.
      rewrite succ_int by lia. pose proof x_max as xm.
      assert (B : 2 < bp 971) by (change 2 with (bp 1); apply bpow_lt; lia).
      rewrite plus_IZR. simpl (IZR 1). lra. }
    assert (E : IZR (2 ^ 53 - 1) * bp 971 < bp 1024).
    { replace (bp 1024) with (IZR (2 ^ 53) * bp 971).
      - apply Rmult_lt_compat_r. apply bpow_gt_0. apply IZR_lt. lia.
      - change (IZR (2 ^ 53)) with (bp 53). rewrite <- bpow_plus. reflexivity. }
    assert (S3 : 1 <= RN (1 + x)).
    { apply RN_ge. apply (F_bp 0). lia. lra. }
    destruct (plus_ok one64 X) as [A1 A2]; auto.
    { rewrite one_val. fold x. rewrite Rabs_pos_eq by lra. lra. }
    rewrite one_val in A1. fold x in A1.
    assert (EH : RN (RN (1 + x) / 2) = RN (1 + x) / 2).
    { apply RN_id. apply F_half. apply RN_F. apply Rle_trans with 1; auto. apply (bpow_le radix2 (-1021) 0). lia. }
    destruct (div_ok (Bplus mode_NE one64 X) two64 A2) as [H1 H2].
    { rewrite two_val. lra. }
    { rewrite A1, two_val, EH. rewrite Rabs_pos_eq by lra. lra. }
    rewrite A1, two_val, EH in H1.
    exists (Bdiv mode_NE (Bplus mode_NE one64 X) two64). split; [| split]; auto.
    - rewrite <- one_sf, <- two_sf, add_eq, div_eq. reflexivity.
    - rewrite H1. split; [| split].
      + rewrite <- EH. apply RN_F.
      + lra.
      + assert (bp 1024 = 2 * bp 1023) by (change 2 with (bp 1); rewrite <- bpow_plus; reflexivity). lra.
  Qed.

  Lemma sqrt_ends : exists n (r : B64), (forall fuel, (n <= fuel)%nat -> sqrt_double fuel (B2SF X) = Value (B2SF r)) /\
    is_finite r = true /\ (B2R r = m \/ B2R r = M).
  Proof.
    destruct first_est as (est & E & Fe & I).
    destruct (turn est Fe I) as (e1 & S1 & F1 & E1).
    destruct (F_multiple (B2R est) (proj1 I)) as [z Z1].
    assert (G : goes est).
    { apply (goes_all (Z.to_nat z)); auto. rewrite Z1. apply Rmult_le_compat_r. apply bpow_ge_0. apply IZR_le. lia. }
    destruct (G e1 F1 E1) as (n & r & H & R). exists (S n), r. split; auto.
    intros fuel Hf. destruct fuel as [| fuel]; [lia |]. unfold sqrt_double.
    assert (NL : SFltb (B2SF X) b64_0 = false).
    { change (Bltb X (B754_zero false) = false). rewrite Bltb_correct; auto. apply Rlt_bool_false. simpl. fold x. lra. }
    rewrite NL, E. cbn [sqrt_loop].
    assert (Q : SFeqb b64_0 (B2SF est) = false).
    { change (Beqb (B754_zero false) est = false). rewrite Beqb_correct; auto. apply Req_bool_false. simpl.
      pose proof (m_pos x x_F x_pos). fold m in H0. destruct I as (_ & I & _). lra. }
    rewrite Q, S1. apply H. lia.
  Qed.
End Loop.

(** ** In terms of [Spec.Doubles] *)
Lemma real_B2R (b : B64) : is_finite b = true -> finite_double (B2SF b) /\ real (B2SF b) = B2R b.
Proof.
  destruct b as [s | s | | s mx ex B]; simpl; try discriminate; intros _; split; auto.
  unfold F2R; simpl. rewrite <- (bpow_powerRZ radix2). destruct s; simpl; auto. 
Qed.
Lemma B2R_real v : finite_double v -> exists b : B64, is_finite b = true /\ B2SF b = v.
Proof.
  destruct v as [s | s | | s mx ex]; simpl; try tauto; intros H.
  - exists (B754_zero s). auto.
  - exists (B754_finite s mx ex H). auto.
Qed.

Lemma sqrt_faithful x : finite_double x -> 0 < real x -> exists n r,
  (forall fuel, (n <= fuel)%nat -> sqrt_double fuel x = Value r) /\ (double_below (sqrt (real x)) r \/ double_above (sqrt (real x)) r).
Proof.
  intros Fx Px. destruct (B2R_real x Fx) as (X & FX & EX). destruct (real_B2R X FX) as [_ RX]. rewrite EX in RX.
  rewrite RX in *. destruct (sqrt_ends X FX Px) as (n & r & H & Fr & C). rewrite EX in H.
  exists n, (B2SF r). split; auto. destruct (real_B2R r Fr) as [Dr Rr].
  destruct C as [C | C]; [left | right]; split; auto; rewrite Rr, C; split.
  - apply (m_le_s (B2R X)).
  - intros v Dv Lv. destruct (B2R_real v Dv) as (V & FV & EV). destruct (real_B2R V FV) as [_ RV]. rewrite <- EV, RV in *.
    apply F_le_m; auto. exact (generic_format_B2R 53 1024 V).
  - apply (s_le_M (B2R X)).
  - intros v Dv Lv. destruct (B2R_real v Dv) as (V & FV & EV). destruct (real_B2R V FV) as [_ RV]. rewrite <- EV, RV in *.
    apply F_ge_M; auto. exact (generic_format_B2R 53 1024 V).
Qed.

Lemma sqrt_exact x y : finite_double x -> finite_double y -> 0 < real y -> real x = real y * real y ->
  exists n r, (forall fuel, (n <= fuel)%nat -> sqrt_double fuel x = Value r) /\ real r = real y.
Proof.
  intros Fx Fy Py E. destruct (sqrt_faithful x Fx) as (n & r & H & C). { rewrite E. nra. }
  exists n, r. split; auto. rewrite E, sqrt_square in C by lra.
  destruct C as [(A & B & D) | (A & B & D)]; apply Rle_antisym; auto; apply D; auto; lra.
Qed.

(** ** abs *)
Lemma mul_eq (a b : B64) : b64_mul (B2SF a) (B2SF b) = B2SF (Bmult mode_NE a b).
Proof.
  destruct a as [sx | sx | | sx mx ex Bx], b as [sy | sy | | sy my ey By]; unfold b64_mul; try reflexivity.
  simpl. rewrite B2SF_SF2B. apply round_aux_eq.
Qed.
Lemma mul_ok (a b : B64) : is_finite a = true -> is_finite b = true -> Rabs (RN (B2R a * B2R b)) < bp 1024 ->
  B2R (Bmult mode_NE a b) = RN (B2R a * B2R b) /\ is_finite (Bmult mode_NE a b) = true.
Proof.
  intros Fa Fb H. generalize (Bmult_correct 53 1024 _ _ mode_NE a b).
  change (round radix2 (SpecFloat.fexp 53 1024) (round_mode mode_NE) (B2R a * B2R b)) with (RN (B2R a * B2R b)).
  rewrite Rlt_bool_true by exact H. rewrite Fa, Fb. simpl. tauto.
Qed.
Lemma abs_real_ok x : finite_double x -> finite_double (abs_real x) /\ real (abs_real x) = Rabs (real x).
Proof.
  intros H. unfold abs_real. destruct x as [s | s | | s m e]; simpl in H; try tauto.
  - split; simpl; auto. now rewrite Rabs_R0.
  - assert (P : 0 < IZR (Z.pos m) * powerRZ 2 e) by (apply Rmult_lt_0_compat; [now apply IZR_lt | apply powerRZ_lt; lra]).
    destruct s; simpl; split; auto.
    + rewrite Ropp_mult_distr_l_reverse, Rabs_Ropp, Rabs_pos_eq; lra.
    + rewrite Rabs_pos_eq; lra.
Qed.
(** a real number that is a double *)
Lemma double_F v : finite_double v -> F (real v) /\ Rabs (real v) < bp 1024.
Proof.
  intros H. destruct (B2R_real v H) as (b & Fb & E). destruct (real_B2R b Fb) as [_ R]. rewrite <- E, R. split.
  - exact (generic_format_B2R 53 1024 b).
  - apply abs_B2R_lt_emax.
Qed.
Lemma abs_complex_exact re im a b c : finite_double re -> finite_double im -> finite_double a -> finite_double b -> finite_double c ->
  real a = real re * real re -> real b = real im * real im -> real c = real a + real b -> 0 < real c -> exists n r,
  (forall fuel, (n <= fuel)%nat -> abs_complex fuel re im = Value r) /\ (double_below (sqrt (real c)) r \/ double_above (sqrt (real c)) r).
Proof.
  intros Hr Hi Ha Hb Hc Ea Eb Ec P.
  destruct (B2R_real re Hr) as (R & FR & ER). destruct (real_B2R R FR) as [_ VR]. rewrite ER in VR.
  destruct (B2R_real im Hi) as (I & FI & EI). destruct (real_B2R I FI) as [_ VI]. rewrite EI in VI.
  destruct (double_F a Ha) as [Fa La]. destruct (double_F b Hb) as [Fb Lb]. destruct (double_F c Hc) as [Fc Lc].
  rewrite VR in Ea. rewrite VI in Eb.
  destruct (mul_ok R R FR FR) as [M1 M2]. { rewrite <- Ea, RN_id; auto. }
  destruct (mul_ok I I FI FI) as [N1 N2]. { rewrite <- Eb, RN_id; auto. }
  rewrite <- Ea, RN_id in M1 by auto. rewrite <- Eb, RN_id in N1 by auto.
  destruct (plus_ok _ _ M2 N2) as [S1 S2]. { rewrite M1, N1, <- Ec, RN_id; auto. }
  rewrite M1, N1, <- Ec, RN_id in S1 by auto.
  destruct (real_B2R _ S2) as [D V]. rewrite S1 in V.
  unfold abs_complex. rewrite <- ER, <- EI, !mul_eq, add_eq, <- V. apply sqrt_faithful; auto. now rewrite V.
Qed.

(** squares and sums without underflow or overflow, with their relative error *)
Definition u : R := bp (-53).
Lemma RN_rel y : y = 0 \/ bp (-1022) <= y -> exists e, Rabs e <= u /\ RN y = y * (1 + e).
Proof.
  intros [-> | H].
  - exists 0. rewrite Rabs_R0, round_0 by auto with typeclass_instances. split; [apply bpow_ge_0 | ring].
  - destruct (relative_error_N_FLT_ex radix2 (-1074) 53 prec53 (fun x => negb (Z.even x)) y) as (e & B & E).
    { rewrite Rabs_pos_eq; auto. apply Rle_trans with (2 := H), bpow_ge_0. }
    exists e. split; auto. apply Rle_trans with (1 := B). unfold u. rewrite bpow_plus. change (bp 1) with 2. change (- (53))%Z with (-53)%Z. lra.
Qed.
Definition plain (v : R) : Prop := (v = 0 \/ bp (-511) <= Rabs v) /\ Rabs v <= bp 511.
Lemma plain_sqr v : plain v -> (v * v = 0 \/ bp (-1022) <= v * v) /\ 0 <= v * v <= bp 1022.
Proof.
  intros [A B]. assert (E : v * v = Rabs v * Rabs v) by (rewrite <- Rabs_mult, Rabs_pos_eq; auto; nra).
  pose proof (Rabs_pos v). split; [| split; [nra |]].
  - destruct A as [-> | A]; [left; ring | right]. rewrite E. change (-1022)%Z with (-511 + -511)%Z. rewrite bpow_plus.
    apply Rmult_le_compat; auto; apply bpow_ge_0.
  - rewrite E. change 1022%Z with (511 + 511)%Z. rewrite bpow_plus. apply Rmult_le_compat; auto.
Qed.
Lemma u_small : 0 < u <= / 1000.
Proof.
  split. apply bpow_gt_0. apply Rle_trans with (bp (-10)). apply bpow_le; lia. simpl. lra.
Qed.
Lemma abs_complex_bound re im : finite_double re -> finite_double im -> plain (real re) -> plain (real im) ->
  real re <> 0 \/ real im <> 0 -> exists n r, (forall fuel, (n <= fuel)%nat -> abs_complex fuel re im = Value r) /\ finite_double r /\
  Rabs (real r - sqrt (real re * real re + real im * real im)) <= bp (-51) * sqrt (real re * real re + real im * real im).
Proof.
  intros Hr Hi Pr Pi NZ.
  destruct (B2R_real re Hr) as (R & FR & ER). destruct (real_B2R R FR) as [_ VR]. rewrite ER in VR.
  destruct (B2R_real im Hi) as (I & FI & EI). destruct (real_B2R I FI) as [_ VI]. rewrite EI in VI.
  rewrite VR, VI in *. set (x := B2R R) in *. set (y := B2R I) in *.
  destruct (plain_sqr x Pr) as [X1 X2]. destruct (plain_sqr y Pi) as [Y1 Y2].
  assert (B22 : bp 1023 = 2 * bp 1022) by (change 2 with (bp 1); rewrite <- bpow_plus; reflexivity).
  assert (B23 : bp 1024 = 2 * bp 1023) by (change 2 with (bp 1); rewrite <- bpow_plus; reflexivity).
  pose proof (bpow_gt_0 radix2 1022) as B0. pose proof (bpow_gt_0 radix2 (-1022)) as b0.
  assert (RX : RN (x * x) = 0 \/ bp (-1022) <= RN (x * x)).
  { destruct X1 as [-> | X1]; [left; apply round_0; auto with typeclass_instances | right; apply RN_ge; auto]. apply F_bp; lia. }
  assert (RX2 : 0 <= RN (x * x) <= bp 1022).
  { split. apply RN_ge; [apply generic_format_0 | lra]. apply RN_le; [apply F_bp; lia | lra]. }
  assert (RY : RN (y * y) = 0 \/ bp (-1022) <= RN (y * y)).
  { destruct Y1 as [-> | Y1]; [left; apply round_0; auto with typeclass_instances | right; apply RN_ge; auto]. apply F_bp; lia. }
  assert (RY2 : 0 <= RN (y * y) <= bp 1022).
  { split. apply RN_ge; [apply generic_format_0 | lra]. apply RN_le; [apply F_bp; lia | lra]. }
  destruct (mul_ok R R FR FR) as [M1 M2]. { fold x. rewrite Rabs_pos_eq; lra. }
  destruct (mul_ok I I FI FI) as [N1 N2]. { fold y. rewrite Rabs_pos_eq; lra. }
  fold x in M1. fold y in N1.
  set (s := RN (x * x) + RN (y * y)).
  destruct (RN_rel (x * x) X1) as (e1 & E1 & Q1). destruct (RN_rel (y * y) Y1) as (e2 & E2 & Q2).
  pose proof u_small as U. apply Rabs_le_inv in E1. apply Rabs_le_inv in E2.
  set (q := x * x + y * y).
  assert (Q0 : bp (-1022) <= q).
  { unfold q. destruct X1 as [X1 | X1], Y1 as [Y1 | Y1]; try lra. exfalso. destruct NZ as [NZ | NZ]; apply NZ; nra. }
  assert (S1 : q * (1 - u) <= s <= q * (1 + u)). { unfold s, q. rewrite Q1, Q2. nra. }
  assert (S0 : s = 0 \/ bp (-1022) <= s). { unfold s. lra. }
  assert (S2 : bp (-1022) <= s). { destruct S0 as [S0 | S0]; auto. exfalso. nra. }
  destruct (RN_rel s S0) as (e3 & E3 & Q3). apply Rabs_le_inv in E3.
  assert (T0 : bp (-1022) <= RN s). { apply RN_ge; auto. apply F_bp; lia. }
  assert (T1 : RN s <= bp 1023). { apply RN_le. apply F_bp; lia. unfold s. lra. }
  destruct (plus_ok _ _ M2 N2) as [P1 P2]. { rewrite M1, N1. fold s. rewrite Rabs_pos_eq; lra. }
  rewrite M1, N1 in P1. fold s in P1.
  destruct (sqrt_ends _ P2) as (n & r & H & Fr & C). { rewrite P1. lra. }
  rewrite P1 in C. destruct (real_B2R r Fr) as [D V].
  exists n, (B2SF r). split; [| split]; auto.
  { intros fuel Hf. unfold abs_complex. rewrite <- ER, <- EI, !mul_eq, add_eq. auto. }
  rewrite V. set (t := RN s) in *.
  assert (G : Rabs (B2R r - sqrt t) <= 2 * u * sqrt t).
  { assert (W : bp (-1022) <= Rabs (sqrt t)).
    { rewrite Rabs_pos_eq by apply sqrt_pos. apply Rle_trans with (bp (-511)). apply bpow_le; lia.
      rewrite <- (sqrt_square (bp (-511))) by apply bpow_ge_0. apply sqrt_le_1_alt. rewrite <- bpow_plus. exact T0. }
    assert (W2 : 2 * u = bp (-53 + 1)). { unfold u. rewrite bpow_plus. change (bp 1) with 2. ring. }
    rewrite W2. replace (sqrt t) with (Rabs (sqrt t)) at 2 by (rewrite Rabs_pos_eq; auto; apply sqrt_pos).
    destruct C as [-> | ->]; apply Rlt_le; apply (relative_error_FLT radix2 (-1074) 53 prec53); auto with typeclass_instances. }
  apply Rabs_le_inv in G.
  (* sqrt t against sqrt q *)
  assert (T2 : q * ((1 - u) * (1 - u)) <= t <= q * ((1 + u) * (1 + u))). { rewrite Q3. nra. }
  assert (K1 : sqrt q * (1 - u) <= sqrt t).
  { rewrite <- (sqrt_square (1 - u)) by lra. rewrite <- sqrt_mult_alt by lra. apply sqrt_le_1_alt. apply T2. }
  assert (K2 : sqrt t <= sqrt q * (1 + u)).
  { rewrite <- (sqrt_square (1 + u)) by lra. rewrite <- sqrt_mult_alt by lra. apply sqrt_le_1_alt. apply T2. }
  pose proof (sqrt_pos q) as SQ.
  replace (bp (-51)) with (4 * u). 2: { unfold u. change 4 with (bp 2). rewrite <- bpow_plus. reflexivity. }
  clear - G K1 K2 SQ U. set (T := sqrt t) in *. set (Q := sqrt q) in *. clearbody T Q. set (r' := B2R r) in *. clearbody r'.
  assert (A : 0 <= u * Q <= u * Q) by nra. set (d := u * Q) in *.
  assert (T3 : Q - d <= T <= Q + d) by (unfold d; lra).
  assert (UT : u * T <= d + / 1000 * d).
  { apply Rle_trans with (u * (Q + d)). apply Rmult_le_compat_l; lra.
    rewrite Rmult_plus_distr_l. fold d. apply Rplus_le_compat_l, Rmult_le_compat_r; lra. }
  apply Rabs_le. rewrite Rmult_assoc in G. rewrite Rmult_assoc. fold d. lra.
Qed.
