(** abs of a complex number outside the range where its squares are exact to a relative error. *)
From Coq Require Import ZArith Reals Lia Lra Psatz Bool Floats.SpecFloat.
From Flocq Require Import Core Relative BinarySingleNaN.
From Verif Require Import Base.Field Model.ScalarMath Spec.Doubles Proof.ScalarMath Proof.SqrtReal Proof.SqrtDouble.
Local Open Scope R_scope.

Local Notation fe := (FLT_exp (-1074) 53).
Local Notation F := (generic_format radix2 fe).
Local Notation RN := (round radix2 fe ZnearestE).
Local Notation bp := (bpow radix2).
Local Notation B64 := (binary_float 53 1024).
Local Existing Instance prec53.
Local Existing Instance emax1024.

(** ** squares that overflow *)
Lemma sqr_cases (a : B64) : is_finite a = true ->
  (is_finite (Bmult mode_NE a a) = true /\ B2R (Bmult mode_NE a a) = RN (B2R a * B2R a)) \/
  Bmult mode_NE a a = B754_infinity false.
Proof.
  intros Fa. generalize (Bmult_correct 53 1024 _ _ mode_NE a a).
  change (round radix2 (SpecFloat.fexp 53 1024) (round_mode mode_NE) (B2R a * B2R a)) with (RN (B2R a * B2R a)).
  destruct (Rlt_bool _ _).
  - intros (E & G & _). rewrite Fa in G. left. split; [exact G | exact E].
  - rewrite xorb_nilpotent. intros E. right. destruct (Bmult mode_NE a a); cbn in E; try discriminate E. now injection E as ->.
Qed.
Lemma sqr_inf (a : B64) : is_finite a = true -> bp 512 <= Rabs (B2R a) -> Bmult mode_NE a a = B754_infinity false.
Proof.
  intros Fa H. destruct (sqr_cases a Fa) as [[G E] | E]; [exfalso | exact E].
  assert (L : B2R (Bmult mode_NE a a) < bp 1024).
  { apply Rle_lt_trans with (2 := abs_B2R_lt_emax 53 1024 (Bmult mode_NE a a)), Rle_abs. }
  apply Rlt_not_le in L. apply L. rewrite E. apply RN_ge; [apply F_bp; lia |].
  replace (B2R a * B2R a) with (Rabs (B2R a) * Rabs (B2R a)) by (rewrite <- Rabs_mult, Rabs_pos_eq; auto; nra).
  change 1024%Z with (512 + 512)%Z. rewrite bpow_plus. apply Rmult_le_compat; auto; apply bpow_ge_0.
Qed.
Lemma sum_inf (a b : B64) : is_finite a = true -> is_finite b = true -> bp 512 <= Rabs (B2R a) ->
  b64_add (b64_mul (B2SF a) (B2SF a)) (b64_mul (B2SF b) (B2SF b)) = S754_infinity false /\
  b64_add (b64_mul (B2SF b) (B2SF b)) (b64_mul (B2SF a) (B2SF a)) = S754_infinity false.
Proof.
  intros Fa Fb H. rewrite !mul_eq, !add_eq, (sqr_inf a Fa H).
  destruct (sqr_cases b Fb) as [[G _] | ->]; [| split; reflexivity].
  destruct (Bmult mode_NE b b); cbn in G; try discriminate G; split; reflexivity.
Qed.
Lemma abs_overflow fuel re im : finite_double re -> finite_double im -> bp 512 <= Rabs (real re) \/ bp 512 <= Rabs (real im) ->
  abs_complex fuel re im = OutOfFuel.
Proof.
  intros Hr Hi H.
  destruct (B2R_real re Hr) as (R & FR & ER). destruct (real_B2R R FR) as [_ VR]. rewrite ER in VR.
  destruct (B2R_real im Hi) as (I & FI & EI). destruct (real_B2R I FI) as [_ VI]. rewrite EI in VI.
  rewrite VR, VI in H. unfold abs_complex. rewrite <- ER, <- EI.
  destruct H as [H | H]; [rewrite (proj1 (sum_inf R I FR FI H)) | rewrite (proj2 (sum_inf I R FI FR H))]; apply sqrt_inf.
Qed.

(** ** squares that underflow *)
Lemma RN_tiny y : 0 <= y < bp (-1075) -> RN y = 0.
Proof.
  intros [A B]. destruct (Req_dec y 0) as [-> | N]; [apply round_0; auto with typeclass_instances |].
  assert (P := mag_le_bpow radix2 y (-1075) N ltac:(rewrite Rabs_pos_eq; auto)).
  apply (round_N_small radix2 fe _ y (mag radix2 y)).
  - destruct (mag radix2 y) as (e & E). exact (E N).
  - unfold FLT_exp. lia.
Qed.
Lemma sqr_tiny v : Rabs v <= bp (-538) -> 0 <= v * v < bp (-1075).
Proof.
  intros H. split; [nra |]. apply Rle_lt_trans with (bp (-1076)); [| apply bpow_lt; lia].
  replace (v * v) with (Rabs v * Rabs v) by (rewrite <- Rabs_mult, Rabs_pos_eq; auto; nra).
  change (-1076)%Z with (-538 + -538)%Z. rewrite bpow_plus. apply Rmult_le_compat; auto; apply Rabs_pos.
Qed.
Lemma B2R_zero (a : B64) : is_finite a = true -> B2R a = 0 -> exists s, B2SF a = S754_zero s.
Proof.
  destruct a as [s | s | | s m e B]; cbn [is_finite]; try discriminate; intros _ H; [now exists s |]. exfalso.
  apply eq_0_F2R in H. destruct s; discriminate H.
Qed.
Lemma abs_underflow fuel re im : finite_double re -> finite_double im -> Rabs (real re) <= bp (-538) -> Rabs (real im) <= bp (-538) ->
  abs_complex fuel re im = OutOfFuel.
Proof.
  intros Hr Hi Br Bi.
  destruct (B2R_real re Hr) as (R & FR & ER). destruct (real_B2R R FR) as [_ VR]. rewrite ER in VR.
  destruct (B2R_real im Hi) as (I & FI & EI). destruct (real_B2R I FI) as [_ VI]. rewrite EI in VI.
  rewrite VR in Br. rewrite VI in Bi. apply sqr_tiny in Br. apply sqr_tiny in Bi. apply RN_tiny in Br. apply RN_tiny in Bi.
  pose proof (bpow_gt_0 radix2 1024).
  destruct (mul_ok R R FR FR) as [M1 M2]. { rewrite Br, Rabs_R0. assumption. }
  destruct (mul_ok I I FI FI) as [N1 N2]. { rewrite Bi, Rabs_R0. assumption. }
  rewrite Br in M1. rewrite Bi in N1.
  assert (Z : RN (B2R (Bmult mode_NE R R) + B2R (Bmult mode_NE I I)) = 0).
  { rewrite M1, N1, Rplus_0_l. apply round_0; auto with typeclass_instances. }
  destruct (plus_ok _ _ M2 N2) as [P1 P2]. { rewrite Z, Rabs_R0. assumption. }
  rewrite Z in P1. destruct (B2R_zero _ P2 P1) as [s E].
  unfold abs_complex. rewrite <- ER, <- EI, !mul_eq, add_eq, E. apply sqrt_zero.
Qed.

(** ** in between it returns, with an absolute error where a square loses digits *)
Lemma RN_err y : exists e d, Rabs e <= u /\ Rabs d <= bp (-1075) /\ RN y = y * (1 + e) + d.
Proof.
  destruct (error_N_FLT radix2 (-1074) 53 eq_refl (fun x => negb (Z.even x)) y) as (e & d & A & B & _ & E).
  exists e, d. split; [| split; auto].
  - apply Rle_trans with (1 := A). unfold u. rewrite bpow_plus. change (bp 1) with 2. change (- (53))%Z with (-53)%Z. lra.
  - apply Rle_trans with (1 := B). replace (bp (-1074)) with (2 * bp (-1075)); [lra |].
    change 2 with (bp 1). rewrite <- bpow_plus. reflexivity.
Qed.
Lemma abs_core re im (R I : B64) : is_finite R = true -> is_finite I = true -> B2SF R = re -> B2SF I = im ->
  real re = B2R R -> real im = B2R I ->
  is_finite (Bmult mode_NE R R) = true -> B2R (Bmult mode_NE R R) = RN (B2R R * B2R R) ->
  is_finite (Bmult mode_NE I I) = true -> B2R (Bmult mode_NE I I) = RN (B2R I * B2R I) ->
  is_finite (Bplus mode_NE (Bmult mode_NE R R) (Bmult mode_NE I I)) = true ->
  B2R (Bplus mode_NE (Bmult mode_NE R R) (Bmult mode_NE I I)) = RN (RN (B2R R * B2R R) + RN (B2R I * B2R I)) ->
  RN (RN (B2R R * B2R R) + RN (B2R I * B2R I)) <> 0 ->
  exists n r, (forall fuel, (n <= fuel)%nat -> abs_complex fuel re im = Value r) /\ finite_double r /\
  Rabs (real r - sqrt (real re * real re + real im * real im)) <=
    bp (-50) * sqrt (real re * real re + real im * real im) + bp (-535).
Proof.
  intros FR FI ER EI VR VI M2 M1 N2 N1 P2 P1 NZ. rewrite VR, VI in *. set (x := B2R R) in *. set (y := B2R I) in *.
  assert (G0 : forall v, 0 <= v -> 0 <= RN v) by (intros v H; apply RN_ge; [apply generic_format_0 | exact H]).
  assert (SQ : forall v, 0 <= v * v) by (intros v; nra).
  assert (X0 := SQ x). assert (Y0 := SQ y). assert (RX0 := G0 _ X0). assert (RY0 := G0 _ Y0).
  set (s := RN (x * x) + RN (y * y)) in *. assert (Sp : 0 <= s) by (unfold s; lra).
  assert (T0 : bp (-1074) <= RN s).
  { pose proof (G0 s Sp) as G1. assert (F0 : F (RN s)) by (apply generic_format_round; auto with typeclass_instances).
    apply Rnot_lt_le. intros L. apply NZ.
    assert (Z : RN (RN s) = 0).
    { destruct (Req_dec (RN s) 0) as [-> | N]; [apply round_0; auto with typeclass_instances |].
      exfalso. assert (Q := generic_format_ge_bpow radix2 fe (-1074)). specialize (Q ltac:(intros e; unfold FLT_exp; lia) (RN s) ltac:(lra) F0). lra. }
    rewrite round_generic in Z; auto with typeclass_instances. }
  assert (b0 := bpow_gt_0 radix2 (-1074)).
  destruct (sqrt_ends _ P2) as (n & r & H & Fr & C). { rewrite P1. lra. }
  rewrite P1 in C. destruct (real_B2R r Fr) as [D V].
  exists n, (B2SF r). split; [| split]; auto.
  { intros fuel Hf. unfold abs_complex. rewrite <- ER, <- EI, !mul_eq, add_eq. auto. }
  rewrite V. set (t := RN s) in *.
  assert (RT : bp (-537) <= sqrt t).
  { rewrite <- (sqrt_square (bp (-537))) by apply bpow_ge_0. apply sqrt_le_1_alt. rewrite <- bpow_plus. exact T0. }
  assert (G : Rabs (B2R r - sqrt t) <= 2 * u * sqrt t).
  { assert (W : bp (-1022) <= Rabs (sqrt t)).
    { rewrite Rabs_pos_eq by apply sqrt_pos. apply Rle_trans with (2 := RT), bpow_le; lia. }
    assert (W2 : 2 * u = bp (-53 + 1)). { unfold u. rewrite bpow_plus. change (bp 1) with 2. ring. }
    rewrite W2. replace (sqrt t) with (Rabs (sqrt t)) at 2 by (rewrite Rabs_pos_eq; auto; apply sqrt_pos).
    destruct C as [-> | ->]; apply Rlt_le; apply (relative_error_FLT radix2 (-1074) 53 prec53); auto with typeclass_instances. }
  apply Rabs_le_inv in G.
  set (q := x * x + y * y).
  destruct (RN_err (x * x)) as (e1 & d1 & E1 & D1 & Q1). destruct (RN_err (y * y)) as (e2 & d2 & E2 & D2 & Q2).
  destruct (RN_err s) as (e3 & d3 & E3 & D3 & Q3).
  apply Rabs_le_inv in E1. apply Rabs_le_inv in E2. apply Rabs_le_inv in E3.
  apply Rabs_le_inv in D1. apply Rabs_le_inv in D2. apply Rabs_le_inv in D3.
  pose proof u_small as U. set (w := bp (-537)) in *. assert (W0 : 0 < w) by apply bpow_gt_0.
  assert (WW : 2 * bp (-1075) = w * w).
  { unfold w. rewrite <- bpow_plus. change 2 with (bp 1). rewrite <- bpow_plus. reflexivity. }
  set (h := bp (-1075)) in *. assert (H0 : 0 < h) by apply bpow_gt_0.
  (* t against q *)
  assert (S1 : q * (1 - u) - 2 * h <= s <= q * (1 + u) + 2 * h). { unfold s, q. rewrite Q1, Q2. nra. }
  assert (T2 : s * (1 - u) - h <= t <= s * (1 + u) + h). { unfold t. rewrite Q3. nra. }
  assert (T3 : q * (1 - 2 * u) - 4 * h <= t <= q * (1 + 3 * u) + 4 * h). { nra. }
  replace (bp (-50)) with (8 * u). 2: { unfold u. change 8 with (bp 3). rewrite <- bpow_plus. reflexivity. }
  replace (bp (-535)) with (4 * w). 2: { unfold w. change 4 with (bp 2). rewrite <- bpow_plus. reflexivity. }
  assert (q0 : 0 <= q) by (unfold q; lra). assert (t0 : 0 <= t) by lra.
  pose proof (sqrt_sqrt q q0) as QS. pose proof (sqrt_sqrt t t0) as TS.
  pose proof (sqrt_pos q) as Q0. pose proof (sqrt_pos t) as TT0.
  set (Q := sqrt q) in *. set (T := sqrt t) in *.
  assert (KU : T <= Q * (1 + 2 * u) + 2 * w).
  { apply Rnot_lt_le. intros L. assert (Q * (1 + 2 * u) + 2 * w < T) by exact L.
    assert ((Q * (1 + 2 * u) + 2 * w) * (Q * (1 + 2 * u) + 2 * w) < T * T) by (apply Rmult_gt_0_lt_compat; nra). nra. }
  assert (KL : Q * (1 - 2 * u) - 2 * w <= T).
  { apply Rnot_lt_le. intros L.
    assert (T * T < (Q * (1 - 2 * u) - 2 * w) * (Q * (1 - 2 * u) - 2 * w)) by (apply Rmult_le_0_lt_compat; nra).
    set (Y := Q * (1 - 2 * u)) in *. assert (YY : w * (2 * w) <= w * Y) by (apply Rmult_le_compat_l; lra).
    assert (V2 : Y * Y <= q * (1 - 2 * u)).
    { unfold Y. rewrite <- QS. replace (Q * (1 - 2 * u) * (Q * (1 - 2 * u))) with (Q * Q * (1 - 2 * u) * (1 - 2 * u)) by ring.
      rewrite <- (Rmult_1_r (Q * Q * (1 - 2 * u))) at 2. apply Rmult_le_compat_l; nra. }
    lra. }
  clear - G KU KL U W0 Q0 TT0. set (r' := B2R r) in *. clearbody r' Q T w.
  assert (UQ : 0 <= u * Q) by nra. assert (UW : 0 <= u * w <= / 1000 * w) by nra.
  assert (UT : u * T <= u * Q * (1 + 2 * u) + 2 * (u * w)). { replace (u * Q * (1 + 2 * u) + 2 * (u * w)) with (u * (Q * (1 + 2 * u) + 2 * w)) by ring. apply Rmult_le_compat_l; lra. }
  assert (UU : u * Q * (1 + 2 * u) <= u * Q * 1.01). { apply Rmult_le_compat_l; lra. }
  apply Rabs_le. rewrite Rmult_assoc in G. split; lra.
Qed.
Lemma abs_complex_returns re im : finite_double re -> finite_double im ->
  Rabs (real re) <= bp 511 -> Rabs (real im) <= bp 511 -> bp (-537) <= Rabs (real re) \/ bp (-537) <= Rabs (real im) ->
  exists n r, (forall fuel, (n <= fuel)%nat -> abs_complex fuel re im = Value r) /\ finite_double r /\
  Rabs (real r - sqrt (real re * real re + real im * real im)) <=
    bp (-50) * sqrt (real re * real re + real im * real im) + bp (-535).
Proof.
  intros Hr Hi Ur Ui Lo.
  destruct (B2R_real re Hr) as (R & FR & ER). destruct (real_B2R R FR) as [_ VR]. rewrite ER in VR.
  destruct (B2R_real im Hi) as (I & FI & EI). destruct (real_B2R I FI) as [_ VI]. rewrite EI in VI.
  rewrite VR, VI in *. set (x := B2R R) in *. set (y := B2R I) in *.
  assert (SQ : forall v, 0 <= v * v) by (intros v; nra).
  assert (UP : forall v, Rabs v <= bp 511 -> v * v <= bp 1022).
  { intros v H. replace (v * v) with (Rabs v * Rabs v) by (rewrite <- Rabs_mult, Rabs_pos_eq; auto).
    change 1022%Z with (511 + 511)%Z. rewrite bpow_plus. apply Rmult_le_compat; auto; apply Rabs_pos. }
  assert (LO : forall v, bp (-537) <= Rabs v -> bp (-1074) <= v * v).
  { intros v H. replace (v * v) with (Rabs v * Rabs v) by (rewrite <- Rabs_mult, Rabs_pos_eq; auto).
    change (-1074)%Z with (-537 + -537)%Z. rewrite bpow_plus. apply Rmult_le_compat; auto; apply bpow_ge_0. }
  assert (X2 := UP x Ur). assert (Y2 := UP y Ui). assert (X0 := SQ x). assert (Y0 := SQ y).
  assert (B22 : bp 1023 = 2 * bp 1022) by (change 2 with (bp 1); rewrite <- bpow_plus; reflexivity).
  assert (B23 : bp 1024 = 2 * bp 1023) by (change 2 with (bp 1); rewrite <- bpow_plus; reflexivity).
  pose proof (bpow_gt_0 radix2 1022) as B0.
  assert (G0 : forall v, 0 <= v -> 0 <= RN v) by (intros v H; apply RN_ge; [apply generic_format_0 | exact H]).
  assert (G1 : forall v, v <= bp 1022 -> RN v <= bp 1022) by (intros v H; apply RN_le; [apply F_bp; lia | exact H]).
  assert (G2 : forall v, bp (-1074) <= v -> bp (-1074) <= RN v) by (intros v H; apply RN_ge; [apply F_bp; lia | exact H]).
  assert (RX0 := G0 _ X0). assert (RY0 := G0 _ Y0). assert (RX1 := G1 _ X2). assert (RY1 := G1 _ Y2).
  destruct (mul_ok R R FR FR) as [M1 M2]. { fold x. rewrite Rabs_pos_eq; lra. }
  destruct (mul_ok I I FI FI) as [N1 N2]. { fold y. rewrite Rabs_pos_eq; lra. }
  fold x in M1. fold y in N1.
  set (s := RN (x * x) + RN (y * y)) in *.
  assert (S0 : bp (-1074) <= s).
  { unfold s. destruct Lo as [L | L]; apply LO, G2 in L; lra. }
  assert (T0 := G2 s S0).
  assert (T1 : RN s <= bp 1023). { apply RN_le; [apply F_bp; lia |]. unfold s. lra. }
  assert (b0 := bpow_gt_0 radix2 (-1074)).
  destruct (plus_ok _ _ M2 N2) as [P1 P2]. { rewrite M1, N1. fold s. rewrite Rabs_pos_eq; lra. }
  rewrite M1, N1 in P1. fold s in P1.
  rewrite <- VR, <- VI. apply (abs_core re im R I); auto. fold x y s. lra.
Qed.
(** every pair of finite doubles *)
Lemma abs_decides re im : finite_double re -> finite_double im ->
  (exists n r, (forall fuel, (n <= fuel)%nat -> abs_complex fuel re im = Value r) /\ finite_double r /\
    Rabs (real r - sqrt (real re * real re + real im * real im)) <=
      bp (-50) * sqrt (real re * real re + real im * real im) + bp (-535)) \/
  (forall fuel, abs_complex fuel re im = OutOfFuel).
Proof.
  intros Hr Hi.
  destruct (B2R_real re Hr) as (R & FR & ER). destruct (real_B2R R FR) as [_ VR]. rewrite ER in VR.
  destruct (B2R_real im Hi) as (I & FI & EI). destruct (real_B2R I FI) as [_ VI]. rewrite EI in VI.
  assert (NEVER : b64_add (b64_mul re re) (b64_mul im im) = S754_infinity false -> forall fuel, abs_complex fuel re im = OutOfFuel).
  { intros E fuel. unfold abs_complex. rewrite E. apply sqrt_inf. }
  rewrite <- ER, <- EI, !mul_eq, add_eq, ER, EI in NEVER.
  destruct (sqr_cases R FR) as [[M2 M1] | ME].
  2:{ right. apply NEVER. rewrite ME. destruct (sqr_cases I FI) as [[G _] | ->]; [| reflexivity].
      destruct (Bmult mode_NE I I); cbn in G; try discriminate G; reflexivity. }
  destruct (sqr_cases I FI) as [[N2 N1] | NE].
  2:{ right. apply NEVER. rewrite NE. destruct (Bmult mode_NE R R); cbn in M2; try discriminate M2; reflexivity. }
  assert (G0 : forall v, 0 <= v -> 0 <= RN v) by (intros v H; apply RN_ge; [apply generic_format_0 | exact H]).
  assert (SQ : forall v, 0 <= v * v) by (intros v; nra).
  assert (P0 : 0 <= B2R (Bmult mode_NE R R)) by (rewrite M1; auto). assert (Q0 : 0 <= B2R (Bmult mode_NE I I)) by (rewrite N1; auto).
  generalize (Bplus_correct 53 1024 _ _ mode_NE _ _ M2 N2).
  change (round radix2 (SpecFloat.fexp 53 1024) (round_mode mode_NE) (B2R (Bmult mode_NE R R) + B2R (Bmult mode_NE I I)))
    with (RN (B2R (Bmult mode_NE R R) + B2R (Bmult mode_NE I I))).
  destruct (Rlt_bool_spec (Rabs (RN (B2R (Bmult mode_NE R R) + B2R (Bmult mode_NE I I)))) (bp 1024)) as [L | L].
  - intros (P1 & P2 & _). destruct (Req_dec (RN (RN (B2R R * B2R R) + RN (B2R I * B2R I))) 0) as [Z | NZ].
    + right. intros fuel. rewrite M1, N1, Z in P1. destruct (B2R_zero _ P2 P1) as [s E].
      unfold abs_complex. rewrite <- ER, <- EI, !mul_eq, add_eq, E. apply sqrt_zero.
    + left. rewrite M1, N1 in P1. apply (abs_core re im R I); auto.
  - intros (P1 & _). right. apply NEVER. rewrite P1.
    assert (S : Bsign (Bmult mode_NE R R) = false).
    { generalize (Bmult_correct 53 1024 _ _ mode_NE R R). destruct (Rlt_bool _ _).
      - intros (_ & _ & S). rewrite S; [apply xorb_nilpotent |]. destruct (Bmult mode_NE R R); auto; discriminate M2.
      - intros E. rewrite xorb_nilpotent in E. destruct (Bmult mode_NE R R); cbn in E; try discriminate E; discriminate M2. }
    rewrite S. reflexivity.
Qed.
Lemma abs_total re im : finite_double re -> finite_double im ->
  (exists n r, (forall fuel, (n <= fuel)%nat -> abs_complex fuel re im = Value r) /\ finite_double r /\
    Rabs (real r - sqrt (real re * real re + real im * real im)) <=
      bp (-50) * sqrt (real re * real re + real im * real im) + bp (-535)) \/
  ((forall fuel, abs_complex fuel re im = OutOfFuel) /\
   (bp 511 < Rabs (real re) \/ bp 511 < Rabs (real im) \/ (Rabs (real re) < bp (-537) /\ Rabs (real im) < bp (-537)))).
Proof.
  intros Hr Hi.
  destruct (Rle_lt_dec (Rabs (real re)) (bp 511)) as [A | A]; [| destruct (abs_decides re im Hr Hi) as [K | K]; [now left | right; split; [exact K | tauto]]].
  destruct (Rle_lt_dec (Rabs (real im)) (bp 511)) as [B | B]; [| destruct (abs_decides re im Hr Hi) as [K | K]; [now left | right; split; [exact K | tauto]]].
  destruct (Rle_lt_dec (bp (-537)) (Rabs (real re))) as [C | C]; [left; apply abs_complex_returns; auto |].
  destruct (Rle_lt_dec (bp (-537)) (Rabs (real im))) as [D | D]; [left; apply abs_complex_returns; auto |].
  destruct (abs_decides re im Hr Hi) as [K | K]; [now left | right; split; [exact K | tauto]].
Qed.

(** ** more fuel does not change a value *)
Lemma sqrt_loop_more x r : forall n m p e, (n <= m)%nat -> sqrt_loop n x p e = Value r -> sqrt_loop m x p e = Value r.
Proof.
  induction n as [|n IH]; intros m p e L; cbn [sqrt_loop].
  - destruct (SFeqb p e) eqn:E; [| discriminate]. intros H. destruct m; cbn [sqrt_loop]; now rewrite E.
  - destruct m as [|m]; [lia |]. cbn [sqrt_loop]. destruct (SFeqb p e); auto. intros H. apply IH; [lia | exact H].
Qed.
Lemma abs_complex_more n m re im r : (n <= m)%nat -> abs_complex n re im = Value r -> abs_complex m re im = Value r.
Proof.
  unfold abs_complex, sqrt_double. destruct (SFltb _ _); [discriminate |]. apply sqrt_loop_more.
Qed.
