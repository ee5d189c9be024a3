(** exponentiate(double, int) up to rounding. *)
From Coq Require Import ZArith Reals Lia Lra Psatz Floats.SpecFloat.
From Flocq Require Import Core Relative BinarySingleNaN.
From Verif Require Import Base.Field Model.ScalarMath Spec.Doubles Proof.SqrtReal Proof.SqrtDouble.
Local Open Scope R_scope.

Local Notation fe := (FLT_exp (-1074) 53).
Local Notation F := (generic_format radix2 fe).
Local Notation RN := (round radix2 fe ZnearestE).
Local Notation bp := (bpow radix2).
Local Notation B64 := (binary_float 53 1024).
Local Existing Instance prec53.
Local Existing Instance emax1024.

(** ** Products of rounding errors *)
Lemma u_val : IZR (2 ^ 53) * u = 1.
Proof. unfold u. change (IZR (2 ^ 53)) with (bp 53). rewrite <- bpow_plus. reflexivity. Qed.
Lemma pow_lo j : 1 - INR j * u <= (1 - u) ^ j.
Proof.
  pose proof u_small. induction j as [| j IH]; [simpl; lra |]. rewrite S_INR. simpl pow.
  assert (0 <= INR j) by apply pos_INR. assert (0 <= INR j * u) by nra.
  destruct (Rle_lt_dec (1 - INR j * u) 0) as [N | P].
  - apply Rle_trans with 0; [nra |]. apply Rmult_le_pos; [lra |]. apply pow_le. lra.
  - nra.
Qed.
Lemma pow_le1 a j : 0 <= a <= 1 -> a ^ j <= 1.
Proof. intros H. apply Rle_trans with (1 ^ j); [now apply pow_incr | rewrite pow1; lra]. Qed.
Lemma pow_prod j : (1 + u) ^ j * (1 - u) ^ j <= 1.
Proof.
  pose proof u_small. rewrite <- Rpow_mult_distr. replace ((1 + u) * (1 - u)) with (1 - u * u) by ring.
  apply pow_le1. assert (0 <= u * u <= 1) by nra. lra.
Qed.
Definition few (j : nat) : Prop := (Z.of_nat j <= 2 ^ 34)%Z.
Lemma few_u j : few j -> 0 <= INR j * u <= / 1000.
Proof.
  intros H. pose proof u_small as U. pose proof u_val as V. assert (0 <= INR j) by apply pos_INR. split; [nra |].
  apply Rle_trans with (IZR (2 ^ 34) * u).
  - apply Rmult_le_compat_r; [lra |]. rewrite INR_IZR_INZ. now apply IZR_le.
  - apply Rmult_le_reg_l with 1000; [lra |]. rewrite <- Rmult_assoc. rewrite <- mult_IZR.
    apply Rle_trans with (IZR (2 ^ 53) * u); [|lra]. apply Rmult_le_compat_r; [lra |]. apply IZR_le. now vm_compute.
Qed.
Lemma pow_hi j : few j -> (1 + u) ^ j <= 1 + 2 * (INR j * u).
Proof.
  intros H. pose proof (few_u j H). pose proof (pow_lo j). pose proof (pow_prod j). pose proof u_small.
  assert (0 < (1 + u) ^ j) by (apply pow_lt; lra).
  assert (Q : (1 + u) ^ j * (1 - INR j * u) <= 1). { apply Rle_trans with (2 := H2). apply Rmult_le_compat_l; lra. }
  nra.
Qed.

Definition near (j : nat) (a w : R) : Prop := exists e, a = w * e /\ (1 - u) ^ j <= e <= (1 + u) ^ j.
Lemma near_0 a : near 0 a a.
Proof. exists 1. simpl. lra. Qed.
Lemma near_range j a w : few j -> near j a w -> / 2 * Rabs w <= Rabs a <= 2 * Rabs w.
Proof.
  intros H (e & -> & E). pose proof (few_u j H). pose proof (pow_lo j). pose proof (pow_hi j H). rewrite Rabs_mult.
  assert (0 <= Rabs w) by apply Rabs_pos. rewrite (Rabs_pos_eq e) by lra. nra.
Qed.
Lemma near_prod j k a b w z : near j a w -> near k b z -> near (j + k) (a * b) (w * z).
Proof.
  intros (e & -> & E) (f & -> & G). exists (e * f). split; [ring |]. pose proof u_small. rewrite !pow_add.
  assert (0 <= (1 - u) ^ j) by (apply pow_le; lra). assert (0 <= (1 - u) ^ k) by (apply pow_le; lra).
  split; apply Rmult_le_compat; lra.
Qed.
Lemma RN_rel_abs y : bp (-1022) <= Rabs y -> exists e, 1 - u <= e <= 1 + u /\ RN y = y * e.
Proof.
  intros H. destruct (relative_error_N_FLT_ex radix2 (-1074) 53 prec53 (fun x => negb (Z.even x)) y H) as (e & B & E).
  exists (1 + e). split; auto.
  assert (Q : / 2 * bp (-53 + 1) = u). { unfold u. rewrite bpow_plus. change (bp 1) with 2. lra. }
  change (- (53) + 1)%Z with (-53 + 1)%Z in B. rewrite Q in B. apply Rabs_le_inv in B. lra.
Qed.
Lemma near_round j a w : near j a w -> bp (-1022) <= Rabs a -> near (S j) (RN a) w.
Proof.
  intros (e & -> & E) H. destruct (RN_rel_abs _ H) as (f & G & ->). exists (e * f). split; [ring |].
  pose proof u_small. assert (0 <= (1 - u) ^ j) by (apply pow_le; lra). simpl pow. rewrite (Rmult_comm (1 - u)), (Rmult_comm (1 + u)).
  split; apply Rmult_le_compat; lra.
Qed.
Lemma near_bound j a w : few j -> near j a w -> Rabs (a - w) <= 2 * (INR j * u) * Rabs w.
Proof.
  intros H (e & -> & E). pose proof (few_u j H). pose proof (pow_lo j). pose proof (pow_hi j H).
  replace (w * e - w) with ((e - 1) * w) by ring. rewrite Rabs_mult. apply Rmult_le_compat_r; [apply Rabs_pos |].
  apply Rabs_le. lra.
Qed.
Lemma bp_half k : bp (k - 1) = / 2 * bp k.
Proof. unfold Zminus. rewrite bpow_plus. change (bp (- (1))) with (/ 2). ring. Qed.
Definition medium (w : R) : Prop := bp (-1021) <= Rabs w <= bp 1021.
Lemma near_normal j a w : few j -> near j a w -> medium w -> bp (-1022) <= Rabs a /\ Rabs a <= bp 1022.
Proof.
  intros H N M. destruct (near_range j a w H N) as [A B]. destruct M as [M1 M2]. split.
  - apply Rle_trans with (bp (-1021 - 1)); [apply bpow_le; lia |]. rewrite bp_half. lra.
  - change 1022%Z with (1 + 1021)%Z. rewrite bpow_plus. change (bp 1) with 2. lra.
Qed.
Lemma near_small j a w : few (S j) -> near j a w -> medium w -> near (S j) (RN a) w /\ Rabs (RN a) < bp 1024.
Proof.
  intros H N M. assert (H' : few j) by (unfold few in *; lia). destruct (near_normal j a w H' N M) as [A B].
  assert (R := near_round j a w N A). split; auto. destruct (near_normal (S j) _ w H R M) as [_ C].
  apply Rle_lt_trans with (1 := C). apply bpow_lt. lia.
Qed.
Lemma near_mul (a b : B64) j k w z : is_finite a = true -> is_finite b = true -> near j (B2R a) w -> near k (B2R b) z ->
  few (S (j + k)) -> medium (w * z) -> is_finite (Bmult mode_NE a b) = true /\ near (S (j + k)) (B2R (Bmult mode_NE a b)) (w * z).
Proof.
  intros Fa Fb A B H M. destruct (near_small _ _ _ H (near_prod j k _ _ w z A B) M) as [N L].
  destruct (mul_ok a b Fa Fb L) as [E Fm]. rewrite E. auto.
Qed.

(** ** The loop *)
Section Power.
  Variables (v : R) (total c : nat).
  Hypothesis Hc : (c <= 1)%nat.
  Hypothesis Ht : (Z.of_nat total < 2 ^ 31)%Z.
  Hypothesis Hv : medium (v ^ total).
  Lemma medium_pow m : (m <= total)%nat -> medium (v ^ m).
  Proof.
    clear Hc Ht. clear c. intros L. destruct Hv as [V1 V2]. rewrite <- RPow_abs in *. set (a := Rabs v) in *. assert (A : 0 <= a) by apply Rabs_pos.
    assert (B0 : bp (-1021) <= 1) by (apply (bpow_le radix2 (-1021) 0); lia).
    assert (B1 : 1 <= bp 1021) by (apply (bpow_le radix2 0 1021); lia).
    split; rewrite <- RPow_abs; fold a; destruct (Rle_lt_dec 1 a) as [G | G].
    - apply Rle_trans with 1; auto. now apply pow_R1_Rle.
    - apply Rle_trans with (1 := V1). replace total with (m + (total - m))%nat by lia. rewrite pow_add.
      rewrite <- (Rmult_1_r (a ^ m)) at 2. apply Rmult_le_compat_l; [now apply pow_le |].
      apply pow_le1. lra.
    - apply Rle_trans with (2 := V2). now apply Rle_pow.
    - apply Rle_trans with (2 := B1). apply pow_le1. lra.
  Qed.
  Lemma few_all j : (j <= 2 * total)%nat -> few j.
  Proof. unfold few. lia. Qed.
  Notation loop := (exp_loop spec_float b64_mul).
  Lemma loop_near : forall fuel (x y : B64) m k n, is_finite x = true -> is_finite y = true -> (1 <= m)%nat ->
    near (m * (c + 1) - 1) (B2R x) (v ^ m) -> near (k * (c + 1)) (B2R y) (v ^ k) ->
    (1 <= n < 2 ^ Z.of_nat (S fuel))%Z -> (Z.of_nat k + Z.of_nat m * n = Z.of_nat total)%Z ->
    exists (x' y' : B64) m' k', loop fuel (B2SF x) (B2SF y) n = (B2SF x', B2SF y') /\ is_finite x' = true /\ is_finite y' = true /\
      (1 <= m')%nat /\ (k' + m' = total)%nat /\ near (m' * (c + 1) - 1) (B2R x') (v ^ m') /\ near (k' * (c + 1)) (B2R y') (v ^ k').
  Proof.
    induction fuel as [| fuel IH]; intros x y m k n Fx Fy Hm Nx Ny Hn E; cbn [exp_loop].
    { exists x, y, m, k. replace n with 1%Z in E by (change (2 ^ Z.of_nat 1)%Z with 2%Z in Hn; lia). repeat split; auto; lia. }
    destruct (Z.ltb_spec 1 n) as [L | L].
    2:{ exists x, y, m, k. replace n with 1%Z in E by lia. repeat split; auto; lia. }
    assert (B2 : (2 * m <= total)%nat) by nia.
    destruct (near_mul x x (m * (c + 1) - 1) (m * (c + 1) - 1) (v ^ m) (v ^ m)) as [Fq Nq]; auto.
    { apply few_all. nia. } { rewrite <- pow_add. apply medium_pow. lia. }
    rewrite <- pow_add in Nq. replace (S (m * (c + 1) - 1 + (m * (c + 1) - 1))) with ((m + m) * (c + 1) - 1)%nat in Nq by nia.
    rewrite (Nat2Z.inj_succ (S fuel)), Z.pow_succ_r in Hn by lia.
    rewrite (mul_eq x x). pose proof (Z.div_mod n 2 ltac:(lia)) as D. pose proof (Z.mod_pos_bound n 2 ltac:(lia)) as D2.
    destruct (Z.eqb_spec (n mod 2) 0) as [P | P].
    - apply (IH (Bmult mode_NE x x) y (m + m)%nat k); auto; try lia; try nia.
    - assert (n mod 2 = 1)%Z by lia. assert ((n - 1) / 2 = n / 2)%Z by (symmetry; apply Z.div_unique with 0%Z; lia).
      rewrite H0, mul_eq.
      destruct (near_mul y x (k * (c + 1)) (m * (c + 1) - 1) (v ^ k) (v ^ m)) as [Fr Nr]; auto.
      { apply few_all. nia. } { rewrite <- pow_add. apply medium_pow. nia. }
      rewrite <- pow_add in Nr. replace (S (k * (c + 1) + (m * (c + 1) - 1))) with ((k + m) * (c + 1))%nat in Nr by nia.
      apply (IH (Bmult mode_NE x x) (Bmult mode_NE y x) (m + m)%nat (k + m)%nat); auto; try lia; try nia.
  Qed.
  Lemma power_near (x : B64) : (1 <= total)%nat -> is_finite x = true -> near c (B2R x) v -> exists r : B64,
    (let '(x, y) := loop 31 (B2SF x) b64_1 (Z.of_nat total) in b64_mul x y) = B2SF r /\ is_finite r = true /\
    near (total * (c + 1)) (B2R r) (v ^ total).
  Proof.
    intros T Fx Nx. destruct (loop_near 31 x one64 1 0 (Z.of_nat total)) as (x' & y' & m & k & E & Fx' & Fy' & Hm & Sm & Nx' & Ny'); auto.
    - rewrite pow_1. replace (1 * (c + 1) - 1)%nat with c by lia. exact Nx.
    - rewrite one_val. apply near_0.
    - change (2 ^ Z.of_nat 32)%Z with 4294967296%Z. lia.
    - lia.
    - rewrite one_sf in E. rewrite E.
      destruct (near_mul x' y' _ _ _ _ Fx' Fy' Nx' Ny') as [Fr Nr].
      + apply few_all. nia.
      + rewrite <- pow_add. apply medium_pow. lia.
      + exists (Bmult mode_NE x' y'). rewrite mul_eq. split; [reflexivity |]. split; auto.
        rewrite <- pow_add in Nr. replace (m + k)%nat with total in Nr by lia.
        replace (total * (c + 1))%nat with (S (m * (c + 1) - 1 + k * (c + 1)))%nat by nia. exact Nr.
  Qed.
End Power.

Lemma exp_double_near (x : B64) n : is_finite x = true -> (0 < Z.abs n < 2 ^ 31)%Z -> medium (B2R x ^ Z.abs_nat n) -> exists r : B64,
  exponentiate_double (B2SF x) n = Some (B2SF r) /\ is_finite r = true /\
  near (Z.abs_nat n * (if (0 <? n)%Z then 1 else 2)) (B2R r) (powerRZ (B2R x) n).
Proof.
  intros Fx Hn M. unfold exponentiate_double, exponentiate.
  destruct (Z.eqb_spec n 0); [lia |]. destruct (Z.eqb_spec n (- 2 ^ 31)); [lia |].
  destruct (Z.ltb_spec n 0) as [L | L].
  - (* negative *)
    replace (0 <? n)%Z with false by (symmetry; apply Z.ltb_ge; lia).
    set (t := Z.abs_nat n) in *.
    assert (X0 : B2R x <> 0). { intros E. rewrite E, pow_i in M by lia. destruct M as [M _]. rewrite Rabs_R0 in M. pose proof (bpow_gt_0 radix2 (-1021)). lra. }
    assert (Q : (/ B2R x) ^ t = powerRZ (B2R x) n).
    { unfold t. rewrite pow_inv. destruct n; try lia. reflexivity. }
    assert (M' : medium ((/ B2R x) ^ t)).
    { rewrite pow_inv. unfold medium in *. rewrite Rabs_inv. change (-1021)%Z with (- (1021))%Z. rewrite bpow_opp.
      replace (bp 1021) with (/ bp (-1021)). 2:{ change (-1021)%Z with (- (1021))%Z. rewrite bpow_opp. apply Rinv_inv. }
      assert (0 < bp (-1021)) by apply bpow_gt_0. replace (/ / bp (-1021)) with (bp (-1021)) by (now rewrite Rinv_inv).
      destruct M as [M1 M2]. split.
      - rewrite <- (Rinv_inv (bp (-1021))). apply Rinv_le; [lra |]. change (-1021)%Z with (- (1021))%Z. rewrite bpow_opp, Rinv_inv. exact M2.
      - apply Rinv_le; lra. }
    assert (Hd : medium (/ B2R x)). { rewrite <- (pow_1 (/ B2R x)). apply (medium_pow _ t); auto. lia. }
    assert (N1 : near 0 (B2R one64 / B2R x) (/ B2R x)). { rewrite one_val. unfold Rdiv. rewrite Rmult_1_l. apply near_0. }
    destruct (near_small _ _ _ (ltac:(unfold few; cbn; lia) : few 1) N1 Hd) as [N2 S2].
    destruct (div_ok one64 x eq_refl X0 S2) as [E2 F2]. rewrite <- E2 in N2.
    destruct (power_near (/ B2R x) t 1 ltac:(lia) ltac:(lia) M' (Bdiv mode_NE one64 x) ltac:(lia) F2 N2) as (r & E & Fr & Nr).
    exists r. rewrite <- one_sf, div_eq, one_sf. replace (- n)%Z with (Z.of_nat t) by lia.
    destruct (exp_loop _ _ _ _ _ _) as [x' y']. rewrite E. split; auto. split; auto. rewrite Q in Nr. exact Nr.
  - replace (0 <? n)%Z with true by (symmetry; apply Z.ltb_lt; lia).
    set (t := Z.abs_nat n) in *.
    destruct (power_near (B2R x) t 0 ltac:(lia) ltac:(lia) M x ltac:(lia) Fx (near_0 _)) as (r & E & Fr & Nr).
    exists r. replace n with (Z.of_nat t) by lia. destruct (exp_loop _ _ _ _ _ _) as [x' y']. rewrite E. split; auto. split; auto.
    rewrite <- pow_powerRZ. exact Nr.
Qed.

Lemma exp_double_bound x n : finite_double x -> (0 < Z.abs n < 2 ^ 31)%Z ->
  powerRZ 2 (-1021) <= Rabs (real x) ^ Z.abs_nat n <= powerRZ 2 1021 -> exists r,
  exponentiate_double x n = Some r /\ finite_double r /\
  Rabs (real r - powerRZ (real x) n) <= IZR (Z.abs n) * powerRZ 2 (-51) * Rabs (powerRZ (real x) n).
Proof.
  intros Hx Hn M. destruct (B2R_real x Hx) as (X & FX & EX). destruct (real_B2R X FX) as [_ VX]. rewrite EX in VX. rewrite VX in *.
  rewrite <- !(bpow_powerRZ radix2) in *. rewrite RPow_abs in M.
  destruct (exp_double_near X n FX Hn M) as (r & E & Fr & N). rewrite EX in E. destruct (real_B2R r Fr) as [D V].
  exists (B2SF r). split; auto. split; auto. rewrite V.
  assert (W : few (Z.abs_nat n * (if (0 <? n)%Z then 1 else 2))) by (unfold few; destruct (0 <? n)%Z; lia).
  eapply Rle_trans; [apply (near_bound _ _ _ W N) |].
  apply Rmult_le_compat_r; [apply Rabs_pos |].
  assert (B : bp (-51) = 4 * u). { unfold u. change 4 with (bp 2). rewrite <- bpow_plus. reflexivity. }
  rewrite B. rewrite INR_IZR_INZ. rewrite Nat2Z.inj_mul, mult_IZR, Zabs2Nat.id_abs. pose proof u_small.
  assert (0 <= IZR (Z.abs n)) by (apply IZR_le; lia). assert (0 <= IZR (Z.abs n) * u) by nra.
  destruct (0 <? n)%Z; simpl; lra.
Qed.

(** ** nthroot *)
Lemma sub_eq (a b : B64) : b64_sub (B2SF a) (B2SF b) = B2SF (Bminus mode_NE a b).
Proof.
  case a as [sx | sx | | sx mx ex Bx]; case b as [sy | sy | | sy my ey By]; unfold b64_sub;
    try solve [now (trivial || simpl; case sx; case sy)].
  cbn [B2SF SFsub Bminus]. rewrite normalize_eq. f_equal. f_equal. unfold Fplus_naive. now destruct sy.
Qed.
Lemma over_false (b : B64) s : B2SF b = binary_overflow 53 1024 mode_NE s -> is_finite b = true -> False.
Proof. destruct b; simpl; discriminate. Qed.
Lemma plus_val (a b : B64) : is_finite (Bplus mode_NE a b) = true ->
  is_finite a = true /\ is_finite b = true /\ B2R (Bplus mode_NE a b) = RN (B2R a + B2R b).
Proof.
  intros H. assert (Fa : is_finite a = true).
  { destruct a as [sx | sx | | sx mx ex Bx], b as [sy | sy | | sy my ey By]; auto; simpl in H; try discriminate. destruct (Bool.eqb sx sy); discriminate. }
  assert (Fb : is_finite b = true).
  { destruct a as [sx | sx | | sx mx ex Bx], b as [sy | sy | | sy my ey By]; auto; simpl in H; discriminate. }
  split; auto. split; auto. generalize (Bplus_correct 53 1024 _ _ mode_NE a b Fa Fb). destruct (Rlt_bool _ _).
  - intros [E _]. exact E.
  - intros [E _]. destruct (over_false _ _ E H).
Qed.
Lemma minus_val (a b : B64) : is_finite (Bminus mode_NE a b) = true ->
  is_finite a = true /\ is_finite b = true /\ B2R (Bminus mode_NE a b) = RN (B2R a - B2R b).
Proof.
  intros H. assert (Fa : is_finite a = true).
  { destruct a as [sx | sx | | sx mx ex Bx], b as [sy | sy | | sy my ey By]; auto; simpl in H; try discriminate. destruct (Bool.eqb sx (negb sy)); discriminate. }
  assert (Fb : is_finite b = true).
  { destruct a as [sx | sx | | sx mx ex Bx], b as [sy | sy | | sy my ey By]; auto; simpl in H; discriminate. }
  split; auto. split; auto. generalize (Bminus_correct 53 1024 _ _ mode_NE a b Fa Fb). destruct (Rlt_bool _ _).
  - intros [E _]. exact E.
  - intros [E _]. destruct (over_false _ _ E H).
Qed.
Lemma mul_val (a b : B64) : is_finite (Bmult mode_NE a b) = true ->
  is_finite a = true /\ is_finite b = true /\ B2R (Bmult mode_NE a b) = RN (B2R a * B2R b).
Proof.
  intros H. generalize (Bmult_correct 53 1024 _ _ mode_NE a b). destruct (Rlt_bool _ _).
  - intros (E & G & _). rewrite H in G. symmetry in G. apply andb_prop in G. tauto.
  - intros E. destruct (over_false _ _ E H).
Qed.
Lemma div_val (a b : B64) : B2R b <> 0 -> is_finite (Bdiv mode_NE a b) = true -> B2R (Bdiv mode_NE a b) = RN (B2R a / B2R b).
Proof.
  intros N H. generalize (Bdiv_correct 53 1024 _ _ mode_NE a b N). destruct (Rlt_bool _ _).
  - intros (E & _). exact E.
  - intros E. destruct (over_false _ _ E H).
Qed.
Lemma RN_inv y : Rabs (RN y - y) <= 1.01 * u * Rabs (RN y) + bp (-1070) /\ Rabs y <= (1 + 2 * u) * Rabs (RN y) + bp (-1070).
Proof.
  destruct (error_N_FLT radix2 (-1074) 53 ltac:(lia) (fun x => negb (Z.even x)) y) as (e & t & E & T & _ & Q).
  assert (U : / 2 * bp (- (53) + 1) = u). { unfold u. change (- (53) + 1)%Z with (-53 + 1)%Z. rewrite bpow_plus. change (bp 1) with 2. lra. }
  rewrite U in E. pose proof u_small. set (r := RN y) in *.
  assert (B : bp (-1070) = 16 * bp (-1074)). { change 16 with (bp 4). rewrite <- bpow_plus. reflexivity. }
  rewrite B. assert (0 < bp (-1074)) by apply bpow_gt_0. set (d := bp (-1074)) in *.
  assert (K : (1 - u) * Rabs y <= Rabs r + d).
  { replace (y * (1 + e)) with (y + y * e) in Q by ring.
    assert (A : y = r + - (y * e) + - t) by lra. pose proof (Rabs_triang (r + - (y * e)) (- t)) as T1. rewrite <- A in T1.
    pose proof (Rabs_triang r (- (y * e))) as T2. rewrite !Rabs_Ropp in *. rewrite Rabs_mult in T2.
    assert (Rabs y * Rabs e <= Rabs y * u) by (apply Rmult_le_compat_l; [apply Rabs_pos | auto]). lra. }
  assert (P : 0 <= Rabs r) by apply Rabs_pos. assert (P' : 0 <= Rabs y) by apply Rabs_pos.
  assert (K2 : Rabs y <= (1 + 2 * u) * (Rabs r + d)).
  { apply Rle_trans with ((1 + 2 * u) * (1 - u) * Rabs y).
    - assert (1 <= (1 + 2 * u) * (1 - u)) by nra. rewrite <- (Rmult_1_l (Rabs y)) at 1. now apply Rmult_le_compat_r.
    - rewrite Rmult_assoc. apply Rmult_le_compat_l; lra. }
  split.
  - replace (r - y) with (y * e + t) by lra. eapply Rle_trans; [apply Rabs_triang |]. rewrite Rabs_mult.
    assert (Rabs y * Rabs e <= Rabs y * u) by (apply Rmult_le_compat_l; auto).
    assert (Rabs y * u <= (1 + 2 * u) * (Rabs r + d) * u) by (apply Rmult_le_compat_r; lra).
    assert ((1 + 2 * u) * u <= 1.01 * u) by nra.
    assert ((1 + 2 * u) * u * (Rabs r + d) <= 1.01 * u * (Rabs r + d)) by (apply Rmult_le_compat_r; lra).
    assert (1.01 * u * d <= d) by nra. lra.
  - assert ((1 + 2 * u) * d <= 2 * d) by nra. lra.
Qed.
Lemma int_val n : (Z.abs n < 2 ^ 31)%Z -> exists b : B64, b64_of_int n = B2SF b /\ is_finite b = true /\ B2R b = IZR n.
Proof.
  intros H. exists (binary_normalize 53 1024 prec53 emax1024 mode_NE n 0 false). split; [apply normalize_eq |].
  assert (E : F2R (Float radix2 n 0) = IZR n) by (unfold F2R; simpl; ring).
  assert (R1 : RN (IZR n) = IZR n).
  { apply round_generic; [auto with typeclass_instances |]. apply generic_format_FLT. exists (Float radix2 n 0); cbn [Fnum Fexp]; auto; [| lia].
    change (radix2 ^ 53)%Z with (2 ^ 53)%Z. lia. }
  generalize (binary_normalize_correct 53 1024 prec53 emax1024 mode_NE n 0 false).
  cbv zeta. rewrite E. change (round radix2 (SpecFloat.fexp 53 1024) (round_mode mode_NE) (IZR n)) with (RN (IZR n)). rewrite R1.
  rewrite Rlt_bool_true; [tauto |]. rewrite <- abs_IZR. apply Rlt_trans with (IZR (2 ^ 31)); [now apply IZR_lt |].
  change (IZR (2 ^ 31)) with (bp 31). apply bpow_lt. lia.
Qed.
Definition nth_step (x : spec_float) (n : Z) (prev : spec_float) : option spec_float :=
  option_map (fun e => b64_add prev (b64_mul (b64_div b64_1 (b64_of_int n)) (b64_sub (b64_div x e) prev))) (exponentiate_double prev (n - 1)).
Lemma nth_fixed x n r : forall fuel prev est, SFeqb prev est = false \/ nth_step x n prev = Some est ->
  nthroot_loop fuel x n prev est = Value r -> exists p, SFeqb p r = true /\ nth_step x n p = Some r.
Proof.
  induction fuel as [| fuel IH]; intros prev est H; cbn [nthroot_loop].
  - destruct (SFeqb prev est) eqn:E; [| discriminate]. intros [= <-]. exists prev. destruct H; [discriminate | auto].
  - destruct (SFeqb prev est) eqn:E.
    + intros [= <-]. exists prev. destruct H; [discriminate | auto].
    + destruct (n =? - 2 ^ 31)%Z; [discriminate |]. destruct (exponentiate_double est (n - 1)) as [e |] eqn:X; [| discriminate].
      apply IH. right. unfold nth_step. rewrite X. reflexivity.
Qed.
Lemma SFeqb_pos p r : 0 < real r -> SFeqb p r = true -> p = r.
Proof.
  destruct r as [s | s | | s m e]; cbn [real]; try lra. destruct p as [s' | s' | | s' m' e']; try (destruct s; discriminate); try discriminate.
  - destruct s', s; discriminate.
  - intros _. unfold SFeqb, SFcompare. destruct s', s; try discriminate; destruct (Z.compare_spec e' e) as [-> | L | L]; try discriminate;
      change (Pos.compare_cont Eq m' m) with (Pos.compare m' m); destruct (Pos.compare_spec m' m) as [-> | K | K]; try discriminate; auto.
Qed.

(** the first power in the step *)
Lemma nth_power (r : B64) n : is_finite r = true -> (1 <= n < 2 ^ 31)%Z -> medium (B2R r ^ Z.to_nat (n - 1)) -> exists e : B64,
  exponentiate_double (B2SF r) (n - 1) = Some (B2SF e) /\ is_finite e = true /\ near (Z.to_nat (n - 1)) (B2R e) (B2R r ^ Z.to_nat (n - 1)).
Proof.
  intros Fr Hn M. destruct (Z.eq_dec n 1) as [-> | N].
  - exists one64. split; [reflexivity |]. split; [reflexivity |]. rewrite one_val. exact (near_0 1).
  - replace (Z.to_nat (n - 1)) with (Z.abs_nat (n - 1)) in * by lia.
    destruct (exp_double_near r (n - 1) Fr ltac:(lia) M) as (e & E & Fe & Ne). exists e. split; auto. split; auto.
    replace (0 <? n - 1)%Z with true in Ne by (symmetry; apply Z.ltb_lt; lia). rewrite Nat.mul_1_r in Ne.
    rewrite pow_powerRZ, Zabs2Nat.id_abs, Z.abs_eq by lia. exact Ne.
Qed.
(** the chain of roundings in one step that does not move *)
Lemma chain (N U T r d w D q y : R) : 0 < U <= / 1000 -> 1 <= N -> N * U <= / 1000 -> 0 < r -> 0 <= T <= U * r / 1000 ->
  Rabs d <= 1.01 * U * r + T -> Rabs (w * D) <= (1 + 2 * U) * Rabs d + T -> (1 - U) <= N * w ->
  Rabs (q - r) <= (1 + 2 * U) * Rabs D + T -> Rabs (q - y) <= 1.01 * U * Rabs q + T ->
  Rabs (y - r) <= (1.03 * N + 1.04) * (U * r).
Proof.
  intros HU HN HNU Hr HT H1 H2 Hw H3 H4.
  assert (Z1 : 0 < U * r) by (apply Rmult_lt_0_compat; lra). set (k := U * r) in *.
  assert (A1 : Rabs d <= 1.012 * k) by (unfold k in *; lra). clear H1.
  assert (P1 : 0 <= Rabs d) by apply Rabs_pos. assert (P2 : 0 <= Rabs D) by apply Rabs_pos. assert (P3 : 0 <= Rabs q) by apply Rabs_pos.
  assert (A2 : Rabs (w * D) <= 1.016 * k). { assert (2 * U * Rabs d <= 0.002 * Rabs d) by (apply Rmult_le_compat_r; lra). lra. }
  assert (W : 0 <= w) by nra.
  assert (A3 : Rabs D <= 1.018 * (N * k)).
  { rewrite Rabs_mult, (Rabs_pos_eq w) in A2 by auto.
    assert (B : (1 - U) * Rabs D <= N * w * Rabs D) by (apply Rmult_le_compat_r; auto).
    assert (C : N * (w * Rabs D) <= N * (1.016 * k)) by (apply Rmult_le_compat_l; lra).
    assert (E : U * Rabs D <= / 1000 * Rabs D) by (apply Rmult_le_compat_r; lra). lra. }
  assert (NK : k <= N * k). { rewrite <- (Rmult_1_l k) at 1. apply Rmult_le_compat_r; lra. }
  assert (A4 : Rabs (q - r) <= 1.022 * (N * k)).
  { assert (2 * U * Rabs D <= 0.002 * Rabs D) by (apply Rmult_le_compat_r; lra). lra. }
  assert (NR : N * k <= / 1000 * r). { unfold k. rewrite <- Rmult_assoc. apply Rmult_le_compat_r; lra. }
  assert (A5 : Rabs q <= 1.01 * r). { replace q with ((q - r) + r) by ring. eapply Rle_trans; [apply Rabs_triang |]. rewrite (Rabs_pos_eq r) by lra. lra. }
  assert (A6 : Rabs (q - y) <= 1.03 * k). { assert (1.01 * U * Rabs q <= 1.01 * U * (1.01 * r)) by (apply Rmult_le_compat_l; lra). unfold k in *. lra. }
  replace (y - r) with (- (q - y) + (q - r)) by ring. eapply Rle_trans; [apply Rabs_triang |]. rewrite Rabs_Ropp. lra.
Qed.
Lemma residual (N U r e v x : R) : 0 < U <= / 1000 -> 1 <= N -> N * U <= / 1000 -> 0 < r -> 0 < v -> e <> 0 ->
  Rabs (x / e - r) <= (1.03 * N + 1.04) * (U * r) -> Rabs (e - v) <= 2 * ((N - 1) * U) * v -> Rabs (x - r * v) <= 4 * (N * U) * (r * v).
Proof.
  intros HU HN HNU Hr Hv He H1 H2.
  replace (x - r * v) with ((x / e - r) * e + r * (e - v)) by (field; auto). eapply Rle_trans; [apply Rabs_triang |]. rewrite !Rabs_mult, (Rabs_pos_eq r) by lra.
  assert (P : 0 <= (N - 1) * U <= / 1000) by nra.
  assert (E : Rabs e <= 1.002 * v). { replace e with ((e - v) + v) by ring. eapply Rle_trans; [apply Rabs_triang |]. rewrite (Rabs_pos_eq v) by lra.
    assert (2 * ((N - 1) * U) * v <= 0.002 * v) by (apply Rmult_le_compat_r; lra). lra. }
  assert (A : Rabs (x / e - r) * Rabs e <= (1.03 * N + 1.04) * (U * r) * (1.002 * v)) by (apply Rmult_le_compat; auto; apply Rabs_pos).
  assert (B : r * Rabs (e - v) <= r * (2 * ((N - 1) * U) * v)) by (apply Rmult_le_compat_l; lra).
  assert (Z : 0 < U * (r * v)) by (apply Rmult_lt_0_compat; [lra | apply Rmult_lt_0_compat; auto]).
  assert (C : U * (r * v) <= N * (U * (r * v))). { rewrite <- (Rmult_1_l (U * (r * v))) at 1. apply Rmult_le_compat_r; lra. }
  apply Rle_trans with ((1.03 * N + 1.04) * (U * r) * (1.002 * v) + r * (2 * ((N - 1) * U) * v)); [lra |].
  clear - C Z HU HN Hr Hv. lra.
Qed.
Lemma nth_still (x r : B64) n : is_finite x = true -> is_finite r = true -> (1 <= n < 2 ^ 31)%Z -> bp (-1000) <= B2R r ->
  medium (B2R r ^ Z.to_nat (n - 1)) -> nth_step (B2SF x) n (B2SF r) = Some (B2SF r) ->
  Rabs (B2R x - B2R r ^ Z.to_nat n) <= 4 * (IZR n * u) * B2R r ^ Z.to_nat n.
Proof.
  intros Fx Fr Hn Lr M H. destruct (nth_power r n Fr Hn M) as (e & E & Fe & Ne).
  destruct (int_val n ltac:(lia)) as (i & Ei & Fi & Vi).
  unfold nth_step in H. rewrite E in H. cbn [option_map] in H. rewrite Ei, <- one_sf, !div_eq, sub_eq, mul_eq, add_eq in H.
  injection H as H. set (w := Bdiv mode_NE one64 i) in *. set (q := Bdiv mode_NE x e) in *.
  set (D := Bminus mode_NE q r) in *. set (d := Bmult mode_NE w D) in *.
  assert (G : Bplus mode_NE r d = r) by (now apply B2SF_inj).
  assert (few1 : few (Z.to_nat (n - 1))) by (unfold few; lia).
  destruct (near_normal _ _ _ few1 Ne M) as [Ne1 _].
  assert (b0 : 0 < bp (-1022)) by apply bpow_gt_0. assert (b1 : 0 < bp (-1000)) by apply bpow_gt_0.
  assert (e0 : B2R e <> 0). { intros Z. rewrite Z, Rabs_R0 in Ne1. lra. }
  assert (N1 : 1 <= IZR n) by (apply IZR_le; lia).
  assert (i0 : B2R i <> 0) by (rewrite Vi; lra).
  assert (Fp : is_finite (Bplus mode_NE r d) = true) by (now rewrite G).
  destruct (plus_val r d Fp) as (_ & Fd & Vp). rewrite G in Vp.
  destruct (mul_val w D Fd) as (Fw & FD & Vd). fold d in Vd.
  destruct (minus_val q r FD) as (Fq & _ & VD). fold D in VD.
  pose proof (div_val one64 i i0 Fw) as Vw. fold w in Vw. rewrite one_val, Vi in Vw.
  pose proof (div_val x e e0 Fq) as Vq. fold q in Vq.
  pose proof u_small as U.
  assert (NU : IZR n * u <= / 1000). { replace (IZR n) with (INR (Z.to_nat n)). apply few_u; unfold few; lia. rewrite INR_IZR_INZ. f_equal. lia. }
  assert (TT : 0 <= bp (-1070) <= u * B2R r / 1000).
  { split; [apply bpow_ge_0 |]. apply Rle_trans with (u * bp (-1000) / 1000).
    - unfold u. rewrite <- bpow_plus. change (-53 + -1000)%Z with (-1053)%Z. apply Rmult_le_reg_l with 1000; [lra |].
      replace (1000 * (bp (-1053) / 1000)) with (bp (-1053)) by field.
      apply Rle_trans with (bp 10 * bp (-1070)). apply Rmult_le_compat_r; [apply bpow_ge_0 | simpl; lra].
      rewrite <- bpow_plus. apply bpow_le. lia.
    - unfold Rdiv. apply Rmult_le_compat_r; [lra |]. apply Rmult_le_compat_l; lra. }
  assert (V0 : 0 < B2R r ^ Z.to_nat (n - 1)) by (apply pow_lt; lra).
  assert (X : B2R r ^ Z.to_nat n = B2R r * B2R r ^ Z.to_nat (n - 1)).
  { replace (Z.to_nat n) with (S (Z.to_nat (n - 1))) by lia. reflexivity. }
  rewrite X. apply (residual (IZR n) u (B2R r) (B2R e)); auto; try lra.
  - apply (chain (IZR n) u (bp (-1070)) (B2R r) (B2R d) (B2R w) (B2R D) (B2R q)); auto; try lra.
    + destruct (RN_inv (B2R r + B2R d)) as [K _]. rewrite <- Vp in K. rewrite (Rabs_pos_eq (B2R r)) in K by lra.
      replace (B2R r - (B2R r + B2R d)) with (- B2R d) in K by ring. now rewrite Rabs_Ropp in K.
    + destruct (RN_inv (B2R w * B2R D)) as [_ K]. rewrite <- Vd in K. exact K.
    + destruct (RN_rel_abs (1 / IZR n)) as (f & Ef & EE).
      { rewrite Rabs_pos_eq by (apply Rlt_le, Rdiv_lt_0_compat; lra). apply Rle_trans with (bp (-31)); [apply bpow_le; lia |].
        unfold Rdiv. rewrite Rmult_1_l. change (-31)%Z with (- (31))%Z. rewrite bpow_opp. apply Rinv_le; [lra |]. change (bp 31) with (IZR (2 ^ 31)). apply IZR_le. lia. }
      rewrite EE in Vw. rewrite Vw. replace (IZR n * (1 / IZR n * f)) with f by (field; lra). lra.
    + destruct (RN_inv (B2R q - B2R r)) as [_ K]. rewrite <- VD in K. exact K.
    + destruct (RN_inv (B2R x / B2R e)) as [K _]. rewrite <- Vq in K. exact K.
  - pose proof (near_bound _ _ _ few1 Ne) as K. rewrite (Rabs_pos_eq (B2R r ^ Z.to_nat (n - 1))) in K by lra.
    replace (INR (Z.to_nat (n - 1))) with (IZR n - 1) in K; auto. rewrite INR_IZR_INZ, Z2Nat.id, minus_IZR by lia. reflexivity.
Qed.

Lemma nthroot_residual fuel x n r : finite_double x -> (1 <= n < 2 ^ 31)%Z -> nthroot fuel x n = Value r -> finite_double r ->
  powerRZ 2 (-1000) <= real r -> powerRZ 2 (-1021) <= real r ^ Z.to_nat (n - 1) <= powerRZ 2 1021 ->
  Rabs (real x - real r ^ Z.to_nat n) <= IZR n * powerRZ 2 (-51) * real r ^ Z.to_nat n.
Proof.
  intros Hx Hn H Hr Lr M. unfold nthroot in H. destruct (SFltb x b64_0); [discriminate |].
  destruct (nth_fixed x n r fuel (b64_of_int (-1)) b64_1 (or_introl eq_refl) H) as (p & P1 & P2).
  assert (0 < powerRZ 2 (-1000)) by (apply powerRZ_lt; lra).
  rewrite (SFeqb_pos p r) in P2 by (auto; lra). clear P1 p.
  destruct (B2R_real x Hx) as (X & FX & EX). destruct (real_B2R X FX) as [_ VX]. rewrite EX in VX.
  destruct (B2R_real r Hr) as (R & FR & ER). destruct (real_B2R R FR) as [_ VR]. rewrite ER in VR.
  rewrite VX, VR in *. rewrite <- EX, <- ER in P2. rewrite <- !(bpow_powerRZ radix2) in *.
  assert (B0 : 0 <= B2R R) by lra. assert (B : bp (-51) = 4 * u). { unfold u. change 4 with (bp 2). rewrite <- bpow_plus. reflexivity. }
  rewrite B. replace (IZR n * (4 * u)) with (4 * (IZR n * u)) by ring. apply nth_still; auto.
  unfold medium. rewrite Rabs_pos_eq by (now apply pow_le). exact M.
Qed.
