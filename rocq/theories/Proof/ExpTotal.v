(** exponentiate(double, int) for every finite base: the power up to a relative and an absolute error, or an infinity. *)
From Coq Require Import ZArith Reals Lia Lra Psatz Bool Floats.SpecFloat.
From Flocq Require Import Core Relative BinarySingleNaN.
From Verif Require Import Base.Field Model.ScalarMath Spec.Doubles Proof.SqrtReal Proof.SqrtDouble Proof.ExpDouble Proof.ExpRange.
Local Open Scope R_scope.

Local Notation fe := (FLT_exp (-1074) 53).
Local Notation F := (generic_format radix2 fe).
Local Notation RN := (round radix2 fe ZnearestE).
Local Notation bp := (bpow radix2).
Local Notation B64 := (binary_float 53 1024).
Local Existing Instance prec53.
Local Existing Instance emax1024.
Local Notation loop := (exp_loop spec_float b64_mul).

(** ** powers of at most 1 *)
Definition eta : R := bp (-1074).
Definition close (j : nat) (a w : R) : Prop :=
  exists e d, a = w * e + d /\ (1 - u) ^ j <= e <= (1 + u) ^ j /\ Rabs d <= INR j * eta.
Lemma close_0 a : close 0 a a.
Proof. exists 1, 0. rewrite Rabs_R0. simpl. lra. Qed.
Lemma eta_small : 0 < eta /\ eta <= / IZR (2 ^ 100).
Proof.
  unfold eta. split; [apply bpow_gt_0 |]. apply Rle_trans with (bp (-100)); [apply bpow_le; lia |].
  change (-100)%Z with (- (100))%Z. rewrite bpow_opp. change (bp 100) with (IZR (2 ^ 100)). lra.
Qed.
Lemma few_INR j : few j -> 0 <= INR j <= IZR (2 ^ 34).
Proof. intros H. split; [apply pos_INR |]. rewrite INR_IZR_INZ. now apply IZR_le. Qed.
Lemma RN_both y : exists e t, Rabs e <= u /\ Rabs t <= / 2 * eta /\ RN y = y * (1 + e) + t.
Proof.
  destruct (error_N_FLT radix2 (-1074) 53 ltac:(lia) (fun x => negb (Z.even x)) y) as (e & t & E & T & _ & Q).
  assert (U : / 2 * bp (- (53) + 1) = u). { unfold u. change (- (53) + 1)%Z with (-53 + 1)%Z. rewrite bpow_plus. change (bp 1) with 2. lra. }
  rewrite U in E. exists e, t. auto.
Qed.
Lemma close_round j a w : few j -> close j a w -> close (S j) (RN a) w.
Proof.
  intros H (e & d & -> & E & D). destruct (RN_both (w * e + d)) as (f & t & Hf & Ht & ->).
  apply Rabs_le_inv in Hf. pose proof u_small as U. pose proof (few_u j H) as J. pose proof eta_small as [T0 _].
  exists (e * (1 + f)), (d * (1 + f) + t). split; [ring |]. split.
  - assert (0 <= (1 - u) ^ j) by (apply pow_le; lra). simpl pow. rewrite (Rmult_comm (1 - u)), (Rmult_comm (1 + u)).
    split; apply Rmult_le_compat; lra.
  - eapply Rle_trans; [apply Rabs_triang |]. rewrite Rabs_mult, (Rabs_pos_eq (1 + f)) by lra. rewrite S_INR.
    pose proof (Rabs_pos d) as Pd.
    assert (A : Rabs d * (1 + f) <= INR j * eta * (1 + u)) by (apply Rmult_le_compat; lra).
    assert (B : INR j * u * eta <= / 1000 * eta) by (apply Rmult_le_compat_r; lra). lra.
Qed.
Lemma close_prod j k a b w z : few (S (j + k)) -> close j a w -> close k b z -> Rabs a <= 1 -> Rabs b <= 1 -> close (S (j + k)) (RN (a * b)) (w * z).
Proof.
  intros H (e & d & Ea & E & D) (f & g & Eb & G & K) A1 B1. pose proof u_small as U. pose proof eta_small as [T0 T1].
  assert (Hj : few j) by (unfold few in *; lia). assert (Hk : few k) by (unfold few in *; lia). assert (Hs : few (j + k)) by (unfold few in *; lia).
  pose proof (few_INR j Hj) as Ij. pose proof (few_INR k Hk) as Ik. pose proof (few_u _ Hs) as Us.
  destruct (RN_both (a * b)) as (h & t & Hh & Ht & ->). apply Rabs_le_inv in Hh.
  set (r := w * e * g + d * b).
  assert (AB : a * b = w * z * (e * f) + r). { unfold r. rewrite Eb, Ea. ring. }
  exists (e * f * (1 + h)), (r * (1 + h) + t). split; [rewrite AB; ring |]. split.
  - assert (0 <= (1 - u) ^ j) by (apply pow_le; lra). assert (0 <= (1 - u) ^ k) by (apply pow_le; lra). simpl pow.
    rewrite (Rmult_comm (1 - u)), (Rmult_comm (1 + u)), !pow_add. split; apply Rmult_le_compat; try lra.
    + apply Rmult_le_pos; lra.
    + apply Rmult_le_compat; lra.
    + apply Rmult_le_pos; lra.
    + apply Rmult_le_compat; lra.
  - pose proof (Rabs_pos d) as Pd. pose proof (Rabs_pos g) as Pg. pose proof (Rabs_pos b) as Pb.
    assert (WE : Rabs (w * e) <= 1 + Rabs d).
    { replace (w * e) with (a + - d) by lra. eapply Rle_trans; [apply Rabs_triang |]. rewrite Rabs_Ropp. lra. }
    assert (R1 : Rabs r <= Rabs g + Rabs d * Rabs g + Rabs d).
    { unfold r. eapply Rle_trans; [apply Rabs_triang |]. rewrite !Rabs_mult. rewrite Rabs_mult in WE.
      assert (Rabs w * Rabs e * Rabs g <= (1 + Rabs d) * Rabs g) by (apply Rmult_le_compat_r; lra).
      assert (Rabs d * Rabs b <= Rabs d * 1) by (apply Rmult_le_compat_l; lra). lra. }
    assert (DG : Rabs d * Rabs g <= / 1000 * eta).
    { apply Rle_trans with (INR j * eta * (INR k * eta)); [apply Rmult_le_compat; lra |].
      replace (INR j * eta * (INR k * eta)) with (INR j * INR k * eta * eta) by ring. apply Rmult_le_compat_r; [lra |].
      apply Rle_trans with (IZR (2 ^ 34) * IZR (2 ^ 34) * / IZR (2 ^ 100)).
      - apply Rmult_le_compat; try lra. apply Rmult_le_pos; lra. apply Rmult_le_compat; lra.
      - clear. change (2 ^ 34)%Z with 17179869184%Z. change (2 ^ 100)%Z with 1267650600228229401496703205376%Z. lra. }
    assert (R2 : Rabs r <= (INR (j + k) + / 1000) * eta) by (rewrite plus_INR; lra).
    eapply Rle_trans; [apply Rabs_triang |]. rewrite Rabs_mult, (Rabs_pos_eq (1 + h)) by lra. rewrite S_INR.
    pose proof (Rabs_pos r) as Pr.
    assert (A : Rabs r * (1 + h) <= (INR (j + k) + / 1000) * eta * (1 + u)) by (apply Rmult_le_compat; lra).
    assert (B : INR (j + k) * u * eta <= / 1000 * eta) by (apply Rmult_le_compat_r; lra).
    assert (C : u * eta <= eta) by nra. lra.
Qed.
Definition unit (v : B64) : Prop := is_finite v = true /\ Rabs (B2R v) <= 1.
Lemma close_mul (a b : B64) j k w z : unit a -> unit b -> few (S (j + k)) -> close j (B2R a) w -> close k (B2R b) z ->
  unit (Bmult mode_NE a b) /\ close (S (j + k)) (B2R (Bmult mode_NE a b)) (w * z).
Proof.
  intros (Fa & A1) (Fb & B1) H A B. pose proof (Rabs_pos (B2R a)) as Pa. pose proof (Rabs_pos (B2R b)) as Pb.
  assert (M : Rabs (B2R a * B2R b) <= 1) by (rewrite Rabs_mult; nra).
  assert (R1 : Rabs (RN (B2R a * B2R b)) <= 1) by (apply (RN_abs_le _ 0); [lia | exact M]).
  destruct (mul_ok a b Fa Fb) as [E Fm]. { apply Rle_lt_trans with (1 := R1). apply (bpow_lt radix2 0 1024). lia. }
  unfold unit. rewrite E. repeat split; auto. now apply close_prod.
Qed.
Lemma power_close (x : B64) v c t : (c <= 1)%nat -> (1 <= t)%nat -> (Z.of_nat t < 2 ^ 31)%Z -> unit x -> close c (B2R x) v -> exists r : B64,
  (let '(x, y) := loop 31 (B2SF x) b64_1 (Z.of_nat t) in b64_mul x y) = B2SF r /\ unit r /\ close (t * (c + 1)) (B2R r) (v ^ t).
Proof.
  intros Hc T T2 X C.
  assert (few_all : forall j, (j <= 2 * t)%nat -> few j) by (intros j Hj; unfold few; lia).
  destruct (power_inv (fun m a => (m <= t)%nat -> unit a /\ close (m * (c + 1) - 1) (B2R a) (v ^ m))
    (fun k a => (k <= t)%nat -> unit a /\ close (k * (c + 1)) (B2R a) (v ^ k))) with (x := x) (total := t)
    as (x' & y' & m & k & E & Hm & Sm & X' & Y'); auto.
  - intros m a Hm A L. destruct (A ltac:(lia)) as [A1 A2].
    rewrite pow_add. replace ((m + m) * (c + 1) - 1)%nat with (S (m * (c + 1) - 1 + (m * (c + 1) - 1))) by nia.
    apply close_mul; auto. apply few_all. nia.
  - intros k m y a Hm Y A L. destruct (A ltac:(lia)) as [A1 A2]. destruct (Y ltac:(lia)) as [Y1 Y2].
    rewrite pow_add. replace ((k + m) * (c + 1))%nat with (S (k * (c + 1) + (m * (c + 1) - 1))) by nia.
    apply close_mul; auto. apply few_all. nia.
  - intros _. rewrite pow_1. replace (1 * (c + 1) - 1)%nat with c by lia. auto.
  - intros _. unfold unit. rewrite one_val, Rabs_R1. repeat split; [lra |]. apply close_0.
  - destruct (X' ltac:(lia)) as [X1 X2]. destruct (Y' ltac:(lia)) as [Y1 Y2].
    exists (Bmult mode_NE x' y'). split; [exact E |].
    replace (v ^ t) with (v ^ m * v ^ k) by (rewrite <- pow_add; f_equal; lia).
    replace (t * (c + 1))%nat with (S (m * (c + 1) - 1 + k * (c + 1))) by nia.
    apply close_mul; auto. apply few_all. nia.
Qed.

(** ** powers of at least 1 *)
Definition about (s : bool) (j : nat) (a : B64) (w : R) : Prop :=
  a = B754_infinity s \/ (is_finite a = true /\ Bsign a = s /\ near j (B2R a) w).
Lemma about_mul s1 s2 j k a b w z : 1 <= Rabs w -> 1 <= Rabs z -> few (S (j + k)) -> about s1 j a w -> about s2 k b z ->
  about (xorb s1 s2) (S (j + k)) (Bmult mode_NE a b) (w * z).
Proof.
  intros Hw Hz H A B.
  assert (Hj : few j) by (unfold few in *; lia). assert (Hk : few k) by (unfold few in *; lia).
  assert (BA : big s1 (/ 2) a). { destruct A as [-> | (Fa & Sa & Na)]; [now left |]. right. repeat split; auto. pose proof (near_range _ _ _ Hj Na). lra. }
  assert (BB : big s2 (/ 2) b). { destruct B as [-> | (Fb & Sb & Nb)]; [now left |]. right. repeat split; auto. pose proof (near_range _ _ _ Hk Nb). lra. }
  destruct A as [-> | A]. { left. apply (big_fin_inf s2 (/ 2) b s1); [lra | exact BB]. }
  destruct B as [-> | B]. { left. apply (big_fin_inf s1 (/ 2) a s2); [lra | exact BA]. }
  destruct A as (Fa & Sa & Na). destruct B as (Fb & Sb & Nb).
  pose proof (near_range _ _ _ Hj Na) as Ra. pose proof (near_range _ _ _ Hk Nb) as Rb.
  generalize (Bmult_correct 53 1024 _ _ mode_NE a b).
  change (round radix2 (SpecFloat.fexp 53 1024) (round_mode mode_NE) (B2R a * B2R b)) with (RN (B2R a * B2R b)).
  destruct (Rlt_bool _ _).
  - intros (E & G & S). rewrite Fa, Fb in G. right. split; [exact G |].
    split. { rewrite S, Sa, Sb; [reflexivity |]. destruct (Bmult mode_NE a b); auto; discriminate G. }
    rewrite E. apply near_round; [now apply near_prod |]. rewrite Rabs_mult. apply Rle_trans with (/ 2 * / 2).
    + replace (/ 2 * / 2) with (bp (-2)) by (change (bp (-2)) with (/ 4); lra). apply bpow_le. lia.
    + apply Rmult_le_compat; lra.
  - intros E. left. rewrite Sa, Sb in E. destruct (Bmult mode_NE a b); cbn in E; try discriminate E. now injection E as ->.
Qed.
Lemma power_about (x : B64) v s c t : (c <= 1)%nat -> (1 <= t)%nat -> (Z.of_nat t < 2 ^ 31)%Z -> 1 <= Rabs v -> about s c x v -> exists r : B64,
  (let '(x, y) := loop 31 (B2SF x) b64_1 (Z.of_nat t) in b64_mul x y) = B2SF r /\ about (s && Nat.odd t) (t * (c + 1)) r (v ^ t).
Proof.
  intros Hc T T2 V X.
  assert (few_all : forall j, (j <= 2 * t)%nat -> few j) by (intros j Hj; unfold few; lia).
  assert (V1 : forall m, 1 <= Rabs (v ^ m)) by (intros m; rewrite <- RPow_abs; now apply pow_R1_Rle).
  assert (OD : forall a b, s && Nat.odd (a + b) = xorb (s && Nat.odd a) (s && Nat.odd b)).
  { intros a b. rewrite Nat.odd_add. destruct s, (Nat.odd a), (Nat.odd b); reflexivity. }
  destruct (power_inv (fun m a => (m <= t)%nat -> about (s && Nat.odd m) (m * (c + 1) - 1) a (v ^ m))
    (fun k a => (k <= t)%nat -> about (s && Nat.odd k) (k * (c + 1)) a (v ^ k))) with (x := x) (total := t)
    as (x' & y' & m & k & E & Hm & Sm & X' & Y'); auto.
  - intros m a Hm A L. specialize (A ltac:(lia)). rewrite OD.
    rewrite pow_add. replace ((m + m) * (c + 1) - 1)%nat with (S (m * (c + 1) - 1 + (m * (c + 1) - 1))) by nia.
    apply about_mul; auto. apply few_all. nia.
  - intros k m y a Hm Y A L. specialize (A ltac:(lia)). specialize (Y ltac:(lia)). rewrite OD.
    rewrite pow_add. replace ((k + m) * (c + 1))%nat with (S (k * (c + 1) + (m * (c + 1) - 1))) by nia.
    apply about_mul; auto. apply few_all. nia.
  - intros _. rewrite pow_1. replace (1 * (c + 1) - 1)%nat with c by lia. cbn [Nat.odd]. rewrite andb_true_r. exact X.
  - intros _. right. rewrite one_val. cbn. rewrite andb_false_r. repeat split. apply near_0.
  - specialize (X' ltac:(lia)). specialize (Y' ltac:(lia)).
    exists (Bmult mode_NE x' y'). split; [exact E |].
    replace (s && Nat.odd t) with (xorb (s && Nat.odd m) (s && Nat.odd k)) by (rewrite <- OD; f_equal; f_equal; lia).
    replace (v ^ t) with (v ^ m * v ^ k) by (rewrite <- pow_add; f_equal; lia).
    replace (t * (c + 1))%nat with (S (m * (c + 1) - 1 + k * (c + 1))) by nia.
    apply about_mul; auto. apply few_all. nia.
Qed.

(** ** exponentiate *)
Lemma odd_abs n : Z.odd n = Nat.odd (Z.abs_nat n).
Proof.
  assert (A : Z.odd (Z.abs n) = Z.odd n) by (destruct n; reflexivity || destruct p; reflexivity).
  rewrite <- A, <- Zabs2Nat.id_abs. generalize (Z.abs_nat n). intros k. induction k as [| k IH]; [reflexivity |].
  rewrite Nat2Z.inj_succ, Z.odd_succ, Nat.odd_succ, <- Z.negb_odd, <- Nat.negb_odd, IH. reflexivity.
Qed.
Definition outcome (x : B64) (n : Z) (r : B64) : Prop :=
  (is_finite r = true /\ exists j, (j <= 2 * Z.abs_nat n)%nat /\ close j (B2R r) (powerRZ (B2R x) n)) \/
  (r = B754_infinity (Bsign x && Z.odd n) /\ 1 <= Rabs (powerRZ (B2R x) n)).
Lemma about_outcome s j r w t : (j <= 2 * t)%nat -> 1 <= Rabs w -> about s j r w ->
  (is_finite r = true /\ exists j, (j <= 2 * t)%nat /\ close j (B2R r) w) \/ (r = B754_infinity s /\ 1 <= Rabs w).
Proof.
  intros J W [-> | (Fr & _ & (e & E & B))]; [now right |]. left. split; auto. exists j. split; auto.
  exists e, 0. rewrite Rabs_R0. split; [lra |]. split; auto. pose proof eta_small. apply Rmult_le_pos; [apply pos_INR | lra].
Qed.
Lemma exp_outcome (x : B64) n : is_finite x = true -> (0 < Z.abs n < 2 ^ 31)%Z -> B2R x <> 0 \/ (0 < n)%Z ->
  exists r : B64, exponentiate_double (B2SF x) n = Some (B2SF r) /\ outcome x n r.
Proof.
  intros Fx Hn H. unfold exponentiate_double, exponentiate, outcome.
  destruct (Z.eqb_spec n 0); [lia |]. destruct (Z.eqb_spec n (- 2 ^ 31)); [lia |]. rewrite (odd_abs n).
  set (t := Z.abs_nat n) in *. pose proof u_small as U.
  destruct (Z.ltb_spec n 0) as [L | L].
  - assert (NZ : B2R x <> 0) by (destruct H; [auto | lia]).
    assert (Q : powerRZ (B2R x) n = (/ B2R x) ^ t). { unfold t. rewrite pow_inv. destruct n; try lia. reflexivity. }
    rewrite Q. replace (- n)%Z with (Z.of_nat t) by lia. rewrite <- one_sf, div_eq, one_sf.
    assert (I1 : B2R one64 / B2R x = / B2R x) by (rewrite one_val; unfold Rdiv; ring).
    destruct (Rle_lt_dec (Rabs (/ B2R x)) 1) as [S | S].
    + assert (R1 : Rabs (RN (/ B2R x)) <= 1) by (apply (RN_abs_le _ 0); [lia | exact S]).
      destruct (div_ok one64 x eq_refl NZ) as [E1 F1].
      { rewrite I1. apply Rle_lt_trans with (1 := R1). apply (bpow_lt radix2 0 1024). lia. }
      rewrite I1 in E1.
      destruct (power_close (Bdiv mode_NE one64 x) (/ B2R x) 1 t) as (r & E & Hr & C); try lia.
      { split; auto. now rewrite E1. } { rewrite E1. apply (close_round 0); [unfold few; cbn; lia | apply close_0]. }
      exists r. destruct (exp_loop _ _ _ _ _ _) as [x' y']. rewrite E. split; auto. left. destruct Hr as [Fr _]. split; auto.
      exists (t * (1 + 1))%nat. split; [lia | exact C].
    + assert (AB : about (Bsign x) 1 (Bdiv mode_NE one64 x) (/ B2R x)).
      { generalize (Bdiv_correct 53 1024 _ _ mode_NE one64 x NZ).
        change (round radix2 (SpecFloat.fexp 53 1024) (round_mode mode_NE) (B2R one64 / B2R x)) with (RN (B2R one64 / B2R x)).
        rewrite I1. destruct (Rlt_bool _ _).
        - intros (E & G & Sg). assert (FD : is_finite (Bdiv mode_NE one64 x) = true) by (rewrite G; reflexivity).
          right. split; [exact FD |]. split.
          { rewrite Sg; [change (Bsign one64) with false; apply xorb_false_l |]. destruct (Bdiv mode_NE one64 x); auto; discriminate FD. }
          rewrite E. apply near_round; [apply near_0 |]. apply Rle_trans with 1; [apply (bpow_le radix2 (-1022) 0); lia | lra].
        - intros E. left. change (Bsign one64) with false in E. rewrite xorb_false_l in E.
          destruct (Bdiv mode_NE one64 x); cbn in E; try discriminate E. now injection E as ->. }
      destruct (power_about (Bdiv mode_NE one64 x) (/ B2R x) (Bsign x) 1 t ltac:(lia) ltac:(lia) ltac:(lia) ltac:(lra) AB) as (r & E & C).
      exists r. destruct (exp_loop _ _ _ _ _ _) as [x' y']. rewrite E. split; auto.
      apply (about_outcome _ (t * (1 + 1))); auto; [lia |]. rewrite <- RPow_abs. apply pow_R1_Rle. lra.
  - assert (Q : powerRZ (B2R x) n = B2R x ^ t). { rewrite pow_powerRZ. f_equal. lia. }
    rewrite Q. replace n with (Z.of_nat t) by lia.
    destruct (Rle_lt_dec (Rabs (B2R x)) 1) as [S | S].
    + destruct (power_close x (B2R x) 0 t) as (r & E & Hr & C); try lia; [now split | apply close_0 |].
      exists r. destruct (exp_loop _ _ _ _ _ _) as [x' y']. rewrite E. split; auto. left. destruct Hr as [Fr _]. split; auto.
      exists (t * (0 + 1))%nat. split; [lia | exact C].
    + assert (AB : about (Bsign x) 0 x (B2R x)) by (right; repeat split; auto; apply near_0).
      destruct (power_about x (B2R x) (Bsign x) 0 t ltac:(lia) ltac:(lia) ltac:(lia) ltac:(lra) AB) as (r & E & C).
      exists r. destruct (exp_loop _ _ _ _ _ _) as [x' y']. rewrite E. split; auto.
      apply (about_outcome _ (t * (0 + 1))); auto; [lia |]. rewrite <- RPow_abs. apply pow_R1_Rle. lra.
Qed.
Lemma close_bound j t a w : (j <= 2 * t)%nat -> (Z.of_nat t < 2 ^ 31)%Z -> close j a w ->
  Rabs (a - w) <= INR t * (4 * u) * Rabs w + INR t * (2 * eta).
Proof.
  intros J T (e & d & -> & E & D). assert (H : few j) by (unfold few; lia).
  pose proof (few_u j H). pose proof (pow_lo j). pose proof (pow_hi j H). pose proof eta_small as [T0 _]. pose proof u_small as U.
  apply le_INR in J. rewrite mult_INR in J. change (INR 2) with 2 in J.
  replace (w * e + d - w) with ((e - 1) * w + d) by ring. eapply Rle_trans; [apply Rabs_triang |]. rewrite Rabs_mult.
  pose proof (Rabs_pos w) as W.
  assert (A : Rabs (e - 1) <= 2 * (INR j * u)) by (apply Rabs_le; lra).
  assert (B : INR j * u <= 2 * INR t * u) by (apply Rmult_le_compat_r; lra).
  assert (C : Rabs (e - 1) * Rabs w <= INR t * (4 * u) * Rabs w) by (apply Rmult_le_compat_r; lra).
  assert (G : INR j * eta <= 2 * INR t * eta) by (apply Rmult_le_compat_r; lra). lra.
Qed.

Lemma exp_total x n : finite_double x -> (0 < Z.abs n < 2 ^ 31)%Z -> real x <> 0 \/ (0 < n)%Z -> exists r,
  exponentiate_double x n = Some r /\
  (finite_double r /\ Rabs (real r - powerRZ (real x) n) <= IZR (Z.abs n) * powerRZ 2 (-51) * Rabs (powerRZ (real x) n) + IZR (Z.abs n) * powerRZ 2 (-1073) \/
   r = S754_infinity (negative x && Z.odd n) /\ powerRZ 2 1021 < Rabs (powerRZ (real x) n)).
Proof.
  intros Hx Hn H. destruct (B2R_real x Hx) as (X & FX & EX). destruct (real_B2R X FX) as [_ VX]. rewrite EX in VX. rewrite VX in *.
  rewrite <- !(bpow_powerRZ radix2). destruct (exp_outcome X n FX Hn H) as (r & E & O). rewrite EX in E.
  exists (B2SF r). split; [exact E |].
  destruct O as [(Fr & j & J & C) | (-> & L)].
  - left. destruct (real_B2R r Fr) as [D V]. rewrite V. split; auto.
    assert (B : bp (-51) = 4 * u). { unfold u. change 4 with (bp 2). rewrite <- bpow_plus. reflexivity. }
    assert (B' : bp (-1073) = 2 * eta). { unfold eta. change 2 with (bp 1). rewrite <- bpow_plus. reflexivity. }
    rewrite B, B'. rewrite <- Zabs2Nat.id_abs, <- INR_IZR_INZ. apply (close_bound j); auto. lia.
  - right. rewrite <- EX, <- sign_neg. split; [reflexivity |].
    apply Rnot_le_lt. intros K.
    assert (P : Rabs (powerRZ (B2R X) n) = Rabs (B2R X) ^ Z.abs_nat n \/ Rabs (powerRZ (B2R X) n) = / Rabs (B2R X) ^ Z.abs_nat n).
    { destruct n as [| p | p]; [lia | left | right]; cbn [powerRZ Z.abs_nat]; [| rewrite Rabs_inv]; now rewrite <- RPow_abs. }
    assert (M : bp (-1021) <= Rabs (B2R X) ^ Z.abs_nat n <= bp 1021).
    { assert (B0 : bp (-1021) <= 1) by (apply (bpow_le radix2 (-1021) 0); lia).
      assert (B1 : 1 <= bp 1021) by (apply (bpow_le radix2 0 1021); lia).
      destruct P as [P | P]; rewrite P in *; [lra |].
      set (q := Rabs (B2R X) ^ Z.abs_nat n) in *. assert (Q : 0 < / q) by lra.
      assert (q0 : 0 < q) by (rewrite <- (Rinv_inv q); now apply Rinv_0_lt_compat).
      rewrite <- (Rinv_inv q). change (-1021)%Z with (- (1021))%Z. rewrite bpow_opp. split.
      - apply Rinv_le; lra.
      - apply Rle_trans with (/ 1); [apply Rinv_le; lra | rewrite Rinv_1; lra]. }
    destruct (exp_double_bound x n Hx Hn) as (r & E' & D & _).
    { rewrite VX, <- !(bpow_powerRZ radix2). exact M. }
    rewrite E in E'. injection E' as <-. exact D.
Qed.
