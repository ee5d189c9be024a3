(** C52, C59, C60, C69: the floating-point helpers. *)
From Coq Require Import ZArith NArith QArith Bool Lia Lra Reals Floats.SpecFloat.
From Flocq Require Import Core.
From Verif Require Import Base.Field Base.Zp Model.ScalarMath Spec.Doubles Proof.ScalarMath Proof.SqrtDouble Proof.ExpDouble Proof.AbsDouble Proof.ExpRange Proof.ExpTotal Proof.NthRoot Properties.Weierstrass.
Local Open Scope Z_scope.

(** ** C52.  Full statement: sqrt terminates for every non-negative argument. *)
(** negative arguments are rejected *)
Theorem C52_negative_rejected fuel x : SFltb x b64_0 = true -> sqrt_double fuel x = Thrown.
Proof. exact (sqrt_negative fuel x). Qed.
Print Assumptions C52_negative_rejected.
(** on every positive finite double sqrt returns one of the two doubles next to the root;
    missing from the full statement: the arguments below, on which it never returns *)
Theorem C52_positive_partial x : finite_double x -> (0 < real x)%R -> exists n r,
  (forall fuel, (n <= fuel)%nat -> sqrt_double fuel x = Value r) /\
  (double_below (sqrt (real x)) r \/ double_above (sqrt (real x)) r).
Proof. exact (sqrt_faithful x). Qed.
Print Assumptions C52_positive_partial.
(** in particular the root of the square of a double is exact *)
Theorem C52_exact_partial x y : finite_double x -> finite_double y -> (0 < real y)%R -> (real x = real y * real y)%R ->
  exists n r, (forall fuel, (n <= fuel)%nat -> sqrt_double fuel x = Value r) /\ real r = real y.
Proof. exact (sqrt_exact x y). Qed.
Print Assumptions C52_exact_partial.
Example C52_hypotheses : finite_double b64_2 /\ real b64_2 = 2%R /\ finite_double (b64_of_int 9) /\ finite_double (b64_of_int 3) /\
  (real (b64_of_int 9) = real (b64_of_int 3) * real (b64_of_int 3))%R.
Proof. unfold real. repeat split; try reflexivity; vm_compute b64_of_int; cbv [b64_2]; simpl; try lra. Qed.
(** sqrt(+0) and sqrt(-0) never return, whatever the number of iterations *)
Theorem C52_zero_refuted s fuel : sqrt_double fuel (S754_zero s) = OutOfFuel.
Proof. exact (sqrt_zero s fuel). Qed.
Print Assumptions C52_zero_refuted.
(** nor do sqrt(inf) and sqrt(NaN) *)
Theorem C52_infinity_refuted fuel : sqrt_double fuel (S754_infinity false) = OutOfFuel.
Proof. exact (sqrt_inf fuel). Qed.
Print Assumptions C52_infinity_refuted.
Theorem C52_nan_refuted fuel : sqrt_double fuel S754_nan = OutOfFuel.
Proof. exact (sqrt_of_nan fuel). Qed.
Print Assumptions C52_nan_refuted.
(** the result is not always the nearest double: sqrt(2) is one unit in the last place low.
    With r = m * 2^-52 the returned value, (m + 1/2)^2 < 2 * 2^104, so m + 1 is nearer *)
Theorem C52_nearest_refuted : exists m,
  sqrt_double 6 b64_2 = Value (S754_finite false m (-52)) /\ (2 * Z.pos m + 1) ^ 2 < 4 * (2 * 2 ^ 104).
Proof. exists 6369051672525772%positive. split; vm_compute; reflexivity. Qed.
Print Assumptions C52_nearest_refuted.
(** the error of the tested value is below one unit *)
Example C52_case : sqrt_double 10 (b64_of_int 4) = Value b64_2 /\ sqrt_double 1 b64_1 = Value b64_1.
Proof. split; vm_compute; reflexivity. Qed.

(** ** C69.  abs of a real number is its absolute value ... *)
Theorem C69_real x : finite_double x -> finite_double (abs_real x) /\ real (abs_real x) = Rabs (real x).
Proof. exact (abs_real_ok x). Qed.
Print Assumptions C69_real.
(** ... but abs(+0) is -0, where the absolute value of IEEE 754 clears the sign *)
Theorem C69_zero_sign_refuted : abs_real (S754_zero false) = S754_zero true /\ SFabs (S754_zero false) = S754_zero false.
Proof. split; reflexivity. Qed.
Print Assumptions C69_zero_sign_refuted.
(** abs of a complex number in general: when neither part squares to something below the
    smallest normal number or above the largest one, it returns, with a relative error of at most 2^-51 *)
Definition squares_well (v : R) : Prop := (v = 0 \/ powerRZ 2 (-511) <= Rabs v)%R /\ (Rabs v <= powerRZ 2 511)%R.
Theorem C69_complex_partial re im : finite_double re -> finite_double im -> squares_well (real re) -> squares_well (real im) ->
  (real re <> 0 \/ real im <> 0)%R -> exists n r, (forall fuel, (n <= fuel)%nat -> abs_complex fuel re im = Value r) /\ finite_double r /\
  let modulus := sqrt (real re * real re + real im * real im) in (Rabs (real r - modulus) <= powerRZ 2 (-51) * modulus)%R.
Proof.
  unfold squares_well. rewrite <- !(bpow_powerRZ radix2). exact (abs_complex_bound re im).
Qed.
Print Assumptions C69_complex_partial.
(** abs of a complex number whose squared modulus is computed without rounding: one of the two
    doubles next to the modulus, hence the modulus itself when it is a double *)
Theorem C69_complex_exact_partial re im a b c : finite_double re -> finite_double im -> finite_double a -> finite_double b -> finite_double c ->
  (real a = real re * real re)%R -> (real b = real im * real im)%R -> (real c = real a + real b)%R -> (0 < real c)%R -> exists n r,
  (forall fuel, (n <= fuel)%nat -> abs_complex fuel re im = Value r) /\
  (double_below (sqrt (real c)) r \/ double_above (sqrt (real c)) r).
Proof. exact (abs_complex_exact re im a b c). Qed.
Print Assumptions C69_complex_exact_partial.
(** abs of the complex number 0 never returns *)
Theorem C69_complex_refuted fuel : abs_complex fuel b64_0 b64_0 = OutOfFuel.
Proof. exact (sqrt_zero false fuel). Qed.
Print Assumptions C69_complex_refuted.
(** nor does abs(2^-548 + 0 i): the square underflows to 0 *)
Theorem C69_underflow_refuted fuel : abs_complex fuel (S754_finite false 4503599627370496 (-600)) b64_0 = OutOfFuel.
Proof. exact (sqrt_zero false fuel). Qed.
Print Assumptions C69_underflow_refuted.
(** in general it never returns when the square of either part overflows, nor when both parts are below 2^-538 *)
Theorem C69_out_of_range_refuted re im : finite_double re -> finite_double im ->
  (powerRZ 2 512 <= Rabs (real re) \/ powerRZ 2 512 <= Rabs (real im) \/
   (Rabs (real re) <= powerRZ 2 (-538) /\ Rabs (real im) <= powerRZ 2 (-538)))%R ->
  forall fuel, abs_complex fuel re im = OutOfFuel.
Proof.
  rewrite <- !(bpow_powerRZ radix2). intros Hr Hi [H | [H | [H1 H2]]] fuel.
  - apply abs_overflow; auto.
  - apply abs_overflow; auto.
  - apply abs_underflow; auto.
Qed.
Print Assumptions C69_out_of_range_refuted.
(** between these it returns, even where a square loses digits: the error is then absolute.
    In the bands 2^511 to 2^512 and 2^-538 to 2^-537 the other part decides; see C69_complex *)
Theorem C69_complex_returns_partial re im : finite_double re -> finite_double im ->
  (Rabs (real re) <= powerRZ 2 511)%R -> (Rabs (real im) <= powerRZ 2 511)%R ->
  (powerRZ 2 (-537) <= Rabs (real re) \/ powerRZ 2 (-537) <= Rabs (real im))%R -> exists n r,
  (forall fuel, (n <= fuel)%nat -> abs_complex fuel re im = Value r) /\ finite_double r /\
  let modulus := sqrt (real re * real re + real im * real im) in
  (Rabs (real r - modulus) <= powerRZ 2 (-50) * modulus + powerRZ 2 (-535))%R.
Proof. rewrite <- !(bpow_powerRZ radix2). exact (abs_complex_returns re im). Qed.
Print Assumptions C69_complex_returns_partial.
(** every complex number with finite parts: either abs returns with this error, or it never returns, and then
    a part is above 2^511 or both are below 2^-537 *)
Theorem C69_complex re im : finite_double re -> finite_double im ->
  (exists n r, (forall fuel, (n <= fuel)%nat -> abs_complex fuel re im = Value r) /\ finite_double r /\
    let modulus := sqrt (real re * real re + real im * real im) in
    (Rabs (real r - modulus) <= powerRZ 2 (-50) * modulus + powerRZ 2 (-535))%R) \/
  ((forall fuel, abs_complex fuel re im = OutOfFuel) /\
   (powerRZ 2 511 < Rabs (real re) \/ powerRZ 2 511 < Rabs (real im) \/
    (Rabs (real re) < powerRZ 2 (-537) /\ Rabs (real im) < powerRZ 2 (-537)))%R).
Proof. rewrite <- !(bpow_powerRZ radix2). exact (abs_total re im). Qed.
Print Assumptions C69_complex.
(** both happen in the band: 1.5 * 2^511 + i returns, 1.5 * 2^511 + 1.5 * 2^511 i does not *)
Example C69_complex_band : let x := S754_finite false 6755399441055744 459 in finite_double x /\
  abs_complex 800 x (b64_of_int 1) = Value x /\
  b64_add (b64_mul x x) (b64_mul x x) = S754_infinity false.
Proof. cbv zeta. repeat split; vm_compute; reflexivity. Qed.
(** so the relative error is not small there: abs(1.5 * 2^-537) is off by more than a twentieth *)
Theorem C69_precision_refuted : let x := S754_finite false 6755399441055744 (-589) in let r := S754_finite false 6369051672525772 (-589) in
  finite_double x /\ (forall fuel, (900 <= fuel)%nat -> abs_complex fuel x b64_0 = Value r) /\
  let modulus := sqrt (real x * real x + real b64_0 * real b64_0) in (modulus / 20 < Rabs (real r - modulus))%R.
Proof.
  cbv zeta. split; [| split]; [reflexivity | | ].
  - intros fuel H. apply abs_complex_more with (1 := H). vm_compute. reflexivity.
  - assert (P : (0 < powerRZ 2 (-589))%R) by (rewrite <- (bpow_powerRZ radix2); apply bpow_gt_0).
    unfold b64_0, real. generalize dependent (powerRZ 2 (-589)). intros w P.
    rewrite Rmult_0_l, Rplus_0_r, sqrt_square by (apply Rmult_le_pos; lra).
    rewrite Rabs_left; lra.
Qed.
Print Assumptions C69_precision_refuted.
(** 2^600 + i does not return; 2^-530 + 2^-600 i does, and its second square is lost *)
Example C69_ranges : let d e := S754_finite false 4503599627370496 (e - 52)%Z in
  finite_double (d 600%Z) /\ (powerRZ 2 512 <= Rabs (real (d 600%Z)))%R /\
  finite_double (d (-530)%Z) /\ finite_double (d (-600)%Z) /\ b64_mul (d (-600)%Z) (d (-600)%Z) = S754_zero false /\
  (powerRZ 2 (-537) <= Rabs (real (d (-530)%Z)) <= powerRZ 2 511)%R /\ (Rabs (real (d (-600)%Z)) <= powerRZ 2 511)%R /\
  abs_complex 800 (d (-530)%Z) (d (-600)%Z) = Value (d (-530)%Z).
Proof.
  assert (V : forall e, real (S754_finite false 4503599627370496 (e - 52)%Z) = bpow radix2 e).
  { intros e. unfold real. rewrite <- (bpow_powerRZ radix2).
    change (IZR (Z.pos 4503599627370496)) with (bpow radix2 52). rewrite <- bpow_plus. f_equal. lia. }
  assert (A : forall e, Rabs (bpow radix2 e) = bpow radix2 e) by (intros e; apply Rabs_pos_eq, bpow_ge_0).
  cbv beta zeta. rewrite !V, !A, <- !(bpow_powerRZ radix2).
  repeat split; try (apply bpow_le; lia); vm_compute; reflexivity.
Qed.
Example C69_complex_hypotheses : squares_well (real (b64_of_int 3%Z)) /\ squares_well (real (b64_of_int (-5)%Z)) /\
  (real (b64_of_int 3%Z) <> 0)%R.
Proof.
  assert (P : (powerRZ 2 (-511) <= 1 /\ 8 <= powerRZ 2 511)%R).
  { rewrite <- !(bpow_powerRZ radix2). split; [apply (bpow_le radix2 (-511) 0) | apply (bpow_le radix2 3 511)]; lia. }
  assert (E : real (b64_of_int 3%Z) = 3%R /\ real (b64_of_int (-5)%Z) = (-5)%R) by (split; vm_compute b64_of_int; simpl; lra).
  destruct E as [-> ->]. unfold squares_well. rewrite Rabs_pos_eq, (Rabs_left (-5)) by lra. lra.
Qed.
Example C69_hypotheses : let d n := b64_of_int n%Z in let v n := real (b64_of_int n%Z) in
  finite_double (d 3%Z) /\ finite_double (d 4%Z) /\ finite_double (d 9%Z) /\ finite_double (d 16%Z) /\ finite_double (d 25%Z) /\
  (v 9%Z = v 3%Z * v 3%Z)%R /\ (v 16%Z = v 4%Z * v 4%Z)%R /\ (v 25%Z = v 9%Z + v 16%Z)%R /\
  abs_complex 20 (d 3%Z) (d 4%Z) = Value (d 5%Z).
Proof. cbv zeta. repeat split; try reflexivity; vm_compute b64_of_int; simpl; lra. Qed.

(** ** C59.  exponentiate, in exact arithmetic: every int exponent but INT_MIN *)
Theorem C59_exponentiate (F : FieldOps) : FieldLaws F -> forall (x : F) n, (0 <= n < 2 ^ 31) ->
  exponentiate_field F x n = Some (fpow x (Z.to_N n)).
Proof. intros FL x n. exact (exponentiate_pos F FL x n). Qed.
Print Assumptions C59_exponentiate.
Theorem C59_exponentiate_negative (F : FieldOps) : FieldLaws F -> forall (x : F) n, (- 2 ^ 31 < n < 0) -> x <> 0%fld ->
  exists y, exponentiate_field F x n = Some y /\ (y * fpow x (Z.to_N (- n)) = 1)%fld.
Proof.
  intros FL x n. exact (exponentiate_neg_inv F FL x n).
Qed.
Print Assumptions C59_exponentiate_negative.
Theorem C59_exponentiate_refuted (F : FieldOps) (x : F) : exponentiate_field F x (- 2 ^ 31) = None.
Proof. reflexivity. Qed.
Print Assumptions C59_exponentiate_refuted.
Example C59_case : option_map zval (exponentiate_field F13 (z13 2) 10) = Some 10 /\ option_map zval (exponentiate_field F13 (z13 2) (-3)) = Some 5.
Proof. split; vm_compute; reflexivity. Qed.
(** for doubles: when the exact power, and with it every intermediate one, stays clear of underflow and
    overflow, the relative error is at most |n| * 2^-51.  Missing from the full statement: powers
    outside 2^-1021 .. 2^1021, of which the two theorems below settle all but a few binades *)
Theorem C59_double_range x n : finite_double x -> (0 < Z.abs n < 2 ^ 31) ->
  (powerRZ 2 (-1021) <= Rabs (real x) ^ Z.abs_nat n <= powerRZ 2 1021)%R -> exists r,
  exponentiate_double x n = Some r /\ finite_double r /\
  let power := powerRZ (real x) n in (Rabs (real r - power) <= IZR (Z.abs n) * powerRZ 2 (-51) * Rabs power)%R.
Proof. exact (exp_double_bound x n). Qed.
Print Assumptions C59_double_range.
Theorem C59_double_zero x : exponentiate_double x 0 = Some b64_1.
Proof. reflexivity. Qed.
Print Assumptions C59_double_zero.
(** a power of at least 2^1025 is the infinity of the right sign, also for negative exponents and at 0 *)
Theorem C59_double_overflow x n : finite_double x -> (0 < Z.abs n < 2 ^ 31) ->
  ((0 < n)%Z /\ powerRZ 2 1025 <= Rabs (real x) ^ Z.abs_nat n)%R \/ ((n < 0)%Z /\ Rabs (real x) ^ Z.abs_nat n <= powerRZ 2 (-1025))%R ->
  exponentiate_double x n = Some (S754_infinity (negative x && Z.odd n)).
Proof. rewrite <- !(bpow_powerRZ radix2). exact (exp_overflow x n). Qed.
Print Assumptions C59_double_overflow.
(** a power of at most 2^-1023 is rounded to something below the normal range, possibly 0 *)
Theorem C59_double_underflow x n : finite_double x -> (0 < Z.abs n < 2 ^ 31) ->
  ((0 < n)%Z /\ Rabs (real x) ^ Z.abs_nat n <= powerRZ 2 (-1023))%R \/ ((n < 0)%Z /\ powerRZ 2 1023 <= Rabs (real x) ^ Z.abs_nat n)%R ->
  exists r, exponentiate_double x n = Some r /\ finite_double r /\ (Rabs (real r) <= powerRZ 2 (-1022))%R.
Proof. rewrite <- !(bpow_powerRZ radix2). exact (exp_underflow x n). Qed.
Print Assumptions C59_double_underflow.
(** (-2)^1025, 2^-1030 and 0^-3 *)
Example C59_double_ranges : let m2 := b64_of_int (-2)%Z in
  (powerRZ 2 1025 <= Rabs (real m2) ^ Z.abs_nat 1025)%R /\ (powerRZ 2 1023 <= Rabs (real m2) ^ Z.abs_nat (-1030))%R /\
  (Rabs (real b64_0) ^ Z.abs_nat (-3) <= powerRZ 2 (-1025))%R /\ exponentiate_double m2 1025 = Some (S754_infinity true) /\
  exponentiate_double m2 (-1030) = Some (S754_finite false 17592186044416 (-1074)) /\
  exponentiate_double b64_0 (-3) = Some (S754_infinity false).
Proof.
  cbv zeta. assert (E : Rabs (real (b64_of_int (-2)%Z)) = 2%R).
  { replace (real (b64_of_int (-2)%Z)) with (-2)%R by (vm_compute b64_of_int; simpl; lra). rewrite Rabs_left; lra. }
  rewrite E, !pow_powerRZ, <- !(bpow_powerRZ radix2), !Zabs2Nat.id_abs.
  split; [apply bpow_le; lia |]. split; [apply bpow_le; lia |]. split; [| repeat split; vm_compute; reflexivity].
  change (real b64_0) with 0%R. rewrite Rabs_R0.
  replace (powerRZ 0 (Z.abs (-3))) with 0%R by (simpl; ring). apply (bpow_ge_0 radix2).
Qed.
(** every finite double and every exponent: the power up to a relative and an absolute error, or the infinity of the
    right sign for a power above 2^1021; 0 to a negative power is in C59_double_overflow *)
Theorem C59_double x n : finite_double x -> (0 < Z.abs n < 2 ^ 31) -> (real x <> 0)%R \/ (0 < n)%Z -> exists r,
  exponentiate_double x n = Some r /\ let power := powerRZ (real x) n in
  ((finite_double r /\ (Rabs (real r - power) <= IZR (Z.abs n) * powerRZ 2 (-51) * Rabs power + IZR (Z.abs n) * powerRZ 2 (-1073))%R) \/
   (r = S754_infinity (negative x && Z.odd n) /\ (powerRZ 2 1021 < Rabs power)%R)).
Proof. exact (exp_total x n). Qed.
Print Assumptions C59_double.
(** 1.5 * 2^-1000 squared vanishes, (-3)^-675 keeps a few bits, 3^647 overflows *)
Example C59_double_total_case : let x := S754_finite false 6755399441055744 (-1052) in finite_double x /\ (real x <> 0)%R /\
  exponentiate_double x 2 = Some (S754_zero false) /\
  exponentiate_double (b64_of_int (-3)%Z) (-675) = Some (S754_finite true 18 (-1074)) /\
  exponentiate_double (b64_of_int 3%Z) 647 = Some (S754_infinity false).
Proof.
  cbv zeta. split; [reflexivity |]. split; [| repeat split; vm_compute; reflexivity].
  cbn [real]. pose proof (powerRZ_lt 2 (-1052) ltac:(lra)). nra.
Qed.
Lemma ends : (powerRZ 2 (-1021) <= 1 /\ 32 <= powerRZ 2 1021)%R.
Proof. rewrite <- !(bpow_powerRZ radix2). split; [apply (bpow_le radix2 (-1021) 0) | apply (bpow_le radix2 5 1021)]; lia. Qed.
Example C59_double_case : finite_double (b64_of_int 3%Z) /\
  (powerRZ 2 (-1021) <= Rabs (real (b64_of_int 3%Z)) ^ Z.abs_nat (-2) <= powerRZ 2 1021)%R /\
  exponentiate_double (b64_of_int 3%Z) (-2) = Some (S754_finite false 8006399337547548 (-56)).
Proof.
  split; [reflexivity |]. split; [| vm_compute; reflexivity]. pose proof ends.
  assert (E : real (b64_of_int 3%Z) = 3%R) by (vm_compute b64_of_int; simpl; lra). rewrite E, Rabs_pos_eq by lra.
  change (Z.abs_nat (-2)) with 2%nat. simpl. lra.
Qed.

(** ** C60.  nthroot: the cube root of 4 never returns: two neighbouring values alternate for ever *)
Theorem C60_terminates_refuted fuel : nthroot fuel (b64_of_int 4) 3 = OutOfFuel.
Proof. exact (nth_4_3 fuel). Qed.
Print Assumptions C60_terminates_refuted.
Example C60_case : nthroot 10 (b64_of_int 8) 3 = Value b64_2.
Proof. vm_compute. reflexivity. Qed.
(** neither does the cube root of 0; the square root of 0 is 2^-1074; and for a negative index
    the result is -inf where 8^(-1/3) is 1/2 *)
Theorem C60_zero_refuted fuel : nthroot fuel b64_0 3 = OutOfFuel.
Proof. exact (nth_0_3 fuel). Qed.
Print Assumptions C60_zero_refuted.
Theorem C60_zero_square_refuted : exists fuel, nthroot fuel b64_0 2 = Value (S754_finite false 1 (-1074)).
Proof. exists 1100%nat. vm_compute. reflexivity. Qed.
Print Assumptions C60_zero_square_refuted.
Theorem C60_negative_index_refuted : exists fuel, nthroot fuel (b64_of_int 8) (-3) = Value (S754_infinity true).
Proof. exists 20%nat. vm_compute. reflexivity. Qed.
Print Assumptions C60_negative_index_refuted.
Theorem C60_negative_rejected fuel x n : SFltb x b64_0 = true -> nthroot fuel x n = Thrown.
Proof. intros H. unfold nthroot. now rewrite H. Qed.
Print Assumptions C60_negative_rejected.
(** What a returned value is worth: r^n is x up to a relative error of n * 2^-51, when r and r^(n-1) stay clear
    of underflow and overflow.  Not covered: that a value is returned (it may not be, see above) *)
Theorem C60_result_partial fuel x n r : finite_double x -> (1 <= n < 2 ^ 31) -> nthroot fuel x n = Value r -> finite_double r ->
  (powerRZ 2 (-1000) <= real r)%R -> (powerRZ 2 (-1021) <= real r ^ Z.to_nat (n - 1) <= powerRZ 2 1021)%R ->
  let power := (real r ^ Z.to_nat n)%R in (Rabs (real x - power) <= IZR n * powerRZ 2 (-51) * power)%R.
Proof. exact (nthroot_residual fuel x n r). Qed.
Print Assumptions C60_result_partial.
Example C60_result_case : let r := S754_finite false 5674179970822795 (-52) in
  nthroot 100 b64_2 3 = Value r /\ finite_double r /\ (powerRZ 2 (-1000) <= real r)%R /\
  (powerRZ 2 (-1021) <= real r ^ Z.to_nat (3 - 1) <= powerRZ 2 1021)%R.
Proof.
  cbv zeta. split; [vm_compute; reflexivity |]. split; [reflexivity |]. destruct ends as [A B].
  assert (E : (1 <= real (S754_finite false 5674179970822795 (-52)) <= 2)%R) by (simpl; lra).
  set (r := real _) in *. change (Z.to_nat (3 - 1)) with 2%nat. simpl. split; [lra |]. split; nra.
Qed.
(** For the indices 1 and 2 a value is always returned: the argument itself after at most three turns, and one of
    the two doubles next to the square root.  Missing: which arguments of an index from 3 on return *)
Theorem C60_index_one_partial x : finite_double x -> (0 <= real x)%R -> forall fuel, (3 <= fuel)%nat -> exists r,
  nthroot fuel x 1 = Value r /\ finite_double r /\ real r = real x.
Proof. exact (nthroot_one x). Qed.
Print Assumptions C60_index_one_partial.
Theorem C60_index_two_partial x : finite_double x -> (0 < real x)%R -> exists n r,
  (forall fuel, (n <= fuel)%nat -> nthroot fuel x 2 = Value r) /\
  (double_below (sqrt (real x)) r \/ double_above (sqrt (real x)) r).
Proof. exact (nthroot_two x). Qed.
Print Assumptions C60_index_two_partial.
(** the largest and the smallest positive double, and 2 *)
Example C60_index_case : let top := S754_finite false 9007199254740991 971 in let tiny := S754_finite false 1 (-1074) in
  finite_double top /\ finite_double tiny /\ (0 < real tiny)%R /\ nthroot 3 top 1 = Value top /\ nthroot 3 tiny 1 = Value tiny /\
  nthroot 100 b64_2 2 = Value (S754_finite false 6369051672525772 (-52)) /\
  nthroot 1100 tiny 2 = Value (S754_finite false 4503599627370496 (-589)).
Proof.
  cbv zeta. repeat split; try reflexivity; try (vm_compute; reflexivity). unfold real. apply Rmult_lt_0_compat; [lra | apply powerRZ_lt; lra].
Qed.
