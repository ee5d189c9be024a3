(** Properties C01-C08, C13, C57: exponentiation and extension field arithmetic. *)
From Coq Require Import ZArith NArith List Bool Lia Ring Znumtheory.
From Verif Require Import Base.Field Base.Zp Base.Ext Spec.PolyQuot
  Model.Power Model.Fp Model.Fp2 Model.Fp3 Model.Fp4 Model.Fp6_2over3 Model.Fp6_3over2 Model.Fp12
  Proof.ExtTheory Proof.Power Proof.Towers Proof.FpHelpers Proof.FiniteField Proof.Shipped.
Import ListNotations.
Local Open Scope fld_scope.

(** ** Concrete instances used by the examples *)
Lemma prime_7 : prime 7.
Proof.
  apply prime_intro; [lia|]. intros n Hn. assert (H : (n = 1 \/ n = 2 \/ n = 3 \/ n = 4 \/ n = 5 \/ n = 6)%Z) by lia.
  apply Zgcd_1_rel_prime. destruct H as [->|[->|[->|[->|[->| ->]]]]]; reflexivity.
Qed.
Lemma prime_13 : prime 13.
Proof.
  apply prime_intro; [lia|]. intros n Hn.
  assert (H : forallb (fun k => Z.eqb (Z.gcd k 13) 1) (map Z.of_nat (seq 1 12)) = true) by reflexivity.
  rewrite forallb_forall in H. apply Zgcd_1_rel_prime, Z.eqb_eq, H.
  rewrite <- (Z2Nat.id n) by lia. apply in_map, in_seq. lia.
Qed.
Lemma F7 : FieldLaws (Zp 7).
Proof. apply Zp_field; [lia|apply prime_7]. Qed.
Lemma zp7_cases (P : Zp 7 -> Prop) :
  P (tozp 7 0) -> P (tozp 7 1) -> P (tozp 7 2) -> P (tozp 7 3) -> P (tozp 7 4) -> P (tozp 7 5) -> P (tozp 7 6) ->
  forall x, P x.
Proof.
  intros H0 H1 H2 H3 H4 H5 H6 x. rewrite <- (tozp_zval 7 x).
  assert (H := zval_range 7 ltac:(lia) x).
  assert (E : (zval x = 0 \/ zval x = 1 \/ zval x = 2 \/ zval x = 3 \/ zval x = 4 \/ zval x = 5 \/ zval x = 6)%Z) by lia.
  destruct E as [->|[->|[->|[->|[->|[->| ->]]]]]]; assumption.
Qed.
Lemma ns7_3 : not_square (K := Zp 7) (tozp 7 3).
Proof. intros x. pattern x. apply zp7_cases; intros H; apply (f_equal zval) in H; discriminate H. Qed.
Lemma nc7_3 : not_cube (K := Zp 7) (tozp 7 3).
Proof. intros x. pattern x. apply zp7_cases; intros H; apply (f_equal zval) in H; discriminate H. Qed.

(** ** C01 *)
(** pow of every element class is the product of e copies. *)
Theorem C01_fp2_pow (K : FieldOps) (nr : K) (x : Fp2 K nr) (e : N) :
  RingLaws K -> fp2_pow K nr x e = fpow x e.
Proof. intros R. apply (power_gen (Fp2 K nr)); auto; [apply fp2_ring, R|intros; apply (fp2_sqr_eq K nr R)]. Qed.
Theorem C01_fp3_pow (K : FieldOps) (nr : K) (x : Fp3 K nr) (e : N) :
  RingLaws K -> fp3_pow K nr x e = fpow x e.
Proof. intros R. apply (power_gen (Fp3 K nr)); auto; apply fp3_ring, R. Qed.
Theorem C01_fp4_pow (K : FieldOps) (nr : K) (x : Fp4 K nr nr) (e : N) :
  RingLaws K -> fp4_pow K nr nr x e = fpow x e.
Proof. intros R. apply (power_gen (Fp4 K nr nr)); auto; apply fp4_ring, R. Qed.
Theorem C01_fp6_2over3_pow (K : FieldOps) (nr : K) (x : Fp6t K nr nr) (e : N) :
  RingLaws K -> fp6t_pow K nr nr x e = fpow x e.
Proof. intros R. apply (power_gen (Fp6t K nr nr)); auto; [apply fp6t_ring, R|intros; apply (fp6t_sqr_eq K nr R)]. Qed.
Theorem C01_fp6_3over2_pow (K : FieldOps) (nr : K) (xi : Fp2 K nr)
    (x : Fp6 (Fp2 K nr) (fp2_sqr K nr) xi) (e : N) :
  RingLaws K -> fp6_pow (Fp2 K nr) xi x e = fpow x e.
Proof. intros R. apply (power_gen (Fp6 (Fp2 K nr) (fp2_sqr K nr) xi)); auto; apply fp6_ring, fp2_ring, R. Qed.
Theorem C01_fp12_pow (K : FieldOps) (nr : K) (xi : Fp2 K nr)
    (x : Fp12 (Fp2 K nr) (fp2_sqr K nr) xi xi) (e : N) :
  RingLaws K -> fp12_pow (Fp2 K nr) (fp2_sqr K nr) xi xi x e = fpow x e.
Proof. intros R. apply (power_gen (Fp12 (Fp2 K nr) (fp2_sqr K nr) xi xi)); auto; apply fp12_ring, fp2_ring, R. Qed.
(** prime field: powm computes the same, for every exponent *)
Theorem C01_fp_pow (p : Z) (x : Zp p) (e : N) : (1 < p)%Z -> fp_powm p x e = fpow x e.
Proof. apply fp_powm_eq. Qed.
(** and for built-in integer exponents in range of uint128_t *)
Theorem C01_fp_pow_int (p : Z) (x : Zp p) (e : Z) :
  (1 < p)%Z -> (0 <= e < 2 ^ 128)%Z -> fp_pow_int p x e = fpow x (Z.to_N e).
Proof.
  intros Hp He. unfold fp_pow_int. rewrite Z.mod_small by exact He. apply fp_powm_eq, Hp.
Qed.
(** A negative built-in exponent is silently converted to 2^128 - |e|: the
    result is not the inverse power. *)
Theorem C01_fp_pow_negative_refuted :
  exists (p : Z) (x : Zp p), prime p /\ x <> 0 /\ fp_pow_int p x (-1) <> finv x.
Proof.
  exists 7%Z, (tozp 7 3). split; [apply prime_7|]. split; intros H; apply (f_equal zval) in H.
  - discriminate H.
  - revert H. unfold fp_pow_int. rewrite fp_powm_mod7. vm_compute. discriminate.
Qed.
Example C01_example :
  let x : Fp2 (Zp 7) (tozp 7 3) := mkq (tozp 7 2) (tozp 7 1) in
  fp2_pow (Zp 7) (tozp 7 3) x 13 = fpow x 13 /\ fpow x 13 <> 1.
Proof.
  split; [apply C01_fp2_pow, Zp_ring; lia|]. intros H. apply (f_equal (fun z => zval (q1 z))) in H.
  vm_compute in H. discriminate H.
Qed.

(** ** C02 *)
Theorem C02_fp2_mul (K : FieldOps) (nr : K) (x y : Fp2 K nr) :
  RingLaws K ->
  let z := x * y in [q0 z; q1 z] = qmul 2 nr [q0 x; q1 x] [q0 y; q1 y].
Proof. intros R z. unfold z. cbn [Fp2 fmul]. rewrite (fp2_mul_eq K nr R). apply (Quad_mul_spec K nr R). Qed.
Theorem C02_fp2_mul_assign (K : FieldOps) (nr : K) (x y : Fp2 K nr) :
  fp2_mul_assign K nr x y = x * y.
Proof. reflexivity. Qed.
Theorem C02_fp2_squared (K : FieldOps) (nr : K) (x : Fp2 K nr) :
  RingLaws K ->
  let z := fp2_sqr K nr x in [q0 z; q1 z] = qmul 2 nr [q0 x; q1 x] [q0 x; q1 x].
Proof. intros R z. unfold z. rewrite (fp2_sqr_eq K nr R). apply C02_fp2_mul, R. Qed.
Theorem C02_fp2_linear (K : FieldOps) (nr : K) (x y : Fp2 K nr) (a : K) :
  RingLaws K ->
  let coeffs (z : Fp2 K nr) := [q0 z; q1 z] in
  coeffs (x + y) = padd (coeffs x) (coeffs y)
  /\ coeffs (- x) = map fopp (coeffs x)
  /\ coeffs (x - y) = padd (coeffs x) (map fopp (coeffs y))
  /\ coeffs (fp2_doubled K x) = padd (coeffs x) (coeffs x)
  /\ coeffs (fp2_smul K a x) = map (fmul a) (coeffs x)
  /\ fp2_smul_r K x a = fp2_smul K a x.
Proof.
  intros R coeffs. unfold coeffs.
  assert (R0 := RL_th K R).
  repeat split; cbn; repeat (apply f_equal2; [|]); try reflexivity;
  rewrite ?(Rsub_def R0), ?(Radd_0_l R0); reflexivity.
Qed.
(** All operations together: the class is a commutative ring with decidable ==. *)
Theorem C02_fp2_ring (K : FieldOps) (nr : K) : RingLaws K -> RingLaws (Fp2 K nr).
Proof. exact (fp2_ring K nr). Qed.
Theorem C02_fp2_neqb (K : FieldOps) (nr : K) (x y : Fp2 K nr) :
  RingLaws K -> (fp2_neqb K x y = true <-> x <> y).
Proof.
  intros R. rewrite fp2_neqb_eq, negb_true_iff. apply (feqb_false (Fp2 K nr)), fp2_ring, R.
Qed.
Example C02_example : RingLaws (Zp 7) /\
  (let x : Fp2 (Zp 7) (tozp 7 3) := mkq (tozp 7 2) (tozp 7 1) in
   map zval [q0 (x * x); q1 (x * x)] = [0; 4]%Z).
Proof. split; [apply Zp_ring; lia|]. vm_compute. reflexivity. Qed.

(** ** C03 *)
(** [finv] of the class [Fp2 K nr] is its inversed() ([fp2_inv], Model/Fp2.v),
    and likewise for the other classes below. *)
Theorem C03_fp2_inverse (K : FieldOps) (nr : K) (x : Fp2 K nr) :
  FieldLaws K -> not_square nr -> x <> 0 ->
  finv x * x = 1 /\ x * finv x = 1 /\ quad_norm K nr x <> 0.
Proof.
  intros F Hn Hx. assert (FF := fp2_field K nr F Hn).
  split; [|split].
  - apply (finv_l _ FF x Hx).
  - apply (finv_r _ FF x Hx).
  - apply quad_norm_neq_0; assumption.
Qed.
Theorem C03_fp2_field (K : FieldOps) (nr : K) : FieldLaws K -> not_square nr -> FieldLaws (Fp2 K nr).
Proof. exact (fp2_field K nr). Qed.
(** The condition is necessary. *)
Section NonsquareNecessary.
Variable K : FieldOps.
Hypothesis R : RingLaws K.
Add Ring Kr : (RL_th K R).
Lemma fp2_zero_divisor (r : K) :
  (mkq r 1 : Fp2 K (r * r)) * (mkq r (- (1))) = 0.
Proof. cbn [Fp2 fmul]. rewrite (fp2_mul_eq K _ R). cbn. unfold fp2_zero. f_equal; ring. Qed.
End NonsquareNecessary.
Theorem C03_nonsquare_necessary (K : FieldOps) (nr : K) :
  FieldLaws K -> FieldLaws (Fp2 K nr) -> not_square nr.
Proof.
  intros F FF r Hr. assert (R := FieldLaws_Ring K F).
  subst nr. assert (E := fp2_zero_divisor K R r).
  apply (fmul_integral _ FF) in E. assert (H1 := f1_neq_0 K F).
  destruct E as [E|E]; apply (f_equal q1) in E; cbn in E; [contradiction|].
  apply (fopp_0_inv K R) in E. contradiction.
Qed.
Example C03_example : FieldLaws (Fp2 (Zp 7) (tozp 7 3)) /\
  (mkq (tozp 7 2) (tozp 7 1) : Fp2 (Zp 7) (tozp 7 3)) <> 0.
Proof.
  split; [apply fp2_field; [apply F7|apply ns7_3]|].
  intros H. apply (f_equal (fun z => zval (q1 z))) in H. discriminate H.
Qed.

(** ** C04 *)
Theorem C04_fp3_mul (K : FieldOps) (nr : K) (x y : Fp3 K nr) :
  RingLaws K ->
  let z := x * y in [c0 z; c1 z; c2 z] = qmul 3 nr [c0 x; c1 x; c2 x] [c0 y; c1 y; c2 y].
Proof. intros R z. unfold z. cbn [Fp3 fmul]. rewrite (fp3_mul_eq K nr R). apply (Cub_mul_spec K nr R). Qed.
Theorem C04_fp3_mul_assign (K : FieldOps) (nr : K) (x y : Fp3 K nr) :
  fp3_mul_assign K nr x y = x * y /\ fp3_sqr K nr x = x * x.
Proof. split; reflexivity. Qed.
Theorem C04_fp3_neqb (K : FieldOps) (nr : K) (x y : Fp3 K nr) :
  RingLaws K -> (fp3_neqb K x y = true <-> x <> y).
Proof.
  intros R. rewrite fp3_neqb_eq, negb_true_iff. apply (feqb_false (Fp3 K nr)), fp3_ring, R.
Qed.
Theorem C04_fp3_linear (K : FieldOps) (nr : K) (x y : Fp3 K nr) (a : K) :
  RingLaws K ->
  let coeffs (z : Fp3 K nr) := [c0 z; c1 z; c2 z] in
  coeffs (x + y) = padd (coeffs x) (coeffs y)
  /\ coeffs (- x) = map fopp (coeffs x)
  /\ coeffs (x - y) = padd (coeffs x) (map fopp (coeffs y))
  /\ coeffs (fp3_doubled K x) = padd (coeffs x) (coeffs x)
  /\ coeffs (fp3_smul K a x) = map (fmul a) (coeffs x).
Proof.
  intros R coeffs. unfold coeffs.
  assert (R0 := RL_th K R).
  repeat split; cbn; repeat (apply f_equal2; [|]); try reflexivity;
  rewrite ?(Rsub_def R0), ?(Radd_0_l R0); reflexivity.
Qed.
Theorem C04_fp3_ring (K : FieldOps) (nr : K) : RingLaws K -> RingLaws (Fp3 K nr).
Proof. exact (fp3_ring K nr). Qed.
Theorem C04_fp3_inverse (K : FieldOps) (nr : K) (x : Fp3 K nr) :
  FieldLaws K -> not_cube nr -> x <> 0 -> finv x * x = 1 /\ x * finv x = 1.
Proof.
  intros F Hn Hx. assert (FF := fp3_field K nr F Hn).
  split; [apply (finv_l _ FF x Hx)|apply (finv_r _ FF x Hx)].
Qed.
Theorem C04_fp3_field (K : FieldOps) (nr : K) : FieldLaws K -> not_cube nr -> FieldLaws (Fp3 K nr).
Proof. exact (fp3_field K nr). Qed.
Example C04_example : FieldLaws (Fp3 (Zp 7) (tozp 7 3)) /\
  (mkc (tozp 7 2) (tozp 7 0) (tozp 7 5) : Fp3 (Zp 7) (tozp 7 3)) <> 0.
Proof.
  split; [apply fp3_field; [apply F7|apply nc7_3]|].
  intros H. apply (f_equal (fun z => zval (c2 z))) in H. discriminate H.
Qed.

(** ** C05 *)
Theorem C05_fp4_mul (K : FieldOps) (nr : K) (x y : Fp4 K nr nr) :
  RingLaws K ->
  let u : Fp2 K nr := mkq 0 1 in
  let z := x * y in [q0 z; q1 z] = qmul (K := Fp2 K nr) 2 u [q0 x; q1 x] [q0 y; q1 y].
Proof.
  intros R u z. unfold z. cbn [Fp4 fmul]. rewrite (fp4_mul_eq K nr R).
  apply (Quad_mul_spec (Fp2 K nr) u (fp2_ring K nr R)).
Qed.
Theorem C05_fp4_mul_by_non_residue (K : FieldOps) (nr : K) (a : Fp2 K nr) :
  RingLaws K -> fp4_mbnr K nr nr a = (mkq 0 1 : Fp2 K nr) * a.
Proof. intros R. apply (fp4_mbnr_eq K nr R). Qed.
Theorem C05_fp4_mul_assign (K : FieldOps) (nr : K) (x y : Fp4 K nr nr) :
  fp4_mul_assign K nr nr x y = x * y /\ fp4_sqr K nr nr x = x * x.
Proof. split; reflexivity. Qed.
Theorem C05_fp4_linear (K : FieldOps) (nr : K) (x y : Fp4 K nr nr) :
  RingLaws K ->
  x + y = mkq (q0 x + q0 y) (q1 x + q1 y) /\ fp4_doubled K nr x = x + x
  /\ q0 (- x) = - q0 x /\ q1 (- x) = - q1 x /\ x - y = x + - y.
Proof.
  intros R. assert (RF := fp4_ring K nr R). assert (R2 := fp2_ring K nr R).
  split; [reflexivity|]. split; [reflexivity|].
  split; [|split].
  - change (f0 - q0 x = - q0 x). rewrite (Rsub_def (RL_th _ R2)). apply (Radd_0_l (RL_th _ R2)).
  - change (f0 - q1 x = - q1 x). rewrite (Rsub_def (RL_th _ R2)). apply (Radd_0_l (RL_th _ R2)).
  - apply (Rsub_def (RL_th _ RF)).
Qed.
Theorem C05_fp4_ring (K : FieldOps) (nr : K) : RingLaws K -> RingLaws (Fp4 K nr nr).
Proof. exact (fp4_ring K nr). Qed.
Theorem C05_fp4_inverse (K : FieldOps) (nr : K) (x : Fp4 K nr nr) :
  FieldLaws K -> not_square nr -> not_square (K := Fp2 K nr) (mkq 0 1) -> x <> 0 ->
  finv x * x = 1 /\ x * finv x = 1.
Proof.
  intros F Hn Hu Hx. assert (FF := fp4_field K nr (fp2_field K nr F Hn) (FieldLaws_Ring K F) Hu).
  split; [apply (finv_l _ FF x Hx)|apply (finv_r _ FF x Hx)].
Qed.

Example C05_example :
  let K := Zp 13 in let nr : K := tozp 13 2 in
  FieldLaws K /\ not_square nr /\ not_square (K := Fp2 K nr) (mkq 0 1) /\
  (let x : Fp4 K nr nr := mkq (mkq (tozp 13 1) (tozp 13 2)) (mkq (tozp 13 3) (tozp 13 4)) in
   let y : Fp4 K nr nr := mkq (mkq (tozp 13 5) (tozp 13 6)) (mkq (tozp 13 7) (tozp 13 8)) in
   let z := x * y in
   map zval [q0 (q0 z); q1 (q0 z); q0 (q1 z); q1 (q1 z)] = [3; 10; 11; 8]%Z /\ x <> 0 /\ finv x * x = 1).
Proof.
  intros K nr. assert (P : prime 13) by (apply prime_13).
  assert (FK := Zp_FinField 13 P).
  destruct (tower4_sound K 13 FK ltac:(lia) nr ltac:(vm_compute; reflexivity)) as [F2 F4].
  assert (N2 : not_square nr) by (apply (nonpower_2 K 13 1 FK); vm_compute; reflexivity).
  assert (N4 : not_square (K := Fp2 K nr) (mkq 0 1)) by (apply (nonpower_2 _ 13 2 F2); vm_compute; reflexivity).
  split; [apply FK|]. split; [exact N2|]. split; [exact N4|]. intros x y z. split; [vm_compute; reflexivity|]. assert (X : x <> 0).
  { intros H. apply (f_equal (fun z => zval (q0 (q0 z)))) in H. vm_compute in H. discriminate H. }
  split; [exact X|]. exact (proj1 (C05_fp4_inverse K nr _ (FF_field _ _ _ FK) N2 N4 X)).
Qed.

(** ** C06 *)
Theorem C06_fp6_mul (K : FieldOps) (nr : K) (xi : Fp2 K nr)
    (x y : Fp6 (Fp2 K nr) (fp2_sqr K nr) xi) :
  RingLaws K ->
  let z := x * y in
  [c0 z; c1 z; c2 z] = qmul (K := Fp2 K nr) 3 xi [c0 x; c1 x; c2 x] [c0 y; c1 y; c2 y].
Proof.
  intros R z. unfold z. cbn [Fp6 fmul]. rewrite (fp6_mul_eq (Fp2 K nr) xi (fp2_ring K nr R)).
  apply (Cub_mul_spec (Fp2 K nr) xi (fp2_ring K nr R)).
Qed.
Theorem C06_fp6_mul_assign (K : FieldOps) (nr : K) (xi : Fp2 K nr)
    (x y : Fp6 (Fp2 K nr) (fp2_sqr K nr) xi) :
  fp6_mul_assign (Fp2 K nr) xi x y = x * y /\ fp6_sqr (Fp2 K nr) xi x = x * x.
Proof. split; reflexivity. Qed.
Theorem C06_fp6_ring (K : FieldOps) (nr : K) (xi : Fp2 K nr) :
  RingLaws K -> RingLaws (Fp6 (Fp2 K nr) (fp2_sqr K nr) xi).
Proof. intros R. apply fp6_ring, fp2_ring, R. Qed.
Theorem C06_fp6_smul (K : FieldOps) (nr : K) (xi : Fp2 K nr) (a : Fp2 K nr)
    (x : Fp6 (Fp2 K nr) (fp2_sqr K nr) xi) :
  RingLaws K ->
  fp6_smul (Fp2 K nr) a x = (mkc a 0 0 : Fp6 (Fp2 K nr) (fp2_sqr K nr) xi) * x
  /\ fp6_doubled (Fp2 K nr) x = x + x.
Proof. intros R. split; [|reflexivity]. apply (fp6_smul_eq (Fp2 K nr) (fp2_sqr K nr) xi), fp2_ring, R. Qed.
Theorem C06_fp6_inverse (K : FieldOps) (nr : K) (xi : Fp2 K nr)
    (x : Fp6 (Fp2 K nr) (fp2_sqr K nr) xi) :
  FieldLaws K -> not_square nr -> not_cube xi -> x <> 0 ->
  finv x * x = 1
  /\ x * finv x = 1.
Proof.
  intros F Hn Hc Hx.
  assert (FF := fp6_field (Fp2 K nr) (fp2_sqr K nr) xi (fp2_field K nr F Hn)
                  (fp2_sqr_eq K nr (FieldLaws_Ring K F)) Hc).
  split; [apply (finv_l _ FF x Hx)|apply (finv_r _ FF x Hx)].
Qed.

Example C06_example :
  let K := Zp 7 in let nr : K := tozp 7 3 in let xi : Fp2 K nr := mkq (tozp 7 1) (tozp 7 1) in
  FieldLaws K /\ not_square nr /\ not_cube xi /\
  (let x : Fp6 (Fp2 K nr) (fp2_sqr K nr) xi := mkc (mkq (tozp 7 1) (tozp 7 2)) (mkq (tozp 7 3) (tozp 7 4)) (mkq (tozp 7 5) (tozp 7 6)) in
   x <> 0 /\ finv x * x = 1 /\ map zval [q0 (c0 (x * x)); q1 (c0 (x * x)); q0 (c2 (x * x)); q1 (c2 (x * x))] = [2; 2; 6; 0]%Z).
Proof.
  intros K nr xi. assert (FK := Zp_FinField 7 prime_7).
  destruct (tower12_sound K 7 FK ltac:(lia) nr xi ltac:(vm_compute; reflexivity)) as (F2 & _ & _).
  assert (N2 : not_square nr) by apply ns7_3.
  assert (N3 : not_cube xi) by (apply (nonpower_3 _ 7 2 F2); vm_compute; reflexivity).
  split; [apply F7|]. split; [exact N2|]. split; [exact N3|].
  intros x. assert (X : x <> 0).
  { intros H. apply (f_equal (fun z => zval (q0 (c0 z)))) in H. vm_compute in H. discriminate H. }
  split; [exact X|]. split; [exact (proj1 (C06_fp6_inverse K nr xi _ F7 N2 N3 X))|]. vm_compute. reflexivity.
Qed.

(** ** C07 *)
Theorem C07_fp6_mul (K : FieldOps) (nr : K) (x y : Fp6t K nr nr) :
  RingLaws K ->
  let u : Fp3 K nr := mkc 0 1 0 in
  let z := x * y in [q0 z; q1 z] = qmul (K := Fp3 K nr) 2 u [q0 x; q1 x] [q0 y; q1 y].
Proof.
  intros R u z. unfold z. cbn [Fp6t fmul]. rewrite (fp6t_mul_eq K nr R).
  apply (Quad_mul_spec (Fp3 K nr) u (fp3_ring K nr R)).
Qed.
Theorem C07_fp6_squared (K : FieldOps) (nr : K) (x y : Fp6t K nr nr) :
  RingLaws K -> fp6t_sqr K nr nr x = x * x /\ fp6t_mul_assign K nr nr x y = x * y.
Proof. intros R. split; [apply (fp6t_sqr_eq K nr R)|reflexivity]. Qed.
Theorem C07_fp6_ring (K : FieldOps) (nr : K) : RingLaws K -> RingLaws (Fp6t K nr nr).
Proof. exact (fp6t_ring K nr). Qed.
Theorem C07_fp6_smul (K : FieldOps) (nr : K) (a : K) (x : Fp6t K nr nr) :
  RingLaws K -> fp6t_smul K nr a x = (mkq (A:=Fp3 K nr) (mkc a 0 0) 0 : Fp6t K nr nr) * x
  /\ fp6t_doubled K nr x = x + x.
Proof. intros R. split; [apply (fp6t_smul_eq K nr R)|reflexivity]. Qed.
Theorem C07_fp6_inverse (K : FieldOps) (nr : K) (x : Fp6t K nr nr) :
  FieldLaws K -> not_cube nr -> not_square (K := Fp3 K nr) (mkc 0 1 0) -> x <> 0 ->
  finv x * x = 1 /\ x * finv x = 1.
Proof.
  intros F Hn Hu Hx. assert (FF := fp6t_field K nr (fp3_field K nr F Hn) (FieldLaws_Ring K F) Hu).
  split; [apply (finv_l _ FF x Hx)|apply (finv_r _ FF x Hx)].
Qed.

Example C07_example :
  let K := Zp 7 in let nr : K := tozp 7 3 in
  FieldLaws K /\ not_cube nr /\ not_square (K := Fp3 K nr) (mkc 0 1 0) /\
  (let x : Fp6t K nr nr := mkq (mkc (tozp 7 1) (tozp 7 2) (tozp 7 3)) (mkc (tozp 7 4) (tozp 7 5) (tozp 7 6)) in
   x <> 0 /\ finv x * x = 1 /\ map zval [c0 (q0 (x * x)); c1 (q0 (x * x)); c2 (q0 (x * x)); c0 (q1 (x * x))] = [4; 3; 4; 2]%Z).
Proof.
  intros K nr. assert (FK := Zp_FinField 7 prime_7).
  destruct (tower6_sound K 7 FK ltac:(lia) nr ltac:(vm_compute; reflexivity)) as (F3 & _).
  assert (N3 : not_cube nr) by apply nc7_3.
  assert (N2 : not_square (K := Fp3 K nr) (mkc 0 1 0)) by (apply (nonpower_2 _ 7 3 F3); vm_compute; reflexivity).
  split; [apply F7|]. split; [exact N3|]. split; [exact N2|].
  intros x. assert (X : x <> 0).
  { intros H. apply (f_equal (fun z => zval (c0 (q0 z)))) in H. vm_compute in H. discriminate H. }
  split; [exact X|]. split; [exact (proj1 (C07_fp6_inverse K nr _ F7 N3 N2 X))|]. vm_compute. reflexivity.
Qed.

(** ** C08 *)
Theorem C08_fp12_mul (K : FieldOps) (nr : K) (xi : Fp2 K nr)
    (x y : Fp12 (Fp2 K nr) (fp2_sqr K nr) xi xi) :
  RingLaws K ->
  let v : Fp6 (Fp2 K nr) (fp2_sqr K nr) xi := mkc 0 1 0 in
  let z := x * y in
  [q0 z; q1 z] = qmul (K := Fp6 (Fp2 K nr) (fp2_sqr K nr) xi) 2 v [q0 x; q1 x] [q0 y; q1 y].
Proof.
  intros R v z. unfold z. cbn [Fp12 fmul]. rewrite (fp12_mul_eq (Fp2 K nr) (fp2_sqr K nr) xi (fp2_ring K nr R)).
  apply (Quad_mul_spec (Fp6 (Fp2 K nr) (fp2_sqr K nr) xi) v (fp6_ring _ _ _ (fp2_ring K nr R))).
Qed.
Theorem C08_fp12_mul_assign (K : FieldOps) (nr : K) (xi : Fp2 K nr)
    (x y : Fp12 (Fp2 K nr) (fp2_sqr K nr) xi xi) :
  fp12_mul_assign (Fp2 K nr) (fp2_sqr K nr) xi xi x y = x * y
  /\ fp12_sqr (Fp2 K nr) (fp2_sqr K nr) xi xi x = x * x.
Proof. split; reflexivity. Qed.
Theorem C08_fp12_ring (K : FieldOps) (nr : K) (xi : Fp2 K nr) :
  RingLaws K -> RingLaws (Fp12 (Fp2 K nr) (fp2_sqr K nr) xi xi).
Proof. intros R. apply fp12_ring, fp2_ring, R. Qed.
Theorem C08_fp12_inverse (K : FieldOps) (nr : K) (xi : Fp2 K nr)
    (x : Fp12 (Fp2 K nr) (fp2_sqr K nr) xi xi) :
  FieldLaws K -> not_square nr -> not_cube xi ->
  not_square (K := Fp6 (Fp2 K nr) (fp2_sqr K nr) xi) (mkc 0 1 0) -> x <> 0 ->
  finv x * x = 1
  /\ x * finv x = 1.
Proof.
  intros F Hn Hc Hv Hx.
  assert (F6 := fp6_field (Fp2 K nr) (fp2_sqr K nr) xi (fp2_field K nr F Hn)
                  (fp2_sqr_eq K nr (FieldLaws_Ring K F)) Hc).
  assert (FF := fp12_field (Fp2 K nr) (fp2_sqr K nr) xi F6 (fp2_ring K nr (FieldLaws_Ring K F))
                  (fp2_sqr_eq K nr (FieldLaws_Ring K F)) Hv).
  split; [apply (finv_l _ FF x Hx)|apply (finv_r _ FF x Hx)].
Qed.
Theorem C08_fp12_smul (K : FieldOps) (nr : K) (xi : Fp2 K nr)
    (x : Fp12 (Fp2 K nr) (fp2_sqr K nr) xi xi) (a6 : Fp6 (Fp2 K nr) (fp2_sqr K nr) xi) (a2 : Fp2 K nr) (a : K) :
  RingLaws K ->
  let F6 := Fp6 (Fp2 K nr) (fp2_sqr K nr) xi in
  let F12 := Fp12 (Fp2 K nr) (fp2_sqr K nr) xi xi in
  fp12_smul6 (Fp2 K nr) (fp2_sqr K nr) xi a6 x = (mkq (A:=F6) a6 0 : F12) * x
  /\ fp12_smul2 (Fp2 K nr) (fp2_sqr K nr) xi a2 x = (mkq (A:=F6) (mkc a2 0 0) 0 : F12) * x
  /\ fp12_smulK K nr a x = (mkq (A:=F6) (mkc (A:=Fp2 K nr) (mkq a 0) 0 0) 0 : F12) * x
  /\ fp12_doubled (Fp2 K nr) (fp2_sqr K nr) xi x = x + x.
Proof.
  intros R F6 F12. assert (R2 := fp2_ring K nr R).
  split; [apply (fp12_smul6_eq _ _ _ R2)|]. split; [apply (fp12_smul2_eq _ _ _ R2)|].
  split; [|reflexivity].
  unfold F6, F12. rewrite <- (fp12_smul2_eq (Fp2 K nr) (fp2_sqr K nr) xi R2).
  unfold fp12_smulK, fp12_smul2, fp6_smulK, fp6_smul. rewrite !(fp2_smul_eq K nr R). reflexivity.
Qed.

Example C08_example :
  let K := Zp 7 in let nr : K := tozp 7 3 in let xi : Fp2 K nr := mkq (tozp 7 1) (tozp 7 1) in
  FieldLaws K /\ not_square nr /\ not_cube xi /\ not_square (K := Fp6 (Fp2 K nr) (fp2_sqr K nr) xi) (mkc 0 1 0) /\
  (let x : Fp12 (Fp2 K nr) (fp2_sqr K nr) xi xi := mkq (mkc (mkq (tozp 7 1) (tozp 7 2)) (mkq (tozp 7 3) (tozp 7 4)) (mkq (tozp 7 5) (tozp 7 6))) (mkc (mkq (tozp 7 0) (tozp 7 1)) (mkq (tozp 7 2) (tozp 7 3)) (mkq (tozp 7 4) (tozp 7 5))) in
   x <> 0 /\ finv x * x = 1 /\ map zval [q0 (c0 (q0 (x * x))); q1 (c1 (q0 (x * x))); q0 (c2 (q1 (x * x)))] = [4; 6; 6]%Z).
Proof.
  intros K nr xi. assert (FK := Zp_FinField 7 prime_7).
  destruct (tower12_sound K 7 FK ltac:(lia) nr xi ltac:(vm_compute; reflexivity)) as (F2 & F6 & _).
  assert (N2 : not_square nr) by apply ns7_3.
  assert (N3 : not_cube xi) by (apply (nonpower_3 _ 7 2 F2); vm_compute; reflexivity).
  assert (N6 : not_square (K := Fp6 (Fp2 K nr) (fp2_sqr K nr) xi) (mkc 0 1 0)) by (apply (nonpower_2 _ 7 6 F6); vm_compute; reflexivity).
  split; [apply F7|]. split; [exact N2|]. split; [exact N3|]. split; [exact N6|].
  intros x. assert (X : x <> 0).
  { intros H. apply (f_equal (fun z => zval (q0 (c0 (q0 z))))) in H. vm_compute in H. discriminate H. }
  split; [exact X|]. split; [exact (proj1 (C08_fp12_inverse K nr xi _ F7 N2 N3 N6 X))|]. vm_compute. reflexivity.
Qed.

(** ** C13 *)
Theorem C13_fp12_mul_by_045 (K : FieldOps) (nr : K) (xi : Fp2 K nr)
    (x : Fp12 (Fp2 K nr) (fp2_sqr K nr) xi xi) (ell_0 ell_VW ell_VV : Fp2 K nr) :
  RingLaws K ->
  fp12_mul_by_045 (Fp2 K nr) (fp2_sqr K nr) xi xi x ell_0 ell_VW ell_VV
  = x * (mkq (mkc ell_VW 0 0) (mkc 0 ell_0 ell_VV)).
Proof. intros R. apply fp12_mul_by_045_eq, fp2_ring, R. Qed.
Theorem C13_fp12_mul_by_024 (K : FieldOps) (nr : K) (xi : Fp2 K nr)
    (x : Fp12 (Fp2 K nr) (fp2_sqr K nr) xi xi) (ell_0 ell_VW ell_VV : Fp2 K nr) :
  fp12_mul_by_024 (Fp2 K nr) (fp2_sqr K nr) xi xi x ell_0 ell_VW ell_VV
  = x * (mkq (mkc ell_0 0 ell_VV) (mkc 0 ell_VW 0)).
Proof. reflexivity. Qed.
Theorem C13_fp4_mul_by_023 (K : FieldOps) (nr : K) (x : Fp4 K nr nr) (A0 : K) (B : Fp2 K nr) :
  RingLaws K ->
  fp4_mul_by_023 K nr nr x (mkq (mkq A0 0) B) = Some (x * (mkq (mkq A0 0) B : Fp4 K nr nr)).
Proof. intros R. apply (fp4_mul_by_023_eq K nr R). Qed.
(** the assertion rejects every operand that is not of that shape *)
Theorem C13_fp4_mul_by_023_rejects (K : FieldOps) (nr : K) (x : Fp4 K nr nr) (A B : Fp2 K nr) :
  RingLaws K -> q1 A <> 0 -> fp4_mul_by_023 K nr nr x (mkq A B) = None.
Proof. intros R. apply (fp4_mul_by_023_none K nr R). Qed.
Theorem C13_fp6_mul_by_2345 (K : FieldOps) (nr : K) (x : Fp6t K nr nr) (A2 : K) (B : Fp3 K nr) :
  RingLaws K ->
  fp6t_mul_by_2345 K nr nr x (mkq (mkc 0 0 A2) B) = x * (mkq (mkc 0 0 A2) B : Fp6t K nr nr).
Proof. intros R. apply (fp6t_mul_by_2345_eq K nr R). Qed.
(** operands of any other shape are not rejected and give a wrong product *)
Theorem C13_fp6_mul_by_2345_other_shape_refuted :
  exists (x y : Fp6t (Zp 7) (tozp 7 3) (tozp 7 3)),
    fp6t_mul_by_2345 (Zp 7) (tozp 7 3) (tozp 7 3) x y <> x * y.
Proof.
  exists 1, 1. intros H. apply (f_equal (fun z => zval (c0 (q0 z)))) in H. vm_compute in H. discriminate H.
Qed.
(** mulFp6_24_Fp_01, mul_Fp_b and mul_Fp_c scale single coefficients; they are
    not products with a sparse element. *)
Theorem C13_fp6_scalings (K : FieldOps) (nr : K) (x : cub (Fp2 K nr)) (b b0 b1 : K) :
  RingLaws K ->
  fp6_mul_Fp_b K nr x b = mkc (c0 x) (c1 x * (mkq b 0 : Fp2 K nr)) (c2 x)
  /\ fp6_mul_Fp_c K nr x b = mkc (c0 x) (c1 x) (c2 x * (mkq b 0 : Fp2 K nr))
  /\ fp6_mulFp6_24_Fp_01 K nr x b0 b1
     = mkc (c0 x) (c1 x * (mkq b1 0 : Fp2 K nr)) (c2 x * (mkq b0 0 : Fp2 K nr)).
Proof.
  intros R. unfold fp6_mul_Fp_b, fp6_mul_Fp_c, fp6_mulFp6_24_Fp_01.
  rewrite !(fp2_mul_Fp_0_eq K nr R). auto.
Qed.
Example C13_example :
  let K := Zp 7 in let nr := tozp 7 3 in
  let x : Fp4 K nr nr := mkq (mkq (tozp 7 1) (tozp 7 2)) (mkq (tozp 7 3) (tozp 7 4)) in
  let y : Fp4 K nr nr := mkq (mkq (tozp 7 5) (tozp 7 0)) (mkq (tozp 7 6) (tozp 7 2)) in
  option_map (fun z : Fp4 K nr nr => (zval (q0 (q0 z)), zval (q1 (q1 z)))) (fp4_mul_by_023 K nr nr x y)
  = Some (zval (q0 (q0 (x * y))), zval (q1 (q1 (x * y)))).
Proof. vm_compute. reflexivity. Qed.

(** ** C57 *)
Theorem C57_fp_helpers (p : Z) (x y : Zp p) (n : Z) : (1 < p)%Z ->
  fp_incr p x = x + 1 /\ fst (fp_postincr p x) = x /\ snd (fp_postincr p x) = x + 1
  /\ fp_decr p x = x - 1 /\ fst (fp_postdecr p x) = x /\ snd (fp_postdecr p x) = x - 1
  /\ fp_doubled p x = x * 2 /\ fp_sqr p x = fpow x 2
  /\ (fp_is_zero p x = true <-> x = 0) /\ (fp_is_one p x = true <-> x = 1)
  /\ (fp_neqb p x y = true <-> x <> y)
  /\ fp_of_int p n = fofZ n.
Proof. apply fp_helpers. Qed.
(** the comparison operators are a total order that extends to the least residues *)
Theorem C57_fp_order (p : Z) (x y : Zp p) :
  (fp_ltb p x y = true <-> (zval x < zval y)%Z)
  /\ fp_gtb p x y = fp_ltb p y x /\ fp_geb p x y = negb (fp_ltb p x y)
  /\ fp_leb p x y = negb (fp_ltb p y x)
  /\ (fp_leb p x y = true -> fp_leb p y x = true -> x = y).
Proof. apply fp_order. Qed.
Theorem C57_fp2_mul_x (K : FieldOps) (x : Fp2 K (- (1))) (b : K) : RingLaws K ->
  fp2_mul_x K x = x * (mkq 0 1)
  /\ fp2_mul_xi K x = x * (mkq (fofZ 9) 1)
  /\ fp2_mul_Fp_0 K x b = x * (mkq b 0)
  /\ fp2_mul_Fp_1 K x b = x * (mkq 0 b).
Proof.
  intros R. split; [apply fp2_mul_x_eq; auto|]. split; [apply fp2_mul_xi_eq; auto|].
  split; [apply fp2_mul_Fp_0_eq; auto|apply fp2_mul_Fp_1_eq; auto].
Qed.
(** For a non_residue other than -1 the helper mul_x is not multiplication by u. *)
Theorem C57_fp2_mul_x_other_nonresidue_refuted :
  exists (p : Z) (nr : Zp p) (x : Fp2 (Zp p) nr), prime p /\ not_square nr /\
    fp2_mul_x (Zp p) x <> x * (mkq 0 1 : Fp2 (Zp p) nr).
Proof.
  exists 7%Z, (tozp 7 3), (mkq (tozp 7 0) (tozp 7 1)). split; [apply prime_7|]. split; [apply ns7_3|].
  intros H. apply (f_equal (fun z => zval (q0 z))) in H. vm_compute in H. discriminate H.
Qed.
Example C57_example : zval (fp_decr 7 (tozp 7 0)) = 6%Z /\ zval (fp_of_int 7 (-3)) = 4%Z.
Proof. split; reflexivity. Qed.
