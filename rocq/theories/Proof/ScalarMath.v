From Coq Require Import ZArith NArith Bool Lia Floats.SpecFloat Ring Field.
From Verif Require Import Base.Field Model.ScalarMath.
Local Open Scope Z_scope.

(** ** a loop that is still running after more steps was running before *)
Lemma sqrt_mono : forall k fuel x p e, sqrt_loop (fuel + k) x p e = OutOfFuel -> sqrt_loop fuel x p e = OutOfFuel.
Proof.
  intros k. induction fuel as [|f IH]; intros x p e; cbn [sqrt_loop Nat.add]; destruct k; cbn [sqrt_loop]; destruct (SFeqb p e);
    try (intros H; exact H); try discriminate; try reflexivity; apply IH.
Qed.
Lemma sqrt_nan x : forall fuel p, sqrt_loop fuel x p S754_nan = OutOfFuel.
Proof.
  assert (E : forall p, SFeqb p S754_nan = false) by (intros []; reflexivity).
  induction fuel as [|f IH]; intros p; cbn [sqrt_loop]; rewrite E; [reflexivity|].
  replace (b64_div (b64_add S754_nan (b64_div x S754_nan)) b64_2) with S754_nan; [apply IH|].
  unfold b64_add. cbn [SFadd]. reflexivity.
Qed.
(** k steps of the loop, provided none of them stops *)
Fixpoint sqrt_steps (k : nat) (x p e : spec_float) : option (spec_float * spec_float) :=
  match k with
  | O => Some (p, e)
  | S k' => if SFeqb p e then None else sqrt_steps k' x e (b64_div (b64_add e (b64_div x e)) b64_2)
  end.
Lemma sqrt_steps_ok x : forall k p e p' e' fuel, sqrt_steps k x p e = Some (p', e') -> sqrt_loop (k + fuel) x p e = sqrt_loop fuel x p' e'.
Proof.
  induction k as [|k IH]; intros p e p' e' fuel; cbn [sqrt_steps].
  - intros H. injection H as <- <-. reflexivity.
  - cbn [Nat.add sqrt_loop]. destruct (SFeqb p e); [discriminate|]. apply IH.
Qed.
Lemma sqrt_diverges k x p e p' : sqrt_steps k x p e = Some (p', S754_nan) -> forall fuel, sqrt_loop fuel x p e = OutOfFuel.
Proof.
  intros H fuel. apply (sqrt_mono k). rewrite Nat.add_comm, (sqrt_steps_ok x k p e p' S754_nan fuel H). apply sqrt_nan.
Qed.
Lemma sqrt_zero s fuel : sqrt_double fuel (S754_zero s) = OutOfFuel.
Proof.
  unfold sqrt_double. replace (SFltb (S754_zero s) b64_0) with false by (destruct s; reflexivity).
  destruct s; (eapply (sqrt_diverges 1075); vm_compute; reflexivity).
Qed.
Lemma sqrt_inf fuel : sqrt_double fuel (S754_infinity false) = OutOfFuel.
Proof. unfold sqrt_double. cbn [SFltb SFcompare]. eapply (sqrt_diverges 1); vm_compute; reflexivity. Qed.
Lemma sqrt_of_nan fuel : sqrt_double fuel S754_nan = OutOfFuel.
Proof. unfold sqrt_double. cbn [SFltb SFcompare]. eapply (sqrt_diverges 0); vm_compute; reflexivity. Qed.
Lemma sqrt_negative fuel x : SFltb x b64_0 = true -> sqrt_double fuel x = Thrown.
Proof. intros H. unfold sqrt_double. rewrite H. reflexivity. Qed.

(** ** nthroot *)
Lemma nth_mono : forall k fuel x n p e, nthroot_loop (fuel + k) x n p e = OutOfFuel -> nthroot_loop fuel x n p e = OutOfFuel.
Proof.
  intros k. induction fuel as [|f IH]; intros x n p e.
  - cbn [Nat.add nthroot_loop]. destruct k; [auto|]. cbn [nthroot_loop]. destruct (SFeqb p e); [intros H; exact H|reflexivity].
  - cbn [Nat.add nthroot_loop]. destruct (SFeqb p e); [intros H; exact H|]. destruct (n =? - 2 ^ 31); [intros H; exact H|].
    destruct (exponentiate_double e (n - 1)); [apply IH|intros H; exact H].
Qed.
Fixpoint nth_steps (k : nat) (x : spec_float) (n : Z) (p e : spec_float) : option (spec_float * spec_float) :=
  match k with
  | O => Some (p, e)
  | S k' => if SFeqb p e then None
            else if n =? - 2 ^ 31 then None
            else match exponentiate_double e (n - 1) with
                 | None => None
                 | Some q => nth_steps k' x n e (b64_add e (b64_mul (b64_div b64_1 (b64_of_int n)) (b64_sub (b64_div x q) e)))
                 end
  end.
Lemma nth_steps_ok x n : forall k p e p' e' fuel, nth_steps k x n p e = Some (p', e') -> nthroot_loop (k + fuel) x n p e = nthroot_loop fuel x n p' e'.
Proof.
  induction k as [|k IH]; intros p e p' e' fuel; cbn [nth_steps].
  - intros H. injection H as <- <-. reflexivity.
  - cbn [Nat.add nthroot_loop]. destruct (SFeqb p e); [discriminate|]. destruct (n =? - 2 ^ 31); [discriminate|].
    destruct (exponentiate_double e (n - 1)); [apply IH|discriminate].
Qed.
(** a state that comes back *)
Lemma nth_cycle x n k j p e p' e' : nth_steps k x n p e = Some (p', e') -> nth_steps (S j) x n p' e' = Some (p', e') ->
  forall fuel, nthroot_loop fuel x n p e = OutOfFuel.
Proof.
  intros H C fuel.
  assert (L : forall m, nthroot_loop (m * S j) x n p' e' = OutOfFuel).
  { induction m as [|m IH].
    - cbn [Nat.mul nthroot_loop]. cbn [nth_steps] in C. destruct (SFeqb p' e'); [discriminate|reflexivity].
    - cbn [Nat.mul]. rewrite (nth_steps_ok x n (S j) p' e' p' e' (m * S j) C). exact IH. }
  apply (nth_mono (k + fuel * j)). replace (fuel + (k + fuel * j))%nat with (k + fuel * S j)%nat by lia.
  rewrite (nth_steps_ok x n k p e p' e' _ H). apply L.
Qed.
Lemma nth_4_3 fuel : nthroot fuel (b64_of_int 4) 3 = OutOfFuel.
Proof.
  unfold nthroot. replace (SFltb (b64_of_int 4) b64_0) with false by reflexivity.
  let s := eval vm_compute in (nth_steps 20 (b64_of_int 4) 3 (b64_of_int (-1)) b64_1) in
  match s with Some (?p, ?e) => apply (nth_cycle (b64_of_int 4) 3 20 1 _ _ p e) end; vm_compute; reflexivity.
Qed.
Lemma nth_0_3 fuel : nthroot fuel b64_0 3 = OutOfFuel.
Proof.
  unfold nthroot. replace (SFltb b64_0 b64_0) with false by reflexivity.
  apply (nth_cycle b64_0 3 2000 0 _ _ S754_nan S754_nan); vm_compute; reflexivity.
Qed.

(** ** exponentiate over a field *)
Section Exp.
  Variable F : FieldOps.
  Hypothesis FL : FieldLaws F.
  Let R := FieldLaws_Ring F FL.
  Add Ring Fr : (RL_th F R).
  Local Open Scope fld_scope.
  Lemma exp_loop_ok : forall fuel x y n, (1 <= n < 2 ^ Z.of_nat (S fuel))%Z ->
    let '(x', y') := exp_loop F (@fmul F) fuel x y n in x' * y' = y * fpow x (Z.to_N n).
  Proof.
    induction fuel as [|f IH]; intros x y n N; cbn [exp_loop].
    - assert (n = 1)%Z as -> by (change (2 ^ Z.of_nat 1)%Z with 2%Z in N; lia). cbn. ring.
    - destruct (Z.ltb_spec 1 n) as [L|L].
      + assert (D := Z.div_mod n 2 ltac:(lia)). assert (M := Z.mod_pos_bound n 2 ltac:(lia)).
        rewrite Nat2Z.inj_succ, Z.pow_succ_r in N by lia.
        destruct (Z.eqb_spec (n mod 2) 0) as [E|E].
        * specialize (IH (x * x) y (n / 2)%Z). destruct (exp_loop F (@fmul F) f (x * x) y (n / 2)) as [x' y'].
          rewrite IH by (rewrite Nat2Z.inj_succ in *; lia). clear IH.
          replace (Z.to_N n) with (2 * Z.to_N (n / 2))%N by lia. rewrite (fpow_double F R), (fpow_mul_l F R). reflexivity.
        * assert (H2 : ((n - 1) / 2 = n / 2)%Z) by (symmetry; apply Z.div_unique with 0%Z; lia).
          rewrite H2. specialize (IH (x * x) (y * x) (n / 2)%Z). destruct (exp_loop F (@fmul F) f (x * x) (y * x) (n / 2)) as [x' y'].
          rewrite IH by (rewrite Nat2Z.inj_succ in *; lia). clear IH.
          replace (Z.to_N n) with (2 * Z.to_N (n / 2) + 1)%N by lia. rewrite (fpow_add F R), (fpow_double F R), (fpow_mul_l F R), (fpow_1 F R). ring.
      + assert (n = 1)%Z as -> by lia. cbn. ring.
  Qed.
  Lemma exponentiate_pos x n : (0 <= n < 2 ^ 31)%Z -> exponentiate_field F x n = Some (fpow x (Z.to_N n)).
  Proof.
    intros N. unfold exponentiate_field, exponentiate. destruct (Z.eqb_spec n 0) as [->|N0]; [reflexivity|].
    rewrite (proj2 (Z.eqb_neq n _)) by lia. rewrite (proj2 (Z.ltb_ge n 0)) by lia.
    assert (H := exp_loop_ok 31 x 1 n ltac:(change (2 ^ Z.of_nat 32)%Z with (2 * 2 ^ 31)%Z; lia)).
    destruct (exp_loop F (@fmul F) 31 x 1 n) as [x' y']. rewrite H. f_equal. ring.
  Qed.
  Lemma exponentiate_neg x n : (- 2 ^ 31 < n < 0)%Z -> exponentiate_field F x n = Some (fpow (fdiv 1 x) (Z.to_N (- n))).
  Proof.
    intros N. unfold exponentiate_field, exponentiate. rewrite (proj2 (Z.eqb_neq n 0)) by lia.
    rewrite (proj2 (Z.eqb_neq n _)) by lia. rewrite (proj2 (Z.ltb_lt n 0)) by lia.
    assert (H := exp_loop_ok 31 (fdiv 1 x) 1 (- n) ltac:(change (2 ^ Z.of_nat 32)%Z with (2 * 2 ^ 31)%Z; lia)).
    destruct (exp_loop F (@fmul F) 31 (fdiv 1 x) 1 (- n)) as [x' y']. rewrite H. f_equal. ring.
  Qed.
End Exp.

Lemma exponentiate_neg_inv (F : FieldOps) (FL : FieldLaws F) (x : F) n : (- 2 ^ 31 < n < 0) -> x <> 0%fld ->
  exists y, exponentiate_field F x n = Some y /\ (y * fpow x (Z.to_N (- n)) = 1)%fld.
Proof.
  intros N X. exists (fpow (fdiv 1 x) (Z.to_N (- n)))%fld. split; [exact (exponentiate_neg F FL x n N)|].
  assert (R := FieldLaws_Ring F FL).
  assert (E : (fdiv 1 x * x)%fld = (1 : F)%fld) by (unfold fdiv; rewrite <- (Rmul_assoc (RL_th F R)), (finv_l F FL x X); apply (Rmul_1_l (RL_th F R))).
  rewrite <- (fpow_mul_l F R), E. apply (fpow_one F R).
Qed.
