(** scalar_mul and operator*= compute multiples, in any class refining a group. *)
From Coq Require Import NArith Bool Lia.
From Verif Require Import Spec.Group Model.Power Model.ScalarMul Proof.Power.
Local Open Scope N_scope.

Section Generic.
  Variable G : AbGroup.
  Variable T : Type.
  (** t represents the group element g *)
  Variable rep : T -> G -> Prop.
  Hypothesis rep_in : forall t g, rep t g -> gin g.
  Variables (zero dflt : T) (add_assign : T -> T -> T) (dbl : T -> T)
            (madd : T -> T -> T) (z_is_one : T -> bool).
  Hypothesis rep_zero : rep zero g0.
  Hypothesis rep_dflt : rep dflt g0.
  Hypothesis rep_add : forall s t x y, rep s x -> rep t y -> rep (add_assign s t) (gadd x y).
  Hypothesis rep_dbl : forall s x, rep s x -> rep (dbl s) (gadd x x).

  (** the shared loop, the adding step being correct on the multiples that occur *)
  Lemma loop_ok base x (step : T -> T) scalar :
    rep base x ->
    (forall r k, (k = 0 \/ 2 <= k) -> k < scalar -> rep r (gmul k x) -> rep (step r) (gadd (gmul k x) x)) ->
    rep (fst (for_down (nbits scalar)
        (fun i st =>
           let '(result, found_one) := st in
           let result := if found_one : bool then dbl result else result in
           if N.testbit scalar (N.of_nat i) then (step result, true) else (result, found_one))
        (dflt, false))) (gmul scalar x).
  Proof.
    intros Hb Hs. assert (X := rep_in _ _ Hb).
    match goal with |- rep (fst (for_down ?n ?f ?s)) _ => assert (H := for_down_ind
      (fun i '(r, found) => rep r (gmul (N.shiftr scalar (N.of_nat i)) x)
           /\ (found = false -> N.shiftr scalar (N.of_nat i) = 0)
           /\ (found = true -> N.shiftr scalar (N.of_nat i) <> 0)) n f s) end.
    destruct (for_down _ _ _) as [r found]. cbn [fst].
    destruct H as [H _].
    - rewrite shiftr_nbits. split; [exact rep_dflt|]. split; [reflexivity|discriminate].
    - clear r found. intros i [r found] _ (H & H0 & H1).
      assert (S := shiftr_step scalar i).
      assert (LE : N.shiftr scalar (N.of_nat i) <= scalar).
      { rewrite N.shiftr_div_pow2. apply N.div_le_upper_bound; [apply N.pow_nonzero; discriminate|].
        rewrite <- (N.mul_1_l scalar) at 1. apply N.mul_le_mono_r.
        assert (2 ^ N.of_nat i <> 0) by (apply N.pow_nonzero; discriminate). lia. }
      set (k := N.shiftr scalar (N.of_nat (Datatypes.S i))) in *.
      assert (D : rep (if found then dbl r else r) (gmul (2 * k) x)).
      { destruct found; [rewrite gmul_double by exact X; apply rep_dbl, H|].
        rewrite (H0 eq_refl) in *. exact H. }
      cbn zeta. destruct (N.testbit scalar (N.of_nat i)); cbn [N.b2n] in S.
      + split; [|split; [discriminate|intros _; lia]].
        rewrite S, gmul_add, (gmul_1 G x X) by exact X. apply Hs; [|lia|exact D].
        destruct found; [right; specialize (H1 eq_refl); lia|left; rewrite (H0 eq_refl); reflexivity].
      + rewrite S, N.add_0_r. split; [exact D|].
        split; intros F; [rewrite (H0 F); reflexivity|specialize (H1 F); lia].
    - rewrite N.shiftr_0_r in H. exact H.
  Qed.
  (** the loop of operator*=, which starts from the base *)
  Lemma loop2_ok base x (step : T -> T) scalar :
    rep base x -> scalar <> 0 ->
    (forall r k, 2 <= k -> k < scalar -> rep r (gmul k x) -> rep (step r) (gadd (gmul k x) x)) ->
    rep (fst (for_down (nbits scalar)
        (fun i st =>
           let '(point, found_one) := st in
           let point := if found_one : bool then dbl point else point in
           if N.testbit scalar (N.of_nat i)
           then (if found_one then step point else point, true)
           else (point, found_one))
        (base, false))) (gmul scalar x).
  Proof.
    intros Hb Nz Hs. assert (X := rep_in _ _ Hb).
    match goal with |- rep (fst (for_down ?n ?f ?s)) _ => assert (H := for_down_ind
      (fun i '(r, found) => if found : bool
           then rep r (gmul (N.shiftr scalar (N.of_nat i)) x) /\ N.shiftr scalar (N.of_nat i) <> 0
           else r = base /\ N.shiftr scalar (N.of_nat i) = 0) n f s) end.
    destruct (for_down _ _ _) as [r found]. cbn [fst].
    assert (H' := H (conj eq_refl (shiftr_nbits scalar))). clear H.
    change (N.of_nat 0) with 0 in H'. rewrite N.shiftr_0_r in H'.
    cut (if found then rep r (gmul scalar x) /\ scalar <> 0 else r = base /\ scalar = 0).
    { destruct found; [intros [H _]; exact H|intros [_ E]; contradiction]. }
    apply H'. clear H' r found. intros i [r found] _ H.
    assert (S := shiftr_step scalar i).
    assert (LE : N.shiftr scalar (N.of_nat i) <= scalar).
    { rewrite N.shiftr_div_pow2. apply N.div_le_upper_bound; [apply N.pow_nonzero; discriminate|].
      rewrite <- (N.mul_1_l scalar) at 1. apply N.mul_le_mono_r.
      assert (2 ^ N.of_nat i <> 0) by (apply N.pow_nonzero; discriminate). lia. }
    set (k := N.shiftr scalar (N.of_nat (Datatypes.S i))) in *.
    cbn zeta. destruct found, (N.testbit scalar (N.of_nat i)); cbn [N.b2n] in S; destruct H as [H1 H2].
    - split; [|lia]. rewrite S, gmul_add, (gmul_1 G x X) by exact X. apply Hs; [lia|lia|].
      rewrite gmul_double by exact X. apply rep_dbl, H1.
    - split; [|lia]. rewrite S, N.add_0_r, gmul_double by exact X. apply rep_dbl, H1.
    - split; [|lia]. rewrite S, H2. change (2 * 0 + 1) with 1. rewrite gmul_1 by exact X. rewrite H1. exact Hb.
    - split; [exact H1|lia].
  Qed.

  Lemma rep_scalar_mul base x n : rep base x -> rep (scalar_mul T zero dflt add_assign dbl base n) (gmul n x).
  Proof.
    intros H. unfold scalar_mul. destruct (N.eqb_spec n 0) as [->|]; [exact rep_zero|].
    apply (loop_ok base x (fun r => add_assign r base)); auto.
  Qed.
  Lemma rep_mul_assign base x n : rep base x -> rep (mul_assign T zero add_assign dbl base n) (gmul n x).
  Proof.
    intros H. unfold mul_assign. destruct (N.eqb_spec n 0) as [->|]; [exact rep_zero|].
    apply (loop2_ok base x (fun r => add_assign r base)); auto.
  Qed.
  (** mixed_add correct on every operand *)
  Lemma rep_scalar_mul_mixed base x n : rep base x ->
    (z_is_one base = true -> forall s y, rep s y -> rep (madd s base) (gadd y x)) ->
    rep (scalar_mul_mixed T zero dflt add_assign dbl madd z_is_one base n) (gmul n x).
  Proof.
    intros H Hm. unfold scalar_mul_mixed. destruct (N.eqb_spec n 0) as [->|]; [exact rep_zero|].
    cbv zeta. apply (loop_ok base x (fun r => if z_is_one base then madd r base else add_assign r base)); auto.
    intros r k _ _ Hr. destruct (z_is_one base); auto.
  Qed.
  Lemma rep_mul_assign_mixed base x n : rep base x ->
    (z_is_one base = true -> forall s y, rep s y -> rep (madd s base) (gadd y x)) ->
    rep (mul_assign_mixed T zero add_assign dbl madd z_is_one base n) (gmul n x).
  Proof.
    intros H Hm. unfold mul_assign_mixed. destruct (N.eqb_spec n 0) as [->|]; [exact rep_zero|].
    cbv zeta. apply (loop2_ok base x (fun r => if z_is_one base then madd r base else add_assign r base)); auto.
    intros r k _ _ Hr. destruct (z_is_one base); auto.
  Qed.
  (** mixed_add correct except when both operands are the same non-zero point:
      enough if no smaller positive multiple of the base vanishes *)
  Hypothesis rep_madd : forall s t x y, rep s x -> rep t y -> z_is_one t = true -> (x = y -> x = g0) ->
    rep (madd s t) (gadd x y).
  Lemma no_collision (x : G) k n : gin x -> (forall j, 0 < j -> j + 1 < n -> gmul j x = g0 -> x = g0) ->
    (k = 0 \/ 2 <= k) -> k < n -> gmul k x = x -> gmul k x = g0.
  Proof.
    intros X Hn [->|K2] Kn E; [reflexivity|].
    assert (E1 : gmul (k - 1) x = g0).
    { apply (g_cancel_l G x); auto using gmul_in, g_in0. rewrite <- gmul_succ by exact X.
      replace (N.succ (k - 1)) with k by lia. rewrite E. symmetry. apply g_0r, X. }
    rewrite (Hn (k - 1)); [apply gmul_zero|lia|lia|exact E1].
  Qed.
  Lemma rep_scalar_mul_mixed_order base x n : rep base x ->
    (z_is_one base = true -> forall j, 0 < j -> j + 1 < n -> gmul j x = g0 -> x = g0) ->
    rep (scalar_mul_mixed T zero dflt add_assign dbl madd z_is_one base n) (gmul n x).
  Proof.
    intros H Hn. unfold scalar_mul_mixed. destruct (N.eqb_spec n 0) as [->|]; [exact rep_zero|].
    cbv zeta. apply (loop_ok base x (fun r => if z_is_one base then madd r base else add_assign r base)); auto.
    intros r k Hk Kn Hr. destruct (z_is_one base) eqn:Z; auto. apply rep_madd; auto.
    apply (no_collision x k n); eauto.
  Qed.
  Lemma rep_mul_assign_mixed_order base x n : rep base x ->
    (z_is_one base = true -> forall j, 0 < j -> j + 1 < n -> gmul j x = g0 -> x = g0) ->
    rep (mul_assign_mixed T zero add_assign dbl madd z_is_one base n) (gmul n x).
  Proof.
    intros H Hn. unfold mul_assign_mixed. destruct (N.eqb_spec n 0) as [->|]; [exact rep_zero|].
    cbv zeta. apply (loop2_ok base x (fun r => if z_is_one base then madd r base else add_assign r base)); auto.
    intros r k Hk Kn Hr. destruct (z_is_one base) eqn:Z; auto. apply rep_madd; auto.
    apply (no_collision x k n); eauto.
  Qed.
End Generic.
