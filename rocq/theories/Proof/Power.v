(** Correctness of square-and-multiply. *)
From Coq Require Import ZArith NArith List Bool Lia Ring.
From Verif Require Import Base.Field Model.Power.

Lemma for_down_ind {S : Type} (P : nat -> S -> Prop) n f st :
  P n st -> (forall i s, (i < n)%nat -> P (Datatypes.S i) s -> P i (f i s)) ->
  P O (for_down n f st).
Proof.
  revert st. induction n as [|n IH]; intros st H0 Hs; [exact H0|].
  cbn [for_down]. apply IH.
  - apply Hs; [lia|exact H0].
  - intros i s Hi Hp. apply Hs; [lia|exact Hp].
Qed.

Lemma for_up_ind {S : Type} (P : nat -> S -> Prop) f n : forall i0 st,
  P i0 st -> (forall i s, (i0 <= i < i0 + n)%nat -> P i s -> P (Datatypes.S i) (f i s)) ->
  P (i0 + n)%nat (for_up i0 n f st).
Proof.
  induction n as [|n IH]; intros i0 st H0 Hs.
  - rewrite Nat.add_0_r. exact H0.
  - cbn [for_up]. rewrite Nat.add_succ_r, <- Nat.add_succ_l. apply IH.
    + apply Hs; [lia|exact H0].
    + intros i s Hi Hp. apply Hs; [lia|exact Hp].
Qed.

Lemma for_down_ext {S : Type} n (f g : nat -> S -> S) st :
  (forall i s, (i < n)%nat -> f i s = g i s) -> for_down n f st = for_down n g st.
Proof.
  revert st. induction n as [|n IH]; intros st H; [reflexivity|].
  cbn [for_down]. rewrite (H n) by lia. apply IH. intros; apply H; lia.
Qed.

Lemma for_up_ext {S : Type} (f g : nat -> S -> S) n : forall i0 st,
  (forall i s, (i0 <= i < i0 + n)%nat -> f i s = g i s) -> for_up i0 n f st = for_up i0 n g st.
Proof.
  induction n as [|n IH]; intros i0 st H; [reflexivity|].
  cbn [for_up]. rewrite (H i0) by lia. apply IH. intros; apply H; lia.
Qed.

(** Shifting right by [nbits e] gives zero. *)
Lemma shiftr_nbits e : N.shiftr e (N.of_nat (nbits e)) = 0%N.
Proof.
  unfold nbits. rewrite N2Nat.id.
  destruct e as [|p]; [reflexivity|].
  apply N.shiftr_eq_0. rewrite N.size_log2 by discriminate. apply N.lt_succ_diag_r.
Qed.

Lemma shiftr_step e i :
  N.shiftr e (N.of_nat i)
  = (2 * N.shiftr e (N.of_nat (S i)) + N.b2n (N.testbit e (N.of_nat i)))%N.
Proof.
  rewrite Nat2N.inj_succ.
  rewrite <- N.add_1_r, <- N.shiftr_shiftr.
  set (x := N.shiftr e (N.of_nat i)).
  assert (Hb : N.testbit e (N.of_nat i) = N.odd x).
  { unfold x. rewrite <- N.bit0_odd, N.shiftr_spec by lia. f_equal. }
  rewrite Hb. rewrite <- N.div2_spec, <- N.bit0_odd, N.bit0_odd. apply N.div2_odd.
Qed.

Section PowerSpec.
  Variable K : FieldOps.
  Hypothesis R : RingLaws K.
  Add Ring Kr : (RL_th K R).
  Local Open Scope fld_scope.

  (** The flag [found_one] is an optimisation: squaring one is one. *)
  Lemma power_gen (one : K) (mul : K -> K -> K) (sqr : K -> K) base e :
    one = 1 -> (forall x y, mul x y = x * y) -> (forall x, sqr x = x * x) ->
    power one mul sqr base e = fpow base e.
  Proof.
    intros -> Hm Hs. unfold power. destruct (N.eqb_spec e 0) as [->|He]; [reflexivity|].
    assert (H := for_down_ind
      (fun i '(found, r) => r = fpow base (N.shiftr e (N.of_nat i))
           /\ (found = false -> N.shiftr e (N.of_nat i) = 0%N))
      (nbits e)
      (fun i '(found_one, result) =>
              let result := if found_one : bool then sqr result else result in
              if N.testbit e (N.of_nat i) then (true, mul result base)
              else (found_one, result)) (false, 1)).
    cbn beta in H.
    set (res := for_down _ _ _) in *. destruct res as [found r] eqn:Er. cbn [snd].
    destruct H as [H _].
    - rewrite shiftr_nbits. split; [reflexivity|tauto].
    - clear res found r Er. intros i [found r] Hi [Hr Hf].
      rewrite shiftr_step.
      set (y := N.shiftr e (N.of_nat (S i))) in *.
      assert (Hsq : (if found then sqr r else r) = fpow base (2 * y)).
      { destruct found.
        - rewrite Hs, Hr, (fpow_double K R). reflexivity.
        - rewrite Hr, (Hf eq_refl). reflexivity. }
      cbv zeta. rewrite Hsq. destruct (N.testbit e (N.of_nat i)); cbn [N.b2n].
      + split; [|discriminate]. rewrite Hm, N.add_comm, (fpow_add K R), (fpow_1 K R). ring.
      + rewrite N.add_0_r. split; [reflexivity|]. intros E. rewrite (Hf E). reflexivity.
    - cbn [N.of_nat] in H. rewrite N.shiftr_0_r in H. exact H.
  Qed.
End PowerSpec.
