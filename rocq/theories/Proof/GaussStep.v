(** One iteration of gauss_jordan_impl and the shape of the matrix it maintains *)
From Coq Require Import List NArith ZArith Arith Bool Lia Ring Field.
From Verif Require Import Base.Field Model.Vector Model.Matrix Spec.LinAlg Proof.Vector Proof.Matrix
  Proof.GaussLoops.
Import ListNotations.

Section Step.
  Variable K : FieldOps.
  Hypothesis HF : FieldLaws K.
  Lemma Fth_local : field_theory (@f0 K) f1 fadd fmul fsub fopp fdiv finv eq. Proof. exact (FL_th K HF). Qed.
  Add Field KF : Fth_local.
  Variable absgt : K -> K -> bool.
  Variable negl : K -> bool.
  Hypothesis Hnegl : forall v, negl v = feqb v f0.
  Hypothesis Hgt_nz : forall x y, absgt x y = true -> x <> f0.
  Hypothesis Hgt_0 : forall x, x <> f0 -> absgt x f0 = true.

  (** the effect of one iteration on (matrix, det, i, j): rows p and i are exchanged,
      then, if the pivot is not zero, row i is scaled and subtracted from the others *)
  Definition step_effect M N (m m' : matrix K) (d d' : K) (i i' j : nat) : Prop :=
    exists p, i <= p < M /\
      let pm := fun a b => coef m (swap_idx p i a) b in
      let d1 := if Nat.eqb p i then d else fopp d in
      (pm i j = f0 /\ i' = i /\ d' = d1 /\
         (forall a b, a < M -> b < N -> coef m' a b = pm a b) /\
         (forall a, i <= a < M -> pm a j = f0)) \/
      (pm i j <> f0 /\ i' = S i /\ d' = fdiv d1 (pm i j) /\
         (forall a b, a < M -> b < N -> coef m' a b =
            if Nat.eqb a i then fdiv (pm i b) (pm i j)
            else fsub (pm a b) (fmul (pm a j) (fdiv (pm i b) (pm i j))))).

  Lemma gj_step_spec M N s : shape M N (gj_m K s) -> gj_i K s < M -> gj_j K s < N ->
    gj_rank K s = gj_i K s ->
    exists s', gj_step K absgt negl M N s = Some s' /\ shape M N (gj_m K s') /\
      gj_j K s' = S (gj_j K s) /\ gj_rank K s' = gj_i K s' /\
      step_effect M N (gj_m K s) (gj_m K s') (gj_det K s) (gj_det K s') (gj_i K s) (gj_i K s') (gj_j K s).
  Proof.
    intros Hm Hi Hj Hrank. unfold gj_step.
    set (i := gj_i K s) in *. set (j := gj_j K s) in *. set (m := gj_m K s) in *.
    destruct (gj_pivot_spec K HF absgt Hgt_nz Hgt_0 M N i j m (gj_det K s) Hm Hi Hj)
      as (m1 & d1 & p & -> & Hm1 & Hp & He1 & Hd1 & Hz1).
    change (@mget) with (@entry). rewrite (coef_entry K M N m1 i j Hm1 Hi Hj). rewrite Hnegl.
    assert (Hd : d1 = if Nat.eqb p i then gj_det K s else fopp (gj_det K s)).
    { destruct Hd1 as [[-> ->]|[Hne ->]]; [now rewrite Nat.eqb_refl|].
      destruct (Nat.eqb_spec p i); [contradiction|reflexivity]. }
    destruct (feqb (coef m1 i j) f0) eqn:Ez.
    - apply (FL_eqb K HF) in Ez. eexists; split; [reflexivity|]. cbn.
      split; [exact Hm1|]. split; [reflexivity|]. split; [exact Hrank|].
      exists p. split; [exact Hp|]. cbn. left. rewrite <- He1 by assumption.
      split; [exact Ez|]. split; [reflexivity|]. split; [exact Hd|]. split; [exact He1|].
      intros a Ha. rewrite <- He1 by (auto; lia). now apply Hz1.
    - assert (Hnz : coef m1 i j <> f0) by (intros Hc; apply (FL_eqb K HF) in Hc; congruence).
      destruct (gj_scale_spec K M N i (coef m1 i j) m1 Hm1 Hi) as (m2 & -> & Hm2 & He2).
      destruct (gj_elim_spec K HF negl Hnegl M N i j m2 Hm2 Hi Hj) as (m3 & -> & Hm3 & He3).
      eexists; split; [reflexivity|]. cbn.
      split; [exact Hm3|]. split; [reflexivity|]. split; [now rewrite Hrank|].
      exists p. split; [exact Hp|]. cbn. right. rewrite <- He1 by assumption.
      split; [exact Hnz|]. split; [reflexivity|]. split; [now rewrite Hd|].
      intros a b Ha Hb. rewrite He3, !He2 by assumption. rewrite Nat.eqb_refl.
      destruct (Nat.eqb_spec a i) as [->|Hai]; rewrite <- !He1 by assumption; reflexivity.
  Qed.

  (** the part already reduced: the pivots of rows 0..i-1 lie in columns c 0 < c 1 < ... < j *)
  Definition reduced M N (m : matrix K) (i j : nat) (c : nat -> nat) : Prop :=
    i <= M /\ j <= N /\
    (forall k, k < i -> c k < j) /\
    (forall k k', k < k' -> k' < i -> c k < c k') /\
    (forall k a, k < i -> a < M -> coef m a (c k) = if Nat.eqb a k then f1 else f0) /\
    (forall k b, k < i -> b < c k -> coef m k b = f0) /\
    (forall a b, i <= a < M -> b < j -> coef m a b = f0).

  Lemma swap_idx_lt p i a : i <= p -> a < i -> swap_idx p i a = a.
  Proof.
    intros Hp Ha. unfold swap_idx. destruct (Nat.eqb_spec a p); [lia|]. destruct (Nat.eqb_spec a i); lia.
  Qed.
  Lemma swap_idx_ge p i a M : i <= p < M -> i <= a < M -> i <= swap_idx p i a < M.
  Proof.
    intros Hp Ha. unfold swap_idx. destruct (Nat.eqb_spec a p); [lia|]. destruct (Nat.eqb_spec a i); lia.
  Qed.

  Lemma reduced_step M N m m' d d' i i' j c :
    i < M -> j < N -> reduced M N m i j c -> step_effect M N m m' d d' i i' j ->
    reduced M N m' i' (S j) (fun k => if Nat.eqb k i then j else c k).
  Proof.
    intros Hi Hj (Hi0 & Hj0 & Hc & Hinc & Hunit & Hlead & Hzero) (p & Hp & Heff). cbn zeta in Heff.
    set (pm := fun a b => coef m (swap_idx p i a) b) in *.
    assert (Hpz : forall a b, i <= a < M -> b < j -> pm a b = f0).
    { intros a b Ha Hb. unfold pm. apply Hzero; [now apply swap_idx_ge|exact Hb]. }
    assert (Hpu : forall k a, k < i -> a < M -> pm a (c k) = if Nat.eqb a k then f1 else f0).
    { intros k a Hk Ha. destruct (le_lt_dec i a) as [Hge|Hlt].
      - rewrite Hpz by (auto; lia). destruct (Nat.eqb_spec a k); [lia|reflexivity].
      - unfold pm. rewrite swap_idx_lt by lia. now apply Hunit. }
    assert (Hpl : forall k b, k < i -> b < c k -> pm k b = f0).
    { intros k b Hk Hb. unfold pm. rewrite swap_idx_lt by lia. now apply Hlead. }
    assert (Hcn : forall k, k < i -> (if Nat.eqb k i then j else c k) = c k).
    { intros k Hk. destruct (Nat.eqb_spec k i); [lia|reflexivity]. }
    destruct Heff as [(Hz & -> & _ & He & Hcol)|(Hnz & -> & _ & He)].
    - split; [lia|]. split; [lia|]. split; [|split; [|split; [|split]]].
      + intros k Hk. rewrite Hcn by exact Hk. specialize (Hc k Hk). lia.
      + intros k k' Hk Hk'. rewrite !Hcn by lia. now apply Hinc.
      + intros k a Hk Ha. rewrite Hcn by exact Hk. specialize (Hc k Hk). rewrite He by lia. now apply Hpu.
      + intros k b Hk. rewrite Hcn by exact Hk. intros Hb. specialize (Hc k Hk). rewrite He by lia. now apply Hpl.
      + intros a b Ha Hb. rewrite He by lia. destruct (Nat.eq_dec b j) as [->|]; [now apply Hcol|].
        apply Hpz; [exact Ha|lia].
    - split; [lia|]. split; [lia|]. split; [|split; [|split; [|split]]].
      + intros k Hk. destruct (Nat.eqb_spec k i); [lia|]. specialize (Hc k ltac:(lia)). lia.
      + intros k k' Hk Hk'. rewrite (Hcn k) by lia. destruct (Nat.eqb_spec k' i) as [->|].
        * apply Hc; lia.
        * apply Hinc; lia.
      + intros k a Hk Ha. destruct (Nat.eqb_spec k i) as [->|Hki].
        * rewrite He by auto. destruct (Nat.eqb_spec a i) as [->|Hai].
          { field. exact Hnz. } { field. exact Hnz. }
        * specialize (Hc k ltac:(lia)). rewrite He by lia.
          rewrite (Hpu k a), (Hpu k i) by lia. destruct (Nat.eqb_spec i k); [lia|].
          destruct (Nat.eqb_spec a i) as [->|Hai].
          { destruct (Nat.eqb_spec i k); [lia|]. field. exact Hnz. }
          { destruct (Nat.eqb a k); field; exact Hnz. }
      + intros k b Hk Hb. destruct (Nat.eqb_spec k i) as [->|Hki].
        * rewrite He by lia. rewrite Nat.eqb_refl. rewrite Hpz by lia. field. exact Hnz.
        * specialize (Hc k ltac:(lia)). rewrite He by lia. destruct (Nat.eqb_spec k i); [lia|].
          rewrite (Hpl k b) by lia. rewrite (Hpz i b) by lia. field. exact Hnz.
      + intros a b Ha Hb. rewrite He by lia. destruct (Nat.eqb_spec a i); [lia|].
        destruct (Nat.eq_dec b j) as [->|].
        * field. exact Hnz.
        * rewrite (Hpz a b), (Hpz i b) by lia. field. exact Hnz.
  Qed.
End Step.
