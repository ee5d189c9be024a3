(** The reference recoding meets the contract. *)
From Coq Require Import ZArith NArith List Lia.
From Verif Require Import Spec.Digits Model.Wnaf.
Import ListNotations.
Local Open Scope Z_scope.

Lemma wnaf_digits_spec (w : Z) : 1 <= w -> forall n c,
  0 <= c <= 2 ^ Z.of_nat n ->
  digits_value (wnaf_digits (S n) w c) = c
  /\ (forall d, In d (wnaf_digits (S n) w c) -> d = 0 \/ (Z.odd d = true /\ Z.abs d < 2 ^ w)).
Proof.
  intros Hw n. induction n as [|n IH]; intros c Hc;
  cbn [wnaf_digits]; (destruct (Z.eqb_spec c 0) as [->|Hc0];
    [cbn; split; [reflexivity|tauto]|]).
  - assert (c = 1) by (cbn in Hc; lia). subst c. cbn [Z.odd].
    assert (Hp : 2 <= 2 ^ w). { change 2 with (2 ^ 1) at 1. apply Z.pow_le_mono_r; lia. }
    assert (Hp' : 4 <= 2 ^ (w + 1)). { change 4 with (2 ^ 2). apply Z.pow_le_mono_r; lia. }
    rewrite Z.mod_small by lia. destruct (Z.ltb_spec (2 ^ w) 1); [lia|].
    cbn. split; [reflexivity|]. intros d [<-|[]]. right. split; [reflexivity|]. cbn. lia.
  - set (u := if Z.odd c then _ else 0).
    assert (H2w : 2 ^ (w + 1) = 2 * 2 ^ w) by (rewrite Z.pow_add_r by lia; lia).
    assert (Hp : 2 <= 2 ^ w). { change 2 with (2 ^ 1) at 1. apply Z.pow_le_mono_r; lia. }
    assert (Hm := Z.mod_pos_bound c (2 ^ (w + 1)) ltac:(lia)).
    assert (Hdm := Z.div_mod c (2 ^ (w + 1)) ltac:(lia)).
    set (m := c mod 2 ^ (w + 1)) in *. set (k := c / 2 ^ (w+1)) in *.
    assert (Hk : 0 <= k) by (apply Z.div_pos; lia).
    assert (Hev : Z.even (2 ^ (w + 1)) = true).
    { rewrite H2w. rewrite Z.even_mul. reflexivity. }
    assert (Hpar : Z.odd m = Z.odd c).
    { rewrite Hdm, Z.odd_add, Z.odd_mul.
      rewrite <- (Z.negb_even (2 ^ (w+1))), Hev. cbn. destruct (Z.odd m); reflexivity. }
    assert (Hpw : Z.odd (2 ^ w) = false).
    { rewrite <- Z.negb_even. replace w with (Z.succ (w - 1)) by lia.
      rewrite Z.pow_succ_r by lia. rewrite Z.even_mul. reflexivity. }
    rewrite Nat2Z.inj_succ, Z.pow_succ_r in Hc by lia.
    assert (Hu : (u = 0 /\ Z.odd c = false) \/
                 (Z.odd u = true /\ Z.abs u < 2 ^ w /\ Z.odd c = true
                  /\ 0 <= c - u <= 2 * 2 ^ Z.of_nat n)).
    { unfold u. destruct (Z.odd c) eqn:Eo; [right|left; auto].
      destruct (Z.ltb_spec (2 ^ w) m) as [Hlt|Hge].
      - split; [|split; [|split; [reflexivity|]]]; try nia.
        + rewrite Z.odd_sub, Hpar, <- (Z.negb_even (2 ^ (w+1))), Hev. reflexivity.
        + split; [nia|].
          assert (Hn : w + 1 <= Z.succ (Z.of_nat n)).
          { destruct (Z.le_gt_cases (w + 1) (Z.succ (Z.of_nat n))) as [?|Hgt]; [assumption|exfalso].
            assert (2 ^ Z.of_nat n * 2 <= 2 ^ w).
            { rewrite Z.mul_comm, <- Z.pow_succ_r by lia. apply Z.pow_le_mono_r; lia. }
            nia. }
          assert (Ediv : 2 * 2 ^ Z.of_nat n = 2 ^ (w + 1) * 2 ^ (Z.of_nat n - w)).
          { rewrite <- Z.pow_succ_r by lia. rewrite <- Z.pow_add_r by lia. f_equal. lia. }
          assert (0 < 2 ^ (Z.of_nat n - w)) by (apply Z.pow_pos_nonneg; lia).
          rewrite Ediv in Hc |- *.
          set (M := 2 ^ (w + 1)) in *. set (t := 2 ^ (Z.of_nat n - w)) in *.
          assert (k < t) by nia.
          replace (c - (m - M)) with (M * (k + 1)) by lia.
          apply Z.mul_le_mono_nonneg_l; lia.
      - assert (m <> 2 ^ w) by (intros E; rewrite E in Hpar; congruence).
        split; [exact Hpar|split; [lia|split; [reflexivity|nia]]]. }
    assert (Heven : exists h, c - u = 2 * h).
    { destruct Hu as [[-> Ho]|(Ho & _ & Hc' & _)].
      - rewrite Z.sub_0_r. rewrite <- Z.negb_even in Ho. apply Bool.negb_false_iff, Z.even_spec in Ho. exact Ho.
      - apply Z.even_spec. rewrite Z.even_sub. rewrite <- !Z.negb_odd, Ho, Hc'. reflexivity. }
    destruct Heven as [h Hh].
    assert (Ehalf : (c - u) / 2 = h) by (rewrite Hh, Z.mul_comm; apply Z.div_mul; lia).
    rewrite Ehalf.
    destruct (IH h) as [IHv IHd].
    { destruct Hu as [[Hu0 _]|(_ & _ & _ & Hr)]; lia. }
    cbn [wnaf_digits] in IHv, IHd. cbn [digits_value]. rewrite IHv. split; [lia|].
    intros d [<-|Hd]; [|apply IHd, Hd].
    destruct Hu as [[-> _]|(Ho & Ha & _)]; [left; reflexivity|right; auto].
Qed.

Lemma find_wnaf_ref_ok : wnaf_contract find_wnaf_ref.
Proof.
  intros w e Hw. unfold find_wnaf_ref, digits_ok.
  replace (N.to_nat (N.size e) + 2)%nat with (S (N.to_nat (N.size e) + 1)) by lia.
  apply wnaf_digits_spec; [lia|].
  split; [lia|]. rewrite Nat2Z.inj_add, N_nat_Z.
  assert (H : (e < 2 ^ N.size e)%N) by apply N.size_gt.
  assert (Z.of_N e < 2 ^ Z.of_N (N.size e)).
  { change 2 with (Z.of_N 2). rewrite <- N2Z.inj_pow. lia. }
  rewrite Z.pow_add_r by lia. change (2 ^ Z.of_nat 1) with 2. lia.
Qed.
