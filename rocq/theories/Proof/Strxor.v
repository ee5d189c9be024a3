From Coq Require Import NArith List Bool Lia Arith.
From Verif Require Import Model.Strxor.
Import ListNotations.

Lemma xor_loop_length s1 : forall s2, length (xor_loop s1 s2) = min (length s1) (length s2).
Proof. induction s1; intros [|b s2]; cbn; try reflexivity. rewrite IHs1. reflexivity. Qed.
Lemma xor_loop_nth s1 : forall s2 i k, i < length (xor_loop s1 s2) ->
  N.testbit (nth i (xor_loop s1 s2) 0%N) k = xorb (N.testbit (nth i s1 0%N) k) (N.testbit (nth i s2 0%N) k).
Proof.
  induction s1 as [|a s1 IH]; intros [|b s2] i k L; cbn in L; try lia.
  destruct i; cbn; [apply N.lxor_spec|apply IH; lia].
Qed.
Definition xor_ok (s1 s2 s : list N) : Prop :=
  length s1 = length s /\ length s2 = length s /\
  forall i k, i < length s -> N.testbit (nth i s 0%N) k = xorb (N.testbit (nth i s1 0%N) k) (N.testbit (nth i s2 0%N) k).
Lemma xor_loop_ok s1 s2 : length s1 = length s2 -> xor_ok s1 s2 (xor_loop s1 s2).
Proof. intros E. split; [|split]; [rewrite xor_loop_length; lia..|]. apply xor_loop_nth. Qed.
Lemma strxor_ranges_ok asserts in1 in2 out : length in1 = length in2 -> length in1 = length out ->
  exists s, strxor_ranges asserts in1 in2 out = Done s /\ xor_ok in1 in2 s.
Proof.
  intros E1 E2. exists (xor_loop in1 in2). split; [|apply xor_loop_ok, E1].
  unfold strxor_ranges. rewrite (proj2 (Nat.eqb_eq _ _) E1), (proj2 (Nat.eqb_eq _ _) E2), andb_false_r.
  assert (L : length (xor_loop in1 in2) = length out) by (rewrite xor_loop_length; lia).
  rewrite (proj2 (Nat.ltb_ge _ _)) by lia. rewrite L, skipn_all, app_nil_r. reflexivity.
Qed.
Lemma strxor_ranges_rejects in1 in2 out : length in1 <> length in2 \/ length in1 <> length out ->
  strxor_ranges true in1 in2 out = AssertionFailed.
Proof.
  intros H. unfold strxor_ranges. cbn [andb].
  destruct H as [H|H]; apply Nat.eqb_neq in H; rewrite H; rewrite ?andb_false_r; reflexivity.
Qed.
Lemma nth_firstn_lt {A} (d : A) : forall n l i, i < n -> nth i (firstn n l) d = nth i l d.
Proof. induction n; intros [|x l] i H; try lia; cbn; [reflexivity|]. destruct i; [reflexivity|]. apply IHn. lia. Qed.
Lemma strxor_ranges_release in1 in2 out :
  (min (length in1) (length in2) <= length out ->
   exists s, strxor_ranges false in1 in2 out = Done (s ++ skipn (length s) out) /\
     xor_ok (firstn (length s) in1) (firstn (length s) in2) s /\ length s = min (length in1) (length in2)) /\
  (length out < min (length in1) (length in2) -> exists w, strxor_ranges false in1 in2 out = UndefinedBehaviour w /\
     xor_ok (firstn (length out) in1) (firstn (length out) in2) w).
Proof.
  unfold strxor_ranges. cbn [andb]. assert (L := xor_loop_length in1 in2). split; intros H.
  - exists (xor_loop in1 in2). rewrite (proj2 (Nat.ltb_ge _ _)) by lia. split; [reflexivity|]. split; [|exact L].
    split; [|split]; [rewrite firstn_length; lia..|]. intros i k I. rewrite xor_loop_nth by exact I.
    rewrite !nth_firstn_lt by exact I. reflexivity.
  - rewrite (proj2 (Nat.ltb_lt _ _)) by lia. eexists. split; [reflexivity|]. split; [|split]; [rewrite !firstn_length; lia..|].
    intros i k I. rewrite firstn_length in I. rewrite nth_firstn_lt by lia. rewrite xor_loop_nth by lia. rewrite !nth_firstn_lt by lia. reflexivity.
Qed.
Lemma strxor_iterators_writes s1 s2 : length s1 = length s2 ->
  exists s, strxor_iterators true s1 s2 = UndefinedBehaviour s /\ xor_ok s1 s2 s.
Proof.
  intros E. exists (xor_loop s1 s2). split; [|apply xor_loop_ok, E].
  unfold strxor_iterators. rewrite (proj2 (Nat.eqb_eq _ _) E). reflexivity.
Qed.
Lemma strxor_iterators_never asserts s1 s2 : forall s, strxor_iterators asserts s1 s2 <> Done s.
Proof. unfold strxor_iterators. intros s. destruct (asserts && _); discriminate. Qed.
