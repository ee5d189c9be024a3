(** C31-C38: multi-exponentiation, fixed-base windows, wNAF.

    [implements G o rep okn] (Spec/GroupClass.v): the operations o of a class of group
    elements implement the group G; [rep t x]: the object t stands for x; okn: the scalars
    for which scalar * point is right.  Proof/Instances.v has instances (projective and
    affine Edwards classes: every scalar; Jacobian classes: prime-order subgroup, scalars up
    to the order).  [msum ns xs]: sum_i n_i x_i. *)
From Coq Require Import NArith ZArith List Bool Lia Arith Permutation Znumtheory.
From Verif Require Import Base.Field Base.Zp Spec.Group Spec.GroupClass Spec.Digits Spec.Weierstrass
  Model.Power Model.Wnaf Model.Multiexp Model.WindowTables Model.ShortWeierstrass
  Proof.GroupFacts Proof.Multiexp Proof.BosCoster Proof.Wnaf Proof.WeierstrassRep Proof.Instances Properties.Weierstrass.
Import ListNotations.

(** ** C31 over field or ring elements: inner_product *)
Section Ring.
  Variable K : FieldOps.
  Hypothesis R : RingLaws K.
  Add Ring Kring : (RL_th K R).
  Local Open Scope fld_scope.
  Fixpoint dot (a b : list K) : K :=
    match a, b with x :: a', y :: b' => x * y + dot a' b' | _, _ => 0 end.
  Theorem C31_inner_product (a b : list K) : inner_product 0 fadd fmul a b = dot a b.
  Proof.
    unfold inner_product, naive.
    assert (X : forall acc : K, fold_left (fun (result : K) (p : K * K) => result + snd p * fst p) (combine a b) acc = acc + dot a b).
    { revert b. induction a as [|x a IH]; intros [|y b] acc; cbn [combine fold_left dot fst snd]; try ring. rewrite IH. ring. }
    rewrite X. ring.
  Qed.
End Ring.

Section Class.
  Variable G : AbGroup.
  Variable T : Type.
  Variable o : class_ops T.
  Variable rep : T -> G -> Prop.
  Variable okn : N -> Prop.
  Hypothesis I : implements G o rep okn.
  (** the bases ts stand for the group elements xs *)
  Definition inputs (ts : list T) (xs : list G) (ns : list N) : Prop := Forall2 rep ts xs /\ length ns = length ts.
  Definition computes (res : option T) (x : G) : Prop := exists t, res = Some t /\ rep t x.

  (** ** C31 *)
  Theorem C31_naive ts xs ns : inputs ts xs ns -> Forall okn ns -> computes (naive_plain o ts ns) (msum ns xs).
  Proof. intros [F L] OK. eexists. split; [reflexivity|]. apply (naive_ok G T o rep okn I); auto. Qed.

  (** ** C32 *)
  Theorem C32_bdlo12 ts xs ns : ts <> [] -> inputs ts xs ns -> computes (bdlo12 o ts ns) (msum ns xs).
  Proof. intros NE [F L]. apply (bdlo12_ok G T o rep okn I); auto. Qed.
  (** the empty input reads the uninitialised accumulator of no group *)
  Theorem C32_empty : bdlo12 o [] [] = None.
  Proof. reflexivity. Qed.

  (** ** C33.  find_wnaf and std::make_heap are external, any implementation meeting its
      contract.  [bos_coster_fuel fuel] is the method run for at most fuel iterations of its
      loop; it stops by itself.  Full statement: without the last hypothesis; see C33_zero_refuted. *)
  Variable find_wnaf : nat -> N -> list Z.
  Hypothesis WN : wnaf_contract find_wnaf.
  Variable make_heap : list oexp -> list oexp.
  Hypothesis MH : make_heap_contract make_heap.
  Variable wt : list N.
  Definition bos_coster := bos_coster_fuel o find_wnaf wt make_heap.
  Theorem C33_bos_coster_partial ts xs ns : inputs ts xs ns -> Forall okn ns ->
    (length ns <= 1)%nat \/ (exists s, In s ns /\ s <> 0%N) ->
    exists t, (forall fuel, (nsum ns < N.of_nat fuel)%N -> bos_coster fuel ts ns = Some t) /\ rep t (msum ns xs).
  Proof. intros [F L] OK NZ. apply (bos_coster_ok G T o rep okn I find_wnaf WN wt make_heap MH); auto. Qed.
  Theorem C33_zero_refuted ts ns fuel : (2 <= length ns)%nat -> length ns = length ts -> Forall (fun s => s = 0%N) ns ->
    bos_coster fuel ts ns = None.
  Proof. apply (bos_coster_zero T o find_wnaf wt make_heap MH). Qed.

  (** ** C34 *)
  Lemma in_slice {A} (l : list A) x i j : In x (slice l i j) -> In x l.
  Proof.
    unfold slice. intros H. rewrite <- (firstn_skipn i l). apply in_or_app. right.
    rewrite <- (firstn_skipn (j - i) (skipn i l)). apply in_or_app. left. exact H.
  Qed.
  Lemma Forall_slice {A} (P : A -> Prop) l i j : Forall P l -> Forall P (slice l i j).
  Proof. rewrite !Forall_forall. intros H x X. apply H, (in_slice l x i j X). Qed.
  Lemma nsum_app l1 l2 : nsum (l1 ++ l2) = (nsum l1 + nsum l2)%N.
  Proof. unfold nsum. induction l1; cbn; [reflexivity|]. rewrite IHl1. lia. Qed.
  Lemma nsum_slice l i j : (nsum (slice l i j) <= nsum l)%N.
  Proof.
    unfold slice. rewrite <- (firstn_skipn i l) at 2. rewrite nsum_app.
    rewrite <- (firstn_skipn (j - i) (skipn i l)) at 2. rewrite nsum_app. lia.
  Qed.
  Theorem C34_naive ts xs ns chunks : (1 <= chunks)%nat -> inputs ts xs ns -> Forall okn ns ->
    computes (multiexp o (naive_plain o) ts ns chunks) (msum ns xs).
  Proof.
    intros C [F L] OK. apply (multiexp_ok G T o rep okn I (naive_plain o) (Forall okn)); auto.
    - intros. apply C31_naive; auto. split; auto.
    - intros. apply Forall_slice, OK.
  Qed.
  Theorem C34_bdlo12 ts xs ns chunks : (1 <= chunks)%nat -> ts <> [] -> inputs ts xs ns ->
    computes (multiexp o (bdlo12 o) ts ns chunks) (msum ns xs).
  Proof.
    intros C NE [F L]. apply (multiexp_ok G T o rep okn I (bdlo12 o) (fun ns => ns <> [])); auto.
    - intros ts' xs' ns' NE' F' L'. apply C32_bdlo12; [|split; auto]. intros ->. destruct ns'; [contradiction|discriminate].
    - intros ->. destruct ts; [contradiction|discriminate].
    - intros i j IJ JL E. apply (f_equal (@length N)) in E. rewrite slice_length in E. cbn in E. lia.
  Qed.
  (** Full statement: every scalars; a chunk with two or more scalars, all zero, makes the method throw *)
  Theorem C34_bos_coster_partial ts xs ns chunks fuel : (1 <= chunks)%nat -> inputs ts xs ns -> Forall okn ns ->
    Forall (fun s => s <> 0%N) ns -> (nsum ns < N.of_nat fuel)%N ->
    computes (multiexp o (bos_coster fuel) ts ns chunks) (msum ns xs).
  Proof.
    intros C [F L] OK NZ FU.
    apply (multiexp_ok G T o rep okn I (bos_coster fuel) (fun ns => Forall okn ns /\ Forall (fun s => s <> 0%N) ns /\ (nsum ns < N.of_nat fuel)%N)); auto.
    - intros ts' xs' ns' (O & Z & U) F' L'. destruct (C33_bos_coster_partial ts' xs' ns') as (t & E & R); auto; [split; auto| |].
      + destruct ns' as [|n ns']; [left; cbn; lia|]. right. exists n. inversion_clear Z. split; [left|]; auto.
      + exists t. auto.
    - intros i j _ _. repeat split; try (apply Forall_slice; assumption). eapply N.le_lt_trans; [apply nsum_slice|exact FU].
  Qed.
  Theorem C34_zero_chunks process ts ns : multiexp o process ts ns 0 = None.
  Proof. unfold multiexp. destruct (length ts); reflexivity. Qed.

  (** ** C35 *)
  Lemma Forall_proper (P : N -> Prop) ns : Forall P ns -> Forall P (proper ns).
  Proof. rewrite !Forall_forall. intros H x X. apply filter_In in X. apply H, X. Qed.
  Lemma proper_nz ns : Forall (fun s => s <> 0%N) (proper ns).
  Proof.
    rewrite Forall_forall. intros x X. apply filter_In in X. destruct X as [_ X]. apply andb_prop in X. destruct X as [_ X].
    destruct (N.eqb_spec x 0); [discriminate|assumption].
  Qed.
  Lemma nsum_proper ns : (nsum (proper ns) <= nsum ns)%N.
  Proof.
    induction ns as [|n ns IH]; [cbn; lia|]. unfold proper in *. cbn [filter].
    change (nsum (n :: ns)) with (n + nsum ns)%N. destruct (_ && _)%bool; [change (nsum (n :: ?l)) with (n + nsum l)%N|]; lia.
  Qed.
  Theorem C35_naive ts xs ns chunks : (1 <= chunks)%nat -> inputs ts xs ns -> Forall okn ns ->
    computes (multiexp_with_mixed_addition o (naive_plain o) ts ns chunks) (msum ns xs).
  Proof.
    intros C [F L] OK. apply (mixed_ok G T o rep okn I (naive_plain o) (Forall okn)); auto.
    - intros. apply C31_naive; auto. split; auto.
    - apply Forall_proper, OK.
    - intros. apply Forall_slice, Forall_proper, OK.
  Qed.
  (** with the Bos-Coster method every input works: zero scalars never reach it *)
  Theorem C35_bos_coster ts xs ns chunks fuel : (1 <= chunks)%nat -> inputs ts xs ns -> Forall okn ns ->
    (nsum ns < N.of_nat fuel)%N -> computes (multiexp_with_mixed_addition o (bos_coster fuel) ts ns chunks) (msum ns xs).
  Proof.
    intros C [F L] OK FU.
    apply (mixed_ok G T o rep okn I (bos_coster fuel) (fun ns => Forall okn ns /\ Forall (fun s => s <> 0%N) ns /\ (nsum ns < N.of_nat fuel)%N)); auto.
    - intros ts' xs' ns' (O & Z & U) F' L'. destruct (C33_bos_coster_partial ts' xs' ns') as (t & E & R); auto; [split; auto| |].
      + destruct ns' as [|n ns']; [left; cbn; lia|]. right. exists n. inversion_clear Z. split; [left|]; auto.
      + exists t. auto.
    - repeat split; auto using Forall_proper, proper_nz. eapply N.le_lt_trans; [apply nsum_proper|exact FU].
    - intros i j _ _. repeat split; try (apply Forall_slice; auto using Forall_proper, proper_nz).
      eapply N.le_lt_trans; [apply nsum_slice|]. eapply N.le_lt_trans; [apply nsum_proper|exact FU].
  Qed.
  (** Full statement: every scalars; with none outside {0,1} the bucket method gets an empty input *)
  Theorem C35_bdlo12_partial ts xs ns chunks : (1 <= chunks)%nat -> inputs ts xs ns ->
    (exists s, In s ns /\ s <> 0%N /\ s <> 1%N) ->
    computes (multiexp_with_mixed_addition o (bdlo12 o) ts ns chunks) (msum ns xs).
  Proof.
    intros C [F L] (s & S & S0 & S1).
    apply (mixed_ok G T o rep okn I (bdlo12 o) (fun ns => ns <> [])); auto.
    - intros ts' xs' ns' NE' F' L'. apply C32_bdlo12; [|split; auto]. intros ->. destruct ns'; [contradiction|discriminate].
    - intros E. assert (X : In s (proper ns)).
      { apply filter_In. split; [exact S|]. destruct (N.eqb_spec s 1), (N.eqb_spec s 0); auto. }
      rewrite E in X. exact X.
    - intros i j IJ JL E. apply (f_equal (@length N)) in E. rewrite slice_length in E. cbn in E. lia.
  Qed.
  Theorem C35_bdlo12_refuted ts ns chunks : (1 <= chunks)%nat -> Forall (fun s => s = 0%N \/ s = 1%N) ns ->
    multiexp_with_mixed_addition o (bdlo12 o) ts ns chunks = None.
  Proof.
    intros C H. unfold multiexp_with_mixed_addition. set (step := fun st bs => _).
    assert (X : forall l acc, Forall (fun p : T * N => snd p = 0%N \/ snd p = 1%N) l ->
      exists acc', fold_left step l (acc, [], []) = (acc', [], [])).
    { induction l as [|[t n] l IH]; intros acc F; [exists acc; reflexivity|]. inversion_clear F as [|? ? A B].
      cbn [fold_left]. unfold step at 2. cbn in A. destruct A as [-> | ->]; cbn; apply IH, B. }
    destruct (X (combine ts ns) (c_zero o)) as (acc & ->).
    { rewrite Forall_forall in *. intros [t n] P. apply H, (in_combine_r _ _ _ _ P). }
    unfold multiexp. cbn [length]. destruct (Nat.ltb_spec 0 chunks); [reflexivity|lia].
  Qed.

  (** ** C36.  s: scalar_size, w: window; the table is the one get_window_table builds *)
  Theorem C36_windowed_exp s w g x n : (1 <= s)%nat -> (1 <= w)%nat -> rep g x -> (n < 2 ^ N.of_nat s)%N ->
    rep (windowed_exp o s w (get_window_table o s w g) n) (gmul n x).
  Proof. intros S W. apply (windowed_ok G T o rep okn I s w S W). Qed.
  Theorem C36_batch_exp s w g x ns : (1 <= s)%nat -> (1 <= w)%nat -> rep g x -> Forall (fun n => (n < 2 ^ N.of_nat s)%N) ns ->
    Forall2 rep (batch_exp o s w (get_window_table o s w g) ns) (map (fun n => gmul n x) ns).
  Proof.
    intros S W H F. unfold batch_exp. induction F; cbn [map]; constructor; auto. apply C36_windowed_exp; auto.
  Qed.
  (** the scalar field has m <= 2^s elements *)
  Theorem C36_batch_exp_with_coeff m s w g x c ns : (1 <= s)%nat -> (1 <= w)%nat -> rep g x ->
    (0 < m)%N -> (m <= 2 ^ N.of_nat s)%N -> gmul m x = g0 ->
    Forall2 rep (batch_exp_with_coeff o m s w (get_window_table o s w g) c ns) (map (fun n => gmul c (gmul n x)) ns).
  Proof.
    intros S W H M0 M MX. assert (XI : gin x) by exact (i_in G o rep okn I g x H). unfold batch_exp_with_coeff.
    induction ns as [|n ns IH]; cbn [map]; constructor; auto.
    replace (gmul c (gmul n x)) with (gmul (c * n mod m) x).
    - apply C36_windowed_exp; auto. eapply N.lt_le_trans; [apply N.mod_lt; lia|exact M].
    - rewrite <- (gmul_mul G c n x XI). rewrite (N.div_mod (c * n) m) at 2 by lia.
      rewrite gmul_add by auto. rewrite (N.mul_comm m). rewrite gmul_mul, MX, gmul_zero by auto.
      symmetry. apply g_0l, gmul_in, XI.
  Qed.

  (** ** C37 *)
  Theorem C37_fixed_window w base x n : (1 <= w)%nat -> rep base x ->
    rep (fixed_window_wnaf_exp o find_wnaf w base n) (gmul n x).
  Proof. apply (fixed_window_ok G T o rep okn I find_wnaf WN). Qed.
  Theorem C37_opt_window base x n bits : okn n -> rep base x ->
    rep (opt_window_wnaf_exp o find_wnaf wt base n bits) (gmul n x).
  Proof. apply (opt_window_ok G T o rep okn I find_wnaf WN). Qed.
End Class.

(** ** C38.  w is usable: its threshold is positive and at most n *)
Definition usable (table : list N) (n : N) (w : nat) : Prop :=
  (1 <= w <= length table)%nat /\ (0 < nth (w - 1) table 0 <= n)%N.
Lemma scan_ok table n : forall i, (i < length table)%nat ->
  match exp_window_scan i table n with
  | Some w => usable table n w /\ (w <= S i)%nat /\ (forall v, (v <= S i)%nat -> usable table n v -> (v <= w)%nat)
  | None => forall v, (v <= S i)%nat -> ~ usable table n v
  end.
Proof.
  assert (TS : forall i, (negb (N.eqb (nth i table 0) 0) && N.leb (nth i table 0) n = true <-> 0 < nth i table 0 <= n)%N).
  { intros i. destruct (N.eqb_spec (nth i table 0%N) 0), (N.leb_spec (nth i table 0%N) n); cbn; split; intros; try discriminate; try lia; auto. }
  induction i as [|i IH]; intros L; cbn [exp_window_scan].
  - specialize (TS 0%nat). destruct (_ && _)%bool.
    + split; [|split; [lia|intros; lia]]. split; [lia|]. apply TS. reflexivity.
    + intros v V [U1 U2]. assert (v = 1)%nat by lia. subst v. cbn [Nat.sub] in U2. apply TS in U2. discriminate.
  - specialize (TS (S i)). destruct (_ && _)%bool.
    + split; [|split; [lia|intros; lia]]. split; [lia|]. replace (S i + 1 - 1)%nat with (S i) by lia. apply TS. reflexivity.
    + specialize (IH ltac:(lia)). assert (NV : ~ usable table n (S (S i))).
      { intros [_ U]. replace (S (S i) - 1)%nat with (S i) in U by lia. apply TS in U. discriminate. }
      destruct (exp_window_scan i table n) as [w|].
      * destruct IH as (U & B & M). split; [exact U|]. split; [lia|]. intros v V UV.
        destruct (Nat.eq_dec v (S (S i))) as [->|]; [contradiction|]. apply M; [lia|exact UV].
      * intros v V UV. destruct (Nat.eq_dec v (S (S i))) as [->|]; [contradiction|]. exact (IH v ltac:(lia) UV).
Qed.
(** Full statement: a window for every n, "at least 1"; the loop falls off the table when none is
    usable, see C38_zero_refuted. *)
Theorem C38_exp_window_partial table n w : table <> [] ->
  get_exp_window_size table n = Some w <-> usable table n w /\ (forall v, usable table n v -> (v <= w)%nat).
Proof.
  intros NE. assert (L : (length table - 1 < length table)%nat) by (destruct table; [contradiction|cbn; lia]).
  unfold get_exp_window_size. destruct table as [|t0 table]; [contradiction|]. set (tb := t0 :: table) in *.
  assert (S := scan_ok tb n (length tb - 1) L). destruct (exp_window_scan _ tb n) as [w'|].
  - destruct S as (U & B & M). split.
    + intros [= <-]. split; [exact U|]. intros v V. apply M; [|exact V]. destruct V. lia.
    + intros [UW MW]. f_equal. apply Nat.le_antisymm; [apply MW, U|]. apply M; [|exact UW]. destruct UW. lia.
  - split; [discriminate|]. intros [UW _]. exfalso. apply (S w); [|exact UW]. destruct UW. lia.
Qed.
Theorem C38_zero_refuted table : table <> [] -> get_exp_window_size table 0 = None.
Proof.
  intros NE. destruct (get_exp_window_size table 0) as [w|] eqn:E; [|reflexivity].
  apply (C38_exp_window_partial table 0 w NE) in E. destruct E as [[_ U] _]. lia.
Qed.
(** every shipped table, every n >= 1 *)
Theorem C38_shipped table n : In table multiexp_tables -> (1 <= n)%N ->
  exists w, get_exp_window_size table n = Some w /\ usable table n w /\ (forall v, usable table n v -> (v <= w)%nat).
Proof.
  intros H N1. assert (U1 : usable table n 1 /\ table <> []).
  { assert (A : forall t, In t multiexp_tables -> nth 0 t 0%N = 1%N /\ (1 <= length t)%nat).
    { apply Forall_forall. repeat (constructor; [split; [reflexivity|cbn; lia]|]). constructor. }
    destruct (A _ H) as [A1 A2]. split; [split; [lia|]; cbn [Nat.sub]; rewrite A1; lia|]. intros ->. cbn in A2. lia. }
  destruct U1 as [U1 NE]. destruct (get_exp_window_size table n) as [w|] eqn:E.
  - exists w. split; [reflexivity|]. apply (C38_exp_window_partial table n w NE), E.
  - exfalso. unfold get_exp_window_size in E. destruct table as [|t0 table]; [contradiction|]. set (tb := t0 :: table) in *.
    assert (S := scan_ok tb n (length tb - 1) ltac:(cbn; lia)). rewrite E in S. apply (S 1%nat); [lia|exact U1].
Qed.

(** the thresholds of every shipped table, of windows and of wNAF, grow with the window; 0 marks a window not to be used *)
Theorem C38_thresholds table i j : In table (multiexp_tables ++ wnaf_tables) -> (i < j < length table)%nat ->
  nth i table 0%N <> 0%N -> nth j table 0%N <> 0%N -> (nth i table 0 < nth j table 0)%N.
Proof.
  pose (ok := fun t => forallb (fun j => forallb (fun i => (N.eqb (nth i t 0%N) 0 || N.eqb (nth j t 0%N) 0 || N.ltb (nth i t 0%N) (nth j t 0%N))%bool) (seq 0 j)) (seq 0 (length t))).
  assert (A : forallb ok (multiexp_tables ++ wnaf_tables) = true) by (vm_compute; reflexivity).
  intros H L Z1 Z2. rewrite forallb_forall in A. apply A in H. unfold ok in H. rewrite forallb_forall in H.
  specialize (H j ltac:(apply in_seq; lia)). rewrite forallb_forall in H. specialize (H i ltac:(apply in_seq; lia)).
  apply N.eqb_neq in Z1. apply N.eqb_neq in Z2. rewrite Z1, Z2 in H. now apply N.ltb_lt.
Qed.
(** a curve without a table: a fixed window; with the build option LOWMEM no window exceeds 14,
    and one that does not exceed it is kept *)
Theorem C38_lowmem table n :
  get_exp_window_size [] n = Some 17%nat /\
  match get_exp_window_size table n, get_exp_window_size_lowmem table n with
  | Some w, Some v => (v <= 14)%nat /\ (v <= w)%nat /\ ((w <= 14)%nat -> v = w) /\ ((1 <= w)%nat -> (1 <= v)%nat)
  | None, None => True
  | _, _ => False
  end.
Proof.
  split; [reflexivity|]. unfold get_exp_window_size, get_exp_window_size_lowmem. destruct table as [|t0 table]; [lia|].
  destruct (exp_window_scan _ _ _) as [w|]; cbn [option_map]; [|exact I]. lia.
Qed.
(** the window of opt_window_wnaf_exp: the last entry of wnaf_window_table not above the length of
    the scalar; 0, that is plain scalar multiplication, if every entry is above it *)
Theorem C38_wnaf_window table bits w : wnaf_best table bits = w <->
  (w <= length table)%nat /\ (w <> 0%nat -> (nth (w - 1) table 0 <= bits)%N) /\
  (forall v, (w < v <= length table)%nat -> (bits < nth (v - 1) table 0)%N).
Proof.
  unfold wnaf_best. generalize (length table) as n. induction n as [|i IH]; cbn [wnaf_scan].
  - split; [intros <-; repeat split; lia|]. intros (H & _). lia.
  - destruct (N.leb_spec (nth i table 0%N) bits) as [L|L].
    + split.
      * intros <-. repeat split; [lia| |lia]. intros _. replace (S i - 1)%nat with i by lia. exact L.
      * intros (H1 & _ & H3). destruct (Nat.eq_dec w (S i)) as [->|NE]; [reflexivity|]. exfalso.
        specialize (H3 (S i) ltac:(lia)). replace (S i - 1)%nat with i in H3 by lia. lia.
    + rewrite IH. split.
      * intros (H1 & H2 & H3). repeat split; [lia|exact H2|]. intros v V. destruct (Nat.eq_dec v (S i)) as [->|NE]; [|apply H3; lia].
        replace (S i - 1)%nat with i by lia. exact L.
      * intros (H1 & H2 & H3). assert (w <> S i).
        { intros ->. specialize (H2 ltac:(lia)). replace (S i - 1)%nat with i in H2 by lia. lia. }
        repeat split; [lia|exact H2|]. intros v V. apply H3. lia.
Qed.
Example C38_wnaf_example : map (wnaf_best wnaf_bls12_381_g1) [10; 11; 24; 60; 127; 254]%N = [0; 1; 2; 3; 4; 4]%nat /\
  get_exp_window_size_lowmem multiexp_bls12_381_g1 1 = Some 1%nat.
Proof. vm_compute. repeat split. Qed.
(** so a single base gets the window 1 from every shipped table *)
Example C38_single : map (fun t => get_exp_window_size t 1) multiexp_tables = repeat (Some 1%nat) 14.
Proof. vm_compute. reflexivity. Qed.

(** ** Concrete cases: y^2 = x^3 + 2x + 3 over Z/13, projective class *)
Lemma ns13 : nonsingular F13 (z13 2) (z13 3).
Proof. dec13. Qed.
Definition o13 : class_ops (triple F13) := proj_ops F13 (z13 2) 0%fld 0%fld.
Definition G13 : AbGroup := sw_group F13 F13_field F13_two (z13 2) (z13 3) ns13.
Lemma impl13 : implements G13 o13 (proj_rep F13 F13_field F13_two (z13 2) (z13 3) ns13) (fun _ => True).
Proof. apply proj_implements. reflexivity. Qed.
Definition bases13 : list (triple F13) := [T13 4 6 1; T13 6 12 2; T13 12 0 1; T13 0 5 0].
Definition points13 : list (point F13) := [P13 4 6; P13 3 6; P13 12 0; Inf].
Lemma inputs13 ns : length ns = 4%nat -> inputs G13 (triple F13) (proj_rep F13 F13_field F13_two (z13 2) (z13 3) ns13) bases13 points13 ns.
Proof.
  intros L. split; [|exact L]. repeat (constructor; [split; [first [dec13|exact Logic.I]|repeat split; dec13]|]). constructor.
Qed.
(** descending insertion sort is a make_heap *)
Fixpoint insert (e : oexp) (l : list oexp) : list oexp :=
  match l with [] => [e] | x :: l' => if N.leb (r x) (r e) then e :: l else x :: insert e l' end.
Fixpoint sort_desc (l : list oexp) : list oexp := match l with [] => [] | e :: l' => insert e (sort_desc l') end.
Lemma insert_perm e l : Permutation (insert e l) (e :: l).
Proof.
  induction l as [|x l IH]; cbn; [reflexivity|]. destruct (N.leb (r x) (r e)); [reflexivity|].
  rewrite IH. apply perm_swap.
Qed.
Inductive desc : list oexp -> Prop := desc_nil : desc [] | desc_cons e l : (forall x, In x l -> (r x <= r e)%N) -> desc l -> desc (e :: l).
Lemma insert_desc e l : desc l -> desc (insert e l).
Proof.
  induction 1 as [|x l H D IH]; cbn; [constructor; [intros ? []|constructor]|].
  destruct (N.leb_spec (r x) (r e)).
  - constructor; [|constructor; auto]. intros y [<-|Y]; [assumption|]. specialize (H y Y). lia.
  - constructor; [|exact IH]. intros y Y. apply (Permutation_in _ (insert_perm e l)) in Y. destruct Y as [<-|Y]; [lia|auto].
Qed.
Lemma desc_nth l : desc l -> forall i j d, (i <= j < length l)%nat -> (r (nth j l d) <= r (nth i l d))%N.
Proof.
  induction 1 as [|e l H D IH]; intros i j d L; cbn in L; [lia|]. destruct i, j; cbn; try lia.
  - apply H, nth_In. lia.
  - apply IH. lia.
Qed.
Lemma sort_desc_ok : make_heap_contract sort_desc.
Proof.
  assert (P : forall l, Permutation (sort_desc l) l).
  { induction l as [|e l IH]; cbn; [reflexivity|]. rewrite insert_perm, IH. reflexivity. }
  assert (D : forall l, desc (sort_desc l)) by (induction l; cbn; [constructor|apply insert_desc; assumption]).
  intros l. split; [apply P|]. intros i d L. apply desc_nth; [apply D|]. rewrite (Permutation_length (P l)).
  split; [|lia]. apply Nat.div_le_upper_bound; lia.
Qed.
Definition affine13 (t : option (triple F13)) : option (Z * Z) :=
  match t with Some t => let z := finv (tZ t) in Some (zval (fmul (tX t) z), zval (fmul (tY t) z)) | None => None end.
Example C31_case : affine13 (naive_plain o13 bases13 [5; 7; 2; 11]%N) = affine13 (Some (proj_add F13 (z13 2) (proj_mul F13 (z13 2) 0%fld 0%fld (T13 4 6 1) 5) (T13 3 6 1))).
Proof. vm_compute. reflexivity. Qed.
Example C32_case : computes G13 _ (proj_rep F13 F13_field F13_two (z13 2) (z13 3) ns13) (bdlo12 o13 bases13 [500; 0; 1; 77]%N) (msum (G := G13) [500; 0; 1; 77]%N points13) /\
  affine13 (bdlo12 o13 bases13 [500; 0; 1; 77]%N) = affine13 (naive_plain o13 bases13 [500; 0; 1; 77]%N).
Proof. split; [|vm_compute; reflexivity]. apply (C32_bdlo12 _ _ _ _ _ impl13); [discriminate|apply inputs13; reflexivity]. Qed.
(** a run through both branches of the loop *)
Example C33_case : affine13 (bos_coster _ o13 find_wnaf_ref sort_desc wnaf_bls12_381_g1 200 bases13 [70; 67; 3; 0]%N) =
  affine13 (naive_plain o13 bases13 [70; 67; 3; 0]%N) /\
  affine13 (bos_coster _ o13 find_wnaf_ref sort_desc wnaf_bls12_381_g1 2 bases13 [70; 67; 3; 0]%N) = None /\
  affine13 (bos_coster _ o13 find_wnaf_ref sort_desc wnaf_bls12_381_g1 200 bases13 [0; 0; 0; 0]%N) = None.
Proof. vm_compute. repeat split. Qed.
Example C34_case : affine13 (multiexp o13 (bdlo12 o13) bases13 [9; 10; 11; 12]%N 3) = affine13 (multiexp o13 (naive_plain o13) bases13 [9; 10; 11; 12]%N 1).
Proof. vm_compute. reflexivity. Qed.
Example C35_case : affine13 (multiexp_with_mixed_addition o13 (bdlo12 o13) bases13 [0; 1; 1; 9]%N 2) = affine13 (naive_plain o13 bases13 [0; 1; 1; 9]%N) /\
  affine13 (multiexp_with_mixed_addition o13 (bdlo12 o13) bases13 [0; 1; 1; 1]%N 2) = None.
Proof. vm_compute. repeat split. Qed.
Example C36_case : affine13 (Some (windowed_exp o13 9 4 (get_window_table o13 9 4 (T13 4 6 1)) 500)) = affine13 (Some (proj_mul F13 (z13 2) 0%fld 0%fld (T13 4 6 1) 500)) /\
  (500 < 2 ^ N.of_nat 9)%N /\ inf13 (gmul (G := G13) 18 (P13 4 6)) = true /\ (18 <= 2 ^ N.of_nat 5)%N.
Proof. split; [vm_compute; reflexivity|]. split; [reflexivity|]. split; [vm_compute; reflexivity|discriminate]. Qed.
Example C37_case : affine13 (Some (fixed_window_wnaf_exp o13 find_wnaf_ref 4 (T13 4 6 1) 1000)) = affine13 (Some (proj_mul F13 (z13 2) 0%fld 0%fld (T13 4 6 1) 1000)) /\
  wnaf_contract find_wnaf_ref.
Proof. split; [vm_compute; reflexivity|exact find_wnaf_ref_ok]. Qed.
Example C38_case : get_exp_window_size multiexp_bls12_381_g1 57817 = Some 11%nat /\ usable multiexp_bls12_381_g1 57817 11 /\
  ~ usable multiexp_bls12_381_g1 57817 12 /\ get_exp_window_size multiexp_bls12_381_g1 57818 = Some 13%nat.
Proof.
  repeat split; try (cbn; lia). intros [_ H]. vm_compute in H. destruct H. discriminate.
Qed.
(** the Jacobian class on the subgroup of order 3 of y^2 = x^3 + 4 *)
Example C31_jacobian_case : exists H : nonsingular F13 0%fld (z13 4),
  implements (torsion_group (sw_group F13 F13_field F13_two 0%fld (z13 4) H) 3) (jac_ops F13 0%fld 0%fld (jac0_dbl F13))
    (jac_rep F13 F13_field F13_two 0%fld (z13 4) H 3) (fun n => (n <= 3)%N) /\
  jac_rep F13 F13_field F13_two 0%fld (z13 4) H 3 (T13 0 2 1) (P13 0 2).
Proof.
  assert (H : nonsingular F13 0%fld (z13 4)) by dec13. exists H. split.
  - apply jac_implements.
    + apply C17_jacobian_a4_0; [exact F13_field|exact F13_two|reflexivity].
    + apply (C26_jacobian_a4_0_partial F13 F13_field F13_two 0%fld (z13 4) 0%fld 0%fld H eq_refl).
    + exact prime_3.
  - split; [|repeat split; dec13]. split; [dec13|].
    assert (E : forall P : point F13, inf13 P = true -> P = Inf) by (intros [|]; [reflexivity|discriminate]). apply E. vm_compute. reflexivity.
Qed.
Print Assumptions C38_lowmem.
Print Assumptions C38_wnaf_window.
