From Coq Require Import List ZArith Arith Bool Lia QArith Qabs Qcanon Qcabs.
From Verif Require Import Base.Field Model.Vector Model.Matrix Model.Operators Spec.LinAlg Proof.Vector Proof.Matrix.
Import ListNotations.
Local Open Scope nat_scope.

Section Eq.
  Context {A : Type} (eqb : A -> A -> bool).
  Hypothesis Heq : forall x y, eqb x y = true <-> x = y.
  Variables (M N : nat) (a b : list (list A)).
  Hypotheses (Ha : shape M N a) (Hb : shape M N b).
  Lemma meq_row_spec i : i < M -> forall n j, j + n = N -> exists r, meq_row eqb a b i j n = Some r /\
    (r = true <-> forall k, j <= k < N -> entry a i k = entry b i k).
  Proof.
    intros Hi. induction n as [|n IH]; intros j Hj; cbn [meq_row].
    - exists true. split; [reflexivity|]. split; [intros _ k Hk; lia|reflexivity].
    - destruct (shape_entry M N a i j Ha Hi ltac:(lia)) as [x Hx].
      destruct (shape_entry M N b i j Hb Hi ltac:(lia)) as [y Hy].
      change (mget a i j) with (entry a i j); change (mget b i j) with (entry b i j). rewrite Hx, Hy. destruct (eqb x y) eqn:E; cbn [negb].
      + apply Heq in E. subst y. destruct (IH (S j) ltac:(lia)) as (r & Er & Sr). exists r. split; [exact Er|].
        rewrite Sr. split; intros H k Hk; [|apply H; lia].
        destruct (Nat.eq_dec k j) as [->|]; [congruence|apply H; lia].
      + exists false. split; [reflexivity|]. split; [discriminate|]. intros H.
        specialize (H j ltac:(lia)). rewrite Hx, Hy in H. injection H as ->.
        rewrite (proj2 (Heq y y) eq_refl) in E. discriminate.
  Qed.
  Lemma meq_loop_spec : forall n i, i + n = M -> exists r, meq_loop eqb a b N i n = Some r /\
    (r = true <-> forall l k, i <= l < M -> k < N -> entry a l k = entry b l k).
  Proof.
    induction n as [|n IH]; intros i Hi; cbn [meq_loop].
    - exists true. split; [reflexivity|]. split; [intros _ l k Hl; lia|reflexivity].
    - destruct (meq_row_spec i ltac:(lia) N 0 eq_refl) as ([|] & E & S0); rewrite E.
      + destruct (IH (S i) ltac:(lia)) as (r & Er & Sr). exists r. split; [exact Er|]. rewrite Sr.
        split; intros H l k Hl Hk; [|apply H; lia].
        destruct (Nat.eq_dec l i) as [->|]; [apply S0; [reflexivity|lia]|apply H; lia].
      + exists false. split; [reflexivity|]. split; [discriminate|]. intros H.
        apply S0. intros k Hk. apply H; lia.
  Qed.
  Lemma meq_spec : exists r, meq eqb M N a b = Some r /\ (r = true <-> a = b).
  Proof.
    destruct (meq_loop_spec M 0 eq_refl) as (r & E & S0). exists r. split; [exact E|]. rewrite S0. split.
    - intros H. apply (shape_ext M N a b Ha Hb). intros i j Hi Hj. apply H; lia.
    - intros -> l k _ _. reflexivity.
  Qed.
End Eq.

Lemma hermitian_spec {A} (conj : A -> A) M N (m : list (list A)) : shape M N m ->
  exists r, hermitian conj M N m = Some r /\ matrix_of N M (fun i j => option_map conj (entry m j i)) r.
Proof.
  intros Hm. destruct (melementwise1_spec conj M N m Hm) as (c & E & Sc & Hc). unfold hermitian. rewrite E.
  destruct (transpose_spec M N c Sc) as (r & Er & Sr & Hr). exists r. split; [exact Er|]. split; [exact Sr|].
  intros i j Hi Hj. destruct (Hr i j Hi Hj) as [H _]. destruct (Hc j i Hj Hi) as [H' H'']. rewrite H, H'. split; [reflexivity|exact H''].
Qed.

(** absolute values and norms over the rationals *)
Section Norms.
  Local Open Scope Qc_scope.
  Lemma qltb_lt a b : qltb a b = true <-> a < b.
  Proof. unfold qltb, Qclt, Qccompare. rewrite Qlt_alt. destruct (this a ?= this b)%Q; split; congruence. Qed.
  Lemma qltb_ge a b : qltb a b = false <-> b <= a.
  Proof. rewrite <- not_true_iff_false, qltb_lt. split; [apply Qcnot_lt_le|apply Qcle_not_lt]. Qed.
  Lemma qabs_abs x : qabs x = Qcabs x.
  Proof.
    unfold qabs. destruct (qltb 0 x) eqn:E.
    - apply qltb_lt in E. symmetry. apply Qcabs_pos. apply Qclt_le_weak, E.
    - apply qltb_ge in E. symmetry. apply Qcabs_neg, E.
  Qed.
  Lemma Qc_ring : RingLaws Qc_ops.
  Proof. constructor; [exact Qcrt|]. intros x y. cbn. split; [apply Qc_eq_bool_correct|]. intros ->. unfold Qc_eq_bool. destruct (Qc_eq_dec y y); congruence. Qed.
  Local Notation sumabs n f := (@bigsum Qc_ops n (fun k => Qcabs (f k))).
  Lemma sum_abs_list (r : list Qc) n (f : nat -> Qc) : length r = n -> (forall k, (k < n)%nat -> nth_error r k = Some (f k)) ->
    match elementwise1 qabs r with Some l => vsum Qc_ops l | None => None end = Some (sumabs n f).
  Proof.
    intros L H. rewrite elementwise1_map. rewrite (vsum_spec Qc_ops Qc_ring). f_equal.
    rewrite (fold_bigsum Qc_ops Qc_ring _ (fun k => Qcabs (f k))); [rewrite map_length, L; reflexivity|].
    intros k Hk. rewrite map_length, L in Hk. rewrite nth_error_map, (H k Hk). cbn. f_equal. apply qabs_abs.
  Qed.
  Lemma qltb_irrefl x : qltb x x = false.
  Proof. apply qltb_ge, Qcle_refl. Qed.
  Lemma qltb_trans x y z : qltb x y = true -> qltb y z = true -> qltb x z = true.
  Proof. rewrite !qltb_lt. apply Qclt_trans. Qed.
  Lemma qltb_negtrans x y z : qltb x y = false -> qltb y z = false -> qltb x z = false.
  Proof. rewrite !qltb_ge. intros H1 H2. apply (Qcle_trans _ y); assumption. Qed.
  Lemma max_of n (f : nat -> Qc) : (0 < n)%nat -> exists m, vmax qltb (map f (seq 0 n)) = Some m /\
    (exists i, (i < n)%nat /\ m = f i) /\ forall i, (i < n)%nat -> f i <= m.
  Proof.
    intros Hn. assert (D : exists m, vmax qltb (map f (seq 0 n)) = Some m).
    { destruct n as [|n]; [lia|]. cbn [seq map]. eexists. unfold vmax. cbn [vget nth_error]. apply accumulate_fold. }
    destruct D as (m & E). exists m. split; [exact E|].
    destruct (vmax_spec qltb qltb_irrefl qltb_trans qltb_negtrans _ _ E) as [I H]. split.
    - apply in_map_iff in I. destruct I as (i & E' & I). apply in_seq in I. exists i. split; [lia|auto].
    - intros i Hi. apply qltb_ge, H, in_map, in_seq. lia.
  Qed.
  Lemma mars_spec M N (m : list (list Qc)) : shape M N m -> (0 < M)%nat -> exists r, mars M N m = Some r /\
    (exists i, (i < M)%nat /\ r = sumabs N (fun k => @coef Qc_ops m i k)) /\
    forall i, (i < M)%nat -> sumabs N (fun k => @coef Qc_ops m i k) <= r.
  Proof.
    intros Hm HM. unfold mars. rewrite generate_build.
    rewrite (build_some _ (fun i => sumabs N (fun k => @coef Qc_ops m i k))); [apply (max_of M), HM|].
    intros i Hi. destruct (mrow_spec Qc_ops M N m i Hm Hi) as (r & E & L & H). change (@mrow Qc M N m i = Some r) in E. rewrite E. apply (sum_abs_list r N _ L H).
  Qed.
  Lemma macs_spec M N (m : list (list Qc)) : shape M N m -> (0 < N)%nat -> exists r, macs M N m = Some r /\
    (exists j, (j < N)%nat /\ r = sumabs M (fun k => @coef Qc_ops m k j)) /\
    forall j, (j < N)%nat -> sumabs M (fun k => @coef Qc_ops m k j) <= r.
  Proof.
    intros Hm HM. unfold macs. rewrite generate_build.
    rewrite (build_some _ (fun j => sumabs M (fun k => @coef Qc_ops m k j))); [apply (max_of N), HM|].
    intros i Hi. destruct (mcolumn_spec Qc_ops M N m i Hm Hi) as (r & E & L & H). change (@mcolumn Qc M N m i = Some r) in E. rewrite E. apply (sum_abs_list r M _ L H).
  Qed.
End Norms.
