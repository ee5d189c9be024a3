(** Proofs about the structural operations of Model/Matrix.v *)
From Coq Require Import List NArith ZArith Arith Bool Lia Ring.
From Verif Require Import Base.Field Model.Vector Model.Matrix Spec.LinAlg Proof.Vector.
Import ListNotations.

Lemma mget_entry {A} (m : matrix A) i j : mget m i j = entry m i j.
Proof. reflexivity. Qed.

Lemma shape_entry {A} M N (m : matrix A) i j :
  shape M N m -> i < M -> j < N -> exists x, entry m i j = Some x.
Proof.
  intros [Hl Hr] Hi Hj. unfold entry.
  destruct (nth_error m i) as [r|] eqn:Er.
  - specialize (Hr _ _ Er). destruct (nth_error r j) eqn:Ej; [eauto|].
    apply nth_error_None in Ej. lia.
  - apply nth_error_None in Er. lia.
Qed.
Lemma shape_entry_none {A} M N (m : matrix A) i j :
  shape M N m -> (M <= i \/ N <= j) -> entry m i j = None.
Proof.
  intros [Hl Hr] H. unfold entry. destruct (nth_error m i) as [r|] eqn:Er; [|reflexivity].
  specialize (Hr _ _ Er). apply nth_error_None. destruct H; [|lia].
  pose proof (proj1 (nth_error_Some m i)) as Hs. rewrite Er in Hs. specialize (Hs ltac:(discriminate)). lia.
Qed.

Lemma shape_ext {A} M N (m1 m2 : matrix A) :
  shape M N m1 -> shape M N m2 ->
  (forall i j, i < M -> j < N -> entry m1 i j = entry m2 i j) -> m1 = m2.
Proof.
  intros [L1 R1] [L2 R2] H. apply list_ext; [lia|]. intros i Hi. rewrite L1 in Hi.
  destruct (nth_error m1 i) as [r1|] eqn:E1; [|apply nth_error_None in E1; lia].
  destruct (nth_error m2 i) as [r2|] eqn:E2; [|apply nth_error_None in E2; lia].
  f_equal. pose proof (R1 _ _ E1). pose proof (R2 _ _ E2). apply list_ext; [lia|].
  intros j Hj. specialize (H i j Hi ltac:(lia)). unfold entry in H. rewrite E1, E2 in H. exact H.
Qed.

Lemma mgenerate_spec {A} M N (f : nat -> nat -> option A) :
  (forall i j, i < M -> j < N -> f i j <> None) ->
  exists r, mgenerate M N f = Some r /\ matrix_of M N f r.
Proof.
  intros H. unfold mgenerate.
  destruct (build_defined (fun i => build N (fun j => f i j)) M) as (l & Hl & Hlen & Hk).
  { intros i Hi. destruct (build_defined (fun j => f i j) N) as (r & Hr & _).
    - intros j Hj; now apply H.
    - rewrite Hr. discriminate. }
  exists l. split; [exact Hl|]. split; [split; [exact Hlen|]|].
  - intros i r Er. pose proof (proj1 (nth_error_Some l i)) as Hs. rewrite Er in Hs.
    specialize (Hs ltac:(discriminate)). rewrite Hlen in Hs. rewrite (Hk i Hs) in Er.
    apply build_inv in Er. tauto.
  - intros i j Hi Hj. split; [|now apply H]. unfold entry.
    destruct (nth_error l i) as [r|] eqn:Er; [|apply nth_error_None in Er; lia].
    rewrite (Hk i Hi) in Er. apply build_inv in Er. apply Er; exact Hj.
Qed.
Lemma mgenerate_undefined {A} M N (f : nat -> nat -> option A) i j :
  i < M -> j < N -> f i j = None -> mgenerate M N f = None.
Proof.
  intros Hi Hj Hn. unfold mgenerate. apply (build_undefined _ M i Hi).
  apply (build_undefined _ N j Hj Hn).
Qed.

Lemma matrix_of_ext {A} M N (f g : nat -> nat -> option A) r :
  (forall i j, i < M -> j < N -> f i j = g i j) -> matrix_of M N f r -> matrix_of M N g r.
Proof.
  intros H [H1 H2]. split; [exact H1|]. intros i j Hi Hj. rewrite <- H by assumption. now apply H2.
Qed.

Section Structural.
  Context {A : Type}.
  Implicit Types m : matrix A.

  Lemma entry_defined M N m i j : shape M N m -> i < M -> j < N -> entry m i j <> None.
  Proof. intros H Hi Hj. destruct (shape_entry M N m i j H Hi Hj) as [x ->]. discriminate. Qed.

  Lemma transpose_spec M N m : shape M N m ->
    exists r, transpose M N m = Some r /\ matrix_of N M (fun i j => entry m j i) r.
  Proof. intros H. apply mgenerate_spec. intros; now apply (entry_defined M N). Qed.

  Lemma horzcat_spec M N P m n : shape M N m -> shape M P n ->
    exists r, horzcat M N P m n = Some r /\
      matrix_of M (N + P) (fun i j => if Nat.ltb j N then entry m i j else entry n i (j - N)) r.
  Proof.
    intros Hm Hn. apply mgenerate_spec. intros i j Hi Hj. destruct (Nat.ltb_spec j N).
    - now apply (entry_defined M N). - apply (entry_defined M P); auto; lia.
  Qed.
  Lemma vertcat_spec M N P m n : shape M P m -> shape N P n ->
    exists r, vertcat M N P m n = Some r /\
      matrix_of (M + N) P (fun i j => if Nat.ltb i M then entry m i j else entry n (i - M) j) r.
  Proof.
    intros Hm Hn. apply mgenerate_spec. intros i j Hi Hj. destruct (Nat.ltb_spec i M).
    - now apply (entry_defined M P). - apply (entry_defined N P); auto; lia.
  Qed.
  Lemma submat_ok P Q M N m a b : shape M N m -> a + P <= M -> b + Q <= N ->
    exists r, submat P Q M N m a b = Ok r /\
      matrix_of P Q (fun i j => entry m (a + i) (b + j)) r.
  Proof.
    intros Hm Ha Hb. unfold submat.
    destruct (Nat.ltb_spec M (a + P)); [lia|]. destruct (Nat.ltb_spec N (b + Q)); [lia|].
    cbn [orb]. destruct (mgenerate_spec P Q (fun i j => mget m (a + i) (b + j))) as (r & Hr & Hof).
    { intros; apply (entry_defined M N); auto; lia. }
    exists r. rewrite Hr. split; [reflexivity|exact Hof].
  Qed.
  Lemma submat_throws P Q M N m a b : a + P > M \/ b + Q > N -> submat P Q M N m a b = Throws.
  Proof.
    intros H. unfold submat.
    destruct (Nat.ltb_spec M (a + P)); [reflexivity|]. destruct (Nat.ltb_spec N (b + Q)); [reflexivity|lia].
  Qed.
  Lemma reshape_spec P Q M N m : shape M N m -> P * Q = M * N ->
    exists r, reshape P Q M N m = Some r /\
      (forall k, k < M * N -> Q <> 0 /\ N <> 0) /\
      shape P Q r /\
      forall i j i' j', i < P -> j < Q -> i' < M -> j' < N -> i * Q + j = i' * N + j' ->
        entry r i j = entry m i' j'.
  Proof.
    intros Hm HPQ.
    destruct (mgenerate_spec P Q (fun i j => mget m ((i * Q + j) / N) ((i * Q + j) mod N))) as (r & Hr & [Hs He]).
    { intros i j Hi Hj. assert (N <> 0) by nia.
      apply (entry_defined M N); [exact Hm| |now apply Nat.mod_upper_bound].
      apply Nat.div_lt_upper_bound; [assumption|]. nia. }
    exists r. split; [exact Hr|]. split; [intros k Hk; nia|]. split; [exact Hs|].
    intros i j i' j' Hi Hj Hi' Hj' Hk. destruct (He i j Hi Hj) as [-> _].
    rewrite Hk. rewrite Nat.div_add_l by lia. rewrite (Nat.div_small j' N) by lia.
    rewrite (Nat.add_comm (i' * N)). rewrite Nat.mod_add by lia. rewrite Nat.mod_small by lia.
    rewrite Nat.add_0_r. reflexivity.
  Qed.
  Lemma repmat_spec row col M N m : shape M N m ->
    exists r, repmat row col M N m = Some r /\ shape (M * row) (N * col) r /\
      forall a b i j, a < row -> b < col -> i < M -> j < N ->
        entry r (a * M + i) (b * N + j) = entry m i j.
  Proof.
    intros Hm.
    destruct (mgenerate_spec (M * row) (N * col) (fun i j => mget m (i mod M) (j mod N))) as (r & Hr & [Hs He]).
    { intros i j Hi Hj. apply (entry_defined M N); auto; apply Nat.mod_upper_bound; nia. }
    exists r. split; [exact Hr|]. split; [exact Hs|]. intros a b i j Ha Hb Hi Hj.
    destruct (He (a * M + i) (b * N + j)) as [-> _]; [nia|nia|].
    rewrite !(Nat.add_comm (_ * _)), !Nat.mod_add, !Nat.mod_small by lia. reflexivity.
  Qed.
  Lemma mfill_spec M N (a : A) : exists r, mfill M N a = Some r /\ matrix_of M N (fun _ _ => Some a) r.
  Proof. apply mgenerate_spec. discriminate. Qed.
  Lemma as_column_spec (v : list A) : exists r, as_column (length v) v = Some r /\
    matrix_of (length v) 1 (fun i _ => nth_error v i) r.
  Proof. apply mgenerate_spec. intros; now apply nth_error_Some. Qed.
  Lemma as_row_spec (v : list A) : exists r, as_row (length v) v = Some r /\
    matrix_of 1 (length v) (fun _ j => nth_error v j) r.
  Proof. apply mgenerate_spec. intros; now apply nth_error_Some. Qed.
  Lemma melementwise1_spec {B} (f : A -> B) M N m : shape M N m ->
    exists r, melementwise1 M N f m = Some r /\ matrix_of M N (fun i j => option_map f (entry m i j)) r.
  Proof.
    intros Hm. apply (mgenerate_spec M N (fun i j => option_map f (mget m i j))).
    intros i j Hi Hj. destruct (shape_entry M N m i j Hm Hi Hj) as [x Hx].
    change (@mget) with (@entry); rewrite Hx. discriminate.
  Qed.
  Lemma melementwise2_spec {B C} (f : A -> B -> C) M N m (n : matrix B) : shape M N m -> shape M N n ->
    exists r, melementwise2 M N f m n = Some r /\ shape M N r /\
      forall i j x y, entry m i j = Some x -> entry n i j = Some y -> entry r i j = Some (f x y).
  Proof.
    intros Hm Hn.
    destruct (mgenerate_spec M N (fun i j => match mget m i j, mget n i j with
                    | Some a, Some b => Some (f a b) | _, _ => None end)) as (r & Hr & [Hs He]).
    { intros i j Hi Hj. destruct (shape_entry M N m i j Hm Hi Hj) as [x Hx].
      destruct (shape_entry M N n i j Hn Hi Hj) as [y Hy]. rewrite (mget_entry m), (mget_entry n), Hx, Hy. discriminate. }
    exists r. split; [exact Hr|]. split; [exact Hs|]. intros i j x y Hx Hy.
    destruct (le_lt_dec M i) as [Hi|Hi].
    { rewrite (shape_entry_none M N m i j Hm) in Hx by auto. discriminate. }
    destruct (le_lt_dec N j) as [Hj|Hj].
    { rewrite (shape_entry_none M N m i j Hm) in Hx by auto. discriminate. }
    destruct (He i j Hi Hj) as [-> _]. rewrite (mget_entry m), (mget_entry n), Hx, Hy. reflexivity.
  Qed.

  (** ** element update *)
  Lemma set_nth_spec : forall (l : list A) i x, i < length l ->
    exists l', set_nth l i x = Some l' /\ length l' = length l /\
      forall k, nth_error l' k = if Nat.eqb k i then Some x else nth_error l k.
  Proof.
    induction l as [|h t IH]; intros i x Hi; [cbn in Hi; lia|]. destruct i as [|i]; cbn [set_nth].
    - exists (x :: t). split; [reflexivity|]. split; [reflexivity|]. intros [|k]; reflexivity.
    - destruct (IH i x ltac:(cbn in Hi; lia)) as (t' & -> & Hl & Hk).
      exists (h :: t'). split; [reflexivity|]. split; [cbn; lia|]. intros [|k]; [reflexivity|]. apply Hk.
  Qed.
  Lemma set_nth_none : forall (l : list A) i x, length l <= i -> set_nth l i x = None.
  Proof.
    induction l as [|h t IH]; intros [|i] x H; cbn in *; try reflexivity; try lia.
    now rewrite IH by lia.
  Qed.
End Structural.

Section Update.
  Context {A : Type}.
  Implicit Types m : matrix A.
  Lemma mset_spec M N m i j x : shape M N m -> i < M -> j < N ->
    exists m', mset m i j x = Some m' /\ shape M N m' /\
      forall a b, entry m' a b = if Nat.eqb a i && Nat.eqb b j then Some x else entry m a b.
  Proof.
    intros [Hl Hr] Hi Hj. unfold mset.
    destruct (nth_error m i) as [r|] eqn:Er; [|apply nth_error_None in Er; lia].
    pose proof (Hr _ _ Er) as Hrl.
    destruct (set_nth_spec r j x ltac:(lia)) as (r' & -> & Hl' & Hk').
    destruct (set_nth_spec m i r' ltac:(lia)) as (m' & -> & Hl2 & Hk2).
    exists m'. split; [reflexivity|]. split; [split; [lia|]|].
    - intros k s Hs. rewrite Hk2 in Hs. destruct (Nat.eqb k i).
      + injection Hs as <-. lia. + exact (Hr _ _ Hs).
    - intros a b. unfold entry. rewrite Hk2. destruct (Nat.eqb_spec a i) as [->|Hne]; cbn [andb].
      + rewrite Hk', Er. destruct (Nat.eqb b j); reflexivity.
      + reflexivity.
  Qed.

  (** ** swaprow *)
  Definition swap_idx (a b i : nat) : nat :=
    if Nat.eqb i a then b else if Nat.eqb i b then a else i.

  Lemma swaprow_loop M N m a b : shape M N m -> a < M -> b < M -> forall n k m',
    k + n = N -> shape M N m' ->
    (forall i j, entry m' i j = if Nat.ltb j k then entry m (swap_idx a b i) j else entry m i j) ->
    exists r, loop k n (fun i m =>
      match mget m a i with
      | None => None
      | Some tmp =>
        match mget m b i with
        | None => None
        | Some y => match mset m a i y with
                    | None => None
                    | Some m1 => mset m1 b i tmp
                    end
        end
      end) m' = Some r /\ shape M N r /\
      forall i j, j < N -> entry r i j = entry m (swap_idx a b i) j.
  Proof.
    intros Hm Ha Hb. induction n as [|n IH]; intros k m' Hk Hm' He; cbn [loop].
    - exists m'. split; [reflexivity|]. split; [exact Hm'|]. intros i j Hj. rewrite He.
      destruct (Nat.ltb_spec j k); [reflexivity|lia].
    - destruct (shape_entry M N m' a k Hm' Ha ltac:(lia)) as [x Hx].
      destruct (shape_entry M N m' b k Hm' Hb ltac:(lia)) as [y Hy].
      change (@mget) with (@entry); rewrite Hx, Hy.
      destruct (mset_spec M N m' a k y Hm' Ha ltac:(lia)) as (m1 & -> & Hm1 & He1).
      destruct (mset_spec M N m1 b k x Hm1 Hb ltac:(lia)) as (m2 & -> & Hm2 & He2).
      apply (IH (S k) m2); [lia|exact Hm2|]. intros i j. rewrite He2, He1.
      rewrite He in Hx, Hy. destruct (Nat.ltb_spec k k); [lia|].
      unfold swap_idx.
      destruct (Nat.eqb_spec j k) as [->|Hne].
      + rewrite !andb_true_r. destruct (Nat.ltb_spec k (S k)); [|lia].
        destruct (Nat.eqb_spec i b) as [Hib|Hib]; destruct (Nat.eqb_spec i a) as [Hia|Hia];
          subst; try congruence.
        rewrite He. destruct (Nat.ltb_spec k k); [lia|]. reflexivity.
      + rewrite !andb_false_r. rewrite He. unfold swap_idx.
        destruct (Nat.ltb_spec j k), (Nat.ltb_spec j (S k)); try lia; reflexivity.
  Qed.
  Lemma swaprow_spec M N m a b : shape M N m -> a < M -> b < M ->
    exists r, swaprow M N m a b = Some r /\
      matrix_of M N (fun i j => entry m (swap_idx a b i) j) r.
  Proof.
    intros Hm Ha Hb. destruct (swaprow_loop M N m a b Hm Ha Hb N 0 m) as (r & Hr & Hs & He);
      [lia|exact Hm|intros; destruct (Nat.ltb_spec j 0); [lia|reflexivity]|].
    exists r. split; [exact Hr|]. split; [exact Hs|]. intros i j Hi Hj. split; [now apply He|].
    apply (entry_defined M N); auto. unfold swap_idx.
    destruct (Nat.eqb i a); [exact Hb|]. destruct (Nat.eqb i b); assumption.
  Qed.
  Lemma swaprow_undefined M N m a b : shape M N m -> 0 < N -> M <= a \/ M <= b ->
    swaprow M N m a b = None.
  Proof.
    intros Hm HN H. unfold swaprow. destruct N as [|N]; [lia|]. cbn [loop].
    change (@mget) with (@entry).
    destruct H as [H|H].
    - rewrite (shape_entry_none _ _ m a 0 Hm) by auto. reflexivity.
    - rewrite (shape_entry_none _ _ m b 0 Hm) by auto. destruct (entry m a 0); reflexivity.
  Qed.

  (** ** swapcol: only the first N rows are treated, and row indices up to N-1 are used *)
  Lemma swapcol_loop M N m a b : shape M N m -> a < N -> b < N -> forall n k m',
    k + n <= M -> shape M N m' ->
    (forall i j, entry m' i j = if Nat.ltb i k then entry m i (swap_idx a b j) else entry m i j) ->
    exists r, loop k n (fun i m =>
      match mget m i a with
      | None => None
      | Some tmp =>
        match mget m i b with
        | None => None
        | Some y => match mset m i a y with
                    | None => None
                    | Some m1 => mset m1 i b tmp
                    end
        end
      end) m' = Some r /\ shape M N r /\
      forall i j, entry r i j = if Nat.ltb i (k + n) then entry m i (swap_idx a b j) else entry m i j.
  Proof.
    intros Hm Ha Hb. induction n as [|n IH]; intros k m' Hk Hm' He; cbn [loop].
    - exists m'. split; [reflexivity|]. split; [exact Hm'|]. intros i j. rewrite He, Nat.add_0_r. reflexivity.
    - destruct (shape_entry M N m' k a Hm' ltac:(lia) Ha) as [x Hx].
      destruct (shape_entry M N m' k b Hm' ltac:(lia) Hb) as [y Hy].
      change (@mget) with (@entry); rewrite Hx, Hy.
      destruct (mset_spec M N m' k a y Hm' ltac:(lia) Ha) as (m1 & -> & Hm1 & He1).
      destruct (mset_spec M N m1 k b x Hm1 ltac:(lia) Hb) as (m2 & -> & Hm2 & He2).
      rewrite <- Nat.add_succ_comm. apply (IH (S k) m2); [lia|exact Hm2|]. intros i j. rewrite He2, He1.
      rewrite He in Hx, Hy. destruct (Nat.ltb_spec k k); [lia|].
      destruct (Nat.eqb_spec i k) as [->|Hne].
      + rewrite !andb_true_l. destruct (Nat.ltb_spec k (S k)); [|lia]. unfold swap_idx.
        destruct (Nat.eqb_spec j b) as [Hib|Hib]; destruct (Nat.eqb_spec j a) as [Hia|Hia];
          subst; try congruence.
        rewrite He. destruct (Nat.ltb_spec k k); [lia|]. reflexivity.
      + rewrite !andb_false_l. rewrite He.
        destruct (Nat.ltb_spec i k), (Nat.ltb_spec i (S k)); try lia; reflexivity.
  Qed.
  Lemma swapcol_le M N m a b : shape M N m -> a < N -> b < N -> N <= M ->
    exists r, swapcol M N m a b = Some r /\
      matrix_of M N (fun i j => if Nat.ltb i N then entry m i (swap_idx a b j) else entry m i j) r.
  Proof.
    intros Hm Ha Hb HNM. destruct (swapcol_loop M N m a b Hm Ha Hb N 0 m) as (r & Hr & Hs & He);
      [lia|exact Hm|intros; destruct (Nat.ltb_spec i 0); [lia|reflexivity]|].
    exists r. split; [exact Hr|]. split; [exact Hs|]. intros i j Hi Hj. split; [now apply He|].
    assert (swap_idx a b j < N).
    { unfold swap_idx. destruct (Nat.eqb j a); [exact Hb|]. destruct (Nat.eqb j b); assumption. }
    destruct (Nat.ltb i N); now apply (entry_defined M N).
  Qed.
  Lemma swapcol_undefined M N m a b : shape M N m -> a < N -> b < N -> M < N ->
    swapcol M N m a b = None.
  Proof.
    intros Hm Ha Hb HNM. unfold swapcol.
    assert (Hgen : forall n k m', k <= M -> M < k + n -> shape M N m' ->
      loop k n (fun i m =>
      match mget m i a with
      | None => None
      | Some tmp =>
        match mget m i b with
        | None => None
        | Some y => match mset m i a y with
                    | None => None
                    | Some m1 => mset m1 i b tmp
                    end
        end
      end) m' = None).
    { induction n as [|n IH]; intros k m' Hk Hkn Hm'; [lia|]. cbn [loop].
      change (@mget) with (@entry). destruct (Nat.eq_dec k M) as [->|Hne].
      - rewrite (shape_entry_none _ _ m' M a Hm') by auto. reflexivity.
      - destruct (shape_entry M N m' k a Hm' ltac:(lia) Ha) as [x ->].
        destruct (shape_entry M N m' k b Hm' ltac:(lia) Hb) as [y ->].
        destruct (mset_spec M N m' k a y Hm' ltac:(lia) Ha) as (m1 & -> & Hm1 & _).
        destruct (mset_spec M N m1 k b x Hm1 ltac:(lia) Hb) as (m2 & -> & Hm2 & _).
        apply IH; [lia|lia|exact Hm2]. }
    apply Hgen; [lia|lia|exact Hm].
  Qed.
End Update.

Section Products.
  Variable K : FieldOps.
  Hypothesis HR : RingLaws K.
  Lemma Rth_local : ring_theory (@f0 K) f1 fadd fmul fsub fopp eq. Proof. exact (RL_th K HR). Qed.
  Add Ring KR : Rth_local.
  Local Open Scope fld_scope.

  Lemma get_identity_spec n : exists r, get_identity K n = Some r /\
    matrix_of n n (fun i j => Some (if Nat.eqb i j then 1 else 0)) r.
  Proof. apply mgenerate_spec. discriminate. Qed.

  Lemma bigsum_ext n (f g : nat -> K) : (forall k, (k < n)%nat -> f k = g k) -> bigsum n f = bigsum n g.
  Proof.
    induction n as [|n IH]; intros H; cbn [bigsum]; [reflexivity|].
    rewrite IH by (intros; apply H; lia). now rewrite H by lia.
  Qed.
  Lemma bigsum_shift n (f : nat -> K) : bigsum (S n) f = f 0%nat + bigsum n (fun k => f (S k)).
  Proof.
    induction n as [|n IH]; [cbn; ring|].
    change (bigsum (S (S n)) f) with (bigsum (S n) f + f (S n)).
    rewrite IH. cbn [bigsum]. ring.
  Qed.
  Lemma fold_bigsum (l : list K) (f : nat -> K) :
    (forall k, (k < length l)%nat -> nth_error l k = Some (f k)) ->
    fold_right fadd 0 l = bigsum (length l) f.
  Proof.
    revert f; induction l as [|x l IH]; intros f H; [reflexivity|].
    cbn [length fold_right]. rewrite bigsum_shift.
    pose proof (H 0%nat ltac:(cbn; lia)) as H0. cbn in H0. injection H0 as ->. f_equal.
    apply IH. intros k Hk. exact (H (S k) ltac:(cbn; lia)).
  Qed.

  (** sum of the elementwise product of two vectors given by their entries *)
  Lemma sum_mul_spec n (x y : list K) (f g : nat -> K) :
    length x = n -> length y = n ->
    (forall k, (k < n)%nat -> nth_error x k = Some (f k)) ->
    (forall k, (k < n)%nat -> nth_error y k = Some (g k)) ->
    sum_mul K (Some x) (Some y) = Some (bigsum n (fun k => f k * g k)).
  Proof.
    intros Hx Hy Hf Hg. unfold sum_mul, vmul. rewrite elementwise2_combine by congruence.
    rewrite (vsum_spec K HR). f_equal.
    assert (Hlen : length (map (fun p : K * K => fst p * snd p) (combine x y)) = n).
    { rewrite map_length, combine_length. lia. }
    rewrite (fold_bigsum _ (fun k => f k * g k)); [now rewrite Hlen|].
    intros k Hk. rewrite Hlen in Hk. rewrite nth_error_map.
    rewrite (nth_error_combine x y k (f k) (g k)) by auto. reflexivity.
  Qed.

  Lemma mrow_spec M N (m : matrix K) i : shape M N m -> (i < M)%nat ->
    exists r, mrow M N m i = Some r /\ length r = N /\
      forall k, (k < N)%nat -> nth_error r k = Some (coef m i k).
  Proof.
    intros Hm Hi. unfold mrow. destruct (Nat.leb_spec M i); [lia|]. rewrite generate_build.
    destruct (build_defined (fun j => mget m i j) N) as (r & Hr & Hl & Hk).
    { intros k Hk. now apply (entry_defined M N). }
    exists r. split; [exact Hr|]. split; [exact Hl|]. intros k Hlt. rewrite Hk by exact Hlt.
    unfold coef. destruct (shape_entry M N m i k Hm Hi Hlt) as [x Hx].
    change (@mget) with (@entry); rewrite Hx. reflexivity.
  Qed.
  Lemma mcolumn_spec M N (m : matrix K) i : shape M N m -> (i < N)%nat ->
    exists r, mcolumn M N m i = Some r /\ length r = M /\
      forall k, (k < M)%nat -> nth_error r k = Some (coef m k i).
  Proof.
    intros Hm Hi. unfold mcolumn. destruct (Nat.leb_spec N i); [lia|]. rewrite generate_build.
    destruct (build_defined (fun j => mget m j i) M) as (r & Hr & Hl & Hk).
    { intros k Hk. now apply (entry_defined M N). }
    exists r. split; [exact Hr|]. split; [exact Hl|]. intros k Hlt. rewrite Hk by exact Hlt.
    unfold coef. destruct (shape_entry M N m k i Hm Hlt Hi) as [x Hx].
    change (@mget) with (@entry); rewrite Hx. reflexivity.
  Qed.

  Lemma matmul_spec M N P (a b : matrix K) : shape M N a -> shape N P b ->
    exists r, matmul K M N P a b = Some r /\
      matrix_of M P (fun i j => Some (bigsum N (fun k => coef a i k * coef b k j))) r.
  Proof.
    intros Ha Hb. unfold matmul.
    assert (H : forall i j, (i < M)%nat -> (j < P)%nat ->
      sum_mul K (mrow M N a i) (mcolumn N P b j) = Some (bigsum N (fun k => coef a i k * coef b k j))).
    { intros i j Hi Hj. destruct (mrow_spec M N a i Ha Hi) as (x & -> & Hx & Hf).
      destruct (mcolumn_spec N P b j Hb Hj) as (y & -> & Hy & Hg). now apply sum_mul_spec. }
    destruct (mgenerate_spec M P (fun i j => sum_mul K (mrow M N a i) (mcolumn N P b j))) as (r & Hr & Hof).
    { intros i j Hi Hj. rewrite H by assumption. discriminate. }
    exists r. split; [exact Hr|]. exact (matrix_of_ext _ _ _ _ _ H Hof).
  Qed.
  Lemma vcoef_nth (v : list K) k : (k < length v)%nat -> nth_error v k = Some (vcoef v k).
  Proof.
    intros H. unfold vcoef. destruct (nth_error v k) eqn:E; [reflexivity|].
    apply nth_error_None in E. lia.
  Qed.
  Lemma vectmatmul_spec M N (v : list K) (m : matrix K) : length v = M -> shape M N m ->
    exists r, vectmatmul K M N v m = Some r /\ length r = N /\
      forall j, (j < N)%nat -> nth_error r j = Some (bigsum M (fun k => vcoef v k * coef m k j)).
  Proof.
    intros Hv Hm. unfold vectmatmul. rewrite generate_build.
    assert (H : forall j, (j < N)%nat -> sum_mul K (Some v) (mcolumn M N m j)
                = Some (bigsum M (fun k => vcoef v k * coef m k j))).
    { intros j Hj. destruct (mcolumn_spec M N m j Hm Hj) as (y & -> & Hy & Hg).
      apply sum_mul_spec; auto. intros; apply vcoef_nth; lia. }
    destruct (build_defined (fun i => sum_mul K (Some v) (mcolumn M N m i)) N) as (r & Hr & Hl & Hk).
    { intros k Hk. rewrite H by exact Hk. discriminate. }
    exists r. split; [exact Hr|]. split; [exact Hl|]. intros j Hj. now rewrite Hk, H.
  Qed.
  Lemma matvectmul_spec M N (m : matrix K) (v : list K) : shape M N m -> length v = N ->
    exists r, matvectmul K M N m v = Some r /\ length r = M /\
      forall i, (i < M)%nat -> nth_error r i = Some (bigsum N (fun k => coef m i k * vcoef v k)).
  Proof.
    intros Hm Hv. unfold matvectmul. rewrite generate_build.
    assert (H : forall i, (i < M)%nat -> sum_mul K (mrow M N m i) (Some v)
                = Some (bigsum N (fun k => coef m i k * vcoef v k))).
    { intros i Hi. destruct (mrow_spec M N m i Hm Hi) as (x & -> & Hx & Hf).
      apply sum_mul_spec; auto. intros; apply vcoef_nth; lia. }
    destruct (build_defined (fun i => sum_mul K (mrow M N m i) (Some v)) M) as (r & Hr & Hl & Hk).
    { intros k Hk. rewrite H by exact Hk. discriminate. }
    exists r. split; [exact Hr|]. split; [exact Hl|]. intros j Hj. now rewrite Hk, H.
  Qed.
  Lemma coef_entry M N (m : matrix K) i j : shape M N m -> (i < M)%nat -> (j < N)%nat ->
    entry m i j = Some (coef m i j).
  Proof.
    intros Hm Hi Hj. unfold coef. destruct (shape_entry M N m i j Hm Hi Hj) as [x ->]. reflexivity.
  Qed.
  Lemma kron_spec M N P Q (a b : matrix K) : shape M N a -> shape P Q b ->
    exists r, kron K M N P Q a b = Some r /\ shape (M * P) (N * Q) r /\
      forall i j k l, (i < M)%nat -> (j < N)%nat -> (k < P)%nat -> (l < Q)%nat ->
        entry r (i * P + k) (j * Q + l) = Some (coef a i j * coef b k l).
  Proof.
    intros Ha Hb. unfold kron.
    set (f := fun i j => match mget a (i / P) (j / Q), mget b (i mod P) (j mod Q) with
                  | Some x, Some y => Some (x * y) | _, _ => None end).
    assert (H : forall i j k l, (i < M)%nat -> (j < N)%nat -> (k < P)%nat -> (l < Q)%nat ->
        f (i * P + k)%nat (j * Q + l)%nat = Some (coef a i j * coef b k l)).
    { intros i j k l Hi Hj Hk Hl. unfold f.
      rewrite !Nat.div_add_l by lia. rewrite !(Nat.add_comm (_ * _)), !Nat.mod_add by lia.
      rewrite (Nat.div_small k P), (Nat.div_small l Q), !Nat.mod_small, !Nat.add_0_r by lia.
      change (@mget) with (@entry); rewrite (coef_entry M N a), (coef_entry P Q b) by assumption. reflexivity. }
    destruct (mgenerate_spec (M * P) (N * Q) f) as (r & Hr & [Hs He]).
    { intros i j Hi Hj. assert (P <> 0%nat /\ Q <> 0%nat) as [HP HQ] by nia.
      rewrite (Nat.div_mod_eq i P), (Nat.div_mod_eq j Q), (Nat.mul_comm P), (Nat.mul_comm Q).
      rewrite H; [discriminate| | | |]; try (now apply Nat.mod_upper_bound);
        apply Nat.div_lt_upper_bound; lia. }
    exists r. split; [exact Hr|]. split; [exact Hs|]. intros i j k l Hi Hj Hk Hl.
    rewrite (proj1 (He (i * P + k)%nat (j * Q + l)%nat ltac:(nia) ltac:(nia))). now apply H.
  Qed.
  Lemma mtrace_spec M (m : matrix K) : shape M M m ->
    mtrace K M m = Some (bigsum M (fun i => coef m i i)).
  Proof.
    intros Hm. unfold mtrace. rewrite generate_build.
    destruct (build_defined (fun i => mget m i i) M) as (r & Hr & Hl & Hk).
    { intros k Hk. now apply (entry_defined M M). }
    rewrite Hr, (vsum_spec K HR). f_equal. rewrite <- Hl at 1. apply fold_bigsum.
    intros k Hlt. rewrite Hl in Hlt. rewrite Hk by exact Hlt. now apply (coef_entry M M).
  Qed.
End Products.
