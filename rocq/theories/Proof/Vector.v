(** Proofs about Model/Vector.v *)
From Coq Require Import List NArith ZArith Znumtheory Nnat Arith Bool Lia Ring Field.
From Verif Require Import Base.Field Model.Vector.
Import ListNotations.

Section Build.
  Context {A : Type}.

  Lemma build_from_some (f : nat -> option A) (g : nat -> A) : forall n i,
    (forall k, (i <= k < i + n)%nat -> f k = Some (g k)) ->
    build_from i n f = Some (map g (seq i n)).
  Proof.
    induction n as [|n IH]; intros i H; cbn [build_from seq map]; [reflexivity|].
    rewrite (H i) by lia. rewrite IH by (intros k Hk; apply H; lia). reflexivity.
  Qed.

  Lemma build_some (f : nat -> option A) (g : nat -> A) n :
    (forall k, (k < n)%nat -> f k = Some (g k)) -> build n f = Some (map g (seq 0 n)).
  Proof. intros H; apply build_from_some; intros k Hk; apply H; lia. Qed.

  Lemma build_from_inv (f : nat -> option A) : forall n i l,
    build_from i n f = Some l ->
    length l = n /\ forall k, (k < n)%nat -> nth_error l k = f (i + k)%nat.
  Proof.
    induction n as [|n IH]; intros i l; cbn [build_from].
    - intros E; injection E as <-; split; [reflexivity|lia].
    - destruct (f i) as [a|] eqn:Ea; [|discriminate].
      destruct (build_from (S i) n f) as [l'|] eqn:El; [|discriminate].
      intros E; injection E as <-. destruct (IH _ _ El) as [Hl Hk].
      split; [cbn; lia|]. intros [|k] Hlt; cbn [nth_error].
      + rewrite Nat.add_0_r; congruence.
      + rewrite Hk by lia. f_equal; lia.
  Qed.

  Lemma build_inv (f : nat -> option A) n l :
    build n f = Some l -> length l = n /\ forall k, (k < n)%nat -> nth_error l k = f k.
  Proof. intros H; destruct (build_from_inv _ _ _ _ H) as [H1 H2]; split; [exact H1|exact H2]. Qed.

  (** a build is defined exactly when every entry is *)
  Lemma build_from_defined (f : nat -> option A) : forall n i,
    (forall k, (i <= k < i + n)%nat -> f k <> None) -> exists l, build_from i n f = Some l.
  Proof.
    induction n as [|n IH]; intros i H; cbn [build_from]; [eauto|].
    destruct (f i) as [a|] eqn:Ea; [|exfalso; apply (H i); [lia|exact Ea]].
    destruct (IH (S i)) as [l Hl]; [intros k Hk; apply H; lia|]. rewrite Hl. eauto.
  Qed.
  Lemma build_defined (f : nat -> option A) n :
    (forall k, (k < n)%nat -> f k <> None) ->
    exists l, build n f = Some l /\ length l = n /\
              forall k, (k < n)%nat -> nth_error l k = f k.
  Proof.
    intros H. destruct (build_from_defined f n 0) as [l Hl]; [intros k Hk; apply H; lia|].
    exists l; split; [exact Hl|]. apply build_inv; exact Hl.
  Qed.
  Lemma build_from_undefined (f : nat -> option A) : forall n i k,
    (i <= k < i + n)%nat -> f k = None -> build_from i n f = None.
  Proof.
    induction n as [|n IH]; intros i k Hk Hn; [lia|]. cbn [build_from].
    destruct (Nat.eq_dec k i) as [->|Hne]; [rewrite Hn; reflexivity|].
    destruct (f i); [|reflexivity]. rewrite (IH (S i) k); [reflexivity|lia|exact Hn].
  Qed.
  Lemma build_undefined (f : nat -> option A) n k :
    (k < n)%nat -> f k = None -> build n f = None.
  Proof. intros; eapply build_from_undefined; eauto; lia. Qed.
End Build.

Lemma vget_some {A} (v : list A) i : (i < length v)%nat -> vget v i <> None.
Proof. intros H; unfold vget; now apply nth_error_Some. Qed.

Lemma list_ext {A} (l1 l2 : list A) :
  length l1 = length l2 ->
  (forall i, (i < length l1)%nat -> nth_error l1 i = nth_error l2 i) -> l1 = l2.
Proof.
  revert l2; induction l1 as [|a l1 IH]; intros [|b l2] Hl H; try discriminate; [reflexivity|].
  cbn in Hl. pose proof (H 0%nat ltac:(cbn; lia)) as H0. cbn in H0. injection H0 as ->.
  f_equal. apply IH; [lia|]. intros i Hi. exact (H (S i) ltac:(cbn; lia)).
Qed.

Lemma build_get_id {A} (v : list A) : build (length v) (fun i => vget v i) = Some v.
Proof.
  destruct (build_defined (fun i => vget v i) (length v)) as (l & Hl & Hlen & Hk).
  { intros k Hk; now apply vget_some. }
  rewrite Hl. f_equal. apply list_ext; [exact Hlen|]. intros i Hi. rewrite Hk by lia. reflexivity.
Qed.

(** ** elementwise, fill, generate, slice, concat *)
Lemma elementwise1_map {A B} (f : A -> B) v : elementwise1 f v = Some (map f v).
Proof.
  unfold elementwise1.
  destruct (build_defined (fun i => match vget v i with Some a => Some (f a) | None => None end)
              (length v)) as (l & Hl & Hlen & Hk).
  { intros k Hk. generalize (vget_some v k Hk). destruct (vget v k); [discriminate|congruence]. }
  rewrite Hl. f_equal. apply list_ext; [rewrite map_length; exact Hlen|].
  intros i Hi. rewrite Hk by lia. rewrite nth_error_map. unfold vget.
  destruct (nth_error v i); reflexivity.
Qed.

Lemma nth_error_combine {A B} (v : list A) (w : list B) i a b :
  nth_error v i = Some a -> nth_error w i = Some b -> nth_error (combine v w) i = Some (a, b).
Proof.
  revert w i; induction v as [|x v IH]; intros [|y w] [|i]; cbn; try discriminate.
  - congruence.
  - apply IH.
Qed.

Lemma elementwise2_combine {A B C} (f : A -> B -> C) v w : length v = length w ->
  elementwise2 f v w = Some (map (fun p => f (fst p) (snd p)) (combine v w)).
Proof.
  intros Hlen0. unfold elementwise2.
  destruct (build_defined (fun i => match vget v i, vget w i with
                                    | Some a, Some b => Some (f a b) | _, _ => None end)
              (length v)) as (l & Hl & Hlen & Hk).
  { intros k Hk. generalize (vget_some v k Hk). generalize (vget_some w k ltac:(lia)).
    destruct (vget v k), (vget w k); congruence. }
  rewrite Hl. f_equal. apply list_ext.
  { rewrite map_length, combine_length. lia. }
  intros i Hi. rewrite Hk by lia. rewrite nth_error_map.
  generalize (vget_some v i ltac:(lia)). generalize (vget_some w i ltac:(lia)). unfold vget.
  destruct (nth_error v i) as [a|] eqn:Ea; [|congruence].
  destruct (nth_error w i) as [b|] eqn:Eb; [|congruence].
  rewrite (nth_error_combine _ _ _ _ _ Ea Eb). reflexivity.
Qed.

(** two vectors of different sizes: the shorter second one is read out of range *)
Lemma iota_loop_length {A} n (a : A) s : length (iota_loop n a s) = n.
Proof. revert a; induction n; intros; cbn; auto. Qed.
Lemma iota_size_seq n : iota_size n = seq 0 n.
Proof.
  unfold iota_size. generalize 0%nat as a. induction n as [|n IH]; intros a; cbn; [reflexivity|].
  now rewrite IH.
Qed.
Lemma nth_error_iota_size n i : (i < n)%nat -> nth_error (iota_size n) i = Some i.
Proof.
  intros H. rewrite iota_size_seq.
  rewrite (nth_error_nth' (seq 0 n) 0%nat) by (rewrite seq_length; lia).
  now rewrite seq_nth by lia.
Qed.
Lemma generate_build {A} n (f : nat -> option A) : generate n f = build n f.
Proof.
  unfold generate, iota_size. rewrite iota_loop_length.
  change (iota_loop n 0%nat S) with (iota_size n). unfold build.
  assert (H : forall m i, (i + m <= n)%nat ->
    build_from i m (fun i0 => match vget (iota_size n) i0 with Some k => f k | None => None end)
    = build_from i m f).
  { induction m as [|m IH]; intros i Hi; cbn [build_from]; [reflexivity|].
    unfold vget at 1. rewrite nth_error_iota_size by lia.
    rewrite IH by lia. reflexivity. }
  apply H; lia.
Qed.
Lemma fill_repeat {A} n (a : A) : fill n a = Some (repeat a n).
Proof.
  unfold fill. rewrite (build_some _ (fun _ => a)) by reflexivity. f_equal.
  generalize 0%nat. induction n as [|n IH]; intros k; cbn; [reflexivity|now rewrite IH].
Qed.

Lemma slice_spec {A} m (v : list A) start : (start + m <= length v)%nat ->
  slice m v start = Some (firstn m (skipn start v)).
Proof.
  intros H. unfold slice.
  destruct (build_defined (fun i => vget v (i + start)) m) as (l & Hl & Hlen & Hk).
  { intros k Hk; apply vget_some; lia. }
  rewrite Hl. f_equal. apply list_ext.
  { rewrite firstn_length, skipn_length. lia. }
  intros i Hi. rewrite Hk by lia. unfold vget. rewrite Nat.add_comm.
  revert H Hi Hlen. clear. intros H Hi Hlen.
  assert (Hsk : nth_error v (start + i) = nth_error (skipn start v) i).
  { clear. revert v; induction start as [|s IH]; intros v; cbn; [reflexivity|].
    destruct v; cbn; [destruct i; reflexivity|apply IH]. }
  rewrite Hsk. set (w := skipn start v). assert (i < m)%nat as Him by lia. clearbody w. clear -Him.
  revert m Him w; induction i as [|i IH]; intros [|m] Him [|x w]; cbn; try lia; try reflexivity.
  apply IH; lia.
Qed.
Lemma slice_undefined {A} m (v : list A) start :
  (length v < start + m)%nat -> (0 < m)%nat -> slice m v start = None.
Proof.
  intros H Hm. unfold slice. apply (build_undefined _ m (m - 1)); [lia|].
  unfold vget. apply nth_error_None. lia.
Qed.

Lemma concat_app {A} (a b : list A) : concat a b = Some (a ++ b).
Proof. unfold concat. now rewrite !build_get_id. Qed.

(** ** accumulate and its instances *)
Lemma accumulate_fold {A U} (v : list A) (init : U) f :
  accumulate v init f = Some (fold_left f v init).
Proof.
  unfold accumulate.
  assert (H : forall l i r, (forall k, (k < length l)%nat -> nth_error v (i + k) = nth_error l k) ->
             accumulate_from v i (length l) r f = Some (fold_left f l r)).
  { induction l as [|a l IH]; intros i r Hk; cbn [length accumulate_from fold_left]; [reflexivity|].
    unfold vget. pose proof (Hk 0%nat ltac:(cbn; lia)) as H0. rewrite Nat.add_0_r in H0.
    rewrite H0. cbn [nth_error]. apply IH. intros k Hlt.
    pose proof (Hk (S k) ltac:(cbn; lia)) as H1. cbn [nth_error] in H1. rewrite <- H1. f_equal; lia. }
  apply H. intros; reflexivity.
Qed.

Lemma skipn_cons_nth {A} (l : list A) i x : nth_error l i = Some x -> skipn i l = x :: skipn (S i) l.
Proof.
  revert i; induction l as [|y l IH]; intros [|i]; cbn [nth_error skipn]; try discriminate.
  - congruence.
  - apply IH.
Qed.

Section Ring.
  Variable K : FieldOps.
  Hypothesis HR : RingLaws K.
  Lemma Rth_local : ring_theory (@f0 K) f1 fadd fmul fsub fopp eq. Proof. exact (RL_th K HR). Qed.
  Add Ring KR : Rth_local.
  Local Open Scope fld_scope.

  Lemma fold_add_acc (l : list K) a : fold_left fadd l a = a + fold_right fadd 0 l.
  Proof. revert a; induction l as [|x l IH]; intros a; cbn; [ring|]. rewrite IH. ring. Qed.

  Lemma vsum_spec v : vsum K v = Some (fold_right fadd 0 v).
  Proof. unfold vsum. rewrite accumulate_fold, fold_add_acc. f_equal. ring. Qed.

  Lemma dot_loop_spec conj (a b : list K) : forall n i r,
    length a = length b -> (i + n = length a)%nat ->
    dot_loop K conj a b i n r
    = Some (r + fold_right fadd 0 (map (fun p => fst p * conj (snd p)) (skipn i (combine a b)))).
  Proof.
    induction n as [|n IH]; intros i r Hab Hi; cbn [dot_loop].
    - rewrite skipn_all2 by (rewrite combine_length; lia). cbn. f_equal; ring.
    - pose proof (vget_some a i ltac:(lia)) as Ha. pose proof (vget_some b i ltac:(lia)) as Hb.
      unfold vget in *.
      destruct (nth_error a i) as [x|] eqn:Ea; [|congruence].
      destruct (nth_error b i) as [y|] eqn:Eb; [|congruence].
      pose proof (nth_error_combine _ _ _ _ _ Ea Eb) as Ec.
      rewrite IH by lia. rewrite (skipn_cons_nth (combine a b) i (x, y) Ec).
      cbn [map fold_right fst snd]. f_equal; ring.
  Qed.
  Lemma dot_spec conj (a b : list K) : length a = length b ->
    dot K conj a b
    = Some (fold_right fadd 0 (map (fun p => fst p * conj (snd p)) (combine a b))).
  Proof. intros H. unfold dot. rewrite dot_loop_spec by lia. cbn [skipn]. f_equal; ring. Qed.

  Lemma fofN_S n : @fofN K (N.of_nat (S n)) = 1 + fofN (N.of_nat n).
  Proof. unfold fofN. rewrite Nat2N.inj_succ, N.iter_succ. reflexivity. Qed.

  Lemma iota_spec n value : forall i, (i < n)%nat ->
    nth_error (iota K n value) i = Some (value + fofN (N.of_nat i)).
  Proof.
    unfold iota. revert value. induction n as [|n IH]; intros value i Hi; [lia|].
    cbn [iota_loop]. destruct i as [|i]; cbn [nth_error].
    - f_equal. unfold fofN. cbn. ring.
    - rewrite IH by lia. f_equal. rewrite fofN_S. ring.
  Qed.
End Ring.

Section Lin.
  Variable K : FieldOps.
  Hypothesis HF : FieldLaws K.
  Lemma Fth_local : field_theory (@f0 K) f1 fadd fmul fsub fopp fdiv finv eq. Proof. exact (FL_th K HF). Qed.
  Add Field KF : Fth_local.
  Local Open Scope fld_scope.
  Lemma linspace_spec n (mn mx : K) : exists l,
    linspace K n mn mx = Some l /\ length l = n /\
    forall i, (i < n)%nat -> nth_error l i
      = Some (mn + (mx - mn) / fofN (N.of_nat (n - 1)) * fofN (N.of_nat i)).
  Proof.
    unfold linspace. rewrite elementwise1_map, elementwise1_map. eexists; split; [reflexivity|].
    split; [unfold iota; now rewrite !map_length, iota_loop_length|].
    intros i Hi. rewrite !nth_error_map.
    rewrite (iota_spec K (FieldLaws_Ring K HF)) by exact Hi. cbn [option_map]. f_equal.
    unfold fdiv. ring.
  Qed.
  Lemma linspace_ends n (mn mx : K) : (2 <= n)%nat -> @fofN K (N.of_nat (n - 1)) <> 0 ->
    exists l, linspace K n mn mx = Some l /\ length l = n /\
      nth_error l 0 = Some mn /\ nth_error l (n - 1) = Some mx.
  Proof.
    intros Hn Hz. destruct (linspace_spec n mn mx) as (l & Hl & Hlen & Hk).
    exists l; split; [exact Hl|]. split; [exact Hlen|].
    rewrite !Hk by lia. split; f_equal.
    - unfold fofN at 2. cbn. unfold fdiv. ring.
    - field. exact Hz.
  Qed.
End Lin.

(** ** extrema: for any strict weak order *)
Section Order.
  Context {A : Type} (ltb : A -> A -> bool).
  Hypothesis irrefl : forall a, ltb a a = false.
  Hypothesis trans : forall a b c, ltb a b = true -> ltb b c = true -> ltb a c = true.
  Hypothesis negtrans : forall a b c, ltb a b = false -> ltb b c = false -> ltb a c = false.

  Lemma lt_asym a b : ltb a b = true -> ltb b a = false.
  Proof.
    intros H. destruct (ltb b a) eqn:E; [|reflexivity].
    pose proof (trans _ _ _ H E) as T. rewrite irrefl in T. discriminate.
  Qed.

  Lemma vmin_spec v m : vmin ltb v = Some m -> In m v /\ forall x, In x v -> ltb x m = false.
  Proof.
    unfold vmin. destruct v as [|a v]; [discriminate|]. cbn [vget nth_error].
    rewrite accumulate_fold. intros E; injection E as <-.
    assert (H : forall l b, In (fold_left (std_min ltb) l b) (b :: l) /\
        ltb b (fold_left (std_min ltb) l b) = false /\
        forall x, In x l -> ltb x (fold_left (std_min ltb) l b) = false).
    { induction l as [|c l IH]; intros b; cbn [fold_left].
      - split; [now left|]. split; [apply irrefl|intros x []].
      - destruct (IH (std_min ltb b c)) as (H1 & H2 & H3).
        assert (Hb : ltb b (std_min ltb b c) = false /\ ltb c (std_min ltb b c) = false /\
                     (std_min ltb b c = b \/ std_min ltb b c = c)).
        { unfold std_min. destruct (ltb c b) eqn:E.
          - split; [now apply lt_asym|]. split; [apply irrefl|now right].
          - split; [apply irrefl|]. split; [exact E|now left]. }
        destruct Hb as (Hb1 & Hb2 & Hb3). split; [|split].
        + destruct H1 as [H1|H1]; [|now right; right].
          rewrite <- H1. destruct Hb3 as [->| ->]; [now left|now right; left].
        + eapply negtrans; eauto.
        + intros x [<-|Hx]; [eapply negtrans; eauto|now apply H3]. }
    destruct (H (a :: v) a) as (H1 & H2 & H3). split; [|exact H3].
    destruct H1 as [H1|H1]; [|exact H1]. left. exact H1.
  Qed.

  Lemma vmax_spec v m : vmax ltb v = Some m -> In m v /\ forall x, In x v -> ltb m x = false.
  Proof.
    unfold vmax. destruct v as [|a v]; [discriminate|]. cbn [vget nth_error].
    rewrite accumulate_fold. intros E; injection E as <-.
    assert (H : forall l b, In (fold_left (std_max ltb) l b) (b :: l) /\
        ltb (fold_left (std_max ltb) l b) b = false /\
        forall x, In x l -> ltb (fold_left (std_max ltb) l b) x = false).
    { induction l as [|c l IH]; intros b; cbn [fold_left].
      - split; [now left|]. split; [apply irrefl|intros x []].
      - destruct (IH (std_max ltb b c)) as (H1 & H2 & H3).
        assert (Hb : ltb (std_max ltb b c) b = false /\ ltb (std_max ltb b c) c = false /\
                     (std_max ltb b c = b \/ std_max ltb b c = c)).
        { unfold std_max. destruct (ltb b c) eqn:E.
          - split; [now apply lt_asym|]. split; [apply irrefl|now right].
          - split; [apply irrefl|]. split; [exact E|now left]. }
        destruct Hb as (Hb1 & Hb2 & Hb3). split; [|split].
        + destruct H1 as [H1|H1]; [|now right; right].
          rewrite <- H1. destruct Hb3 as [->| ->]; [now left|now right; left].
        + eapply negtrans; eauto.
        + intros x [<-|Hx]; [eapply negtrans; eauto|now apply H3]. }
    destruct (H (a :: v) a) as (H1 & H2 & H3). split; [|exact H3].
    destruct H1 as [H1|H1]; [|exact H1]. left. exact H1.
  Qed.
End Order.

Section Index.
  Context {A : Type} (better : A -> A -> bool).
  Hypothesis irrefl : forall a, better a a = false.
  Hypothesis trans : forall a b c, better a b = true -> better b c = true -> better a c = true.
  Hypothesis negtrans : forall a b c, better a b = false -> better b c = false -> better a c = false.

  (** the index returned is the first position holding an element no other beats *)
  Lemma index_loop_spec v : forall n i best index,
    (i + n = length v)%nat -> (index < i \/ (i = 0 /\ index = 0))%nat ->
    nth_error v index = Some best ->
    (forall k x, (k < i)%nat -> nth_error v k = Some x -> better x best = false) ->
    (forall k x, (k < index)%nat -> nth_error v k = Some x -> better best x = true) ->
    exists r m, index_loop better v i n best index = Some r /\ nth_error v r = Some m /\
      (forall k x, nth_error v k = Some x -> better x m = false) /\
      (forall k x, (k < r)%nat -> nth_error v k = Some x -> better m x = true).
  Proof.
    induction n as [|n IH]; intros i best index Hi Hidx Hbest Hall Hfirst; cbn [index_loop].
    - exists index, best. split; [reflexivity|]. split; [exact Hbest|]. split; [|exact Hfirst].
      intros k x Hk. apply (Hall k x); [|exact Hk]. pose proof (proj1 (nth_error_Some v k)) as Hs.
      rewrite Hk in Hs. specialize (Hs ltac:(discriminate)). lia.
    - pose proof (vget_some v i ltac:(lia)) as Hv. unfold vget in *.
      destruct (nth_error v i) as [a|] eqn:Ea; [|congruence].
      destruct (better a best) eqn:Eb.
      + apply (IH (S i) a i); [lia|left; lia|exact Ea| |].
        * intros k x Hk Hx. destruct (Nat.eq_dec k i) as [->|Hne].
          { rewrite Ea in Hx; injection Hx as <-. apply irrefl. }
          apply (negtrans x best a); [apply (Hall k x); [lia|exact Hx]|].
          now apply (lt_asym better irrefl trans).
        * intros k x Hk Hx. pose proof (Hall k x Hk Hx) as Hkx.
          (* better a best and not (better x best) give better a x *)
          destruct (better a x) eqn:Eax; [reflexivity|].
          pose proof (negtrans a x best Eax Hkx). congruence.
      + apply (IH (S i) best index); [lia| |exact Hbest| |exact Hfirst].
        * left. lia.
        * intros k x Hk Hx. destruct (Nat.eq_dec k i) as [->|Hne].
          { rewrite Ea in Hx; injection Hx as <-. exact Eb. }
          apply (Hall k x); [lia|exact Hx].
  Qed.
End Index.

Lemma min_index_spec {A} (ltb : A -> A -> bool)
  (irrefl : forall a, ltb a a = false)
  (trans : forall a b c, ltb a b = true -> ltb b c = true -> ltb a c = true)
  (negtrans : forall a b c, ltb a b = false -> ltb b c = false -> ltb a c = false) v :
  v <> [] -> exists r m, min_index ltb v = Some r /\ nth_error v r = Some m /\
    (forall k x, nth_error v k = Some x -> ltb x m = false) /\
    (forall k x, (k < r)%nat -> nth_error v k = Some x -> ltb m x = true).
Proof.
  intros Hv. destruct v as [|a v]; [congruence|]. unfold min_index. cbn [vget nth_error].
  apply (index_loop_spec ltb irrefl trans negtrans (a :: v)); try reflexivity; try (intros; lia).
Qed.
Lemma max_index_spec {A} (ltb : A -> A -> bool)
  (irrefl : forall a, ltb a a = false)
  (trans : forall a b c, ltb a b = true -> ltb b c = true -> ltb a c = true)
  (negtrans : forall a b c, ltb a b = false -> ltb b c = false -> ltb a c = false) v :
  v <> [] -> exists r m, max_index ltb v = Some r /\ nth_error v r = Some m /\
    (forall k x, nth_error v k = Some x -> ltb m x = false) /\
    (forall k x, (k < r)%nat -> nth_error v k = Some x -> ltb x m = true).
Proof.
  intros Hv. destruct v as [|a v]; [congruence|]. unfold max_index. cbn [vget nth_error].
  apply (index_loop_spec (fun x m => ltb m x) irrefl
           (fun x y z H1 H2 => trans _ _ _ H2 H1)
           (fun x y z H1 H2 => negtrans _ _ _ H2 H1) (a :: v)); try reflexivity; try (intros; lia).
Qed.

(** ** equality *)
Lemma veq_spec {A} (eqb : A -> A -> bool) (Heq : forall x y, eqb x y = true <-> x = y)
  (a b : list A) : length a = length b -> exists r, veq eqb a b = Some r /\ (r = true <-> a = b).
Proof.
  intros Hlen. unfold veq.
  assert (H : forall n i, (i + n = length a)%nat -> exists r, veq_loop eqb a b i n = Some r /\
     (r = true <-> skipn i a = skipn i b)).
  { induction n as [|n IH]; intros i Hi; cbn [veq_loop].
    - exists true; split; [reflexivity|]. rewrite !skipn_all2 by lia. tauto.
    - pose proof (vget_some a i ltac:(lia)) as Ha. pose proof (vget_some b i ltac:(lia)) as Hb.
      unfold vget in *.
      destruct (nth_error a i) as [x|] eqn:Ea; [|congruence].
      destruct (nth_error b i) as [y|] eqn:Eb; [|congruence].
      rewrite (skipn_cons_nth _ _ _ Ea), (skipn_cons_nth _ _ _ Eb).
      destruct (eqb x y) eqn:E; cbn [negb].
      + apply Heq in E. subst y. destruct (IH (S i) ltac:(lia)) as (r & Hr & Hiff).
        exists r; split; [exact Hr|]. rewrite Hiff. split; [congruence|]. intros H; now injection H.
      + exists false; split; [reflexivity|]. split; [discriminate|]. intros H.
        exfalso. injection H as H _. apply Heq in H. congruence. }
  destruct (H (length a) 0%nat ltac:(lia)) as (r & Hr & Hiff).
  exists r; split; [exact Hr|]. cbn [skipn] in Hiff. exact Hiff.
Qed.

(** ** rotate *)
Local Open Scope Z_scope.
Definition int_range (n : Z) : Prop := - 2 ^ 31 <= n < 2 ^ 31.

Lemma int_plus_size_exact n N :
  int_range n -> n < 0 -> (0 < Z.of_nat N < 2 ^ 31) -> int_plus_size n N = n + Z.of_nat N.
Proof.
  unfold int_range, int_plus_size, to_size_t, to_int. intros Hn Hneg HN.
  rewrite Zplus_mod_idemp_l.
  rewrite <- (Znumtheory.Zmod_div_mod (2 ^ 32) (2 ^ 64)) by (try lia; exists (2 ^ 32); reflexivity).
  destruct (Z.ltb_spec ((n + Z.of_nat N) mod 2 ^ 32) (2 ^ 31)) as [H|H].
  - destruct (Z_lt_le_dec (n + Z.of_nat N) 0) as [Hs|Hs].
    + exfalso. rewrite <- (Z.mod_unique (n + Z.of_nat N) (2 ^ 32) (-1) (n + Z.of_nat N + 2 ^ 32)) in H; lia.
    + rewrite Z.mod_small by lia. reflexivity.
  - destruct (Z_lt_le_dec (n + Z.of_nat N) 0) as [Hs|Hs].
    + rewrite <- (Z.mod_unique (n + Z.of_nat N) (2 ^ 32) (-1) (n + Z.of_nat N + 2 ^ 32)); lia.
    + rewrite Z.mod_small in H by lia. lia.
Qed.

Lemma rotate_norm_spec N : (0 < Z.of_nat N < 2 ^ 31) -> forall fuel n,
  int_range n -> - n <= Z.of_nat fuel * Z.of_nat N ->
  exists n', rotate_norm fuel n N = Some n' /\ 0 <= n' < 2 ^ 31 /\
             n' mod Z.of_nat N = n mod Z.of_nat N.
Proof.
  intros HN. induction fuel as [|fuel IH]; intros n Hn Hf; cbn [rotate_norm].
  - destruct (Z.ltb_spec n 0); [lia|]. exists n. unfold int_range in Hn. repeat split; lia.
  - destruct (Z.ltb_spec n 0) as [Hlt|Hge].
    + rewrite int_plus_size_exact by assumption.
      destruct (IH (n + Z.of_nat N)) as (n' & H1 & H2 & H3).
      { unfold int_range in *. lia. } { lia. }
      exists n'. split; [exact H1|]. split; [exact H2|]. rewrite H3.
      rewrite <- (Z_mod_plus_full n 1 (Z.of_nat N)). f_equal; lia.
    + exists n. unfold int_range in Hn. repeat split; lia.
Qed.

Lemma rotate_spec {A} (v : list A) n fuel :
  (0 < Z.of_nat (length v) < 2 ^ 31) -> int_range n ->
  - n <= Z.of_nat fuel * Z.of_nat (length v) ->
  exists r, rotate fuel v n = Some r /\ length r = length v /\
    forall i, (i < length v)%nat ->
      nth_error r i = nth_error v (Z.to_nat ((Z.of_nat i + n) mod Z.of_nat (length v))).
Proof.
  intros HN Hn Hf. unfold rotate.
  destruct (rotate_norm_spec (length v) HN fuel n Hn Hf) as (n' & H1 & H2 & H3). rewrite H1.
  set (f := fun i => vget v _).
  assert (Hidx : forall i, (i < length v)%nat ->
     to_size_t (Z.of_nat i + to_size_t n') mod Z.of_nat (length v)
     = (Z.of_nat i + n) mod Z.of_nat (length v)).
  { intros i Hi. unfold to_size_t. rewrite (Z.mod_small n') by lia.
    rewrite (Z.mod_small (_ + _) (2 ^ 64)) by lia.
    rewrite Zplus_mod, H3, <- Zplus_mod. reflexivity. }
  destruct (build_defined f (length v)) as (l & Hl & Hlen & Hk).
  { intros k Hk. unfold f. apply vget_some. rewrite Hidx by exact Hk.
    pose proof (Z.mod_pos_bound (Z.of_nat k + n) (Z.of_nat (length v)) ltac:(lia)). lia. }
  exists l. split; [exact Hl|]. split; [exact Hlen|]. intros i Hi. rewrite Hk by exact Hi.
  unfold f, vget. now rewrite Hidx.
Qed.
