(** The Bos-Coster method: the sift loops restore the heap, the sum is invariant,
    the scalars decrease. *)
From Coq Require Import NArith ZArith List Bool Lia Arith Permutation.
From Verif Require Import Spec.Group Spec.GroupClass Spec.Digits Model.Power Model.Multiexp Proof.GroupFacts Proof.Multiexp.
Import ListNotations.

Definition par (i : nat) : nat := (i - 1) / 2.
Lemma par_lt i : (0 < i)%nat -> (par i < i)%nat.
Proof. intros H. unfold par. apply Nat.div_lt_upper_bound; lia. Qed.
Lemma par_cases i : (0 < i)%nat -> (i = 2 * par i + 1 \/ i = 2 * par i + 2)%nat.
Proof. intros H. unfold par. assert (D := Nat.div_mod (i - 1) 2 ltac:(lia)). assert (M := Nat.mod_upper_bound (i - 1) 2 ltac:(lia)). lia. Qed.
Lemma par_l p : par (2 * p + 1) = p.
Proof. unfold par. symmetry. apply (Nat.div_unique _ 2 p 0); lia. Qed.
Lemma par_r p : par (2 * p + 2) = p.
Proof. unfold par. symmetry. apply (Nat.div_unique _ 2 p 1); lia. Qed.

Definition heap (n : nat) (q : nat -> oexp) : Prop :=
  forall i, (0 < i < n)%nat -> (r (q i) <= r (q (par i)))%N.
Lemma heap_max n q : heap n q -> forall i, (i < n)%nat -> (r (q i) <= r (q 0%nat))%N.
Proof.
  intros H i. induction i as [i IH] using (well_founded_induction lt_wf). intros L.
  destruct i; [reflexivity|]. etransitivity; [apply H; lia|]. apply IH; [apply par_lt; lia|]. assert (P := par_lt (S i) ltac:(lia)). lia.
Qed.
(** elements below the root are below one of its two children *)
Lemma heap_max12 n q : heap n q -> forall i, (0 < i < n)%nat -> (r (q i) <= N.max (r (q 1%nat)) (r (q 2%nat)))%N.
Proof.
  intros H i. induction i as [i IH] using (well_founded_induction lt_wf). intros L.
  destruct (Nat.eq_dec (par i) 0) as [Z|NZ].
  - assert (C := par_cases i ltac:(lia)). rewrite Z in C. destruct C as [-> | ->]; cbn; lia.
  - etransitivity; [apply H; lia|]. assert (P := par_lt i ltac:(lia)). apply IH; lia.
Qed.

Lemma swap_l q i j : swap q i j j = q i.
Proof. unfold swap, upd. rewrite Nat.eqb_refl. reflexivity. Qed.
Lemma swap_r q i j : swap q i j i = q j.
Proof. unfold swap, upd. destruct (Nat.eqb_spec i j) as [->|]; [reflexivity|]. rewrite Nat.eqb_refl. reflexivity. Qed.
Lemma swap_o q i j k : k <> i -> k <> j -> swap q i j k = q k.
Proof. intros. unfold swap, upd. destruct (Nat.eqb_spec k j), (Nat.eqb_spec k i); congruence. Qed.

Definition elems (n : nat) (q : nat -> oexp) : list oexp := map q (seq 0 n).
Lemma swap_perm n q i j : (i < n)%nat -> (j < n)%nat -> Permutation (elems n (swap q i j)) (elems n q).
Proof.
  intros Hi Hj. unfold elems. set (tau := fun k => if Nat.eqb k i then j else if Nat.eqb k j then i else k).
  assert (E : forall k, swap q i j k = q (tau k)).
  { intros k. unfold tau. destruct (Nat.eqb_spec k i) as [->|]; [apply swap_r|].
    destruct (Nat.eqb_spec k j) as [->|]; [apply swap_l|]. apply swap_o; assumption. }
  rewrite (map_ext _ _ E). rewrite <- (map_map tau q). apply Permutation_map.
  assert (II : forall k, tau (tau k) = k).
  { intros k. unfold tau. destruct (Nat.eqb_spec k i); [|destruct (Nat.eqb_spec k j)].
    - destruct (Nat.eqb_spec j i), (Nat.eqb_spec j j); congruence.
    - destruct (Nat.eqb_spec i i); congruence.
    - destruct (Nat.eqb_spec k i), (Nat.eqb_spec k j); congruence. }
  apply NoDup_Permutation.
  - apply FinFun.Injective_map_NoDup; [|apply seq_NoDup]. intros a b H. rewrite <- (II a), <- (II b), H. reflexivity.
  - apply seq_NoDup.
  - assert (B : forall k, (k < n)%nat -> (tau k < n)%nat).
    { intros k K. unfold tau. destruct (Nat.eqb k i), (Nat.eqb k j); lia. }
    intros k. rewrite in_map_iff, in_seq. split.
    + intros (m & <- & M). apply in_seq in M. split; [lia|]. apply B. lia.
    + intros K. exists (tau k). split; [apply II|]. apply in_seq. split; [lia|]. apply B. lia.
Qed.

(** ** sift down: the hole travels to a leaf *)
Definition down_inv (n : nat) (q : nat -> oexp) (p : nat) : Prop :=
  (forall i, (0 < i < n)%nat -> i <> p -> par i <> p -> (r (q i) <= r (q (par i)))%N) /\
  (forall k, (0 < k < n)%nat -> par k = p -> (0 < p)%nat -> (r (q k) <= r (q (par p)))%N).
Lemma sift_down_ok n : Nat.odd n = true -> forall fuel q p, (n <= p + fuel)%nat -> (p < n)%nat -> down_inv n q p ->
  let '(q', p') := sift_down fuel n q p in
  (p' < n)%nat /\ (n <= 2 * p' + 2)%nat /\ down_inv n q' p' /\ Permutation (elems n q') (elems n q).
Proof.
  intros ODD. assert (STEP : forall q p c s, (p < n)%nat -> (c < n)%nat -> (s < n)%nat -> par c = p -> par s = p ->
    (c = 2 * p + 1 /\ s = 2 * p + 2 \/ c = 2 * p + 2 /\ s = 2 * p + 1)%nat ->
    (r (q s) <= r (q c))%N -> down_inv n q p -> down_inv n (swap q p c) c).
  { intros q p c s Hp Hc Hs PC PS CS LE [D1 D2]. split.
    - intros i Hi Nic Npc. destruct (Nat.eq_dec i p) as [->|Nip].
      + rewrite swap_r. assert (P := par_lt p ltac:(lia)). rewrite swap_o by lia. apply D2; lia.
      + rewrite (swap_o q p c i) by auto. destruct (Nat.eq_dec (par i) p) as [E|NE].
        * assert (i = s). { assert (C := par_cases i ltac:(lia)). lia. } subst i. rewrite PS, swap_r. exact LE.
        * rewrite swap_o by auto. apply D1; auto.
    - intros k Hk Pk Pc. rewrite PC. rewrite swap_r. assert (K := par_lt k ltac:(lia)). rewrite Pk in K.
      rewrite swap_o by lia. rewrite <- Pk. apply D1; lia. }
  induction fuel as [|f IH]; intros q p FU HP D; [lia|]. cbn [sift_down].
  destruct (Nat.ltb_spec (2 * p + 2) n) as [L|L].
  - destruct (olt (q (2 * p + 1)%nat) (q (2 * p + 2)%nat)) eqn:E; unfold olt in E.
    + apply N.ltb_lt in E. assert (D' := STEP q p (2 * p + 2)%nat (2 * p + 1)%nat HP ltac:(lia) ltac:(lia) (par_r p) (par_l p) ltac:(lia) ltac:(lia) D).
      specialize (IH (swap q p (2 * p + 2)) (2 * p + 2)%nat ltac:(lia) ltac:(lia) D').
      destruct (sift_down f n _ _) as [q' p']. destruct IH as (H1 & H2 & H3 & H4). repeat split; try apply H3; auto.
      etransitivity; [exact H4|]. apply swap_perm; lia.
    + apply N.ltb_ge in E. assert (D' := STEP q p (2 * p + 1)%nat (2 * p + 2)%nat HP ltac:(lia) ltac:(lia) (par_l p) (par_r p) ltac:(lia) ltac:(lia) D).
      specialize (IH (swap q p (2 * p + 1)) (2 * p + 1)%nat ltac:(lia) ltac:(lia) D').
      destruct (sift_down f n _ _) as [q' p']. destruct IH as (H1 & H2 & H3 & H4). repeat split; try apply H3; auto.
      etransitivity; [exact H4|]. apply swap_perm; lia.
  - repeat split; try apply D; auto.
Qed.

(** ** sift up *)
Definition up_inv (n : nat) (q : nat -> oexp) (p : nat) : Prop :=
  (forall i, (0 < i < n)%nat -> i <> p -> (r (q i) <= r (q (par i)))%N) /\
  (forall k, (0 < k < n)%nat -> par k = p -> (0 < p)%nat -> (r (q k) <= r (q (par p)))%N).
Lemma sift_up_ok n : forall fuel q p, (p <= fuel)%nat -> (p < n)%nat -> up_inv n q p ->
  heap n (sift_up fuel q p) /\ Permutation (elems n (sift_up fuel q p)) (elems n q).
Proof.
  induction fuel as [|f IH]; intros q p FU HP [U1 U2].
  - cbn. split; [|reflexivity]. intros i Hi. apply U1; lia.
  - cbn [sift_up]. fold (par p).
    destruct (Nat.ltb_spec 0 p) as [P0|P0]; cbn [andb].
    + assert (PL := par_lt p P0). destruct (olt (q (par p)) (q p)) eqn:E; unfold olt in E.
      * apply N.ltb_lt in E.
        assert (UI : up_inv n (swap q p (par p)) (par p)).
        { split.
          - intros i Hi Ni. destruct (Nat.eq_dec i p) as [->|Nip].
            + rewrite swap_r, swap_l. lia.
            + rewrite (swap_o q p (par p) i) by auto. destruct (Nat.eq_dec (par i) p) as [Pp|Npp].
              * rewrite Pp, swap_r. apply U2; auto.
              * destruct (Nat.eq_dec (par i) (par p)) as [Ps|Nps].
                -- rewrite Ps, swap_l. assert (A := U1 i Hi Nip). rewrite Ps in A. lia.
                -- rewrite swap_o by auto. apply U1; auto.
          - intros k Hk Pk Pp. assert (PL2 := par_lt (par p) Pp). rewrite (swap_o q p (par p) (par (par p))) by lia.
            assert (A : (r (q (par p)) <= r (q (par (par p))))%N) by (apply U1; lia).
            destruct (Nat.eq_dec k p) as [->|Nkp]; [rewrite swap_r; exact A|].
            assert (KL := par_lt k ltac:(lia)). rewrite swap_o by lia.
            assert (B := U1 k Hk Nkp). rewrite Pk in B. lia. }
        destruct (IH (swap q p (par p)) (par p) ltac:(lia) ltac:(lia) UI) as [H1 H2]. split; [exact H1|].
        etransitivity; [exact H2|]. apply swap_perm; lia.
      * apply N.ltb_ge in E. split; [|reflexivity]. intros i Hi. destruct (Nat.eq_dec i p) as [->|]; [exact E|]. apply U1; auto.
    + split; [|reflexivity]. intros i Hi. apply U1; lia.
Qed.
Lemma resift_ok n q p : Nat.odd n = true -> (0 < n)%nat -> down_inv n q 0 ->
  sift_down n n q 0 = (p, snd (sift_down n n q 0)) ->
  heap n (sift_up n p (snd (sift_down n n q 0))) /\ Permutation (elems n (sift_up n p (snd (sift_down n n q 0)))) (elems n q).
Proof.
  intros O P D E. assert (S := sift_down_ok n O n q 0%nat ltac:(lia) P D). rewrite E in S.
  destruct S as (S1 & S2 & [S3 S4] & S5). set (p' := snd (sift_down n n q 0)) in *.
  assert (NC : forall k, (0 < k < n)%nat -> par k = p' -> False).
  { intros k Hk Pk. assert (C := par_cases k ltac:(lia)). rewrite Pk in C. apply Nat.odd_spec in O. destruct O as [m M]. lia. }
  destruct (sift_up_ok n n p p' ltac:(lia) S1) as [H1 H2].
  - split.
    + intros i Hi Ni. apply S3; auto. intros Pk. exact (NC i Hi Pk).
    + intros k Hk Pk. exfalso. exact (NC k Hk Pk).
  - split; [exact H1|]. etransitivity; [exact H2|exact S5].
Qed.

Section Class.
  Variable G : AbGroup.
  Variable T : Type.
  Variable o : class_ops T.
  Variable rep : T -> G -> Prop.
  Variable okn : N -> Prop.
  Hypothesis I : implements G o rep okn.
  Let rin := i_in G o rep okn I.
  Variable find_wnaf : nat -> N -> list Z.
  Hypothesis WN : wnaf_contract find_wnaf.
  Variable wt : list N.

  Definition rsum (l : list oexp) : N := fold_right (fun e s => (r e + s)%N) 0%N l.
  Definition total (Gx : nat -> G) (l : list oexp) : G := gsum (map (fun e => gmul (r e) (Gx (idx e))) l).
  Lemma total_cons Gx e l : total Gx (e :: l) = gadd (gmul (r e) (Gx (idx e))) (total Gx l).
  Proof. reflexivity. Qed.
  Lemma total_in Gx l : (forall i, gin (Gx i)) -> gin (total Gx l).
  Proof. intros H. apply gsum_map_in. intros. apply gmul_in, H. Qed.
  Lemma total_perm Gx l l' : (forall i, gin (Gx i)) -> Permutation l l' -> total Gx l = total Gx l'.
  Proof.
    intros H P. induction P.
    - reflexivity.
    - rewrite !total_cons, IHP. reflexivity.
    - rewrite !total_cons. rewrite <- !g_assoc by auto using gmul_in, total_in. f_equal. apply g_comm; auto using gmul_in.
    - congruence.
  Qed.
  Lemma rsum_perm l l' : Permutation l l' -> rsum l = rsum l'.
  Proof. intros P. induction P; cbn; unfold rsum in *; lia. Qed.

  Lemma loop_ok n : Nat.odd n = true -> (3 <= n)%nat -> forall m q g Gx res R,
    rsum (elems n q) = m -> heap n q -> r (q 0%nat) <> 0%N -> NoDup (map idx (elems n q)) ->
    Forall (fun e => okn (r e)) (elems n q) -> (forall i, rep (g i) (Gx i)) -> rep res R ->
    exists t, (forall fuel, (m < N.of_nat fuel)%N -> bos_loop T o find_wnaf wt fuel n q g res = Some t) /\
      rep t (gadd R (total Gx (elems n q))).
  Proof.
    intros ODD N3. intros m. induction m as [m IH] using (well_founded_induction N.lt_wf_0).
    intros q g Gx res R RS HP A0 ND OK RG RR.
    assert (GI : forall i, gin (Gx i)) by eauto. assert (RI : gin R) by eauto.
    set (bp := if olt (q 1%nat) (q 2%nat) then 2%nat else 1%nat).
    set (rest := if olt (q 1%nat) (q 2%nat) then q 1%nat :: map q (seq 3 (n - 3)) else q 2%nat :: map q (seq 3 (n - 3))).
    assert (SQ : forall q', elems n q' = q' 0%nat :: q' 1%nat :: q' 2%nat :: map q' (seq 3 (n - 3))).
    { intros q'. unfold elems. replace n with (S (S (S (n - 3)))) at 1 by lia. reflexivity. }
    assert (PE : Permutation (elems n q) (q 0%nat :: q bp :: rest)).
    { rewrite SQ. unfold bp, rest. apply perm_skip. destruct (olt _ _); [apply perm_swap|reflexivity]. }
    assert (BP : (0 < bp < n)%nat) by (unfold bp; destruct (olt _ _); lia).
    assert (BM : (r (q bp) = N.max (r (q 1%nat)) (r (q 2%nat)))%N).
    { unfold bp, olt. destruct (N.ltb_spec (r (q 1%nat)) (r (q 2%nat))); lia. }
    assert (AB : (r (q bp) <= r (q 0%nat))%N) by (apply (heap_max n q HP); lia).
    set (a := q 0%nat) in *. set (b := q bp) in *.
    assert (OKa : okn (r a)). { rewrite Forall_forall in OK. apply OK. rewrite SQ. left. reflexivity. }
    assert (EXP : forall Gx' : nat -> G, forall t, rep t (Gx' (idx a)) ->
       rep (opt_window_wnaf_exp o find_wnaf wt t (r a) (N.size (r a))) (gmul (r a) (Gx' (idx a)))).
    { intros. apply (opt_window_ok G T o rep okn I find_wnaf WN); auto. }
    destruct (N.eq_dec (r b) 0) as [B0|B0].
    - (* last element *)
      exists (c_add o res (opt_window_wnaf_exp o find_wnaf wt (g (idx a)) (r a) (N.size (r a)))). split.
      + intros [|f] F; [lia|]. cbn [bos_loop]. fold a bp b. destruct (N.eqb_spec (r a) 0); [contradiction|].
        rewrite B0. reflexivity.
      + assert (TZ : total Gx (elems n q) = gmul (r a) (Gx (idx a))).
        { rewrite SQ. rewrite total_cons. fold a. rewrite <- (g_0r G (gmul _ _)) at 2 by auto using gmul_in. f_equal.
          apply gsum_map_zero. intros e E. assert (exists i, (0 < i < n)%nat /\ q i = e) as (i & Hi & <-).
          { destruct E as [<-|[<-|E]]; [exists 1%nat; split; [lia|reflexivity]|exists 2%nat; split; [lia|reflexivity]|].
            apply in_map_iff in E. destruct E as (i & <- & E). apply in_seq in E. exists i. split; [lia|reflexivity]. }
          assert (M := heap_max12 n q HP i Hi). rewrite <- BM, B0 in M. assert (Z : r (q i) = 0%N) by lia. rewrite Z. reflexivity. }
        rewrite TZ. apply (i_add G o rep okn I); auto.
    - (* one step *)
      set (direct := N.ltb (N.size (r b)) (N.shiftl 1 (if N.leb 20 (N.size (r a) - N.size (r b)) then 20 else (N.size (r a) - N.size (r b))%N))).
      set (res' := if direct then c_add o res (opt_window_wnaf_exp o find_wnaf wt (g (idx a)) (r a) (N.size (r a))) else res).
      set (a' := if direct then mkO (idx a) 0 else mkO (idx a) (r a - r b)).
      set (g' := if direct then g else upd g (idx b) (c_add o (g (idx b)) (g (idx a)))).
      set (Gx' := if direct then Gx else upd Gx (idx b) (gadd (Gx (idx b)) (Gx (idx a)))).
      set (R' := if direct then gadd R (gmul (r a) (Gx (idx a))) else R).
      set (q1 := upd q 0 a'). set (q2 := sift_up n (fst (sift_down n n q1 0)) (snd (sift_down n n q1 0))).
      assert (Q1 : forall i, (0 < i)%nat -> q1 i = q i) by (intros i Hi; unfold q1, upd; destruct (Nat.eqb_spec i 0); [lia|reflexivity]).
      assert (D0 : down_inv n q1 0).
      { split; [|lia]. intros i Hi _ Np. rewrite !Q1 by lia. apply HP, Hi. }
      destruct (resift_ok n q1 (fst (sift_down n n q1 0)) ODD ltac:(lia) D0) as [HP2 PM2].
      { destruct (sift_down n n q1 0); reflexivity. }
      fold q2 in HP2, PM2.
      assert (PE1 : Permutation (elems n q1) (a' :: b :: rest)).
      { rewrite SQ. unfold rest, b, bp. replace (q1 0%nat) with a' by reflexivity. rewrite !Q1 by lia. apply perm_skip.
        rewrite (map_ext_in q1 q) by (intros i Hi; apply in_seq in Hi; apply Q1; lia).
        destruct (olt _ _); [apply perm_swap|reflexivity]. }
      assert (PE2 : Permutation (elems n q2) (a' :: b :: rest)) by (etransitivity; eassumption).
      assert (IA : idx a' = idx a) by (unfold a'; destruct direct; reflexivity).
      assert (RA : (r a' < r a)%N) by (unfold a'; destruct direct; cbn; lia).
      assert (RS2 : (rsum (elems n q2) < m)%N).
      { rewrite (rsum_perm _ _ PE2), <- RS, (rsum_perm _ _ PE). cbn. lia. }
      assert (ND2 : NoDup (map idx (elems n q2))).
      { eapply Permutation_NoDup; [apply Permutation_map; symmetry; exact PE2|]. cbn. rewrite IA.
        eapply Permutation_NoDup in ND; [|apply Permutation_map; exact PE]. exact ND. }
      assert (OK2 : Forall (fun e => okn (r e)) (elems n q2)).
      { eapply Permutation_Forall; [symmetry; exact PE2|]. eapply Permutation_Forall in OK; [|exact PE].
        inversion_clear OK. constructor; auto. apply (i_okn G o rep okn I (r a') (r a)); auto. lia. }
      assert (NDp : NoDup (idx a :: idx b :: map idx rest)).
      { eapply Permutation_NoDup in ND; [|apply Permutation_map; exact PE]. exact ND. }
      assert (NAB : idx a <> idx b) by (inversion_clear NDp as [|? ? X _]; intros E; apply X; left; auto).
      assert (NBR : ~ In (idx b) (map idx rest)) by (inversion_clear NDp as [|? ? _ Y]; inversion_clear Y; assumption).
      assert (RG' : forall i, rep (g' i) (Gx' i)).
      { intros i. unfold g', Gx'. destruct direct; [apply RG|]. unfold upd. destruct (Nat.eqb i (idx b)); [|apply RG].
        apply (i_add G o rep okn I); apply RG. }
      assert (RR' : rep res' R').
      { unfold res', R'. destruct direct; [|exact RR]. apply (i_add G o rep okn I); auto. }
      assert (A02 : r (q2 0%nat) <> 0%N).
      { assert (In b (elems n q2)). { eapply Permutation_in; [symmetry; exact PE2|]. right. left. reflexivity. }
        apply in_map_iff in H. destruct H as (i & Ei & Hi). apply in_seq in Hi.
        assert (M := heap_max n q2 HP2 i ltac:(lia)). rewrite Ei in M. lia. }
      destruct (IH _ RS2 q2 g' Gx' res' R' eq_refl HP2 A02 ND2 OK2 RG' RR') as (t & F & RT).
      exists t. split.
      + intros [|f] FU; [lia|]. cbn [bos_loop]. fold a bp b. destruct (N.eqb_spec (r a) 0); [contradiction|].
        destruct (N.eqb_spec (r b) 0); [contradiction|]. fold direct.
        transitivity (bos_loop T o find_wnaf wt f n q2 g' res'); [|apply F; lia].
        unfold q2, q1, a', g', res'. destruct direct; destruct (sift_down n n _ 0); reflexivity.
      + assert (GI' : forall i, gin (Gx' i)) by eauto.
        match type of RT with rep _ ?v => match goal with |- rep _ ?w => replace w with v; [exact RT|] end end.
        rewrite (total_perm Gx' _ _ GI' PE2), (total_perm Gx _ _ GI PE). rewrite !total_cons.
        assert (TR : total Gx' rest = total Gx rest).
        { unfold Gx'. destruct direct; [reflexivity|]. apply gsum_map_ext. intros e E. unfold upd.
          destruct (Nat.eqb_spec (idx e) (idx b)) as [EE|]; [|reflexivity]. exfalso. apply NBR. rewrite <- EE. apply in_map, E. }
        rewrite TR, IA. unfold R', Gx', a'. assert (TI := total_in Gx rest GI). destruct direct; cbn [r].
        * rewrite gmul_0, (g_0l G (gadd _ _)) by auto using g_inadd, gmul_in. rewrite g_assoc by auto using g_inadd, gmul_in. reflexivity.
        * unfold upd. rewrite Nat.eqb_refl. destruct (Nat.eqb_spec (idx a) (idx b)); [contradiction|].
          f_equal. rewrite gmul_gadd by auto.
          replace (r a) with ((r a - r b) + r b)%N at 2 by lia. rewrite gmul_add by auto.
          rewrite !g_assoc by auto using g_inadd, gmul_in. f_equal.
          rewrite <- !g_assoc by auto using g_inadd, gmul_in. f_equal. apply g_comm; auto using gmul_in.
  Qed.

  (** std::make_heap *)
  Definition make_heap_contract (make_heap : list oexp -> list oexp) : Prop :=
    forall l, Permutation (make_heap l) l /\
      forall i d, (0 < i < length l)%nat -> (r (nth i (make_heap l) d) <= r (nth ((i - 1) / 2) (make_heap l) d))%N.
  Variable make_heap : list oexp -> list oexp.
  Hypothesis MH : make_heap_contract make_heap.

  Lemma elems_nth l n d : n = length l -> elems n (fun i => nth i l d) = l.
  Proof.
    intros ->. unfold elems. induction l as [|x l IH]; [reflexivity|]. cbn [length seq map nth]. f_equal.
    rewrite <- seq_shift, map_map. exact IH.
  Qed.
  Lemma msum_total ns xs : length ns = length xs ->
    msum ns xs = total (fun i => nth i xs g0) (map (fun p => mkO (fst p) (snd p)) (combine (seq 0 (length xs)) ns)).
  Proof.
    intros L. rewrite msum_combine. unfold total. rewrite map_map. cbn [r idx]. f_equal.
    assert (E : xs = map (fun i => nth i xs g0) (seq 0 (length xs))).
    { clear. induction xs as [|x l IH]; [reflexivity|]. cbn [length seq map nth]. f_equal.
      rewrite <- seq_shift, map_map. exact IH. }
    rewrite E at 1. generalize (seq 0 (length xs)). clear. intros l. revert ns.
    induction l as [|i l IH]; intros [|n ns]; cbn [map combine]; try reflexivity. f_equal. apply IH.
  Qed.
  Lemma Forall2_nth ts xs : Forall2 rep ts xs -> forall i d, rep d g0 -> rep (nth i ts d) (nth i xs g0).
  Proof. induction 1; intros [|i] d D; cbn; auto. Qed.
  Lemma Forall2_len ts xs : Forall2 rep ts xs -> length ts = length xs.
  Proof. induction 1; cbn; auto. Qed.

  (** the queue built before the loop *)
  Definition init_q (ns : list N) : list oexp := make_heap (map (fun p => mkO (fst p) (snd p)) (combine (seq 0 (length ns)) ns)).
  Lemma init_rsum ns : rsum (init_q ns) = fold_right N.add 0%N ns.
  Proof.
    unfold init_q. rewrite (rsum_perm _ _ (proj1 (MH _))). generalize 0%nat. induction ns as [|n ns IH]; intros k; [reflexivity|].
    cbn [length seq combine map rsum fold_right fst snd r]. f_equal. apply IH.
  Qed.
  Definition nsum (ns : list N) : N := fold_right N.add 0%N ns.

  Lemma bos_coster_ok ts xs ns : Forall2 rep ts xs -> length ns = length ts -> Forall okn ns ->
    (length ns <= 1)%nat \/ (exists s, In s ns /\ s <> 0%N) ->
    exists t, (forall fuel, (nsum ns < N.of_nat fuel)%N -> bos_coster_fuel o find_wnaf wt make_heap fuel ts ns = Some t) /\
      rep t (msum ns xs).
  Proof.
    intros F L OK NZ. assert (LX := Forall2_len _ _ F).
    destruct ts as [|t0 [|t1 ts]].
    - destruct xs; [|discriminate]. destruct ns; [|discriminate]. exists (c_zero o). split; [reflexivity|]. apply (i_zero G o rep okn I).
    - destruct ns as [|n [|]]; try discriminate. exists (c_smul o n t0). split; [reflexivity|].
      inversion F as [|? x ? ? R F']; subst. inversion F'; subst. inversion_clear OK. cbn.
      rewrite g_0r by (apply gmul_in; eauto). apply (i_smul G o rep okn I); auto.
    - destruct NZ as [NZ|NZ]; [cbn in L; lia|].
      set (vl := length ns). set (l0 := init_q ns).
      assert (PL : Permutation l0 (map (fun p => mkO (fst p) (snd p)) (combine (seq 0 vl) ns))) by apply MH.
      assert (LL : length l0 = vl).
      { rewrite (Permutation_length PL), map_length, combine_length, seq_length. unfold vl. lia. }
      set (ov := if Nat.eqb (vl mod 2) 1 then vl else (vl + 1)%nat).
      set (even := negb (Nat.eqb vl ov)).
      set (lq := if even then l0 ++ [mkO (ov - 1) 0] else l0).
      set (lg := if even then (t0 :: t1 :: ts) ++ [c_zero o] else t0 :: t1 :: ts).
      assert (VL2 : (2 <= vl)%nat) by (unfold vl; rewrite L; cbn; lia).
      assert (OV : ov = if even then (vl + 1)%nat else vl).
      { unfold even. destruct (Nat.eqb_spec vl ov) as [E|E]; cbn [negb]; [auto|]. unfold ov in *.
        destruct (Nat.eqb (vl mod 2) 1); [contradiction|reflexivity]. }
      assert (OO : Nat.odd ov = true /\ (3 <= ov)%nat).
      { unfold ov. assert (D := Nat.div_mod vl 2 ltac:(lia)). assert (M := Nat.mod_upper_bound vl 2 ltac:(lia)).
        destruct (Nat.eqb_spec (vl mod 2) 1) as [E|E].
        - split; [apply Nat.odd_spec; exists (vl / 2); lia|]. destruct (Nat.eq_dec vl 2) as [E2|]; [rewrite E2 in E; discriminate|lia].
        - split; [apply Nat.odd_spec; exists (vl / 2); lia|lia]. }
      destruct OO as [OO OV3].
      assert (LQ : length lq = ov). { rewrite OV. unfold lq. destruct even; [rewrite app_length; cbn; lia|exact LL]. }
      set (q := fun i => nth i lq (mkO 0 0)). set (g := fun i => nth i lg (c_dflt o)). set (Gx := fun i => nth i xs (g0 : G)).
      assert (EQ : elems ov q = lq) by (apply elems_nth; auto).
      assert (GI : forall i, gin (Gx i)).
      { intros i. apply (rin (nth i (t0 :: t1 :: ts) (c_dflt o))). apply Forall2_nth; auto. apply (i_dflt G o rep okn I). }
      assert (RG : forall i, rep (g i) (Gx i)).
      { intros i. unfold g, lg. destruct even; [|apply Forall2_nth; auto; apply (i_dflt G o rep okn I)].
        destruct (Nat.lt_ge_cases i (length (t0 :: t1 :: ts))).
        - rewrite app_nth1 by assumption. apply Forall2_nth; auto; apply (i_dflt G o rep okn I).
        - rewrite app_nth2 by assumption. unfold Gx. rewrite (nth_overflow xs) by (rewrite <- LX; assumption).
          destruct (i - length (t0 :: t1 :: ts))%nat as [|[|]]; cbn; first [apply (i_zero G o rep okn I)|apply (i_dflt G o rep okn I)]. }
      assert (HH : forall i d, (0 < i < vl)%nat -> (r (nth i l0 d) <= r (nth (par i) l0 d))%N).
      { intros i d Hi. apply (proj2 (MH _)). rewrite map_length, combine_length, seq_length. unfold vl in Hi. lia. }
      assert (HP : heap ov q).
      { intros i Hi. unfold q, lq. rewrite OV in Hi. destruct even; [|apply HH, Hi].
        assert (P := par_lt i ltac:(lia)). rewrite (app_nth1 l0 _ _ (n := par i)) by lia.
        destruct (Nat.eq_dec i vl) as [->|].
        - rewrite app_nth2 by lia. rewrite LL, Nat.sub_diag. cbn. lia.
        - rewrite app_nth1 by lia. apply HH. lia. }
      assert (TOT : total Gx lq = msum ns xs).
      { rewrite (msum_total ns xs) by lia. rewrite <- LX, <- L. fold vl. change (fun i => nth i xs g0) with Gx. rewrite <- (total_perm Gx _ _ GI PL).
        unfold lq. destruct even; [|reflexivity]. unfold total. rewrite map_app. rewrite gsum_app.
        - cbn [map r idx]. rewrite gmul_0. unfold gsum at 2. cbn. rewrite (g_0l G g0) by apply g_in0. apply g_0r. apply (total_in Gx l0 GI).
        - apply Forall_map, Forall_forall. intros. apply gmul_in, GI.
        - constructor; [|constructor]. apply gmul_in, GI. }
      assert (RSQ : rsum (elems ov q) = nsum ns).
      { rewrite EQ. unfold lq. rewrite <- init_rsum. fold l0. destruct even; [|reflexivity].
        rewrite (rsum_perm _ _ (Permutation_app_comm l0 _)). reflexivity. }
      assert (OKq : Forall (fun e => okn (r e)) lq).
      { assert (A : Forall (fun e => okn (r e)) l0).
        { eapply Permutation_Forall; [symmetry; exact PL|]. apply Forall_map, Forall_forall. intros [i s] P.
          apply in_combine_r in P. rewrite Forall_forall in OK. apply OK, P. }
        unfold lq. destruct even; [|exact A]. apply Forall_app. split; [exact A|]. constructor; [|constructor]. cbn.
        destruct NZ as (s & Hs & _). rewrite Forall_forall in OK. apply (i_okn G o rep okn I 0%N s); [apply OK, Hs|lia]. }
      assert (IDX : Permutation (map idx l0) (seq 0 vl)).
      { etransitivity; [apply Permutation_map, PL|]. rewrite map_map. cbn [idx].
        assert (X : forall k (l : list N), map (fun x : nat * N => fst x) (combine (seq k (length l)) l) = seq k (length l)).
        { intros k l. revert k. induction l as [|y l IHl]; intros k; cbn; [reflexivity|]. f_equal. apply IHl. }
        unfold vl. rewrite X. reflexivity. }
      assert (NDq : NoDup (map idx (elems ov q))).
      { rewrite EQ. assert (A : NoDup (map idx l0)) by (eapply Permutation_NoDup; [symmetry; exact IDX|apply seq_NoDup]).
        unfold lq. destruct even eqn:Ev; [|exact A]. rewrite map_app. cbn.
        eapply Permutation_NoDup; [apply Permutation_app_comm|]. cbn. constructor; [|exact A].
        intros IN. eapply Permutation_in in IN; [|exact IDX]. apply in_seq in IN. rewrite OV in IN. lia. }
      assert (A0 : r (q 0%nat) <> 0%N).
      { destruct NZ as (s & Hs & Ns). assert (X : exists e, In e lq /\ r e = s).
        { apply (In_nth _ _ 0%N) in Hs. destruct Hs as (k & Hk & Ek). exists (mkO k s). split; [|reflexivity].
          assert (Y : In (mkO k s) l0).
          { eapply Permutation_in; [symmetry; exact PL|]. apply in_map_iff. exists (k, s). split; [reflexivity|].
            assert (Z : nth k (combine (seq 0 vl) ns) (0%nat, 0%N) = (k, s)).
            { rewrite combine_nth by (rewrite seq_length; reflexivity). rewrite seq_nth by exact Hk. rewrite Ek. reflexivity. }
            rewrite <- Z. apply nth_In. rewrite combine_length, seq_length. unfold vl. lia. }
          unfold lq. destruct even; [apply in_or_app; left|]; exact Y. }
        destruct X as (e & He & Re). apply (In_nth _ _ (mkO 0 0)) in He. destruct He as (i & Hi & Ei).
        assert (M := heap_max ov q HP i ltac:(lia)). unfold q at 1 in M. rewrite Ei in M. lia. }
      rewrite <- EQ in OKq.
      destruct (loop_ok ov OO OV3 _ q g Gx (c_zero o) g0 RSQ HP A0 NDq OKq RG (i_zero G o rep okn I)) as (t & FT & RT).
      exists t. split.
      + intros fuel FU. rewrite <- (FT fuel FU). unfold bos_coster_fuel. destruct ns as [|n0 ns']; [cbn in VL2; unfold vl in VL2; cbn in VL2; lia|].
        cbv zeta. fold vl ov even. rewrite <- L. fold l0. reflexivity.
      + rewrite EQ, TOT in RT. rewrite g_0l in RT; [exact RT|]. apply msum_in. clear -F rin. induction F; constructor; eauto.
  Qed.

  (** two or more scalars, all zero: msb(0) *)
  Lemma bos_coster_zero ts ns fuel : (2 <= length ns)%nat -> length ns = length ts -> Forall (fun s => s = 0%N) ns ->
    bos_coster_fuel o find_wnaf wt make_heap fuel ts ns = None.
  Proof.
    intros L2 L Z. destruct ts as [|t0 [|t1 ts]]; [cbn in L; lia|cbn in L; lia|].
    unfold bos_coster_fuel. destruct ns as [|n0 ns]; [cbn in L2; lia|]. cbv zeta.
    destruct fuel; [reflexivity|]. cbn [bos_loop].
    set (l := make_heap _).
    assert (A : Forall (fun e => r e = 0%N) l).
    { eapply Permutation_Forall; [symmetry; apply MH|]. apply Forall_map, Forall_forall. intros [i s] P. apply in_combine_r in P.
      rewrite Forall_forall in Z. apply Z, P. }
    match goal with |- context [N.eqb (r (nth 0 ?lq ?d)) 0] => assert (E : r (nth 0 lq d) = 0%N) end.
    { destruct l as [|e l']; [destruct (negb _); reflexivity|]. inversion_clear A. destruct (negb _); cbn; assumption. }
    rewrite E. reflexivity.
  Qed.
End Class.
