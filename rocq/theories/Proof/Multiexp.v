(** Naive and bucket multi-exponentiation, windows, wNAF, chunking. *)
From Coq Require Import NArith ZArith List Bool Lia Arith.
From Verif Require Import Spec.Group Spec.GroupClass Spec.Digits Model.Power Model.Multiexp Proof.Power Proof.GroupFacts.
Import ListNotations.

Lemma window_bits_ok w k e : window_bits w k e = (N.shiftr e (N.of_nat (k * w)) mod 2 ^ N.of_nat w)%N.
Proof.
  assert (H : forall b, N.testbit (window_bits w k e) b =
              (N.ltb b (N.of_nat w) && N.testbit e (N.of_nat (k * w) + b))%bool).
  { unfold window_bits.
    apply (for_up_ind (fun j id => forall b, N.testbit id b = (N.ltb b (N.of_nat j) && N.testbit e (N.of_nat (k * w) + b))%bool)
      _ w 0 0%N).
    - intros b. rewrite N.bits_0. destruct (N.ltb_spec b (N.of_nat 0)); [lia|reflexivity].
    - intros i id L1 IH b. replace (N.of_nat (k * w + i)) with (N.of_nat (k * w) + N.of_nat i)%N by lia.
      destruct (N.testbit e (N.of_nat (k * w) + N.of_nat i)) eqn:E.
      + rewrite N.lor_spec, IH. rewrite N.shiftl_1_l, N.pow2_bits_eqb.
        destruct (N.eqb_spec (N.of_nat i) b) as [<-|N].
        * rewrite E. destruct (N.ltb_spec (N.of_nat i) (N.of_nat (S i))); [|lia]. rewrite orb_true_r. reflexivity.
        * rewrite orb_false_r. f_equal. destruct (N.ltb_spec b (N.of_nat i)), (N.ltb_spec b (N.of_nat (S i))); auto; lia.
      + rewrite IH. destruct (N.ltb_spec b (N.of_nat i)), (N.ltb_spec b (N.of_nat (S i))); auto; try lia.
        assert (b = N.of_nat i) by lia. subst b. rewrite E. reflexivity. }
  apply N.bits_inj. intros b. rewrite H. destruct (N.ltb_spec b (N.of_nat w)) as [L|L]; cbn.
  - rewrite N.mod_pow2_bits_low by exact L. rewrite N.shiftr_spec'. f_equal. lia.
  - rewrite N.mod_pow2_bits_high by exact L. reflexivity.
Qed.
Lemma window_bits_lt w k e : (window_bits w k e < 2 ^ N.of_nat w)%N.
Proof. rewrite window_bits_ok. apply N.mod_lt. apply N.pow_nonzero. lia. Qed.
(** peeling off the lowest window *)
Lemma shiftr_step c k e :
  N.shiftr e (N.of_nat (k * c)) = (2 ^ N.of_nat c * N.shiftr e (N.of_nat (S k * c)) + window_bits c k e)%N.
Proof.
  rewrite window_bits_ok. replace (N.of_nat (S k * c)) with (N.of_nat (k * c) + N.of_nat c)%N by lia.
  rewrite <- N.shiftr_shiftr. rewrite (N.shiftr_div_pow2 (N.shiftr e _)).
  apply N.div_mod. apply N.pow_nonzero. lia.
Qed.

Lemma Forall_firstn' {A} (P : A -> Prop) l n : Forall P l -> Forall P (firstn n l).
Proof. intros H. revert n. induction H; intros [|n]; cbn; constructor; auto. Qed.
Lemma Forall_skipn' {A} (P : A -> Prop) l n : Forall P l -> Forall P (skipn n l).
Proof. intros H. revert n. induction H; intros [|n]; cbn; try constructor; auto. Qed.

Section Class.
  Variable G : AbGroup.
  Variable T : Type.
  Variable o : class_ops T.
  Variable rep : T -> G -> Prop.
  Variable okn : N -> Prop.
  Hypothesis I : implements G o rep okn.
  Let rin := i_in G o rep okn I.

  (** ** naive *)
  Lemma naive_ok ts xs ns : Forall2 rep ts xs -> Forall okn ns -> length ns = length ts ->
    rep (naive (c_zero o) (c_add o) (c_smul o) ts ns) (msum ns xs).
  Proof.
    intros F OK L. unfold naive.
    assert (X : forall acc a, rep acc a ->
      rep (fold_left (fun result p => c_add o result (c_smul o (snd p) (fst p))) (combine ts ns) acc) (gadd a (msum ns xs))).
    { revert ns OK L. induction F as [|t x ts xs R F IH]; intros [|n ns] OK L acc a A; try discriminate; cbn.
      - rewrite g_0r by eauto. exact A.
      - inversion_clear OK. assert (rep (c_smul o n t) (gmul n x)) by (apply (i_smul G o rep okn I); auto).
        assert (FX : Forall gin xs) by (clear -F rin; induction F; constructor; eauto).
        rewrite <- g_assoc by (eauto using msum_in). apply IH; auto.
        apply (i_add G o rep okn I); auto. }
    assert (FX : Forall gin xs) by (clear -F rin; induction F; constructor; eauto).
    rewrite <- (g_0l G (msum ns xs)) by (apply msum_in, FX). apply X, (i_zero G o rep okn I).
  Qed.

  Definition orep (p : T * bool) (x : G) : Prop := rep (fst p) x /\ (snd p = false -> x = g0).
  Lemma orep_in p x : orep p x -> gin x.
  Proof. intros [H _]. eauto. Qed.
  Lemma orep_dflt : orep (c_dflt o, false) g0.
  Proof. split; [apply (i_dflt G o rep okn I)|reflexivity]. Qed.
  Lemma dbl_iter c t x : rep t x -> rep (for_up 0 c (fun _ r => c_dbl o r) t) (gmul (2 ^ N.of_nat c) x).
  Proof.
    intros H. apply (for_up_ind (fun j r => rep r (gmul (2 ^ N.of_nat j) x)) _ c 0 t).
    - change (2 ^ N.of_nat 0)%N with 1%N. rewrite gmul_1 by eauto. exact H.
    - intros i s _ IH. replace (2 ^ N.of_nat (S i))%N with (2 * 2 ^ N.of_nat i)%N by (rewrite Nat2N.inj_succ, N.pow_succ_r'; reflexivity).
      rewrite gmul_double by eauto. apply (i_dbl G o rep okn I), IH.
  Qed.

  (** ** bucket method *)
  Definition pin (p : T * N) (q : G * N) : Prop := rep (fst p) (fst q) /\ snd p = snd q.
  (** sum of the points whose digit is id *)
  Definition bsum (f : N -> nat) (l : list (G * N)) (id : nat) : G :=
    gsum (map (fun p => if Nat.eqb (f (snd p)) id then fst p else g0) l).
  Lemma bsum_in f l id : (forall p, In p l -> gin (fst p)) -> gin (bsum f l id).
  Proof. intros H. apply gsum_map_in. intros p P. destruct (Nat.eqb _ _); auto using g_in0. Qed.

  Lemma fill_ok c k input l : Forall2 pin input l -> forall id, (0 < id)%nat ->
    orep (bdlo12_fill T o c k input id) (bsum (fun e => N.to_nat (window_bits c k e)) l id).
  Proof.
    intros F id ID. unfold bdlo12_fill. set (f := fun e => N.to_nat (window_bits c k e)).
    set (step := fun (buckets : nat -> T * bool) (p : T * N) => _).
    assert (X : forall bk B, (forall id, (0 < id)%nat -> orep (bk id) (B id)) -> forall id, (0 < id)%nat ->
              orep (fold_left step input bk id) (gadd (B id) (bsum f l id))).
    { clear id ID. induction F as [|[t e] [x e'] ts xs [R E] F IH]; intros bk B HB id ID; cbn [fold_left].
      - unfold bsum. cbn. rewrite g_0r by (eapply orep_in, HB, ID). apply HB, ID.
      - cbn in R, E. subst e'. assert (XIN : gin x) by eauto.
        assert (LIN : forall p, In p xs -> gin (fst p)).
        { clear -F rin. induction F as [|p q ts xs [R _] F IH]; intros p' [].
          - subst. eauto.
          - auto. }
        unfold bsum. cbn [map]. unfold gsum. cbn [fold_right fst snd].
        change (fold_right gadd g0 (map _ xs)) with (bsum f xs id).
        rewrite <- g_assoc; [|eapply orep_in, HB, ID|destruct (Nat.eqb _ _); auto using g_in0|apply bsum_in, LIN].
        apply (IH (step bk (t, e)) (fun id => gadd (B id) (if Nat.eqb (f e) id then x else g0))); [|exact ID].
        clear id ID. intros id ID. unfold step. cbn zeta beta iota. fold (f e).
        destruct (Nat.eqb_spec (f e) 0) as [Z|NZ].
        + destruct (Nat.eqb_spec (f e) id); [lia|]. rewrite g_0r by (eapply orep_in, HB, ID). apply HB, ID.
        + destruct (HB (f e) ltac:(lia)) as [H1 H2].
          assert (K : forall t', rep t' (gadd (B (f e)) x) -> orep (upd bk (f e) (t', true) id) (gadd (B id) (if Nat.eqb (f e) id then x else g0))).
          { intros t' R'. unfold upd. rewrite (Nat.eqb_sym id). destruct (Nat.eqb_spec (f e) id) as [<-|].
            - split; [exact R'|discriminate].
            - rewrite g_0r by (eapply orep_in, HB, ID). apply HB, ID. }
          destruct (snd (bk (f e))) eqn:Fl.
          * apply K. apply (i_add_assign G o rep okn I); auto.
          * apply K. rewrite (H2 eq_refl), g_0l by exact XIN. exact R. }
    rewrite <- (g_0l G (bsum f l id)).
    - apply (X (fun _ => (c_dflt o, false)) (fun _ => g0)); [|exact ID]. intros. apply orep_dflt.
    - apply bsum_in. clear -F rin. induction F as [|p q ts xs [R _] F IH]; intros p' []; subst; eauto.
  Qed.

  Lemma sweep_ok c bk B : (forall id, (0 < id)%nat -> orep (bk id) (B id)) -> forall res R, orep res R ->
    orep (bdlo12_sweep T o c bk res) (gadd R (sumn (2 ^ c - 1) (fun i => gmul (N.of_nat (S i)) (B (S i))))).
  Proof.
    intros HB res R HR. unfold bdlo12_sweep. set (step := fun (i : nat) (st : (T * bool) * (T * bool)) => _).
    assert (BIN : forall i, gin (B (S i))) by (intros i; eapply orep_in, (HB (S i)); lia).
    assert (X : forall n run ru res R, orep run ru -> orep res R ->
      orep (snd (for_down n step (run, res)))
           (gadd (gadd R (gmul (N.of_nat n) ru)) (sumn n (fun i => gmul (N.of_nat (S i)) (B (S i)))))).
    { clear res R HR. induction n as [|n IH]; intros run ru res R H1 H2.
      - cbn. rewrite !g_0r by (eauto using orep_in, g_in0, g_inadd). exact H2.
      - cbn [for_down]. assert (RIN := orep_in _ _ H2). assert (UIN := orep_in _ _ H1).
        destruct (HB (S n) ltac:(lia)) as [HB1 HB2].
        assert (E1 : exists run', orep run' (gadd ru (B (S n))) /\ exists res', orep res' (gadd R (gadd ru (B (S n)))) /\
                     step n (run, res) = (run', res')).
        { unfold step.
          set (run' := if snd (bk (S n)) then
             (if snd run then c_add_assign o (fst run) (fst (bk (S n))) else fst (bk (S n)), true) else run).
          exists run'. assert (A : orep run' (gadd ru (B (S n)))).
          { unfold run'. destruct (snd (bk (S n))) eqn:F1.
            - destruct (snd run) eqn:F2; split; cbn; try discriminate.
              + apply (i_add_assign G o rep okn I); [apply H1|exact HB1].
              + rewrite (proj2 H1 F2), g_0l by auto. exact HB1.
            - rewrite (HB2 eq_refl), g_0r by auto. exact H1. }
          split; [exact A|]. eexists. split; [|reflexivity]. destruct (snd run') eqn:F1.
          - destruct (snd res) eqn:F2; split; cbn; try discriminate.
            + apply (i_add G o rep okn I); [apply H2|apply A].
            + rewrite (proj2 H2 F2), g_0l by (eapply orep_in, A). apply A.
          - rewrite (proj2 A F1), g_0r by auto. exact H2. }
        destruct E1 as (run' & A & res' & A' & ->).
        assert (W := IH run' _ res' _ A A'). cbn [sumn].
        match type of W with orep _ ?v => match goal with |- orep _ ?w => replace w with v; [exact W|] end end.
        assert (SI : gin (sumn n (fun i => gmul (N.of_nat (S i)) (B (S i))))).
        { apply sumn_in. intros. apply gmul_in, BIN. }
        assert (BN := BIN n).
        replace (N.of_nat (S n)) with (N.succ (N.of_nat n)) by lia.
        rewrite !gmul_succ by auto. rewrite gmul_gadd by auto.
        set (s := sumn n _) in *. set (b := B (S n)) in *. assert (gin (gmul (N.of_nat n) ru)) by auto using gmul_in.
        assert (gin (gmul (N.of_nat n) b)) by auto using gmul_in.
        rewrite !g_assoc by auto using g_inadd. f_equal. f_equal.
        rewrite <- !(g_assoc G b) by auto using g_inadd. rewrite (g_comm G b) by auto using g_inadd.
        rewrite !g_assoc by auto using g_inadd. f_equal.
        rewrite <- (g_assoc G b) by auto using g_inadd. rewrite (g_comm G _ s) by auto using g_inadd. reflexivity. }
    assert (W := X (2 ^ c - 1)%nat _ _ _ _ orep_dflt HR).
    rewrite gmul_zero, (g_0r G R) in W by (eapply orep_in, HR). exact W.
  Qed.

  Lemma digit_sum n f l : (forall p, In p l -> gin (fst p)) -> (forall p, In p l -> (f (snd p) <= n)%nat) ->
    sumn n (fun i => gmul (N.of_nat (S i)) (bsum f l (S i))) = gsum (map (fun p => gmul (N.of_nat (f (snd p))) (fst p)) l).
  Proof.
    intros LI LB. induction l as [|[x e] l IH].
    - change (gsum (map _ [])) with (@g0 G). apply sumn_zero. intros. apply (gmul_zero G).
    - cbn [map]. unfold gsum at 1. cbn [fold_right fst snd]. change (fold_right gadd g0 (map ?F l)) with (gsum (map F l)).
      rewrite <- IH by (intros; (apply LI || apply LB); right; assumption).
      assert (XI : gin x) by (apply (LI (x, e)); left; reflexivity).
      assert (BI : forall i, gin (bsum f l i)) by (intros; apply bsum_in; intros; apply LI; right; assumption).
      transitivity (sumn n (fun i => gadd (gmul (N.of_nat (S i)) (if Nat.eqb (f e) (S i) then x else g0)) (gmul (N.of_nat (S i)) (bsum f l (S i))))).
      { apply sumn_ext. intros i _. unfold bsum at 1. cbn [map]. unfold gsum. cbn [fold_right fst snd].
        apply gmul_gadd; [destruct (Nat.eqb _ _); auto using g_in0|apply BI]. }
      rewrite sumn_add; [|intros; apply gmul_in; destruct (Nat.eqb _ _); auto using g_in0|intros; apply gmul_in, BI].
      f_equal. assert (B := LB (x, e) (or_introl eq_refl)). cbn in B. destruct (f e) as [|d] eqn:E.
      + apply sumn_zero. intros. destruct (Nat.eqb_spec 0 (S i)); [lia|]. apply gmul_zero.
      + rewrite (sumn_single G n _ d).
        * rewrite Nat.eqb_refl. reflexivity.
        * lia.
        * rewrite Nat.eqb_refl. apply gmul_in, XI.
        * intros i _ N. destruct (Nat.eqb_spec (S d) (S i)); [lia|]. apply gmul_zero.
  Qed.

  Lemma groups_ok c input l num_bits : (1 <= c)%nat -> Forall2 pin input l ->
    (forall p, In p l -> (snd p < 2 ^ N.of_nat num_bits)%N) ->
    rep (bdlo12_groups T o c input num_bits) (gsum (map (fun p => gmul (snd p) (fst p)) l)).
  Proof.
    intros C F NB. unfold bdlo12_groups. set (ng := ((num_bits + c - 1) / c)%nat).
    assert (LIN : forall p, In p l -> gin (fst p)).
    { clear -F rin. induction F as [|p q ts xs [R _] F IH]; intros p' []; subst; eauto. }
    set (step := fun (k : nat) (result : T * bool) => _).
    enough (X : orep (for_down ng step (c_dflt o, false)) (gsum (map (fun p => gmul (N.shiftr (snd p) (N.of_nat (0 * c))) (fst p)) l))).
    { destruct X as [X _]. cbn in X. exact X. }
    apply (for_down_ind (fun k res => orep res (gsum (map (fun p => gmul (N.shiftr (snd p) (N.of_nat (k * c))) (fst p)) l)))).
    - rewrite gsum_map_zero; [apply orep_dflt|]. intros p P. rewrite N.shiftr_div_pow2, N.div_small; [reflexivity|].
      eapply N.lt_le_trans; [apply NB, P|]. apply N.pow_le_mono_r; [lia|].
      assert (num_bits <= ng * c)%nat; [|lia]. unfold ng.
      assert (D := Nat.div_mod (num_bits + c - 1) c ltac:(lia)).
      assert (M := Nat.mod_upper_bound (num_bits + c - 1) c ltac:(lia)). nia.
    - intros k s L H. unfold step.
      set (s' := if snd s then _ else _).
      assert (A : orep s' (gmul (2 ^ N.of_nat c) (gsum (map (fun p => gmul (N.shiftr (snd p) (N.of_nat (S k * c))) (fst p)) l)))).
      { unfold s'. destruct (snd s) eqn:E.
        - split; [|discriminate]. apply dbl_iter, H.
        - assert (Z := proj2 H E). rewrite Z in *. rewrite gmul_zero. exact H. }
      assert (W := sweep_ok c _ _ (fill_ok c k input l F) s' _ A).
      rewrite digit_sum in W.
      + match type of W with orep _ ?v => match goal with |- orep _ ?w => replace w with v; [exact W|] end end.
        rewrite <- gsum_map_mul by (intros; apply gmul_in, LIN; assumption).
        rewrite <- gsum_map_add by (intros; repeat apply gmul_in; apply LIN; assumption).
        apply gsum_map_ext. intros p P. rewrite N2Nat.id. rewrite <- gmul_mul, <- gmul_add by (apply LIN, P).
        f_equal. symmetry. apply shiftr_step.
      + exact LIN.
      + intros p _. assert (B := window_bits_lt c k (snd p)).
        assert (E : N.of_nat (2 ^ c) = (2 ^ N.of_nat c)%N) by (rewrite Nat2N.inj_pow; reflexivity).
        lia.
  Qed.

  Lemma num_bits_ok ns e : In e ns -> (e < 2 ^ N.of_nat (bdlo12_num_bits ns))%N.
  Proof.
    intros H. unfold bdlo12_num_bits.
    set (st := fun num_bits e => Nat.max num_bits (if N.eqb e 0 then 1%nat else nbits e)).
    assert (M : forall l a, (a <= fold_left st l a)%nat).
    { induction l as [|x l IH]; intros a; cbn; [lia|]. etransitivity; [|apply IH]. unfold st. lia. }
    assert (X : forall l a, In e l -> ((if N.eqb e 0 then 1%nat else nbits e) <= fold_left st l a)%nat).
    { induction l as [|x l IH]; intros a []; cbn.
      - subst x. etransitivity; [|apply M]. unfold st. lia.
      - apply IH. assumption. }
    specialize (X ns 0%nat H). eapply N.lt_le_trans; [|apply N.pow_le_mono_r; [lia|]].
    2: { instantiate (1 := N.of_nat (if N.eqb e 0 then 1%nat else nbits e)). lia. }
    destruct (N.eqb_spec e 0) as [->|N]; [reflexivity|]. unfold nbits. rewrite N2Nat.id. apply N.size_gt.
  Qed.

  Lemma combine_pin ts xs ns : Forall2 rep ts xs -> length ns = length ts -> Forall2 pin (combine ts ns) (combine xs ns).
  Proof.
    intros F. revert ns. induction F; intros [|n ns] L; try discriminate; cbn; constructor; auto. split; auto.
  Qed.
  Lemma bdlo12_ok ts xs ns : ts <> [] -> Forall2 rep ts xs -> length ns = length ts ->
    exists t, bdlo12 o ts ns = Some t /\ rep t (msum ns xs).
  Proof.
    intros NE F L. destruct ts as [|t0 ts]; [contradiction|]. eexists. split; [reflexivity|].
    rewrite msum_combine. apply groups_ok.
    - unfold bdlo12_c. lia.
    - apply combine_pin; auto.
    - intros [x e] P. apply num_bits_ok. apply in_combine_r in P. exact P.
  Qed.

  (** ** wNAF *)
  Lemma wnaf_table_ok w base x i : rep base x -> (i < 2 ^ (w - 1))%nat ->
    rep (wnaf_table T o w base i) (gmul (N.of_nat (2 * i + 1)) x).
  Proof.
    intros H L. assert (XI : gin x) by eauto. unfold wnaf_table.
    set (step := fun (i : nat) (st : (nat -> T) * T) => _).
    assert (X := for_up_ind (fun j (st : (nat -> T) * T) => (forall i, (i < j)%nat -> rep (fst st i) (gmul (N.of_nat (2 * i + 1)) x)) /\
      rep (snd st) (gmul (N.of_nat (2 * j + 1)) x)) step (2 ^ (w - 1)) 0 (fun _ => c_dflt o, base)).
    apply X; [| |lia].
    - split; [intros; lia|]. cbn [snd]. change (N.of_nat (2 * 0 + 1)) with 1%N. rewrite gmul_1 by exact XI. exact H.
    - intros j [tb tmp] _ [H1 H2]. unfold step. cbn [fst snd] in *. split.
      + intros i' L'. unfold upd. destruct (Nat.eqb_spec i' j) as [->|]; [exact H2|]. apply H1. lia.
      + replace (N.of_nat (2 * S j + 1)) with (N.of_nat (2 * j + 1) + 2)%N by lia.
        rewrite gmul_add by exact XI. apply (i_add G o rep okn I); [exact H2|].
        replace (gmul 2 x) with (gadd x x). { apply (i_dbl G o rep okn I), H. }
        change 2%N with (2 * 1)%N. rewrite gmul_double, gmul_1 by exact XI. reflexivity.
  Qed.

  Section Wnaf.
    Variable find_wnaf : nat -> N -> list Z.
    Hypothesis WN : wnaf_contract find_wnaf.
    Lemma digits_skipn ds : forall i, (i < length ds)%nat ->
      (digits_value (skipn i ds) = nth i ds 0 + 2 * digits_value (skipn (S i) ds))%Z.
    Proof.
      induction ds as [|d ds IH]; intros i L; cbn in L; [lia|]. destruct i; [reflexivity|].
      cbn [skipn nth]. rewrite IH by lia. reflexivity.
    Qed.
    Lemma fixed_window_ok w base x n : (1 <= w)%nat -> rep base x ->
      rep (fixed_window_wnaf_exp o find_wnaf w base n) (gmul n x).
    Proof.
      intros W H. assert (XI : gin x) by eauto. destruct (WN w n W) as [V D]. unfold fixed_window_wnaf_exp.
      set (naf := find_wnaf w n) in *. set (step := fun (i : nat) (st : T * bool) => _).
      rewrite <- gz_N, <- V.
      apply (for_down_ind (fun k (st : T * bool) => rep (fst st) (gz (digits_value (skipn k naf)) x) /\
        (snd st = false -> digits_value (skipn k naf) = 0%Z)) (length naf) step (c_zero o, false)).
      - rewrite skipn_all. split; [apply (i_zero G o rep okn I)|reflexivity].
      - intros k [res fl] L [H1 H2]. cbn [fst snd] in H1, H2. rewrite digits_skipn by exact L. unfold step.
        set (v := digits_value (skipn (S k) naf)) in *.
        assert (A : rep (if fl then c_dbl o res else res) (gz (2 * v) x)).
        { destruct fl; [rewrite gz_double by exact XI; apply (i_dbl G o rep okn I), H1|].
          assert (Z := H2 eq_refl). rewrite Z in *. exact H1. }
        assert (K := D (nth k naf 0%Z) (nth_In _ _ L)).
        set (d := nth k naf 0%Z) in *. set (res' := if fl then c_dbl o res else res) in *.
        destruct (Z.eqb_spec d 0) as [E|NE].
        { rewrite E, Z.add_0_l. cbn [fst snd]. split; [exact A|]. intros Fl. rewrite (H2 Fl). reflexivity. }
        destruct K as [K|[Od B]]; [contradiction|].
        assert (P2 : (2 ^ Z.of_nat w = 2 * 2 ^ Z.of_nat (w - 1))%Z).
        { rewrite <- Z.pow_succ_r by lia. f_equal. lia. }
        assert (P3 : (Z.of_nat (2 ^ (w - 1)) = 2 ^ Z.of_nat (w - 1))%Z) by (rewrite Nat2Z.inj_pow; reflexivity).
        apply Z.odd_spec in Od. destruct Od as [q Q].
        destruct (Z.ltb_spec 0 d) as [Pos|Neg]; cbn [fst snd]; (split; [|discriminate]); rewrite Z.add_comm, gz_add by exact XI.
        + assert (E : Z.quot d 2 = q) by (rewrite Z.quot_div_nonneg by lia; symmetry; apply (Z.div_unique d 2 q 1); lia).
          rewrite E. apply (i_add G o rep okn I); [exact A|].
          replace d with (Z.of_N (N.of_nat (2 * Z.to_nat q + 1))) by lia. rewrite gz_N. apply wnaf_table_ok; auto. lia.
        + assert (E : Z.quot (- d) 2 = (- q - 1)%Z) by (rewrite Z.quot_div_nonneg by lia; symmetry; apply (Z.div_unique (- d) 2 (- q - 1) 1); lia).
          rewrite E. replace d with (- Z.of_N (N.of_nat (2 * Z.to_nat (- q - 1) + 1)))%Z by lia. rewrite gz_opp_N by exact XI.
          apply (i_sub G o rep okn I); [exact A|]. apply wnaf_table_ok; auto. lia.
    Qed.
    Lemma opt_window_ok tbl base x n bits : okn n -> rep base x ->
      rep (opt_window_wnaf_exp o find_wnaf tbl base n bits) (gmul n x).
    Proof.
      intros OK H. unfold opt_window_wnaf_exp. destruct (wnaf_best tbl bits) eqn:E.
      - apply (i_smul G o rep okn I); auto.
      - apply fixed_window_ok; auto. lia.
    Qed.
  End Wnaf.

  (** ** windows *)
  Section Window.
    Variables (s w : nat).
    Hypothesis S1 : (1 <= s)%nat.
    Hypothesis W1 : (1 <= w)%nat.
    Let oc := outer_count s w.
    Lemma oc_bounds : (1 <= oc)%nat /\ (s <= oc * w)%nat /\ ((oc - 1) * w < s)%nat.
    Proof.
      unfold oc, outer_count. assert (D := Nat.div_mod (s + w - 1) w ltac:(lia)).
      assert (M := Nat.mod_upper_bound (s + w - 1) w ltac:(lia)). set (q := ((s + w - 1) / w)%nat) in *.
      assert (Q1 : (1 <= q)%nat) by nia. split; [exact Q1|]. split; nia.
    Qed.
    Definition row_size (outer : nat) : nat := if Nat.eqb outer (oc - 1) then (2 ^ (s - (oc - 1) * w))%nat else (2 ^ w)%nat.
    Lemma window_table_ok g x outer inner : rep g x -> (outer < oc)%nat -> (inner < row_size outer)%nat ->
      rep (get_window_table o s w g outer inner) (gmul (N.of_nat inner * 2 ^ N.of_nat (outer * w)) x).
    Proof.
      intros H LO LI. assert (XI : gin x) by eauto. unfold get_window_table. fold oc.
      set (step := fun (outer : nat) (st : (nat -> nat -> T) * T) => _).
      assert (X := for_up_ind (fun j (st : (nat -> nat -> T) * T) =>
        (forall a b, (a < j)%nat -> (b < row_size a)%nat -> rep (fst st a b) (gmul (N.of_nat b * 2 ^ N.of_nat (a * w)) x)) /\
        rep (snd st) (gmul (2 ^ N.of_nat (j * w)) x)) step oc 0 (fun _ _ => c_zero o, g)).
      apply X; [| |exact LO|exact LI].
      - split; [intros; lia|]. cbn [snd]. change (2 ^ N.of_nat (0 * w))%N with 1%N. rewrite gmul_1 by exact XI. exact H.
      - intros j [tb go] _ [H1 H2]. cbn [fst snd] in *. unfold step. fold (row_size j).
        assert (GI : gin (gmul (2 ^ N.of_nat (j * w)) x)) by auto using gmul_in.
        set (rw := for_up 0 (row_size j) _ _).
        assert (RW : (forall b, (b < row_size j)%nat -> rep (fst rw b) (gmul (N.of_nat b * 2 ^ N.of_nat (j * w)) x))).
        { unfold rw. set (st2 := fun (inner : nat) (st : (nat -> T) * T) => _).
          apply (for_up_ind (fun i (st : (nat -> T) * T) => (forall b, (b < i)%nat -> rep (fst st b) (gmul (N.of_nat b * 2 ^ N.of_nat (j * w)) x)) /\
            rep (snd st) (gmul (N.of_nat i * 2 ^ N.of_nat (j * w)) x)) st2 (row_size j) 0 (tb j, c_zero o)).
          - split; [intros; lia|]. cbn. apply (i_zero G o rep okn I).
          - intros i [rr gi] _ [K1 K2]. cbn [fst snd] in *. unfold st2. split; cbn [fst snd].
            + intros b B. unfold upd. destruct (Nat.eqb_spec b i) as [->|]; [exact K2|]. apply K1. lia.
            + replace (N.of_nat (S i) * 2 ^ N.of_nat (j * w))%N with (N.of_nat i * 2 ^ N.of_nat (j * w) + 2 ^ N.of_nat (j * w))%N by lia.
              rewrite gmul_add by exact XI. apply (i_add_assign G o rep okn I); auto. }
        cbn [fst snd]. split.
        + intros a b A B. unfold upd. destruct (Nat.eqb_spec a j) as [->|]; [apply RW, B|]. apply H1; [lia|exact B].
        + replace (2 ^ N.of_nat (S j * w))%N with (2 ^ N.of_nat w * 2 ^ N.of_nat (j * w))%N
            by (rewrite <- N.pow_add_r; f_equal; lia).
          rewrite gmul_mul by exact XI. apply dbl_iter, H2.
    Qed.
    Lemma windowed_ok g x n : rep g x -> (n < 2 ^ N.of_nat s)%N ->
      rep (windowed_exp o s w (get_window_table o s w g) n) (gmul n x).
    Proof.
      intros H B. assert (XI : gin x) by eauto. destruct oc_bounds as (O1 & O2 & O3).
      unfold windowed_exp. fold oc. set (tb := get_window_table o s w g).
      assert (N' : n = (n mod 2 ^ N.of_nat ((0 + oc) * w))%N).
      { symmetry. apply N.mod_small. eapply N.lt_le_trans; [exact B|]. apply N.pow_le_mono_r; lia. }
      replace (gmul n x) with (gmul (n mod 2 ^ N.of_nat ((0 + oc) * w)) x) by (rewrite <- N'; reflexivity).
      apply (for_up_ind (fun j r => rep r (gmul (n mod 2 ^ N.of_nat (j * w)) x)) _ oc 0 (tb 0 0)%nat).
      - cbn. rewrite N.mod_1_r. apply (window_table_ok g x 0 0 H); [lia|]. unfold row_size. destruct (Nat.eqb _ _).
        + assert (2 ^ (s - (oc - 1) * w) <> 0)%nat by (apply Nat.pow_nonzero; lia). lia.
        + assert (2 ^ w <> 0)%nat by (apply Nat.pow_nonzero; lia). lia.
      - intros j r0 J IH.
        assert (E : (n mod 2 ^ N.of_nat (S j * w) = n mod 2 ^ N.of_nat (j * w) + window_bits w j n * 2 ^ N.of_nat (j * w))%N).
        { rewrite window_bits_ok, N.shiftr_div_pow2.
          replace (2 ^ N.of_nat (S j * w))%N with (2 ^ N.of_nat (j * w) * 2 ^ N.of_nat w)%N by (rewrite <- N.pow_add_r; f_equal; lia).
          rewrite N.mod_mul_r by (apply N.pow_nonzero; lia). lia. }
        rewrite E, gmul_add by exact XI. apply (i_add G o rep okn I); [exact IH|].
        assert (WB := window_bits_lt w j n).
        rewrite <- (N2Nat.id (window_bits w j n)) at 2.
        apply window_table_ok; auto; [lia|]. unfold row_size.
        destruct (Nat.eqb_spec j (oc - 1)) as [Ej|].
        + assert (E2 : N.of_nat (2 ^ (s - (oc - 1) * w)) = (2 ^ N.of_nat (s - (oc - 1) * w))%N) by (rewrite Nat2N.inj_pow; reflexivity).
          assert (window_bits w j n < 2 ^ N.of_nat (s - (oc - 1) * w))%N; [|lia].
          rewrite window_bits_ok, N.shiftr_div_pow2.
          eapply N.le_lt_trans; [apply N.mod_le; apply N.pow_nonzero; lia|].
          apply N.div_lt_upper_bound; [apply N.pow_nonzero; lia|]. rewrite <- N.pow_add_r.
          replace (N.of_nat (j * w) + N.of_nat (s - (oc - 1) * w))%N with (N.of_nat s) by (subst j; lia). exact B.
        + assert (E2 : N.of_nat (2 ^ w) = (2 ^ N.of_nat w)%N) by (rewrite Nat2N.inj_pow; reflexivity). lia.
    Qed.
  End Window.

  (** ** chunks *)
  Section Policy.
    Variable process : list T -> list N -> option T.
    (** which inputs the policy handles *)
    Variable good : list N -> Prop.
    Hypothesis PR : forall ts xs ns, good ns -> Forall2 rep ts xs -> length ns = length ts ->
      exists t, process ts ns = Some t /\ rep t (msum ns xs).
    Lemma Forall2_slice ts xs a b : Forall2 rep ts xs -> Forall2 rep (slice ts a b) (slice xs a b).
    Proof.
      intros F. unfold slice. generalize (b - a)%nat. intros m. revert a m.
      assert (K : forall a, Forall2 rep (skipn a ts) (skipn a xs)).
      { intros a. revert ts xs F. induction a; intros ts xs F; [exact F|]. destruct F; cbn; [constructor|auto]. }
      intros a m. specialize (K a). revert m. induction K; intros [|m]; cbn; constructor; auto.
    Qed.
    Lemma slice_length {A} (l : list A) a b : length (slice l a b) = Nat.min (b - a) (length l - a).
    Proof. unfold slice. rewrite firstn_length, skipn_length. reflexivity. Qed.
    Lemma firstn_slice {A} (l : list A) a b : (a <= b)%nat -> firstn b l = firstn a l ++ slice l a b.
    Proof.
      intros L. unfold slice. replace b with (a + (b - a))%nat at 1 by lia. generalize (b - a)%nat. intros m.
      revert l. induction a; intros l; [reflexivity|]. destruct l; cbn; [destruct m; reflexivity|]. f_equal. apply IHa. lia.
    Qed.
    Lemma multiexp_ok ts xs ns chunks : (1 <= chunks)%nat -> Forall2 rep ts xs -> length ns = length ts ->
      (good ns) -> (forall a b, (a < b)%nat -> (b <= length ns)%nat -> good (slice ns a b)) ->
      exists t, multiexp o process ts ns chunks = Some t /\ rep t (msum ns xs).
    Proof.
      intros C F L G0 GS. unfold multiexp.
      destruct (Nat.ltb_spec (length ts) chunks) as [B|B]; cbn [orb]; [apply PR; auto|].
      destruct (Nat.eqb_spec chunks 1) as [E|NE]; cbn [orb]; [apply PR; auto|].
      destruct (Nat.eqb_spec chunks 0) as [E|NZ]; [lia|].
      set (sz := (length ts / chunks)%nat). set (hi := fun i => if Nat.eqb i (chunks - 1) then length ts else ((i + 1) * sz)%nat).
      assert (FX : Forall gin xs) by (clear -F rin; induction F; constructor; eauto).
      assert (LX : length xs = length ts) by (symmetry; clear -F; induction F; cbn; auto).
      assert (SZ1 : (1 <= sz)%nat) by (apply Nat.div_le_lower_bound; lia).
      assert (SZ2 : (sz * chunks <= length ts)%nat) by (unfold sz; rewrite Nat.mul_comm; apply Nat.mul_div_le; lia).
      set (step := fun (i : nat) (result : option T) => _).
      set (lo := fun i => if Nat.eqb i chunks then length ts else (i * sz)%nat).
      assert (FG : forall k, Forall gin (firstn k xs)) by (intros; apply Forall_firstn'; exact FX).
      assert (X := for_up_ind (fun j res => exists t, res = Some t /\ rep t (msum (firstn (lo j) ns) (firstn (lo j) xs)))
        step chunks 0 (Some (c_zero o))).
      cbn [Nat.add] in X. assert (Lc : lo chunks = length ts) by (unfold lo; rewrite Nat.eqb_refl; reflexivity).
      rewrite Lc in X. rewrite (firstn_all2 (n := length ts) ns), (firstn_all2 (n := length ts) xs) in X by lia. apply X; clear X.
      - exists (c_zero o). split; [reflexivity|]. replace (lo 0%nat) with 0%nat by (unfold lo; destruct (Nat.eqb_spec 0 chunks); lia).
        cbn. apply (i_zero G o rep okn I).
      - intros i res Hi (t & -> & R).
        assert (Li : lo i = (i * sz)%nat) by (unfold lo; destruct (Nat.eqb_spec i chunks); [lia|reflexivity]).
        assert (Ls : lo (S i) = hi i).
        { unfold lo, hi. destruct (Nat.eqb_spec (S i) chunks), (Nat.eqb_spec i (chunks - 1)); try lia. }
        assert (Hlt : (i * sz < hi i <= length ts)%nat).
        { unfold hi. destruct (Nat.eqb_spec i (chunks - 1)); nia. }
        unfold step. rewrite L. fold (hi i).
        destruct (PR (slice ts (i * sz) (hi i)) (slice xs (i * sz) (hi i)) (slice ns (i * sz) (hi i))) as (v & -> & V).
        { apply GS; lia. }
        { apply Forall2_slice, F. }
        { rewrite !slice_length. lia. }
        eexists. split; [reflexivity|]. rewrite Ls. rewrite !(firstn_slice _ (i * sz) (hi i)) by lia.
        rewrite msum_app.
        + apply (i_add G o rep okn I); [|exact V]. rewrite <- Li. exact R.
        + rewrite !firstn_length. lia.
        + apply FG.
        + unfold slice. apply Forall_firstn', Forall_skipn'. exact FX.
    Qed.

    (** the scalars that are neither 0 nor 1 *)
    Definition proper (ns : list N) : list N := filter (fun n => negb (N.eqb n 1) && negb (N.eqb n 0)) ns.
    Lemma mixed_ok ts xs ns chunks : (1 <= chunks)%nat -> Forall2 rep ts xs -> length ns = length ts ->
      good (proper ns) -> (forall a b, (a < b)%nat -> (b <= length (proper ns))%nat -> good (slice (proper ns) a b)) ->
      exists t, multiexp_with_mixed_addition o process ts ns chunks = Some t /\ rep t (msum ns xs).
    Proof.
      intros C F L G0 GS. unfold multiexp_with_mixed_addition.
      set (step := fun (st : T * list T * list N) (bs : T * N) => _).
      assert (X : forall acc a g p ys, rep acc a -> Forall2 rep g ys -> length p = length g ->
        exists acc' a' g' ys', fold_left step (combine ts ns) (acc, g, p) = (acc', g', p ++ proper ns) /\
          rep acc' a' /\ Forall2 rep g' ys' /\ length (p ++ proper ns) = length g' /\
          gadd a' (msum (p ++ proper ns) ys') = gadd (gadd a (msum p ys)) (msum ns xs)).
      { clear G0 GS. revert ns L. induction F as [|t x ts xs R F IH]; intros [|n ns] L acc a g p ys A B D; try discriminate.
        - cbn. exists acc, a, g, ys. rewrite app_nil_r. repeat split; auto. rewrite g_0r; [reflexivity|].
          apply g_inadd; [eauto|]. apply msum_in. clear -B rin. induction B; constructor; eauto.
        - cbn [combine fold_left]. assert (FX : Forall gin xs) by (clear -F rin; induction F; constructor; eauto).
          assert (FY : Forall gin ys) by (clear -B rin; induction B; constructor; eauto).
          assert (LY : length ys = length g) by (symmetry; clear -B; induction B; cbn; auto).
          assert (XI : gin x) by eauto. assert (AI : gin a) by eauto.
          cbn [msum]. unfold step at 2. change (proper (n :: ns)) with (if negb (N.eqb n 1) && negb (N.eqb n 0) then n :: proper ns else proper ns).
          destruct (N.eqb_spec n 1) as [->|N1]; cbn [negb andb].
          + destruct (IH ns ltac:(cbn in L; lia) (c_add o acc t) (gadd a x) g p ys) as (acc' & a' & g' & ys' & H1 & H2 & H3 & H4 & H5); auto.
            { apply (i_add G o rep okn I); auto. }
            exists acc', a', g', ys'. repeat split; auto. rewrite H5, gmul_1 by exact XI.
            rewrite !g_assoc by auto using msum_in, g_inadd. f_equal. rewrite <- !g_assoc by auto using msum_in.
            f_equal. apply g_comm; auto using msum_in.
          + destruct (N.eqb_spec n 0) as [->|N0]; cbn [negb].
            * destruct (IH ns ltac:(cbn in L; lia) acc a g p ys) as (acc' & a' & g' & ys' & H1 & H2 & H3 & H4 & H5); auto.
              exists acc', a', g', ys'. repeat split; auto. rewrite H5, gmul_0, (g_0l G (msum ns xs)) by auto using msum_in. reflexivity.
            * destruct (IH ns ltac:(cbn in L; lia) acc a (g ++ [t]) (p ++ [n]) (ys ++ [x])) as (acc' & a' & g' & ys' & H1 & H2 & H3 & H4 & H5); auto.
              { apply Forall2_app; auto. }
              { rewrite !app_length. cbn. lia. }
              rewrite <- app_assoc in H1, H4, H5. cbn [app] in H1, H4, H5.
              exists acc', a', g', ys'. repeat split; auto. rewrite H5. rewrite msum_app by (auto; lia).
              cbn [msum]. rewrite (g_0r G (gmul n x)) by auto using gmul_in.
              rewrite !g_assoc by auto using msum_in, gmul_in, g_inadd. reflexivity. }
      destruct (X (c_zero o) g0 [] [] []) as (acc & a & g & ys & -> & H2 & H3 & H4 & H5); auto.
      { apply (i_zero G o rep okn I). }
      cbn [app] in *. destruct (multiexp_ok g ys (proper ns) chunks C H3 H4 G0 GS) as (v & -> & V).
      eexists. split; [reflexivity|].
      assert (FX : Forall gin xs) by (clear -F rin; induction F; constructor; eauto).
      cbn [msum] in H5. rewrite !g_0l in H5 by auto using g_in0, msum_in. rewrite <- H5.
      apply (i_add G o rep okn I); auto.
    Qed.
  End Policy.
End Class.
