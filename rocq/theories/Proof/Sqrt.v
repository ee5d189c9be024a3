(** Tonelli-Shanks: termination and correctness on non-zero squares,
    non-termination elsewhere; Euler's criterion. *)
From Coq Require Import ZArith NArith List Bool Lia Ring Field Znumtheory Arith Wf_nat.
From Verif Require Import Base.Field Base.Zp Base.Ext Model.Sqrt
  Proof.ExtTheory Proof.FiniteField Proof.Cyclotomic.
Import ListNotations.
Local Open Scope fld_scope.

(** k-fold squaring *)
Fixpoint isq {F : FieldOps} (k : nat) (x : F) : F :=
  match k with O => x | S k' => isq k' (x * x) end.

Section Iter.
  Variable F : FieldOps.
  Hypothesis R : RingLaws F.
  Add Ring Fr : (RL_th F R).
  Lemma isq_add (x : F) a : forall b, isq (a + b) x = isq b (isq a x).
  Proof. revert x. induction a as [|a IH]; intros x b; [reflexivity|]. cbn. apply IH. Qed.
  Lemma isq_S (x : F) k : isq (S k) x = isq k x * isq k x.
  Proof. revert x. induction k as [|k IH]; intros x; [reflexivity|]. change (isq (S (S k)) x) with (isq (S k) (x * x)). rewrite IH. reflexivity. Qed.
  Lemma isq_mul (x y : F) k : isq k (x * y) = isq k x * isq k y.
  Proof.
    revert x y. induction k as [|k IH]; intros x y; [reflexivity|]. cbn.
    replace (x * y * (x * y)) with ((x * x) * (y * y)) by ring. apply IH.
  Qed.
  Lemma isq_1 k : isq k (1 : F) = 1.
  Proof. induction k as [|k IH]; [reflexivity|]. cbn. replace (1 * 1 : F) with (1 : F) by ring. exact IH. Qed.
  Lemma isq_0 k : isq k (0 : F) = 0.
  Proof. induction k as [|k IH]; [reflexivity|]. cbn. replace (0 * 0 : F) with (0 : F) by ring. exact IH. Qed.
  Lemma isq_fpow (x : F) k : isq k x = fpow x (2 ^ N.of_nat k).
  Proof.
    induction k as [|k IH]; [symmetry; apply (fpow_1 F R)|].
    rewrite isq_S, IH, Nat2N.inj_succ, N.pow_succ_r'. symmetry. apply (fpow_double F R).
  Qed.
End Iter.

Section Loop.
  Variable F : FieldOps.
  Variable sqr : F -> F.
  Hypothesis KL : FieldLaws F.
  Hypothesis Hsqr : forall x, sqr x = x * x.
  Let R := FieldLaws_Ring F KL.
  Add Field Ff : (FL_th F KL).
  Hypothesis m1 : (1 : F) <> - (1).

  Lemma ts_squarings_eq j : forall w, ts_squarings F sqr j w = isq j w.
  Proof. induction j as [|j IH]; intros w; [reflexivity|]. cbn. rewrite Hsqr. apply IH. Qed.

  (** the inner loop finds the least k with isq k b = 1 *)
  Lemma ts_order_some k : forall fuel b m, (k <= fuel)%nat -> isq k b = 1 ->
    exists r, ts_order F sqr fuel b m = Some (m + r)%nat /\ (r <= k)%nat /\ isq r b = 1 /\
      forall i, (i < r)%nat -> isq i b <> 1.
  Proof.
    induction k as [|k IH]; intros fuel b m Hf Hk.
    - cbn in Hk. subst b. exists O. split; [|split; [lia|split; [reflexivity|intros; lia]]].
      destruct fuel; cbn; rewrite (feqb_refl F R), Nat.add_0_r; reflexivity.
    - destruct (feqb_spec F R b 1) as [->|Hb].
      + exists O. split; [|split; [lia|split; [reflexivity|intros; lia]]].
        destruct fuel; cbn; rewrite (feqb_refl F R), Nat.add_0_r; reflexivity.
      + destruct fuel as [|fuel]; [lia|]. cbn in Hk.
        destruct (IH fuel (b * b) (S m) ltac:(lia) Hk) as (r & E & Hr & H1 & Hmin).
        exists (S r). cbn. rewrite (proj2 (feqb_false F R b 1) Hb), Hsqr, E.
        split; [f_equal; lia|]. split; [lia|]. split; [exact H1|].
        intros [|i] Hi; [exact Hb|]. cbn. apply Hmin. lia.
  Qed.
  Lemma ts_order_none fuel : forall b m, (forall i, isq i b <> 1) -> ts_order F sqr fuel b m = None.
  Proof.
    induction fuel as [|f IH]; intros b m H; cbn; rewrite (proj2 (feqb_false F R b 1) (H O)); [reflexivity|].
    rewrite Hsqr. apply IH. intros i. exact (H (S i)).
  Qed.
  Lemma ts_order_found fuel : forall b m r, ts_order F sqr fuel b m = Some r ->
    exists k, r = (m + k)%nat /\ isq k b = 1.
  Proof.
    induction fuel as [|f IH]; intros b m r; cbn; destruct (feqb_spec F R b 1) as [->|Hb]; intros E.
    - injection E as <-. exists O. split; [lia|reflexivity].
    - discriminate.
    - injection E as <-. exists O. split; [lia|reflexivity].
    - rewrite Hsqr in E. destruct (IH _ _ _ E) as (k & -> & H). exists (S k). split; [lia|exact H].
  Qed.

  (** loop invariant *)
  Lemma ts_loop_ok (a : F) : forall v fuel z x b, (1 <= v)%nat -> (v <= fuel)%nat ->
    isq (v - 1) z = - (1) -> isq (v - 1) b = 1 -> x * x = a * b ->
    exists y, ts_loop F sqr fuel v z x b = Some y /\ y * y = a.
  Proof.
    induction v as [v IH] using lt_wf_ind. intros fuel z x b Hv Hf Hz Hb Hx.
    destruct (feqb_spec F R b 1) as [->|Hb1].
    - exists x. split; [destruct fuel; cbn; rewrite (feqb_refl F R); reflexivity|]. rewrite Hx. ring.
    - destruct fuel as [|fuel]; [lia|].
      destruct (ts_order_some (v - 1) (S fuel) b 0 ltac:(lia) Hb) as (m & E & Hm & Hm1 & Hmin).
      cbn [ts_loop]. rewrite (proj2 (feqb_false F R b 1) Hb1), E. cbn [Nat.add].
      destruct m as [|m]; [contradiction|].
      rewrite ts_squarings_eq, Hsqr. set (w := isq (v - S m - 1) z).
      assert (Hw : isq m (w * w) = - (1)).
      { change (w * w) with (w * w). rewrite <- Hz. change (isq (S m) w = isq (v - 1) z). unfold w.
        rewrite <- isq_add. f_equal. lia. }
      assert (Hbm : isq m b = - (1)).
      { destruct (fsqr_eq F KL (isq m b) 1) as [H|H]; [|exfalso; apply (Hmin m ltac:(lia) H)|exact H].
        rewrite <- (isq_S F), Hm1. ring. }
      apply (IH (S m)); [lia|lia|lia| | |].
      + replace (S m - 1)%nat with m by lia. exact Hw.
      + replace (S m - 1)%nat with m by lia. rewrite (isq_mul F R), Hw, Hbm. ring.
      + transitivity (x * x * (w * w)); [ring|]. rewrite Hx. ring.
  Qed.
  Lemma ts_loop_zero fuel v z x : ts_loop F sqr fuel v z x 0 = None.
  Proof.
    assert (H01 : (0 : F) <> 1) by (intros E; apply (f1_neq_0 F KL); auto).
    destruct fuel as [|f]; cbn [ts_loop]; rewrite (proj2 (feqb_false F R 0 1) H01); [reflexivity|].
    rewrite ts_order_none; [reflexivity|]. intros i. rewrite (isq_0 F R). exact H01.
  Qed.
  (** isq (s-1) b = -1 is preserved for ever when isq s z = 1 *)
  Lemma ts_loop_nonsquare s : (1 <= s)%nat -> forall fuel z x b,
    isq s z = 1 -> isq (s - 1) b = - (1) -> ts_loop F sqr fuel s z x b = None.
  Proof.
    intros Hs. induction fuel as [|f IH]; intros z x b Hz Hb; cbn [ts_loop];
      (assert (Hb1 : b <> 1) by (intros ->; rewrite (isq_1 F R) in Hb; exact (m1 Hb)));
      rewrite (proj2 (feqb_false F R b 1) Hb1); [reflexivity|].
    destruct (ts_order F sqr (S f) b 0) as [m|] eqn:E; [|reflexivity].
    assert (Hbs : isq s b = 1).
    { replace s with (S (s - 1)) by lia. rewrite (isq_S F), Hb. ring. }
    assert (Hm : m = s).
    { destruct (ts_order_found _ _ _ _ E) as (k & Ek & Hk). cbn in Ek. subst k.
      assert (Hge : (s <= m)%nat).
      { destruct (le_lt_dec s m) as [H|H]; [exact H|]. exfalso. apply m1.
        rewrite <- Hb. replace (s - 1)%nat with (m + (s - 1 - m))%nat by lia.
        rewrite isq_add, Hk, (isq_1 F R). reflexivity. }
      destruct (le_lt_dec s (S f)) as [Hf|Hf].
      - destruct (ts_order_some s (S f) b 0 Hf Hbs) as (r & E' & Hr & _ & _).
        rewrite E in E'. injection E' as ->. lia.
      - assert (Hle : forall n b' i r, ts_order F sqr n b' i = Some r -> (r <= i + n)%nat).
        { clear. induction n as [|n IHn]; intros b' i r; cbn; destruct (b' =? 1); intros H;
            try discriminate; try (injection H as <-; lia). apply IHn in H. lia. }
        apply Hle in E. lia. }
    subst m. rewrite ts_squarings_eq, Hsqr. replace (s - s - 1)%nat with O by lia. cbn [isq].
    apply IH.
    - rewrite (isq_mul F R), Hz. ring.
    - rewrite (isq_mul F R), Hb. change (isq (s - 1) (z * z)) with (isq (S (s - 1)) z).
      replace (S (s - 1)) with s by lia. rewrite Hz. ring.
  Qed.
  (** more fuel does not change a result *)
  Lemma ts_order_mono f : forall f' b m r, (f <= f')%nat -> ts_order F sqr f b m = Some r -> ts_order F sqr f' b m = Some r.
  Proof.
    induction f as [|f IH]; intros f' b m r Hf; cbn.
    - destruct (b =? 1) eqn:E; [|discriminate]. destruct f'; cbn; rewrite E; auto.
    - destruct f' as [|f']; [lia|]. cbn. destruct (b =? 1); [auto|]. apply IH. lia.
  Qed.
  Lemma ts_loop_mono f : forall f' v z x b y, (f <= f')%nat ->
    ts_loop F sqr f v z x b = Some y -> ts_loop F sqr f' v z x b = Some y.
  Proof.
    induction f as [|f IH]; intros f' v z x b y Hf; cbn [ts_loop].
    - destruct (b =? 1) eqn:E; [|discriminate]. destruct f'; cbn [ts_loop]; rewrite E; auto.
    - destruct f' as [|f']; [lia|]. cbn [ts_loop]. destruct (b =? 1); [auto|].
      destruct (ts_order F sqr (S f) b 0) as [m|] eqn:E; [|discriminate].
      rewrite (ts_order_mono (S f) (S f') b 0 m ltac:(lia) E). apply IH. lia.
  Qed.
End Loop.

(** ** Over a finite field *)
Section Fin.
  Variable F : FieldOps.
  Variables p n : N.
  Hypothesis FF : FinField F p n.
  Hypothesis p2 : (p <> 2)%N.
  Let KL := FF_field F p n FF.
  Let R := FieldLaws_Ring F KL.
  Add Field Ff2 : (FL_th F KL).
  Variable s : nat.
  Variable u : N.
  Variable z : F.
  Hypothesis Hs : (1 <= s)%nat.
  Hypothesis Hq : (p ^ n - 1 = 2 ^ N.of_nat s * (2 * u + 1))%N.
  Hypothesis Hz : isq (s - 1) z = - (1).

  Lemma FF_m1 : (1 : F) <> - (1).
  Proof.
    intros E. assert (H2 : (1 + 1 : F) = 0) by (rewrite E at 1; ring).
    assert (Hp := FF_prime F p n FF).
    assert (Hodd : exists m, p = (2 * m + 1)%N).
    { destruct (N.Even_or_Odd p) as [[m Hm]|[m Hm]]; [|exists m; exact Hm].
      exfalso. apply p2. assert (Hd : (2 | Z.of_N p)%Z) by (exists (Z.of_N m); lia).
      apply prime_div_prime in Hd; [lia|exact prime_2|exact Hp]. }
    destruct Hodd as [m Hm]. assert (C := FF_char F p n FF). rewrite Hm in C.
    rewrite (fofN_add F R), (fofN_mul F R) in C.
    apply (f1_neq_0 F KL). rewrite <- C.
    change (@fofN F 2) with (1 + (1 + 0) : F). change (@fofN F 1) with (1 + 0 : F).
    transitivity ((1 + 1) * fofN m + 1 : F); [rewrite H2; ring|ring].
  Qed.
  Let h := (2 ^ N.of_nat (s - 1) * (2 * u + 1))%N.
  Lemma h_half : (2 * h = p ^ n - 1)%N.
  Proof.
    rewrite Hq. unfold h. replace s with (S (s - 1)) at 2 by lia.
    rewrite Nat2N.inj_succ, N.pow_succ_r'. lia.
  Qed.

  Section Run.
    Variable sqr : F -> F.
    Variable pow : F -> N -> F.
    Hypothesis Hsqr : forall x, sqr x = x * x.
    Hypothesis Hpow : forall x e, pow x e = fpow x e.

    Lemma b_pow (a : F) : a * pow a u * pow a u = fpow a (2 * u + 1).
    Proof.
      rewrite Hpow, (fpow_add F R), (fpow_double F R), (fpow_1 F R). ring.
    Qed.
    Lemma b_half (a : F) : isq (s - 1) (fpow a (2 * u + 1)) = fpow a h.
    Proof. rewrite (isq_fpow F R), <- (fpow_mul F R). f_equal. unfold h. lia. Qed.

    Lemma ts_sqrt_half (a : F) : fpow a h = 1 ->
      exists y, ts_sqrt F sqr pow s z u s a = Some y /\ y * y = a.
    Proof.
      intros Ha. unfold ts_sqrt.
      apply (ts_loop_ok F sqr KL Hsqr); [exact Hs|lia|exact Hz| |].
      - rewrite b_pow, b_half. exact Ha.
      - ring.
    Qed.
    Lemma ts_sqrt_zero fuel : ts_sqrt F sqr pow s z u fuel 0 = None.
    Proof.
      unfold ts_sqrt. replace (0 * pow 0 u * pow 0 u : F) with (0 : F) by ring.
      apply (ts_loop_zero F sqr KL Hsqr).
    Qed.
    Lemma ts_sqrt_nonsquare fuel (a : F) : not_square a -> ts_sqrt F sqr pow s z u fuel a = None.
    Proof.
      intros Hns. assert (Ha : a <> 0) by (intros ->; apply (Hns 0); ring).
      unfold ts_sqrt. rewrite b_pow.
      apply (ts_loop_nonsquare F sqr KL Hsqr FF_m1 s Hs).
      - replace s with (S (s - 1)) by lia. rewrite (isq_S F), Hz. ring.
      - rewrite b_half. apply (half_power_m1 F p n FF); [exact Ha|exact h_half|].
        intros E. destruct (ts_sqrt_half a E) as (y & _ & Hy). exact (Hns y Hy).
    Qed.
    Lemma ts_sqrt_mono f f' a y : (f <= f')%nat ->
      ts_sqrt F sqr pow s z u f a = Some y -> ts_sqrt F sqr pow s z u f' a = Some y.
    Proof. apply (ts_loop_mono F sqr). Qed.
    Lemma ts_sqrt_square (y a : F) : y * y = a -> a <> 0 ->
      exists r, (forall fuel, (s <= fuel)%nat -> ts_sqrt F sqr pow s z u fuel a = Some r) /\ r * r = a.
    Proof.
      intros Hy Ha. destruct (ts_sqrt_half a) as (r & Hr & E).
      - rewrite <- Hy, <- (fpow_2 F R), <- (fpow_mul F R), h_half. apply (FF_fermat F p n FF).
        intros ->. apply Ha. rewrite <- Hy. ring.
      - exists r. split; [|exact E]. intros fuel Hf. apply (ts_sqrt_mono s fuel a r Hf Hr).
    Qed.
    Lemma is_square_ok half : (2 * half = p ^ n - 1)%N -> forall x : F,
      is_square_m F pow half x = true <-> exists y, y * y = x.
    Proof.
      intros Hh x. assert (E : half = h) by (assert (H := h_half); lia). subst half.
      assert (Hpos : h <> 0%N) by (assert (H := FF_Q_ge_2 F p n FF); assert (H' := h_half); lia).
      unfold is_square_m. rewrite Hpow, orb_true_iff.
      destruct (feqb_spec F R x 0) as [->|Hx].
      - rewrite (fpow_zero F R h Hpos). split; [intros _; exists 0; ring|].
        intros _. right. apply (feqb_refl F R).
      - split.
        + intros [H|H]; apply (feqb_true F R) in H.
          * destruct (ts_sqrt_half x H) as (y & _ & Hy). exists y. exact Hy.
          * exfalso. exact (fpow_neq_0 F KL x h Hx H).
        + intros [y Hy]. left. rewrite <- Hy, <- (fpow_2 F R), <- (fpow_mul F R), h_half.
          rewrite (FF_fermat F p n FF); [apply (feqb_refl F R)|].
          intros ->. apply Hx. rewrite <- Hy. ring.
    Qed.
  End Run.
End Fin.

(** ** Existence of a non-residue in Z/p: a polynomial has at most as many roots
    as its degree *)
Section Roots.
  Variable F : FieldOps.
  Hypothesis KL : FieldLaws F.
  Let R := FieldLaws_Ring F KL.
  Add Field Ff3 : (FL_th F KL).
  Definition peval (l : list F) (x : F) : F := fold_right (fun a acc => a + x * acc) 0 l.
  Fixpoint pquot (r : F) (l : list F) : list F :=
    match l with
    | [] => []
    | _ :: l' => match l' with [] => [] | _ => peval l' r :: pquot r l' end
    end.
  Lemma pquot_spec r x l : peval l x - peval l r = (x - r) * peval (pquot r l) x.
  Proof.
    induction l as [|a [|b l] IH]; [cbn; ring|cbn; ring|].
    change (pquot r (a :: b :: l)) with (peval (b :: l) r :: pquot r (b :: l)).
    set (P := b :: l) in *.
    change (peval (a :: P) x) with (a + x * peval P x). change (peval (a :: P) r) with (a + r * peval P r).
    change (peval (peval P r :: pquot r P) x) with (peval P r + x * peval (pquot r P) x).
    transitivity (x * (peval P x - peval P r) + (x - r) * peval P r); [ring|]. rewrite IH. ring.
  Qed.
  Lemma pquot_length r l : length (pquot r l) = (length l - 1)%nat.
  Proof.
    induction l as [|a [|b l] IH]; [reflexivity..|].
    change (pquot r (a :: b :: l)) with (peval (b :: l) r :: pquot r (b :: l)). cbn [length] in *. lia.
  Qed.
  Lemma pquot_last r l : (2 <= length l)%nat -> last (pquot r l) 0 = last l 0.
  Proof.
    induction l as [|a [|b l] IH]; [cbn; lia..|]. intros _.
    change (pquot r (a :: b :: l)) with (peval (b :: l) r :: pquot r (b :: l)).
    destruct l as [|c l]; [cbn; ring|].
    change (last (a :: b :: c :: l) 0) with (last (b :: c :: l) 0).
    rewrite <- IH by (cbn; lia).
    change (pquot r (b :: c :: l)) with (peval (c :: l) r :: pquot r (c :: l)). reflexivity.
  Qed.
  Lemma roots_bound m : forall l rs, length l = S m -> last l 0 <> 0 -> NoDup rs ->
    (forall x, In x rs -> peval l x = 0) -> (length rs <= m)%nat.
  Proof.
    induction m as [|m IH]; intros l rs Hl Hlast Hnd Hr.
    - destruct l as [|a [|b l]]; try discriminate. destruct rs as [|x rs]; [cbn; lia|].
      exfalso. apply Hlast. cbn. rewrite <- (Hr x (or_introl eq_refl)). cbn. ring.
    - destruct rs as [|r rs]; [cbn; lia|]. cbn. apply le_n_S.
      inversion Hnd as [|? ? Hni Hnd']; subst.
      apply (IH (pquot r l)); [rewrite pquot_length; lia|rewrite pquot_last by lia; exact Hlast|exact Hnd'|].
      intros x Hx. assert (E := pquot_spec r x l).
      rewrite (Hr x (or_intror Hx)), (Hr r (or_introl eq_refl)) in E.
      assert (E' : (x - r) * peval (pquot r l) x = 0) by (rewrite <- E; ring).
      apply (fmul_integral F KL) in E'. destruct E' as [E'|E']; [|exact E'].
      exfalso. apply Hni. rewrite <- (fsub_0_eq F R x r E'). exact Hx.
  Qed.
  Lemma peval_repeat k (l : list F) x : peval (repeat 0 k ++ l) x = fpow x (N.of_nat k) * peval l x.
  Proof.
    induction k as [|k IH].
    - change (fpow x (N.of_nat 0)) with (1 : F). change (repeat 0 0 ++ l) with l. ring.
    - rewrite Nat2N.inj_succ, (fpow_succ F).
      change (peval (repeat 0 (S k) ++ l) x) with (0 + x * peval (repeat 0 k ++ l) x). rewrite IH. ring.
  Qed.
  (** at most h elements satisfy x^h = 1 *)
  Lemma power_roots (h : nat) (rs : list F) : (1 <= h)%nat -> NoDup rs ->
    (forall x, In x rs -> fpow x (N.of_nat h) = 1) -> (length rs <= h)%nat.
  Proof.
    intros Hh Hnd Hr. destruct h as [|h]; [lia|].
    apply (roots_bound (S h) ((- (1)) :: repeat 0 h ++ [1]) rs).
    - cbn. rewrite app_length, repeat_length. cbn. lia.
    - change (last (((- (1)) :: repeat 0 h) ++ [1]) 0 <> (0 : F)). rewrite last_last. apply (f1_neq_0 F KL).
    - exact Hnd.
    - intros x Hx. specialize (Hr x Hx). rewrite Nat2N.inj_succ, (fpow_succ F) in Hr.
      change (- (1) + x * peval (repeat 0 h ++ [1]) x = 0). rewrite peval_repeat.
      transitivity (- (1) + x * fpow x (N.of_nat h)); [cbn; ring|]. rewrite Hr. ring.
  Qed.
End Roots.

Lemma NoDup_map_in {A B : Type} (f : A -> B) (l : list A) :
  (forall a b, In a l -> In b l -> f a = f b -> a = b) -> NoDup l -> NoDup (map f l).
Proof.
  intros Hi H. induction H as [|a l Ha Hl IH]; cbn; constructor.
  - intros Hin. apply in_map_iff in Hin. destruct Hin as (b & E & Hb). apply Ha.
    rewrite (Hi a b); [exact Hb|left; reflexivity|right; exact Hb|symmetry; exact E].
  - apply IH. intros x y Hx Hy. apply Hi; right; assumption.
Qed.

Section PrimeField.
  Variable p : Z.
  Hypothesis Hp : prime p.
  Hypothesis p2 : (2 < p)%Z.
  Lemma zp_nonresidue (h : N) : (2 * h = Z.to_N p - 1)%N -> exists c : Zp p, c <> 0 /\ fpow c h <> 1.
  Proof.
    intros Hh. assert (KL := Zp_field p ltac:(lia) Hp). assert (R := FieldLaws_Ring _ KL).
    set (rs := map (fun k => tozp p (Z.of_nat k)) (seq 1 (Z.to_nat (p - 1)))).
    assert (Hnz : forall x, In x rs -> x <> (0 : Zp p)).
    { intros x Hx E. apply in_map_iff in Hx. destruct Hx as (k & <- & Hk). apply in_seq in Hk.
      apply (f_equal (@zval p)) in E. change (Z.of_nat k mod p = 0 mod p)%Z in E.
      rewrite (Z.mod_small (Z.of_nat k)), (Z.mod_small 0) in E by lia. lia. }
    assert (Hnd : NoDup rs).
    { apply NoDup_map_in; [|apply seq_NoDup].
      intros a b Ha Hb E. apply in_seq in Ha. apply in_seq in Hb.
      apply (f_equal (@zval p)) in E. change (Z.of_nat a mod p = Z.of_nat b mod p)%Z in E.
      rewrite !Z.mod_small in E by lia. lia. }
    destruct (Forall_dec (fun x => fpow x h = (1 : Zp p)) (fun x => feq_dec (Zp p) R _ _) rs) as [H|H].
    - exfalso. rewrite Forall_forall in H.
      assert (Hlen := power_roots (Zp p) KL (N.to_nat h) rs ltac:(lia) Hnd).
      rewrite N2Nat.id in Hlen. specialize (Hlen H).
      unfold rs in Hlen. rewrite map_length, seq_length in Hlen. lia.
    - apply neg_Forall_Exists_neg in H; [|intros x; apply (feq_dec (Zp p) R)].
      apply Exists_exists in H. destruct H as (c & Hc & H). exists c. split; [apply Hnz, Hc|exact H].
  Qed.
  Lemma two_adic (m : N) : m <> 0%N -> exists k u, m = (2 ^ N.of_nat k * (2 * u + 1))%N.
  Proof.
    induction m as [m IH] using (well_founded_induction N.lt_wf_0). intros Hm.
    destruct (N.Even_or_Odd m) as [[x Hx]|[x Hx]].
    - destruct (IH x ltac:(lia) ltac:(lia)) as (k & u & E). exists (S k), u.
      rewrite Nat2N.inj_succ, N.pow_succ_r'. lia.
    - exists O, x. cbn [N.of_nat]. rewrite N.pow_0_r. lia.
  Qed.
  Lemma zp_is_square_ok pow (half : N) : (forall x e, pow x e = fpow (K := Zp p) x e) ->
    (2 * half = Z.to_N p - 1)%N ->
    forall x : Zp p, is_square_m (Zp p) pow half x = true <-> exists y, y * y = x.
  Proof.
    intros Hpow Hh. assert (FF := Zp_FinField p Hp). assert (R := FieldLaws_Ring _ (FF_field _ _ _ FF)).
    destruct (zp_nonresidue half Hh) as (c & Hc & Hc1).
    destruct (two_adic half ltac:(lia)) as (k & u & E).
    assert (Hm := half_power_m1 (Zp p) _ _ FF c half Hc).
    rewrite N.pow_1_r in Hm. specialize (Hm Hh Hc1).
    apply (is_square_ok (Zp p) (Z.to_N p) 1 FF ltac:(lia) (S k) u (fpow c (2 * u + 1)) ltac:(lia))
      with (sqr := fun x => x * x).
    - rewrite N.pow_1_r, Nat2N.inj_succ, N.pow_succ_r'. lia.
    - replace (S k - 1)%nat with k by lia.
      rewrite (isq_fpow _ R), <- (fpow_mul _ R), <- Hm. f_equal. lia.
    - reflexivity.
    - exact Hpow.
    - rewrite N.pow_1_r. exact Hh.
  Qed.
End PrimeField.
