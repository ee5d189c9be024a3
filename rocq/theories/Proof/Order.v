(** Orders of elements from a factorisation of the exponent. *)
From Coq Require Import ZArith NArith List Bool Lia Ring Znumtheory Zpow_facts.
From Bignums Require Import BigN.
From Verif Require Import Base.Field Base.Zp Base.Hom Base.BigZp Spec.Order
  Model.Power Proof.Power Proof.Homs Proof.FpHelpers Proof.Frob Proof.Pocklington.
Import ListNotations.
Local Open Scope fld_scope.

Lemma Zdivide_to_N a b : (0 <= a)%Z -> (0 <= b)%Z -> (a | b)%Z -> N.divide (Z.to_N a) (Z.to_N b).
Proof.
  intros Ha Hb [k E].
  destruct (Z.eq_dec b 0) as [->|Hb0]; [exists 0%N; reflexivity|].
  assert (0 <= k)%Z by nia. exists (Z.to_N k). rewrite <- Z2N.inj_mul by lia. congruence.
Qed.
Lemma Ndivide_to_Z a b : N.divide a b -> (Z.of_N a | Z.of_N b)%Z.
Proof. intros [k ->]. exists (Z.of_N k). lia. Qed.
Lemma Ndivide_of_Z a b : (Z.of_N a | Z.of_N b)%Z -> N.divide a b.
Proof. intros H. rewrite <- (N2Z.id a), <- (N2Z.id b). apply Zdivide_to_N; [lia|lia|exact H]. Qed.

Section Order.
  Variable K : FieldOps.
  Hypothesis R : RingLaws K.

  Lemma rpow_divide (x : K) a b : fpow x a = 1 -> N.divide a b -> fpow x b = 1.
  Proof. intros Ha [k ->]. rewrite N.mul_comm, (fpow_mul K R), Ha. apply (fpow_one K R). Qed.
  Lemma rpow_gcd (x : K) a b : fpow x a = 1 -> fpow x b = 1 -> fpow x (N.gcd a b) = 1.
  Proof.
    intros Ha Hb.
    destruct (N.eq_dec a 0) as [->|Ha0]; [rewrite N.gcd_0_l; exact Hb|].
    destruct (N.gcd_bezout_pos a b ltac:(lia)) as (u & v & E).
    assert (E1 : fpow x (u * a) = 1) by (apply (rpow_divide x a); [exact Ha|exists u; reflexivity]).
    assert (E2 : fpow x (v * b) = 1) by (apply (rpow_divide x b); [exact Hb|exists v; reflexivity]).
    rewrite E, (fpow_add K R), E2 in E1.
    rewrite (Rmul_comm (RL_th K R)), (Rmul_1_l (RL_th K R)) in E1. exact E1.
  Qed.

  (** the exponents killing x are multiples of every prime q of M with x^(M/q) <> 1 *)
  Lemma prime_divides_order (x : K) (M q n : N) : prime (Z.of_N q) -> fpow x M = 1 -> N.divide q M ->
    fpow x (M / q) <> 1 -> fpow x n = 1 -> N.divide q n.
  Proof.
    intros Hq HM [m Em] Hne Hn. assert (Hq2 := prime_ge_2 _ Hq).
    assert (Hq0 : q <> 0%N) by lia.
    rewrite Em, N.div_mul in Hne by exact Hq0.
    destruct (Zdivide_dec (Z.of_N q) (Z.of_N n)) as [H|H]; [apply Ndivide_of_Z, H|].
    exfalso. apply Hne. assert (Hg := rpow_gcd x M n HM Hn).
    apply (rpow_divide x _ m Hg).
    assert (Hd : N.divide (N.gcd M n) (q * m)) by (rewrite N.mul_comm, <- Em; apply N.gcd_divide_l).
    apply N.gauss with (m := q); [exact Hd|].
    (* gcd (gcd M n) q = 1 *)
    assert (Hr : rel_prime (Z.of_N q) (Z.of_N n)) by (apply prime_rel_prime; assumption).
    set (g := N.gcd (N.gcd M n) q).
    assert (G1 : N.divide g n) by (eapply N.divide_trans; [apply N.gcd_divide_l|apply N.gcd_divide_r]).
    assert (G2 : N.divide g q) by apply N.gcd_divide_r.
    assert (G : (Z.of_N g | 1)%Z) by (apply Hr; apply Ndivide_to_Z; assumption).
    apply Z.divide_1_r_nonneg in G; lia.
  Qed.

  Lemma order_of_primes (x : K) (M : N) : (0 < M)%N -> fpow x M = 1 ->
    (forall q, prime (Z.of_N q) -> N.divide q M -> fpow x (M / q) <> 1) -> has_order x M.
  Proof.
    intros HM0 HM Hq n. split.
    - intros Hn. assert (Hg := rpow_gcd x M n HM Hn).
      destruct (N.gcd_divide_l M n) as [k Ek]. set (g := N.gcd M n) in *.
      destruct (N.eq_dec k 1) as [->|Hk1].
      { rewrite N.mul_1_l in Ek. rewrite Ek. apply N.gcd_divide_r. }
      exfalso. assert (Hk : (1 < Z.of_N k)%Z) by nia.
      destruct (has_prime_divisor (Z.of_N k) Hk) as (q & Hqp & Hqk).
      assert (Hq2 := prime_ge_2 _ Hqp).
      assert (Ez : q = Z.of_N (Z.to_N q)) by lia. set (q' := Z.to_N q) in *. clearbody q'. subst q.
      apply Ndivide_of_Z in Hqk. destruct Hqk as [c Ec].
      apply (Hq q'); [exact Hqp|exists (c * g)%N; rewrite Ek, Ec; lia|].
      replace (M / q')%N with (c * g)%N.
      + apply (rpow_divide x g); [exact Hg|exists c; reflexivity].
      + rewrite Ek, Ec. replace (c * q' * g)%N with (c * g * q')%N by lia. symmetry. apply N.div_mul. lia.
    - intros Hd. exact (rpow_divide x M n HM Hd).
  Qed.

  Lemma order_period (x : K) M : (0 < M)%N -> has_order x M -> powers_period x M.
  Proof.
    intros HM Ho.
    assert (Hx : fpow x M = 1) by (apply Ho; exists 1%N; lia).
    assert (Hred : forall i, fpow x i = fpow x (i mod M)).
    { intros i. rewrite (N.div_mod i M) at 1 by lia. rewrite (fpow_add K R), (fpow_mul K R), Hx, (fpow_one K R).
      apply (Rmul_1_l (RL_th K R)). }
    assert (W : forall i j, (i <= j)%N -> fpow x i = fpow x j -> N.divide M (j - i)).
    { intros i j Hij E. apply Ho.
      assert (Hd : N.divide M (M * i)) by (exists i; lia).
      apply Ho in Hd.
      assert (E2 : fpow x (M * i - i) * fpow x i = 1).
      { rewrite <- (fpow_add K R), N.sub_add by nia. exact Hd. }
      assert (E3 : fpow x (M * i - i) * fpow x j = 1) by (rewrite <- E; exact E2).
      replace j with (i + (j - i))%N in E3 by lia.
      rewrite (fpow_add K R), (Rmul_assoc (RL_th K R)), E2, (Rmul_1_l (RL_th K R)) in E3. exact E3. }
    intros i j. split.
    - intros E. destruct (N.le_ge_cases i j) as [H|H].
      + destruct (W i j H E) as [k Ek]. replace j with (i + k * M)%N by lia. symmetry. apply N.mod_add. lia.
      + destruct (W j i H (eq_sym E)) as [k Ek]. replace i with (j + k * M)%N by lia. apply N.mod_add. lia.
    - intros E. rewrite (Hred i), (Hred j), E. reflexivity.
  Qed.
End Order.

(** ** Factored exponents *)
Fixpoint fval (fs : list (Z * Z)) : Z :=
  match fs with nil => 1 | (q, e) :: r => q ^ e * fval r end.
Lemma fval_primes fs q : Forall (fun '(l, _) => prime l) fs -> forallb (fun '(_, e) => (0 <? e)%Z) fs = true ->
  prime q -> (q | fval fs)%Z -> In q (map fst fs).
Proof.
  intros Hp He Hq. induction fs as [|[l e] r IH]; cbn; intros Hd.
  - exfalso. assert (H2 := prime_ge_2 _ Hq). apply Z.divide_1_r_nonneg in Hd; lia.
  - inversion Hp as [|? ? Hl Hr]; subst. cbn in He. apply andb_true_iff in He. destruct He as [He1 He2].
    apply Z.ltb_lt in He1.
    apply prime_mult in Hd; [|exact Hq]. destruct Hd as [Hd|Hd]; [left|right; apply IH; assumption].
    symmetry. apply (prime_power_prime q l e ltac:(lia) Hq Hl Hd).
Qed.

(** ** Evaluation on BigN *)
Definition pow_is1 (p g e : Z) : bool :=
  let F := BigZp (bigz p) in @feqb F (fpower (K := F) (bigz g) (Z.to_N e)) f1.
Lemma pow_is1_spec p g e : (1 < p)%Z -> (0 <= g)%Z ->
  pow_is1 p g e = true <-> fpow (tozp p g : Zp p) (Z.to_N e) = 1.
Proof.
  intros Hp Hg. assert (H := BigZp_hom p (bigz p) Hp (bigz_spec p ltac:(lia))).
  unfold pow_is1. rewrite <- (hom_eqb _ _ _ H), (hom_fpower _ H), (hom_1 _ _ _ H), of_big_bigz by exact Hg.
  rewrite (fpower_fpow _ _ _ (Zp_ring p)). apply (RL_eqb _ (Zp_ring p)).
Qed.

(** g has order fval fs modulo p *)
Definition order_check (p g : Z) (fs : list (Z * Z)) : bool :=
  (1 <? p)%Z && (0 <=? g)%Z && (0 <? fval fs)%Z && forallb (fun '(_, e) => (0 <? e)%Z) fs &&
  pow_is1 p g (fval fs) && forallb (fun '(q, _) => negb (pow_is1 p g (fval fs / q))) fs.
Lemma order_check_sound p g fs : order_check p g fs = true -> Forall (fun '(l, _) => prime l) fs ->
  has_order (tozp p g : Zp p) (Z.to_N (fval fs)).
Proof.
  unfold order_check. rewrite !andb_true_iff, !Z.ltb_lt, Z.leb_le.
  intros (((((Hp & Hg) & Hf) & He) & H1) & Hq) HP.
  apply (order_of_primes _ (Zp_ring p)); [lia|apply pow_is1_spec; assumption|].
  intros q Hqp Hqd. apply Ndivide_to_Z in Hqd. rewrite Z2N.id in Hqd by lia.
  assert (Hi := fval_primes fs _ HP He Hqp Hqd).
  apply in_map_iff in Hi. destruct Hi as ([q' e] & E & Hin). cbn in E. subst q'.
  rewrite forallb_forall in Hq. specialize (Hq _ Hin). cbn in Hq. apply negb_true_iff in Hq.
  intros E. apply not_true_iff_false in Hq. apply Hq. apply pow_is1_spec; [assumption|assumption|].
  rewrite Z2N.inj_div by lia. rewrite N2Z.id. exact E.
Qed.

(** g^n = 1 modulo p only if n is a multiple of the primes qs, all distinct *)
Definition large_order_check (p g : Z) (qs : list Z) : bool :=
  (1 <? p)%Z && (0 <=? g)%Z && pow_is1 p g (p - 1) &&
  forallb (fun q => ((p - 1) mod q =? 0)%Z && negb (pow_is1 p g ((p - 1) / q))) qs.
Lemma primes_product_divides qs n : Forall prime qs -> NoDup qs -> (forall q, In q qs -> (q | n)%Z) ->
  (fold_right Z.mul 1 qs | n)%Z.
Proof.
  induction qs as [|q r IH]; cbn; intros Hp Hn Hd; [apply Z.divide_1_l|].
  inversion Hp as [|? ? Hq Hr]; subst. inversion Hn as [|? ? Hni Hnr]; subst.
  assert (Hpr : rel_prime q (fold_right Z.mul 1%Z r)).
  { apply prime_rel_prime; [exact Hq|]. clear - Hq Hr Hni. intros Hd. apply Hni. clear Hni.
    induction r as [|x r IH]; cbn in Hd.
    - exfalso. assert (H2 := prime_ge_2 _ Hq). apply Z.divide_1_r_nonneg in Hd; lia.
    - inversion Hr as [|? ? Hx Hr']; subst. apply prime_mult in Hd; [|exact Hq]. destruct Hd as [Hd|Hd].
      + left. symmetry. apply prime_div_prime; assumption.
      + right. apply IH; assumption. }
  assert (H1 := Hd q (or_introl eq_refl)). assert (H2 := IH Hr Hnr (fun x Hx => Hd x (or_intror Hx))).
  destruct H1 as [k Ek]. rewrite Ek, (Z.mul_comm k) in *. apply Z.mul_divide_mono_l.
  apply (Gauss _ q); [exact H2|apply rel_prime_sym, Hpr].
Qed.
Lemma large_order_sound p g qs n : large_order_check p g qs = true -> Forall prime qs -> NoDup qs ->
  fpow (tozp p g : Zp p) n = 1 -> (fold_right Z.mul 1 qs | Z.of_N n)%Z.
Proof.
  unfold large_order_check. rewrite !andb_true_iff, !Z.ltb_lt, Z.leb_le.
  intros (((Hp & Hg) & H1) & Hq) HP HN Hn. apply primes_product_divides; [exact HP|exact HN|].
  intros q Hin. rewrite forallb_forall in Hq. specialize (Hq _ Hin).
  apply andb_true_iff in Hq. destruct Hq as [Hm Hne]. apply Z.eqb_eq in Hm. apply negb_true_iff in Hne.
  rewrite Forall_forall in HP. assert (Hqp := HP _ Hin). assert (Hq2 := prime_ge_2 _ Hqp).
  rewrite <- (Z2N.id q) by lia. apply Ndivide_to_Z.
  apply (prime_divides_order _ (Zp_ring p) (tozp p g) (Z.to_N (p - 1))).
  - rewrite Z2N.id by lia. exact Hqp.
  - apply pow_is1_spec; assumption.
  - apply Zdivide_to_N; [lia|lia|]. apply Z.mod_divide; [lia|exact Hm].
  - rewrite <- Z2N.inj_div by lia. intros E. apply not_true_iff_false in Hne. apply Hne.
    apply pow_is1_spec; assumption.
  - exact Hn.
Qed.

(** ** An element of order p - 1 generates *)
Lemma order_generates p (g : Zp p) : prime p -> has_order g (Z.to_N (p - 1)) -> generates g.
Proof.
  intros Hp Ho y Hy. assert (Hp2 := prime_ge_2 _ Hp).
  assert (F := Zp_field p ltac:(lia) Hp). assert (R := Zp_ring p).
  assert (HN0 : (0 < Z.to_N (p - 1))%N) by lia. assert (Hper := order_period _ R g _ HN0 Ho).
  assert (Hg1 : fpow g (Z.to_N (p - 1)) = 1) by (apply Ho; exists 1%N; lia).
  assert (Hg0 : g <> 0).
  { intros ->. rewrite (fpow_zero _ R) in Hg1 by lia. exact (f1_neq_0 _ F (eq_sym Hg1)). }
  set (m := Z.to_nat (p - 1)).
  set (pows := map (fun i => fpow g (N.of_nat i)) (seq 0 m)).
  set (all := map (fun i => tozp p (Z.of_nat i) : Zp p) (seq 1 m)).
  assert (Hin : incl all pows).
  { apply NoDup_length_incl.
    - unfold pows. apply NoDup_nth with (d := 0). intros i j Hi Hj. rewrite map_length, seq_length in Hi, Hj.
      set (f := fun i => fpow g (N.of_nat i)).
      rewrite !(nth_indep _ 0 (f O)) by (rewrite map_length, seq_length; assumption).
      rewrite !map_nth, !seq_nth by assumption. unfold f. cbn [Nat.add]. intros E. apply Hper in E.
      rewrite !N.mod_small in E by lia. lia.
    - unfold all, pows. rewrite !map_length, !seq_length. lia.
    - intros x Hx. unfold pows in Hx. apply in_map_iff in Hx. destruct Hx as (i & <- & _).
      set (x := fpow g (N.of_nat i)). assert (Hx0 : x <> 0) by (apply (fpow_neq_0 _ F), Hg0).
      unfold all. apply in_map_iff. exists (Z.to_nat (zval x)).
      assert (Hr := zval_range p ltac:(lia) x).
      assert (Hz : zval x <> 0%Z). { intros E. apply Hx0. apply zp_ext. rewrite E. reflexivity. }
      split; [rewrite Z2Nat.id by lia; apply tozp_zval|apply in_seq; lia]. }
  assert (Hya : In y all).
  { unfold all. apply in_map_iff. exists (Z.to_nat (zval y)).
    assert (Hr := zval_range p ltac:(lia) y).
    assert (Hz : zval y <> 0%Z). { intros E. apply Hy. apply zp_ext. rewrite E. reflexivity. }
    split; [rewrite Z2Nat.id by lia; apply tozp_zval|apply in_seq; lia]. }
  apply Hin in Hya. unfold pows in Hya. apply in_map_iff in Hya. destruct Hya as (i & E & _).
  exists (N.of_nat i). exact E.
Qed.
