(** Pocklington / Brillhart-Lehmer-Selfridge primality certificates. *)
From Coq Require Import ZArith NArith List Bool Lia Znumtheory Zpow_facts.
From Bignums Require Import BigN.
From Verif Require Import Base.Field Base.Zp Base.Hom Base.BigZp Model.Power
  Proof.Power Proof.Homs Proof.Frob Proof.FpHelpers.
Import ListNotations.
Local Open Scope Z_scope.

(** ** Elementary facts *)
Lemma of_N_gcd a b : Z.of_N (N.gcd a b) = Z.gcd (Z.of_N a) (Z.of_N b).
Proof. destruct a, b; reflexivity. Qed.
Lemma rel_prime_pow_r i p q : 0 <= i -> rel_prime p q -> rel_prime p (q ^ i).
Proof.
  intros Hi Hr. pattern i. apply natlike_ind; [apply rel_prime_sym, rel_prime_1| |exact Hi].
  intros x Hx IH. rewrite Z.pow_succ_r by exact Hx. apply rel_prime_mult; assumption.
Qed.
Lemma rel_prime_pow_l i p q : 0 <= i -> rel_prime p q -> rel_prime (p ^ i) q.
Proof. intros Hi Hr. apply rel_prime_sym, rel_prime_pow_r; [exact Hi|]. apply rel_prime_sym, Hr. Qed.

Lemma has_prime_divisor n : 1 < n -> exists q, prime q /\ (q | n).
Proof.
  intros Hn. assert (H0 : 0 <= n) by lia. revert Hn. pattern n. apply Z_lt_induction; [|exact H0].
  clear n H0. intros n IH Hn.
  destruct (prime_dec n) as [Hp|Hp]; [exists n; split; [exact Hp|apply Z.divide_refl]|].
  destruct (not_prime_divide n Hn Hp) as (d & Hd & Hdn).
  destruct (IH d) as (q & Hq & Hqd); [lia|lia|]. exists q. split; [exact Hq|].
  eapply Z.divide_trans; eassumption.
Qed.

Lemma prime_pow_gcd l e m : prime l -> (0 < e) -> ~ (l ^ e | m) -> (Z.gcd (l ^ e) m | l ^ (e - 1)).
Proof.
  intros Hl He Hnd. assert (Hl2 := prime_ge_2 l Hl).
  assert (Hpos : 0 < l ^ e) by (apply Z.pow_pos_nonneg; lia).
  set (g := Z.gcd (l ^ e) m).
  assert (Hg : (g | l ^ e)) by apply Z.gcd_divide_l.
  assert (Hgm : (g | m)) by apply Z.gcd_divide_r.
  assert (Hg0 : 0 <= g) by apply Z.gcd_nonneg.
  destruct Hg as [h Hh].
  assert (Hg1 : 0 < g) by (destruct (Z.eq_dec g 0) as [E|E]; [rewrite E in Hh; lia|lia]).
  assert (Hh0 : 0 < h) by nia.
  destruct (Zdivide_dec l h) as [[k Hk]|Hlh].
  - exists k. apply (Z.mul_reg_l _ _ l); [lia|].
    replace (l * l ^ (e - 1)) with (l ^ e).
    + rewrite Hh, Hk. ring.
    + replace e with (Z.succ (e - 1)) at 1 by lia. apply Z.pow_succ_r. lia.
  - exfalso. assert (Hr : rel_prime l h) by (apply prime_rel_prime; assumption).
    assert (Hr2 : rel_prime h (l ^ e)).
    { apply rel_prime_sym. apply rel_prime_pow_l; [lia|exact Hr]. }
    assert (h = 1).
    { assert (Hd : (h | 1)). { apply Hr2; [apply Z.divide_refl|]. exists g. lia. }
      apply Z.divide_1_r_nonneg in Hd; lia. }
    subst h. rewrite Z.mul_1_l in Hh. apply Hnd. rewrite Hh. exact Hgm.
Qed.

Section FieldOrder.
  Variable K : FieldOps.
  Hypothesis F : FieldLaws K.
  Let R := FieldLaws_Ring K F.

  (** Exponents annihilating x are closed under gcd. *)
  Lemma fpow_gcd (x : K) (a b : N) : fpow x a = f1 -> fpow x b = f1 -> fpow x (N.gcd a b) = f1.
  Proof.
    intros Ha Hb.
    destruct (N.eq_dec a 0) as [->|Ha0]; [rewrite N.gcd_0_l; exact Hb|].
    destruct (N.gcd_bezout_pos a b ltac:(lia)) as (u & v & E).
    assert (E1 : fpow x (u * a) = f1).
    { rewrite N.mul_comm, (fpow_mul K R), Ha. apply (fpow_one K R). }
    assert (E2 : fpow x (v * b) = f1).
    { rewrite N.mul_comm, (fpow_mul K R), Hb. apply (fpow_one K R). }
    rewrite E, (fpow_add K R), E2 in E1.
    rewrite (Rmul_comm (RL_th K R)), (Rmul_1_l (RL_th K R)) in E1. exact E1.
  Qed.

  Lemma fpow_divide (x : K) (a b : N) : fpow x a = f1 -> N.divide a b -> fpow x b = f1.
  Proof. intros Ha [k ->]. rewrite N.mul_comm, (fpow_mul K R), Ha. apply (fpow_one K R). Qed.
End FieldOrder.

(** ** One prime power of N - 1 *)
Lemma pock_step (q n a l e : Z) :
  prime q -> (q | n) -> 1 < n -> prime l -> 0 < e -> (l ^ e | n - 1) ->
  (a ^ (n - 1)) mod n = 1 -> Z.gcd (a ^ ((n - 1) / l) - 1) n = 1 ->
  (l ^ e | q - 1).
Proof.
  intros Hq Hqn Hn Hl He Hle Ha Hg.
  assert (Hq2 := prime_ge_2 q Hq). assert (Hl2 := prime_ge_2 l Hl).
  assert (F := Zp_field q ltac:(lia) Hq). assert (R := Zp_ring q).
  set (x := tozp q a : Zp q).
  assert (Hmodq : forall z, z mod n = 1 -> z mod q = 1).
  { intros z Hz. assert (E : z = n * (z / n) + 1) by (rewrite <- Hz; apply Z.div_mod; lia).
    destruct Hqn as [k Hk]. rewrite E, Hk.
    replace (k * q * (z / (k*q)) + 1) with (1 + k * (z / (k*q)) * q) by ring.
    rewrite Z.mod_add by lia. apply Z.mod_1_l. lia. }
  assert (Hxp : forall k, 0 <= k -> zval (fpow x (Z.to_N k)) = (a ^ k) mod q).
  { intros k Hk. rewrite Zp_fpow_val by lia. unfold x. rewrite zval_tozp, Z2N.id by lia.
    symmetry. apply Zpower_mod. lia. }
  assert (Hx1 : fpow x (Z.to_N (n - 1)) = f1).
  { apply zp_ext. rewrite Hxp by lia. rewrite (Hmodq _ Ha). zcbn. symmetry. apply Z.mod_1_l. lia. }
  assert (Hx2 : fpow x (Z.to_N ((n - 1) / l)) <> f1).
  { intros E. apply (f_equal zval) in E. rewrite Hxp in E by (apply Z.div_pos; lia).
    revert E. zcbn. rewrite Z.mod_1_l by lia. intros E.
    assert (Hd : (q | a ^ ((n - 1) / l) - 1)).
    { apply Z.mod_divide; [lia|]. rewrite Zminus_mod, E, Z.mod_1_l by lia. reflexivity. }
    assert (Hd2 : (q | 1)) by (rewrite <- Hg; apply Z.gcd_greatest; assumption).
    apply Z.divide_1_r_nonneg in Hd2; lia. }
  (* x <> 0 *)
  assert (Hx0 : x <> f0).
  { intros E. rewrite E in Hx1. rewrite (fpow_zero _ R) in Hx1 by lia.
    exact (f1_neq_0 _ F (eq_sym Hx1)). }
  assert (Hf := Zp_fermat1 q x Hq Hx0).
  destruct Hle as [c Hc].
  assert (Hpos : 0 < l ^ e) by (apply Z.pow_pos_nonneg; lia).
  assert (Hc0 : 0 < c) by nia.
  assert (Hpe : l ^ e = l * l ^ (e - 1)).
  { replace e with (Z.succ (e - 1)) at 1 by lia. apply Z.pow_succ_r. lia. }
  assert (Hpos1 : 0 < l ^ (e - 1)) by (apply Z.pow_pos_nonneg; lia).
  destruct (Zdivide_dec (l ^ e) (q - 1)) as [Hd|Hd]; [exact Hd|exfalso].
  assert (Hgd := prime_pow_gcd l e (q - 1) Hl He Hd).
  set (b := fpow x (Z.to_N c)).
  assert (Hb1 : fpow b (Z.to_N (l ^ e)) = f1).
  { unfold b. rewrite <- (fpow_mul _ R). rewrite <- Z2N.inj_mul by lia. rewrite <- Hc. exact Hx1. }
  assert (Hb2 : fpow b (Z.to_N (q - 1)) = f1).
  { unfold b. rewrite <- (fpow_mul _ R), N.mul_comm, (fpow_mul _ R), Hf. apply (fpow_one _ R). }
  apply Hx2.
  assert (Ediv : (n - 1) / l = c * l ^ (e - 1)).
  { rewrite Hc, Hpe. replace (c * (l * l ^ (e - 1))) with (c * l ^ (e - 1) * l) by ring.
    apply Z.div_mul. lia. }
  rewrite Ediv, Z2N.inj_mul, (fpow_mul _ R) by lia. fold b.
  apply (fpow_divide _ F b (N.gcd (Z.to_N (l ^ e)) (Z.to_N (q - 1)))).
  - apply (fpow_gcd _ F); assumption.
  - destruct Hgd as [k Hk]. assert (Hg0 := Z.gcd_nonneg (l ^ e) (q - 1)).
    exists (Z.to_N k). apply N2Z.inj. rewrite N2Z.inj_mul, of_N_gcd, !Z2N.id by nia. exact Hk.
Qed.

(** ** Certificates *)
(** (l, e, a): prime l, exponent e, witness a. *)
Definition fac_val (fs : list (Z * Z * Z)) : Z :=
  fold_right (fun '(l, e, _) acc => l ^ e * acc) 1 fs.

Definition fac_ok (n : Z) (t : Z * Z * Z) : Prop :=
  let '(l, e, a) := t in
  prime l /\ 0 < e /\ (a ^ (n - 1)) mod n = 1 /\ Z.gcd (a ^ ((n - 1) / l) - 1) n = 1.

Fixpoint increasing (lo : Z) (fs : list (Z * Z * Z)) : bool :=
  match fs with [] => true | (l, _, _) :: fs' => (lo <? l) && increasing l fs' end.

Lemma primes_neq_rel l l' : prime l -> prime l' -> l <> l' -> rel_prime l l'.
Proof.
  intros Hl Hl' Hne. apply prime_rel_prime; [exact Hl|]. intros Hd.
  apply prime_div_prime in Hd; auto.
Qed.

Lemma increasing_rel l fs n : prime l -> Forall (fac_ok n) fs -> increasing l fs = true ->
  rel_prime l (fac_val fs).
Proof.
  intros Hl. assert (H : forall lo, l <= lo -> Forall (fac_ok n) fs -> increasing lo fs = true -> rel_prime l (fac_val fs)).
  { induction fs as [|[[l' e'] a'] fs IH]; intros lo Hlo Hf Hi; cbn in *.
    - apply rel_prime_sym, rel_prime_1.
    - apply andb_true_iff in Hi. destruct Hi as [Hlt Hi]. apply Z.ltb_lt in Hlt.
      inversion Hf as [|? ? H1 H2]; subst. destruct H1 as (Hl' & He' & _).
      apply rel_prime_mult.
      + apply rel_prime_pow_r; [lia|]. apply primes_neq_rel; auto; lia.
      + apply (IH l'); auto; lia. }
  intros Hf Hi. apply (H l); auto. lia.
Qed.

Lemma fac_val_divides n m fs : 1 < n -> (forall l e a, In (l, e, a) fs -> (l ^ e | m)) ->
  Forall (fac_ok n) fs -> increasing 0 fs = true -> (fac_val fs | m).
Proof.
  intros Hn. generalize 0. induction fs as [|[[l e] a] fs IH]; intros lo Hd Hf Hi; cbn in *.
  - apply Z.divide_1_l.
  - apply andb_true_iff in Hi. destruct Hi as [_ Hi].
    inversion Hf as [|? ? H1 H2]; subst. destruct H1 as (Hl & He & _).
    assert (Hr : rel_prime (l ^ e) (fac_val fs)).
    { apply rel_prime_pow_l; [lia|]. eapply increasing_rel; eassumption. }
    destruct (Hd l e a (or_introl eq_refl)) as [k Hk].
    assert (Hd2 : (fac_val fs | m)). { apply (IH l); auto. intros; eapply Hd; right; eassumption. }
    assert (Hd3 : (fac_val fs | k)).
    { apply Gauss with (b := l ^ e); [|apply rel_prime_sym, Hr]. rewrite Hk in Hd2.
      rewrite Z.mul_comm. exact Hd2. }
    destruct Hd3 as [j Hj]. exists j. rewrite Hk, Hj. fold (fac_val fs). set (y := l ^ e). ring.
Qed.

Lemma fac_val_elem fs l e a : In (l, e, a) fs -> (l ^ e | fac_val fs).
Proof.
  induction fs as [|[[l' e'] a'] fs IH]; cbn; [tauto|]. intros [E|H].
  - injection E as -> -> ->. apply Z.divide_factor_l.
  - apply Z.divide_mul_r, IH, H.
Qed.

(** All divisors of n are 1 modulo F. *)
Lemma divisors_1 n fs : 1 < n -> Forall (fac_ok n) fs -> increasing 0 fs = true ->
  (fac_val fs | n - 1) -> forall d, 0 < d -> (d | n) -> (fac_val fs | d - 1).
Proof.
  intros Hn Hf Hi HF d Hd. assert (H0 : 0 <= d) by lia. revert Hd. pattern d.
  apply Z_lt_induction; [|exact H0]. clear d H0. intros d IH Hd Hdn.
  destruct (Z.eq_dec d 1) as [->|H1]; [apply Z.divide_0_r|].
  destruct (has_prime_divisor d ltac:(lia)) as (q & Hq & m & Hm).
  assert (Hq2 := prime_ge_2 q Hq).
  assert (Hm0 : 0 < m) by nia.
  assert (Hq1 : (fac_val fs | q - 1)).
  { apply (fac_val_divides n); auto. intros l e a Hin.
    rewrite Forall_forall in Hf. assert (Ho := Hf _ Hin). destruct Ho as (Hl & He & Ha & Hg).
    apply (pock_step q n a l e); auto.
    - apply Z.divide_trans with (2 := Hdn). exists m. exact Hm.
    - apply Z.divide_trans with (2 := HF). eapply fac_val_elem; eassumption. }
  assert (Hm1 : (fac_val fs | m - 1)).
  { apply IH; [nia|exact Hm0|]. apply Z.divide_trans with (2 := Hdn). exists q. lia. }
  rewrite Hm. replace (m * q - 1) with (m * (q - 1) + (m - 1)) by ring.
  apply Z.divide_add_r; [apply Z.divide_mul_r|]; assumption.
Qed.

(** The final size condition: F > sqrt n, or F > cbrt n and a discriminant that
    is not a square (t is its integer square root). *)
Definition size_ok (n F t : Z) : bool :=
  (n <? (F + 1) * (F + 1)) ||
  (let Rr := (n - 1) / F in
   let c := Rr / F in let r := Rr mod F in
   (c <? F - 1) &&
   ((r * r <? 4 * c) || ((t * t <? r * r - 4 * c) && (r * r - 4 * c <? (t + 1) * (t + 1)) && (0 <=? t)))).

Lemma not_square_between t x : 0 <= t -> t * t < x * x < (t + 1) * (t + 1) -> False.
Proof.
  intros Ht [H1 H2]. rewrite <- (Z.abs_square x) in H1, H2.
  assert (Hx := Z.abs_nonneg x). set (y := Z.abs x) in *. clearbody y.
  assert (t < y) by nia. assert (y < t + 1) by nia. lia.
Qed.

Theorem pocklington n fs t :
  1 < n -> Forall (fac_ok n) fs -> increasing 0 fs = true ->
  (n - 1) mod fac_val fs = 0 -> 1 < fac_val fs -> size_ok n (fac_val fs) t = true -> prime n.
Proof.
  intros Hn Hf Hi Hm HF Hs. set (F := fac_val fs) in *.
  assert (HFd : (F | n - 1)) by (apply Z.mod_divide; [lia|exact Hm]).
  destruct (prime_dec n) as [Hp|Hp]; [exact Hp|exfalso].
  destruct (not_prime_divide n Hn Hp) as (d & Hd & Hdn).
  destruct Hdn as [d' Hd'].
  assert (Hd'0 : 1 < d') by nia.
  assert (D1 : (F | d - 1)) by (apply (divisors_1 n fs); auto; [lia|exists d'; lia]).
  assert (D2 : (F | d' - 1)) by (apply (divisors_1 n fs); auto; [lia|exists d; lia]).
  destruct D1 as [a Ha]. destruct D2 as [b Hb].
  assert (Ha0 : 1 <= a) by nia. assert (Hb0 : 1 <= b) by nia.
  assert (En : n = (a * F + 1) * (b * F + 1)) by (rewrite Hd'; nia).
  unfold size_ok in Hs. apply orb_true_iff in Hs. destruct Hs as [Hs|Hs].
  - apply Z.ltb_lt in Hs.
    assert (F + 1 <= a * F + 1) by nia. assert (F + 1 <= b * F + 1) by nia.
    assert ((F + 1) * (F + 1) <= (a * F + 1) * (b * F + 1)) by (apply Z.mul_le_mono_nonneg; lia).
    lia.
  - cbv zeta in Hs. apply andb_true_iff in Hs. destruct Hs as [Hc Hs]. apply Z.ltb_lt in Hc.
    assert (ER : (n - 1) / F = a * b * F + (a + b)).
    { rewrite En. replace ((a * F + 1) * (b * F + 1) - 1) with ((a * b * F + (a + b)) * F) by ring.
      apply Z.div_mul. lia. }
    rewrite ER in Hc, Hs.
    assert (Hab : a * b <= (a * b * F + (a + b)) / F).
    { apply Z.div_le_lower_bound; [lia|]. nia. }
    assert (Hsum : 0 <= a + b < F) by nia.
    assert (Ec : (a * b * F + (a + b)) / F = a * b).
    { rewrite Z.div_add_l by lia. rewrite Z.div_small by lia. lia. }
    assert (Er : (a * b * F + (a + b)) mod F = a + b).
    { rewrite Z.add_comm, Z.mod_add by lia. apply Z.mod_small. lia. }
    rewrite Ec, Er in Hs.
    assert (E : (a + b) * (a + b) - 4 * (a * b) = (a - b) * (a - b)) by ring.
    rewrite E in Hs. apply orb_true_iff in Hs. destruct Hs as [Hs|Hs].
    + apply Z.ltb_lt in Hs. assert (Hsq := Z.square_nonneg (a - b)). lia.
    + rewrite !andb_true_iff, !Z.ltb_lt, Z.leb_le in Hs. destruct Hs as [[H1 H2] H3].
      apply (not_square_between t (a - b) H3). lia.
Qed.

(** ** Executable check on BigN *)
Definition pow_mod (m : BigN.t) (a e : Z) : BigN.t :=
  fpower (K := BigZp m) (bigz a) (Z.to_N e).

Definition fac_check (n : Z) (m : BigN.t) (t : Z * Z * Z) : bool :=
  let '(l, e, a) := t in
  (1 <? l) && (0 <? e) && (0 <=? a) &&
  BigN.eqb (BigN.modulo (pow_mod m a (n - 1)) m) BigN.one &&
  BigN.eqb (BigN.gcd (BigN.modulo (BigN.add (pow_mod m a ((n - 1) / l)) (BigN.sub m BigN.one)) m) m) BigN.one.

Definition pock_check (n : Z) (fs : list (Z * Z * Z)) (t : Z) : bool :=
  let m := bigz n in
  let F := fac_val fs in
  (1 <? n) && (1 <? F) && increasing 0 fs && ((n - 1) mod F =? 0) && size_ok n F t &&
  forallb (fac_check n m) fs.

Lemma pow_mod_spec n a e : 1 < n -> 0 <= a -> 0 <= e ->
  BigN.to_Z (pow_mod (bigz n) a e) mod n = (a ^ e) mod n.
Proof.
  intros Hn Ha He.
  assert (H := BigZp_hom n (bigz n) Hn (bigz_spec n ltac:(lia))).
  assert (E : of_big n (pow_mod (bigz n) a e) = fpow (tozp n a : Zp n) (Z.to_N e)).
  { unfold pow_mod. rewrite (hom_fpower _ H), (fpower_fpow _ _ _ (Zp_ring n)).
    rewrite of_big_bigz by exact Ha. reflexivity. }
  apply (f_equal zval) in E. rewrite Zp_fpow_val in E by exact Hn.
  unfold of_big in E. rewrite !zval_tozp, Z2N.id in E by exact He.
  rewrite E. symmetry. apply Zpower_mod. lia.
Qed.

Theorem pock_check_sound n fs t :
  pock_check n fs t = true -> Forall (fun '(l, _, _) => prime l) fs -> prime n.
Proof.
  unfold pock_check. rewrite !andb_true_iff, !Z.ltb_lt, Z.eqb_eq.
  intros (((((Hn & HF) & Hi) & Hm) & Hs) & Hc) Hp.
  apply (pocklington n fs t); auto.
  rewrite Forall_forall in *. intros [[l e] a] Hin.
  rewrite forallb_forall in Hc. specialize (Hc _ Hin). specialize (Hp _ Hin). cbn in Hp.
  unfold fac_check in Hc. rewrite !andb_true_iff, !Z.ltb_lt, Z.leb_le, !BigN.spec_eqb, !Z.eqb_eq in Hc.
  destruct Hc as ((((Hl & He) & Ha) & H1) & H2).
  assert (Hl2 := prime_ge_2 l Hp).
  rewrite BigN.spec_modulo, bigz_spec, BigN.spec_1, pow_mod_spec in H1 by lia.
  rewrite BigN.spec_gcd, BigN.spec_modulo, BigN.spec_add, BigN.spec_sub, BigN.spec_1, bigz_spec in H2 by lia.
  split; [exact Hp|]. split; [exact He|]. split; [exact H1|].
  rewrite Z.gcd_comm, <- Z.gcd_mod by lia.
  assert (Hdl : 0 <= (n - 1) / l) by (apply Z.div_pos; lia).
  etransitivity; [|exact H2]. clear H2. f_equal.
  rewrite Z.max_r by lia.
  replace (BigN.to_Z (pow_mod (bigz n) a ((n - 1) / l)) + (n - 1)) with
    (BigN.to_Z (pow_mod (bigz n) a ((n - 1) / l)) - 1 + 1 * n) by ring.
  rewrite Z.mod_add by lia.
  rewrite (Zminus_mod (BigN.to_Z _)), pow_mod_spec by lia.
  rewrite <- Zminus_mod. reflexivity.
Qed.

(** ** Small primes by trial division *)
Fixpoint trial (k : nat) (d n : Z) : bool :=
  match k with
  | O => false
  | S k' => if n <? d * d then true
            else if n mod d =? 0 then false else trial k' (d + 1) n
  end.
Definition small_prime (n : Z) : bool := (1 <? n) && trial (Z.to_nat (Z.sqrt n) + 2) 2 n.

Lemma trial_sound k : forall d n, 1 < d -> 1 < n -> trial k d n = true ->
  (forall m, 1 < m < d -> ~ (m | n)) -> prime n.
Proof.
  induction k as [|k IH]; intros d n Hd Hn Ht Hm; cbn in Ht; [discriminate|].
  destruct (Z.ltb_spec n (d * d)) as [Hlt|Hge].
  - destruct (prime_dec n) as [Hp|Hp]; [exact Hp|exfalso].
    destruct (not_prime_divide n Hn Hp) as (x & Hx & y & Hy).
    assert (1 < y < n) by nia.
    destruct (Z.lt_ge_cases x d) as [H1|H1].
    + apply (Hm x); [lia|]. exists y. lia.
    + destruct (Z.lt_ge_cases y d) as [H2|H2]; [|nia].
      apply (Hm y); [lia|]. exists x. lia.
  - destruct (Z.eqb_spec (n mod d) 0) as [E|E]; [discriminate|].
    apply (IH (d + 1) n); auto; [lia|].
    intros m Hmd. destruct (Z.eq_dec m d) as [->|Hne]; [|apply Hm; lia].
    intros Hdiv. apply E, Z.mod_divide; [lia|exact Hdiv].
Qed.

Lemma small_prime_sound n : small_prime n = true -> prime n.
Proof.
  unfold small_prime. rewrite andb_true_iff, Z.ltb_lt. intros [Hn Ht].
  apply (trial_sound _ 2 n ltac:(lia) Hn Ht). intros m Hm. lia.
Qed.
