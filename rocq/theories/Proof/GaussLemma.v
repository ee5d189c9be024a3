(** Gauss's lemma in Euler's form: whether a small number is a square modulo an odd prime p
    depends on p modulo 4a only. *)
From Coq Require Import ZArith Znumtheory List Bool Lia Permutation.
Import ListNotations.
Local Open Scope Z_scope.

Definition prodz (l : list Z) : Z := fold_right Z.mul 1 l.
Definition upto (n : nat) : list Z := map Z.of_nat (seq 1 n).

Lemma prodz_perm l l' : Permutation l l' -> prodz l = prodz l'.
Proof. induction 1; cbn [prodz fold_right]; fold prodz in *; unfold prodz in *; try lia; try congruence. Qed.
Lemma prodz_app l l' : prodz (l ++ l') = prodz l * prodz l'.
Proof.
  induction l as [|x t IH]; [cbn [app]; change (prodz []) with 1; lia|].
  change (prodz ((x :: t) ++ l')) with (x * prodz (t ++ l')). rewrite IH. change (prodz (x :: t)) with (x * prodz t). lia.
Qed.
Lemma upto_in n k : In k (upto n) <-> 1 <= k <= Z.of_nat n.
Proof.
  unfold upto. rewrite in_map_iff. split.
  - intros (i & <- & H). apply in_seq in H. lia.
  - intros H. exists (Z.to_nat k). rewrite in_seq. lia.
Qed.
Lemma upto_nodup n : NoDup (upto n).
Proof. apply FinFun.Injective_map_NoDup; [intros x y H; lia|apply seq_NoDup]. Qed.
Lemma upto_S n : upto (S n) = upto n ++ [Z.of_nat (S n)].
Proof. unfold upto. rewrite seq_S, map_app. reflexivity. Qed.

Definition cong (p x y : Z) : Prop := (p | x - y).
Lemma cong_refl p x : cong p x x.
Proof. exists 0. lia. Qed.
Lemma cong_sym p x y : cong p x y -> cong p y x.
Proof. intros [k H]. exists (- k). lia. Qed.
Lemma cong_trans p x y z : cong p x y -> cong p y z -> cong p x z.
Proof. intros [k H] [l L]. exists (k + l). lia. Qed.
Lemma cong_mul p x y u v : cong p x y -> cong p u v -> cong p (x * u) (y * v).
Proof. intros [k H] [l L]. exists (k * u + y * l). replace (x * u - y * v) with ((x - y) * u + y * (u - v)) by ring. rewrite H, L. ring. Qed.
Lemma cong_mod p x y : 0 < p -> cong p x y <-> x mod p = y mod p.
Proof.
  intros P. split.
  - intros [k H]. replace x with (y + k * p) by lia. apply Z.mod_add. lia.
  - intros H. exists (x / p - y / p). assert (A := Z.div_mod x p ltac:(lia)). assert (B := Z.div_mod y p ltac:(lia)). rewrite Z.mul_sub_distr_r. nia.
Qed.
Lemma cong_pow p x y n : 0 <= n -> cong p x y -> cong p (x ^ n) (y ^ n).
Proof.
  intros N H. revert n N. apply natlike_ind; [apply cong_refl|]. intros n N IH. rewrite !Z.pow_succ_r by exact N. apply cong_mul; assumption.
Qed.
Lemma cong_prod p (f g : Z -> Z) l : (forall k, In k l -> cong p (f k) (g k)) -> cong p (prodz (map f l)) (prodz (map g l)).
Proof.
  induction l as [|x t IH]; intros H; [apply cong_refl|]. cbn [map]. change (cong p (f x * prodz (map f t)) (g x * prodz (map g t))).
  apply cong_mul; [apply H; left; reflexivity|apply IH; intros k K; apply H; right; exact K].
Qed.
Lemma prodz_mul (f g : Z -> Z) l : prodz (map (fun k => f k * g k) l) = prodz (map f l) * prodz (map g l).
Proof.
  induction l as [|x t IH]; [reflexivity|]. cbn [map].
  change (f x * g x * prodz (map (fun k => f k * g k) t) = f x * prodz (map f t) * (g x * prodz (map g t))). rewrite IH. ring.
Qed.
Lemma prodz_const a l : prodz (map (fun _ : Z => a) l) = a ^ Z.of_nat (length l).
Proof.
  induction l as [|x t IH]; [reflexivity|]. cbn [map length]. change (a * prodz (map (fun _ : Z => a) t) = a ^ Z.of_nat (S (length t))).
  rewrite IH, Nat2Z.inj_succ, Z.pow_succ_r by lia. reflexivity.
Qed.
Lemma map_id_z l : map (fun k : Z => k) l = l.
Proof. apply map_id. Qed.

Section gauss.
Context (p a : Z) (Pp : prime p) (P2 : 2 < p) (A : 1 <= a < p).

Lemma p_odd : p = 2 * (p / 2) + 1.
Proof.
  assert (D := Z.div_mod p 2 ltac:(lia)). assert (B := Z.mod_pos_bound p 2 ltac:(lia)).
  destruct (Z.eq_dec (p mod 2) 0) as [E|E]; [|lia]. exfalso.
  assert (W : (2 | p)) by (exists (p / 2); lia). destruct (prime_divisors p Pp 2 W) as [|[|[|]]]; lia.
Qed.
Lemma not_div k : 1 <= k < p -> ~ (p | k).
Proof. intros H D. apply Z.divide_pos_le in D; lia. Qed.
Lemma ak_mod k : 1 <= k < p -> 0 < (a * k) mod p < p.
Proof.
  intros K. assert (B := Z.mod_pos_bound (a * k) p ltac:(lia)). destruct (Z.eq_dec ((a * k) mod p) 0) as [E|E]; [|lia]. exfalso.
  apply Z.mod_divide in E; [|lia]. apply prime_mult in E; [|exact Pp]. destruct E as [E|E]; revert E; apply not_div; lia.
Qed.

Definition sg (k : Z) : Z := if 2 * ((a * k) mod p) <? p then 1 else -1.
Definition tg (k : Z) : Z := if 2 * ((a * k) mod p) <? p then (a * k) mod p else p - (a * k) mod p.

Lemma tg_range k : 1 <= k <= p / 2 -> 1 <= tg k <= p / 2.
Proof.
  intros K. assert (O := p_odd). assert (M := ak_mod k ltac:(lia)). unfold tg. destruct (Z.ltb_spec (2 * ((a * k) mod p)) p); lia.
Qed.
Lemma sg_tg k : cong p (a * k) (sg k * tg k).
Proof.
  assert (D := Z.div_mod (a * k) p ltac:(lia)). unfold sg, tg. destruct (Z.ltb_spec (2 * ((a * k) mod p)) p).
  - exists (a * k / p). lia.
  - exists (a * k / p + 1). lia.
Qed.
Lemma sg_cases k : sg k = 1 \/ sg k = -1.
Proof. unfold sg. destruct (_ <? _); auto. Qed.
Lemma tg_inj k l : 1 <= k <= p / 2 -> 1 <= l <= p / 2 -> tg k = tg l -> k = l.
Proof.
  intros K L E. assert (O := p_odd). assert (Ck := sg_tg k). assert (Cl := sg_tg l). rewrite E in Ck.
  assert (W : cong p (a * k) (a * l) \/ cong p (a * k) (- (a * l))).
  { destruct Ck as [u U], Cl as [v V]. destruct (sg_cases k) as [Sk|Sk], (sg_cases l) as [Sl|Sl]; rewrite ?Sk, ?Sl in *.
    - left. exists (u - v). lia.
    - right. exists (u + v). lia.
    - right. exists (u + v). lia.
    - left. exists (u - v). lia. }
  destruct W as [W|W]; unfold cong in W.
  - replace (a * k - a * l) with (a * (k - l)) in W by ring. apply prime_mult in W; [|exact Pp]. destruct W as [W|[c C]]; [exfalso; revert W; apply not_div; lia|].
    assert (X : c <= -1 \/ c = 0 \/ 1 <= c) by lia. destruct X as [X|[X|X]]; [|subst c; lia|].
    + assert (Y := Z.mul_le_mono_nonneg_r c (-1) p ltac:(lia) X). lia.
    + assert (Y := Z.mul_le_mono_nonneg_r 1 c p ltac:(lia) X). lia.
  - replace (a * k - - (a * l)) with (a * (k + l)) in W by ring. apply prime_mult in W; [|exact Pp]. destruct W as [W|W]; exfalso; revert W; apply not_div; lia.
Qed.

Definition hh : nat := Z.to_nat (p / 2).
Lemma hh_z : Z.of_nat hh = p / 2.
Proof. assert (O := p_odd). unfold hh. lia. Qed.

Lemma tg_perm : Permutation (map tg (upto hh)) (upto hh).
Proof.
  apply NoDup_Permutation_bis.
  - assert (G : forall l, (forall k, In k l -> 1 <= k <= p / 2) -> NoDup l -> NoDup (map tg l)).
    { induction l as [|x t IH]; intros R N; [constructor|]. inversion N as [|? ? N1 N2]; subst. cbn [map]. constructor.
      - rewrite in_map_iff. intros (y & E & Y). apply N1. rewrite <- (tg_inj y x); [exact Y|apply R; right; exact Y|apply R; left; reflexivity|exact E].
      - apply IH; [intros k Kt; apply R; right; exact Kt|exact N2]. }
    apply G; [|apply upto_nodup]. intros k K. apply upto_in in K. rewrite hh_z in K. exact K.
  - rewrite map_length. reflexivity.
  - intros x X. apply in_map_iff in X. destruct X as (k & <- & K). apply upto_in in K. rewrite hh_z in K. apply upto_in. rewrite hh_z. apply tg_range. exact K.
Qed.

Lemma fact_unit n : Z.of_nat n < p -> ~ (p | prodz (upto n)).
Proof.
  induction n as [|n IH]; intros N; [change (prodz (upto 0)) with 1; intros D; apply Z.divide_pos_le in D; lia|].
  rewrite upto_S, prodz_app. change (prodz [Z.of_nat (S n)]) with (Z.of_nat (S n) * 1). rewrite Z.mul_1_r. intros D.
  apply prime_mult in D; [|exact Pp]. destruct D as [D|D]; [revert D; apply IH; lia|revert D; apply not_div; lia].
Qed.

Theorem gauss_lemma : cong p (a ^ (p / 2)) (prodz (map sg (upto hh))).
Proof.
  assert (O := p_odd). assert (F := fact_unit hh ltac:(rewrite hh_z; lia)).
  assert (H : cong p (prodz (map (fun k => a * k) (upto hh))) (prodz (map (fun k => sg k * tg k) (upto hh)))) by (apply cong_prod; intros k _; apply sg_tg).
  rewrite (prodz_mul (fun _ => a) (fun k => k)), (prodz_mul sg tg), prodz_const, map_id_z, (prodz_perm _ _ tg_perm) in H.
  unfold upto in H at 1. rewrite map_length, seq_length, hh_z in H.
  unfold cong in *. rewrite <- Z.mul_sub_distr_r in H. apply prime_mult in H; [|exact Pp]. destruct H as [H|H]; [exact H|contradiction].
Qed.

(** the sign depends on the parity of the integer part of 2ak/p *)
Lemma sg_parity k : sg k = if Z.even (2 * a * k / p) then 1 else -1.
Proof.
  assert (D := Z.div_mod (a * k) p ltac:(lia)). assert (B := Z.mod_pos_bound (a * k) p ltac:(lia)). unfold sg.
  set (q := a * k / p) in *. set (y := (a * k) mod p) in *.
  assert (E : 2 * a * k / p = 2 * q + (if 2 * y <? p then 0 else 1)).
  { symmetry. apply Z.div_unique_pos with (r := if 2 * y <? p then 2 * y else 2 * y - p); destruct (Z.ltb_spec (2 * y) p); lia. }
  rewrite E. destruct (2 * y <? p).
  - rewrite Z.add_0_r, Z.even_mul. reflexivity.
  - rewrite Z.even_add, Z.even_mul. reflexivity.
Qed.

Definition bound (q : Z) (j : nat) : Z := Z.of_nat j * q / (2 * a).
Definition step_sign (q : Z) (j : nat) : Z :=
  if Nat.even j then 1 else if Z.even (bound q (S j) - bound q j) then 1 else -1.
Fixpoint euler_sign (q : Z) (j : nat) : Z :=
  match j with O => 1 | S i => euler_sign q i * step_sign q i end.

Lemma segment c n m : (forall k, Z.of_nat n < k <= Z.of_nat n + Z.of_nat m -> sg k = c) ->
  prodz (map sg (upto (n + m))) = prodz (map sg (upto n)) * c ^ Z.of_nat m.
Proof.
  induction m as [|m IH]; intros H; [rewrite Nat.add_0_r; change (c ^ Z.of_nat 0) with 1; ring|].
  rewrite Nat.add_succ_r, upto_S, map_app, prodz_app, IH by (intros k K; apply H; lia). cbn [map].
  change (prodz [sg (Z.of_nat (S (n + m)))]) with (sg (Z.of_nat (S (n + m))) * 1). rewrite (H (Z.of_nat (S (n + m)))) by lia.
  rewrite (Nat2Z.inj_succ m), Z.pow_succ_r by lia. ring.
Qed.
Lemma m1_pow n : 0 <= n -> (-1) ^ n = if Z.even n then 1 else -1.
Proof.
  intros N. destruct (Z.even n) eqn:E.
  - apply Z.even_spec in E. destruct E as [m ->]. rewrite Z.pow_mul_r by lia. change ((-1) ^ 2) with 1. apply Z.pow_1_l. lia.
  - assert (Od : Z.odd n = true) by (rewrite <- Z.negb_even, E; reflexivity). apply Z.odd_spec in Od. destruct Od as [m ->].
    rewrite Z.pow_add_r, Z.pow_mul_r by lia. change ((-1) ^ 2) with 1. rewrite Z.pow_1_l by lia. reflexivity.
Qed.
Lemma bound_mono q j : 0 < q -> 0 <= bound q j <= bound q (S j).
Proof.
  intros Q. unfold bound. split; [apply Z.div_pos; nia|]. apply Z.div_le_mono; nia.
Qed.
Lemma prefix_sign j : (j <= Z.to_nat a)%nat -> prodz (map sg (upto (Z.to_nat (bound p j)))) = euler_sign p j.
Proof.
  assert (O := p_odd). induction j as [|j IH]; intros J; [unfold bound; rewrite Z.mul_0_l, Z.div_0_l by lia; reflexivity|].
  assert (M := bound_mono p j ltac:(lia)). assert (M' := bound_mono p (S j) ltac:(lia)).
  replace (Z.to_nat (bound p (S j))) with (Z.to_nat (bound p j) + Z.to_nat (bound p (S j) - bound p j))%nat by lia.
  cbn [euler_sign]. rewrite (segment (if Nat.even j then 1 else -1)).
  - rewrite IH by lia. f_equal. unfold step_sign. rewrite Z2Nat.id by lia. destruct (Nat.even j); [apply Z.pow_1_l; lia|]. apply m1_pow. lia.
  - intros k K. rewrite !Z2Nat.id in K by lia. rewrite sg_parity.
    assert (L1 : Z.of_nat j * p < 2 * a * k).
    { assert (D := Z.div_mod (Z.of_nat j * p) (2 * a) ltac:(lia)). assert (B := Z.mod_pos_bound (Z.of_nat j * p) (2 * a) ltac:(lia)). unfold bound in K. nia. }
    assert (L2 : 2 * a * k <= Z.of_nat (S j) * p).
    { assert (D := Z.div_mod (Z.of_nat (S j) * p) (2 * a) ltac:(lia)). assert (B := Z.mod_pos_bound (Z.of_nat (S j) * p) (2 * a) ltac:(lia)). unfold bound in K. nia. }
    assert (Ja : Z.of_nat (S j) <= a) by lia. assert (Kp : 1 <= k < p) by nia.
    assert (L3 : 2 * a * k <> Z.of_nat (S j) * p).
    { intros E. assert (D : (p | 2 * a * k)) by (exists (Z.of_nat (S j)); lia).
      apply prime_mult in D; [|exact Pp]. destruct D as [D|D]; [|revert D; apply not_div; lia].
      apply prime_mult in D; [|exact Pp]. destruct D as [D|D]; revert D; apply not_div; lia. }
    replace (2 * a * k / p) with (Z.of_nat j); [|apply Z.div_unique_pos with (r := 2 * a * k - Z.of_nat j * p); lia].
    f_equal. destruct (Nat.even j) eqn:E; destruct (Z.even (Z.of_nat j)) eqn:F; try reflexivity; exfalso.
    + apply Nat.even_spec in E. destruct E as [m ->]. rewrite Nat2Z.inj_mul, Z.even_mul in F. discriminate F.
    + apply Z.even_spec in F. destruct F as [m F]. assert (W : Nat.even j = true) by (apply Nat.even_spec; exists (Z.to_nat m); lia). congruence.
Qed.

Lemma euler_sign_mod j : euler_sign p j = euler_sign (p mod (4 * a)) j.
Proof.
  induction j as [|j IH]; [reflexivity|]. cbn [euler_sign]. rewrite IH. f_equal. unfold step_sign. destruct (Nat.even j); [reflexivity|].
  assert (G : forall i, bound p i = 2 * Z.of_nat i * (p / (4 * a)) + bound (p mod (4 * a)) i).
  { intros i. unfold bound. assert (D := Z.div_mod p (4 * a) ltac:(lia)). rewrite D at 1.
    replace (Z.of_nat i * (4 * a * (p / (4 * a)) + p mod (4 * a))) with (2 * Z.of_nat i * (p / (4 * a)) * (2 * a) + Z.of_nat i * (p mod (4 * a))) by ring.
    apply Z.div_add_l. lia. }
  rewrite (G (S j)), (G j), Nat2Z.inj_succ.
  replace (2 * Z.succ (Z.of_nat j) * (p / (4 * a)) + bound (p mod (4 * a)) (S j) - (2 * Z.of_nat j * (p / (4 * a)) + bound (p mod (4 * a)) j))
    with (2 * (p / (4 * a)) + (bound (p mod (4 * a)) (S j) - bound (p mod (4 * a)) j)) by lia.
  rewrite Z.even_add, Z.even_mul. cbn [Z.even orb]. destruct (Z.even _); reflexivity.
Qed.

(** Euler: a^((p-1)/2) is the sign read off p mod 4a *)
Theorem euler_criterion_small : cong p (a ^ (p / 2)) (euler_sign (p mod (4 * a)) (Z.to_nat a)).
Proof.
  assert (G := gauss_lemma). rewrite <- euler_sign_mod, <- (prefix_sign (Z.to_nat a)) by lia.
  replace (Z.to_nat (bound p (Z.to_nat a))) with hh; [exact G|]. unfold hh, bound. f_equal. rewrite Z2Nat.id by lia.
  rewrite (Z.mul_comm 2 a). symmetry. apply Z.div_mul_cancel_l; lia.
Qed.
End gauss.

(** An element whose q-th power is 1, q prime, has order 1 or q. *)
Lemma order_prime p q g : 2 < p -> prime q -> cong p (g ^ q) 1 -> ~ cong p g 1 ->
  forall k, 0 <= k -> (cong p (g ^ k) 1 <-> (q | k)).
Proof.
  intros P Q G N k K. assert (Q2 := prime_ge_2 q Q).
  assert (one : forall x n, 0 <= n -> cong p x 1 -> cong p (x ^ n) 1).
  { intros x n Hn Hx. rewrite <- (Z.pow_1_l n Hn). apply cong_pow; assumption. }
  split.
  - intros H. destruct (Zdivide_dec q k) as [D|D]; [exact D|]. exfalso. apply N.
    assert (R : rel_prime k q) by (apply rel_prime_sym, prime_rel_prime; assumption).
    apply rel_prime_bezout in R. destruct R as [u v E].
    assert (U := Z.mod_pos_bound u q ltac:(lia)). assert (DU := Z.div_mod u q ltac:(lia)). set (u' := u mod q) in *. set (w := - (u / q * k + v)).
    assert (E' : u' * k = 1 + q * w) by (unfold w; nia).
    assert (W : 0 <= w) by nia.
    apply cong_trans with (g ^ (u' * k)).
    + rewrite E', Z.pow_add_r, Z.pow_1_r, Z.pow_mul_r by nia. apply cong_sym. cut (cong p (g * (g ^ q) ^ w) (g * 1)); [rewrite Z.mul_1_r; exact id|]. apply cong_mul; [apply cong_refl|]. apply one; assumption.
    + rewrite Z.mul_comm, Z.pow_mul_r by lia. apply one; [lia|exact H].
  - intros [c C]. assert (0 <= c) by nia. rewrite C, Z.mul_comm, Z.pow_mul_r by lia. apply one; assumption.
Qed.
Lemma order_full p q g : 2 < p -> prime q -> cong p (g ^ q) (-1) -> ~ cong p (g ^ 2) 1 ->
  forall k, 0 <= k -> (cong p (g ^ k) 1 <-> (2 * q | k)).
Proof.
  intros P Q G N k K. assert (Q2 := prime_ge_2 q Q).
  assert (S2 : cong p ((g ^ 2) ^ q) 1).
  { rewrite <- Z.pow_mul_r, Z.mul_comm, Z.pow_mul_r by lia. change 1 with ((-1) ^ 2). apply cong_pow; [lia|exact G]. }
  assert (O := order_prime p q (g ^ 2) P Q S2 N).
  assert (M : forall c, 0 <= c -> cong p (g ^ (q * c)) ((-1) ^ c)) by (intros c C; rewrite Z.pow_mul_r by lia; apply cong_pow; assumption).
  split.
  - intros H. assert (D : (q | k)).
    { apply O; [exact K|]. rewrite <- Z.pow_mul_r, Z.mul_comm, Z.pow_mul_r by lia. change 1 with (1 ^ 2). apply cong_pow; [lia|exact H]. }
    destruct D as [c C]. assert (C0 : 0 <= c) by nia. rewrite C, Z.mul_comm in H. assert (X := cong_trans _ _ _ _ (cong_sym _ _ _ (M c C0)) H).
    rewrite m1_pow in X by exact C0. destruct (Z.even c) eqn:Ev.
    + apply Z.even_spec in Ev. destruct Ev as [d ->]. exists d. lia.
    + exfalso. unfold cong in X. apply Z.divide_opp_r, Z.divide_pos_le in X; lia.
  - intros [c C]. assert (C0 : 0 <= c) by nia. replace k with (q * (2 * c)) by lia. eapply cong_trans; [apply M; lia|].
    rewrite m1_pow by lia. rewrite Z.even_mul. apply cong_refl.
Qed.
