(** Sums of the quotients floor(x / d) of a large integer, on lists of 31-bit limbs (most
    significant first): the same value as on Z, but quick to evaluate. *)
From Coq Require Import ZArith NArith List Bool Lia Uint63.
Import ListNotations.
Local Open Scope Z_scope.
Local Notation tz := Uint63.to_Z.

Definition base : Z := 2 ^ 31.
Fixpoint value (l : list int) : Z :=
  match l with [] => 0 | x :: t => (tz x) * base ^ Z.of_nat (length t) + value t end.
(** the same by Horner's rule, for evaluation *)
Fixpoint horner (a : Z) (l : list int) : Z :=
  match l with [] => a | x :: t => horner (Z.shiftl a 31 + (tz x)) t end.
Lemma horner_ok l : forall a, horner a l = a * base ^ Z.of_nat (length l) + value l.
Proof.
  induction l as [|x t IH]; intros a; [cbn [horner length value]; change (base ^ Z.of_nat 0) with 1; ring|].
  cbn [horner length value]. rewrite IH, Z.shiftl_mul_pow2, Nat2Z.inj_succ, Z.pow_succ_r by lia. fold base. ring.
Qed.
Lemma horner_value l : horner 0 l = value l.
Proof. rewrite horner_ok. ring. Qed.
Definition limbs (b : Z) (l : list int) : Prop := Forall (fun x => (tz x) < b) l.
Fixpoint divl (d r : int) (l : list int) : list int :=
  match l with
  | [] => []
  | x :: t => let v := (Uint63.lsl r 31 + x)%uint63 in (v / d)%uint63 :: divl d (v mod d)%uint63 t
  end.
Fixpoint addl (l k : list int) : list int :=
  match l, k with x :: l, y :: k => (x + y)%uint63 :: addl l k | _, _ => [] end.

Lemma to_Z_nonneg x : 0 <= (tz x).
Proof. apply to_Z_bounded. Qed.
Lemma value_nonneg l : 0 <= value l.
Proof.
  induction l as [|x t IH]; cbn [value]; [lia|]. assert (H := to_Z_nonneg x).
  assert (0 <= base ^ Z.of_nat (length t)) by (apply Z.pow_nonneg; unfold base; lia). nia.
Qed.
Lemma head_step r x : (tz r) < base -> (tz x) < base -> (tz (Uint63.lsl r 31 + x)%uint63) = (tz r) * base + (tz x).
Proof.
  intros R X. assert (R0 := to_Z_nonneg r). assert (X0 := to_Z_nonneg x).
  assert (W : wB = base * base * 2) by reflexivity. unfold base in *.
  rewrite add_spec, lsl_spec. change (tz 31%uint63) with 31.
  rewrite (Z.mod_small ((tz r) * 2 ^ 31)) by nia. apply Z.mod_small. nia.
Qed.
Lemma divl_ok d : 0 < (tz d) < base -> forall l r, (tz r) < (tz d) -> limbs base l ->
  value (divl d r l) = ((tz r) * base ^ Z.of_nat (length l) + value l) / (tz d) /\ limbs base (divl d r l) /\ length (divl d r l) = length l.
Proof.
  intros D. induction l as [|x t IH]; intros r R L.
  - cbn [divl value length]. change (base ^ Z.of_nat 0) with 1. rewrite Z.mul_1_r, Z.add_0_r. assert (R0 := to_Z_nonneg r). rewrite Z.div_small by lia. repeat split. constructor.
  - apply Forall_inv in L as X. apply Forall_inv_tail in L as L'. cbn [divl]. set (v := (Uint63.lsl r 31 + x)%uint63).
    assert (R0 := to_Z_nonneg r). assert (X0 := to_Z_nonneg x).
    assert (V : (tz v) = (tz r) * base + (tz x)) by (apply head_step; [lia|exact X]).
    assert (Q : (tz (v / d)%uint63) = (tz v) / (tz d)) by apply div_spec.
    assert (M : (tz (v mod d)%uint63) = (tz v) mod (tz d)) by apply mod_spec.
    assert (B := Z.mod_pos_bound (tz v) (tz d) ltac:(lia)).
    destruct (IH (v mod d)%uint63 ltac:(rewrite M; lia) L') as (E & F & G).
    split; [|split].
    + cbn [value length]. rewrite G, E, Q, M, Nat2Z.inj_succ, Z.pow_succ_r by lia.
      set (P := base ^ Z.of_nat (length t)).
      rewrite <- Z.div_add_l by lia. f_equal. assert (DM := Z.div_mod (tz v) (tz d) ltac:(lia)). rewrite V in *. nia.
    + constructor; [|exact F]. rewrite Q. apply Z.div_lt_upper_bound; [lia|]. rewrite V. unfold base in *. nia.
    + cbn [length]. rewrite G. reflexivity.
Qed.
Lemma addl_ok b : forall l k, length l = length k -> limbs b l -> limbs base k -> b + base <= wB ->
  value (addl l k) = value l + value k /\ limbs (b + base) (addl l k) /\ length (addl l k) = length l.
Proof.
  induction l as [|x l IH]; intros [|y k] E L K W; try discriminate E; [repeat split; constructor|]. injection E as E.
  apply Forall_inv in L as X. apply Forall_inv_tail in L as L'. apply Forall_inv in K as Y. apply Forall_inv_tail in K as K'.
  destruct (IH k E L' K' W) as (V & F & G). assert (X0 := to_Z_nonneg x). assert (Y0 := to_Z_nonneg y).
  assert (A : (tz (x + y)%uint63) = (tz x) + (tz y)) by (rewrite add_spec; apply Z.mod_small; lia).
  split; [|split].
  - cbn [addl value]. rewrite V, A, G, E. ring.
  - constructor; [rewrite A; lia|exact F].
  - cbn [length addl]. rewrite G. reflexivity.
Qed.

(** ** the alternating series of the arctangent *)
Fixpoint alt (fuel : nat) (n2 x d : Z) (sg : bool) (s : Z) : Z :=
  match fuel with O => s | S f => alt f n2 (x / n2) (d + 2) (negb sg) (if sg then s + x / d else s - x / d) end.
Fixpoint altl (fuel : nat) (n2 : int) (x : list int) (d : int) (sg : bool) (p m : list int) : list int * list int :=
  match fuel with
  | O => (p, m)
  | S f => let q := divl d 0 x in
      altl f n2 (divl n2 0 x) (d + 2)%uint63 (negb sg) (if sg then addl p q else p) (if sg then m else addl m q)
  end.
Lemma zero63 : (tz 0%uint63) = 0. Proof. reflexivity. Qed.
Lemma two63 : (tz 2%uint63) = 2. Proof. reflexivity. Qed.
Lemma one63 : (tz 1%uint63) = 1. Proof. reflexivity. Qed.
Lemma limbs_le b c l : b <= c -> limbs b l -> limbs c l.
Proof. intros H. apply Forall_impl. lia. Qed.
Lemma altl_ok n2 : 0 < (tz n2) < base -> forall fuel x d sg p m b,
  0 < (tz d) -> (tz d) + 2 * Z.of_nat fuel < base -> limbs base x -> length p = length x -> length m = length x ->
  limbs b p -> limbs b m -> b + base * Z.of_nat fuel <= wB ->
  value (fst (altl fuel n2 x d sg p m)) - value (snd (altl fuel n2 x d sg p m)) =
  alt fuel (tz n2) (value x) (tz d) sg (value p - value m).
Proof.
  intros N. induction fuel as [|f IH]; intros x d sg p m b D0 D X LP LM P M W; [reflexivity|].
  rewrite Nat2Z.inj_succ in D, W. cbn [altl alt]. cbv zeta.
  destruct (divl_ok d ltac:(lia) x 0%uint63 ltac:(rewrite zero63; lia) X) as (Vq & Lq & Nq).
  destruct (divl_ok n2 N x 0%uint63 ltac:(rewrite zero63; lia) X) as (Vx & Lx & Nx).
  rewrite zero63, Z.mul_0_l, Z.add_0_l in Vq, Vx.
  assert (D2 : (tz (d + 2)%uint63) = (tz d) + 2).
  { rewrite add_spec, two63. apply Z.mod_small. assert (wB = base * base * 2) by reflexivity. unfold base in *. lia. }
  assert (WB : b + base <= wB) by (unfold base in *; nia).
  destruct sg.
  - destruct (addl_ok b p (divl d 0 x) ltac:(congruence) P Lq WB) as (Va & La & Na).
    rewrite (IH (divl n2 0 x) (d + 2)%uint63 (negb true) (addl p (divl d 0 x)) m (b + base));
      [|rewrite D2; lia|rewrite D2; lia|exact Lx|congruence|congruence|exact La|exact (limbs_le b (b + base) _ ltac:(unfold base; lia) M)|lia].
    rewrite Vx, D2, Va, Vq. f_equal. ring.
  - destruct (addl_ok b m (divl d 0 x) ltac:(congruence) M Lq WB) as (Va & La & Na).
    rewrite (IH (divl n2 0 x) (d + 2)%uint63 (negb false) p (addl m (divl d 0 x)) (b + base));
      [|rewrite D2; lia|rewrite D2; lia|exact Lx|congruence|congruence|exact (limbs_le b (b + base) _ ltac:(unfold base; lia) P)|exact La|lia].
    rewrite Vx, D2, Va, Vq. f_equal. ring.
Qed.

(** ** the series of e *)
Fixpoint fac (fuel : nat) (x d s : Z) : Z :=
  match fuel with O => s | S f => fac f (x / d) (d + 1) (s + x / d) end.
Fixpoint facl (fuel : nat) (x : list int) (d : int) (s : list int) : list int :=
  match fuel with O => s | S f => let q := divl d 0 x in facl f q (d + 1)%uint63 (addl s q) end.
Lemma facl_ok : forall fuel x d s b,
  0 < (tz d) -> (tz d) + Z.of_nat fuel < base -> limbs base x -> length s = length x -> limbs b s -> b + base * Z.of_nat fuel <= wB ->
  value (facl fuel x d s) = fac fuel (value x) (tz d) (value s).
Proof.
  induction fuel as [|f IH]; intros x d s b D0 D X LS Ls W; [reflexivity|].
  rewrite Nat2Z.inj_succ in D, W. cbn [facl fac]. cbv zeta.
  destruct (divl_ok d ltac:(lia) x 0%uint63 ltac:(rewrite zero63; lia) X) as (Vq & Lq & Nq).
  rewrite zero63, Z.mul_0_l, Z.add_0_l in Vq.
  assert (D1 : (tz (d + 1)%uint63) = (tz d) + 1).
  { rewrite add_spec, one63. apply Z.mod_small. assert (wB = base * base * 2) by reflexivity. unfold base in *. lia. }
  assert (WB : b + base <= wB) by (unfold base in *; nia).
  destruct (addl_ok b s (divl d 0 x) ltac:(congruence) Ls Lq WB) as (Va & La & Na).
  rewrite (IH (divl d 0 x) (d + 1)%uint63 (addl s (divl d 0 x)) (b + base)); [|rewrite D1; lia|rewrite D1; lia|exact Lq|congruence|exact La|lia].
  rewrite Vq, D1, Va, Vq. reflexivity.
Qed.

(** 2^(31 k) *)
Definition one_at (k : nat) : list int := 1%uint63 :: repeat 0%uint63 k.
Definition zeros (k : nat) : list int := repeat 0%uint63 k.
Lemma zeros_ok k b : 0 < b -> value (zeros k) = 0 /\ limbs b (zeros k) /\ length (zeros k) = k.
Proof.
  intros B. induction k as [|k (IH1 & IH2 & IH3)]; [repeat split; constructor|]. unfold zeros in *. cbn [repeat value]. rewrite IH1, zero63.
  split; [reflexivity|]. split; [constructor; [rewrite zero63; exact B|exact IH2]|]. cbn [length]. rewrite IH3. reflexivity.
Qed.
Lemma one_at_ok k : value (one_at k) = 2 ^ (31 * Z.of_nat k) /\ limbs base (one_at k) /\ length (one_at k) = S k.
Proof.
  destruct (zeros_ok k base ltac:(reflexivity)) as (V & L & N). unfold one_at, zeros in *. cbn [value length]. rewrite V, N, one63.
  split; [unfold base; rewrite Z.add_0_r, Z.mul_1_l, <- Z.pow_mul_r by lia; reflexivity|]. split; [constructor; [reflexivity|exact L]|reflexivity].
Qed.
Definition alt_run (n n2 : int) (k fuel : nat) : Z :=
  let '(p, m) := altl fuel n2 (divl n 0 (one_at k)) 1%uint63 true (zeros (S k)) (zeros (S k)) in horner 0 p - horner 0 m.
Lemma alt_run_ok n n2 k fuel : 0 < (tz n) < base -> 0 < (tz n2) < base -> 2 * Z.of_nat fuel + 1 < base ->
  alt_run n n2 k fuel = alt fuel (tz n2) (2 ^ (31 * Z.of_nat k) / (tz n)) 1 true 0.
Proof.
  intros N N2 F. destruct (one_at_ok k) as (V & L & E). destruct (zeros_ok (S k) 1 ltac:(lia)) as (V0 & L0 & E0).
  destruct (divl_ok n N (one_at k) 0%uint63 ltac:(rewrite zero63; lia) L) as (Vx & Lx & Nx).
  rewrite zero63, Z.mul_0_l, Z.add_0_l, V in Vx.
  assert (A := altl_ok n2 N2 fuel (divl n 0 (one_at k)) 1%uint63 true (zeros (S k)) (zeros (S k)) 1 ltac:(reflexivity) ltac:(rewrite one63; lia) Lx
    ltac:(congruence) ltac:(congruence) L0 L0 ltac:(assert (wB = base * base * 2) by reflexivity; unfold base in *; nia)).
  unfold alt_run. destruct (altl _ _ _ _ _ _ _) as [p m]. cbn [fst snd] in A. rewrite !horner_value, A, Vx, V0, one63. reflexivity.
Qed.
Definition fac_run (k fuel : nat) : Z := horner 0 (facl fuel (one_at k) 1%uint63 (one_at k)).
Lemma fac_run_ok k fuel : Z.of_nat fuel + 1 < base -> fac_run k fuel = fac fuel (2 ^ (31 * Z.of_nat k)) 1 (2 ^ (31 * Z.of_nat k)).
Proof.
  intros F. destruct (one_at_ok k) as (V & L & E). unfold fac_run. rewrite horner_value.
  rewrite (facl_ok fuel (one_at k) 1%uint63 (one_at k) base ltac:(reflexivity) ltac:(rewrite one63; lia) L eq_refl L
    ltac:(assert (wB = base * base * 2) by reflexivity; unfold base in *; nia)). rewrite V, one63. reflexivity.
Qed.
