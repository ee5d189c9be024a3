(** The shifts and masks of nil/crypto3/detail. *)
From Coq Require Import ZArith NArith List Bool Lia.
From Verif Require Import Spec.Joined Model.Shifts.
Import ListNotations.
Local Open Scope N_scope.

Lemma pow2_0 w : 2 ^ w <> 0.
Proof. apply N.pow_nonzero. discriminate. Qed.
Lemma pow2_le a b : a <= b -> 2 ^ a <= 2 ^ b.
Proof. apply N.pow_le_mono_r. discriminate. Qed.
Lemma pow2_split a b : a <= b -> 2 ^ b = 2 ^ a * 2 ^ (b - a).
Proof. intros H. rewrite <- N.pow_add_r. f_equal. lia. Qed.
Lemma static_shl_spec w s x : x < 2 ^ w -> static_shl w s x = (x * 2 ^ N.of_nat s) mod 2 ^ w.
Proof.
  unfold static_shl. revert x. induction s as [|s IH]; intros x H; cbn [shifter_shl].
  - cbn [N.of_nat]. rewrite N.mul_1_r, N.mod_small by exact H. reflexivity.
  - rewrite IH by (apply N.mod_lt, pow2_0). rewrite N.shiftl_mul_pow2, N.pow_1_r.
    rewrite N.mul_mod_idemp_l by apply pow2_0. f_equal. rewrite Nat2N.inj_succ, N.pow_succ_r'. lia.
Qed.
Lemma static_shl_big w s x : x < 2 ^ w -> w <= N.of_nat s -> static_shl w s x = 0.
Proof.
  intros H L. rewrite static_shl_spec, (pow2_split w (N.of_nat s) L) by exact H.
  replace (x * (2 ^ w * 2 ^ (N.of_nat s - w))) with (x * 2 ^ (N.of_nat s - w) * 2 ^ w) by lia. apply N.mod_mul, pow2_0.
Qed.
Lemma static_shr_spec s x : static_shr s x = x / 2 ^ N.of_nat s.
Proof.
  unfold static_shr. revert x. induction s as [|s IH]; intros x; cbn [shifter_shr].
  - cbn [N.of_nat]. rewrite N.pow_0_r, N.div_1_r. reflexivity.
  - rewrite IH, N.shiftr_div_pow2, N.pow_1_r, N.div_div by (try discriminate; apply pow2_0). f_equal.
    rewrite Nat2N.inj_succ, N.pow_succ_r'. reflexivity.
Qed.
Lemma dynamic_shl_spec w x n : n < w -> dynamic_shl w x n = (x * 2 ^ n) mod 2 ^ w.
Proof. intros H. unfold dynamic_shl. rewrite (proj2 (N.leb_gt w n) H). rewrite N.shiftl_mul_pow2. reflexivity. Qed.
Lemma dynamic_shl_wraps w x n : w <> 0 -> dynamic_shl w x n = (x * 2 ^ (n mod w)) mod 2 ^ w.
Proof.
  intros H. unfold dynamic_shl. cbv zeta. rewrite N.shiftl_mul_pow2. destruct (N.leb_spec w n) as [L|L]; [reflexivity|].
  rewrite (N.mod_small n w L). reflexivity.
Qed.
Lemma dynamic_shr_spec w x n : x < 2 ^ w -> dynamic_shr w x n = x / 2 ^ n.
Proof.
  intros H. unfold dynamic_shr. destruct (N.leb_spec w n) as [L|L]; [|apply N.shiftr_div_pow2].
  symmetry. apply N.div_small. eapply N.lt_le_trans; [exact H|]. apply pow2_le, L.
Qed.
Lemma ones_lt w : ones w < 2 ^ w.
Proof. unfold ones. assert (H := pow2_0 w). lia. Qed.
Lemma ones_N w : ones w = N.ones w.
Proof. unfold ones. rewrite N.ones_equiv. lia. Qed.
Lemma land_ones x s : N.land x (ones s) = x mod 2 ^ s.
Proof. rewrite ones_N. apply N.land_ones. Qed.
Lemma ones_shr w n : n <= w -> ones w / 2 ^ n = ones (w - n).
Proof.
  intros H. rewrite !ones_N. rewrite N.ones_div_pow2 by exact H. reflexivity.
Qed.
(** the top bits of [ones] *)
Lemma ones_shl w n : n <= w -> (ones w * 2 ^ n) mod 2 ^ w = ones w - ones n.
Proof.
  intros H. unfold ones. assert (P := pow2_split n w H). assert (A := pow2_0 n). assert (B := pow2_0 (w - n)).
  assert (L : 2 ^ n <= 2 ^ w) by (apply pow2_le, H).
  replace ((2 ^ w - 1) * 2 ^ n) with (2 ^ w - 2 ^ n + (2 ^ n - 1) * 2 ^ w) by nia.
  rewrite N.mod_add by apply pow2_0. rewrite N.mod_small by lia. lia.
Qed.
Lemma top_bits w n : n <= w -> ones w - ones n = N.shiftl (N.ones (w - n)) n.
Proof.
  intros H. rewrite N.shiftl_mul_pow2, <- ones_N. unfold ones. assert (P := pow2_split n w H). assert (A := pow2_0 n). assert (B := pow2_0 (w - n)). nia.
Qed.
Lemma ones_xor_top w n : n <= w -> N.lxor (ones w) (ones w - ones n) = ones n.
Proof.
  intros H. rewrite (top_bits w n H), !ones_N. apply N.bits_inj. intros i. rewrite N.lxor_spec.
  destruct (N.lt_ge_cases i n) as [L|L].
  - rewrite N.shiftl_spec_low by exact L. rewrite !N.ones_spec_low by lia. reflexivity.
  - rewrite N.shiftl_spec_high' by exact L. rewrite (N.ones_spec_high n i L).
    destruct (N.lt_ge_cases i w) as [M|M]; [rewrite !N.ones_spec_low by lia; reflexivity|rewrite !N.ones_spec_high by lia; reflexivity].
Qed.
Lemma land_top w n x : n <= w -> x < 2 ^ w -> N.land x (ones w - ones n) = x - x mod 2 ^ n.
Proof.
  intros H X. rewrite (top_bits w n H).
  assert (E : N.land x (N.shiftl (N.ones (w - n)) n) = N.shiftl (N.shiftr x n) n).
  { apply N.bits_inj. intros i. rewrite N.land_spec. destruct (N.lt_ge_cases i n) as [L|L].
    - rewrite !N.shiftl_spec_low by exact L. apply andb_false_r.
    - rewrite !N.shiftl_spec_high' by exact L. rewrite N.shiftr_spec'. replace (i - n + n) with i by lia.
      destruct (N.lt_ge_cases i w) as [M|M]; [rewrite N.ones_spec_low by lia; apply andb_true_r|].
      rewrite N.ones_spec_high by lia. rewrite andb_false_r. symmetry. rewrite <- (N.mod_small x (2 ^ w) X). apply N.mod_pow2_bits_high, M. }
  rewrite E, N.shiftl_mul_pow2, N.shiftr_div_pow2. assert (D := N.div_mod' x (2 ^ n)). rewrite N.mul_comm. rewrite D at 2. rewrite N.add_sub. reflexivity.
Qed.
Lemma low_bits_spec w s x : x < 2 ^ w -> low_bits w s x = x mod 2 ^ N.of_nat s.
Proof.
  intros X. unfold low_bits. destruct (N.leb_spec w (N.of_nat s)) as [L|L].
  - symmetry. apply N.mod_small. eapply N.lt_le_trans; [exact X|apply pow2_le, L].
  - cbv zeta. rewrite static_shl_spec by apply ones_lt. rewrite ones_shl, ones_xor_top by lia. apply land_ones.
Qed.
Lemma low_bits_typed_spec w s x : x < 2 ^ w -> (N.of_nat s <= w) -> low_bits_typed w s (N.to_nat w) x = x mod 2 ^ N.of_nat s.
Proof.
  intros X L. unfold low_bits_typed. cbv zeta. rewrite static_shr_spec, Nat2N.inj_sub, N2Nat.id.
  rewrite ones_shr by lia. replace (w - (w - N.of_nat s)) with (N.of_nat s) by lia.
  destruct s as [|s]; cbn [Nat.eqb]; [rewrite N.land_0_r; rewrite N.mod_1_r; reflexivity|]. rewrite N.mul_1_l. apply land_ones.
Qed.
Lemma low_bits_narrow w s tb x : (0 < s <= tb)%nat -> N.of_nat tb <= w ->
  low_bits_typed w s tb x = x mod 2 ^ (w - N.of_nat tb + N.of_nat s).
Proof.
  intros L T. unfold low_bits_typed. cbv zeta. rewrite static_shr_spec, Nat2N.inj_sub, ones_shr by lia.
  replace (w - (N.of_nat tb - N.of_nat s)) with (w - N.of_nat tb + N.of_nat s) by lia.
  destruct s as [|s]; [lia|]. cbn [Nat.eqb]. rewrite N.mul_1_l. apply land_ones.
Qed.
Lemma size_sub_spec a b : b <= a -> a < 2 ^ 64 -> size_sub a b = a - b.
Proof.
  intros L A. unfold size_sub. rewrite (N.mod_small b) by lia. replace (a + (2 ^ 64 - b)) with (a - b + 1 * 2 ^ 64) by lia.
  rewrite N.mod_add by discriminate. apply N.mod_small. lia.
Qed.
Lemma low_bits_dynamic_spec w x n : w < 2 ^ 64 -> x < 2 ^ w -> low_bits_dynamic w w x n = x mod 2 ^ n.
Proof.
  intros W X. unfold low_bits_dynamic. destruct (N.leb_spec w n) as [L|L].
  - symmetry. apply N.mod_small. eapply N.lt_le_trans; [exact X|apply pow2_le, L].
  - cbv zeta. rewrite size_sub_spec by lia. destruct (N.eqb_spec n 0) as [->|E].
    + rewrite N.mul_0_l, N.land_0_r, N.mod_1_r. reflexivity.
    + rewrite N.mul_1_l, dynamic_shr_spec by apply ones_lt. rewrite ones_shr by lia. replace (w - (w - n)) with n by lia. apply land_ones.
Qed.
Lemma high_bits_dynamic_spec w x n : w < 2 ^ 64 -> x < 2 ^ w -> high_bits_dynamic w w x n = x - x mod 2 ^ (w - n).
Proof.
  intros W X. unfold high_bits_dynamic. destruct (N.leb_spec w n) as [L|L].
  - replace (w - n) with 0 by lia. rewrite N.pow_0_r, N.mod_1_r. lia.
  - cbv zeta. rewrite size_sub_spec by lia. destruct (N.eqb_spec n 0) as [->|E].
    + rewrite N.mul_0_l, N.land_0_r, N.sub_0_r. rewrite N.mod_small by exact X. lia.
    + rewrite N.mul_1_l, dynamic_shl_spec by lia. rewrite ones_shl by lia. apply land_top; [lia|exact X].
Qed.

Lemma complement_low k p : k <= 64 -> p < 2 ^ 64 -> N.land (2 ^ 64 - 1 - p) (2 ^ k - 1) = 2 ^ k - 1 - p mod 2 ^ k.
Proof.
  intros K P. change (2 ^ k - 1) with (ones k) at 1. rewrite land_ones.
  assert (E := N.div_mod' p (2 ^ k)). assert (M := N.mod_lt p (2 ^ k) (pow2_0 k)). assert (S := pow2_split k 64 K).
  set (q := p / 2 ^ k) in *. set (r := p mod 2 ^ k) in *.
  assert (Q : q < 2 ^ (64 - k)) by (apply N.div_lt_upper_bound; [apply pow2_0|rewrite <- S; exact P]).
  replace (2 ^ 64 - 1 - p) with (2 ^ k - 1 - r + (2 ^ (64 - k) - 1 - q) * 2 ^ k) by nia.
  rewrite N.mod_add by apply pow2_0. apply N.mod_small. lia.
Qed.
Lemma extract_spec size k v p : k <= 64 -> p < 2 ^ 64 ->
  extract_uint_t size k v p = (v / 2 ^ (8 * (2 ^ k - 1 - p mod 2 ^ k))) mod 2 ^ size.
Proof.
  intros K P. unfold extract_uint_t. cbv zeta. rewrite (complement_low k p K P), N.shiftr_div_pow2, N.shiftl_mul_pow2.
  f_equal. f_equal. f_equal. change (2 ^ 3) with 8. lia.
Qed.

Lemma joined_mod d args size a : (fold_left (fun acc x => acc * 2 ^ d + x) args (a mod 2 ^ size)) mod 2 ^ size =
  (fold_left (fun acc x => acc * 2 ^ d + x) args a) mod 2 ^ size.
Proof.
  revert a. induction args as [|x t IH]; intros a; cbn [fold_left]; [apply N.mod_mod, pow2_0|].
  rewrite <- (IH (a mod 2 ^ size * 2 ^ d + x)), <- (IH (a * 2 ^ d + x)). f_equal. f_equal.
  rewrite <- N.add_mod_idemp_l by apply pow2_0. rewrite N.mul_mod_idemp_l by apply pow2_0. rewrite N.add_mod_idemp_l by apply pow2_0. reflexivity.
Qed.
Lemma lor_add a d x : x < 2 ^ d -> N.lor (a * 2 ^ d) x = a * 2 ^ d + x.
Proof.
  intros H. rewrite <- N.shiftl_mul_pow2. assert (Z : N.land (N.shiftl a d) x = 0).
  { apply N.bits_inj. intros i. rewrite N.land_spec, N.bits_0. destruct (N.lt_ge_cases i d) as [L|L].
    - rewrite N.shiftl_spec_low by exact L. reflexivity.
    - rewrite <- (N.mod_small x (2 ^ d) H), N.mod_pow2_bits_high by exact L. apply andb_false_r. }
  symmetry. rewrite (N.add_nocarry_lxor _ _ Z). apply N.lxor_lor, Z.
Qed.
Lemma lor_mod a x s : N.lor a x mod 2 ^ s = N.lor (a mod 2 ^ s) x mod 2 ^ s.
Proof.
  rewrite <- !N.land_ones. apply N.bits_inj. intros i. rewrite !N.land_spec, !N.lor_spec, N.land_spec.
  destruct (N.testbit (N.ones s) i), (N.testbit a i), (N.testbit x i); reflexivity.
Qed.
Lemma mod_mod_le a s t : s <= t -> (a mod 2 ^ t) mod 2 ^ s = a mod 2 ^ s.
Proof.
  intros L. rewrite <- !N.land_ones. apply N.bits_inj. intros i. rewrite !N.land_spec.
  destruct (N.lt_ge_cases i s) as [M|M]; [rewrite !N.ones_spec_low by lia; rewrite !andb_true_r; reflexivity|].
  rewrite (N.ones_spec_high s i M), !andb_false_r. reflexivity.
Qed.
Lemma make_step_spec size d r x : d < N.max 32 size -> (size < 32 -> size + d <= 32) -> r < 2 ^ size -> x < 2 ^ d ->
  make_step size d r x = Some ((r * 2 ^ d + x) mod 2 ^ size).
Proof.
  intros D S R X. unfold make_step. rewrite (proj2 (N.leb_gt _ _) D).
  assert (C : (size <? 32) && (2 ^ 32 <=? N.shiftl r d) = false).
  { destruct (N.ltb_spec size 32) as [L|L]; [|reflexivity]. cbn [andb]. apply N.leb_gt. rewrite N.shiftl_mul_pow2.
    assert (B : 2 ^ (size + d) <= 2 ^ 32) by (apply pow2_le, S, L). rewrite N.pow_add_r in B.
    assert (A := pow2_0 d). nia. }
  rewrite C. f_equal. rewrite lor_mod, mod_mod_le by lia. rewrite <- lor_mod, N.shiftl_mul_pow2, lor_add by exact X. reflexivity.
Qed.
Lemma make_spec size d args : d < N.max 32 size -> (size < 32 -> size + d <= 32) -> Forall (fun x => x < 2 ^ d) args ->
  make_uint_t size d args = Some (joined d args mod 2 ^ size).
Proof.
  intros D S F. unfold make_uint_t, joined.
  assert (G : forall r, r < 2 ^ size -> make_loop size d args r = Some (fold_left (fun acc x => acc * 2 ^ d + x) args r mod 2 ^ size)).
  { induction F as [|x t X F IH]; intros r R; cbn [make_loop fold_left]; [rewrite N.mod_small by exact R; reflexivity|].
    rewrite (make_step_spec size d r x D S R X), IH by (apply N.mod_lt, pow2_0). f_equal. apply joined_mod. }
  apply G. assert (A := pow2_0 size). lia.
Qed.
(** signed argument types *)
Lemma signed_value_nonneg d W x : d < W -> (0 <= x < 2 ^ Z.of_N d)%Z -> Z.to_N (x mod 2 ^ Z.of_N W)%Z = Z.to_N x.
Proof.
  intros D X. f_equal. apply Z.mod_small. split; [lia|]. apply Z.lt_le_trans with (2 ^ Z.of_N d)%Z; [lia|].
  apply Z.pow_le_mono_r; lia.
Qed.
Lemma to_N_lt_pow d x : (0 <= x < 2 ^ Z.of_N d)%Z -> Z.to_N x < 2 ^ d.
Proof. intros X. apply N2Z.inj_lt. rewrite Z2N.id, N2Z.inj_pow by lia. exact (proj2 X). Qed.
Lemma make_step_signed_nonneg size d r x : d < N.max 32 size -> (size < 32 -> size + d <= 32) -> r < 2 ^ size ->
  (0 <= x < 2 ^ Z.of_N d)%Z -> make_step_signed size d r x = Some ((r * 2 ^ d + Z.to_N x) mod 2 ^ size).
Proof.
  intros D S R X. unfold make_step_signed. rewrite (signed_value_nonneg d) by (lia || exact X).
  apply make_step_spec; auto. apply to_N_lt_pow, X.
Qed.
Lemma negative_bits d x i : (- 2 ^ Z.of_N d <= x < 0)%Z -> (Z.of_N d <= i)%Z -> Z.testbit x i = true.
Proof.
  intros X I. replace x with (Z.lnot (Z.lnot x)) by (apply Z.lnot_involutive). rewrite Z.lnot_spec by lia.
  assert (Y : (0 <= Z.lnot x < 2 ^ Z.of_N d)%Z) by (unfold Z.lnot; lia).
  rewrite <- (Z.mod_small _ _ Y), Z.mod_pow2_bits_high by lia. reflexivity.
Qed.
Lemma make_step_defined size d r x : d < N.max 32 size -> (size < 32 -> size + d <= 32) -> r < 2 ^ size ->
  make_step size d r x = Some (N.lor (r * 2 ^ d) x mod 2 ^ size).
Proof.
  intros D S R. unfold make_step. rewrite (proj2 (N.leb_gt _ _) D).
  assert (C : (size <? 32) && (2 ^ 32 <=? N.shiftl r d) = false).
  { destruct (N.ltb_spec size 32) as [L|L]; [|reflexivity]. cbn [andb]. apply N.leb_gt. rewrite N.shiftl_mul_pow2.
    assert (B : 2 ^ (size + d) <= 2 ^ 32) by (apply pow2_le, S, L). rewrite N.pow_add_r in B.
    assert (A := pow2_0 d). nia. }
  rewrite C. f_equal. rewrite lor_mod, mod_mod_le by lia. rewrite <- lor_mod, N.shiftl_mul_pow2. reflexivity.
Qed.
Lemma make_step_signed_negative size d r x : d < N.max 32 size -> (size < 32 -> size + d <= 32) -> r < 2 ^ size ->
  (- 2 ^ Z.of_N d <= x < 0)%Z -> make_step_signed size d r x = Some (Z.to_N (x mod 2 ^ Z.of_N size)%Z).
Proof.
  intros D S R X. unfold make_step_signed. rewrite make_step_defined by auto. f_equal.
  set (W := N.max 32 (N.max size (d + 1))).
  assert (PW : (0 < 2 ^ Z.of_N W)%Z) by (apply Z.pow_pos_nonneg; lia).
  assert (PS : (0 < 2 ^ Z.of_N size)%Z) by (apply Z.pow_pos_nonneg; lia).
  assert (MW := Z.mod_pos_bound x _ PW). assert (MS := Z.mod_pos_bound x _ PS).
  apply N.bits_inj. intros i.
  assert (E : forall y, (0 <= y)%Z -> N.testbit (Z.to_N y) i = Z.testbit y (Z.of_N i)).
  { intros y Y. rewrite <- N2Z.inj_testbit, Z2N.id by exact Y. reflexivity. }
  destruct (N.lt_ge_cases i size) as [L|L].
  - rewrite N.mod_pow2_bits_low, N.lor_spec, !E by lia.
    rewrite !Z.mod_pow2_bits_low by (subst W; lia).
    destruct (N.lt_ge_cases i d) as [M|M].
    + rewrite N.mul_pow2_bits_low by exact M. reflexivity.
    + rewrite (negative_bits d x) by (exact X || lia). apply orb_true_r.
  - rewrite N.mod_pow2_bits_high, E, Z.mod_pow2_bits_high by lia. reflexivity.
Qed.
Lemma make_step_signed_lt size d r x v : make_step_signed size d r x = Some v -> v < 2 ^ size.
Proof.
  unfold make_step_signed, make_step. destruct (N.max 32 size <=? d); [discriminate|].
  destruct ((size <? 32) && _); [discriminate|]. intros [= <-]. apply N.mod_lt, pow2_0.
Qed.
Lemma make_signed_spec size d args : d < N.max 32 size -> (size < 32 -> size + d <= 32) ->
  Forall (fun x => 0 <= x < 2 ^ Z.of_N d)%Z args ->
  make_uint_t_signed size d args = Some (joined d (map Z.to_N args) mod 2 ^ size).
Proof.
  intros D S F. unfold make_uint_t_signed, joined.
  assert (G : forall r, r < 2 ^ size -> make_loop_signed size d args r =
    Some (fold_left (fun acc x => acc * 2 ^ d + x) (map Z.to_N args) r mod 2 ^ size)).
  { induction F as [|x t X F IH]; intros r R; cbn [make_loop_signed map fold_left]; [rewrite N.mod_small by exact R; reflexivity|].
    rewrite (make_step_signed_nonneg size d r x D S R X), IH by (apply N.mod_lt, pow2_0). f_equal. apply joined_mod. }
  apply G. assert (A := pow2_0 size). lia.
Qed.
Lemma make_signed_negative size d args x : d < N.max 32 size -> (size < 32 -> size + d <= 32) ->
  Forall (fun x => - 2 ^ Z.of_N d <= x < 2 ^ Z.of_N d)%Z args -> (- 2 ^ Z.of_N d <= x < 0)%Z ->
  make_uint_t_signed size d (args ++ [x]) = Some (Z.to_N (x mod 2 ^ Z.of_N size)%Z).
Proof.
  intros D S F X. unfold make_uint_t_signed.
  assert (G : forall r, r < 2 ^ size -> make_loop_signed size d (args ++ [x]) r = Some (Z.to_N (x mod 2 ^ Z.of_N size)%Z)).
  { induction F as [|y t Y F IH]; intros r R; cbn [make_loop_signed app].
    - rewrite (make_step_signed_negative size d r x D S R X). reflexivity.
    - destruct (make_step_signed size d r y) as [v|] eqn:V; [exact (IH v (make_step_signed_lt _ _ _ _ _ V))|]. exfalso.
      destruct (Z.lt_ge_cases y 0) as [N|N].
      + rewrite (make_step_signed_negative size d r y D S R) in V by lia. discriminate V.
      + rewrite (make_step_signed_nonneg size d r y D S R) in V by lia. discriminate V. }
  apply G. assert (A := pow2_0 size). lia.
Qed.
