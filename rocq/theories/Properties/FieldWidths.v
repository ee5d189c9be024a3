(** C73: the declared bit lengths are those of the moduli, and hold what they are used for. *)
From Coq Require Import ZArith List Bool Lia Znumtheory.
From Verif Require Import Base.Field Base.Zp Spec.Widths Model.FieldParams Model.FieldWidths Model.Marshalling Properties.Marshalling.
Import ListNotations.
Local Open Scope Z_scope.

(** modulus_bits is the length of the modulus, for all 94 fields *)
Theorem C73_modulus_bits b p : In (b, p) field_widths -> bit_length b p.
Proof.
  intros H.
  assert (Q : forallb (fun r => (0 <? fst r) && (2 ^ (fst r - 1) <=? snd r) && (snd r <? 2 ^ fst r)) field_widths = true) by (vm_compute; reflexivity).
  rewrite forallb_forall in Q. specialize (Q _ H). cbn [fst snd] in Q. rewrite !andb_true_iff, !Z.ltb_lt, Z.leb_le in Q. unfold bit_length. tauto.
Qed.
(** so integral_type holds the modulus and every residue, and nothing narrower holds the modulus *)
Theorem C73_integral_type b p : In (b, p) field_widths ->
  (forall x, residue p x -> 0 <= x < 2 ^ b) /\ (forall c, 0 <= c -> p < 2 ^ c -> b <= c).
Proof.
  intros H. destruct (C73_modulus_bits b p H) as (B & L & U). split; [unfold residue; intros; lia|].
  intros c C Hc. assert (2 ^ (b - 1) < 2 ^ c) by lia. apply Z.pow_lt_mono_r_iff in H0; lia.
Qed.
(** extended_integral_type holds the product of up to sixteen residues *)
Theorem C73_extended_type b p l : In (b, p) field_widths -> (length l <= 16)%nat -> Forall (residue p) l ->
  0 <= product l < 2 ^ extended_bits b.
Proof.
  intros H N F. destruct (C73_modulus_bits b p H) as (B & L & U).
  assert (G : 0 <= product l <= 2 ^ (Z.of_nat (length l) * b) /\ (l <> [] -> product l < 2 ^ (Z.of_nat (length l) * b))).
  { clear N. induction F as [|x l X F IH]; [change (2 ^ (Z.of_nat (length (@nil Z)) * b)) with 1; cbn [product]; split; [lia|congruence]|].
    cbn [product length]. unfold residue in X.
    rewrite Nat2Z.inj_succ. replace (Z.succ (Z.of_nat (length l)) * b) with (b + Z.of_nat (length l) * b) by lia.
    assert (E : 2 ^ (b + Z.of_nat (length l) * b) = 2 ^ b * 2 ^ (Z.of_nat (length l) * b)) by (apply Z.pow_add_r; nia).
    assert (P : 0 < 2 ^ (Z.of_nat (length l) * b)) by (apply Z.pow_pos_nonneg; nia).
    assert (S : 0 <= x * product l < 2 ^ (b + Z.of_nat (length l) * b)) 
      by (rewrite E; split; [apply Z.mul_nonneg_nonneg; lia|];
          apply (Z.le_lt_trans _ (x * 2 ^ (Z.of_nat (length l) * b))); [apply Z.mul_le_mono_nonneg_l; lia|apply Z.mul_lt_mono_pos_r; lia]).
    split; [|intros _]; clear - S; set (q := x * product l) in *; lia. }
  destruct G as (G1 & G2). split; [lia|]. unfold extended_bits.
  destruct l as [|x l]; [cbn [product]; apply Z.pow_gt_1; lia|]. specialize (G2 ltac:(discriminate)).
  apply (Z.lt_le_trans _ _ _ G2). apply Z.pow_le_mono_r; [lia|]. nia.
Qed.
(** value_bits bits hold an element of the field or of an extension: the coefficients side by side *)
Theorem C73_value_bits b p k l l' : In (b, p) field_widths -> In k arities ->
  Z.of_nat (length l) = k -> Z.of_nat (length l') = k -> Forall (residue p) l -> Forall (residue p) l' ->
  0 <= pack b l < 2 ^ value_bits k b /\ (pack b l = pack b l' -> l = l').
Proof.
  intros H _ N N' F F'. destruct (C73_modulus_bits b p H) as (B & L & U). split.
  - subst k. clear N' F'. unfold value_bits. induction F as [|x l X F IH]; [cbn; lia|]. cbn [pack length]. unfold residue in X.
    rewrite Nat2Z.inj_succ. replace (Z.succ (Z.of_nat (length l)) * b) with (b + Z.of_nat (length l) * b) by lia.
    rewrite Z.pow_add_r by nia. nia.
  - rewrite <- N in N'. clear N. revert l' N' F'. induction F as [|x l X F IH]; intros [|y l'] N' F' E; try discriminate N'; [reflexivity|].
    apply Forall_inv in F' as Y. apply Forall_inv_tail in F' as F''. unfold residue in X, Y. cbn [pack length] in E, N'.
    assert (T : 0 < 2 ^ b) by lia.
    assert (M : (x + 2 ^ b * pack b l) mod 2 ^ b = (y + 2 ^ b * pack b l') mod 2 ^ b) by (rewrite E; reflexivity).
    rewrite !(Z.mul_comm (2 ^ b)), !Z.mod_add, !Z.mod_small in M by lia. subst y.
    f_equal. apply IH; [lia|exact F''|nia].
Qed.
(** one bit more holds a point of y^2 = g(x) over the prime field: x and the parity of y *)
Theorem C73_point_bits b p g x y x' y' : In (b, p) field_widths -> prime p -> p <> 2 ->
  residue p x -> residue p y -> residue p x' -> residue p y' ->
  (y * y) mod p = g x -> (y' * y') mod p = g x' ->
  0 <= compress x y < 2 ^ point_bits 1 b /\ (compress x y = compress x' y' -> x = x' /\ y = y').
Proof.
  intros H Hp P2 X Y X' Y' E E'. destruct (C73_modulus_bits b p H) as (B & L & U). unfold residue in *. unfold compress, point_bits, value_bits.
  assert (M := Z.mod_pos_bound y 2 ltac:(lia)). assert (M' := Z.mod_pos_bound y' 2 ltac:(lia)). split.
  - rewrite Z.mul_1_l, Z.pow_add_r by lia. lia.
  - intros C. assert (EX : x = x') by lia. split; [exact EX|]. subst x'. assert (EY : y mod 2 = y' mod 2) by lia.
    assert (D : (p | (y - y') * (y + y'))).
    { apply Z.mod_divide; [lia|]. replace ((y - y') * (y + y')) with (y * y - y' * y') by ring.
      rewrite Zminus_mod, E, E', Z.sub_diag. apply Z.mod_0_l. lia. }
    assert (OP : p mod 2 = 1).
    { destruct (Z.eq_dec (p mod 2) 0) as [Q|Q]; [|assert (W := Z.mod_pos_bound p 2 ltac:(lia)); lia].
      exfalso. apply Z.mod_divide in Q; [|lia]. destruct (prime_divisors p Hp 2 Q) as [A|[A|[A|A]]]; lia. }
    destruct (prime_mult p Hp _ _ D) as [[q Q]|[q Q]].
    + assert (q = 0) by nia. subst q. lia.
    + assert (W1 := Z.div_mod y 2 ltac:(lia)). assert (W2 := Z.div_mod y' 2 ltac:(lia)). assert (W3 := Z.div_mod p 2 ltac:(lia)).
      assert (Z01 : q = 0 \/ q = 1) by nia. destruct Z01; subst q; lia.
Qed.

(** C41 for every shipped field, with an integral_type that drops what exceeds modulus_bits *)
Theorem C41_prime_roundtrip_shipped b p (x : Zp p) : In (b, p) field_widths ->
  let bits := Z.to_nat b in
  exists w, fp_to_bytes p bits x (repeat 0%N (modulus_chunks bits)) = Some w /\ written p bits x w /\
    fp_from_bytes p bits (fun v => v mod 2 ^ Z.to_N b)%N w = Some (true, x).
Proof.
  intros H bits. destruct (C73_modulus_bits b p H) as (B & L & U). apply C41_prime_roundtrip.
  assert (P1 : 1 < p).
  { assert (Q : forallb (fun r => 1 <? snd r) field_widths = true) by (vm_compute; reflexivity).
    rewrite forallb_forall in Q. apply Z.ltb_lt, (Q _ H). }
  split; [unfold bits; rewrite Z2Nat.id; lia|]. intros v V. apply N.mod_small. apply N2Z.inj_lt. rewrite N2Z.inj_pow, Z2N.id by lia.
  change (Z.of_N 2) with 2. lia.
Qed.

Example C73_count : length field_widths = 94%nat /\ In (255, bls12_scalar_field_381_modulus) field_widths /\
  In (298, mnt4_base_field_298_modulus) field_widths.
Proof. split; [reflexivity|]. split; unfold field_widths; repeat (first [left; reflexivity|right]). Qed.
(** four coefficients of mnt4's Fp4 side by side, and what two of them would lose in one bit less *)
Example C73_case : pack 298 [1; 2; 0; 5] = 1 + 2 * 2 ^ 298 + 5 * 2 ^ 894 /\ value_bits 4 298 = 1192 /\
  pack 297 [2 ^ 297; 0] = pack 297 [0; 1] /\ residue mnt4_base_field_298_modulus (2 ^ 297).
Proof. repeat split; vm_compute; try reflexivity; discriminate. Qed.
(** (4, 6) and (4, 7) on y^2 = x^3 + 2 x + 3 over Z/13 *)
Example C73_points : compress 4 6 = 8 /\ compress 4 7 = 9 /\ (6 * 6) mod 13 = (4 ^ 3 + 2 * 4 + 3) mod 13 /\ (7 * 7) mod 13 = (4 ^ 3 + 2 * 4 + 3) mod 13.
Proof. repeat split. Qed.

Print Assumptions C73_modulus_bits.
Print Assumptions C73_integral_type.
Print Assumptions C73_extended_type.
Print Assumptions C73_value_bits.
Print Assumptions C73_point_bits.
Print Assumptions C41_prime_roundtrip_shipped.
