(** C67, C68: the shift, mask and octet helpers of nil/crypto3/detail. *)
From Coq Require Import ZArith NArith List Bool Lia.
From Verif Require Import Spec.Joined Model.Shifts Proof.Shifts.
Import ListNotations.
Local Open Scope N_scope.

(** ** C67 *)
Theorem C67_static_shl w s x : x < 2 ^ w -> static_shl w s x = (x * 2 ^ N.of_nat s) mod 2 ^ w.
Proof. exact (static_shl_spec w s x). Qed.
Print Assumptions C67_static_shl.
Theorem C67_static_shr s x : static_shr s x = x / 2 ^ N.of_nat s.
Proof. exact (static_shr_spec s x). Qed.
Print Assumptions C67_static_shr.
Theorem C67_shr w x n : x < 2 ^ w -> dynamic_shr w x n = x / 2 ^ n.
Proof. exact (dynamic_shr_spec w x n). Qed.
Print Assumptions C67_shr.
(** unbounded_shl(x, n) with n known only at run time.  Full statement: [(x * 2 ^ n) mod 2 ^ w] for
    every n; from n = w on the code shifts by n mod w instead *)
Theorem C67_shl_partial w x n : n < w -> dynamic_shl w x n = (x * 2 ^ n) mod 2 ^ w.
Proof. exact (dynamic_shl_spec w x n). Qed.
Print Assumptions C67_shl_partial.
Theorem C67_shl_wraps w x n : w <> 0 -> dynamic_shl w x n = (x * 2 ^ (n mod w)) mod 2 ^ w.
Proof. exact (dynamic_shl_wraps w x n). Qed.
Print Assumptions C67_shl_wraps.
(** so every non-zero x is returned unchanged when all its bits are shifted out *)
Theorem C67_shl_refuted w x : w <> 0 -> x <> 0 -> x < 2 ^ w ->
  dynamic_shl w x w = x /\ dynamic_shl w x w <> (x * 2 ^ w) mod 2 ^ w /\ dynamic_shl w x w <> static_shl w (N.to_nat w) x.
Proof.
  intros W X L. assert (E : dynamic_shl w x w = x).
  { rewrite (dynamic_shl_wraps w x w W), N.mod_same, N.pow_0_r, N.mul_1_r, N.mod_small by assumption. reflexivity. }
  rewrite E, (static_shl_spec w _ x L), N2Nat.id, N.mod_mul by apply pow2_0. auto.
Qed.
Print Assumptions C67_shl_refuted.
(** low_bits in its three forms, [T] having as many bits as it is told *)
Theorem C67_low_bits w s x : x < 2 ^ w -> low_bits w s x = x mod 2 ^ N.of_nat s.
Proof. exact (low_bits_spec w s x). Qed.
Print Assumptions C67_low_bits.
Theorem C67_low_bits_typed w s x : x < 2 ^ w -> N.of_nat s <= w -> low_bits_typed w s (N.to_nat w) x = x mod 2 ^ N.of_nat s.
Proof. exact (low_bits_typed_spec w s x). Qed.
Print Assumptions C67_low_bits_typed.
(** low_bits<0> is 0 whatever it is told; told of fewer bits than T has, low_bits<s> keeps
    that many bits too many, so a value that fits the stated width is not cut to s bits *)
Theorem C67_low_bits_none w tb x : low_bits_typed w 0 tb x = 0.
Proof. unfold low_bits_typed. cbn [Nat.eqb]. apply N.land_0_r. Qed.
Print Assumptions C67_low_bits_none.
Theorem C67_low_bits_narrow w s tb x : (0 < s <= tb)%nat -> N.of_nat tb <= w ->
  low_bits_typed w s tb x = x mod 2 ^ (w - N.of_nat tb + N.of_nat s).
Proof. exact (low_bits_narrow w s tb x). Qed.
Print Assumptions C67_low_bits_narrow.
Theorem C67_low_bits_narrow_refuted : exists w s tb x, (0 < s <= tb)%nat /\ N.of_nat tb <= w /\ x < 2 ^ N.of_nat tb /\
  low_bits_typed w s tb x <> x mod 2 ^ N.of_nat s.
Proof. exists 16, 3%nat, 8%nat, 0xff. repeat split; try lia; vm_compute; try discriminate. Qed.
Print Assumptions C67_low_bits_narrow_refuted.
Theorem C67_low_bits_dynamic w x n : w < 2 ^ 64 -> x < 2 ^ w -> low_bits_dynamic w w x n = x mod 2 ^ n.
Proof. exact (low_bits_dynamic_spec w x n). Qed.
Print Assumptions C67_low_bits_dynamic.
(** high_bits clears all but the n top bits *)
Theorem C67_high_bits w x n : w < 2 ^ 64 -> x < 2 ^ w -> high_bits_dynamic w w x n = x - x mod 2 ^ (w - n).
Proof. exact (high_bits_dynamic_spec w x n). Qed.
Print Assumptions C67_high_bits.
Example C67_case : static_shl 8 9 0xa7 = 0 /\ dynamic_shl 8 0xa7 9 = 0x4e /\ dynamic_shr 8 0xa7 9 = 0 /\ low_bits 16 5 0xabcd = 0xd /\
  low_bits_typed 16 5 16 0xabcd = 0xd /\ low_bits_dynamic 16 16 0xabcd 5 = 0xd /\ high_bits_dynamic 16 16 0xabcd 5 = 0xa800.
Proof. repeat split. Qed.
Example C67_wrap_case : dynamic_shl 8 0xa7 3 = 0x38 /\ dynamic_shl 8 0xa7 11 = 0x38 /\ dynamic_shl 8 0xa7 8 = 0xa7 /\ static_shl 8 8 0xa7 = 0 /\
  low_bits_typed 16 3 8 0xff = 0xff /\ low_bits_typed 16 3 16 0xff = 7 /\ low_bits_typed 16 0 8 0xff = 0.
Proof. repeat split. Qed.

(** ** C68: [joined d args] is the number with the base 2^d digits args, the most significant first *)
Theorem C68_joined_nil d : joined d [] = 0.
Proof. reflexivity. Qed.
Print Assumptions C68_joined_nil.
Theorem C68_joined_snoc d args x : joined d (args ++ [x]) = joined d args * 2 ^ d + x.
Proof. unfold joined. rewrite fold_left_app. reflexivity. Qed.
Print Assumptions C68_joined_snoc.
(** the hypotheses hold for arguments of 8 and 16 bits and every result type, and for 32-bit arguments of a 64-bit result *)
Theorem C68_make_partial size d args : In size [8; 16; 32; 64] -> d = 8 \/ d = 16 \/ d = 32 /\ size = 64 -> Forall (fun x => x < 2 ^ d) args ->
  make_uint_t size d args = Some (joined d args mod 2 ^ size).
Proof.
  intros I D F. apply make_spec; [| |exact F]; cbn [In] in I; lia.
Qed.
Print Assumptions C68_make_partial.
(** full statement: for every argument type.  A single argument of the width of a 32- or 64-bit result, and any
    32- or 64-bit argument of a narrower result, is shifted in by that width, which is undefined *)
Theorem C68_make_refuted size d x rest : In size [8; 16; 32; 64] -> d = 64 \/ d = 32 /\ size <> 64 ->
  make_uint_t size d (x :: rest) = None.
Proof.
  intros I D. unfold make_uint_t. cbn [make_loop]. unfold make_step.
  replace (N.max 32 size <=? d) with true; [reflexivity|]. symmetry. apply N.leb_le. cbn [In] in I. lia.
Qed.
Print Assumptions C68_make_refuted.
(** signed argument types have one digit less than they have bits: 7, 15, 31, 63.  The hypotheses hold for signed
    char and short, for int and a result of 32 or 64 bits, and for long long and a result of 64 bits *)
Theorem C68_make_signed_partial size d args : In size [8; 16; 32; 64] -> d = 7 \/ d = 15 \/ d = 31 /\ 32 <= size \/ d = 63 /\ size = 64 ->
  Forall (fun x => 0 <= x < 2 ^ Z.of_N d)%Z args ->
  make_uint_t_signed size d args = Some (joined d (map Z.to_N args) mod 2 ^ size).
Proof. intros I D F. apply make_signed_spec; [| |exact F]; cbn [In] in I; lia. Qed.
Print Assumptions C68_make_signed_partial.
(** full statement: for every list of arguments.  A negative argument overwrites all the ones before it *)
Theorem C68_make_negative_refuted size d args x : In size [8; 16; 32; 64] ->
  d = 7 \/ d = 15 \/ d = 31 /\ 32 <= size \/ d = 63 /\ size = 64 ->
  Forall (fun x => - 2 ^ Z.of_N d <= x < 2 ^ Z.of_N d)%Z args -> (- 2 ^ Z.of_N d <= x < 0)%Z ->
  make_uint_t_signed size d (args ++ [x]) = Some (Z.to_N (x mod 2 ^ Z.of_N size)%Z).
Proof. intros I D F X. apply make_signed_negative; [| |exact F|exact X]; cbn [In] in I; lia. Qed.
Print Assumptions C68_make_negative_refuted.
(** full statement: octets given as int are put together as octets.  They are 31 bits apart, and all but the last bit
    of the first is lost *)
Theorem C68_int_octets_refuted a b : (0 <= a < 256)%Z -> (0 <= b < 256)%Z ->
  make_uint_t_signed 32 31 [a; b] = Some (Z.to_N (a mod 2 * 2 ^ 31 + b)%Z).
Proof.
  intros A B. rewrite make_signed_spec by (lia || (repeat constructor; cbn; lia)). f_equal.
  unfold joined. cbn [map fold_left]. change (2 ^ 31) with 2147483648. change (2 ^ 32) with 4294967296. change (2 ^ 31)%Z with 2147483648%Z.
  assert (M := Z.mod_pos_bound a 2 eq_refl). assert (Q := Z.div_mod a 2 ltac:(lia)).
  symmetry. apply (N.mod_unique _ _ (Z.to_N (a / 2))); lia.
Qed.
Print Assumptions C68_int_octets_refuted.
(** full statement: for every argument type.  long long is undefined for a narrower result, and int for a result of
    8 or 16 bits when the value put together before the last argument is 2 or more *)
Theorem C68_make_long_refuted size x rest : In size [8; 16; 32] -> make_uint_t_signed size 63 (x :: rest) = None.
Proof.
  intros I. unfold make_uint_t_signed. cbn [make_loop_signed]. unfold make_step_signed, make_step.
  replace (N.max 32 size <=? 63) with true; [reflexivity|]. symmetry. apply N.leb_le. cbn [In] in I. lia.
Qed.
Print Assumptions C68_make_long_refuted.
Theorem C68_make_int_refuted size x y rest : In size [8; 16] -> (2 <= x < 2 ^ Z.of_N size)%Z ->
  make_uint_t_signed size 31 (x :: y :: rest) = None.
Proof.
  intros I X. unfold make_uint_t_signed. cbn [make_loop_signed].
  assert (L : (2 ^ Z.of_N size < 2 ^ 31)%Z) by (apply Z.pow_lt_mono_r; cbn [In] in I; lia).
  assert (E : make_step_signed size 31 0 x = Some (Z.to_N x)).
  { unfold make_step_signed, make_step. rewrite (proj2 (N.leb_gt _ 31)) by lia.
    rewrite N.shiftl_0_l, andb_false_r, N.mod_0_l, N.lor_0_l by (try discriminate; apply pow2_0). f_equal.
    rewrite (signed_value_nonneg 31) by (change (Z.of_N 31) with 31%Z; lia). apply N.mod_small, to_N_lt_pow. lia. }
  rewrite E. unfold make_step_signed, make_step. rewrite (proj2 (N.leb_gt _ 31)) by lia.
  rewrite (proj2 (N.ltb_lt size 32)) by (cbn [In] in I; lia).
  rewrite (proj2 (N.leb_le (2 ^ 32) _)); [reflexivity|]. rewrite N.shiftl_mul_pow2.
  change (2 ^ 32) with 4294967296. change (2 ^ 31) with 2147483648. lia.
Qed.
Print Assumptions C68_make_int_refuted.
Example C68_signed_case : make_uint_t_signed 32 7 [0x12; 0x34]%Z = Some 0x934 /\ make_uint_t_signed 32 7 [0x12; -1]%Z = Some 0xffffffff /\
  make_uint_t_signed 32 31 [0x12; 0x34]%Z = Some 0x34 /\ make_uint_t_signed 16 63 [1]%Z = None /\ make_uint_t_signed 16 31 [2; 1]%Z = None /\
  make_uint_t_signed 64 31 [3; 1]%Z = Some 0x180000001.
Proof. repeat split. Qed.
(** extract_uint_t<size>(v, position) on an integer of 2^k octets: the octets from v's octet number
    position (the most significant is number 0; taken modulo 2^k) upwards, cut to size bits *)
Theorem C68_extract size k v position : k <= 64 -> position < 2 ^ 64 ->
  extract_uint_t size k v position = (v / 2 ^ (8 * (2 ^ k - 1 - position mod 2 ^ k))) mod 2 ^ size.
Proof. exact (extract_spec size k v position). Qed.
Print Assumptions C68_extract.
(** extracting the octets of what make_uint_t put together *)
Theorem C68_roundtrip a b c d : Forall (fun x => x < 256) [a; b; c; d] ->
  exists v, make_uint_t 32 8 [a; b; c; d] = Some v /\ map (extract_uint_t 8 2 v) [0; 1; 2; 3] = [a; b; c; d].
Proof.
  intros F. eexists. split; [apply C68_make_partial; [cbn; tauto|auto|exact F]|].
  assert (A := Forall_inv F). assert (F1 := Forall_inv_tail F). assert (B := Forall_inv F1). assert (F2 := Forall_inv_tail F1).
  assert (C := Forall_inv F2). assert (D := Forall_inv (Forall_inv_tail F2)). cbv beta in A, B, C, D.
  unfold joined. cbn [fold_left map]. rewrite !extract_spec by (cbn; lia).
  change (2 ^ 8) with 256. change (2 ^ 32) with 4294967296.
  change (2 ^ (8 * (2 ^ 2 - 1 - 0 mod 2 ^ 2))) with 16777216. change (2 ^ (8 * (2 ^ 2 - 1 - 1 mod 2 ^ 2))) with 65536.
  change (2 ^ (8 * (2 ^ 2 - 1 - 2 mod 2 ^ 2))) with 256. change (2 ^ (8 * (2 ^ 2 - 1 - 3 mod 2 ^ 2))) with 1.
  set (v := (((0 * 256 + a) * 256 + b) * 256 + c) * 256 + d).
  assert (V : v = 16777216 * a + (65536 * b + (256 * c + d))) by (unfold v; lia).
  rewrite (N.mod_small v) by lia.
  assert (E0 : v / 16777216 = a) by (symmetry; apply (N.div_unique v _ a (65536 * b + (256 * c + d))); lia).
  assert (E1 : v / 65536 = 256 * a + b) by (symmetry; apply (N.div_unique v _ (256 * a + b) (256 * c + d)); lia).
  assert (E2 : v / 256 = 65536 * a + 256 * b + c) by (symmetry; apply (N.div_unique v _ _ d); lia).
  rewrite E0, E1, E2, N.div_1_r.
  rewrite <- (N.mod_unique a 256 0 a) by lia. rewrite <- (N.mod_unique (256 * a + b) 256 a b) by lia.
  rewrite <- (N.mod_unique (65536 * a + 256 * b + c) 256 (256 * a + b) c) by lia.
  rewrite <- (N.mod_unique v 256 (65536 * a + 256 * b + c) d) by lia. reflexivity.
Qed.
Print Assumptions C68_roundtrip.
Example C68_case : make_uint_t 32 8 [0x12; 0x34; 0x56; 0x78] = Some 0x12345678 /\ extract_uint_t 8 2 0x12345678 1 = 0x34 /\
  make_uint_t 16 8 [0x12; 0x34; 0x56] = Some 0x3456 /\ make_uint_t 32 32 [7] = None /\ make_uint_t 64 32 [7; 9] = Some 0x700000009 /\
  extract_uint_t 16 2 0x12345678 2 = 0x3456 /\ map (extract_uint_t 8 2 0x12345678) [0; 1; 2; 3] = [0x12; 0x34; 0x56; 0x78].
Proof. repeat split. Qed.
