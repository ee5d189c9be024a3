(** Octet strings: export_bits, import_bits, fixed-length little-endian strings. *)
From Coq Require Import ZArith NArith List Bool Lia.
From Verif Require Import Model.Marshalling.
Import ListNotations.
Local Open Scope N_scope.

Definition byte (b : N) : Prop := b < 256.
Lemma chunks_cons b l : chunks_value (b :: l) = b + 256 * chunks_value l.
Proof. reflexivity. Qed.
Lemma chunks_app a b : chunks_value (a ++ b) = chunks_value a + 256 ^ N.of_nat (length a) * chunks_value b.
Proof.
  induction a as [|x a IH]; [cbn [app length]; cbn [chunks_value fold_right]; change (256 ^ N.of_nat 0) with 1; lia|].
  cbn [app length]. rewrite !chunks_cons, IH, Nat2N.inj_succ, N.pow_succ_r'. lia.
Qed.
Lemma chunks_repeat k : chunks_value (repeat 0 k) = 0.
Proof. induction k as [|k IH]; [reflexivity|]. cbn [repeat]. rewrite chunks_cons, IH. reflexivity. Qed.
Lemma pow256_pos n : 0 < 256 ^ N.of_nat n.
Proof. apply N.neq_0_lt_0, N.pow_nonzero. discriminate. Qed.
Lemma pow256_S n : 256 ^ N.of_nat (S n) = 256 * 256 ^ N.of_nat n.
Proof. rewrite Nat2N.inj_succ, N.pow_succ_r'. reflexivity. Qed.
Lemma chunks_bound l : Forall byte l -> chunks_value l < 256 ^ N.of_nat (length l).
Proof.
  induction l as [|b l IH]; intros H; [reflexivity|]. inversion H; subst.
  cbn [length]. rewrite chunks_cons, pow256_S. specialize (IH H3). unfold byte in H2. lia.
Qed.

(** n octets, least significant first *)
Fixpoint le (n : nat) (v : N) : list N :=
  match n with O => [] | S n' => v mod 256 :: le n' (v / 256) end.
Lemma le_length n v : length (le n v) = n.
Proof. revert v. induction n as [|n IH]; intros v; cbn; auto. Qed.
Lemma le_bytes n v : Forall byte (le n v).
Proof. revert v. induction n as [|n IH]; intros v; cbn; constructor; auto. apply N.mod_lt. discriminate. Qed.
Lemma chunks_le n v : v < 256 ^ N.of_nat n -> chunks_value (le n v) = v.
Proof.
  revert v. induction n as [|n IH]; intros v H.
  - change (256 ^ N.of_nat 0) with 1 in H. cbn. lia.
  - cbn [le]. rewrite chunks_cons, IH.
    + assert (D := N.div_mod v 256). lia.
    + rewrite pow256_S in H. apply N.div_lt_upper_bound; [discriminate|exact H].
Qed.
Lemma le_chunks l : Forall byte l -> le (length l) (chunks_value l) = l.
Proof.
  induction l as [|b l IH]; intros H; [reflexivity|]. inversion H; subst. cbn [length le].
  rewrite chunks_cons, N.mul_comm, N.mod_add, N.div_add by discriminate.
  rewrite N.mod_small, N.div_small, N.add_0_l, IH by assumption. reflexivity.
Qed.
Lemma le_app k j v : le (k + j) v = le k v ++ le j (v / 256 ^ N.of_nat k).
Proof.
  revert v. induction k as [|k IH]; intros v.
  - cbn [Nat.add le app]. change (256 ^ N.of_nat 0) with 1. rewrite N.div_1_r. reflexivity.
  - cbn [Nat.add le app]. rewrite IH, pow256_S, N.div_div; [reflexivity|discriminate|].
    apply N.neq_0_lt_0, pow256_pos.
Qed.
Lemma le_0 n : le n 0 = repeat 0 n.
Proof. induction n as [|n IH]; [reflexivity|]. cbn [le repeat]. change (0 mod 256) with 0. change (0 / 256) with 0. rewrite IH. reflexivity. Qed.
Lemma seq_map_le n v : map (fun i => (v / 2 ^ (8 * N.of_nat i)) mod 2 ^ 8) (seq 0 n) = le n v.
Proof.
  revert v. induction n as [|n IH]; intros v; [reflexivity|].
  cbn [seq map le]. f_equal.
  - change (8 * N.of_nat 0) with 0. rewrite N.pow_0_r, N.div_1_r. reflexivity.
  - rewrite <- IH, <- seq_shift, map_map. apply map_ext. intros i.
    rewrite N.div_div by (try discriminate; apply N.pow_nonzero; discriminate).
    replace (8 * N.of_nat (S i)) with (8 + 8 * N.of_nat i) by lia. rewrite N.pow_add_r. reflexivity.
Qed.
Lemma export_bits_le v : export_bits v = le (export_chunks v) v.
Proof. apply seq_map_le. Qed.
Lemma pow256_8 n : 256 ^ N.of_nat n = 2 ^ (8 * N.of_nat n).
Proof. rewrite N.pow_mul_r. reflexivity. Qed.
Lemma export_chunks_fits v : v < 256 ^ N.of_nat (export_chunks v).
Proof.
  unfold export_chunks. destruct (N.eqb_spec v 0) as [->|H]; [reflexivity|].
  rewrite pow256_8, N2Nat.id. eapply N.lt_le_trans; [apply N.size_gt|]. apply N.pow_le_mono_r; [discriminate|].
  assert (D := N.div_mod (N.size v + 7) 8). assert (L := N.mod_lt (N.size v + 7) 8). 
  set (q := (N.size v + 7) / 8) in *. set (r := (N.size v + 7) mod 8) in *. clearbody q r. lia.
Qed.
Lemma export_chunks_le n v : (1 <= n)%nat -> v < 256 ^ N.of_nat n -> (export_chunks v <= n)%nat.
Proof.
  intros N1 H. unfold export_chunks. destruct (N.eqb_spec v 0) as [->|H0]; [lia|].
  assert (L : N.size v <= 8 * N.of_nat n).
  { rewrite N.size_log2 by exact H0. rewrite pow256_8 in H. apply N.log2_lt_pow2 in H; lia. }
  assert ((N.size v + 7) / 8 <= N.of_nat n); [|lia].
  apply N.lt_succ_r. apply N.div_lt_upper_bound; [discriminate|]. lia.
Qed.
Lemma export_chunks_pos v : (1 <= export_chunks v)%nat.
Proof.
  unfold export_chunks. destruct (N.eqb_spec v 0); [lia|]. destruct v as [|q]; [congruence|].
  assert (1 <= (N.size (N.pos q) + 7) / 8); [|lia]. apply N.div_le_lower_bound; [discriminate|].
  assert (0 < N.size (N.pos q)) by (cbn; lia). lia.
Qed.
Lemma export_chunks_least v : export_chunks v = 1%nat \/ 256 ^ N.of_nat (export_chunks v - 1) <= v.
Proof.
  unfold export_chunks. destruct (N.eqb_spec v 0) as [|Z]; [left; reflexivity|right].
  rewrite pow256_8. rewrite N.size_log2 by exact Z.
  apply N.le_trans with (2 ^ N.log2 v); [|apply N.log2_spec; lia].
  apply N.pow_le_mono_r; [discriminate|]. assert (D := N.mul_div_le (N.succ (N.log2 v) + 7) 8).
  revert D. generalize ((N.succ (N.log2 v) + 7) / 8). intros q D. lia.
Qed.
Lemma export_pad n v : (1 <= n)%nat -> v < 256 ^ N.of_nat n ->
  exists j, n = (export_chunks v + j)%nat /\ le n v = export_bits v ++ repeat 0 j.
Proof.
  intros N1 H. assert (L := export_chunks_le n v N1 H). exists (n - export_chunks v)%nat. split; [lia|].
  replace n with (export_chunks v + (n - export_chunks v))%nat at 1 by lia.
  rewrite le_app, N.div_small, le_0, export_bits_le by apply export_chunks_fits. reflexivity.
Qed.
Lemma export_length v : length (export_bits v) = export_chunks v.
Proof. rewrite export_bits_le. apply le_length. Qed.
(** chunks_value inverts export_bits *)
Lemma import_export v : chunks_value (export_bits v) = v.
Proof. rewrite export_bits_le. apply chunks_le, export_chunks_fits. Qed.

Lemma firstn_app_l {A} (a b : list A) : firstn (length a) (a ++ b) = a.
Proof. rewrite firstn_app, Nat.sub_diag, firstn_O, app_nil_r. apply firstn_all. Qed.
Lemma skipn_app_l {A} (a b : list A) k : skipn (length a + k) (a ++ b) = skipn k b.
Proof. rewrite skipn_app, skipn_all2 by lia. replace (length a + k - length a)%nat with k by lia. reflexivity. Qed.
Lemma skipn_repeat {A} (x : A) k n : skipn k (repeat x n) = repeat x (n - k).
Proof. revert n. induction k as [|k IH]; intros [|n]; cbn; auto. Qed.
Lemma rev_repeat {A} (x : A) n : rev (repeat x n) = repeat x n.
Proof.
  induction n as [|n IH]; [reflexivity|]. cbn [repeat rev]. rewrite IH.
  clear. induction n as [|n IH]; [reflexivity|]. cbn. rewrite IH. reflexivity.
Qed.
(** writing a number into the zero-initialised part of an array *)
Lemma write_zeros d n k v : (1 <= n)%nat -> v < 256 ^ N.of_nat n ->
  write_at (d ++ repeat 0 (n + k)) (length d) (export_bits v) = d ++ le n v ++ repeat 0 k.
Proof.
  intros N1 H. destruct (export_pad n v N1 H) as (j & E & ->). unfold write_at.
  rewrite firstn_app_l, skipn_app_l, skipn_repeat, export_length, <- app_assoc, <- repeat_app.
  replace (n + k - export_chunks v)%nat with (j + k)%nat by lia. reflexivity.
Qed.
Lemma write_rev_zeros d n k v off : (1 <= n)%nat -> v < 256 ^ N.of_nat n -> off = length d ->
  write_rev (rev (d ++ repeat 0 (n + k))) off (export_bits v) = rev (d ++ le n v ++ repeat 0 k).
Proof. intros N1 H ->. unfold write_rev. rewrite rev_involutive, write_zeros by assumption. reflexivity. Qed.

(** ** The flag bits *)
Definition flags : list N := [0; 0x20; 0x40; 0x60; 0x80; 0xA0; 0xC0; 0xE0].
Definition range (n : nat) : list N := map N.of_nat (seq 0 n).
Lemma in_range n b : b < N.of_nat n -> In b (range n).
Proof. intros H. unfold range. apply in_map_iff. exists (N.to_nat b). split; [lia|]. apply in_seq. lia. Qed.
Lemma flag_or b m : b < 32 -> In m flags -> N.land (N.lor b m) 0xE0 = m /\ N.land (N.lor b m) 0x1F = b /\ N.lor b m = b + m /\ byte (b + m).
Proof.
  intros B M. assert (IB := in_range 32 b B).
  assert (C : forallb (fun b => forallb (fun m => (N.land (N.lor b m) 0xE0 =? m) && (N.land (N.lor b m) 0x1F =? b) && (N.lor b m =? b + m) && (b + m <? 256)) flags) (range 32) = true) by (vm_compute; reflexivity).
  rewrite forallb_forall in C. specialize (C b IB). rewrite forallb_forall in C. specialize (C m M).
  rewrite !andb_true_iff, !N.eqb_eq, N.ltb_lt in C. tauto.
Qed.
Lemma flag_split b : byte b -> In (N.land b 0xE0) flags /\ N.land b 0x1F < 32 /\ N.lor (N.land b 0x1F) (N.land b 0xE0) = b.
Proof.
  intros B. assert (IB := in_range 256 b B).
  assert (C : forallb (fun b => existsb (N.eqb (N.land b 0xE0)) flags && (N.land b 0x1F <? 32) && (N.lor (N.land b 0x1F) (N.land b 0xE0) =? b)) (range 256) = true) by (vm_compute; reflexivity).
  rewrite forallb_forall in C. specialize (C b IB). rewrite !andb_true_iff, N.eqb_eq, N.ltb_lt, existsb_exists in C.
  destruct C as ((( m & I & E) & L) & S). apply N.eqb_eq in E. rewrite E. rewrite E in S. auto.
Qed.
(** the most significant octet of a number below 2^(8n+5) *)
Lemma le_top n v : v < 32 * 256 ^ N.of_nat n -> exists b, b < 32 /\ le (S n) v = le n v ++ [b].
Proof.
  intros H. replace (S n) with (n + 1)%nat by lia. rewrite le_app. cbn [le].
  exists ((v / 256 ^ N.of_nat n) mod 256). split; [|reflexivity].
  assert (v / 256 ^ N.of_nat n < 32) by (apply N.div_lt_upper_bound; [apply N.neq_0_lt_0, pow256_pos|lia]).
  rewrite N.mod_small by lia. assumption.
Qed.
Lemma chunks_top l b : Forall byte l -> b < 32 -> chunks_value (l ++ [b]) < 32 * 256 ^ N.of_nat (length l).
Proof.
  intros H B. rewrite chunks_app. assert (L := chunks_bound l H). cbn [chunks_value fold_right].
  set (P := 256 ^ N.of_nat (length l)) in *. clearbody P. nia.
Qed.
Lemma Forall_rev' {A} (P : A -> Prop) l : Forall P l -> Forall P (rev l).
Proof. intros H. apply Forall_forall. intros x I. apply in_rev in I. revert x I. apply Forall_forall, H. Qed.
