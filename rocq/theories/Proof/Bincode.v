(** bincode::field: encoding into a zero-filled range, decoding, and the
    condition for acceptance. *)
From Coq Require Import ZArith NArith List Bool Lia.
From Verif Require Import Base.Field Base.Zp Model.Fp Model.Marshalling Proof.Bytes.
Import ListNotations.

Lemma modulus_chunks_spec bits : (bits <= 8 * modulus_chunks bits < bits + 8)%nat.
Proof.
  unfold modulus_chunks. assert (D := Nat.div_mod bits 8). assert (L := Nat.mod_upper_bound bits 8).
  destruct (Nat.eqb_spec (bits mod 8) 0); lia.
Qed.

Section Fp.
  Variables (p : Z) (bits : nat) (fit : N -> N).
  Hypothesis P1 : (1 < p)%Z.
  Hypothesis PB : (p <= 2 ^ Z.of_nat bits)%Z.
  Notation n := (modulus_chunks bits).
  Lemma bits_pos : (1 <= n)%nat.
  Proof.
    assert (H := modulus_chunks_spec bits). destruct bits as [|b]; [|lia].
    change (2 ^ Z.of_nat 0)%Z with 1%Z in PB. lia.
  Qed.
  Lemma pow_n : (2 ^ N.of_nat bits <= 256 ^ N.of_nat n)%N.
  Proof. rewrite pow256_8. apply N.pow_le_mono_r; [discriminate|]. assert (H := modulus_chunks_spec bits). lia. Qed.
  Lemma fp_int_bits (x : Zp p) : (fp_int p x < 2 ^ N.of_nat bits)%N.
  Proof.
    unfold fp_int. assert (H := zval_range p P1 x). apply N2Z.inj_lt. rewrite Z2N.id, N2Z.inj_pow, nat_N_Z by lia. change (Z.of_N 2) with 2%Z. lia.
  Qed.
  Lemma fp_int_n (x : Zp p) : (fp_int p x < 256 ^ N.of_nat n)%N.
  Proof. eapply N.lt_le_trans; [apply fp_int_bits|apply pow_n]. Qed.
  Lemma fp_to_bytes_zeros x : fp_to_bytes p bits x (repeat 0%N n) = Some (le n (fp_int p x)).
  Proof.
    unfold fp_to_bytes. rewrite repeat_length, Nat.eqb_refl. cbn [check]. f_equal.
    assert (E := write_zeros [] n 0 (fp_int p x) bits_pos (fp_int_n x)). cbn [app length] in E.
    rewrite Nat.add_0_r, app_nil_r in E. exact E.
  Qed.
  (** what is written does not depend on the buffer; what follows is kept *)
  Lemma fp_to_bytes_any x out : length out = n ->
    fp_to_bytes p bits x out = Some (export_bits (fp_int p x) ++ skipn (export_chunks (fp_int p x)) out).
  Proof. intros L. unfold fp_to_bytes. rewrite L, Nat.eqb_refl. cbn [check]. unfold write_at. rewrite export_length. reflexivity. Qed.
  Lemma fp_from_bytes_le x : fit (fp_int p x) = fp_int p x -> fp_from_bytes p bits fit (le n (fp_int p x)) = Some (true, x).
  Proof.
    intros F. unfold fp_from_bytes. rewrite le_length, Nat.eqb_refl. cbn [check]. unfold import_bits.
    rewrite chunks_le, F by apply fp_int_n. unfold fp_int. assert (H := zval_range p P1 x). rewrite Z2N.id by lia.
    rewrite (proj2 (Z.ltb_lt _ _)) by lia. unfold fp_of_int. rewrite tozp_zval. reflexivity.
  Qed.
  Lemma fp_from_bytes_spec l : length l = n -> fit (chunks_value l) = chunks_value l ->
    fp_from_bytes p bits fit l = Some ((Z.of_N (chunks_value l) <? p)%Z, tozp p (Z.of_N (chunks_value l))).
  Proof. intros L F. unfold fp_from_bytes. rewrite L, Nat.eqb_refl. cbn [check]. unfold import_bits. rewrite F. reflexivity. Qed.
End Fp.

(** a coder of elements of A on [size] octets *)
Definition codec {A : Type} (good : A -> Prop) (size : nat) (enc : A -> list N -> option (list N)) (dec : list N -> option (bool * A)) : Prop :=
  forall x, good x -> exists w, enc x (repeat 0%N size) = Some w /\ length w = size /\ dec w = Some (true, x).
(** the decoder is total on strings of the right length and its verdict is [ok] *)
Definition judged {A : Type} (size : nat) (dec : list N -> option (bool * A)) (ok : list N -> bool) : Prop :=
  forall l, length l = size -> exists x, dec l = Some (ok l, x).

Section Ext.
  Context {A : Type} (good : A -> Prop) (size : nat) (enc : A -> list N -> option (list N)) (dec : list N -> option (bool * A)).
  Definition chunk (l : list N) (k : nat) : list N := firstn size (skipn (k * size) l).

  Lemma ext_to_loop data : codec good size enc dec -> Forall good data -> forall done,
    exists w, length w = (length data * size)%nat /\
      fold_left (fun acc x =>
        match acc with
        | None => None
        | Some (offset, out) =>
            match enc x (firstn size (skipn offset out)) with
            | None => None
            | Some w => Some ((offset + size)%nat, write_at out offset w)
            end
        end) data (Some (length done, done ++ repeat 0%N (length data * size))) = Some (length (done ++ w), done ++ w) /\
      forall k x, nth_error data k = Some x -> dec (chunk w k) = Some (true, x).
  Proof.
    intros CD. induction data as [|x data IH]; intros G done.
    - exists []. cbn [length Nat.mul repeat fold_left]. rewrite app_nil_r. split; [reflexivity|]. split; [reflexivity|]. intros [|k] x; discriminate.
    - cbn [length Nat.mul fold_left]. inversion G; subst.
      assert (E1 : firstn size (skipn (length done) (done ++ repeat 0%N (size + length data * size))) = repeat 0%N size).
      { assert (S := skipn_app_l done (repeat 0%N (size + length data * size)) 0). rewrite Nat.add_0_r in S. rewrite S, skipn_O, repeat_app.
        assert (F := firstn_app_l (repeat 0%N size) (repeat 0%N (length data * size))). rewrite repeat_length in F. exact F. }
      rewrite E1. destruct (CD x H1) as (w & E & L & D). rewrite E.
      assert (E2 : write_at (done ++ repeat 0%N (size + length data * size)) (length done) w = (done ++ w) ++ repeat 0%N (length data * size)).
      { unfold write_at. rewrite firstn_app_l, skipn_app_l, L, skipn_repeat, <- app_assoc. do 3 f_equal. lia. }
      rewrite E2. replace (length done + size)%nat with (length (done ++ w)) by (rewrite app_length; lia).
      destruct (IH H2 (done ++ w)) as (w' & L' & F & N). exists (w ++ w'). rewrite F, app_length, <- app_assoc. split; [lia|]. split; [reflexivity|].
      intros [|k] y Hk.
      + injection Hk as <-. unfold chunk. cbn [Nat.mul]. rewrite skipn_O. assert (T := firstn_app_l w w'). rewrite L in T. rewrite T. exact D.
      + specialize (N k y Hk). unfold chunk in *. cbn [Nat.mul]. rewrite <- L at 2. rewrite skipn_app_l. exact N.
  Qed.
  Definition ext_step l := (fun (acc : option (bool * list A)) k =>
        match acc with
        | None => None
        | Some (bres, data) =>
            match dec (chunk l k) with
            | None => None
            | Some (valid, c) => Some (bres && valid, data ++ [c])
            end
        end).
  Lemma ext_from_loop l data : (forall k x, nth_error data k = Some x -> dec (chunk l k) = Some (true, x)) ->
    forall m, (m <= length data)%nat -> fold_left (ext_step l) (seq 0 m) (Some (true, [])) = Some (true, firstn m data).
  Proof.
    intros H m. induction m as [|m IH]; intros L; [reflexivity|].
    rewrite seq_S, fold_left_app, IH by lia. cbn [fold_left ext_step Nat.add].
    destruct (nth_error data m) as [x|] eqn:E; [|apply nth_error_None in E; lia].
    unfold ext_step. rewrite (H m x E). do 2 f_equal. cbn [andb].
    clear -E. revert data E. induction m as [|m IH]; intros [|d data] E; try discriminate; cbn in *; [congruence|]. rewrite IH by exact E. reflexivity.
  Qed.
  Lemma ext_codec dim : codec good size enc dec ->
    codec (fun data => length data = dim /\ Forall good data) (dim * size) (fun x => ext_to_bytes size enc dim x) (ext_from_bytes size dec dim).
  Proof.
    intros CD data [L G]. destruct (ext_to_loop data CD G []) as (w & LW & F & N). exists w.
    unfold ext_to_bytes, ext_from_bytes. rewrite repeat_length, LW, <- L, !Nat.eqb_refl. cbn [check].
    cbn [app length] in F. rewrite F. split; [reflexivity|]. split; [reflexivity|].
    change (fold_left (ext_step w) (seq 0 (length data)) (Some (true, [])) = Some (true, data)).
    rewrite (ext_from_loop w data N (length data)) by lia. rewrite firstn_all. reflexivity.
  Qed.
  Lemma ext_judged dim ok : judged size dec ok ->
    judged (dim * size) (ext_from_bytes size dec dim) (fun l => forallb (fun k => ok (chunk l k)) (seq 0 dim)).
  Proof.
    intros J l L. unfold ext_from_bytes. rewrite L, Nat.eqb_refl. cbn [check].
    change (exists x, fold_left (ext_step l) (seq 0 dim) (Some (true, [])) = Some (forallb (fun k => ok (chunk l k)) (seq 0 dim), x)).
    assert (H : forall m, (m <= dim)%nat -> exists x, fold_left (ext_step l) (seq 0 m) (Some (true, [])) = Some (forallb (fun k => ok (chunk l k)) (seq 0 m), x)).
    { induction m as [|m IH]; intros M; [exists []; reflexivity|]. destruct IH as [x E]; [lia|].
      rewrite seq_S, fold_left_app, E, forallb_app. cbn [fold_left Nat.add forallb]. unfold ext_step at 1.
      destruct (J (chunk l m)) as [c D].
      - unfold chunk. rewrite firstn_length, skipn_length, L. assert (size <= dim * size - m * size)%nat by nia. lia.
      - rewrite D. exists (x ++ [c]). rewrite andb_true_r. reflexivity. }
    exact (H dim (le_n _)).
  Qed.
End Ext.
