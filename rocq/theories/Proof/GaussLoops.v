(** The inner loops of gauss_jordan_impl, entry by entry *)
From Coq Require Import List NArith ZArith Arith Bool Lia Ring Field.
From Verif Require Import Base.Field Model.Vector Model.Matrix Spec.LinAlg Proof.Vector Proof.Matrix.
Import ListNotations.

Lemma loop_ext {S} (f g : nat -> S -> option S) : (forall k s, f k s = g k s) ->
  forall n i s, loop i n f s = loop i n g s.
Proof.
  intros H. induction n as [|n IH]; intros i s; cbn [loop]; [reflexivity|].
  rewrite H. destruct (g i s); [apply IH|reflexivity].
Qed.

Section Loops.
  Variable K : FieldOps.
  Hypothesis HF : FieldLaws K.
  Lemma Fth_local : field_theory (@f0 K) f1 fadd fmul fsub fopp fdiv finv eq. Proof. exact (FL_th K HF). Qed.
  Add Field KF : Fth_local.
  Implicit Types m : matrix K.

  (** writing row [a] from left to right with values that depend on column k only *)
  Lemma row_loop M N a m (h : nat -> matrix K -> option K) (val : nat -> K) :
    shape M N m -> a < M ->
    (forall k m', k < N -> shape M N m' ->
       (forall i, i < M -> entry m' i k = entry m i k) -> h k m' = Some (val k)) ->
    exists r, loop 0 N (fun k m => match h k m with Some x => mset m a k x | None => None end) m
              = Some r /\ shape M N r /\
      forall i j, i < M -> j < N -> coef r i j = if Nat.eqb i a then val j else coef m i j.
  Proof.
    intros Hm Ha Hh.
    assert (H : forall n k m', k + n = N -> shape M N m' ->
      (forall i j, i < M -> j < N ->
         entry m' i j = if Nat.eqb i a && Nat.ltb j k then Some (val j) else entry m i j) ->
      exists r, loop k n (fun k m => match h k m with Some x => mset m a k x | None => None end) m'
              = Some r /\ shape M N r /\
      forall i j, i < M -> j < N -> entry r i j = if Nat.eqb i a then Some (val j) else entry m i j).
    { induction n as [|n IH]; intros k m' Hk Hm' He; cbn [loop].
      - exists m'. split; [reflexivity|]. split; [exact Hm'|]. intros i j Hi Hj. rewrite He by assumption.
        destruct (Nat.ltb_spec j k); [|lia]. rewrite andb_true_r. reflexivity.
      - rewrite (Hh k m'); [|lia|exact Hm'|].
        + destruct (mset_spec M N m' a k (val k) Hm' Ha ltac:(lia)) as (m1 & -> & Hm1 & He1).
          apply (IH (S k) m1); [lia|exact Hm1|]. intros i j Hi Hj. rewrite He1, He by assumption.
          destruct (Nat.eqb i a); cbn [andb]; [|reflexivity].
          destruct (Nat.eqb_spec j k) as [->|Hne].
          * destruct (Nat.ltb_spec k (S k)); [reflexivity|lia].
          * destruct (Nat.ltb_spec j k), (Nat.ltb_spec j (S k)); try lia; reflexivity.
        + intros i Hi. rewrite He by (auto; lia).
          destruct (Nat.ltb_spec k k); [lia|]. rewrite andb_false_r. reflexivity. }
    destruct (H N 0 m) as (r & Hr & Hs & He); [lia|exact Hm| |].
    { intros i j _ _. destruct (Nat.ltb_spec j 0); [lia|]. rewrite andb_false_r. reflexivity. }
    exists r. split; [exact Hr|]. split; [exact Hs|]. intros i j Hi Hj. unfold coef.
    rewrite He by assumption. destruct (Nat.eqb i a); reflexivity.
  Qed.

  Lemma gj_swap_spec M N ip i m : shape M N m -> ip < M -> i < M ->
    exists r, gj_swap K N ip i m = Some r /\ shape M N r /\
      forall a b, a < M -> b < N -> coef r a b = coef m (swap_idx ip i a) b.
  Proof.
    intros Hm Hip Hi. destruct (swaprow_spec M N m ip i Hm Hip Hi) as (r & Hr & Hs & He).
    exists r. split; [|split; [exact Hs|]].
    - rewrite <- Hr. unfold gj_swap, swaprow. apply loop_ext. intros k s.
      destruct (mget s ip k); [|reflexivity]. destruct (mget s i k); reflexivity.
    - intros a b Ha Hb. unfold coef. now rewrite (proj1 (He a b Ha Hb)).
  Qed.

  Lemma gj_scale_spec M N i s m : shape M N m -> i < M ->
    exists r, gj_scale K N i s m = Some r /\ shape M N r /\
      forall a b, a < M -> b < N ->
        coef r a b = if Nat.eqb a i then fdiv (coef m i b) s else coef m a b.
  Proof.
    intros Hm Hi.
    destruct (row_loop M N i m (fun k m => option_map (fun x => fdiv x s) (mget m i k))
                (fun b => fdiv (coef m i b) s) Hm Hi) as (r & Hr & Hs & He).
    { intros k m' Hk Hm' H. change (@mget) with (@entry). rewrite H by exact Hi.
      rewrite (coef_entry K M N m i k Hm Hi Hk). reflexivity. }
    exists r. split; [|split; [exact Hs|exact He]].
    rewrite <- Hr. unfold gj_scale. apply loop_ext. intros k s'.
    destruct (mget s' i k); reflexivity.
  Qed.

  Lemma gj_elim_row_spec M N i ip s m : shape M N m -> i < M -> ip < M -> ip <> i ->
    exists r, gj_elim_row K N i ip s m = Some r /\ shape M N r /\
      forall a b, a < M -> b < N ->
        coef r a b = if Nat.eqb a ip then fsub (coef m ip b) (fmul s (coef m i b)) else coef m a b.
  Proof.
    intros Hm Hi Hip Hne.
    destruct (row_loop M N ip m (fun k m => match mget m ip k, mget m i k with
                  | Some x, Some y => Some (fsub x (fmul s y)) | _, _ => None end)
                (fun b => fsub (coef m ip b) (fmul s (coef m i b))) Hm Hip) as (r & Hr & Hs & He).
    { intros k m' Hk Hm' H. change (@mget) with (@entry). rewrite !H by assumption.
      rewrite (coef_entry K M N m i k Hm Hi Hk), (coef_entry K M N m ip k Hm Hip Hk). reflexivity. }
    exists r. split; [|split; [exact Hs|exact He]].
    rewrite <- Hr. unfold gj_elim_row. apply loop_ext. intros k s'.
    destruct (mget s' ip k); [|reflexivity]. destruct (mget s' i k); reflexivity.
  Qed.

  (** [negl] exact: the outer elimination loop subtracts m[a][j] * row i from every
      other row a *)
  Variable negl : K -> bool.
  Hypothesis Hnegl : forall v, negl v = feqb v f0.

  Lemma gj_elim_spec M N i j m : shape M N m -> i < M -> j < N ->
    exists r, gj_elim K negl M N i j m = Some r /\ shape M N r /\
      forall a b, a < M -> b < N ->
        coef r a b = if Nat.eqb a i then coef m a b
                     else fsub (coef m a b) (fmul (coef m a j) (coef m i b)).
  Proof.
    intros Hm Hi Hj. unfold gj_elim.
    assert (H : forall n k m', k + n = M -> shape M N m' ->
      (forall a b, a < M -> b < N ->
         coef m' a b = if Nat.ltb a k && negb (Nat.eqb a i)
                       then fsub (coef m a b) (fmul (coef m a j) (coef m i b)) else coef m a b) ->
      exists r, loop k n (fun ip m =>
        if Nat.eqb ip i then Some m
        else match mget m ip j with
             | None => None
             | Some s => if negl s then Some m else gj_elim_row K N i ip s m
             end) m' = Some r /\ shape M N r /\
      forall a b, a < M -> b < N ->
        coef r a b = if Nat.eqb a i then coef m a b
                     else fsub (coef m a b) (fmul (coef m a j) (coef m i b))).
    { induction n as [|n IH]; intros k m' Hk Hm' He; cbn [loop].
      - exists m'. split; [reflexivity|]. split; [exact Hm'|]. intros a b Ha Hb. rewrite He by assumption.
        destruct (Nat.ltb_spec a k); [|lia]. cbn [andb]. destruct (Nat.eqb a i); reflexivity.
      - destruct (Nat.eqb_spec k i) as [->|Hki].
        + apply (IH (S i) m'); [lia|exact Hm'|]. intros a b Ha Hb. rewrite He by assumption.
          destruct (Nat.eqb_spec a i) as [->|Hai]; cbn [negb]; [rewrite !andb_false_r; reflexivity|].
          rewrite !andb_true_r.
          destruct (Nat.ltb_spec a i), (Nat.ltb_spec a (S i)); try lia; reflexivity.
        + change (@mget) with (@entry). rewrite (coef_entry K M N m' k j Hm' ltac:(lia) Hj).
          assert (Hkj : coef m' k j = coef m k j).
          { rewrite He by (auto; lia). destruct (Nat.ltb_spec k k); [lia|reflexivity]. }
          assert (Hib : forall b, b < N -> coef m' i b = coef m i b).
          { intros b Hb. rewrite He by auto. rewrite Nat.eqb_refl. cbn [negb].
            rewrite andb_false_r. reflexivity. }
          assert (Hkb : forall b, b < N -> coef m' k b = coef m k b).
          { intros b Hb. rewrite He by (auto; lia). destruct (Nat.ltb_spec k k); [lia|reflexivity]. }
          rewrite Hkj, Hnegl. destruct (feqb (coef m k j) f0) eqn:Ez.
          * apply (FL_eqb K HF) in Ez.
            apply (IH (S k) m'); [lia|exact Hm'|]. intros a b Ha Hb. rewrite He by assumption.
            destruct (Nat.eqb_spec a i) as [->|Hai]; cbn [negb]; [rewrite !andb_false_r; reflexivity|].
            rewrite !andb_true_r.
            destruct (Nat.ltb_spec a k), (Nat.ltb_spec a (S k)); try lia; try reflexivity.
            assert (a = k) as -> by lia. rewrite Ez. ring.
          * destruct (gj_elim_row_spec M N i k (coef m k j) m' Hm' Hi ltac:(lia) Hki) as (m1 & -> & Hm1 & He1).
            apply (IH (S k) m1); [lia|exact Hm1|]. intros a b Ha Hb. rewrite He1 by assumption.
            destruct (Nat.eqb_spec a k) as [->|Hak].
            { destruct (Nat.eqb_spec k i); [lia|]. cbn [negb]. rewrite andb_true_r.
              destruct (Nat.ltb_spec k (S k)); [|lia]. rewrite Hkb, Hib by exact Hb. reflexivity. }
            rewrite He by assumption.
            destruct (Nat.eqb_spec a i) as [->|Hai]; cbn [negb]; [rewrite !andb_false_r; reflexivity|].
            rewrite !andb_true_r.
            destruct (Nat.ltb_spec a k), (Nat.ltb_spec a (S k)); try lia; reflexivity. }
    apply (H M 0 m); [lia|exact Hm|]. intros a b Ha Hb. destruct (Nat.ltb_spec a 0); [lia|reflexivity].
  Qed.

  Variable absgt : K -> K -> bool.
  Hypothesis Hgt_nz : forall x y, absgt x y = true -> x <> f0.
  Hypothesis Hgt_0 : forall x, x <> f0 -> absgt x f0 = true.

  (** pivot search: either nothing happens, or row i is exchanged with a row below;
      afterwards the pivot vanishes only if the whole column below does *)
  Lemma gj_pivot_spec M N i j m d : shape M N m -> i < M -> j < N ->
    exists r d' p, gj_pivot K absgt M N i j (S i) (M - S i) m d = Some (r, d') /\
      shape M N r /\ i <= p < M /\
      (forall a b, a < M -> b < N -> coef r a b = coef m (swap_idx p i a) b) /\
      ((p = i /\ d' = d) \/ (p <> i /\ d' = fopp d)) /\
      (coef r i j = f0 -> forall a, i <= a < M -> coef r a j = f0).
  Proof.
    intros Hm Hi Hj.
    assert (H : forall n ip, ip + n = M -> i < ip ->
      (forall a, i < a < ip -> absgt (coef m a j) (coef m i j) = false) ->
      exists r d' p, gj_pivot K absgt M N i j ip n m d = Some (r, d') /\
      shape M N r /\ i <= p < M /\
      (forall a b, a < M -> b < N -> coef r a b = coef m (swap_idx p i a) b) /\
      ((p = i /\ d' = d) \/ (p <> i /\ d' = fopp d)) /\
      (coef r i j = f0 -> forall a, i <= a < M -> coef r a j = f0)).
    { induction n as [|n IH]; intros ip Hip Hlt Hno; cbn [gj_pivot].
      - exists m, d, i. split; [reflexivity|]. split; [exact Hm|]. split; [lia|]. split; [|split].
        + intros a b Ha Hb. f_equal. unfold swap_idx. destruct (Nat.eqb_spec a i); congruence.
        + now left.
        + intros Hz a Ha. destruct (Nat.eq_dec a i) as [->|Hai]; [exact Hz|].
          destruct (feqb (coef m a j) f0) eqn:E; [now apply (FL_eqb K HF)|].
          exfalso. assert (Hnz : coef m a j <> f0).
          { intros Hc. apply (FL_eqb K HF) in Hc. congruence. }
          apply Hgt_0 in Hnz. rewrite <- Hz in Hnz. rewrite Hno in Hnz by lia. discriminate.
      - change (@mget) with (@entry).
        rewrite (coef_entry K M N m ip j Hm ltac:(lia) Hj), (coef_entry K M N m i j Hm Hi Hj).
        destruct (absgt (coef m ip j) (coef m i j)) eqn:Eg.
        + destruct (gj_swap_spec M N ip i m Hm ltac:(lia) Hi) as (r & -> & Hs & He).
          exists r, (fopp d), ip. split; [reflexivity|]. split; [exact Hs|]. split; [lia|].
          split; [exact He|]. split; [right; split; [lia|reflexivity]|].
          intros Hz. exfalso. rewrite He in Hz by auto. unfold swap_idx in Hz.
          destruct (Nat.eqb_spec i ip); [lia|]. rewrite Nat.eqb_refl in Hz.
          exact (Hgt_nz _ _ Eg Hz).
        + apply (IH (S ip)); [lia|lia|]. intros a Ha. destruct (Nat.eq_dec a ip) as [->|]; [exact Eg|].
          apply Hno. lia. }
    apply (H (M - S i) (S i)); [lia|lia|intros; lia].
  Qed.
End Loops.
