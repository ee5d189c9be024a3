(** The shape of the loops of Model/Pairing.v and the abstract Miller recursion. *)
From Coq Require Import ZArith NArith List Bool Lia Ring Field.
From Verif Require Import Base.Field Base.Hom Spec.Group Spec.Weierstrass Spec.Pairing Model.Power Model.ShortWeierstrass Model.Pairing
  Proof.WeierstrassGroup Proof.WeierstrassRep.
Import ListNotations.
Local Open Scope fld_scope.

(** ** the bit loop *)
Fixpoint pos_loop {S : Type} (n : positive) (body : bool -> S -> S) (st : S) : S :=
  match n with
  | xH => st
  | xO m => body false (pos_loop m body st)
  | xI m => body true (pos_loop m body st)
  end.
Section BitLoop.
  Context {S : Type} (body : bool -> S -> S) (st : S) (n : N).
  Definition after (m : N) : bool * S :=
    match m with N0 => (false, st) | Npos p => (true, pos_loop p body st) end.
  Let f := fun i '(found_one, st) =>
       let bit := N.testbit n (N.of_nat i) in
       if found_one : bool then (found_one, body bit st) else (found_one || bit, st).
  Lemma after_step i : f i (after (N.shiftr n (N.of_nat (Datatypes.S i)))) = after (N.shiftr n (N.of_nat i)).
  Proof.
    assert (E : N.shiftr n (N.of_nat i) = (2 * N.shiftr n (N.of_nat (Datatypes.S i)) + N.b2n (N.testbit n (N.of_nat i)))%N).
    { rewrite Nat2N.inj_succ, N.shiftr_succ_r.
      rewrite (N.div2_odd (N.shiftr n (N.of_nat i))) at 1. f_equal. f_equal.
      rewrite <- N.bit0_odd, N.shiftr_spec, N.add_0_l by lia. reflexivity. }
    rewrite E. generalize (N.shiftr n (N.of_nat (Datatypes.S i))) as m. intros m. unfold f.
    destruct (N.testbit n (N.of_nat i)), m as [|m]; cbn; reflexivity.
  Qed.
  Lemma for_down_after i : for_down i f (after (N.shiftr n (N.of_nat i))) = after n.
  Proof.
    induction i as [|i IH]; cbn [for_down]; [rewrite N.shiftr_0_r; reflexivity|].
    rewrite after_step. exact IH.
  Qed.
End BitLoop.
Lemma bit_loop_pos {S : Type} (body : bool -> S -> S) (st : S) top (n : positive) : (N.size (Npos n) <= N.of_nat top)%N ->
  bit_loop top (Npos n) body st = pos_loop n body st.
Proof.
  intros H. assert (E := for_down_after body st (Npos n) top).
  assert (Z : N.shiftr (Npos n) (N.of_nat top) = 0%N).
  { apply N.shiftr_eq_0. rewrite N.size_log2 in H by discriminate. lia. }
  rewrite Z in E. unfold bit_loop. unfold after in E at 1. rewrite E. reflexivity.
Qed.
Lemma nth_mid {A : Type} (l : list A) c suf : nth_error ((l ++ [c]) ++ suf) (length l) = Some c.
Proof. rewrite <- app_assoc. rewrite nth_error_app2, Nat.sub_diag by lia. reflexivity. Qed.

(** ** one coefficient vector (jacobian_with_a4_0, edwards) *)
Section OneList.
  Context {St C GT : Type}.
  Variables dstep astep : St -> St * C.
  Definition pre_body (bit : bool) (st : St * list C) : St * list C :=
    let '(R, cs) := st in
    let '(R, c) := dstep R in
    let cs := cs ++ [c] in
    if bit then let '(R, c) := astep R in (R, cs ++ [c]) else (R, cs).
  Variable R0 : St.
  Fixpoint run (n : positive) : St :=
    match n with
    | xH => R0
    | xO m => fst (dstep (run m))
    | xI m => fst (astep (fst (dstep (run m))))
    end.
  Fixpoint out (n : positive) : list C :=
    match n with
    | xH => []
    | xO m => out m ++ [snd (dstep (run m))]
    | xI m => (out m ++ [snd (dstep (run m))]) ++ [snd (astep (fst (dstep (run m))))]
    end.
  Lemma pre_loop n : pos_loop n pre_body (R0, []) = (run n, out n).
  Proof.
    induction n as [m IH|m IH|]; cbn [pos_loop run out]; [| |reflexivity]; rewrite IH; unfold pre_body;
      destruct (dstep (run m)) as [R c]; cbn [fst snd]; [destruct (astep R)|]; reflexivity.
  Qed.
  Variable one : GT.
  Variables ld la : C -> GT -> GT.
  Definition read_body (cs : list C) (bit : bool) (st : option (GT * nat)) : option (GT * nat) :=
    match st with
    | None => None
    | Some (f, idx) =>
        match nth_error cs idx with
        | None => None
        | Some c =>
            let idx := S idx in
            let f := ld c f in
            if bit then
              match nth_error cs idx with
              | None => None
              | Some c => Some (la c f, S idx)
              end
            else Some (f, idx)
        end
    end.
  Fixpoint value (n : positive) : GT :=
    match n with
    | xH => one
    | xO m => ld (snd (dstep (run m))) (value m)
    | xI m => la (snd (astep (fst (dstep (run m))))) (ld (snd (dstep (run m))) (value m))
    end.
  Lemma read_loop n suf : pos_loop n (read_body (out n ++ suf)) (Some (one, O)) = Some (value n, length (out n)).
  Proof.
    revert suf. induction n as [m IH|m IH|]; intros suf; cbn [pos_loop out value]; [| |reflexivity].
    - rewrite <- !app_assoc, IH. unfold read_body. rewrite !app_assoc.
      rewrite <- (app_assoc _ _ suf). rewrite nth_mid. rewrite app_assoc.
      replace (S (length (out m))) with (length (out m ++ [snd (dstep (run m))])) by (rewrite app_length; cbn; lia).
      rewrite nth_mid. rewrite !app_length. cbn [length]. f_equal. f_equal. lia.
    - rewrite <- app_assoc, IH. unfold read_body. rewrite app_assoc, nth_mid, app_length. cbn [length]. f_equal. f_equal. lia.
  Qed.
End OneList.
Section OneListDouble.
  Context {St C GT : Type}.
  Variables dstep1 astep1 dstep2 astep2 : St -> St * C.
  Variables R1 R2 : St.
  Variable one : GT.
  Variables ld la : C -> C -> GT -> GT.
  Definition read2_body (cs1 cs2 : list C) (bit : bool) (st : option (GT * nat)) : option (GT * nat) :=
    match st with
    | None => None
    | Some (f, idx) =>
        match nth_error cs1 idx, nth_error cs2 idx with
        | Some c1, Some c2 =>
            let idx := S idx in
            let f := ld c1 c2 f in
            if bit then
              match nth_error cs1 idx, nth_error cs2 idx with
              | Some c1, Some c2 => Some (la c1 c2 f, S idx)
              | _, _ => None
              end
            else Some (f, idx)
        | _, _ => None
        end
    end.
  Local Notation run1 := (run dstep1 astep1 R1).
  Local Notation run2 := (run dstep2 astep2 R2).
  Local Notation out1 := (out dstep1 astep1 R1).
  Local Notation out2 := (out dstep2 astep2 R2).
  Fixpoint value2 (n : positive) : GT :=
    match n with
    | xH => one
    | xO m => ld (snd (dstep1 (run1 m))) (snd (dstep2 (run2 m))) (value2 m)
    | xI m => la (snd (astep1 (fst (dstep1 (run1 m))))) (snd (astep2 (fst (dstep2 (run2 m)))))
                 (ld (snd (dstep1 (run1 m))) (snd (dstep2 (run2 m))) (value2 m))
    end.
  Lemma out_length n : length (out1 n) = length (out2 n).
  Proof. induction n; cbn [out]; rewrite ?app_length; cbn; lia. Qed.
  Lemma read2_loop n s1 s2 :
    pos_loop n (read2_body (out1 n ++ s1) (out2 n ++ s2)) (Some (one, O)) = Some (value2 n, length (out1 n)).
  Proof.
    revert s1 s2. induction n as [m IH|m IH|]; intros s1 s2; cbn [pos_loop out value2]; [| |reflexivity].
    - rewrite <- !app_assoc, IH. unfold read2_body. rewrite !app_assoc.
      rewrite <- (app_assoc _ _ s1), <- (app_assoc _ _ s2). rewrite nth_mid, out_length, nth_mid.
      rewrite app_assoc, (app_assoc (out2 m ++ _)).
      replace (S (length (out2 m))) with (length (out1 m ++ [snd (dstep1 (run1 m))])) at 1 by (rewrite app_length, out_length; cbn; lia).
      rewrite nth_mid.
      replace (S (length (out2 m))) with (length (out2 m ++ [snd (dstep2 (run2 m))])) at 1 by (rewrite app_length; cbn; lia).
      rewrite nth_mid. rewrite !app_length, out_length. cbn [length]. f_equal. f_equal. lia.
    - rewrite <- !app_assoc, IH. unfold read2_body. rewrite !app_assoc, nth_mid, out_length, nth_mid, app_length, out_length.
      cbn [length]. f_equal. f_equal. lia.
  Qed.
End OneListDouble.
Section OneListProduct.
  Context {St C : Type} {GT : FieldOps} (KL : RingLaws GT).
  Add Ring GTr : (RL_th GT KL).
  Variables dstep1 astep1 dstep2 astep2 : St -> St * C.
  Variables R1 R2 : St.
  Variables l1d l1a l2d l2a : C -> GT.
  (** both loops multiply by line values *)
  Lemma value2_product n :
    value2 dstep1 astep1 dstep2 astep2 R1 R2 (1 : GT)
      (fun c1 c2 f => f * f * l1d c1 * l2d c2) (fun c1 c2 f => f * l1a c1 * l2a c2) n =
    value dstep1 astep1 R1 1 (fun c f => f * f * l1d c) (fun c f => f * l1a c) n *
    value dstep2 astep2 R2 1 (fun c f => f * f * l2d c) (fun c f => f * l2a c) n.
  Proof. induction n as [m IH|m IH|]; cbn [value2 value]; rewrite ?IH; ring. Qed.
End OneListProduct.

(** ** two coefficient vectors (projective) *)
Section TwoLists.
  Context {St C D GT : Type}.
  Variable dstep : St -> St * C.
  Variable astep : St -> St * D.
  Definition pre2_body (bit : bool) (st : St * list C * list D) : St * list C * list D :=
    let '(R, ds, az) := st in
    let '(R, dc) := dstep R in
    let ds := ds ++ [dc] in
    if bit then let '(R, ac) := astep R in (R, ds, az ++ [ac]) else (R, ds, az).
  Variable R0 : St.
  Fixpoint prun (n : positive) : St :=
    match n with
    | xH => R0
    | xO m => fst (dstep (prun m))
    | xI m => fst (astep (fst (dstep (prun m))))
    end.
  Fixpoint pouts (n : positive) : list C :=
    match n with xH => [] | xO m | xI m => pouts m ++ [snd (dstep (prun m))] end.
  Fixpoint pouta (n : positive) : list D :=
    match n with
    | xH => []
    | xO m => pouta m
    | xI m => pouta m ++ [snd (astep (fst (dstep (prun m))))]
    end.
  Lemma pre2_loop n : pos_loop n pre2_body (R0, [], []) = (prun n, pouts n, pouta n).
  Proof.
    induction n as [m IH|m IH|]; cbn [pos_loop prun pouts pouta]; [| |reflexivity]; rewrite IH; unfold pre2_body;
      destruct (dstep (prun m)) as [R c]; cbn [fst snd]; [destruct (astep R)|]; reflexivity.
  Qed.
  Variable one : GT.
  Variable ld : C -> GT -> GT.
  Variable la : D -> GT -> GT.
  Definition pread_body (ds : list C) (az : list D) (bit : bool) (st : option (GT * nat * nat)) : option (GT * nat * nat) :=
    match st with
    | None => None
    | Some (f, i, j) =>
        match nth_error ds i with
        | None => None
        | Some c =>
            let i := S i in
            let f := ld c f in
            if bit then
              match nth_error az j with
              | None => None
              | Some c => Some (la c f, i, S j)
              end
            else Some (f, i, j)
        end
    end.
  Fixpoint pvalue (n : positive) : GT :=
    match n with
    | xH => one
    | xO m => ld (snd (dstep (prun m))) (pvalue m)
    | xI m => la (snd (astep (fst (dstep (prun m))))) (ld (snd (dstep (prun m))) (pvalue m))
    end.
  Lemma pread_loop n s t : pos_loop n (pread_body (pouts n ++ s) (pouta n ++ t)) (Some (one, O, O)) =
    Some (pvalue n, length (pouts n), length (pouta n)).
  Proof.
    revert s t. induction n as [m IH|m IH|]; intros s t; cbn [pos_loop pouts pouta pvalue]; [| |reflexivity].
    - rewrite <- !app_assoc, IH. unfold pread_body. rewrite !app_assoc, !nth_mid, !app_length. cbn [length].
      rewrite !Nat.add_1_r. reflexivity.
    - rewrite <- !app_assoc, IH. unfold pread_body. rewrite !app_assoc, !nth_mid, !app_length. cbn [length].
      rewrite !Nat.add_1_r. reflexivity.
  Qed.
End TwoLists.
Section TwoListsDouble.
  Context {St C D GT : Type}.
  Variables dstep1 dstep2 : St -> St * C.
  Variables astep1 astep2 : St -> St * D.
  Variables R1 R2 : St.
  Variable one : GT.
  Variable ld : C -> C -> GT -> GT.
  Variable la : D -> D -> GT -> GT.
  Definition pread2_body (ds1 ds2 : list C) (az1 az2 : list D) (bit : bool) (st : option (GT * nat * nat)) : option (GT * nat * nat) :=
    match st with
    | None => None
    | Some (f, i, j) =>
        match nth_error ds1 i, nth_error ds2 i with
        | Some c1, Some c2 =>
            let i := S i in
            let f := ld c1 c2 f in
            if bit then
              match nth_error az1 j, nth_error az2 j with
              | Some c1, Some c2 => Some (la c1 c2 f, i, S j)
              | _, _ => None
              end
            else Some (f, i, j)
        | _, _ => None
        end
    end.
  Local Notation run1 := (prun dstep1 astep1 R1).
  Local Notation run2 := (prun dstep2 astep2 R2).
  Fixpoint pvalue2 (n : positive) : GT :=
    match n with
    | xH => one
    | xO m => ld (snd (dstep1 (run1 m))) (snd (dstep2 (run2 m))) (pvalue2 m)
    | xI m => la (snd (astep1 (fst (dstep1 (run1 m))))) (snd (astep2 (fst (dstep2 (run2 m)))))
                 (ld (snd (dstep1 (run1 m))) (snd (dstep2 (run2 m))) (pvalue2 m))
    end.
  Lemma pouts_length n : length (pouts dstep1 astep1 R1 n) = length (pouts dstep2 astep2 R2 n).
  Proof. induction n; cbn [pouts]; rewrite ?app_length; cbn; lia. Qed.
  Lemma pouta_length n : length (pouta dstep1 astep1 R1 n) = length (pouta dstep2 astep2 R2 n).
  Proof. induction n; cbn [pouta]; rewrite ?app_length; cbn; lia. Qed.
  Lemma pread2_loop n s1 s2 t1 t2 :
    pos_loop n (pread2_body (pouts dstep1 astep1 R1 n ++ s1) (pouts dstep2 astep2 R2 n ++ s2)
                            (pouta dstep1 astep1 R1 n ++ t1) (pouta dstep2 astep2 R2 n ++ t2)) (Some (one, O, O)) =
    Some (pvalue2 n, length (pouts dstep1 astep1 R1 n), length (pouta dstep1 astep1 R1 n)).
  Proof.
    revert s1 s2 t1 t2. induction n as [m IH|m IH|]; intros s1 s2 t1 t2; cbn [pos_loop pouts pouta pvalue2]; [| |reflexivity].
    - rewrite <- !app_assoc, IH. unfold pread2_body. rewrite !app_assoc, nth_mid, pouts_length, nth_mid, nth_mid, pouta_length, nth_mid, !app_length.
      rewrite pouts_length, pouta_length. cbn [length]. rewrite !Nat.add_1_r. reflexivity.
    - rewrite <- !app_assoc, IH. unfold pread2_body. rewrite !app_assoc, nth_mid, pouts_length, nth_mid, !app_length, pouts_length. cbn [length].
      rewrite !Nat.add_1_r. reflexivity.
  Qed.
End TwoListsDouble.
Section TwoListsProduct.
  Context {St C D : Type} {GT : FieldOps} (KL : RingLaws GT).
  Add Ring GTr2 : (RL_th GT KL).
  Variables dstep1 dstep2 : St -> St * C.
  Variables astep1 astep2 : St -> St * D.
  Variables R1 R2 : St.
  Variables l1d l2d : C -> GT.
  Variables l1a l2a : D -> GT.
  Lemma pvalue2_product n :
    pvalue2 dstep1 dstep2 astep1 astep2 R1 R2 (1 : GT)
      (fun c1 c2 f => f * f * l1d c1 * l2d c2) (fun c1 c2 f => f * l1a c1 * l2a c2) n =
    pvalue dstep1 astep1 R1 1 (fun c f => f * f * l1d c) (fun c f => f * l1a c) n *
    pvalue dstep2 astep2 R2 1 (fun c f => f * f * l2d c) (fun c f => f * l2a c) n.
  Proof. induction n as [m IH|m IH|]; cbn [pvalue2 pvalue]; rewrite ?IH; ring. Qed.
End TwoListsProduct.
