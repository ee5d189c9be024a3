(** Frobenius_map of the extension classes is the p^k-power map whenever its
    coefficient table passes a finite check; the check transfers along ring
    homomorphisms so it can be evaluated on BigN residues. *)
From Coq Require Import ZArith NArith List Bool Lia Ring Field Znumtheory.
From Verif Require Import Base.Field Base.Zp Base.Ext Base.Hom Spec.PolyQuot
  Model.Power Model.Fp2 Model.Fp3 Model.Fp4 Model.Fp6_2over3 Model.Fp6_3over2 Model.Fp12
  Proof.ExtTheory Proof.Towers Proof.Frob Proof.FiniteField Proof.Homs.
Import ListNotations.
Local Open Scope fld_scope.

(** ** Transfer from the schoolbook rings to the classes *)
Lemma fpow_ext (T : Type) z o ad mu su op iv eb z' ad' mu' su' op' iv' eb' (x : T) e :
  (forall x y, mu' x y = mu x y) ->
  fpow (K := mkFieldOps T z' o ad' mu' su' op' iv' eb') x e =
  fpow (K := mkFieldOps T z o ad mu su op iv eb) x e.
Proof.
  intros Hm. induction e using N.peano_ind; [reflexivity|]. rewrite !fpow_succ, IHe. apply Hm.
Qed.
Lemma fofN_ext (T : Type) z o ad mu su op iv eb ad' mu' su' op' iv' eb' e :
  (forall x y, ad' x y = ad x y) ->
  fofN (K := mkFieldOps T z o ad' mu' su' op' iv' eb') e =
  fofN (K := mkFieldOps T z o ad mu su op iv eb) e.
Proof.
  intros Hm. induction e using N.peano_ind; [reflexivity|]. rewrite !fofN_succ, IHe. apply Hm.
Qed.
Lemma FinField_ext (T : Type) z o ad mu su op iv eb ad' mu' su' op' iv' eb' p n :
  (forall x y, ad' x y = ad x y) -> (forall x y, mu' x y = mu x y) ->
  FieldLaws (mkFieldOps T z o ad' mu' su' op' iv' eb') ->
  FinField (mkFieldOps T z o ad mu su op iv eb) p n ->
  FinField (mkFieldOps T z o ad' mu' su' op' iv' eb') p n.
Proof.
  intros Ha Hm KL [H1 H2 H3 H4 H5]. constructor; auto.
  - etransitivity; [|exact H3]. apply fofN_ext, Ha.
  - intros y. etransitivity; [|apply (H5 y)]. apply fpow_ext, Hm.
Qed.

(** ** The table check *)
Section Check.
  Variable F : FieldOps.
  (** [sigma] Frobenius of the coefficient field, [T] the table, [m] its length,
      [c] the required first entry *)
  Definition table_ok (sigma : F -> F) (T : nat -> F) (m : nat) (c : F) : bool :=
    feqb (T 0%nat) 1 && feqb (T 1%nat) c &&
    forallb (fun k => feqb (T (S k mod m)%nat) (sigma (T k) * T 1%nat)) (seq 0 m).
  Definition squares_ok (T T2 : nat -> F) (m : nat) : bool :=
    forallb (fun k => feqb (T2 k) (T k * T k)) (seq 0 m).
End Check.

Lemma forallb_ext_in {A} (f g : A -> bool) l : (forall x, In x l -> f x = g x) -> forallb f l = forallb g l.
Proof. induction l as [|a l IH]; intros H; cbn; [reflexivity|]. rewrite (H a (or_introl eq_refl)), IH; [reflexivity|]. intros x Hx. apply H. right. exact Hx. Qed.

Lemma table_ok_hom {A B : FieldOps} (h : A -> B) (H : Hom A B h) s s' T T' m c c' :
  (forall x, h (s x) = s' (h x)) -> (forall k, h (T k) = T' k) -> h c = c' ->
  table_ok B s' T' m c' = table_ok A s T m c.
Proof.
  intros Hs HT Hc. unfold table_ok. f_equal; [f_equal|].
  - rewrite <- HT, <- (hom_1 _ _ _ H). apply (hom_eqb _ _ _ H).
  - rewrite <- HT, <- Hc. apply (hom_eqb _ _ _ H).
  - apply forallb_ext_in. intros k _. rewrite <- !HT, <- Hs, <- (hom_mul _ _ _ H). apply (hom_eqb _ _ _ H).
Qed.
Lemma squares_ok_hom {A B : FieldOps} (h : A -> B) (H : Hom A B h) T T' T2 T2' m :
  (forall k, h (T k) = T' k) -> (forall k, h (T2 k) = T2' k) ->
  squares_ok B T' T2' m = squares_ok A T T2 m.
Proof.
  intros HT HT2. apply forallb_ext_in. intros k _. rewrite <- !HT, <- HT2, <- (hom_mul _ _ _ H). apply (hom_eqb _ _ _ H).
Qed.

Lemma mod_succ (k : N) (m : nat) : (1 < m)%nat ->
  (N.to_nat (N.succ k mod N.of_nat m) = S (N.to_nat (k mod N.of_nat m)) mod m)%nat.
Proof.
  intros Hm. apply Nat2N.inj. rewrite N2Nat.id, Nat2N.inj_mod, Nat2N.inj_succ, N2Nat.id.
  rewrite <- !N.add_1_l. symmetry. apply N.add_mod_idemp_r. lia.
Qed.
Lemma mod_lt_in (k : N) (m : nat) : (1 < m)%nat -> In (N.to_nat (k mod N.of_nat m)) (seq 0 m).
Proof. intros Hm. apply in_seq. assert (H := N.mod_lt k (N.of_nat m) ltac:(lia)). generalize dependent (k mod N.of_nat m)%N. intros j Hj. lia. Qed.

Section QuadTable.
  Variable F : FieldOps.
  Variables p n : N.
  Variable nu : F.
  Hypothesis FF : FinField F p n.
  Let KL := FF_field F p n FF.
  Let R := FieldLaws_Ring F KL.
  Local Notation Q := (Quad F nu).
  Let RQ := Quad_ring F nu R.
  Add Ring Fr : (RL_th F R).
  Variable sigma : F -> F.
  Hypothesis Hsigma : forall y, sigma y = fpow y p.
  Variable T : nat -> F.
  Variable m : nat.
  Hypothesis Hm : (1 < m)%nat.
  Variable e : N.
  Hypothesis He : (p = 2 * e + 1)%N.
  Hypothesis Hok : table_ok F sigma T m (fpow nu e) = true.

  Lemma quad_table k : fpow (mkq 0 1 : Q) (p ^ k) = mkq 0 (T (N.to_nat (k mod N.of_nat m))).
  Proof.
    unfold table_ok in Hok. rewrite !andb_true_iff in Hok. destruct Hok as [[H0 H1] Hs].
    apply (feqb_true F R) in H0. apply (feqb_true F R) in H1. rewrite forallb_forall in Hs.
    assert (Hw1 : fpow (mkq 0 1 : Q) (p ^ 1) = mkq 0 (T 1%nat)).
    { rewrite N.pow_1_r, He, H1. apply (quad_fpow_w F p n nu FF). }
    induction k as [|k IH] using N.peano_ind.
    - rewrite N.pow_0_r, (fpow_1 Q RQ). rewrite N.mod_0_l by lia. cbn [N.to_nat]. rewrite H0. reflexivity.
    - rewrite N.pow_succ_r', N.mul_comm, (fpow_mul Q RQ), IH.
      assert (Hp1 := N.pow_1_r p). rewrite <- Hp1 at 1.
      rewrite (quad_frob_pow F p n nu FF 1 _ _ _ Hw1), Hp1, <- (Hsigma (T _)), mod_succ by exact Hm.
      f_equal.
      + apply (fpow_zero F R). rewrite He. lia.
      + rewrite (feqb_true F R _ _ (Hs _ (mod_lt_in k m Hm))). ring.
  Qed.
End QuadTable.

Section CubTable.
  Variable F : FieldOps.
  Variables p n : N.
  Variable nu : F.
  Hypothesis FF : FinField F p n.
  Let KL := FF_field F p n FF.
  Let R := FieldLaws_Ring F KL.
  Local Notation Q := (Cub F nu).
  Let RQ := Cub_ring F nu R.
  Add Ring Fr : (RL_th F R).
  Variable sigma : F -> F.
  Hypothesis Hsigma : forall y, sigma y = fpow y p.
  Variable T : nat -> F.
  Variable m : nat.
  Hypothesis Hm : (1 < m)%nat.
  Variable e : N.
  Hypothesis He : (p = 3 * e + 1)%N.
  Hypothesis Hok : table_ok F sigma T m (fpow nu e) = true.

  Lemma cub_table k : fpow (mkc 0 1 0 : Q) (p ^ k) = mkc 0 (T (N.to_nat (k mod N.of_nat m))) 0.
  Proof.
    unfold table_ok in Hok. rewrite !andb_true_iff in Hok. destruct Hok as [[H0 H1] Hs].
    apply (feqb_true F R) in H0. apply (feqb_true F R) in H1. rewrite forallb_forall in Hs.
    assert (Hw1 : fpow (mkc 0 1 0 : Q) (p ^ 1) = mkc 0 (T 1%nat) 0).
    { rewrite N.pow_1_r, He, H1. apply (cub_fpow_w F p n nu FF). }
    induction k as [|k IH] using N.peano_ind.
    - rewrite N.pow_0_r, (fpow_1 Q RQ). rewrite N.mod_0_l by lia. cbn [N.to_nat]. rewrite H0. reflexivity.
    - rewrite N.pow_succ_r', N.mul_comm, (fpow_mul Q RQ), IH.
      assert (Hp1 := N.pow_1_r p). rewrite <- Hp1 at 1.
      rewrite (cub_frob_pow F p n nu FF 1 _ _ _ _ Hw1), Hp1, <- (Hsigma (T _)), mod_succ by exact Hm.
      assert (Hz : fpow (0 : F) p = 0) by (apply (fpow_zero F R); rewrite He; lia).
      rewrite Hz. f_equal.
      + rewrite (feqb_true F R _ _ (Hs _ (mod_lt_in k m Hm))). ring.
      + ring.
  Qed.
End CubTable.

(** ** The classes *)
Section Classes.
  Variable K : FieldOps.
  Variable p : N.
  Hypothesis FK : FinField K p 1.
  Let KL := FF_field K p 1 FK.
  Let R := FieldLaws_Ring K KL.
  Add Ring Kr : (RL_th K R).

  Lemma base_frob_k (y : K) k : fpow y (p ^ k) = y.
  Proof.
    assert (H1 : forall z : K, fpow z p = z) by (intros z; rewrite <- (N.pow_1_r p); apply (FF_frob K p 1 FK)).
    induction k as [|k IH] using N.peano_ind.
    - rewrite N.pow_0_r. apply (fpow_1 K R).
    - rewrite N.pow_succ_r', N.mul_comm, (fpow_mul K R), IH. apply H1.
  Qed.

  Lemma base_frob1 (y : K) : y = fpow y p.
  Proof. symmetry. rewrite <- (N.pow_1_r p). apply base_frob_k. Qed.

  Section C2.
    Variable nr : K.
    Hypothesis p2 : p <> 2%N.
    Hypothesis Hns : not_square nr.
    Lemma fp2_FinField : FinField (Fp2 K nr) p 2.
    Proof.
      refine (FinField_ext _ _ _ _ _ _ _ _ _ _ _ _ _ _ _ _ _ _ _ _ (quad_FinField K p 1 nr FK p2 Hns)).
      - reflexivity.
      - intros; apply (fp2_mul_eq K nr R).
      - apply (fp2_field K nr KL Hns).
    Qed.
    Lemma fp2_fpow (x : quad K) e : fpow (x : Fp2 K nr) e = fpow (x : Quad K nr) e.
    Proof. apply fpow_ext. intros; apply (fp2_mul_eq K nr R). Qed.
  End C2.

  (** fp2: p = 2 e + 1 *)
  Definition fp2_table_ok (A : FieldOps) (nr : A) (fc : list A) (e : N) : bool :=
    table_ok A (fun y => y) (fun k => nth k fc 0) 2 (fpower nr e).
  Lemma fp2_frob_correct (nr : K) fc e x k :
    (p = 2 * e + 1)%N -> fp2_table_ok K nr fc e = true ->
    fp2_frob K fc x k = fpow (x : Fp2 K nr) (p ^ k).
  Proof.
    intros He Hok. unfold fp2_table_ok in Hok. rewrite (fpower_fpow _ _ _ R) in Hok.
    assert (Ht := quad_table K p 1 nr FK (fun y => y) base_frob1 _ 2%nat ltac:(lia) e He Hok k).
    destruct x as [a b]. rewrite fp2_fpow.
    rewrite (quad_frob_pow K p 1 nr FK k _ _ _ Ht), !base_frob_k. reflexivity.
  Qed.

  Section C3.
    Variable nr : K.
    Hypothesis H3 : exists e, (3 * e = p - 1)%N.
    Hypothesis Hnc : not_cube nr.
    Lemma fp3_FinField : FinField (Fp3 K nr) p 3.
    Proof.
      refine (FinField_ext _ _ _ _ _ _ _ _ _ _ _ _ _ _ _ _ _ _ _ _ (cub_FinField K p 1 nr FK _ Hnc)).
      - reflexivity.
      - intros; apply (fp3_mul_eq K nr R).
      - apply (fp3_field K nr KL Hnc).
      - rewrite N.pow_1_r. exact H3.
    Qed.
    Lemma fp3_fpow (x : cub K) e : fpow (x : Fp3 K nr) e = fpow (x : Cub K nr) e.
    Proof. apply fpow_ext. intros; apply (fp3_mul_eq K nr R). Qed.
  End C3.

  (** fp3: p = 3 e + 1 *)
  Definition fp3_table_ok (A : FieldOps) (nr : A) (fc1 fc2 : list A) (e : N) : bool :=
    table_ok A (fun y => y) (fun k => nth k fc1 0) 3 (fpower nr e) &&
    squares_ok A (fun k => nth k fc1 0) (fun k => nth k fc2 0) 3.
  Lemma fp3_frob_correct (nr : K) fc1 fc2 e x k :
    (p = 3 * e + 1)%N -> fp3_table_ok K nr fc1 fc2 e = true ->
    fp3_frob K fc1 fc2 x k = fpow (x : Fp3 K nr) (p ^ k).
  Proof.
    intros He Hok. unfold fp3_table_ok in Hok. apply andb_true_iff in Hok. destruct Hok as [Hok H2].
    rewrite (fpower_fpow _ _ _ R) in Hok.
    assert (Ht := cub_table K p 1 nr FK (fun y => y) base_frob1 _ 3%nat ltac:(lia) e He Hok k).
    destruct x as [a b c]. rewrite fp3_fpow.
    rewrite (cub_frob_pow K p 1 nr FK k _ _ _ _ Ht), !base_frob_k. unfold fp3_frob; cbn [c0 c1 c2].
    unfold squares_ok in H2. rewrite forallb_forall in H2.
    assert (E2 := feqb_true K R _ _ (H2 _ (mod_lt_in k 3 ltac:(lia)))). cbv beta in E2.
    change (N.of_nat 3) with 3%N in *. rewrite E2. reflexivity.
  Qed.

  (** ** Fp4: p = 4 e + 1 *)
  Section C4.
    Variable nr : K.
    Hypothesis p2 : p <> 2%N.
    Hypothesis Hns : not_square nr.
    Hypothesis Hnu : not_square (- nr).
    Local Notation F := (Fp2 K nr).
    Let FF := fp2_FinField nr p2 Hns.
    Let RF := FieldLaws_Ring _ (FF_field _ _ _ FF).

    Lemma fp2_u_not_square : not_square (K := F) (fp2_u K nr).
    Proof.
      intros x Hx. apply (quad_not_square K p 1 nr FK (fp2_u K nr)) with (x := x).
      - unfold quad_norm, fp2_u; cbn. replace (0 * 0 - nr * (1 * 1)) with (- nr) by ring. exact Hnu.
      - rewrite <- Hx. symmetry. apply (fp2_mul_eq K nr R).
    Qed.
    Lemma fp4_FinField : FinField (Fp4 K nr nr) p 4.
    Proof.
      refine (FinField_ext _ _ _ _ _ _ _ _ _ _ _ _ _ _ _ _ _ _ _ _
               (quad_FinField F p 2 (fp2_u K nr) FF p2 fp2_u_not_square)).
      - reflexivity.
      - intros; apply (fp4_mul_eq K nr R).
      - apply (fp4_field K nr); auto; [apply (FF_field _ _ _ FF)|apply fp2_u_not_square].
    Qed.
    Lemma fp4_fpow (x : quad F) e : fpow (x : Fp4 K nr nr) e = fpow (x : Quad F (fp2_u K nr)) e.
    Proof. apply fpow_ext. intros; apply (fp4_mul_eq K nr R). Qed.

    Lemma fp2_u_pow e : fpow (fp2_u K nr : F) (2 * e) = mkq (fpow nr e) 0.
    Proof. rewrite fp2_fpow. apply (quad_fpow_w_even K p 1 nr FK). Qed.

    Definition fp4_table_ok (A : FieldOps) (nr : A) (fc : list A) (e : N) : bool :=
      table_ok A (fun y => y) (fun k => nth k fc 0) 4 (fpower nr e).

    Lemma emb2_inj_ok (x : K) fc2 e2 : (p = 2 * e2 + 1)%N -> fp2_table_ok K nr fc2 e2 = true ->
      fp2_frob K fc2 (mkq x 0 : F) 1 = mkq x 0.
    Proof. intros. unfold fp2_frob; cbn [q0 q1]. f_equal. ring. Qed.

    Lemma fp4_frob_correct fc2 fc4 e x k :
      (p = 4 * e + 1)%N -> fp2_table_ok K nr fc2 (2 * e) = true -> fp4_table_ok K nr fc4 e = true ->
      fp4_frob K nr fc2 fc4 x k = fpow (x : Fp4 K nr nr) (p ^ k).
    Proof.
      intros He Hok2 Hok4. assert (He2 : (p = 2 * (2 * e) + 1)%N) by lia.
      assert (Hf : forall y j, fp2_frob K fc2 y j = fpow (y : F) (p ^ j)).
      { intros y j. apply (fp2_frob_correct nr fc2 (2 * e)); assumption. }
      set (T := fun k => mkq (nth k fc4 0) 0 : F).
      assert (Hok : table_ok F (fun y => fp2_frob K fc2 y 1) T 4 (fpow (fp2_u K nr : F) (2 * e)) = true).
      { rewrite fp2_u_pow, <- (fpower_fpow _ _ _ R). rewrite <- Hok4.
        unfold table_ok, fp4_table_ok, table_ok. f_equal; [f_equal|].
        - cbn. unfold fp2_eqb; cbn. rewrite (feqb_refl K R), andb_true_r. reflexivity.
        - cbn. unfold fp2_eqb; cbn. rewrite (feqb_refl K R), andb_true_r. reflexivity.
        - apply forallb_ext_in. intros j _. unfold T, fp2_frob; cbn [q0 q1].
          replace ((mkq (nth j fc4 0) (nth (N.to_nat (1 mod 2)) fc2 0 * 0) : F) * mkq (nth 1 fc4 0) 0)
            with (mkq (nth j fc4 0 * nth 1 fc4 0) 0 : F).
          + cbn. unfold fp2_eqb; cbn [q0 q1]. rewrite (feqb_refl K R), andb_true_r. reflexivity.
          + cbn. unfold fp2_mul; cbn [q0 q1]. f_equal; ring. }
      assert (Ht := quad_table F p 2 (fp2_u K nr) FF (fun y => fp2_frob K fc2 y 1)
        ltac:(intros y; cbv beta; rewrite Hf, N.pow_1_r; reflexivity) T 4 ltac:(lia) (2 * e) He2 Hok k).
      destruct x as [a b]. rewrite fp4_fpow.
      rewrite (quad_frob_pow F p 2 (fp2_u K nr) FF k _ _ _ Ht), <- !Hf. unfold fp4_frob; cbn [q0 q1].
      f_equal. apply (fp2_smul_eq K nr R).
    Qed.
  End C4.

  (** ** Fp6 as 2 over 3: p = 6 e + 1 *)
  Section C6t.
    Variable nr : K.
    Hypothesis p2 : p <> 2%N.
    Hypothesis H3 : exists e, (3 * e = p - 1)%N.
    Hypothesis Hnc : not_cube nr.
    Hypothesis Hns : not_square nr.
    Local Notation F := (Fp3 K nr).
    Let FF := fp3_FinField nr H3 Hnc.
    Let RF := FieldLaws_Ring _ (FF_field _ _ _ FF).

    Lemma fp3_u_not_square : not_square (K := F) (fp3_u K nr).
    Proof.
      intros x Hx. apply (cub_not_square K p 1 nr FK (fp3_u K nr)) with (x := x).
      - unfold fp3_u. cbn. rewrite (cub_lin_norm K nr KL). 
        replace (0 * 0 * 0 + nr * (1 * 1 * 1)) with nr by ring. exact Hns.
      - rewrite <- Hx. symmetry. apply (fp3_mul_eq K nr R).
    Qed.
    Lemma fp6t_FinField : FinField (Fp6t K nr nr) p 6.
    Proof.
      refine (FinField_ext _ _ _ _ _ _ _ _ _ _ _ _ _ _ _ _ _ _ _ _
               (quad_FinField F p 3 (fp3_u K nr) FF p2 fp3_u_not_square)).
      - reflexivity.
      - intros; apply (fp6t_mul_eq K nr R).
      - apply (fp6t_field K nr); auto; [apply (FF_field _ _ _ FF)|apply fp3_u_not_square].
    Qed.
    Lemma fp6t_fpow (x : quad F) e : fpow (x : Fp6t K nr nr) e = fpow (x : Quad F (fp3_u K nr)) e.
    Proof. apply fpow_ext. intros; apply (fp6t_mul_eq K nr R). Qed.
    Lemma fp3_u_pow e : fpow (fp3_u K nr : F) (3 * e) = mkc (fpow nr e) 0 0.
    Proof. rewrite fp3_fpow. apply (cub_fpow_w_triple K p 1 nr FK). Qed.

    Definition fp6t_table_ok (A : FieldOps) (nr : A) (fc : list A) (e : N) : bool :=
      table_ok A (fun y => y) (fun k => nth k fc 0) 6 (fpower nr e).

    Lemma fp6t_frob_correct fc31 fc32 fc6 e x k :
      (p = 6 * e + 1)%N -> fp3_table_ok K nr fc31 fc32 (2 * e) = true -> fp6t_table_ok K nr fc6 e = true ->
      fp6t_frob K nr fc31 fc32 fc6 x k = fpow (x : Fp6t K nr nr) (p ^ k).
    Proof.
      intros He Hok2 Hok4. assert (He2 : (p = 2 * (3 * e) + 1)%N) by lia.
      assert (Hf : forall y j, fp3_frob K fc31 fc32 y j = fpow (y : F) (p ^ j)).
      { intros y j. apply (fp3_frob_correct nr fc31 fc32 (2 * e)); [lia|assumption]. }
      set (T := fun k => mkc (nth k fc6 0) 0 0 : F).
      assert (Hok : table_ok F (fun y => fp3_frob K fc31 fc32 y 1) T 6 (fpow (fp3_u K nr : F) (3 * e)) = true).
      { rewrite fp3_u_pow, <- (fpower_fpow _ _ _ R). rewrite <- Hok4.
        unfold table_ok, fp6t_table_ok, table_ok. f_equal; [f_equal|].
        - cbn. unfold fp3_eqb; cbn. rewrite (feqb_refl K R), !andb_true_r. reflexivity.
        - cbn. unfold fp3_eqb; cbn. rewrite (feqb_refl K R), !andb_true_r. reflexivity.
        - apply forallb_ext_in. intros j _. unfold T, fp3_frob; cbn [c0 c1 c2].
          match goal with |- feqb _ ?w = _ => 
            replace w with (mkc (nth j fc6 0 * nth 1 fc6 0) 0 0 : F) end.
          + cbn. unfold fp3_eqb; cbn [c0 c1 c2]. rewrite (feqb_refl K R), !andb_true_r. reflexivity.
          + cbn. unfold fp3_mul; cbn [c0 c1 c2]. f_equal; ring. }
      assert (Ht := quad_table F p 3 (fp3_u K nr) FF (fun y => fp3_frob K fc31 fc32 y 1)
        ltac:(intros y; cbv beta; rewrite Hf, N.pow_1_r; reflexivity) T 6 ltac:(lia) (3 * e) He2 Hok k).
      destruct x as [a b]. rewrite fp6t_fpow.
      rewrite (quad_frob_pow F p 3 (fp3_u K nr) FF k _ _ _ Ht), <- !Hf. unfold fp6t_frob; cbn [q0 q1].
      f_equal. apply (fp3_smul_eq K nr R).
    Qed.
  End C6t.

  (** ** Fp6 (3 over 2) and Fp12: p = 6 e + 1 *)
  Section C12.
    Variable nr : K.
    Variable xi : Fp2 K nr.
    Hypothesis p2 : p <> 2%N.
    Hypothesis Hns : not_square nr.
    Hypothesis H3 : exists e, (3 * e = p ^ 2 - 1)%N.
    Hypothesis Hnc : not_cube xi.
    Hypothesis Hxs : not_square (quad_norm K nr xi).
    Local Notation F2 := (Fp2 K nr).
    Local Notation sq2 := (fp2_sqr K nr).
    Local Notation F6 := (Fp6 (Fp2 K nr) (fp2_sqr K nr) xi).
    Let FF2 := fp2_FinField nr p2 Hns.
    Let KL2 := FF_field _ _ _ FF2.
    Let R2 := FieldLaws_Ring _ KL2.
    Add Ring F2r : (RL_th F2 R2).

    Lemma fp6_FinField : FinField F6 p 6.
    Proof.
      refine (FinField_ext _ _ _ _ _ _ _ _ _ _ _ _ _ _ _ _ _ _ _ _
               (cub_FinField F2 p 2 xi FF2 H3 Hnc)).
      - reflexivity.
      - intros; apply (fp6_mul_eq F2 xi R2).
      - apply (fp6_field F2 sq2 xi KL2); [|exact Hnc]. intros; apply (fp2_sqr_eq K nr R).
    Qed.
    Lemma fp6_fpow (x : cub F2) e : fpow (x : F6) e = fpow (x : Cub F2 xi) e.
    Proof. apply fpow_ext. intros; apply (fp6_mul_eq F2 xi R2). Qed.

    Lemma xi_not_square : not_square xi.
    Proof.
      intros x Hx. apply (quad_not_square K p 1 nr FK xi) with (x := x); [exact Hxs|].
      rewrite <- Hx. symmetry. apply (fp2_mul_eq K nr R).
    Qed.
    Lemma fp6_v_not_square : not_square (K := F6) (fp6_v F2 sq2 xi).
    Proof.
      intros x Hx. apply (cub_not_square F2 p 2 xi FF2 (fp6_v F2 sq2 xi)) with (x := x).
      - unfold fp6_v. cbn [Fp6 f0 f1 fp6_zero fp6_one]. 
        change (not_square (cub_norm F2 xi (mkc 0 1 0))). rewrite (cub_lin_norm F2 xi KL2).
        replace (0 * 0 * 0 + xi * (1 * 1 * 1)) with xi by ring. exact xi_not_square.
      - rewrite <- Hx. symmetry. apply (fp6_mul_eq F2 xi R2).
    Qed.
    Lemma fp12_FinField : FinField (Fp12 F2 sq2 xi xi) p 12.
    Proof.
      refine (FinField_ext _ _ _ _ _ _ _ _ _ _ _ _ _ _ _ _ _ _ _ _
               (quad_FinField F6 p 6 (fp6_v F2 sq2 xi) fp6_FinField p2 fp6_v_not_square)).
      - reflexivity.
      - intros; apply (fp12_mul_eq F2 sq2 xi R2).
      - apply (fp12_field F2 sq2 xi (FF_field _ _ _ fp6_FinField) R2); [intros; apply (fp2_sqr_eq K nr R)|apply fp6_v_not_square].
    Qed.
    Lemma fp12_fpow (x : quad F6) e : fpow (x : Fp12 F2 sq2 xi xi) e = fpow (x : Quad F6 (fp6_v F2 sq2 xi)) e.
    Proof. apply fpow_ext. intros; apply (fp12_mul_eq F2 sq2 xi R2). Qed.

    Definition pairs {A : FieldOps} (t : list A) (k : nat) : quad A := mkq (nth (k * 2) t 0) (nth (k * 2 + 1) t 0).

    Definition fp6_table_ok (A : FieldOps) (nr : A) (xi : Fp2 A nr) (fc2 fc61 fc62 : list A) (e : N) : bool :=
      table_ok (Fp2 A nr) (fun y => fp2_frob A fc2 y 1) (pairs fc61) 6 (fpower xi (2 * e)) &&
      squares_ok (Fp2 A nr) (pairs fc61) (pairs fc62) 6.
    Definition fp12_table_ok (A : FieldOps) (nr : A) (xi : Fp2 A nr) (fc2 fc12 : list A) (e : N) : bool :=
      table_ok (Fp2 A nr) (fun y => fp2_frob A fc2 y 1) (pairs fc12) 12 (fpower xi e).

    Variables (fc2 fc61 fc62 fc12 : list K) (e : N).
    Hypothesis He : (p = 6 * e + 1)%N.
    Hypothesis ok2 : fp2_table_ok K nr fc2 (3 * e) = true.
    Hypothesis ok6 : fp6_table_ok K nr xi fc2 fc61 fc62 e = true.

    Lemma fp2_frob_c12 y j : fp2_frob K fc2 y j = fpow (y : F2) (p ^ j).
    Proof. apply (fp2_frob_correct nr fc2 (3 * e)); [lia|exact ok2]. Qed.

    Lemma fp6_frob_correct x k : fp6_frob K nr fc2 fc61 fc62 x k = fpow (x : F6) (p ^ k).
    Proof.
      unfold fp6_table_ok in ok6. apply andb_true_iff in ok6. destruct ok6 as [Hok Hsq].
      rewrite (fpower_fpow _ _ _ R2) in Hok.
      assert (Ht := cub_table F2 p 2 xi FF2 (fun y => fp2_frob K fc2 y 1)
        ltac:(intros y; cbv beta; rewrite fp2_frob_c12, N.pow_1_r; reflexivity) _ 6%nat ltac:(lia) (2 * e) ltac:(lia) Hok k).
      destruct x as [a b c]. rewrite fp6_fpow.
      rewrite (cub_frob_pow F2 p 2 xi FF2 k _ _ _ _ Ht), <- !fp2_frob_c12. unfold fp6_frob; cbn [c0 c1 c2].
      unfold squares_ok in Hsq. rewrite forallb_forall in Hsq.
      assert (E2 := feqb_true F2 R2 _ _ (Hsq _ (mod_lt_in k 6 ltac:(lia)))). cbv beta in E2.
      change (N.of_nat 6) with 6%N in *. rewrite <- E2. reflexivity.
    Qed.

    Hypothesis ok12 : fp12_table_ok K nr xi fc2 fc12 e = true.

    Lemma fp6_v_pow j : fpow (fp6_v F2 sq2 xi : F6) (3 * j) = mkc (fpow xi j) 0 0.
    Proof. rewrite fp6_fpow. apply (cub_fpow_w_triple F2 p 2 xi FF2). Qed.

    Lemma fp12_frob_correct x k :
      fp12_frob K nr fc2 fc61 fc62 fc12 x k = fpow (x : Fp12 F2 sq2 xi xi) (p ^ k).
    Proof.
      set (T := fun k => mkc (A := F2) (pairs fc12 k) 0 0 : F6).
      assert (Hok : table_ok F6 (fun y => fp6_frob K nr fc2 fc61 fc62 y 1) T 12 (fpow (fp6_v F2 sq2 xi : F6) (3 * e)) = true).
      { rewrite fp6_v_pow, <- (fpower_fpow _ _ _ R2). rewrite <- ok12.
        unfold table_ok, fp12_table_ok, table_ok. f_equal; [f_equal|].
        - cbn [Fp6 feqb f1]. unfold fp6_eqb, T, fp6_one; cbn [c0 c1 c2].
          rewrite (feqb_refl F2 R2), !andb_true_r. reflexivity.
        - cbn [Fp6 feqb f1]. unfold fp6_eqb, T, fp6_one; cbn [c0 c1 c2].
          rewrite (feqb_refl F2 R2), !andb_true_r. reflexivity.
        - apply forallb_ext_in. intros j _. unfold T, fp6_frob; cbn [c0 c1 c2].
          match goal with |- feqb _ ?w = _ =>
            replace w with (mkc (A := F2) ((fp2_frob K fc2 (pairs fc12 j) 1 : F2) * (pairs fc12 1 : F2)) 0 0 : F6) end.
          + cbn [Fp6 feqb]. unfold fp6_eqb; cbn [c0 c1 c2]. rewrite (feqb_refl F2 R2), !andb_true_r. reflexivity.
          + assert (H0 : (fp2_frob K fc2 (0 : F2) 1 : F2) = 0).
            { unfold fp2_frob. cbn. unfold fp2_zero. f_equal. ring. }
            rewrite H0. cbn [Fp6 fmul]. rewrite (fp6_mul_eq F2 xi R2). cbn [Cub fmul c0 c1 c2]. f_equal; ring. }
      assert (Ht := quad_table F6 p 6 (fp6_v F2 sq2 xi) fp6_FinField (fun y => fp6_frob K nr fc2 fc61 fc62 y 1)
        ltac:(intros y; cbv beta; rewrite fp6_frob_correct, N.pow_1_r; reflexivity) T 12%nat ltac:(lia) (3 * e) ltac:(lia) Hok k).
      destruct x as [a b]. rewrite fp12_fpow.
      rewrite (quad_frob_pow F6 p 6 (fp6_v F2 sq2 xi) fp6_FinField k _ _ _ Ht), <- !fp6_frob_correct.
      unfold fp12_frob; cbn [q0 q1]. f_equal. 
      rewrite (fp6_smul_eq F2 sq2 xi R2). reflexivity.
    Qed.
  End C12.
End Classes.
