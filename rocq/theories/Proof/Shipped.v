(** Decidable conditions on tower constants, sound for the towers over Zp and
    evaluated on BigN residues. *)
From Coq Require Import ZArith NArith List Bool Lia Ring Field Znumtheory.
From Bignums Require Import BigN.
From Verif Require Import Base.Field Base.Zp Base.Ext Base.Hom Base.BigZp Spec.PolyQuot
  Model.Power Model.Fp2 Model.Fp3 Model.Fp4 Model.Fp6_2over3 Model.Fp6_3over2 Model.Fp12
  Model.FieldParams Model.Shipped
  Proof.ExtTheory Proof.Towers Proof.Frob Proof.FiniteField Proof.Homs Proof.Frobenius Proof.PrimesPairing.
Import ListNotations.
Local Open Scope fld_scope.

(** ** The checks, over any coefficient ring *)
Section Checks.
  Variable A : FieldOps.
  (** c is not a k-th power in a field with q elements: c <> 0 and c^((q-1)/k) <> 1 *)
  Definition nonpower (F : FieldOps) (k q : N) (c : F) : bool :=
    negb (feqb c 0) && negb (feqb (fpower c ((q - 1) / k)) 1) && N.eqb ((q - 1) mod k) 0.

  Definition tower12_field_ok (p : N) (nr : A) (xi : Fp2 A nr) : bool :=
    nonpower A 2 p nr && nonpower (Fp2 A nr) 3 (p ^ 2) xi && nonpower A 2 p (quad_norm A nr xi).
  Definition tower12_frob_ok (p : N) (nr : A) (xi : Fp2 A nr) (fc2 fc61 fc62 fc12 : list A) : bool :=
    let e := ((p - 1) / 6)%N in
    N.eqb ((p - 1) mod 6) 0 && fp2_table_ok A nr fc2 (3 * e) && fp6_table_ok A nr xi fc2 fc61 fc62 e &&
    fp12_table_ok A nr xi fc2 fc12 e.
  Definition tower4_field_ok (p : N) (nr : A) : bool := nonpower A 2 p nr && nonpower A 2 p (- nr).
  Definition tower4_frob_ok (p : N) (nr : A) (fc2 fc4 : list A) : bool :=
    let e := ((p - 1) / 4)%N in
    N.eqb ((p - 1) mod 4) 0 && fp2_table_ok A nr fc2 (2 * e) && fp4_table_ok A nr fc4 e.
  Definition tower6_field_ok (p : N) (nr : A) : bool := nonpower A 2 p nr && nonpower A 3 p nr.
  Definition tower3_frob_ok (p : N) (nr : A) (fc31 fc32 : list A) : bool :=
    let e := ((p - 1) / 6)%N in
    N.eqb ((p - 1) mod 6) 0 && fp3_table_ok A nr fc31 fc32 (2 * e).
  Definition tower6_frob_ok (p : N) (nr : A) (fc31 fc32 fc6 : list A) : bool :=
    tower3_frob_ok p nr fc31 fc32 && fp6t_table_ok A nr fc6 ((p - 1) / 6).
End Checks.

(** ** They commute with homomorphisms *)
Section HomChecks.
  Context {A B : FieldOps} (h : A -> B) (H : Hom A B h).

  Lemma nth_map_hom l k : h (nth k l 0) = nth k (map h l) 0.
  Proof. rewrite <- (hom_0 _ _ _ H). symmetry. apply map_nth. Qed.

  Lemma nonpower_hom {F G : FieldOps} (g : F -> G) (Hg : Hom F G g) k q c :
    nonpower G k q (g c) = nonpower F k q c.
  Proof.
    unfold nonpower. rewrite <- (hom_0 _ _ _ Hg), <- (hom_1 _ _ _ Hg), <- (hom_fpower g Hg).
    rewrite !(hom_eqb _ _ _ Hg). reflexivity.
  Qed.
  Lemma fp2_frob_hom fc x k : qmap h (fp2_frob A fc x k) = fp2_frob B (map h fc) (qmap h x) k.
  Proof.
    unfold fp2_frob, qmap; cbn [q0 q1]. rewrite (hom_mul _ _ _ H), nth_map_hom. reflexivity.
  Qed.
  Lemma pairs_hom t k : qmap h (pairs t k) = pairs (map h t) k.
  Proof. unfold pairs, qmap; cbn [q0 q1]. rewrite !nth_map_hom. reflexivity. Qed.
  Lemma norm_hom (nr : A) x : h (quad_norm A nr x) = quad_norm B (h nr) (qmap h x).
  Proof. unfold quad_norm, qmap; cbn [q0 q1]. hom_solve H. Qed.

  Lemma fp2_table_ok_hom nr fc e : fp2_table_ok B (h nr) (map h fc) e = fp2_table_ok A nr fc e.
  Proof.
    unfold fp2_table_ok. apply (table_ok_hom h H); auto using nth_map_hom. apply (hom_fpower h H).
  Qed.
  Lemma fp3_table_ok_hom nr fc1 fc2 e :
    fp3_table_ok B (h nr) (map h fc1) (map h fc2) e = fp3_table_ok A nr fc1 fc2 e.
  Proof.
    unfold fp3_table_ok. f_equal.
    - apply (table_ok_hom h H); auto using nth_map_hom. apply (hom_fpower h H).
    - apply (squares_ok_hom h H); auto using nth_map_hom.
  Qed.
  Lemma fp4_table_ok_hom nr fc e : fp4_table_ok B (h nr) (map h fc) e = fp4_table_ok A nr fc e.
  Proof.
    unfold fp4_table_ok. apply (table_ok_hom h H); auto using nth_map_hom. apply (hom_fpower h H).
  Qed.
  Lemma fp6t_table_ok_hom nr fc e : fp6t_table_ok B (h nr) (map h fc) e = fp6t_table_ok A nr fc e.
  Proof.
    unfold fp6t_table_ok. apply (table_ok_hom h H); auto using nth_map_hom. apply (hom_fpower h H).
  Qed.
  Lemma fp6_table_ok_hom nr xi fc2 fc61 fc62 e :
    fp6_table_ok B (h nr) (qmap h xi) (map h fc2) (map h fc61) (map h fc62) e
    = fp6_table_ok A nr xi fc2 fc61 fc62 e.
  Proof.
    assert (H2 := hom_fp2 h H nr). unfold fp6_table_ok. f_equal.
    - apply (table_ok_hom _ H2); [intros; apply fp2_frob_hom|intros; apply pairs_hom|apply (hom_fpower _ H2)].
    - apply (squares_ok_hom _ H2); intros; apply pairs_hom.
  Qed.
  Lemma fp12_table_ok_hom nr xi fc2 fc12 e :
    fp12_table_ok B (h nr) (qmap h xi) (map h fc2) (map h fc12) e = fp12_table_ok A nr xi fc2 fc12 e.
  Proof.
    assert (H2 := hom_fp2 h H nr). unfold fp12_table_ok.
    apply (table_ok_hom _ H2); [intros; apply fp2_frob_hom|intros; apply pairs_hom|apply (hom_fpower _ H2)].
  Qed.

  Lemma tower12_field_ok_hom p nr xi : tower12_field_ok B p (h nr) (qmap h xi) = tower12_field_ok A p nr xi.
  Proof.
    unfold tower12_field_ok. rewrite <- norm_hom, !(nonpower_hom h H), (nonpower_hom _ (hom_fp2 h H nr)). reflexivity.
  Qed.
  Lemma tower12_frob_ok_hom p nr xi fc2 fc61 fc62 fc12 :
    tower12_frob_ok B p (h nr) (qmap h xi) (map h fc2) (map h fc61) (map h fc62) (map h fc12)
    = tower12_frob_ok A p nr xi fc2 fc61 fc62 fc12.
  Proof.
    unfold tower12_frob_ok. rewrite fp2_table_ok_hom, fp6_table_ok_hom, fp12_table_ok_hom. reflexivity.
  Qed.
  Lemma tower4_field_ok_hom p nr : tower4_field_ok B p (h nr) = tower4_field_ok A p nr.
  Proof. unfold tower4_field_ok. rewrite <- (hom_opp _ _ _ H), !(nonpower_hom h H). reflexivity. Qed.
  Lemma tower4_frob_ok_hom p nr fc2 fc4 :
    tower4_frob_ok B p (h nr) (map h fc2) (map h fc4) = tower4_frob_ok A p nr fc2 fc4.
  Proof. unfold tower4_frob_ok. rewrite fp2_table_ok_hom, fp4_table_ok_hom. reflexivity. Qed.
  Lemma tower6_field_ok_hom p nr : tower6_field_ok B p (h nr) = tower6_field_ok A p nr.
  Proof. unfold tower6_field_ok. rewrite !(nonpower_hom h H). reflexivity. Qed.
  Lemma tower3_frob_ok_hom p nr fc31 fc32 :
    tower3_frob_ok B p (h nr) (map h fc31) (map h fc32) = tower3_frob_ok A p nr fc31 fc32.
  Proof. unfold tower3_frob_ok. rewrite fp3_table_ok_hom. reflexivity. Qed.
  Lemma tower6_frob_ok_hom p nr fc31 fc32 fc6 :
    tower6_frob_ok B p (h nr) (map h fc31) (map h fc32) (map h fc6) = tower6_frob_ok A p nr fc31 fc32 fc6.
  Proof. unfold tower6_frob_ok. rewrite tower3_frob_ok_hom, fp6t_table_ok_hom. reflexivity. Qed.
End HomChecks.

(** ** Soundness over a prime field *)
Lemma nonpower_2 (F : FieldOps) p n (FF : FinField F p n) c : nonpower F 2 (p ^ n) c = true -> not_square c.
Proof.
  assert (R := FieldLaws_Ring _ (FF_field _ _ _ FF)).
  unfold nonpower. rewrite !andb_true_iff, !negb_true_iff, N.eqb_eq. intros [[H1 H2] H3].
  rewrite (fpower_fpow _ _ _ R) in H2.
  apply (not_square_test F p n FF ((p ^ n - 1) / 2) c).
  - apply (feqb_false F R), H1.
  - assert (Hd := N.div_mod (p ^ n - 1) 2 ltac:(lia)). lia.
  - apply (feqb_false F R), H2.
Qed.
Lemma nonpower_3 (F : FieldOps) p n (FF : FinField F p n) c : nonpower F 3 (p ^ n) c = true ->
  not_cube c /\ exists e, (3 * e = p ^ n - 1)%N.
Proof.
  assert (R := FieldLaws_Ring _ (FF_field _ _ _ FF)).
  unfold nonpower. rewrite !andb_true_iff, !negb_true_iff, N.eqb_eq. intros [[H1 H2] H3].
  rewrite (fpower_fpow _ _ _ R) in H2.
  assert (Hd := N.div_mod (p ^ n - 1) 3 ltac:(lia)). rewrite H3 in Hd.
  split; [|exists ((p ^ n - 1) / 3)%N; lia].
  apply (not_cube_test F p n FF ((p ^ n - 1) / 3) c).
  - apply (feqb_false F R), H1.
  - lia.
  - apply (feqb_false F R), H2.
Qed.

Section Sound.
  Variable K : FieldOps.
  Variable p : N.
  Hypothesis FK : FinField K p 1.
  Hypothesis p2 : p <> 2%N.

  Lemma nonpower_2K c : nonpower K 2 p c = true -> not_square c.
  Proof. intros H. apply (nonpower_2 K p 1 FK). rewrite N.pow_1_r. exact H. Qed.
  Lemma p_gt_1 : (1 < p)%N.
  Proof. assert (H := FF_p_ge_2 _ _ _ FK). lia. Qed.

  Lemma tower12_sound nr xi : tower12_field_ok K p nr xi = true ->
    FinField (Fp2 K nr) p 2 /\ FinField (Fp6 (Fp2 K nr) (fp2_sqr K nr) xi) p 6
    /\ FinField (Fp12 (Fp2 K nr) (fp2_sqr K nr) xi xi) p 12.
  Proof.
    unfold tower12_field_ok. rewrite !andb_true_iff. intros [[H1 H2] H3].
    apply nonpower_2K in H1. apply nonpower_2K in H3.
    assert (F2 := fp2_FinField K p FK nr p2 H1).
    destruct (nonpower_3 _ p 2 F2 xi H2) as [H4 H5].
    split; [exact F2|]. split.
    - apply fp6_FinField; assumption.
    - apply fp12_FinField; assumption.
  Qed.
  Lemma tower12_frob_sound nr xi fc2 fc61 fc62 fc12 :
    tower12_field_ok K p nr xi = true -> tower12_frob_ok K p nr xi fc2 fc61 fc62 fc12 = true ->
    (forall x k, fp2_frob K fc2 x k = fpow (x : Fp2 K nr) (p ^ k)) /\
    (forall x k, fp6_frob K nr fc2 fc61 fc62 x k = fpow (x : Fp6 (Fp2 K nr) (fp2_sqr K nr) xi) (p ^ k)) /\
    (forall x k, fp12_frob K nr fc2 fc61 fc62 fc12 x k = fpow (x : Fp12 (Fp2 K nr) (fp2_sqr K nr) xi xi) (p ^ k)).
  Proof.
    unfold tower12_field_ok. rewrite !andb_true_iff. intros [[H1 H2] H3].
    apply nonpower_2K in H1. apply nonpower_2K in H3.
    assert (F2 := fp2_FinField K p FK nr p2 H1).
    destruct (nonpower_3 _ p 2 F2 xi H2) as [H4 H5].
    unfold tower12_frob_ok. rewrite !andb_true_iff, N.eqb_eq. intros [[[E T2] T6] T12].
    assert (Hp := p_gt_1).
    assert (He : (p = 6 * ((p - 1) / 6) + 1)%N).
    { assert (Hd := N.div_mod (p - 1) 6 ltac:(lia)). lia. }
    split; [|split]; intros x k.
    - apply (fp2_frob_correct K p FK nr fc2 (3 * ((p - 1) / 6))); [lia|exact T2].
    - apply (fp6_frob_correct K p FK nr xi p2 H1 fc2 fc61 fc62 ((p - 1) / 6)); assumption.
    - apply (fp12_frob_correct K p FK nr xi p2 H1 H5 H4 fc2 fc61 fc62 fc12 ((p - 1) / 6)); assumption.
  Qed.
  Lemma tower4_sound nr : tower4_field_ok K p nr = true ->
    FinField (Fp2 K nr) p 2 /\ FinField (Fp4 K nr nr) p 4.
  Proof.
    unfold tower4_field_ok. rewrite !andb_true_iff. intros [H1 H2].
    apply nonpower_2K in H1. apply nonpower_2K in H2.
    split; [apply fp2_FinField|apply fp4_FinField]; assumption.
  Qed.
  Lemma tower4_frob_sound nr fc2 fc4 : tower4_field_ok K p nr = true -> tower4_frob_ok K p nr fc2 fc4 = true ->
    (forall x k, fp2_frob K fc2 x k = fpow (x : Fp2 K nr) (p ^ k)) /\
    (forall x k, fp4_frob K nr fc2 fc4 x k = fpow (x : Fp4 K nr nr) (p ^ k)).
  Proof.
    unfold tower4_field_ok. rewrite !andb_true_iff. intros [H1 H2].
    apply nonpower_2K in H1. apply nonpower_2K in H2.
    unfold tower4_frob_ok. rewrite !andb_true_iff, N.eqb_eq. intros [[E T2] T4].
    assert (Hp := p_gt_1).
    assert (He : (p = 4 * ((p - 1) / 4) + 1)%N).
    { assert (Hd := N.div_mod (p - 1) 4 ltac:(lia)). lia. }
    split; intros x k.
    - apply (fp2_frob_correct K p FK nr fc2 (2 * ((p - 1) / 4))); [lia|exact T2].
    - apply (fp4_frob_correct K p FK nr p2 H1 fc2 fc4 ((p - 1) / 4)); assumption.
  Qed.
  Lemma tower6_sound nr : tower6_field_ok K p nr = true ->
    FinField (Fp3 K nr) p 3 /\ FinField (Fp6t K nr nr) p 6.
  Proof.
    unfold tower6_field_ok. rewrite !andb_true_iff. intros [H1 H2].
    apply nonpower_2K in H1. rewrite <- (N.pow_1_r p) in H2 at 1.
    apply (nonpower_3 K p 1 FK) in H2. rewrite N.pow_1_r in H2. destruct H2 as [H2 H3].
    split; [apply fp3_FinField|apply fp6t_FinField]; assumption.
  Qed.
  Lemma tower3_frob_sound nr fc31 fc32 : tower3_frob_ok K p nr fc31 fc32 = true ->
    forall x k, fp3_frob K fc31 fc32 x k = fpow (x : Fp3 K nr) (p ^ k).
  Proof.
    unfold tower3_frob_ok. rewrite !andb_true_iff, N.eqb_eq. intros [E T2].
    assert (Hp := p_gt_1).
    assert (He : (p = 6 * ((p - 1) / 6) + 1)%N).
    { assert (Hd := N.div_mod (p - 1) 6 ltac:(lia)). lia. }
    intros x k. apply (fp3_frob_correct K p FK nr fc31 fc32 (2 * ((p - 1) / 6))); [lia|exact T2].
  Qed.
  Lemma tower6_frob_sound nr fc31 fc32 fc6 : tower6_field_ok K p nr = true ->
    tower6_frob_ok K p nr fc31 fc32 fc6 = true ->
    forall x k, fp6t_frob K nr fc31 fc32 fc6 x k = fpow (x : Fp6t K nr nr) (p ^ k).
  Proof.
    unfold tower6_field_ok. rewrite !andb_true_iff. intros [H1 H2].
    apply nonpower_2K in H1. rewrite <- (N.pow_1_r p) in H2 at 1.
    apply (nonpower_3 K p 1 FK) in H2. rewrite N.pow_1_r in H2. destruct H2 as [H2 H3].
    unfold tower6_frob_ok, tower3_frob_ok. rewrite !andb_true_iff, N.eqb_eq. intros [[E T2] T6].
    assert (Hp := p_gt_1).
    assert (He : (p = 6 * ((p - 1) / 6) + 1)%N).
    { assert (Hd := N.div_mod (p - 1) 6 ltac:(lia)). lia. }
    intros x k. apply (fp6t_frob_correct K p FK nr p2 H3 H2 fc31 fc32 fc6 ((p - 1) / 6)); assumption.
  Qed.
End Sound.

(** ** Evaluation on BigN *)
Definition bigs (l : list Z) : list BigN.t := map bigz l.
Definition big2 (l : list Z) : quad BigN.t := mkq (bigz (nth 0 l 0%Z)) (bigz (nth 1 l 0%Z)).
Definition nonneg (l : list Z) : bool := forallb (Z.leb 0) l.

Lemma lits_bigs p l : nonneg l = true -> lits p l = map (of_big p) (bigs l).
Proof.
  unfold nonneg, lits, bigs. intros H. rewrite map_map. apply map_ext_in. intros z Hz.
  rewrite forallb_forall in H. specialize (H _ Hz). apply Z.leb_le in H. symmetry. apply of_big_bigz, H.
Qed.
Lemma nonneg_nth l k : nonneg l = true -> (0 <= nth k l 0)%Z.
Proof.
  intros H. unfold nonneg in H. rewrite forallb_forall in H.
  destruct (Nat.lt_ge_cases k (length l)) as [Hk|Hk].
  - apply Z.leb_le, H, nth_In, Hk.
  - rewrite nth_overflow by exact Hk. reflexivity.
Qed.
Lemma lit2_big2 p l : nonneg l = true -> lit2 p l = qmap (of_big p) (big2 l).
Proof.
  intros H. unfold lit2, big2, qmap; cbn [q0 q1]. rewrite !of_big_bigz by (apply nonneg_nth, H). reflexivity.
Qed.

Definition t12_field_check (t : tower12) : bool :=
  let m := bigz (t12_p t) in
  (2 <? t12_p t)%Z && nonneg [t12_nr2 t] && nonneg (t12_xi6 t) &&
  (if list_eq_dec Z.eq_dec (t12_xi6 t) (t12_xi12 t) then true else false) &&
  tower12_field_ok (BigZp m) (Z.to_N (t12_p t)) (bigz (t12_nr2 t)) (big2 (t12_xi6 t)).
Definition t12_frob_check (t : tower12) : bool :=
  let m := bigz (t12_p t) in
  nonneg (t12_fc2 t) && nonneg (t12_fc61 t) && nonneg (t12_fc62 t) && nonneg (t12_fc12 t) &&
  tower12_frob_ok (BigZp m) (Z.to_N (t12_p t)) (bigz (t12_nr2 t)) (big2 (t12_xi6 t))
    (bigs (t12_fc2 t)) (bigs (t12_fc61 t)) (bigs (t12_fc62 t)) (bigs (t12_fc12 t)).

Section Eval12.
  Variable t : tower12.
  Hypothesis Hp : prime (t12_p t).
  Hypothesis Hc : t12_field_check t = true.
  Local Notation p := (t12_p t).

  Lemma t12_facts : (2 < p)%Z /\ Z.to_N p <> 2%N /\ t12_xi6 t = t12_xi12 t /\
    Hom (BigZp (bigz p)) (Zp p) (of_big p) /\ (0 <= t12_nr2 t)%Z /\ nonneg (t12_xi6 t) = true /\
    tower12_field_ok (Zp p) (Z.to_N p) (tozp p (t12_nr2 t)) (lit2 p (t12_xi6 t)) = true.
  Proof.
    unfold t12_field_check in Hc. rewrite !andb_true_iff in Hc.
    destruct Hc as [[[[H1 H2] H3] H4] H5]. apply Z.ltb_lt in H1.
    cbn in H2. rewrite andb_true_r in H2. apply Z.leb_le in H2.
    assert (HH : Hom (BigZp (bigz p)) (Zp p) (of_big p)) by (apply BigZp_hom; [lia|apply bigz_spec; lia]).
    split; [exact H1|]. split; [lia|]. split.
    - destruct (list_eq_dec Z.eq_dec (t12_xi6 t) (t12_xi12 t)); [assumption|discriminate].
    - split; [exact HH|]. split; [exact H2|]. split; [exact H3|].
      rewrite (lit2_big2 p _ H3), <- (of_big_bigz p _ H2), (tower12_field_ok_hom _ HH). exact H5.
  Qed.

  Lemma t12_fields : FinField (t12_Fp2 t) (Z.to_N p) 2 /\ FinField (t12_Fp6 t) (Z.to_N p) 6 /\
    FinField (t12_Fp12 t) (Z.to_N p) 12.
  Proof.
    destruct t12_facts as (H1 & H2 & H3 & HH & Hnr & Hxi & Hok).
    unfold t12_Fp2, t12_Fp6, t12_Fp12. rewrite <- H3.
    apply (tower12_sound (Zp p) (Z.to_N p) (Zp_FinField p Hp) H2 _ _ Hok).
  Qed.

  Lemma t12_frobs : t12_frob_check t = true ->
    (forall (x : t12_Fp2 t) k, t12_frob2 t x k = fpow x (Z.to_N p ^ k)) /\
    (forall (x : t12_Fp6 t) k, t12_frob6 t x k = fpow x (Z.to_N p ^ k)) /\
    (forall (x : t12_Fp12 t) k, t12_frob12 t x k = fpow x (Z.to_N p ^ k)).
  Proof.
    destruct t12_facts as (H1 & H2 & H3 & HH & Hnr & Hxi & Hok).
    unfold t12_frob_check. rewrite !andb_true_iff. intros [[[[N1 N2] N3] N4] T].
    rewrite <- (tower12_frob_ok_hom _ HH), <- !lits_bigs, <- lit2_big2, (of_big_bigz p _ Hnr) in T by assumption.
    assert (S := tower12_frob_sound (Zp p) (Z.to_N p) (Zp_FinField p Hp) H2 _ _ _ _ _ _ Hok T).
    unfold t12_frob2, t12_frob6, t12_frob12, t12_Fp2, t12_Fp6, t12_Fp12. rewrite <- H3. exact S.
  Qed.
End Eval12.

Definition t4_field_check (t : tower4) : bool :=
  (2 <? t4_p t)%Z && nonneg [t4_nr2 t] && (t4_nr2 t =? t4_nr4 t)%Z &&
  tower4_field_ok (BigZp (bigz (t4_p t))) (Z.to_N (t4_p t)) (bigz (t4_nr2 t)).
Definition t4_frob_check (t : tower4) : bool :=
  nonneg (t4_fc2 t) && nonneg (t4_fc4 t) &&
  tower4_frob_ok (BigZp (bigz (t4_p t))) (Z.to_N (t4_p t)) (bigz (t4_nr2 t)) (bigs (t4_fc2 t)) (bigs (t4_fc4 t)).

Section Eval4.
  Variable t : tower4.
  Hypothesis Hp : prime (t4_p t).
  Hypothesis Hc : t4_field_check t = true.
  Local Notation p := (t4_p t).

  Lemma t4_facts : (2 < p)%Z /\ Z.to_N p <> 2%N /\ t4_nr2 t = t4_nr4 t /\
    Hom (BigZp (bigz p)) (Zp p) (of_big p) /\ (0 <= t4_nr2 t)%Z /\
    tower4_field_ok (Zp p) (Z.to_N p) (tozp p (t4_nr2 t)) = true.
  Proof.
    unfold t4_field_check in Hc. rewrite !andb_true_iff in Hc.
    destruct Hc as [[[H1 H2] H3] H4]. apply Z.ltb_lt in H1. apply Z.eqb_eq in H3.
    cbn in H2. rewrite andb_true_r in H2. apply Z.leb_le in H2.
    assert (HH : Hom (BigZp (bigz p)) (Zp p) (of_big p)) by (apply BigZp_hom; [lia|apply bigz_spec; lia]).
    split; [exact H1|]. split; [lia|]. split; [exact H3|]. split; [exact HH|]. split; [exact H2|].
    rewrite <- (of_big_bigz p _ H2), (tower4_field_ok_hom _ HH). exact H4.
  Qed.
  Lemma t4_fields : FinField (t4_Fp2 t) (Z.to_N p) 2 /\ FinField (t4_Fp4 t) (Z.to_N p) 4.
  Proof.
    destruct t4_facts as (H1 & H2 & H3 & HH & Hnr & Hok).
    unfold t4_Fp2, t4_Fp4. rewrite <- H3.
    apply (tower4_sound (Zp p) (Z.to_N p) (Zp_FinField p Hp) H2 _ Hok).
  Qed.
  Lemma t4_frobs : t4_frob_check t = true ->
    (forall (x : t4_Fp2 t) k, t4_frob2 t x k = fpow x (Z.to_N p ^ k)) /\
    (forall (x : t4_Fp4 t) k, t4_frob4 t x k = fpow x (Z.to_N p ^ k)).
  Proof.
    destruct t4_facts as (H1 & H2 & H3 & HH & Hnr & Hok).
    unfold t4_frob_check. rewrite !andb_true_iff. intros [[N1 N2] T].
    rewrite <- (tower4_frob_ok_hom _ HH), <- !lits_bigs, (of_big_bigz p _ Hnr) in T by assumption.
    assert (S := tower4_frob_sound (Zp p) (Z.to_N p) (Zp_FinField p Hp) H2 _ _ _ Hok T).
    unfold t4_frob2, t4_frob4, t4_Fp2, t4_Fp4. rewrite <- H3. exact S.
  Qed.
End Eval4.

Definition t6_field_check (t : tower6) : bool :=
  (2 <? t6_p t)%Z && nonneg [t6_nr3 t] && (t6_nr3 t =? t6_nr6 t)%Z &&
  tower6_field_ok (BigZp (bigz (t6_p t))) (Z.to_N (t6_p t)) (bigz (t6_nr3 t)).
Definition t3_frob_check (t : tower6) : bool :=
  nonneg (t6_fc31 t) && nonneg (t6_fc32 t) &&
  tower3_frob_ok (BigZp (bigz (t6_p t))) (Z.to_N (t6_p t)) (bigz (t6_nr3 t)) (bigs (t6_fc31 t)) (bigs (t6_fc32 t)).
Definition t6_frob_check (t : tower6) : bool :=
  nonneg (t6_fc31 t) && nonneg (t6_fc32 t) && nonneg (t6_fc6 t) &&
  tower6_frob_ok (BigZp (bigz (t6_p t))) (Z.to_N (t6_p t)) (bigz (t6_nr3 t)) (bigs (t6_fc31 t)) (bigs (t6_fc32 t))
    (bigs (t6_fc6 t)).

Section Eval6.
  Variable t : tower6.
  Hypothesis Hp : prime (t6_p t).
  Hypothesis Hc : t6_field_check t = true.
  Local Notation p := (t6_p t).

  Lemma t6_facts : (2 < p)%Z /\ Z.to_N p <> 2%N /\ t6_nr3 t = t6_nr6 t /\
    Hom (BigZp (bigz p)) (Zp p) (of_big p) /\ (0 <= t6_nr3 t)%Z /\
    tower6_field_ok (Zp p) (Z.to_N p) (tozp p (t6_nr3 t)) = true.
  Proof.
    unfold t6_field_check in Hc. rewrite !andb_true_iff in Hc.
    destruct Hc as [[[H1 H2] H3] H4]. apply Z.ltb_lt in H1. apply Z.eqb_eq in H3.
    cbn in H2. rewrite andb_true_r in H2. apply Z.leb_le in H2.
    assert (HH : Hom (BigZp (bigz p)) (Zp p) (of_big p)) by (apply BigZp_hom; [lia|apply bigz_spec; lia]).
    split; [exact H1|]. split; [lia|]. split; [exact H3|]. split; [exact HH|]. split; [exact H2|].
    rewrite <- (of_big_bigz p _ H2), (tower6_field_ok_hom _ HH). exact H4.
  Qed.
  Lemma t6_fields : FinField (t6_Fp3 t) (Z.to_N p) 3 /\ FinField (t6_Fp6 t) (Z.to_N p) 6.
  Proof.
    destruct t6_facts as (H1 & H2 & H3 & HH & Hnr & Hok).
    unfold t6_Fp3, t6_Fp6. rewrite <- H3.
    apply (tower6_sound (Zp p) (Z.to_N p) (Zp_FinField p Hp) H2 _ Hok).
  Qed.
  Lemma t3_frobs : t3_frob_check t = true ->
    (forall (x : t6_Fp3 t) k, t6_frob3 t x k = fpow x (Z.to_N p ^ k)).
  Proof.
    destruct t6_facts as (H1 & H2 & H3 & HH & Hnr & Hok).
    unfold t3_frob_check. rewrite !andb_true_iff. intros [[N1 N2] T].
    rewrite <- (tower3_frob_ok_hom _ HH), <- !lits_bigs, (of_big_bigz p _ Hnr) in T by assumption.
    exact (tower3_frob_sound (Zp p) (Z.to_N p) (Zp_FinField p Hp) H2 _ _ _ T).
  Qed.
  Lemma t6_frobs : t6_frob_check t = true ->
    (forall (x : t6_Fp6 t) k, t6_frob6 t x k = fpow x (Z.to_N p ^ k)).
  Proof.
    destruct t6_facts as (H1 & H2 & H3 & HH & Hnr & Hok).
    unfold t6_frob_check. rewrite !andb_true_iff. intros [[[N1 N2] N3] T].
    rewrite <- (tower6_frob_ok_hom _ HH), <- !lits_bigs, (of_big_bigz p _ Hnr) in T by assumption.
    assert (S := tower6_frob_sound (Zp p) (Z.to_N p) (Zp_FinField p Hp) H2 _ _ _ _ Hok T).
    unfold t6_frob6, t6_Fp6. rewrite <- H3. exact S.
  Qed.
End Eval6.
