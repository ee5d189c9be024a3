(** Finite-field facts used for the shipped towers: Euler's criterion as a
    non-residue test, and the identity y^Q = y in extensions. *)
From Coq Require Import ZArith NArith List Bool Lia Ring Field Znumtheory.
From Verif Require Import Base.Field Base.Zp Base.Ext Spec.PolyQuot
  Proof.ExtTheory Proof.Frob.
Local Open Scope fld_scope.

(** [F] is a field of characteristic p in which every element satisfies y^Q = y,
    Q a power of p. *)
Record FinField (F : FieldOps) (p : N) (n : N) : Prop := mkFinField {
  FF_field : FieldLaws F;
  FF_prime : prime (Z.of_N p);
  FF_char : @fofN F p = 0;
  FF_deg : (0 < n)%N;
  FF_frob : forall y : F, fpow y (p ^ n) = y }.

Lemma Zp_FinField (p : Z) : prime p -> FinField (Zp p) (Z.to_N p) 1.
Proof.
  intros Hp. assert (H := prime_ge_2 p Hp).
  constructor.
  - apply Zp_field; [lia|exact Hp].
  - rewrite Z2N.id by lia. exact Hp.
  - apply Zp_char. lia.
  - reflexivity.
  - intros y. rewrite N.pow_1_r. apply Zp_fermat, Hp.
Qed.

Section Facts.
  Variable F : FieldOps.
  Variables p n : N.
  Hypothesis FF : FinField F p n.
  Let KL := FF_field F p n FF.
  Let R := FieldLaws_Ring F KL.
  Add Field Ff : (FL_th F KL).

  Lemma FF_p_ge_2 : (2 <= p)%N.
  Proof. assert (H := prime_ge_2 _ (FF_prime F p n FF)). lia. Qed.

  Lemma FF_Q_ge_2 : (2 <= p ^ n)%N.
  Proof.
    assert (H := FF_p_ge_2). assert (Hn := FF_deg F p n FF).
    transitivity (p ^ 1)%N; [rewrite N.pow_1_r; exact H|]. apply N.pow_le_mono_r; lia.
  Qed.

  Lemma FF_fermat (y : F) : y <> 0 -> fpow y (p ^ n - 1) = 1.
  Proof.
    intros Hy. apply (fmul_cancel_r F KL y); [exact Hy|].
    rewrite <- (fpow_1 F R y) at 2. rewrite (fpow_sub F KL) by (try assumption; assert (H := FF_Q_ge_2); lia).
    rewrite (FF_frob F p n FF). ring.
  Qed.

  (** Euler's criterion, the direction used to certify non-residues. *)
  Lemma not_power_test (k e : N) (c : F) : c <> 0 -> (k * e = p ^ n - 1)%N -> fpow c e <> 1 ->
    forall x : F, fpow x k <> c.
  Proof.
    intros Hc He Ht x Hx. apply Ht. rewrite <- Hx, <- (fpow_mul F R), He.
    apply FF_fermat. intros ->. apply Hc. rewrite <- Hx. apply (fpow_zero F R).
    intros ->. assert (H := FF_Q_ge_2). lia.
  Qed.
  Lemma not_square_test (e : N) (c : F) : c <> 0 -> (2 * e = p ^ n - 1)%N -> fpow c e <> 1 -> not_square c.
  Proof. intros Hc He Ht x Hx. apply (not_power_test 2 e c Hc He Ht x). rewrite (fpow_2 F R). exact Hx. Qed.
  Lemma not_cube_test (e : N) (c : F) : c <> 0 -> (3 * e = p ^ n - 1)%N -> fpow c e <> 1 -> not_cube c.
  Proof.
    intros Hc He Ht x Hx. apply (not_power_test 3 e c Hc He Ht x). change 3%N with (N.succ 2).
    rewrite (fpow_succ F), (fpow_2 F R), <- Hx. ring.
  Qed.

  Lemma p_odd_Q : (p <> 2)%N -> exists e, (2 * e = p ^ n - 1)%N.
  Proof.
    intros H2. assert (Ho : N.odd (p ^ n) = true).
    { rewrite <- N.negb_even. rewrite N.even_pow by (assert (H := FF_deg F p n FF); lia).
      rewrite N.negb_even. destruct (N.odd p) eqn:E; [reflexivity|].
      rewrite <- N.negb_even in E. apply negb_false_iff, N.even_spec in E. destruct E as [m Hm].
      assert (Hp := FF_prime F p n FF). exfalso. apply H2.
      assert (Hd : (2 | Z.of_N p)%Z) by (exists (Z.of_N m); lia).
      apply prime_div_prime in Hd; [lia|exact prime_2|exact Hp]. }
    apply N.odd_spec in Ho. destruct Ho as [m Hm]. exists m. lia.
  Qed.
End Facts.

(** ** Quadratic extensions *)
Section QuadFin.
  Variable F : FieldOps.
  Variables p n : N.
  Variable nu : F.
  Hypothesis FF : FinField F p n.
  Let KL := FF_field F p n FF.
  Let R := FieldLaws_Ring F KL.
  Local Notation Q := (Quad F nu).
  Let RQ := Quad_ring F nu R.
  Add Field Ff : (FL_th F KL).
  Add Ring Qr : (RL_th Q RQ).

  Lemma quad_fofN m : @fofN Q m = mkq (fofN m) 0.
  Proof.
    induction m using N.peano_ind; [reflexivity|].
    rewrite !fofN_succ, IHm. cbn. f_equal; ring.
  Qed.
  Lemma quad_fpow_base (a : F) e : fpow (mkq a 0 : Q) e = mkq (fpow a e) 0.
  Proof.
    induction e using N.peano_ind; [reflexivity|].
    rewrite !fpow_succ, IHe. cbn. f_equal; ring.
  Qed.
  Lemma quad_fpow_w_even e : fpow (mkq 0 1 : Q) (2 * e) = mkq (fpow nu e) 0.
  Proof.
    rewrite (fpow_mul Q RQ), (fpow_2 Q RQ), (quad_sqr_u F nu R). apply quad_fpow_base.
  Qed.
  Lemma quad_fpow_w e : fpow (mkq 0 1 : Q) (2 * e + 1) = mkq 0 (fpow nu e).
  Proof.
    rewrite (fpow_add Q RQ), quad_fpow_w_even, (fpow_1 Q RQ). cbn. f_equal; ring.
  Qed.
  Lemma quad_split (a b : F) : (mkq a b : Q) = (mkq a 0 : Q) + (mkq b 0 : Q) * (mkq 0 1 : Q).
  Proof. cbn. f_equal; ring. Qed.
  Lemma quad_char : @fofN Q p = 0.
  Proof. rewrite quad_fofN, (FF_char F p n FF). reflexivity. Qed.

  Lemma quad_frob_pow (k : N) (c : F) (a b : F) :
    fpow (mkq 0 1 : Q) (p ^ k) = mkq 0 c ->
    fpow (mkq a b : Q) (p ^ k) = mkq (fpow a (p ^ k)) (c * fpow b (p ^ k)).
  Proof.
    intros Hw. rewrite (quad_split a b).
    rewrite (frob_add_iter Q RQ p k _ _ (FF_prime F p n FF) quad_char).
    rewrite (fpow_mul_l Q RQ), !quad_fpow_base, Hw. cbn. f_equal; ring.
  Qed.

  Lemma quad_FinField : (p <> 2)%N -> not_square nu -> FinField Q p (2 * n).
  Proof.
    intros H2 Hns. assert (QL := Quad_field F nu KL Hns).
    constructor; auto.
    - exact (FF_prime F p n FF).
    - exact quad_char.
    - assert (H := FF_deg F p n FF). lia.
    - destruct (p_odd_Q F p n FF H2) as [e He].
      assert (HQ := FF_Q_ge_2 F p n FF).
      assert (Hc : fpow nu e * fpow nu e = 1).
      { rewrite <- (fpow_add F R). replace (e + e)%N with (p ^ n - 1)%N by lia.
        apply (FF_fermat F p n FF). intros ->. apply (Hns 0). ring. }
      assert (Hw : fpow (mkq 0 1 : Q) (p ^ n) = mkq 0 (fpow nu e)).
      { replace (p ^ n)%N with (2 * e + 1)%N by lia. apply quad_fpow_w. }
      intros [a b]. replace (2 * n)%N with (n + n)%N by lia. rewrite N.pow_add_r, (fpow_mul Q RQ).
      rewrite !(quad_frob_pow n _ _ _ Hw), !(fpow_mul_l F R), !(FF_frob F p n FF).
      cbn. f_equal. transitivity (fpow nu e * fpow nu e * b); [ring|]. rewrite Hc. ring.
  Qed.

  (** Squares have square norms. *)
  Lemma quad_not_square (c : quad F) : not_square (quad_norm F nu c) -> not_square (K := Q) c.
  Proof.
    intros H x Hx. apply (H (quad_norm F nu x)). rewrite <- (quad_norm_mul F nu R). f_equal. exact Hx.
  Qed.
End QuadFin.

(** ** Cubic extensions *)
Section CubFin.
  Variable F : FieldOps.
  Variables p n : N.
  Variable nu : F.
  Hypothesis FF : FinField F p n.
  Let KL := FF_field F p n FF.
  Let R := FieldLaws_Ring F KL.
  Local Notation Q := (Cub F nu).
  Let RQ := Cub_ring F nu R.
  Add Field Ff : (FL_th F KL).
  Add Ring Qr : (RL_th Q RQ).

  Lemma cub_fofN m : @fofN Q m = mkc (fofN m) 0 0.
  Proof.
    induction m using N.peano_ind; [reflexivity|].
    rewrite !fofN_succ, IHm. cbn. f_equal; ring.
  Qed.
  Lemma cub_fpow_base (a : F) e : fpow (mkc a 0 0 : Q) e = mkc (fpow a e) 0 0.
  Proof.
    induction e using N.peano_ind; [reflexivity|].
    rewrite !fpow_succ, IHe. cbn. f_equal; ring.
  Qed.
  Lemma cub_fpow_w_triple e : fpow (mkc 0 1 0 : Q) (3 * e) = mkc (fpow nu e) 0 0.
  Proof.
    rewrite (fpow_mul Q RQ). change 3%N with (N.succ 2).
    rewrite (fpow_succ Q), (fpow_2 Q RQ).
    replace ((mkc 0 1 0 : Q) * ((mkc 0 1 0 : Q) * (mkc 0 1 0 : Q))) with (mkc nu 0 0 : Q) by (cbn; f_equal; ring).
    apply cub_fpow_base.
  Qed.
  Lemma cub_fpow_w e : fpow (mkc 0 1 0 : Q) (3 * e + 1) = mkc 0 (fpow nu e) 0.
  Proof.
    rewrite (fpow_add Q RQ), cub_fpow_w_triple, (fpow_1 Q RQ). cbn. f_equal; ring.
  Qed.
  Lemma cub_split (a b c : F) :
    (mkc a b c : Q) = (mkc a 0 0 : Q) + (mkc b 0 0 : Q) * (mkc 0 1 0 : Q) + (mkc c 0 0 : Q) * ((mkc 0 1 0 : Q) * (mkc 0 1 0 : Q)).
  Proof. cbn. f_equal; ring. Qed.
  Lemma cub_char : @fofN Q p = 0.
  Proof. rewrite cub_fofN, (FF_char F p n FF). reflexivity. Qed.

  Lemma cub_frob_pow (k : N) (d : F) (a b c : F) :
    fpow (mkc 0 1 0 : Q) (p ^ k) = mkc 0 d 0 ->
    fpow (mkc a b c : Q) (p ^ k) =
    mkc (fpow a (p ^ k)) (d * fpow b (p ^ k)) (d * d * fpow c (p ^ k)).
  Proof.
    intros Hw. rewrite (cub_split a b c).
    rewrite !(frob_add_iter Q RQ p k _ _ (FF_prime F p n FF) cub_char).
    rewrite !(fpow_mul_l Q RQ), !cub_fpow_base, Hw. cbn. f_equal; ring.
  Qed.

  Lemma cub_FinField : (exists e, (3 * e = p ^ n - 1)%N) -> not_cube nu -> FinField Q p (3 * n).
  Proof.
    intros [e He] Hns. assert (QL := Cub_field F nu KL Hns).
    constructor; auto.
    - exact (FF_prime F p n FF).
    - exact cub_char.
    - assert (H := FF_deg F p n FF). lia.
    - assert (HQ := FF_Q_ge_2 F p n FF). set (z := fpow nu e).
      assert (Hc : z * z * z = 1).
      { unfold z. rewrite <- !(fpow_add F R). replace (e + e + e)%N with (p ^ n - 1)%N by lia.
        apply (FF_fermat F p n FF). intros ->. apply (Hns 0). ring. }
      assert (Hw : fpow (mkc 0 1 0 : Q) (p ^ n) = mkc 0 z 0).
      { replace (p ^ n)%N with (3 * e + 1)%N by lia. apply cub_fpow_w. }
      intros [a b c]. replace (3 * n)%N with (n + n + n)%N by lia. rewrite !N.pow_add_r, !(fpow_mul Q RQ).
      rewrite !(cub_frob_pow n _ _ _ _ Hw), !(fpow_mul_l F R), !(FF_frob F p n FF).
      cbn. f_equal.
      + transitivity (z * z * z * b); [ring|]. rewrite Hc. ring.
      + transitivity ((z * z * z) * (z * z * z) * c); [ring|]. rewrite Hc. ring.
  Qed.

  Lemma cub_not_square (c : cub F) : not_square (cub_norm F nu c) -> not_square (K := Q) c.
  Proof.
    intros H x Hx. apply (H (cub_norm F nu x)). rewrite <- (cub_norm_mul F nu R). f_equal. exact Hx.
  Qed.
End CubFin.
