(** The interface through which the models use a field.

    A C++ "field value type" (A/fields/detail/element/fp.hpp and its extensions)
    is a class with zero(), one(), +, -, *, unary -, inversed() and ==.  We model
    such a class as a record of operations; the algebraic laws are a separate
    predicate, so that the models contain no proofs. *)
From Coq Require Import ZArith NArith List Bool Lia Ring Field Setoid.
Import ListNotations.

Record FieldOps := mkFieldOps {
  car :> Type;
  f0 : car;
  f1 : car;
  fadd : car -> car -> car;
  fmul : car -> car -> car;
  fsub : car -> car -> car;
  fopp : car -> car;
  finv : car -> car;
  feqb : car -> car -> bool
}.

Arguments f0 {_}.
Arguments f1 {_}.
Arguments fadd {_} _ _.
Arguments fmul {_} _ _.
Arguments fsub {_} _ _.
Arguments fopp {_} _.
Arguments finv {_} _.
Arguments feqb {_} _ _.

Definition fdiv {K : FieldOps} (x y : K) : K := fmul x (finv y).
Definition fsqr {K : FieldOps} (x : K) : K := fmul x x.
Definition fdbl {K : FieldOps} (x : K) : K := fadd x x.

Declare Scope fld_scope.
Delimit Scope fld_scope with fld.
Infix "+" := fadd : fld_scope.
Infix "*" := fmul : fld_scope.
Infix "-" := fsub : fld_scope.
Infix "/" := fdiv : fld_scope.
Notation "- x" := (fopp x) : fld_scope.
Notation "0" := f0 : fld_scope.
Notation "1" := f1 : fld_scope.
Notation "2" := (fadd f1 f1) : fld_scope.
Notation "3" := (fadd f1 (fadd f1 f1)) : fld_scope.
Infix "=?" := feqb : fld_scope.

(** Commutative ring laws, decidable equality. *)
Record RingLaws (K : FieldOps) : Prop := mkRingLaws {
  RL_th : ring_theory (@f0 K) f1 fadd fmul fsub fopp eq;
  RL_eqb : forall x y : K, feqb x y = true <-> x = y
}.

(** Field laws.  The value of [finv f0] is left unconstrained. *)
Record FieldLaws (K : FieldOps) : Prop := mkFieldLaws {
  FL_th : field_theory (@f0 K) f1 fadd fmul fsub fopp fdiv finv eq;
  FL_eqb : forall x y : K, feqb x y = true <-> x = y
}.

Lemma FieldLaws_Ring K : FieldLaws K -> RingLaws K.
Proof. intros [[H _ _ _] He]; constructor; assumption. Qed.

(** Iterated product: the specification of exponentiation. *)
Definition fpow {K : FieldOps} (x : K) (e : N) : K := N.iter e (fmul x) f1.

(** [n] copies of one added up: the image of an integer. *)
Definition fofN {K : FieldOps} (n : N) : K := N.iter n (fadd f1) f0.

(** Image of an integer literal, by doubling (used for constants in models). *)
Fixpoint fofpos {K : FieldOps} (p : positive) : K :=
  match p with
  | xH => f1
  | xO q => fdbl (fofpos q)
  | xI q => fadd f1 (fdbl (fofpos q))
  end.
Definition fofZ {K : FieldOps} (z : Z) : K :=
  match z with Z0 => f0 | Zpos p => fofpos p | Zneg p => fopp (fofpos p) end.

Section RingFacts.
  Variable K : FieldOps.
  Hypothesis KL : RingLaws K.
  Add Ring Kr : (RL_th K KL).
  Local Open Scope fld_scope.
  Implicit Types x y z : K.

  Lemma feqb_refl x : (x =? x) = true.
  Proof. apply (RL_eqb K KL); reflexivity. Qed.

  Lemma feqb_true x y : (x =? y) = true -> x = y.
  Proof. apply (RL_eqb K KL). Qed.

  Lemma feqb_false x y : (x =? y) = false <-> x <> y.
  Proof.
    split.
    - intros H E. subst. rewrite feqb_refl in H. discriminate.
    - intros H. destruct (x =? y) eqn:E; [|reflexivity].
      exfalso. apply H, (RL_eqb K KL), E.
  Qed.

  Lemma feqb_sym x y : (x =? y) = (y =? x).
  Proof.
    destruct (y =? x) eqn:E.
    - apply feqb_true in E. subst. apply feqb_refl.
    - apply feqb_false in E. apply feqb_false. congruence.
  Qed.

  Lemma feq_dec x y : {x = y} + {x <> y}.
  Proof.
    destruct (x =? y) eqn:E; [left; apply feqb_true | right; apply feqb_false]; exact E.
  Qed.

  Lemma feqb_spec x y : reflect (x = y) (x =? y).
  Proof. destruct (x =? y) eqn:E; constructor; [apply feqb_true|apply feqb_false]; exact E. Qed.

  Lemma fsub_0_eq x y : x - y = 0 -> x = y.
  Proof. intros H. assert (E : x = (x - y) + y) by ring. rewrite E, H. ring. Qed.

  Lemma feq_sub_0 x y : x = y -> x - y = 0.
  Proof. intros ->. ring. Qed.

  Lemma fadd_cancel_l x y z : x + y = x + z -> y = z.
  Proof. intros H. assert (E : y = (x + y) - x) by ring. rewrite E, H. ring. Qed.

  Lemma fopp_0_inv x : - x = 0 -> x = 0.
  Proof. intros H. assert (E : x = - - x) by ring. rewrite E, H. ring. Qed.

  Lemma fpow_0 x : fpow x 0 = 1.
  Proof. reflexivity. Qed.
  Lemma fpow_1 x : fpow x 1 = x.
  Proof. unfold fpow; simpl. ring. Qed.
  Lemma fpow_succ x e : fpow x (N.succ e) = x * fpow x e.
  Proof. unfold fpow. rewrite N.iter_succ. reflexivity. Qed.
  Lemma fpow_add x a b : fpow x (a + b) = fpow x a * fpow x b.
  Proof.
    induction a as [|a IH] using N.peano_ind.
    - rewrite N.add_0_l, fpow_0. ring.
    - rewrite N.add_succ_l, !fpow_succ, IH. ring.
  Qed.
  Lemma fpow_one e : fpow (1 : K) e = 1.
  Proof.
    induction e as [|e IH] using N.peano_ind; [reflexivity|].
    rewrite fpow_succ, IH. ring.
  Qed.
  Lemma fpow_mul_l x y e : fpow (x * y) e = fpow x e * fpow y e.
  Proof.
    induction e as [|e IH] using N.peano_ind.
    - rewrite !fpow_0. ring.
    - rewrite !fpow_succ, IH. ring.
  Qed.
  Lemma fpow_mul x a b : fpow x (a * b) = fpow (fpow x a) b.
  Proof.
    induction b as [|b IH] using N.peano_ind.
    - rewrite N.mul_0_r, !fpow_0. reflexivity.
    - rewrite N.mul_succ_r, N.add_comm, fpow_add, fpow_succ, IH. reflexivity.
  Qed.
  Lemma fpow_2 x : fpow x 2 = x * x.
  Proof. unfold fpow; simpl. ring. Qed.
  Lemma fpow_double x e : fpow x (2 * e) = fpow x e * fpow x e.
  Proof. replace (2 * e)%N with (e + e)%N by lia. apply fpow_add. Qed.
  Lemma fpow_zero e : e <> 0%N -> fpow (0 : K) e = 0.
  Proof.
    intros H. destruct e as [|e] using N.peano_ind; [congruence|].
    rewrite fpow_succ. ring.
  Qed.

  Lemma fofN_succ n : @fofN K (N.succ n) = 1 + fofN n.
  Proof. unfold fofN. rewrite N.iter_succ. reflexivity. Qed.
  Lemma fofN_add a b : @fofN K (a + b) = fofN a + fofN b.
  Proof.
    induction a as [|a IH] using N.peano_ind.
    - rewrite N.add_0_l. change (@fofN K 0) with (0 : K). ring.
    - rewrite N.add_succ_l, !fofN_succ, IH. ring.
  Qed.
  Lemma fofN_mul a b : @fofN K (a * b) = fofN a * fofN b.
  Proof.
    induction a as [|a IH] using N.peano_ind.
    - rewrite N.mul_0_l. change (@fofN K 0) with (0 : K). ring.
    - rewrite N.mul_succ_l, fofN_add, fofN_succ, IH. ring.
  Qed.
  Lemma fofpos_fofN p : @fofpos K p = fofN (Npos p).
  Proof.
    induction p as [p IH|p IH|]; cbn [fofpos]; unfold fdbl; rewrite ?IH.
    - replace (N.pos p~1) with (1 + (N.pos p + N.pos p))%N by lia.
      rewrite !fofN_add. change (@fofN K 1) with (1 + 0 : K). ring.
    - replace (N.pos p~0) with (N.pos p + N.pos p)%N by lia.
      rewrite !fofN_add. reflexivity.
    - change (@fofN K 1) with (1 + 0 : K). ring.
  Qed.

  Lemma fofZ_of_N n : @fofZ K (Z.of_N n) = fofN n.
  Proof. destruct n as [|p]; [reflexivity|]. apply fofpos_fofN. Qed.

  Lemma fofpos_succ p : @fofpos K (Pos.succ p) = 1 + fofpos p.
  Proof. rewrite !fofpos_fofN. replace (N.pos (Pos.succ p)) with (N.succ (N.pos p)) by lia. apply fofN_succ. Qed.

  Lemma fofZ_succ (z : Z) : @fofZ K (Z.succ z) = 1 + fofZ z.
  Proof.
    destruct z as [|p|p].
    - cbn. ring.
    - replace (Z.succ (Zpos p)) with (Zpos (Pos.succ p)) by lia. apply fofpos_succ.
    - destruct (Pos.eq_dec p 1) as [->|Hp].
      + cbn. ring.
      + assert (E : p = Pos.succ (Pos.pred p)) by (symmetry; apply Pos.succ_pred; exact Hp).
        set (q := Pos.pred p) in *. rewrite E.
        replace (Z.succ (Zneg (Pos.succ q))) with (Zneg q) by lia.
        cbn [fofZ]. rewrite fofpos_succ. ring.
  Qed.
  Lemma fofZ_pred (z : Z) : @fofZ K (Z.pred z) = fofZ z - 1.
  Proof. rewrite <- (Z.succ_pred z) at 2. rewrite fofZ_succ. ring. Qed.
  Lemma fofZ_add a b : @fofZ K (a + b) = fofZ a + fofZ b.
  Proof.
    induction a as [|a IH|a IH] using Z.peano_ind.
    - rewrite Z.add_0_l. cbn. ring.
    - rewrite Z.add_succ_l, !fofZ_succ, IH. ring.
    - rewrite Z.add_pred_l, !fofZ_pred, IH. ring.
  Qed.
  Lemma fofZ_opp a : @fofZ K (- a) = - fofZ a.
  Proof.
    assert (H : @fofZ K (- a) + fofZ a = 0).
    { rewrite <- fofZ_add, Z.add_opp_diag_l. reflexivity. }
    assert (E : @fofZ K (-a) = (fofZ (-a) + fofZ a) - fofZ a) by ring.
    rewrite E, H. ring.
  Qed.
  Lemma fofZ_sub a b : @fofZ K (a - b) = fofZ a - fofZ b.
  Proof. unfold Z.sub. rewrite fofZ_add, fofZ_opp. ring. Qed.
  Lemma fofZ_mul a b : @fofZ K (a * b) = fofZ a * fofZ b.
  Proof.
    induction a as [|a IH|a IH] using Z.peano_ind.
    - rewrite Z.mul_0_l. cbn. ring.
    - rewrite Z.mul_succ_l, fofZ_add, fofZ_succ, IH. ring.
    - rewrite Z.mul_pred_l, fofZ_sub, fofZ_pred, IH. ring.
  Qed.
  Lemma fofZ_1 : @fofZ K 1 = 1.
  Proof. reflexivity. Qed.
End RingFacts.

Section FieldFacts.
  Variable K : FieldOps.
  Hypothesis KL : FieldLaws K.
  Add Field Kf : (FL_th K KL).
  Local Open Scope fld_scope.
  Implicit Types x y z : K.

  Lemma f1_neq_0 : (1 : K) <> 0.
  Proof. exact (F_1_neq_0 (FL_th K KL)). Qed.

  Lemma finv_l x : x <> 0 -> finv x * x = 1.
  Proof. apply (Finv_l (FL_th K KL)). Qed.
  Lemma finv_r x : x <> 0 -> x * finv x = 1.
  Proof. intros H. rewrite <- (finv_l x H). ring. Qed.

  Lemma fmul_integral x y : x * y = 0 -> x = 0 \/ y = 0.
  Proof.
    intros H. destruct (feq_dec K (FieldLaws_Ring K KL) x 0) as [E|E]; [left; exact E|right].
    assert (Ey : y = finv x * (x * y)). { transitivity (finv x * x * y); [rewrite finv_l by exact E; ring|ring]. }
    rewrite Ey, H. ring.
  Qed.
  Lemma fmul_neq_0 x y : x <> 0 -> y <> 0 -> x * y <> 0.
  Proof. intros Hx Hy H. apply fmul_integral in H. tauto. Qed.
  Lemma fmul_neq_0_inv x y : x * y <> 0 -> x <> 0 /\ y <> 0.
  Proof. intros H; split; intros ->; apply H; ring. Qed.
  Lemma finv_neq_0 x : x <> 0 -> finv x <> 0.
  Proof.
    intros H E. apply f1_neq_0. rewrite <- (finv_l x H), E. ring.
  Qed.
  Lemma fmul_cancel_l x y z : x <> 0 -> x * y = x * z -> y = z.
  Proof.
    intros Hx H. assert (H' : x * (y - z) = 0). { transitivity (x*y - x*z); [ring|rewrite H; ring]. }
    apply fmul_integral in H'. destruct H' as [H'|H']; [contradiction|].
    apply fsub_0_eq; [apply FieldLaws_Ring, KL|exact H'].
  Qed.
  Lemma fmul_cancel_r x y z : x <> 0 -> y * x = z * x -> y = z.
  Proof. intros Hx H. apply (fmul_cancel_l x); [exact Hx|]. transitivity (y*x); [ring|rewrite H; ring]. Qed.
  Lemma finv_unique x y : y * x = 1 -> y = finv x.
  Proof.
    intros H. assert (Hx : x <> 0). { intros ->. apply f1_neq_0. rewrite <- H. ring. }
    apply (fmul_cancel_r x); [exact Hx|]. rewrite H. symmetry. apply finv_l, Hx.
  Qed.
  Lemma fsqr_0_inv x : x * x = 0 -> x = 0.
  Proof. intros H; apply fmul_integral in H; tauto. Qed.
  Lemma fpow_neq_0 x e : x <> 0 -> fpow x e <> 0.
  Proof.
    intros Hx. induction e as [|e IH] using N.peano_ind.
    - rewrite fpow_0. apply f1_neq_0.
    - rewrite fpow_succ. apply fmul_neq_0; assumption.
  Qed.
  Lemma fpow_sub x a b : x <> 0 -> (b <= a)%N -> fpow x (a - b) * fpow x b = fpow x a.
  Proof.
    intros Hx H. rewrite <- fpow_add by (apply FieldLaws_Ring, KL). f_equal. lia.
  Qed.
  Lemma fmul_eq_1_neq_0 x y : x * y = 1 -> x <> 0 /\ y <> 0.
  Proof. intros H; apply fmul_neq_0_inv; rewrite H; apply f1_neq_0. Qed.
  Lemma fsqr_eq x y : x * x = y * y -> x = y \/ x = - y.
  Proof.
    intros H. assert (E : (x - y) * (x + y) = 0).
    { transitivity (x * x - y * y); [ring|rewrite H; ring]. }
    apply fmul_integral in E. destruct E as [E|E].
    - left. apply fsub_0_eq; [apply FieldLaws_Ring, KL|exact E].
    - right. apply fsub_0_eq; [apply FieldLaws_Ring, KL|]. transitivity (x + y); [ring|exact E].
  Qed.
End FieldFacts.
