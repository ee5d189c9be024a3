(** C49: rank, rref, det and inverse against mathcomp's \rank, \det and invmx, over any
    field, for exact arithmetic and an exact zero test ([negl_of .. v] iff v = 0).
    [to_mx M N m] (Spec/MathcompField.v) is the list of rows m as a mathcomp matrix,
    [is_rref R r] says that R is in reduced row-echelon form with r pivots.
    The default tolerance test of the code is not exact: see the refutations. *)
Set Warnings "-notation-overridden,-ambiguous-paths".
From Coq Require Import List QArith Qcanon.
From mathcomp Require Import all_ssreflect all_algebra.
From Verif Require Import Base.Field Model.Vector Model.Matrix Spec.LinAlg Spec.MathcompField Proof.GaussJordan.
Import Order.Theory GRing.Theory Num.Theory ListNotations.
Local Open Scope ring_scope.

Section Exact.
Variable F : fieldType.
Variable absgt : F -> F -> bool.
Variable negl_of : nat -> nat -> list (list F) -> F -> bool.
Hypothesis Hnegl : forall M N m v, negl_of M N m v = (v == 0).
Hypothesis Hgt_nz : forall x y, absgt x y = true -> x <> 0.
Hypothesis Hgt_0 : forall x, x <> 0 -> absgt x 0 = true.

Theorem C49_rref M N (m : list (list F)) : shape M N m ->
  exists r (P : 'M[F]_M), [/\ rref (mc_ops F) absgt negl_of M N m = Some r, shape M N r,
     is_rref (to_mx M N r) (\rank (to_mx M N m)),
     P \in unitmx & to_mx M N r = P *m to_mx M N m].
Proof. exact: rref_spec. Qed.

Theorem C49_rank M N (m : list (list F)) : shape M N m ->
  rank (mc_ops F) absgt negl_of M N m = Some (\rank (to_mx M N m)).
Proof. exact: rank_spec. Qed.

Theorem C49_inverse M (m : list (list F)) : shape M M m ->
  (to_mx M M m \in unitmx ->
     exists r, [/\ inverse (mc_ops F) absgt negl_of M m = Ok r, shape M M r &
                    to_mx M M r = invmx (to_mx M M m)]) /\
  (to_mx M M m \notin unitmx -> inverse (mc_ops F) absgt negl_of M m = Throws).
Proof. exact: inverse_spec. Qed.

(** Full statement: det m = Some (\det m).  The code divides by the pivots where it should
    multiply, so it returns the inverse of the determinant (and 0 for singular matrices). *)
Theorem C49_det_partial M (m : list (list F)) : shape M M m ->
  det (mc_ops F) absgt negl_of M m = Some (\det (to_mx M M m))^-1.
Proof. exact: det_spec. Qed.
End Exact.
Print Assumptions C49_rref.
Print Assumptions C49_rank.
Print Assumptions C49_inverse.
Print Assumptions C49_det_partial.

(** the hypotheses are met by the rationals with |x| > |y| and v = 0 *)
Definition rat_gt (x y : rat) : bool := `|y| < `|x|.
Definition rat_negl (M N : nat) (m : list (list rat)) (v : rat) : bool := v == 0.
Example C49_exact_ex :
  [/\ forall M N m v, rat_negl M N m v = (v == 0),
      forall x y, rat_gt x y = true -> x <> 0,
      forall x, x <> 0 -> rat_gt x 0 = true &
      shape 2 2 [[2%:R : rat; 1%R]; [1%R; 1%R]]%list].
Proof.
split=> //.
- move=> x y H E. move: H. by rewrite /rat_gt E normr0 ltNge normr_ge0.
- by move=> x /eqP H; rewrite /rat_gt normr0 normr_gt0.
- split=> // i r. by case: i => [[<-]|[[<-]|]] // [].
Qed.

(** det of the 1x1 matrix (2) is not 2 *)
Theorem C49_det_refuted : exists m : list (list rat), shape 1 1 m /\
  det (mc_ops [fieldType of rat]) rat_gt rat_negl 1 m <> Some (\det (to_mx (F:=[fieldType of rat]) 1 1 m)).
Proof.
exists [[2%:R]]%list. have Hs : shape 1 1 [[2%:R : rat]]%list.
  by split=> // i r; case: i => [[<-]|] // [].
split=> //. case: C49_exact_ex => H1 H2 H3 _.
rewrite (@C49_det_partial [fieldType of rat] rat_gt rat_negl H1 H2 H3 1 _ Hs) det_mx11 mxE. by move=> [] /eqP.
Qed.
Print Assumptions C49_det_refuted.

(** Exact rationals and the code's default tolerance max(N, M) * epsilon * mars(m) with
    epsilon = 2^-52 (double).  These values are all powers of two, so the runs below are
    also those of the C++ code on doubles. *)
Delimit Scope Q_scope with Q.
Definition eps52 : Qc := Q2Qc (1 # 2 ^ 52).
Definition tiny : Qc := Q2Qc (1 # 2 ^ 60).
Definition qi (z : Z) : Qc := Q2Qc (inject_Z z).

(** rank(diag(1, 2^-60)) = 1 and det = 0, although the matrix is invertible *)
Theorem C49_default_tolerance_refuted :
  rank Qc_ops q_absgt (q_negl eps52) 2 2 [[qi 1; qi 0]; [qi 0; tiny]]%list = Some 1%N /\
  det Qc_ops q_absgt (q_negl eps52) 2 [[qi 1; qi 0]; [qi 0; tiny]]%list = Some (qi 0) /\
  inverse Qc_ops q_absgt (q_negl eps52) 2 [[qi 1; qi 0]; [qi 0; tiny]]%list = Throws.
Proof. vm_compute. repeat split; reflexivity. Qed.

(** inverse((2^-60)) passes the rank test and returns (1), because the tolerance of the
    second elimination is computed from the matrix extended by the identity *)
Theorem C49_inverse_default_tolerance_refuted :
  inverse Qc_ops q_absgt (q_negl eps52) 1 [[tiny]]%list = Ok [[qi 1]]%list /\
  Qcmult tiny (qi 1) <> qi 1.
Proof. split; [vm_compute; reflexivity|]. intros H. apply (f_equal this) in H. vm_compute in H. discriminate H. Qed.

(** T without a floating-point epsilon (numeric_limits<T>::epsilon() = T()): the tolerance
    is 0, nothing is negligible, and the zero matrix gets rank 1 (after a division by zero) *)
Theorem C49_zero_tolerance_refuted (K : FieldOps) absgt :
  rank K absgt (fun _ _ _ _ => false) 1 1 [[f0]]%list = Some 1%N.
Proof. reflexivity. Qed.
Print Assumptions C49_default_tolerance_refuted.
Print Assumptions C49_inverse_default_tolerance_refuted.
Print Assumptions C49_zero_tolerance_refuted.

Example C49_run_ex :
  match inverse Qc_ops q_absgt (q_negl eps52) 2 [[qi 2; qi 1]; [qi 1; qi 1]]%list with
  | Ok r => List.map (List.map this) r = [[1%Q; (-1)%Q]; [(-1)%Q; 2%Q]]%list
  | _ => False
  end /\
  rank Qc_ops q_absgt (q_negl eps52) 2 3 [[qi 1; qi 2; qi 3]; [qi 2; qi 4; qi 6]]%list = Some 1%N.
Proof. vm_compute. repeat split; reflexivity. Qed.
