(** C50, C51: the operators of vectors and matrices, conjugates, norms. *)
From Coq Require Import List ZArith Arith Bool Lia QArith Qcanon Qcabs Floats.SpecFloat.
From Verif Require Import Base.Field Base.Zp Model.Vector Model.Matrix Model.Operators Model.ScalarMath
  Spec.LinAlg Proof.Vector Proof.Matrix Proof.Operators.
Import ListNotations.
Local Open Scope nat_scope.
Local Open Scope list_scope.

(** ** Vectors *)
Section Vectors.
  Variable K : FieldOps.
  Implicit Types v w : list K.
  Local Notation zip f v w := (map (fun p : K * K => f (fst p) (snd p)) (combine v w)).
  Theorem C51_operators_vector v w : length v = length w ->
    vadd K v w = Some (zip fadd v w) /\ vmul K v w = Some (zip fmul v w) /\ vdiv K v w = Some (zip fdiv v w).
  Proof.
    intros L. unfold vadd, vmul, vdiv. rewrite !elementwise2_combine by exact L. repeat split.
  Qed.
  Theorem C51_operators_scalar v (a : K) :
    vadd_scalar K v a = Some (map (fun x => fadd x a) v) /\ scalar_vadd K a v = Some (map (fun x => fadd a x) v) /\
    vmul_scalar K v a = Some (map (fun x => fmul x a) v) /\ scalar_vmul K a v = Some (map (fun x => fmul a x) v) /\
    scalar_div K a v = Some (map (fun x => fdiv a x) v).
  Proof.
    unfold vadd_scalar, scalar_vadd, vmul_scalar, scalar_vmul, scalar_div. rewrite !elementwise1_map. repeat split.
  Qed.
End Vectors.
Print Assumptions C51_operators_vector.
Example C51_operators_ex :
  option_map (map zval) (vdiv (Zp 7) [tozp 7 6; tozp 7 1] [tozp 7 3; tozp 7 2]) = Some [2; 4]%Z /\
  option_map (map zval) (scalar_div (Zp 7) (tozp 7 6) [tozp 7 3; tozp 7 4]) = Some [2; 5]%Z /\
  option_map (map zval) (vadd_scalar (Zp 7) [tozp 7 3; tozp 7 4] (tozp 7 5)) = Some [1; 2]%Z.
Proof. repeat split; vm_compute; reflexivity. Qed.
Theorem C51_inequality {A} (eqb : A -> A -> bool) (Heq : forall x y, eqb x y = true <-> x = y)
  (a b : list A) : length a = length b -> exists r, vneq eqb a b = Some r /\ (r = true <-> a <> b).
Proof.
  intros L. destruct (veq_spec eqb Heq a b L) as (r & E & H). exists (negb r). unfold vneq. rewrite E. split; [reflexivity|].
  rewrite negb_true_iff, <- not_true_iff_false, H. tauto.
Qed.
(** conjugation keeps the real part and negates the imaginary part, entry by entry *)
Theorem C51_conjugate {T} (opp : T -> T) (v : list (T * T)) :
  exists r, vconj (conj_complex opp) v = Some r /\ vreal r = Some (map fst v) /\ vimag r = Some (map opp (map snd v)) /\
    (forall T' (abs : T * T -> T'), vabs abs v = Some (map abs v)).
Proof.
  exists (map (conj_complex opp) v). unfold vconj, vreal, vimag, vabs. rewrite !elementwise1_map, !map_map.
  repeat split. intros. apply elementwise1_map.
Qed.
Print Assumptions C51_conjugate.
Example C51_conjugate_ex : vconj (conj_complex Z.opp) [(1, 2); (3, -4)]%Z = Some [(1, -2); (3, 4)]%Z.
Proof. reflexivity. Qed.

(** ** Matrices *)
Section Matrices.
  Variable K : FieldOps.
  Variables (M N : nat) (m n : list (list K)).
  Hypotheses (Hm : shape M N m) (Hn : shape M N n).
  (** [r] has shape M x N and its entry at (i, j) is [f m_ij n_ij] *)
  Let pointwise (f : K -> K -> K) (o : option (list (list K))) : Prop :=
    exists r, o = Some r /\ shape M N r /\
      forall i j x y, entry m i j = Some x -> entry n i j = Some y -> entry r i j = Some (f x y).
  Let each (f : K -> K) (o : option (list (list K))) : Prop :=
    exists r, o = Some r /\ matrix_of M N (fun i j => option_map f (entry m i j)) r.
  Theorem C50_operators_matrix :
    pointwise fadd (madd K M N m n) /\ pointwise fmul (mhadamard K M N m n) /\ pointwise fdiv (mdiv K M N m n).
  Proof.
    repeat split; [exact (melementwise2_spec fadd M N m n Hm Hn)|exact (melementwise2_spec fmul M N m n Hm Hn)|
      exact (melementwise2_spec (fun x y => fmul x (finv y)) M N m n Hm Hn)].
  Qed.
  Theorem C50_operators_scalar (a : K) :
    each (fun x => fadd x a) (madd_scalar K M N m a) /\ each (fadd a) (scalar_madd K M N a m) /\
    each (fun x => fmul x a) (mmul_scalar K M N m a) /\ each (fmul a) (scalar_mmul K M N a m) /\
    each (fdiv a) (scalar_mdiv K M N a m).
  Proof.
    repeat split; [exact (melementwise1_spec (fun x => fadd x a) M N m Hm)|exact (melementwise1_spec (fadd a) M N m Hm)|
      exact (melementwise1_spec (fun x => fmul x a) M N m Hm)|exact (melementwise1_spec (fmul a) M N m Hm)|
      exact (melementwise1_spec (fun x => fmul a (finv x)) M N m Hm)].
  Qed.
End Matrices.
Print Assumptions C50_operators_matrix.
Print Assumptions C50_operators_scalar.
Theorem C50_equality {A} (eqb : A -> A -> bool) (Heq : forall x y, eqb x y = true <-> x = y) M N (a b : list (list A)) :
  shape M N a -> shape M N b ->
  exists r, meq eqb M N a b = Some r /\ mneq eqb M N a b = Some (negb r) /\ (r = true <-> a = b).
Proof.
  intros Ha Hb. destruct (meq_spec eqb Heq M N a b Ha Hb) as (r & E & H). exists r. unfold mneq. rewrite E. auto.
Qed.
Print Assumptions C50_equality.
Theorem C50_hermitian {A} (conj : A -> A) M N (m : list (list A)) : shape M N m ->
  exists r, hermitian conj M N m = Some r /\ matrix_of N M (fun i j => option_map conj (entry m j i)) r.
Proof. exact (hermitian_spec conj M N m). Qed.
Print Assumptions C50_hermitian.
Theorem C50_conjugate {T} (opp : T -> T) M N (m : list (list (T * T))) : shape M N m ->
  (exists r, mconj (conj_complex opp) M N m = Some r /\
    matrix_of M N (fun i j => option_map (fun z => (fst z, opp (snd z))) (entry m i j)) r) /\
  (exists r, mreal M N m = Some r /\ matrix_of M N (fun i j => option_map fst (entry m i j)) r) /\
  (exists r, mimag M N m = Some r /\ matrix_of M N (fun i j => option_map snd (entry m i j)) r).
Proof.
  intros H. split; [exact (melementwise1_spec _ M N m H)|].
  split; [exact (melementwise1_spec _ M N m H)|exact (melementwise1_spec _ M N m H)].
Qed.
Example C50_hermitian_ex :
  hermitian (conj_complex Z.opp) 1 2 [[(1, 2); (3, 4)]]%Z = Some [[(1, -2)]; [(3, -4)]]%Z /\
  meq Z.eqb 2 2 [[1; 2]; [3; 4]]%Z [[1; 2]; [3; 5]]%Z = Some false.
Proof. split; reflexivity. Qed.

(** the matrix norms over the rationals: the largest absolute column sum, the largest
    absolute row sum *)
Theorem C50_norms M N (m : list (list Qc)) : shape M N m -> 0 < M -> 0 < N ->
  let row i := @bigsum Qc_ops N (fun k => Qcabs (@coef Qc_ops m i k)) in
  let column j := @bigsum Qc_ops M (fun k => Qcabs (@coef Qc_ops m k j)) in
  (exists r, mars M N m = Some r /\ (exists i, i < M /\ r = row i) /\ forall i, i < M -> (row i <= r)%Qc) /\
  (exists r, macs M N m = Some r /\ (exists j, j < N /\ r = column j) /\ forall j, j < N -> (column j <= r)%Qc).
Proof. intros H HM HN row column. split; [exact (mars_spec M N m H HM)|exact (macs_spec M N m H HN)]. Qed.
Print Assumptions C50_norms.
Example C50_norms_ex :
  let q z := Q2Qc (inject_Z z) in
  option_map this (macs 2 2 [[q 1; q (-2)]; [q 3; q 5]]%Z) = Some (7 # 1)%Q /\
  option_map this (mars 2 2 [[q 1; q (-9)]; [q 3; q 5]]%Z) = Some (10 # 1)%Q.
Proof. split; vm_compute; reflexivity. Qed.

(** abs of a double: the sign bit is cleared, except that a zero gets the opposite sign *)
Theorem C50_abs_real (x : spec_float) :
  match x with
  | S754_finite _ m e => abs_real x = S754_finite false m e
  | S754_infinity _ => abs_real x = S754_infinity false
  | S754_zero s => abs_real x = S754_zero (negb s)
  | S754_nan => abs_real x = S754_nan
  end.
Proof. destruct x as [[]|[]| |[] m e]; reflexivity. Qed.
Print Assumptions C50_abs_real.
Example C50_abs_real_ex : abs_real (S754_finite true 3 (-1)) = S754_finite false 3 (-1).
Proof. reflexivity. Qed.
