(** C50: matrix structural operations and products.  [matrix_of M N f r]
    (Spec/LinAlg.v): r is the M x N matrix with entries f i j, all of them defined. *)
From Coq Require Import List NArith ZArith Arith Bool Lia.
From Verif Require Import Base.Field Base.Zp Model.Vector Model.Matrix Spec.LinAlg Proof.Vector Proof.Matrix.
Import ListNotations.

Definition ex23 : list (list Z) := [[1; 2; 3]; [4; 5; 6]]%Z.
Example ex23_shape : shape 2 3 ex23.
Proof. split; [reflexivity|]. intros [|[|i]] r H; cbn in H; try (injection H as <-); try reflexivity. destruct i; discriminate. Qed.

Section Structural.
  Context {A : Type}.
  Implicit Types m : list (list A).

  Theorem C50_transpose M N m : shape M N m ->
    exists r, transpose M N m = Some r /\ matrix_of N M (fun i j => entry m j i) r.
  Proof. exact (transpose_spec M N m). Qed.
  Theorem C50_horzcat M N P m n : shape M N m -> shape M P n ->
    exists r, horzcat M N P m n = Some r /\
      matrix_of M (N + P) (fun i j => if Nat.ltb j N then entry m i j else entry n i (j - N)) r.
  Proof. exact (horzcat_spec M N P m n). Qed.
  Theorem C50_vertcat M N P m n : shape M P m -> shape N P n ->
    exists r, vertcat M N P m n = Some r /\
      matrix_of (M + N) P (fun i j => if Nat.ltb i M then entry m i j else entry n (i - M) j) r.
  Proof. exact (vertcat_spec M N P m n). Qed.
  Theorem C50_submat P Q M N m a b : shape M N m ->
    (a + P <= M -> b + Q <= N -> exists r, submat P Q M N m a b = Ok r /\
       matrix_of P Q (fun i j => entry m (a + i) (b + j)) r) /\
    (a + P > M \/ b + Q > N -> submat P Q M N m a b = Throws).
  Proof. intros H; split; [now apply submat_ok|apply submat_throws]. Qed.
  (** reshape keeps the row-major order of the entries *)
  Theorem C50_reshape P Q M N m : shape M N m -> P * Q = M * N ->
    exists r, reshape P Q M N m = Some r /\ shape P Q r /\
      forall i j i' j', i < P -> j < Q -> i' < M -> j' < N -> i * Q + j = i' * N + j' ->
        entry r i j = entry m i' j'.
  Proof.
    intros H1 H2. destruct (reshape_spec P Q M N m H1 H2) as (r & Hr & _ & Hs & He). eauto.
  Qed.
  Theorem C50_repmat row col M N m : shape M N m ->
    exists r, repmat row col M N m = Some r /\ shape (M * row) (N * col) r /\
      forall a b i j, a < row -> b < col -> i < M -> j < N ->
        entry r (a * M + i) (b * N + j) = entry m i j.
  Proof. exact (repmat_spec row col M N m). Qed.
  Theorem C50_fill M N (a : A) : exists r, mfill M N a = Some r /\ matrix_of M N (fun _ _ => Some a) r.
  Proof. exact (mfill_spec M N a). Qed.
  Theorem C50_as_column (v : list A) : exists r, as_column (length v) v = Some r /\
    matrix_of (length v) 1 (fun i _ => nth_error v i) r.
  Proof. exact (as_column_spec v). Qed.
  Theorem C50_as_row (v : list A) : exists r, as_row (length v) v = Some r /\
    matrix_of 1 (length v) (fun _ j => nth_error v j) r.
  Proof. exact (as_row_spec v). Qed.
  Theorem C50_elementwise_one {B} (f : A -> B) M N m : shape M N m ->
    exists r, melementwise1 M N f m = Some r /\ matrix_of M N (fun i j => option_map f (entry m i j)) r.
  Proof. exact (melementwise1_spec f M N m). Qed.
  Theorem C50_elementwise_two {B C} (f : A -> B -> C) M N m (n : list (list B)) :
    shape M N m -> shape M N n ->
    exists r, melementwise2 M N f m n = Some r /\ shape M N r /\
      forall i j x y, entry m i j = Some x -> entry n i j = Some y -> entry r i j = Some (f x y).
  Proof. exact (melementwise2_spec f M N m n). Qed.

  (** swap_idx a b exchanges a and b *)
  Theorem C50_swaprow M N m a b : shape M N m -> a < M -> b < M ->
    exists r, swaprow M N m a b = Some r /\
      matrix_of M N (fun i j => entry m (if Nat.eqb i a then b else if Nat.eqb i b then a else i) j) r.
  Proof. exact (swaprow_spec M N m a b). Qed.
  Theorem C50_swaprow_out_of_range M N m a b : shape M N m -> 0 < N -> M <= a \/ M <= b ->
    swaprow M N m a b = None.
  Proof. exact (swaprow_undefined M N m a b). Qed.

  (** swapcol runs over as many rows as there are columns.  Full statement: the result is
      the matrix with columns a and b exchanged; true for square matrices only. *)
  Theorem C50_swapcol_square_partial M m a b : shape M M m -> a < M -> b < M ->
    exists r, swapcol M M m a b = Some r /\
      matrix_of M M (fun i j => entry m i (if Nat.eqb j a then b else if Nat.eqb j b then a else j)) r.
  Proof.
    intros Hm Ha Hb. destruct (swapcol_le M M m a b Hm Ha Hb (le_n M)) as (r & Hr & H).
    exists r. split; [exact Hr|]. eapply matrix_of_ext; [|exact H].
    intros i j Hi Hj. cbv beta. rewrite (proj2 (Nat.ltb_lt i M) Hi). reflexivity.
  Qed.
  (** more rows than columns: the rows from N on are left alone *)
  Theorem C50_swapcol_tall M N m a b : shape M N m -> a < N -> b < N -> N <= M ->
    exists r, swapcol M N m a b = Some r /\
      matrix_of M N (fun i j => if Nat.ltb i N
                                then entry m i (if Nat.eqb j a then b else if Nat.eqb j b then a else j)
                                else entry m i j) r.
  Proof. exact (swapcol_le M N m a b). Qed.
  (** fewer rows than columns: every call accesses rows outside the matrix *)
  Theorem C50_swapcol_wide_refuted M N m a b : shape M N m -> a < N -> b < N -> M < N ->
    swapcol M N m a b = None.
  Proof. exact (swapcol_undefined M N m a b). Qed.
End Structural.
Theorem C50_swapcol_tall_refuted : exists m : list (list Z), shape 3 2 m /\
  swapcol 3 2 m 0 1 = Some [[2; 1]; [4; 3]; [5; 6]]%Z /\ m = [[1; 2]; [3; 4]; [5; 6]]%Z.
Proof.
  exists [[1; 2]; [3; 4]; [5; 6]]%Z. split; [|split; reflexivity].
  split; [reflexivity|]. intros [|[|[|i]]] r H; cbn in H; try (injection H as <-); try reflexivity.
  destruct i; discriminate.
Qed.
Print Assumptions C50_transpose.
Print Assumptions C50_reshape.
Print Assumptions C50_swaprow.
Print Assumptions C50_swapcol_square_partial.
Print Assumptions C50_swapcol_wide_refuted.
Print Assumptions C50_swapcol_tall_refuted.
Example C50_structural_ex :
  shape 2 3 ex23 /\
  transpose 2 3 ex23 = Some [[1; 4]; [2; 5]; [3; 6]]%Z /\
  reshape 3 2 2 3 ex23 = Some [[1; 2]; [3; 4]; [5; 6]]%Z /\
  repmat 1 2 2 3 ex23 = Some [[1; 2; 3; 1; 2; 3]; [4; 5; 6; 4; 5; 6]]%Z /\
  swaprow 2 3 ex23 0 1 = Some [[4; 5; 6]; [1; 2; 3]]%Z /\
  submat 1 2 2 3 ex23 1 1 = Ok [[5; 6]]%Z /\ submat 1 2 2 3 ex23 1 2 = Throws /\
  swapcol 2 2 [[1; 2]; [3; 4]]%Z 0 1 = Some [[2; 1]; [4; 3]]%Z.
Proof. split; [exact ex23_shape|]. repeat split; reflexivity. Qed.

Section Products.
  Variable K : FieldOps.
  Hypothesis HR : RingLaws K.
  Local Open Scope fld_scope.
  Theorem C50_identity n : exists r, get_identity K n = Some r /\
    matrix_of n n (fun i j => Some (if Nat.eqb i j then 1 else 0)) r.
  Proof. exact (get_identity_spec K n). Qed.
  Theorem C50_matmul M N P (a b : list (list K)) : shape M N a -> shape N P b ->
    exists r, matmul K M N P a b = Some r /\
      matrix_of M P (fun i j => Some (bigsum N (fun k => coef a i k * coef b k j))) r.
  Proof. exact (matmul_spec K HR M N P a b). Qed.
  Theorem C50_vectmatmul M N (v : list K) (m : list (list K)) : length v = M -> shape M N m ->
    exists r, vectmatmul K M N v m = Some r /\ length r = N /\
      forall j, (j < N)%nat -> nth_error r j = Some (bigsum M (fun k => vcoef v k * coef m k j)).
  Proof. exact (vectmatmul_spec K HR M N v m). Qed.
  Theorem C50_matvectmul M N (m : list (list K)) (v : list K) : shape M N m -> length v = N ->
    exists r, matvectmul K M N m v = Some r /\ length r = M /\
      forall i, (i < M)%nat -> nth_error r i = Some (bigsum N (fun k => coef m i k * vcoef v k)).
  Proof. exact (matvectmul_spec K HR M N m v). Qed.
  Theorem C50_kron M N P Q (a b : list (list K)) : shape M N a -> shape P Q b ->
    exists r, kron K M N P Q a b = Some r /\ shape (M * P) (N * Q) r /\
      forall i j k l, (i < M)%nat -> (j < N)%nat -> (k < P)%nat -> (l < Q)%nat ->
        entry r (i * P + k) (j * Q + l) = Some (coef a i j * coef b k l).
  Proof. exact (kron_spec K M N P Q a b). Qed.
  Theorem C50_trace M (m : list (list K)) : shape M M m ->
    mtrace K M m = Some (bigsum M (fun i => coef m i i)).
  Proof. exact (mtrace_spec K HR M m). Qed.
End Products.
Print Assumptions C50_matmul.
Print Assumptions C50_kron.
Example C50_products_ex :
  let m := map (map (tozp 97)) ex23 in
  let t := map (map (tozp 97)) [[1; 4]; [2; 5]; [3; 6]]%Z in
  option_map (map (map (@zval 97))) (matmul (Zp 97) 2 3 2 m t) = Some [[14; 32]; [32; 77]]%Z /\
  option_map (map (map (@zval 97)))
    (kron (Zp 97) 1 2 2 1 [map (tozp 97) [2; 3]%Z] (map (map (tozp 97)) [[5]; [7]]%Z))
  = Some [[10; 15]; [14; 21]]%Z.
Proof. vm_compute. split; reflexivity. Qed.
