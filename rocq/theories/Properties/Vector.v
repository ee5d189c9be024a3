(** C51: vector operations.  vector<T, N> is a list of length N; [None] is undefined
    behaviour (a read outside the array). *)
From Coq Require Import List NArith ZArith Arith Bool Lia.
From Verif Require Import Base.Field Base.Zp Model.Vector Proof.Vector.
Import ListNotations.

Theorem C51_elementwise_one {A B} (f : A -> B) v : elementwise1 f v = Some (map f v).
Proof. exact (elementwise1_map f v). Qed.
Theorem C51_elementwise_two {A B C} (f : A -> B -> C) v w : length v = length w ->
  elementwise2 f v w = Some (map (fun p => f (fst p) (snd p)) (combine v w)).
Proof. exact (elementwise2_combine f v w). Qed.
Print Assumptions C51_elementwise_two.
Example C51_elementwise_ex : elementwise2 Z.sub [5; 7; 9]%Z [1; 2; 3]%Z = Some [4; 5; 6]%Z.
Proof. reflexivity. Qed.

(** a left fold, in index order *)
Theorem C51_accumulate {A U} (v : list A) (init : U) f : accumulate v init f = Some (fold_left f v init).
Proof. exact (accumulate_fold v init f). Qed.
Print Assumptions C51_accumulate.
Example C51_accumulate_ex : accumulate [1; 2; 3]%Z 10%Z Z.sub = Some 4%Z.
Proof. reflexivity. Qed.

Theorem C51_fill {A} n (a : A) : fill n a = Some (repeat a n).
Proof. exact (fill_repeat n a). Qed.
Theorem C51_iota K (HR : RingLaws K) n value i : (i < n)%nat ->
  length (iota K n value) = n /\
  nth_error (iota K n value) i = Some (fadd value (fofN (N.of_nat i))).
Proof. intros H; split; [apply iota_loop_length|now apply iota_spec]. Qed.
Theorem C51_generate {A} n (f : nat -> A) :
  generate n (fun i => Some (f i)) = Some (map f (seq 0 n)).
Proof. rewrite generate_build. now apply build_some. Qed.
Print Assumptions C51_iota.
Example C51_iota_ex : map (@zval 7) (iota (Zp 7) 4 (tozp 7 5)) = [5; 6; 0; 1]%Z.
Proof. vm_compute. reflexivity. Qed.

(** linspace runs from min to max in n - 1 equal steps (n - 1 invertible in T) *)
Theorem C51_linspace K (HF : FieldLaws K) n (mn mx : K) :
  exists l, linspace K n mn mx = Some l /\ length l = n /\
  (forall i, (i < n)%nat -> nth_error l i
      = Some (fadd mn (fmul (fdiv (fsub mx mn) (fofN (N.of_nat (n - 1)))) (fofN (N.of_nat i))))) /\
  ((2 <= n)%nat -> @fofN K (N.of_nat (n - 1)) <> f0 ->
    nth_error l 0 = Some mn /\ nth_error l (n - 1) = Some mx).
Proof.
  destruct (linspace_spec K HF n mn mx) as (l & Hl & Hlen & Hk).
  exists l. split; [exact Hl|]. split; [exact Hlen|]. split; [exact Hk|]. intros H2 Hz.
  destruct (linspace_ends K HF n mn mx H2 Hz) as (l' & Hl' & _ & H).
  assert (l' = l) by congruence. now subst l'.
Qed.
Print Assumptions C51_linspace.

(** rotate(v, n)[i] = v[(i + n) mod N] for every int n, negative ones included; the
    normalisation loop needs at most ceil(|n|/N) rounds *)
Theorem C51_rotate {A} (v : list A) n fuel :
  (0 < Z.of_nat (length v) < 2 ^ 31)%Z -> (- 2 ^ 31 <= n < 2 ^ 31)%Z ->
  (- n <= Z.of_nat fuel * Z.of_nat (length v))%Z ->
  exists r, rotate fuel v n = Some r /\ length r = length v /\
    forall i, (i < length v)%nat ->
      nth_error r i = nth_error v (Z.to_nat ((Z.of_nat i + n) mod Z.of_nat (length v))).
Proof. exact (rotate_spec v n fuel). Qed.
Print Assumptions C51_rotate.
Example C51_rotate_ex : rotate 3 [10; 11; 12; 13]%Z (-9) = Some [13; 10; 11; 12]%Z.
Proof. vm_compute. reflexivity. Qed.

(** slice has no range check: in range it is the sub-vector, out of range undefined *)
Theorem C51_slice {A} m (v : list A) start : (start + m <= length v)%nat ->
  slice m v start = Some (firstn m (skipn start v)).
Proof. exact (slice_spec m v start). Qed.
Theorem C51_slice_out_of_range {A} m (v : list A) start :
  (length v < start + m)%nat -> (0 < m)%nat -> slice m v start = None.
Proof. exact (slice_undefined m v start). Qed.
Print Assumptions C51_slice.
Example C51_slice_ex : slice 2 [1; 2; 3; 4]%Z 1 = Some [2; 3]%Z /\ slice 2 [1; 2; 3; 4]%Z 3 = None.
Proof. split; reflexivity. Qed.

Theorem C51_concat {A} (a b : list A) : concat a b = Some (a ++ b).
Proof. exact (concat_app a b). Qed.
Print Assumptions C51_concat.
Example C51_concat_ex : concat [1; 2]%Z [3]%Z = Some [1; 2; 3]%Z.
Proof. reflexivity. Qed.

Theorem C51_sum K (HR : RingLaws K) v : vsum K v = Some (fold_right fadd f0 v).
Proof. exact (vsum_spec K HR v). Qed.
(** the dot product conjugates its second argument (the identity for real T) *)
Theorem C51_dot K (HR : RingLaws K) conj (a b : list K) : length a = length b ->
  dot K conj a b = Some (fold_right fadd f0 (map (fun p => fmul (fst p) (conj (snd p))) (combine a b))).
Proof. exact (dot_spec K HR conj a b). Qed.
Print Assumptions C51_dot.
Example C51_dot_ex :
  option_map (@zval 7) (dot (Zp 7) (fun x => x) (map (tozp 7) [1; 2; 3]%Z) (map (tozp 7) [4; 5; 6]%Z))
  = Some 4%Z.
Proof. vm_compute. reflexivity. Qed.

Section Order.
  Context {A : Type} (ltb : A -> A -> bool).
  Hypothesis irrefl : forall a, ltb a a = false.
  Hypothesis trans : forall a b c, ltb a b = true -> ltb b c = true -> ltb a c = true.
  Hypothesis negtrans : forall a b c, ltb a b = false -> ltb b c = false -> ltb a c = false.

  Theorem C51_min v m : vmin ltb v = Some m -> In m v /\ forall x, In x v -> ltb x m = false.
  Proof. exact (vmin_spec ltb irrefl trans negtrans v m). Qed.
  Theorem C51_max v m : vmax ltb v = Some m -> In m v /\ forall x, In x v -> ltb m x = false.
  Proof. exact (vmax_spec ltb irrefl trans negtrans v m). Qed.
  Theorem C51_min_defined v : v <> [] -> exists m, vmin ltb v = Some m.
  Proof.
    intros H. destruct v as [|a v]; [congruence|]. eexists. unfold vmin. cbn [vget nth_error].
    apply accumulate_fold.
  Qed.
  Theorem C51_max_defined v : v <> [] -> exists m, vmax ltb v = Some m.
  Proof.
    intros H. destruct v as [|a v]; [congruence|]. eexists. unfold vmax. cbn [vget nth_error].
    apply accumulate_fold.
  Qed.
  (** the first position of a least (greatest) element *)
  Theorem C51_min_index v : v <> [] -> exists r m, min_index ltb v = Some r /\ nth_error v r = Some m /\
    (forall k x, nth_error v k = Some x -> ltb x m = false) /\
    (forall k x, (k < r)%nat -> nth_error v k = Some x -> ltb m x = true).
  Proof. exact (min_index_spec ltb irrefl trans negtrans v). Qed.
  Theorem C51_max_index v : v <> [] -> exists r m, max_index ltb v = Some r /\ nth_error v r = Some m /\
    (forall k x, nth_error v k = Some x -> ltb m x = false) /\
    (forall k x, (k < r)%nat -> nth_error v k = Some x -> ltb x m = true).
  Proof. exact (max_index_spec ltb irrefl trans negtrans v). Qed.
End Order.
Print Assumptions C51_min_index.
Example C51_order_ex :
  ((forall a, Z.ltb a a = false) /\
   (forall a b c, Z.ltb a b = true -> Z.ltb b c = true -> Z.ltb a c = true) /\
   (forall a b c, Z.ltb a b = false -> Z.ltb b c = false -> Z.ltb a c = false)) /\
  min_index Z.ltb [3; 1; 4; 1]%Z = Some 1%nat /\ max_index Z.ltb [3; 4; 4; 1]%Z = Some 1%nat /\
  vmin Z.ltb [3; 1; 4]%Z = Some 1%Z /\ vmax Z.ltb [3; 1; 4]%Z = Some 4%Z.
Proof.
  split; [|repeat split; reflexivity].
  split; [|split]; intros; rewrite ?Z.ltb_lt, ?Z.ltb_ge, ?Z.ltb_irrefl in *; lia || reflexivity.
Qed.

Theorem C51_equality {A} (eqb : A -> A -> bool) (Heq : forall x y, eqb x y = true <-> x = y)
  (a b : list A) : length a = length b -> exists r, veq eqb a b = Some r /\ (r = true <-> a = b).
Proof. exact (veq_spec eqb Heq a b). Qed.
Print Assumptions C51_equality.
Example C51_equality_ex : veq Z.eqb [1; 2]%Z [1; 3]%Z = Some false /\ veq Z.eqb [1; 2]%Z [1; 2]%Z = Some true.
Proof. split; reflexivity. Qed.
