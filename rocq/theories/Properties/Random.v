(** C42: random elements.  The claim of equal multiplicities fails: zero has two
    preimages among the draws of the inclusive distribution 0..modulus. *)
From Coq Require Import ZArith NArith List Bool Lia Znumtheory.
From Verif Require Import Base.Field Base.Zp Spec.Group Spec.GroupClass Spec.Weierstrass Model.Random Model.ShortWeierstrass
  Proof.WeierstrassRep Proof.Instances Proof.Random Properties.Weierstrass Properties.Multiexp.
Import ListNotations.
Local Open Scope Z_scope.

(** number of the draws [l] that are mapped to x *)
Definition multiplicity {D T : Type} (eqb : T -> T -> bool) (f : D -> T) (l : list D) (x : T) : nat :=
  length (filter (fun d => eqb (f d) x) l).

(** prime fields: exact multiplicities *)
Theorem C42_prime_field_multiplicity (p : Z) (x : Zp p) : 0 < p ->
  multiplicity (@feqb (Zp p)) (random_prime_field p) (draws p) x = if zval x =? 0 then 2%nat else 1%nat.
Proof. exact (count_prime p x). Qed.
Print Assumptions C42_prime_field_multiplicity.
(** every non-zero element is hit equally often *)
Theorem C42_uniform_nonzero_partial (p : Z) (x y : Zp p) : 0 < p -> zval x <> 0 -> zval y <> 0 ->
  multiplicity (@feqb (Zp p)) (random_prime_field p) (draws p) x = multiplicity (@feqb (Zp p)) (random_prime_field p) (draws p) y.
Proof. intros H X Y. rewrite !C42_prime_field_multiplicity by exact H. apply Z.eqb_neq in X, Y. rewrite X, Y. reflexivity. Qed.
Print Assumptions C42_uniform_nonzero_partial.
(** the claim is false in every prime field *)
Theorem C42_uniform_refuted (p : Z) : 1 < p -> exists x y : Zp p,
  multiplicity (@feqb (Zp p)) (random_prime_field p) (draws p) x <> multiplicity (@feqb (Zp p)) (random_prime_field p) (draws p) y.
Proof.
  intros H. exists 0%fld, 1%fld. rewrite !C42_prime_field_multiplicity by lia. change (zval (0%fld : Zp p)) with (0 mod p). change (zval (1%fld : Zp p)) with (1 mod p).
  rewrite Zmod_0_l, Z.mod_1_l by lia. discriminate.
Qed.
Print Assumptions C42_uniform_refuted.
Example C42_prime_case : multiplicity (@feqb (Zp 13)) (random_prime_field 13) (draws 13) (tozp 13 0) = 2%nat /\
  multiplicity (@feqb (Zp 13)) (random_prime_field 13) (draws 13) (tozp 13 5) = 1%nat /\ length (draws 13) = 14%nat.
Proof. repeat split; vm_compute; reflexivity. Qed.

(** extension fields: an element with k zero coefficients is hit 2^k times out of (p+1)^arity *)
Theorem C42_extension_multiplicity (p : Z) (xs : list (Zp p)) : 0 < p ->
  multiplicity (@list_feqb (Zp p)) (random_extension p) (draw_lists p (length xs)) xs
  = Nat.pow 2 (length (filter (fun x => @feqb (Zp p) x 0%fld) xs)) /\
  length (draw_lists p (length xs)) = Nat.pow (S (Z.to_nat p)) (length xs).
Proof. intros H. split; [exact (count_ext p xs H)|exact (draw_lists_nonempty p (length xs) H)]. Qed.
Print Assumptions C42_extension_multiplicity.
Example C42_extension_case :
  multiplicity (@list_feqb (Zp 5)) (random_extension 5) (draw_lists 5 3) [tozp 5 0; tozp 5 3; tozp 5 0] = 4%nat.
Proof. vm_compute. reflexivity. Qed.

(** groups: the returned object stands for the multiple by the drawn residue, and of the
    multiples of the generator the identity is hit twice, the others once *)
Theorem C42_group_value (G : AbGroup) (T : Type) (o : class_ops T) (rep : T -> G -> Prop) (okn : N -> Prop)
  (one : T) (g : G) (r d : Z) :
  implements G o rep okn -> rep one g -> 0 < r -> (forall n, (n < Z.to_N r)%N -> okn n) ->
  rep (random_group (c_smul o) one r d) (gmul (Z.to_N (d mod r)) g).
Proof.
  intros I O R K. apply (i_smul G o rep okn I); [|exact O]. apply K. assert (H := Z.mod_pos_bound d r R). lia.
Qed.
Print Assumptions C42_group_value.
Theorem C42_group_multiplicity (G : AbGroup) (eqb : G -> G -> bool) (g : G) (r k : Z) :
  (forall x y, gin x -> gin y -> (eqb x y = true <-> x = y)) ->
  gin g -> prime r -> gmul (Z.to_N r) g = g0 -> g <> g0 -> 0 <= k < r ->
  multiplicity eqb (fun d => gmul (Z.to_N (d mod r)) g) (draws r) (gmul (Z.to_N k) g) = if k =? 0 then 2%nat else 1%nat.
Proof. intros E X P O N. exact (count_group G eqb E g r X P O N k). Qed.
Print Assumptions C42_group_multiplicity.
(** (3, 6) has order 3 on y^2 = x^3 + 2x + 3 over Z/13 *)
Definition point13_eqb (P Q : G13) : bool :=
  match P, Q with Inf, Inf => true | Aff x y, Aff x' y' => feqb x x' && feqb y y' | _, _ => false end.
Example C42_group_case : gin (P13 3 6 : G13) /\ prime 3 /\ gmul (G := G13) 3 (P13 3 6) = g0 /\ (P13 3 6 : G13) <> g0 /\
  (forall P Q : G13, gin P -> gin Q -> (point13_eqb P Q = true <-> P = Q)) /\
  multiplicity (T := G13) point13_eqb (fun d => gmul (G := G13) (Z.to_N (d mod 3)) (P13 3 6)) (draws 3) Inf = 2%nat /\
  affine13 (Some (random_group (c_smul o13) (T13 3 6 1) 3 3)) = affine13 (Some (random_group (c_smul o13) (T13 3 6 1) 3 0)).
Proof.
  split; [dec13|]. split; [apply prime_3|]. split; [reflexivity|]. split; [discriminate|].
  split.
  - intros [|x y] [|x' y'] _ _; cbn -[feqb]; split; intros E; try discriminate; try reflexivity.
    + apply andb_true_iff in E. destruct E as [E1 E2]. apply (feqb_true F13 (FieldLaws_Ring _ F13_field)) in E1, E2. congruence.
    + injection E as <- <-. apply andb_true_iff. split; apply Z.eqb_refl.
  - split; vm_compute; reflexivity.
Qed.
