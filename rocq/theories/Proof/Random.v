From Coq Require Import ZArith NArith List Bool Lia Znumtheory.
From Verif Require Import Base.Field Base.Zp Spec.Group Model.Random Proof.Instances.
Import ListNotations.
Local Open Scope Z_scope.

Lemma filter_ext_in' {A} (f g : A -> bool) l : (forall x, In x l -> f x = g x) -> filter f l = filter g l.
Proof. apply filter_ext_in. Qed.
Lemma filter_map_len {A B} (f : B -> bool) (g : A -> B) l : length (filter f (map g l)) = length (filter (fun x => f (g x)) l).
Proof. induction l; cbn; [reflexivity|]. destruct (f (g a)); cbn; rewrite IHl; reflexivity. Qed.
Lemma filter_none {A} (f : A -> bool) l : (forall x, In x l -> f x = false) -> length (filter f l) = O.
Proof. induction l; cbn; intros H; [reflexivity|]. rewrite (H a (or_introl eq_refl)). apply IHl. intros x I. apply H. right. exact I. Qed.
Lemma filter_all {A} (f : A -> bool) l : (forall x, In x l -> f x = true) -> length (filter f l) = length l.
Proof. induction l; cbn; intros H; [reflexivity|]. rewrite (H a (or_introl eq_refl)). cbn. rewrite IHl; auto. Qed.
Lemma filter_app_len {A} (f : A -> bool) l m : length (filter f (l ++ m)) = (length (filter f l) + length (filter f m))%nat.
Proof. induction l; cbn; [reflexivity|]. destruct (f a); cbn; rewrite IHl; reflexivity. Qed.
Lemma count_seq v n : forall s, length (filter (fun k => Nat.eqb k v) (seq s n)) = if (Nat.leb s v && Nat.ltb v (s + n))%bool then 1%nat else 0%nat.
Proof.
  induction n; intros s; cbn [seq filter].
  - destruct (Nat.leb_spec s v), (Nat.ltb_spec v (s + 0)); cbn; lia.
  - destruct (Nat.eqb_spec s v); cbn [length]; rewrite IHn;
      destruct (Nat.leb_spec (S s) v), (Nat.leb_spec s v), (Nat.ltb_spec v (S s + n)), (Nat.ltb_spec v (s + S n)); cbn; lia.
Qed.
Lemma seq_S_end s n : seq s (S n) = seq s n ++ [(s + n)%nat].
Proof. apply seq_S. Qed.

(** how many draws have residue v *)
Lemma count_residue p v : 0 <= v < p ->
  length (filter (fun d => d mod p =? v) (draws p)) = if v =? 0 then 2%nat else 1%nat.
Proof.
  intros H. unfold draws. rewrite seq_S_end, map_app, filter_app_len, filter_map_len.
  rewrite (filter_ext_in _ (fun k => Nat.eqb k (Z.to_nat v))).
  2:{ intros k I. apply in_seq in I. rewrite Z.mod_small by lia.
      destruct (Z.eqb_spec (Z.of_nat k) v), (Nat.eqb_spec k (Z.to_nat v)); lia. }
  rewrite count_seq. cbn [map filter]. rewrite Nat2Z.inj_add, Z2Nat.id by lia. cbn [Z.of_nat]. rewrite Z.add_0_l, Z_mod_same_full.
  destruct (Z.eqb_spec 0 v), (Z.eqb_spec v 0); try lia;
    destruct (Nat.ltb_spec (Z.to_nat v) (0 + Z.to_nat p)); cbn; lia.
Qed.

Lemma zval_range p (x : zp p) : 0 < p -> 0 <= zval x < p.
Proof. intros H. rewrite <- zval_mod. apply Z.mod_pos_bound, H. Qed.

Lemma count_prime p (x : zp p) : 0 < p ->
  length (filter (fun d => @feqb (Zp p) (random_prime_field p d) x) (draws p)) = if zval x =? 0 then 2%nat else 1%nat.
Proof. intros H. apply count_residue, zval_range, H. Qed.

Fixpoint list_feqb {F : FieldOps} (l m : list F) : bool :=
  match l, m with [], [] => true | x :: l', y :: m' => feqb x y && list_feqb l' m' | _, _ => false end.
Lemma draw_lists_nonempty p k : 0 < p -> length (draw_lists p k) = Nat.pow (S (Z.to_nat p)) k.
Proof.
  intros H. induction k; [reflexivity|]. cbn [draw_lists Nat.pow]. rewrite <- IHk.
  assert (L : length (draws p) = S (Z.to_nat p)) by (unfold draws; rewrite map_length, seq_length; reflexivity).
  rewrite <- L. clear L. induction (draws p) as [|d l IHl]; [reflexivity|]. cbn [flat_map length]. rewrite app_length, map_length, IHl. cbn. lia.
Qed.
Lemma count_ext p xs : 0 < p ->
  length (filter (fun ds => @list_feqb (Zp p) (random_extension p ds) xs) (draw_lists p (length xs)))
  = Nat.pow 2 (length (filter (fun x => @feqb (Zp p) x 0%fld) xs)).
Proof.
  intros H. induction xs as [|x xs IH]; [reflexivity|]. cbn [length draw_lists].
  assert (E : forall l, length (filter (fun ds => @list_feqb (Zp p) (random_extension p ds) (x :: xs))
      (flat_map (fun d => map (cons d) (draw_lists p (length xs))) l)) =
      (length (filter (fun d => @feqb (Zp p) (random_prime_field p d) x) l) *
       length (filter (fun ds => @list_feqb (Zp p) (random_extension p ds) xs) (draw_lists p (length xs))))%nat).
  { induction l as [|d l IHl]; [reflexivity|]. cbn [flat_map]. rewrite filter_app_len, IHl, filter_map_len. cbn [filter].
    destruct (@feqb (Zp p) (random_prime_field p d) x) eqn:D.
    - rewrite (filter_ext_in _ (fun ds => @list_feqb (Zp p) (random_extension p ds) xs)); [cbn [length]; lia|].
      intros ds _. cbn [random_extension map list_feqb]. rewrite D. reflexivity.
    - rewrite filter_none; [reflexivity|]. intros ds _. cbn [random_extension map list_feqb]. rewrite D. reflexivity. }
  rewrite E, IH, count_prime by exact H. cbn [filter].
  assert (C : @feqb (Zp p) x 0%fld = (zval x =? 0)).
  { change (@feqb (Zp p) x 0%fld) with (zval x =? 0 mod p). rewrite Zmod_0_l. reflexivity. }
  rewrite C. destruct (zval x =? 0); cbn [length Nat.pow]; lia.
Qed.

Section Group.
  Variable G : AbGroup.
  Variable eqb : G -> G -> bool.
  Hypothesis eqbP : forall x y, gin x -> gin y -> (eqb x y = true <-> x = y).
  Variables (g : G) (r : Z).
  Hypothesis gg : gin g.
  Hypothesis PR : prime r.
  Hypothesis ord : gmul (Z.to_N r) g = g0.
  Hypothesis nz : g <> g0.
  Lemma gmul_inj i j : 0 <= i < r -> 0 <= j < r -> gmul (Z.to_N i) g = gmul (Z.to_N j) g -> i = j.
  Proof.
    assert (P2 := prime_ge_2 r PR).
    assert (W : forall i j, 0 <= i <= j -> j < r -> gmul (Z.to_N i) g = gmul (Z.to_N j) g -> i = j).
    { intros a b A B E. destruct (Z.eq_dec a b) as [|NE]; [assumption|]. exfalso. apply nz.
      apply (prime_order G (Z.to_N r) g (Z.to_N (b - a))); auto; [rewrite Z2N.id by lia; exact PR|lia|].
      replace (Z.to_N b) with (Z.to_N a + Z.to_N (b - a))%N in E by lia.
      rewrite gmul_add in E by exact gg.
      apply (g_cancel_l G (gmul (Z.to_N a) g)); auto using gmul_in, g_in0.
      rewrite <- E, g_0r; auto using gmul_in. }
    intros I J E. destruct (Z.le_ge_cases i j); [apply W; auto; lia|]. symmetry. apply W; auto; lia.
  Qed.
  Lemma count_group k : 0 <= k < r ->
    length (filter (fun d => eqb (gmul (Z.to_N (d mod r)) g) (gmul (Z.to_N k) g)) (draws r)) = if k =? 0 then 2%nat else 1%nat.
  Proof.
    intros H. rewrite <- count_residue with (p := r) by exact H. f_equal. apply filter_ext. intros d.
    assert (P2 := prime_ge_2 r PR). assert (M := Z.mod_pos_bound d r ltac:(lia)).
    destruct (Z.eqb_spec (d mod r) k) as [->|NE].
    - apply eqbP; auto using gmul_in.
    - apply not_true_is_false. intros E. apply eqbP in E; auto using gmul_in. apply NE. apply gmul_inj; auto.
  Qed.
End Group.
