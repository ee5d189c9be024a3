(** Sums, multiples by integers and multi-sums in a commutative group. *)
From Coq Require Import NArith ZArith List Lia.
From Verif Require Import Spec.Group Spec.GroupClass.
Import ListNotations.

Section Facts.
  Variable G : AbGroup.
  Implicit Types x y z : G.

  Fixpoint sumn (n : nat) (F : nat -> G) : G :=
    match n with O => g0 | S m => gadd (sumn m F) (F m) end.
  Lemma sumn_in n F : (forall i, (i < n)%nat -> gin (F i)) -> gin (sumn n F).
  Proof. induction n; cbn; intros H; [apply g_in0|]. apply g_inadd; [apply IHn; auto|apply H; lia]. Qed.
  Lemma sumn_ext n F F' : (forall i, (i < n)%nat -> F i = F' i) -> sumn n F = sumn n F'.
  Proof. induction n; cbn; intros H; [reflexivity|]. rewrite IHn by auto. rewrite H by lia. reflexivity. Qed.
  Lemma sumn_zero n F : (forall i, (i < n)%nat -> F i = g0) -> sumn n F = g0.
  Proof. induction n; cbn; intros H; [reflexivity|]. rewrite IHn by auto. rewrite H by lia. apply g_0l, g_in0. Qed.
  Lemma sumn_add n F F' : (forall i, (i < n)%nat -> gin (F i)) -> (forall i, (i < n)%nat -> gin (F' i)) ->
    sumn n (fun i => gadd (F i) (F' i)) = gadd (sumn n F) (sumn n F').
  Proof.
    induction n; cbn; intros H H'; [symmetry; apply g_0l, g_in0|].
    rewrite IHn by auto. apply g_swap4; auto using sumn_in.
  Qed.
  (** one non-zero term *)
  Lemma sumn_single n F k : (k < n)%nat -> gin (F k) -> (forall i, (i < n)%nat -> i <> k -> F i = g0) -> sumn n F = F k.
  Proof.
    induction n; intros K I H; [lia|]. cbn. destruct (Nat.eq_dec k n) as [->|N].
    - rewrite sumn_zero by (intros; apply H; lia). apply g_0l, I.
    - rewrite (H n) by lia. rewrite IHn by (auto; lia). apply g_0r, I.
  Qed.
  (** two positions changed *)
  Lemma sumn_mul n c F : (forall i, (i < n)%nat -> gin (F i)) ->
    sumn n (fun i => gmul c (F i)) = gmul c (sumn n F).
  Proof.
    induction n; cbn; intros H; [symmetry; apply gmul_zero|]. rewrite IHn by auto.
    symmetry. apply gmul_gadd; auto using sumn_in.
  Qed.

  Lemma gsum_map_ext {A} (f h : A -> G) l : (forall a, In a l -> f a = h a) -> gsum (map f l) = gsum (map h l).
  Proof. intros H. f_equal. apply map_ext_in, H. Qed.
  Lemma gsum_map_in {A} (f : A -> G) l : (forall a, In a l -> gin (f a)) -> gin (gsum (map f l)).
  Proof. intros H. apply gsum_in. apply Forall_map. apply Forall_forall, H. Qed.
  Lemma gsum_map_add {A} (f h : A -> G) l : (forall a, In a l -> gin (f a)) -> (forall a, In a l -> gin (h a)) ->
    gsum (map (fun a => gadd (f a) (h a)) l) = gadd (gsum (map f l)) (gsum (map h l)).
  Proof.
    induction l as [|a l IH]; cbn [map]; intros F H; [symmetry; apply g_0l, g_in0|].
    unfold gsum in *. cbn [fold_right]. rewrite IH by auto using in_cons.
    apply g_swap4; auto using in_eq; apply (gsum_map_in); auto using in_cons.
  Qed.
  Lemma gsum_map_mul {A} n (f : A -> G) l : (forall a, In a l -> gin (f a)) ->
    gsum (map (fun a => gmul n (f a)) l) = gmul n (gsum (map f l)).
  Proof.
    induction l as [|a l IH]; cbn [map]; intros F; [symmetry; apply gmul_zero|].
    unfold gsum in *. cbn [fold_right]. rewrite IH by auto using in_cons. symmetry. apply gmul_gadd; auto using in_eq.
    apply gsum_map_in; auto using in_cons.
  Qed.
  Lemma gsum_map_zero {A} (f : A -> G) l : (forall a, In a l -> f a = g0) -> gsum (map f l) = g0.
  Proof.
    induction l as [|a l IH]; cbn [map]; intros F; [reflexivity|].
    unfold gsum in *. cbn [fold_right]. rewrite IH, F by auto using in_eq, in_cons. apply g_0l, g_in0.
  Qed.

  Lemma msum_combine ns (xs : list G) : msum ns xs = gsum (map (fun p => gmul (snd p) (fst p)) (combine xs ns)).
  Proof.
    revert xs. induction ns as [|n ns IH]; intros [|x xs]; cbn [msum combine map]; try reflexivity.
    unfold gsum in *. cbn [fold_right fst snd]. rewrite IH. reflexivity.
  Qed.
  Lemma msum_in ns (xs : list G) : Forall gin xs -> gin (msum ns xs).
  Proof.
    intros H. revert ns. induction H; intros [|n ns]; cbn; auto using g_in0. apply g_inadd; auto. apply gmul_in; auto.
  Qed.
  Lemma msum_app n1 n2 (x1 x2 : list G) : length n1 = length x1 -> Forall gin x1 -> Forall gin x2 ->
    msum (n1 ++ n2) (x1 ++ x2) = gadd (msum n1 x1) (msum n2 x2).
  Proof.
    revert x1. induction n1 as [|n n1 IH]; intros [|x x1] L H1 H2; try discriminate; cbn.
    - symmetry. apply g_0l, msum_in, H2.
    - inversion_clear H1. rewrite IH by auto. symmetry. apply g_assoc; auto using msum_in, gmul_in.
  Qed.

  (** integer multiples *)
  Definition gz (c : Z) (x : G) : G :=
    if Z.ltb c 0 then gneg (gmul (Z.to_N (- c)) x) else gmul (Z.to_N c) x.
  Lemma gz_in c x : gin x -> gin (gz c x).
  Proof. intros H. unfold gz. destruct (Z.ltb c 0); auto using gmul_in, g_inneg. Qed.
  Lemma gz_N n x : gz (Z.of_N n) x = gmul n x.
  Proof. unfold gz. destruct (Z.ltb_spec (Z.of_N n) 0); [lia|]. rewrite N2Z.id. reflexivity. Qed.
  Lemma gz_opp_N n x : gin x -> gz (- Z.of_N n) x = gneg (gmul n x).
  Proof.
    intros H. destruct n; [symmetry; apply g_neg0|]. unfold gz. destruct (Z.ltb_spec (- Z.of_N (N.pos p)) 0); [|lia].
    rewrite Z.opp_involutive, N2Z.id. reflexivity.
  Qed.
  Lemma gz_sub m n x : gin x -> gz (Z.of_N m - Z.of_N n) x = gadd (gmul m x) (gneg (gmul n x)).
  Proof.
    intros H. destruct (N.le_ge_cases n m) as [L|L].
    - replace (Z.of_N m - Z.of_N n)%Z with (Z.of_N (m - n)) by lia. rewrite gz_N.
      replace m with ((m - n) + n)%N at 2 by lia. rewrite gmul_add, g_assoc, g_negr, g_0r by auto using gmul_in, g_inneg.
      reflexivity.
    - replace (Z.of_N m - Z.of_N n)%Z with (- Z.of_N (n - m))%Z by lia. rewrite gz_opp_N by exact H.
      replace n with (m + (n - m))%N at 2 by lia. rewrite gmul_add, g_neg_add by auto using gmul_in.
      rewrite <- g_assoc, g_negr, g_0l by auto using gmul_in, g_inneg. reflexivity.
  Qed.
  Lemma gz_form c x : gin x -> exists m n, (c = Z.of_N m - Z.of_N n)%Z /\ gz c x = gadd (gmul m x) (gneg (gmul n x)).
  Proof.
    intros H. exists (Z.to_N c), (Z.to_N (- c)). assert (E : (c = Z.of_N (Z.to_N c) - Z.of_N (Z.to_N (- c)))%Z) by lia.
    split; [exact E|]. rewrite E at 1. apply gz_sub, H.
  Qed.
  Lemma gz_add c d x : gin x -> gz (c + d) x = gadd (gz c x) (gz d x).
  Proof.
    intros H. destruct (gz_form c x H) as (m & n & E1 & ->), (gz_form d x H) as (m' & n' & E2 & ->).
    replace (c + d)%Z with (Z.of_N (m + m') - Z.of_N (n + n'))%Z by lia.
    rewrite gz_sub, !gmul_add, g_neg_add by auto using gmul_in. apply g_swap4; auto using gmul_in, g_inneg.
  Qed.
  Lemma gz_double c x : gin x -> gz (2 * c) x = gadd (gz c x) (gz c x).
  Proof. intros H. rewrite <- gz_add by exact H. f_equal. lia. Qed.
End Facts.
Arguments sumn {G}. Arguments gz {G}.
