(** Commutative groups carried by a subset of a type, and multiples. *)
From Coq Require Import NArith List Lia.

Record AbGroup := mkG {
  gT :> Type;
  gin : gT -> Prop;
  g0 : gT;
  gadd : gT -> gT -> gT;
  gneg : gT -> gT;
  g_in0 : gin g0;
  g_inadd : forall x y, gin x -> gin y -> gin (gadd x y);
  g_inneg : forall x, gin x -> gin (gneg x);
  g_assoc : forall x y z, gin x -> gin y -> gin z -> gadd (gadd x y) z = gadd x (gadd y z);
  g_comm : forall x y, gin x -> gin y -> gadd x y = gadd y x;
  g_0l : forall x, gin x -> gadd g0 x = x;
  g_negr : forall x, gin x -> gadd x (gneg x) = g0
}.
Arguments gin {_}. Arguments g0 {_}. Arguments gadd {_}. Arguments gneg {_}.

(** x + ... + x, n summands *)
Fixpoint gmuln {G : AbGroup} (n : nat) (x : G) : G :=
  match n with O => g0 | S m => gadd x (gmuln m x) end.
Definition gmul {G : AbGroup} (n : N) (x : G) : G := gmuln (N.to_nat n) x.
(** sum of a list *)
Definition gsum {G : AbGroup} (l : list G) : G := fold_right gadd g0 l.

Section Facts.
  Variable G : AbGroup.
  Implicit Types x y z : G.
  Lemma g_0r x : gin x -> gadd x g0 = x.
  Proof. intros H. rewrite g_comm; auto using g_in0. apply g_0l, H. Qed.
  Lemma g_negl x : gin x -> gadd (gneg x) x = g0.
  Proof. intros H. rewrite g_comm; auto using g_inneg. apply g_negr, H. Qed.
  Lemma g_cancel_l x y z : gin x -> gin y -> gin z -> gadd x y = gadd x z -> y = z.
  Proof.
    intros X Y Z E. rewrite <- (g_0l G y Y), <- (g_0l G z Z), <- (g_negl x X).
    rewrite !g_assoc, E; auto using g_inneg.
  Qed.
  Lemma g_neg_unique x y : gin x -> gin y -> gadd x y = g0 -> y = gneg x.
  Proof. intros X Y E. apply (g_cancel_l x); auto using g_inneg. rewrite E, g_negr; auto. Qed.
  Lemma g_neg0 : gneg g0 = @g0 G.
  Proof. symmetry. apply g_neg_unique; auto using g_in0. apply g_0l, g_in0. Qed.
  Lemma g_negneg x : gin x -> gneg (gneg x) = x.
  Proof. intros H. symmetry. apply g_neg_unique; auto using g_inneg, g_negl. Qed.
  Lemma g_swap4 x y z t : gin x -> gin y -> gin z -> gin t ->
    gadd (gadd x y) (gadd z t) = gadd (gadd x z) (gadd y t).
  Proof.
    intros X Y Z T. rewrite !g_assoc; auto using g_inadd. f_equal.
    rewrite <- !g_assoc; auto. f_equal. apply g_comm; auto.
  Qed.
  Lemma g_neg_add x y : gin x -> gin y -> gneg (gadd x y) = gadd (gneg x) (gneg y).
  Proof.
    intros X Y. symmetry. apply g_neg_unique; auto using g_inadd, g_inneg.
    rewrite g_swap4; auto using g_inneg. rewrite !g_negr; auto. apply g_0l, g_in0.
  Qed.
  Lemma gmuln_in n x : gin x -> gin (gmuln n x).
  Proof. intros H. induction n; cbn; auto using g_in0, g_inadd. Qed.
  Lemma gmul_in n x : gin x -> gin (gmul n x).
  Proof. apply gmuln_in. Qed.
  Lemma gmuln_add m n x : gin x -> gmuln (m + n) x = gadd (gmuln m x) (gmuln n x).
  Proof.
    intros H. induction m; cbn; [rewrite g_0l; auto using gmuln_in|].
    rewrite IHm, g_assoc; auto using gmuln_in.
  Qed.
  Lemma gmul_0 x : gmul 0 x = g0.
  Proof. reflexivity. Qed.
  Lemma gmul_1 x : gin x -> gmul 1 x = x.
  Proof. intros H. unfold gmul. change (N.to_nat 1) with 1%nat. cbn. apply g_0r, H. Qed.
  Lemma gmul_add m n x : gin x -> gmul (m + n) x = gadd (gmul m x) (gmul n x).
  Proof. intros H. unfold gmul. rewrite N2Nat.inj_add. apply gmuln_add, H. Qed.
  Lemma gmul_succ n x : gin x -> gmul (N.succ n) x = gadd x (gmul n x).
  Proof. intros H. unfold gmul. rewrite N2Nat.inj_succ. reflexivity. Qed.
  Lemma gmul_double n x : gin x -> gmul (2 * n) x = gadd (gmul n x) (gmul n x).
  Proof. intros H. rewrite <- gmul_add by exact H. f_equal. lia. Qed.
  Lemma gmul_zero n : gmul n (@g0 G) = g0.
  Proof.
    induction n using N.peano_ind; [reflexivity|]. rewrite gmul_succ, IHn by apply g_in0. apply g_0l, g_in0.
  Qed.
  Lemma gmul_gadd n x y : gin x -> gin y -> gmul n (gadd x y) = gadd (gmul n x) (gmul n y).
  Proof.
    intros X Y. induction n using N.peano_ind; [symmetry; apply g_0l, g_in0|].
    rewrite !gmul_succ, IHn by auto using g_inadd. apply g_swap4; auto using gmul_in.
  Qed.
  Lemma gmul_neg n x : gin x -> gmul n (gneg x) = gneg (gmul n x).
  Proof.
    intros X. apply g_neg_unique; auto using gmul_in, g_inneg.
    rewrite <- gmul_gadd, g_negr, gmul_zero; auto using g_inneg.
  Qed.
  Lemma gmul_mul m n x : gin x -> gmul (m * n) x = gmul m (gmul n x).
  Proof.
    intros H. induction m using N.peano_ind; [reflexivity|].
    rewrite N.mul_succ_l, N.add_comm, gmul_add, IHm, (gmul_succ m) by auto using gmul_in. reflexivity.
  Qed.
  Lemma gsum_in l : Forall gin l -> gin (gsum l : G).
  Proof. induction 1; cbn; auto using g_in0, g_inadd. Qed.
  Lemma gsum_app l1 l2 : Forall gin l1 -> Forall gin l2 -> gsum (l1 ++ l2) = gadd (gsum l1) (gsum l2 : G).
  Proof.
    intros H1 H2. induction H1 as [|x l X L IH]; [cbn [app]; symmetry; apply g_0l, gsum_in, H2|].
    change (gadd x (gsum (l ++ l2)) = gadd (gadd x (gsum l)) (gsum l2)).
    rewrite IH, g_assoc; auto using gsum_in.
  Qed.
End Facts.
