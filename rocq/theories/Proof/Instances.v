(** Point classes as [class_ops], and what group they implement. *)
From Coq Require Import NArith ZArith List Bool Lia Znumtheory.
From Verif Require Import Base.Field Spec.Group Spec.GroupClass Spec.Weierstrass Spec.Edwards
  Model.ShortWeierstrass Model.Edwards Proof.WeierstrassRep Proof.EdwardsGroup Proof.EdwardsOps
  Properties.Weierstrass Properties.Edwards.

(** the elements killed by r *)
Section Torsion.
  Variable G : AbGroup.
  Variable r : N.
  Definition torsion_group : AbGroup.
  Proof.
    refine (mkG G (fun x => gin x /\ gmul r x = g0) g0 gadd gneg _ _ _ _ _ _ _).
    - split; [apply g_in0|apply gmul_zero].
    - intros x y [X RX] [Y RY]. split; [apply g_inadd; auto|]. rewrite gmul_gadd, RX, RY by auto. apply g_0l, g_in0.
    - intros x [X RX]. split; [apply g_inneg; auto|]. rewrite gmul_neg, RX by auto. apply g_neg0.
    - intros x y z [X _] [Y _] [Z _]. apply g_assoc; auto.
    - intros x y [X _] [Y _]. apply g_comm; auto.
    - intros x [X _]. apply g_0l, X.
    - intros x [X _]. apply g_negr, X.
  Defined.
  Lemma torsion_gmul n (x : G) : gmul (G := torsion_group) n x = gmul n x.
  Proof. unfold gmul. induction (N.to_nat n); cbn; [reflexivity|]. rewrite IHn0. reflexivity. Qed.
  (** prime order: no smaller multiple vanishes *)
  Lemma prime_order (x : G) j : prime (Z.of_N r) -> gin x -> gmul r x = g0 -> (0 < j < r)%N -> gmul j x = g0 -> x = g0.
  Proof.
    intros PR X RX J JX. assert (E : N.gcd j r = 1%N).
    { destruct (N.gcd_divide_r j r) as [c C]. destruct (N.gcd_divide_l j r) as [c' C']. set (g := N.gcd j r) in *.
      destruct (prime_divisors _ PR (Z.of_N g)) as [D|[D|[D|D]]]; try lia; [exists (Z.of_N c); lia|].
      assert (GE : g = r) by lia. rewrite GE in C'. destruct c'; [lia|nia]. }
    destruct (N.gcd_bezout_pos j r ltac:(lia)) as (a & b & AB). rewrite E in AB.
    rewrite <- (gmul_1 G x X), <- (g_0r G (gmul 1 x)) by auto using gmul_in.
    rewrite <- (gmul_zero G b) at 1. rewrite <- RX at 1. rewrite <- (gmul_mul G b r x X), <- (gmul_add G 1 (b * r) x X), <- AB.
    rewrite gmul_mul, JX by auto. apply gmul_zero.
  Qed.
End Torsion.

Section Weierstrass.
  Variable K : FieldOps.
  Hypothesis KL : FieldLaws K.
  Hypothesis two : (2 : K)%fld <> 0%fld.
  Variables a b : K.
  Hypothesis ns : nonsingular K a b.
  Variables zx zy : K.
  Let G := sw_group K KL two a b ns.

  (** projective class: every point, every scalar *)
  Definition proj_ops : class_ops (triple K) :=
    mkOps (triple K) (trip_zero K zx zy) (trip_zero K zx zy) (proj_add K a) (proj_add_assign K a) (proj_sub K a)
      (proj_dbl K a) (fun n t => proj_mul K a zx zy t n).
  Definition proj_rep (t : triple K) (P : G) : Prop := on_curve K a b P /\ is_projective t P.
  Lemma proj_implements : zx = 0%fld -> implements G proj_ops proj_rep (fun _ => True).
  Proof.
    intros Z. assert (Z0 : proj_rep (trip_zero K zx zy) Inf) by (split; [exact I|split; [exact Z|reflexivity]]).
    constructor; cbn [c_zero c_dflt c_add c_add_assign c_sub c_dbl c_smul proj_ops]; auto.
    - intros t x H. apply H.
    - intros s t x y [X S] [Y T]. split; [apply (g_inadd G); auto|]. apply (C18_projective K KL two a b x y s t); auto.
    - intros s t x y [X S] [Y T]. split; [apply (g_inadd G); auto|]. apply (C18_projective K KL two a b x y s t); auto.
    - intros s t x y [X S] [Y T]. split; [apply (g_inadd G); auto; apply (g_inneg G); auto|]. apply (C18_projective K KL two a b x y s t); auto.
    - intros s x [X S]. split; [apply (g_inadd G); auto|]. apply (C18_projective K KL two a b x x s s); auto.
    - intros s x n _ [X S]. split; [apply (gmul_in G n x X)|]. unfold G. rewrite (sw_gmul K KL two a b ns).
      apply (C26_projective K KL two a b zx zy ns x s n); auto.
  Qed.

  (** a Jacobian class on the subgroup of prime order r, scalars up to r *)
  Variable dbl : triple K -> triple K.
  Hypothesis D : jac_family_ok K a b dbl.
  Hypothesis M : jac_mul_ok K a b zx zy dbl.
  Variable r : N.
  Hypothesis PR : prime (Z.of_N r).
  Definition jac_ops : class_ops (triple K) :=
    mkOps (triple K) (trip_zero K zx zy) (trip_zero K zx zy) (jac_add K dbl) (jac_add_assign K dbl) (jac_sub K dbl)
      (jac_double K dbl) (fun n t => jac_mul K zx zy dbl t n).
  Definition jac_rep (t : triple K) (P : torsion_group G r) : Prop := gin P /\ is_jacobian t P.
  Lemma jac_implements : implements (torsion_group G r) jac_ops jac_rep (fun n => (n <= r)%N).
  Proof.
    set (H := torsion_group G r). assert (Z0 : jac_rep (trip_zero K zx zy) Inf) by (split; [apply (g_in0 H)|reflexivity]).
    constructor; cbn [c_zero c_dflt c_add c_add_assign c_sub c_dbl c_smul jac_ops]; auto.
    - intros t x E. apply E.
    - intros s t x y [X S] [Y T]. split; [apply (g_inadd H); auto|]. apply (D x y s t); auto; [apply X|apply Y].
    - intros s t x y [X S] [Y T]. split; [apply (g_inadd H); auto|]. apply (D x y s t); auto; [apply X|apply Y].
    - intros s t x y [X S] [Y T]. split; [apply (g_inadd H); auto; apply (g_inneg H); auto|]. apply (D x y s t); auto; [apply X|apply Y].
    - intros s x [X S]. split; [apply (g_inadd H); auto|]. apply (D x x s s); auto; apply X.
    - intros s x n N [X S]. split; [apply (gmul_in H n x X)|]. unfold H. rewrite torsion_gmul. unfold G. rewrite (sw_gmul K KL two a b ns).
      apply (M x s n); auto; [apply X|]. intros Z1 j J1 J2 E. destruct X as [X RX].
      rewrite <- (sw_gmul K KL two a b ns) in E. apply (prime_order G r x j PR X RX) in E; [|lia].
      change (x = Inf) in E. subst x. change (tZ s = 0%fld) in S. apply (f1_neq_0 K KL). rewrite <- Z1, <- S. reflexivity.
    - intros m n A B. lia.
  Qed.
End Weierstrass.

Section Edwards.
  Variable K : FieldOps.
  Hypothesis KL : FieldLaws K.
  Hypothesis two : (2 : K)%fld <> 0%fld.
  Variables a d : K.
  Hypothesis cmp : complete K a d.
  Variables zx zy : K.
  Hypothesis zfill : zx = 0%fld /\ (zy = 0%fld \/ zy = 1%fld).
  Let G := te_group K KL two a d cmp.
  (** affine class: every point, every scalar *)
  Definition tea_ops : class_ops (te_affine K) :=
    mkOps (te_affine K) (tea_zero K zx zy) (tea_zero K zx zy) (tea_add K a d zx zy) (tea_add_assign K a d zx zy) (tea_sub K a d zx zy)
      (tea_double K a d zx zy) (fun n t => tea_mul K a d zx zy t n).
  Definition tea_rep (t : te_affine K) (P : G) : Prop := on_te K a d P /\ is_te_affine zx zy t P.
  Lemma tea_implements : implements G tea_ops tea_rep (fun _ => True).
  Proof.
    assert (Z0 : tea_rep (tea_zero K zx zy) te_zero) by (split; [apply (g_in0 G)|apply tea_zero_ok]).
    constructor; cbn [c_zero c_dflt c_add c_add_assign c_sub c_dbl c_smul tea_ops]; auto.
    - intros t x H. apply H.
    - intros s t x y [X S] [Y T]. split; [apply (g_inadd G); auto|]. apply (C23_add K KL a d zx zy zfill x y s t); auto.
    - intros s t x y [X S] [Y T]. split; [apply (g_inadd G); auto|]. apply (C23_add K KL a d zx zy zfill x y s t); auto.
    - intros s t x y [X S] [Y T]. split; [apply (g_inadd G); auto; apply (g_inneg G); auto|]. apply (C23_sub K KL two a d cmp zx zy zfill x y s t); auto.
    - intros s x [X S]. split; [apply (g_inadd G); auto|]. apply (C23_double K KL a d zx zy zfill x s); auto.
    - intros s x n _ [X S]. split; [apply (gmul_in G n x X)|]. unfold G. rewrite (te_gmul K KL two a d cmp).
      apply (C26_te_affine K KL two a d cmp zx zy zfill x s n); auto.
  Qed.
End Edwards.
