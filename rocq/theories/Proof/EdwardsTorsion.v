(** Points of odd order of a twisted Edwards curve. *)
From Coq Require Import ZArith NArith List Bool Lia Ring Field.
From Verif Require Import Base.Field Spec.Edwards Spec.Group Model.Edwards Proof.EdwardsGroup Proof.EdwardsOps.
Local Open Scope fld_scope.

(** the subgroup of the elements killed by n *)
Definition gtors (G : AbGroup) (n : N) : AbGroup.
Proof.
  refine (mkG G (fun x => gin x /\ gmul n x = g0) g0 gadd gneg _ _ _ _ _ _ _).
  - split; [apply g_in0|apply gmul_zero].
  - intros x y [X1 X2] [Y1 Y2]. split; [apply g_inadd; auto|]. rewrite gmul_gadd, X2, Y2 by auto. apply g_0l, g_in0.
  - intros x [X1 X2]. split; [apply g_inneg; auto|]. rewrite gmul_neg, X2 by auto. apply g_neg0.
  - intros x y z [X _] [Y _] [Z _]. apply g_assoc; auto.
  - intros x y [X _] [Y _]. apply g_comm; auto.
  - intros x [X _]. apply g_0l; auto.
  - intros x [X _]. apply g_negr; auto.
Defined.
Lemma gtors_gmul G n k (x : gtors G n) : gmul (G := gtors G n) k x = gmul (G := G) k x.
Proof. unfold gmul. induction (N.to_nat k) as [|m IH]; [reflexivity|]. cbn [gmuln]. rewrite IH. reflexivity. Qed.
(** an element killed by 4 and by an odd number is the identity *)
Lemma odd_four (G : AbGroup) (x : G) n : gin x -> N.odd n = true -> gmul n x = g0 -> gmul 4 x = g0 -> x = g0.
Proof.
  intros X O Hn H4. apply N.odd_spec in O. destruct O as [m ->].
  (* (2m+1)^2 = 4 (m^2 + m) + 1 *)
  assert (E : gmul ((2 * m + 1) * (2 * m + 1))%N x = gadd (gmul (4 * (m * m + m))%N x) x).
  { rewrite <- (gmul_1 G x X) at 3. rewrite <- gmul_add by exact X. f_equal. lia. }
  rewrite gmul_mul, Hn, gmul_zero in E by exact X.
  rewrite N.mul_comm, gmul_mul, H4, gmul_zero, g_0l in E by exact X. auto.
Qed.

Section TE.
  Variable K : FieldOps.
  Hypothesis KL : FieldLaws K.
  Let R := FieldLaws_Ring K KL.
  Add Field Ket : (FL_th K KL).
  Hypothesis two : (2 : K) <> 0.
  Variables a d : K.
  Hypothesis cmp : complete K a d.
  Local Notation on := (on_te K a d).
  Local Notation G := (te_group K KL two a d cmp).
  Lemma te_dbl_x0 (y : K) : on (0, y) -> te_add K a d (0, y) (0, y) = te_zero.
  Proof.
    cbn. intros H. assert (Y : y * y = 1) by (transitivity (a * (0 * 0) + y * y); [ring|rewrite H; ring]).
    unfold te_zero, fdiv. f_equal.
    - transitivity (0 * finv (1 + d * 0 * 0 * y * y)); [f_equal; ring|ring].
    - transitivity (1 * finv (1 : K)); [f_equal; [rewrite Y; ring|f_equal; ring]|field; apply (f1_neq_0 K KL)].
  Qed.
  Lemma te_dbl_y0 (x : K) : on (x, 0) -> te_add K a d (x, 0) (x, 0) = (0, - (1)).
  Proof.
    cbn. intros H. assert (Y : a * (x * x) = 1) by (transitivity (a * (x * x) + 0 * 0); [ring|rewrite H; ring]).
    unfold fdiv. f_equal.
    - transitivity (0 * finv (1 + d * x * x * 0 * 0)); [f_equal; ring|ring].
    - transitivity (- (a * (x * x)) * finv (1 : K)); [f_equal; [ring|f_equal; ring]|rewrite Y; field; apply (f1_neq_0 K KL)].
  Qed.
  Lemma te_gmul4 P : on P -> gmul (G := G) 4 P = te_add K a d (te_add K a d P P) (te_add K a d P P).
  Proof.
    intros O. change 4%N with (2 * (2 * 1))%N. rewrite !(gmul_double G), (gmul_1 G) by exact O. reflexivity.
  Qed.
  Lemma te_four P : on P -> fst P = 0 \/ snd P = 0 -> gmul (G := G) 4 P = te_zero.
  Proof.
    intros O H. rewrite te_gmul4 by exact O. destruct P as [x y]. cbn [fst snd] in H. destruct H as [-> | ->].
    - rewrite te_dbl_x0 by exact O. apply (te_add_0l K KL).
    - assert (O2 := te_closed K KL two a d cmp _ _ O O). rewrite te_dbl_y0 in * by exact O. apply te_dbl_x0, O2.
  Qed.
  Lemma odd_regular n P : N.odd n = true -> on P -> gmul (G := G) n P = te_zero -> regular P.
  Proof.
    intros Hn O E. destruct (feq_dec K R (fst P) 0) as [H|H]; [|destruct (feq_dec K R (snd P) 0) as [H'|H']].
    - left. apply (odd_four G P n); auto. apply te_four; auto.
    - left. apply (odd_four G P n); auto. apply te_four; auto.
    - right. auto.
  Qed.
  (** P - Q has non-zero coordinates for distinct points of odd order *)
  Lemma odd_distinct n P Q : N.odd n = true -> gin (a := gtors G n) P -> gin (a := gtors G n) Q -> P <> Q ->
    fst P * snd Q - snd P * fst Q <> 0 /\ snd P * snd Q + a * (fst P * fst Q) <> 0.
  Proof.
    intros Hn HP HQ N. set (G' := gtors G n) in *.
    assert (HD : @gin G' (@gadd G' P (@gneg G' Q))) by (apply g_inadd; [exact HP|apply g_inneg; exact HQ]).
    assert (ND : @gadd G' P (@gneg G' Q) <> @g0 G').
    { intros E. apply N. rewrite <- (g_0r G' P HP). rewrite <- (g_negl G' Q HQ), <- (g_assoc G') by (auto; apply g_inneg; auto).
      rewrite E. apply (g_0l G'), HQ. }
    destruct (odd_regular n _ Hn (proj1 HD) (proj2 HD)) as [E|[E1 E2]]; [contradiction|].
    split; intros E; [apply E1, te_sub_fst; auto|apply E2, te_sub_snd; auto].
  Qed.
End TE.
