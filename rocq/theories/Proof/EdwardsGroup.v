(** Completeness and the group law of twisted Edwards curves. *)
From Coq Require Import ZArith NArith List Bool Lia Ring Field.
From Verif Require Import Base.Field Spec.Edwards Spec.Group.
Local Open Scope fld_scope.

Section TE.
  Variable K : FieldOps.
  Hypothesis KL : FieldLaws K.
  Let R := FieldLaws_Ring K KL.
  Add Field Kte : (FL_th K KL).
  Hypothesis two : (2 : K) <> 0.
  Variables a d : K.
  Hypothesis cmp : complete K a d.
  Local Notation on := (on_te K a d).

  Lemma te_a0 : a <> 0.
  Proof. destruct cmp as [(s & N & <-) _]. apply (fmul_neq_0 K KL); assumption. Qed.
  Lemma te_d0 : d <> 0.
  Proof. destruct cmp as [_ H]. intros E. apply (H 0). rewrite E. ring. Qed.
  (** d u^2 = v^2 only if u = 0 *)
  Lemma nonsq u v : d * (u * u) = v * v -> u = 0.
  Proof.
    intros E. destruct (feq_dec K R u 0) as [->|N]; [reflexivity|]. exfalso.
    destruct cmp as [_ H]. apply (H (fdiv v u)). unfold fdiv.
    transitivity (v * v * finv (u * u)); [field; exact N|]. rewrite <- E. field. exact N.
  Qed.
  Lemma te_den (e x1 y1 x2 y2 : K) : e * e = 1 -> on (x1, y1) -> on (x2, y2) ->
    d * x1 * x2 * y1 * y2 <> e.
  Proof.
    destruct cmp as [(s & Ns & Hs) _]. cbn. intros He H1 H2 E.
    assert (Ne : e <> 0) by (intros ->; apply (f1_neq_0 K KL); rewrite <- He; ring).
    assert (Nx2 : x2 <> 0) by (intros ->; apply Ne; rewrite <- E; ring).
    assert (Nxy : x1 * y1 <> 0).
    { intros Z. apply Ne. rewrite <- E. transitivity (d * x2 * y2 * (x1 * y1)); [ring|rewrite Z; ring]. }
    assert (S1 : a * (x1 * x1) + y1 * y1 = d * (x1 * y1 * (x1 * y1)) * (a * (x2 * x2) + y2 * y2)).
    { rewrite H1, H2. transitivity (e * e + d * (x1 * y1 * (x1 * y1))); [rewrite He; ring|].
      rewrite <- E. ring. }
    assert (G : forall t : K, t * t = 1 -> s * x2 + t * y2 = 0).
    { intros t Ht.
      assert (Sq : d * ((x1 * y1 * (s * x2 + t * y2)) * (x1 * y1 * (s * x2 + t * y2)))
                   = (s * x1 + t * e * y1) * (s * x1 + t * e * y1)).
      { transitivity (d * (x1 * y1 * (x1 * y1)) * (s * s * (x2 * x2) + t * t * (y2 * y2))
                      + 2 * s * t * x1 * y1 * (d * x1 * x2 * y1 * y2)); [ring|].
        rewrite Hs, Ht, E.
        transitivity (d * (x1 * y1 * (x1 * y1)) * (a * (x2 * x2) + y2 * y2) + 2 * s * t * x1 * y1 * e); [ring|].
        rewrite <- S1.
        transitivity (s * s * (x1 * x1) + (t * t) * (e * e) * (y1 * y1) + 2 * s * t * x1 * y1 * e); [|ring].
        rewrite Hs, Ht, He. ring. }
      apply nonsq in Sq. apply (fmul_integral K KL) in Sq. destruct Sq; [contradiction|assumption]. }
    assert (A := G 1 ltac:(ring)). assert (B := G (- (1)) ltac:(ring)).
    assert (Z : 2 * (s * x2) = 0) by (transitivity ((s * x2 + 1 * y2) + (s * x2 + - (1) * y2)); [ring|rewrite A, B; ring]).
    revert Z. repeat apply (fmul_neq_0 K KL); assumption.
  Qed.
  Lemma te_den_p x1 y1 x2 y2 : on (x1, y1) -> on (x2, y2) -> 1 + d * x1 * x2 * y1 * y2 <> 0.
  Proof.
    intros H1 H2 E. apply (te_den (- (1)) x1 y1 x2 y2); auto; [ring|].
    transitivity (1 + d * x1 * x2 * y1 * y2 - 1); [ring|rewrite E; ring].
  Qed.
  Lemma te_den_m x1 y1 x2 y2 : on (x1, y1) -> on (x2, y2) -> 1 - d * x1 * x2 * y1 * y2 <> 0.
  Proof.
    intros H1 H2 E. apply (te_den 1 x1 y1 x2 y2); auto; [ring|].
    transitivity (1 - (1 - d * x1 * x2 * y1 * y2)); [ring|rewrite E; ring].
  Qed.
  (** the curve equation as a rewriting rule, g = 1/d *)
  Lemma te_rule g x y : d * g = 1 -> on (x, y) -> x * x * (y * y) = g * (a * (x * x) + y * y - 1).
  Proof.
    cbn. intros G H. rewrite H. transitivity ((d * g) * (x * x) * (y * y)); [rewrite G; ring|ring].
  Qed.
  Lemma te_setup : exists g, d * g = 1 /\ g <> 0 /\ d = fdiv 1 g.
  Proof.
    exists (finv d). assert (Hg : d * finv d = 1) by (apply (finv_r K KL), te_d0).
    assert (Ng : finv d <> 0) by (intros E; apply (f1_neq_0 K KL); rewrite <- Hg, E; ring).
    repeat split; auto. unfold fdiv. set (h := finv d) in *. clearbody h.
    transitivity (d * h * finv h); [field; exact Ng|]. rewrite Hg. reflexivity.
  Qed.
  Lemma den_g (g u w : K) : g <> 0 -> u <> 0 -> u = finv g * w -> w <> 0.
  Proof. intros Ng Nu E W. apply Nu. rewrite E, W. ring. Qed.
  Lemma den_g2 {u v1 v2 : K} w : u <> 0 -> v1 <> 0 -> v2 <> 0 -> u * (v1 * v2) = w -> w <> 0.
  Proof. intros Nu N1 N2 <-. repeat apply (fmul_neq_0 K KL); auto. Qed.
  Lemma te_closed P Q : on P -> on Q -> on (te_add K a d P Q).
  Proof.
    destruct P as [x1 y1], Q as [x2 y2]. intros H1 H2.
    assert (NP := te_den_p _ _ _ _ H1 H2). assert (NM := te_den_m _ _ _ _ H1 H2).
    destruct te_setup as (g & Hg & Ng & Ed).
    assert (R1 := te_rule g x1 y1 Hg H1). assert (R2 := te_rule g x2 y2 Hg H2).
    unfold te_add. cbn [on_te].
    unfold fdiv in *. rewrite Ed in NP, NM |- *. clear Ed Hg H1 H2.
    field [R1 R2]. split; [exact Ng|].
    split; [eapply (den_g g _ _ Ng NM)|eapply (den_g g _ _ Ng NP)]; field; exact Ng.
  Qed.
  Lemma te_add_comm P Q : te_add K a d P Q = te_add K a d Q P.
  Proof.
    destruct P as [x1 y1], Q as [x2 y2]. unfold te_add.
    replace (d * x2 * x1 * y2 * y1) with (d * x1 * x2 * y1 * y2) by ring.
    replace (x2 * y1 + y2 * x1) with (x1 * y2 + y1 * x2) by ring.
    replace (y2 * y1 - a * x2 * x1) with (y1 * y2 - a * x1 * x2) by ring. reflexivity.
  Qed.
  Lemma te_add_0l P : te_add K a d te_zero P = P.
  Proof.
    destruct P as [x y]. unfold te_add, te_zero, fdiv. f_equal.
    - replace (1 + d * 0 * x * 1 * y) with (1 : K) by ring. field. apply (f1_neq_0 K KL).
    - replace (1 - d * 0 * x * 1 * y) with (1 : K) by ring. field. apply (f1_neq_0 K KL).
  Qed.
  Lemma te_add_neg P : on P -> te_add K a d P (te_neg P) = te_zero.
  Proof.
    destruct P as [x y]. intros H.
    assert (H' : on (- x, y)) by (cbn in *; transitivity (a * (x * x) + y * y); [ring|rewrite H; ring]).
    assert (NP := te_den_p _ _ _ _ H H'). assert (NM := te_den_m _ _ _ _ H H').
    unfold te_neg, te_add, te_zero, fdiv. f_equal; [field; exact NP|].
    cbn in H. transitivity ((1 - d * x * (- x) * y * y) * finv (1 - d * x * (- x) * y * y)); [|field; exact NM].
    f_equal. transitivity (a * (x * x) + y * y); [ring|rewrite H; ring].
  Qed.
  Lemma te_zero_on : on te_zero.
  Proof. cbn. ring. Qed.
  Lemma te_neg_on P : on P -> on (te_neg P).
  Proof. destruct P as [x y]. cbn. intros H. transitivity (a * (x * x) + y * y); [ring|rewrite H; ring]. Qed.
  Lemma te_assoc P Q S : on P -> on Q -> on S ->
    te_add K a d P (te_add K a d Q S) = te_add K a d (te_add K a d P Q) S.
  Proof.
    intros HP HQ HS. assert (HPQ := te_closed _ _ HP HQ). assert (HQS := te_closed _ _ HQ HS).
    destruct P as [x1 y1], Q as [x2 y2], S as [x3 y3].
    assert (NP12 := te_den_p _ _ _ _ HP HQ). assert (NM12 := te_den_m _ _ _ _ HP HQ).
    assert (NP23 := te_den_p _ _ _ _ HQ HS). assert (NM23 := te_den_m _ _ _ _ HQ HS).
    assert (NP1 := te_den_p _ _ _ _ HP HQS). assert (NM1 := te_den_m _ _ _ _ HP HQS).
    assert (NP3 := te_den_p _ _ _ _ HPQ HS). assert (NM3 := te_den_m _ _ _ _ HPQ HS).
    destruct te_setup as (g & Hg & Ng & Ed).
    assert (R1 := te_rule g x1 y1 Hg HP). assert (R2 := te_rule g x2 y2 Hg HQ).
    assert (R3 := te_rule g x3 y3 Hg HS).
    unfold te_add. unfold fdiv in *. rewrite Ed in * |-. rewrite Ed. clear Ed Hg HP HQ HS HPQ HQS.
    assert (A12 := den_g _ _ (g + x1 * x2 * y1 * y2) Ng NP12 ltac:(field; exact Ng)).
    assert (B12 := den_g _ _ (g - x1 * x2 * y1 * y2) Ng NM12 ltac:(field; exact Ng)).
    assert (A23 := den_g _ _ (g + x2 * x3 * y2 * y3) Ng NP23 ltac:(field; exact Ng)).
    assert (B23 := den_g _ _ (g - x2 * x3 * y2 * y3) Ng NM23 ltac:(field; exact Ng)).
    f_equal.
    - field [R1 R2 R3]. repeat split; auto;
        [apply (den_g2 _ NP3 A12 B12)|apply (den_g2 _ NP1 A23 B23)]; field; auto.
    - field [R1 R2 R3]. repeat split; auto;
        [apply (den_g2 _ NM3 A12 B12)|apply (den_g2 _ NM1 A23 B23)]; field; auto.
  Qed.
  Definition te_group : AbGroup.
  Proof.
    refine (mkG (K * K) on te_zero (te_add K a d) te_neg _ _ _ _ _ _ _).
    - apply te_zero_on.
    - apply te_closed.
    - apply te_neg_on.
    - intros. symmetry. apply te_assoc; assumption.
    - intros. apply te_add_comm.
    - intros. apply te_add_0l.
    - apply te_add_neg.
  Defined.
  Lemma te_gmul n (P : K * K) : gmul (G := te_group) n P = te_mul K a d (N.to_nat n) P.
  Proof. unfold gmul. induction (N.to_nat n) as [|m IH]; [reflexivity|]. cbn [gmuln te_mul]. rewrite IH. reflexivity. Qed.
End TE.
