(** to_montgomery and to_twisted_edwards. *)
From Coq Require Import ZArith NArith List Bool Lia Ring Field.
From Verif Require Import Base.Field Spec.Weierstrass Spec.Edwards Spec.Montgomery Spec.Group Model.Edwards Model.Montgomery
  Proof.EdwardsGroup Proof.EdwardsOps Proof.MontgomeryGroup.
Local Open Scope fld_scope.

Section Conv.
  Variable K : FieldOps.
  Hypothesis KL : FieldLaws K.
  Let R := FieldLaws_Ring K KL.
  Add Field Kcv : (FL_th K KL).
  Hypothesis two : (2 : K) <> 0.
  Variables a d A B : K.
  Hypothesis cmp : complete K a d.
  Hypothesis HA : A * (a - d) = 2 * (a + d).
  Hypothesis NB : B <> 0.
  Variable s : K.
  (** s^2 = B'/B with B' = 4/(a - d) *)
  Hypothesis Hs : s * s * B * (a - d) = 2 * 2.
  Local Notation onE := (on_te K a d).
  Local Notation onM := (on_mont K A B).

  Lemma ad_neq : a - d <> 0.
  Proof.
    intros E. destruct cmp as [(r & Nr & Hr) H]. apply (H r). rewrite Hr. apply (fsub_0_eq K R). exact E.
  Qed.
  Lemma s_neq : s <> 0.
  Proof.
    intros E. apply (fmul_neq_0 K KL 2 2 two two). rewrite <- Hs, E. ring.
  Qed.
  (** only the identity has y = 1 *)
  Lemma y1_zero x : onE (x, 1) -> x = 0.
  Proof.
    cbn. intros H. apply (fsqr_0_inv K KL). apply (fmul_cancel_l K KL (a - d) (x * x) 0 ad_neq).
    transitivity (a * (x * x) + 1 * 1 - (1 + d * (x * x) * (1 * 1))); [ring|]. rewrite H. ring.
  Qed.
  Lemma y_neq_1 x y : onE (x, y) -> (x, y) <> te_zero -> 1 - y <> 0.
  Proof.
    intros O N E. apply (fsub_0_eq K R) in E. subst y. apply N. rewrite (y1_zero x O). reflexivity.
  Qed.
  Lemma x0_ym1 y : onE (0, y) -> (0, y) <> te_zero -> y = - (1).
  Proof.
    intros O N. assert (Ny := y_neq_1 _ _ O N). cbn in O.
    assert (E : y * y = 1 * 1) by (transitivity (a * (0 * 0) + y * y); [ring|rewrite O; ring]).
    apply (fsqr_eq K KL) in E. destruct E as [->|E]; [exfalso; apply Ny; ring|]. rewrite E. ring.
  Qed.
  (** the two maps on non-exceptional points *)
  Lemma to_mont_on x y : onE (x, y) -> x <> 0 -> 1 - y <> 0 ->
    onM (Aff ((1 + y) * finv (1 - y)) (s * ((1 + y) * finv (x * (1 - y))))).
  Proof.
    intros O Nx Ny. assert (Nad := ad_neq). cbn in *.
    apply (fmul_cancel_l K KL ((a - d) * (x * x) * ((1 - y) * (1 - y) * (1 - y)))); [repeat apply (fmul_neq_0 K KL); auto|].
    transitivity (s * s * B * (a - d) * ((1 + y) * (1 + y)) * (1 - y)); [field; auto|]. rewrite Hs.
    transitivity ((x * x) * (1 + y) * ((a - d) * ((1 + y) * (1 + y) + (1 - y) * (1 - y)) + A * (a - d) * (1 + y) * (1 - y)));
      [|field; auto].
    rewrite HA.
    (* 4 (1-y^2) = 4 x^2 (a - d y^2) *)
    assert (E : 1 - y * y = x * x * (a - d * (y * y))).
    { transitivity (1 + d * (x * x) * (y * y) - y * y - d * (x * x) * (y * y)); [ring|]. rewrite <- O. ring. }
    transitivity (2 * 2 * (1 + y) * (1 - y * y)); [ring|]. rewrite E. ring.
  Qed.
  Lemma mont_um1 u v : onM (Aff u v) -> u + 1 <> 0.
  Proof.
    cbn. intros O E. assert (Eu : u = - (1)) by (transitivity (u + 1 - 1); [ring|rewrite E; ring]). subst u.
    assert (E1 : B * (v * v) = A - 2) by (rewrite O; ring).
    assert (E2 : d * (s * s) = v * v).
    { apply (fmul_cancel_l K KL (2 * 2)); [apply (fmul_neq_0 K KL); auto|].
      transitivity (s * s * (2 * (a + d) - 2 * (a - d))); [ring|]. rewrite <- HA.
      transitivity (s * s * (a - d) * (A - 2)); [ring|]. rewrite <- E1.
      transitivity (s * s * B * (a - d) * (v * v)); [ring|]. rewrite Hs. ring. }
    apply (nonsq K KL a d cmp) in E2. apply s_neq. exact E2.
  Qed.
  Lemma mont_v0 u : onM (Aff u 0) -> u = 0.
  Proof.
    cbn. intros O. destruct (feq_dec K R u 0) as [|Nu]; [assumption|exfalso].
    assert (E : u * u + A * u + 1 = 0).
    { apply (fmul_cancel_l K KL u); auto. transitivity (u * u * u + A * (u * u) + u); [ring|]. rewrite <- O. ring. }
    destruct cmp as [(q & Nq & Hq) _].
    assert (E2 : d * (2 * 2 * q * (2 * 2 * q)) = (2 * u + A) * (a - d) * ((2 * u + A) * (a - d))).
    { transitivity (2 * 2 * (2 * 2) * (q * q) * d); [ring|]. rewrite Hq.
      transitivity ((2 * 2 * (u * u + A * u + 1) + A * A - 2 * 2) * ((a - d) * (a - d))); [|ring]. rewrite E.
      transitivity (A * (a - d) * (A * (a - d)) - 2 * 2 * ((a - d) * (a - d))); [|ring]. rewrite HA. ring. }
    apply (nonsq K KL a d cmp) in E2. revert E2. repeat apply (fmul_neq_0 K KL); auto.
  Qed.
  Lemma to_te_on u v : onM (Aff u v) -> v <> 0 ->
    onE (s * u * finv v, (u - 1) * finv (u + 1)).
  Proof.
    intros O Nv. assert (Nu := mont_um1 u v O). assert (Ns := s_neq). assert (Nad := ad_neq). cbn in *.
    (* multiply by B (a-d) v^2 (u+1)^2 *)
    apply (fmul_cancel_l K KL (B * (a - d) * (v * v) * ((u + 1) * (u + 1)))); [repeat apply (fmul_neq_0 K KL); auto|].
    transitivity (a * (s * s * B * (a - d)) * (u * u) * ((u + 1) * (u + 1)) + (a - d) * (B * (v * v)) * ((u - 1) * (u - 1))); [field; auto|].
    transitivity ((a - d) * (B * (v * v)) * ((u + 1) * (u + 1)) + d * (s * s * B * (a - d)) * (u * u) * ((u - 1) * (u - 1))); [|field; auto].
    rewrite Hs, O.
    assert (E : (a - d) * (u * u * u + A * (u * u) + u) = (a - d) * (u * u * u + u) + 2 * (a + d) * (u * u)) by (rewrite <- HA; ring).
    rewrite E. ring.
  Qed.
  Lemma onE_m1 : onE (0, - (1)).
  Proof. cbn. ring. Qed.

  Variables zx zy jx jy : K.
  Hypothesis zfill : zx = 0 /\ (zy = 0 \/ zy = 1).
  Variable sqrt : K -> K.
  Hypothesis Es : conv_s_inv K B a d sqrt = s.
  Local Notation toM := (to_montgomery K B jx jy a d zx zy sqrt).
  Local Notation toE := (to_twisted_edwards K B a d zx zy sqrt).
  Local Notation is_tea := (is_tea K zx zy).
  Local Notation is_mont := (is_mont K).

  Lemma toE_inf t : is_mont t Inf -> is_tea (toE t) te_zero.
  Proof. intros H. unfold to_twisted_edwards, mont_is_zero. cbn in H. rewrite H. right. auto. Qed.
  Lemma to_mont_ok t P : is_tea t P -> onE P ->
    exists Q, onM Q /\ is_mont (toM t) Q /\ (Q = Inf <-> P = te_zero) /\ is_tea (toE (toM t)) P.
  Proof.
    intros H O. assert (Ns := s_neq). unfold to_montgomery at 1 2. rewrite Es. destruct (tea_is_zero K zx zy t) eqn:Z.
    - apply (tea_is_zero_ok K KL a d zx zy zfill t P H O) in Z. subst P. exists Inf. split; [exact I|]. split; [reflexivity|].
      split; [tauto|]. apply toE_inf. reflexivity.
    - destruct (tea_not_zero K KL a d zx zy zfill t P H O Z) as [-> N]. destruct P as [x y]. cbn [eX eY fst snd].
      assert (Ny := y_neq_1 x y O N).
      exists (Aff ((1 + y) * finv (1 - y)) (s * ((1 + y) * finv (x * (1 - y))))).
      destruct (feq_dec K R x 0) as [->|Nx].
      + assert (Ey := x0_ym1 y O N). subst y. split.
        { cbn. ring. }
        split; [cbn; auto|]. split; [split; intros E; [discriminate E|contradiction]|].
        left. unfold to_twisted_edwards, mont_is_zero. cbn [mInf mX mY mont_of eX eY fst snd]. rewrite Es.
        replace ((1 + - (1)) * finv (1 - - (1))) with (0 : K) by ring.
        split; [ring|]. replace (0 + 1 : K) with (1 : K) by ring. field. apply (f1_neq_0 K KL).
      + split; [apply to_mont_on; auto|]. split; [cbn; auto|]. split; [split; intros E; [discriminate E|contradiction]|].
        left. unfold to_twisted_edwards, mont_is_zero. cbn [mInf mX mY mont_of eX eY fst snd]. rewrite Es.
        assert (Ny' : 1 + y <> 0).
        { intros E. apply Nx. assert (Ey : y = - (1)) by (transitivity (1 + y - 1); [ring|rewrite E; ring]). subst y. cbn in O.
          apply y1_zero. cbn. transitivity (a * (x * x) + - (1) * - (1)); [ring|rewrite O; ring]. }
        assert (N2 : 1 + y + (1 - y) <> 0) by (replace (1 + y + (1 - y)) with (2 : K) by ring; auto).
        split; field; repeat split; auto.
  Qed.
  Lemma to_te_ok t Q : is_mont t Q -> onM Q ->
    exists P, onE P /\ is_tea (toE t) P /\ (P = te_zero <-> Q = Inf) /\ is_mont (toM (toE t)) Q.
  Proof.
    intros H O. assert (Ns := s_neq). destruct Q as [|u v].
    - exists te_zero. split; [apply (te_zero_on K KL)|]. assert (HT := toE_inf t H). split; [exact HT|]. split; [tauto|].
      unfold to_montgomery. rewrite (proj2 (tea_is_zero_ok K KL a d zx zy zfill _ _ HT (te_zero_on K KL a d)) eq_refl). reflexivity.
    - destruct t as [i X Y]. destruct H as (E1 & E2 & E3). cbn in E1, E2, E3. subst i X Y.
      assert (Nu := mont_um1 u v O).
      unfold to_twisted_edwards, mont_is_zero. cbn [mInf mX mY]. rewrite Es.
      exists (s * u * finv v, (u - 1) * finv (u + 1)).
      assert (HT : is_tea (mkE (s * u * finv v) ((u - 1) * finv (u + 1))) (s * u * finv v, (u - 1) * finv (u + 1))) by (left; auto).
      assert (Y1 : (u - 1) * finv (u + 1) <> 1).
      { intros E. apply two. transitivity (u + 1 - (u - 1)); [ring|].
        transitivity (u + 1 - (u - 1) * finv (u + 1) * (u + 1)); [field; auto|]. rewrite E. ring. }
      assert (N : (s * u * finv v, (u - 1) * finv (u + 1)) <> te_zero) by (intros E; injection E as _ E; contradiction).
      destruct (feq_dec K R v 0) as [->|Nv].
      + assert (Eu := mont_v0 u O). subst u.
        assert (E1 : s * 0 * finv (0 : K) = 0) by ring.
        assert (E2 : (0 - 1) * finv (0 + 1 : K) = - (1)) by (replace (0 + 1 : K) with (1 : K) by ring; field; apply (f1_neq_0 K KL)).
        assert (OT : onE (s * 0 * finv 0, (0 - 1) * finv (0 + 1))) by (rewrite E1, E2; apply onE_m1).
        split; [exact OT|]. split; [exact HT|]. split; [split; intros E; [contradiction|discriminate E]|].
        unfold to_montgomery. destruct (tea_is_zero K zx zy _) eqn:Z.
        { apply (tea_is_zero_ok K KL a d zx zy zfill _ _ HT OT) in Z. contradiction. }
        rewrite Es. cbn [eX eY]. rewrite E1, E2. cbn. repeat split; ring.
      + assert (OT := to_te_on u v O Nv).
        split; [exact OT|]. split; [exact HT|]. split; [split; intros E; [contradiction|discriminate E]|].
        unfold to_montgomery. destruct (tea_is_zero K zx zy _) eqn:Z.
        { apply (tea_is_zero_ok K KL a d zx zy zfill _ _ HT OT) in Z. contradiction. }
        rewrite Es. cbn [eX eY is_mont MontgomeryGroup.is_mont mInf mX mY mont_of]. split; [reflexivity|].
        assert (Nu0 : u <> 0).
        { intros ->. cbn in O. apply Nv. apply (fsqr_0_inv K KL). apply (fmul_cancel_l K KL B); auto. rewrite O. ring. }
        assert (N2 : u + 1 - (u - 1) <> 0) by (replace (u + 1 - (u - 1)) with (2 : K) by ring; auto).
        split; field; repeat split; auto.
  Qed.
End Conv.
