(** Cyclotomic operations of the three classes. *)
From Coq Require Import ZArith NArith List Bool Lia Ring Field Znumtheory.
From Bignums Require Import BigN.
From Verif Require Import Base.Field Base.Zp Base.Ext Base.Hom Base.BigZp Spec.PolyQuot Spec.Digits
  Model.Power Model.Fp2 Model.Fp3 Model.Fp4 Model.Fp6_2over3 Model.Fp6_3over2 Model.Fp12
  Model.FieldParams Model.Shipped
  Proof.Power Proof.ExtTheory Proof.Towers Proof.Frob Proof.FiniteField Proof.Homs Proof.Frobenius
  Proof.Shipped Proof.ShippedTowers Proof.Cyclotomic.
Import ListNotations.
Local Open Scope fld_scope.

(** What has to be shown of a class: on [x^m = 1], [uinv] inverts, [csq] squares. *)
Section Use.
  Variable F : FieldOps.
  Hypothesis KL : FieldLaws F.
  Let R := FieldLaws_Ring F KL.
  Add Field Ff : (FL_th F KL).
  Lemma root_mul m (x y : F) : fpow x m = 1 -> fpow y m = 1 -> fpow (x * y) m = 1.
  Proof. intros H1 H2. rewrite (fpow_mul_l F R), H1, H2. ring. Qed.
  Lemma root_inv m (x y : F) : fpow x m = 1 -> x * y = 1 -> fpow y m = 1.
  Proof.
    intros H1 H2. transitivity (fpow x m * fpow y m); [rewrite H1; ring|].
    rewrite <- (fpow_mul_l F R), H2. apply (fpow_one F R).
  Qed.
End Use.

Section Cyc4.
  Variable K : FieldOps.
  Variable p : N.
  Variable nr : K.
  Hypothesis RK : RingLaws K.
  Hypothesis F2 : FinField (Fp2 K nr) p 2.
  Hypothesis F4 : FinField (Fp4 K nr nr) p 4.
  Local Notation F := (Fp2 K nr).
  Local Notation Q := (Fp4 K nr nr).
  Variable e : N.
  Hypothesis He : (2 * e = p ^ 2 - 1)%N.
  Hypothesis Hu : (fp2_u K nr : F) <> 0.
  Hypothesis He1 : fpow (fp2_u K nr : F) e <> 1.
  Let KF := FF_field _ _ _ F2.
  Let RF := FieldLaws_Ring _ KF.
  Let KQ := FF_field _ _ _ F4.
  Let RQ := FieldLaws_Ring _ KQ.
  Add Field FFf : (FL_th F KF).

  Lemma fp4_conj (x : Q) : fpow x (p ^ 2) = fp4_unitary_inversed K nr x.
  Proof.
    etransitivity; [|apply (quad_conj_pow F p 2 (fp2_u K nr) F2 e Hu He He1 x)].
    apply fpow_ext. intros; apply (fp4_mul_eq K nr RK).
  Qed.
  Lemma fp4_unitary (x : Q) : fpow x (p ^ 2 + 1) = 1 -> x * (fp4_unitary_inversed K nr x : Q) = 1.
  Proof.
    intros H. rewrite <- fp4_conj. rewrite <- H, (fpow_add Q RQ), (fpow_1 Q RQ).
    apply (Rmul_comm (RL_th _ RQ)).
  Qed.
  Lemma fp4_cyc_sq (x : Q) : fpow x (p ^ 2 + 1) = 1 -> (fp4_cyclotomic_squared K nr nr x : Q) = x * x.
  Proof.
    intros H. apply fp4_unitary in H. destruct x as [a b].
    change (fp4_mul K nr nr (mkq a b) (fp4_unitary_inversed K nr (mkq a b)) = mkq (A := F) 1 0) in H.
    change (fp4_cyclotomic_squared K nr nr (mkq a b) = fp4_mul K nr nr (mkq a b) (mkq a b)).
    rewrite (fp4_mul_eq K nr RK) in *. apply (f_equal q0) in H.
    unfold fp4_unitary_inversed in H. cbn [Quad fmul q0 q1] in H. cbn [Quad fmul q0 q1].
    unfold fp4_cyclotomic_squared. cbn [q0 q1].
    rewrite !(fp2_sqr_eq K nr RK), !(fp4_mbnr_eq K nr RK).
    generalize dependent (fp2_u K nr). intros u _ _ H.
    f_equal; rewrite <- H; ring.
  Qed.
  Lemma fp4_cyc_exp find_wnaf (x : Q) (n : N) : wnaf_contract find_wnaf -> fpow x (p ^ 2 + 1) = 1 ->
    (fp4_cyclotomic_exp K nr nr x (find_wnaf 1%nat n) : Q) = fpow x n.
  Proof.
    intros Hw Hx. destruct (Hw 1%nat n) as [Hv Hd]; [lia|].
    etransitivity.
    - apply (cyc_exp_naf Q KQ (fun x : Q => fpow x (p ^ 2 + 1) = 1) (fp4_cyclotomic_squared K nr nr)
        (fpow_one Q RQ _) (root_mul Q KQ _) fp4_cyc_sq (fp4_one K nr) (fp4_mul K nr nr) x (fp4_unitary_inversed K nr x)).
      + reflexivity.
      + reflexivity.
      + exact Hx.
      + apply (root_inv Q KQ _ x); [exact Hx|apply fp4_unitary, Hx].
      + apply fp4_unitary, Hx.
      + exact Hd.
    - rewrite Hv. destruct n; reflexivity.
  Qed.
End Cyc4.

Section Cyc6.
  Variable K : FieldOps.
  Variable p : N.
  Variable nr : K.
  Hypothesis FK : FinField K p 1.
  Hypothesis F6 : FinField (Fp6t K nr nr) p 6.
  Local Notation Q := (Fp6t K nr nr).
  Variable e : N.
  Hypothesis p2 : p <> 2%N.
  Hypothesis He : (6 * e = p ^ 1 - 1)%N.
  Hypothesis Hnr : nr <> 0.
  Hypothesis X2 : fpow nr (3 * e) <> 1.
  Hypothesis X3 : fpow nr (2 * e) <> 1.
  Let KK := FF_field _ _ _ FK.
  Let RK := FieldLaws_Ring _ KK.
  Let KQ := FF_field _ _ _ F6.
  Let RQ := FieldLaws_Ring _ KQ.
  Add Field Kf : (FL_th K KK).
  Local Notation W := (Quad (Cub K nr) (cub_v K nr)).
  Local Notation m := (p ^ 2 - p + 1)%N.

  Lemma fp6t_W_mul (x y : quad (cub K)) : fp6t_mul K nr nr x y = fmul (f := W) x y.
  Proof.
    rewrite (fp6t_mul_eq K nr RK). destruct x as [[a b c] [d e' f]], y as [[a' b' c'] [d' e'' f']].
    cbn. unfold fp3_add, fp3_mul; cbn. f_equal; f_equal; ring.
  Qed.
  Lemma fp6t_W_pow (x : quad (cub K)) n : fpow (x : Q) n = fpow (x : W) n.
  Proof. apply fpow_ext. intros; apply fp6t_W_mul. Qed.
  Lemma m6_eq : m = (p ^ 1 * p ^ 1 - p ^ 1 + 1)%N.
  Proof. rewrite N.pow_1_r, N.pow_2_r. reflexivity. Qed.
  Lemma fp6t_unitary (x : Q) : fpow x m = 1 -> x * (fp6t_unitary_inversed K nr x : Q) = 1.
  Proof.
    intros H. rewrite m6_eq, fp6t_W_pow in H.
    assert (U := W_unitary K p 1 nr FK e p2 He Hnr X2 X3 x H).
    etransitivity; [apply fp6t_W_mul|]. etransitivity; [|exact U]. f_equal.
    unfold fp6t_unitary_inversed, qconj. f_equal. apply (fp3_neg_eq K nr RK).
  Qed.
  Lemma fp6t_cyc_sq (x : Q) : fpow x m = 1 -> (fp6t_cyclotomic_squared K nr nr x : Q) = x * x.
  Proof.
    intros H. rewrite m6_eq, fp6t_W_pow in H. destruct x as [[x0 x2 x4] [x1 x3 x5]].
    assert (U := W_gs K p 1 nr FK e p2 He Hnr X2 X3 _ _ _ _ _ _ H).
    transitivity (fmul (f := W) (mkq (mkc x0 x2 x4) (mkc x1 x3 x5)) (mkq (mkc x0 x2 x4) (mkc x1 x3 x5))).
    2:{ symmetry. apply fp6t_W_mul. }
    etransitivity; [|exact U]. unfold fp6t_cyclotomic_squared, fp6t_fp2_squared. cbn [q0 q1 c0 c1 c2 fst snd].
    f_equal; f_equal; ring.
  Qed.
  Lemma fp6t_cyc_exp find_wnaf (x : Q) (n : N) : wnaf_contract find_wnaf -> fpow x m = 1 ->
    (fp6t_cyclotomic_exp K nr nr x (find_wnaf 1%nat n) : Q) = fpow x n.
  Proof.
    intros Hw Hx. destruct (Hw 1%nat n) as [Hv Hd]; [lia|].
    etransitivity.
    - apply (cyc_exp_naf Q KQ (fun x : Q => fpow x m = 1) (fp6t_cyclotomic_squared K nr nr)
        (fpow_one Q RQ _) (root_mul Q KQ _) fp6t_cyc_sq (fp6t_one K nr) (fp6t_mul K nr nr) x (fp6t_unitary_inversed K nr x)).
      + reflexivity.
      + reflexivity.
      + exact Hx.
      + apply (root_inv Q KQ _ x); [exact Hx|apply fp6t_unitary, Hx].
      + apply fp6t_unitary, Hx.
      + exact Hd.
    - rewrite Hv. destruct n; reflexivity.
  Qed.
End Cyc6.

Section Cyc12.
  Variable B : FieldOps.
  Variable sq2 : B -> B.
  Variable p : N.
  Variable xi : B.
  Hypothesis FB : FinField B p 2.
  Hypothesis F12 : FinField (Fp12 B sq2 xi xi) p 12.
  Local Notation Q := (Fp12 B sq2 xi xi).
  Variable e : N.
  Hypothesis p2 : p <> 2%N.
  Hypothesis He : (6 * e = p ^ 2 - 1)%N.
  Hypothesis Hnr : xi <> 0.
  Hypothesis X2 : fpow xi (3 * e) <> 1.
  Hypothesis X3 : fpow xi (2 * e) <> 1.
  Let KK := FF_field _ _ _ FB.
  Let RK := FieldLaws_Ring _ KK.
  Let KQ := FF_field _ _ _ F12.
  Let RQ := FieldLaws_Ring _ KQ.
  Add Field Bf : (FL_th B KK).
  Local Notation W := (Quad (Cub B xi) (cub_v B xi)).
  Local Notation m := (p ^ 4 - p ^ 2 + 1)%N.

  Lemma fp12_W_mul (x y : quad (cub B)) : fp12_mul B sq2 xi xi x y = fmul (f := W) x y.
  Proof.
    rewrite (fp12_mul_eq B sq2 xi RK). destruct x as [[a b c] [d e' f]], y as [[a' b' c'] [d' e'' f']].
    cbn. unfold fp6_add, fp6_mul, fp6_mbnr; cbn. f_equal; f_equal; ring.
  Qed.
  Lemma fp12_W_pow (x : quad (cub B)) n : fpow (x : Q) n = fpow (x : W) n.
  Proof. apply fpow_ext. intros; apply fp12_W_mul. Qed.
  Lemma m12_eq : m = (p ^ 2 * p ^ 2 - p ^ 2 + 1)%N.
  Proof. rewrite <- N.pow_add_r. reflexivity. Qed.
  Lemma fp12_conj (x : Q) : fpow x (p ^ 6) = fp12_unitary_inversed B sq2 xi x.
  Proof.
    rewrite fp12_W_pow. etransitivity; [exact (W_conj B p 2 xi FB e p2 He Hnr X2 X3 x)|].
    unfold fp12_unitary_inversed, qconj. f_equal. symmetry. apply (fp6_neg_eq B xi RK).
  Qed.
  Lemma fp12_unitary (x : Q) : fpow x m = 1 -> x * (fp12_unitary_inversed B sq2 xi x : Q) = 1.
  Proof.
    intros H. rewrite m12_eq, fp12_W_pow in H.
    assert (U := W_unitary B p 2 xi FB e p2 He Hnr X2 X3 x H).
    etransitivity; [apply fp12_W_mul|]. etransitivity; [|exact U]. f_equal.
    unfold fp12_unitary_inversed, qconj. f_equal. apply (fp6_neg_eq B xi RK).
  Qed.
  Lemma fp12_cyc_sq (x : Q) : fpow x m = 1 -> (fp12_cyclotomic_squared B sq2 xi x : Q) = x * x.
  Proof.
    intros H. rewrite m12_eq, fp12_W_pow in H. destruct x as [[x0 x2 x4] [x1 x3 x5]].
    assert (U := W_gs B p 2 xi FB e p2 He Hnr X2 X3 _ _ _ _ _ _ H).
    transitivity (fmul (f := W) (mkq (mkc x0 x2 x4) (mkc x1 x3 x5)) (mkq (mkc x0 x2 x4) (mkc x1 x3 x5))).
    2:{ symmetry. apply fp12_W_mul. }
    etransitivity; [|exact U]. unfold fp12_cyclotomic_squared. cbn [q0 q1 c0 c1 c2].
    f_equal; f_equal; ring.
  Qed.
  Lemma fp12_cyc_exp (x : Q) (n : N) : fpow x m = 1 ->
    (fp12_cyclotomic_exp B sq2 xi xi x n : Q) = fpow x n.
  Proof.
    intros Hx.
    apply (cyc_exp_binary Q KQ (fun x : Q => fpow x m = 1) (fp12_cyclotomic_squared B sq2 xi)
        (fpow_one Q RQ _) (root_mul Q KQ _) fp12_cyc_sq (fp12_one B sq2 xi) (fp12_mul B sq2 xi xi) x n).
    - reflexivity.
    - reflexivity.
    - exact Hx.
  Qed.
End Cyc12.

(** ** Shipped parameters: the two power tests, evaluated on BigN *)
Definition t12_cyc_check (t : tower12) : bool :=
  let A := BigZp (bigz (t12_p t)) in
  let q := (Z.to_N (t12_p t) ^ 2)%N in
  let F := Fp2 A (bigz (t12_nr2 t)) in
  nonpower F 2 q (big2 (t12_xi6 t)) && nonpower F 3 q (big2 (t12_xi6 t)).
Definition t6_cyc_check (t : tower6) : bool :=
  let A := BigZp (bigz (t6_p t)) in
  let q := Z.to_N (t6_p t) in
  nonpower A 2 q (bigz (t6_nr3 t)) && nonpower A 3 q (bigz (t6_nr3 t)).
Definition t4_cyc_check (t : tower4) : bool :=
  let A := BigZp (bigz (t4_p t)) in
  nonpower (Fp2 A (bigz (t4_nr2 t))) 2 (Z.to_N (t4_p t) ^ 2) (fp2_u A (bigz (t4_nr2 t))).

Lemma six_div q : ((q - 1) mod 2 = 0 -> (q - 1) mod 3 = 0 ->
  exists e, 6 * e = q - 1 /\ 3 * e = (q - 1) / 2 /\ 2 * e = (q - 1) / 3)%N.
Proof.
  intros H2 H3. set (m := (q - 1)%N) in *.
  assert (D2 := N.div_mod m 2 ltac:(lia)). assert (D3 := N.div_mod m 3 ltac:(lia)).
  exists (m / 2 - m / 3)%N. lia.
Qed.
Lemma nonpower_split (F : FieldOps) k q c : RingLaws F -> nonpower F k q c = true ->
  c <> 0 /\ fpow c ((q - 1) / k) <> 1 /\ ((q - 1) mod k = 0)%N.
Proof.
  intros R. unfold nonpower. rewrite !andb_true_iff, !negb_true_iff, N.eqb_eq, (fpower_fpow _ _ _ R).
  intros [[H1 H2] H3]. split; [apply (feqb_false F R), H1|]. split; [apply (feqb_false F R), H2|exact H3].
Qed.

Section ShippedCyc12.
  Variable t : tower12.
  Hypothesis Hp : prime (t12_p t).
  Hypothesis Hc : t12_field_check t = true.
  Hypothesis Hcyc : t12_cyc_check t = true.
  Local Notation p := (t12_p t).
  Local Notation q := (Z.to_N (t12_p t)).
  Local Notation F12 := (t12_Fp12 t).


  Lemma t12_cyc_all : (forall x : F12, t12_uinv t x = fpow x (q ^ 6)) /\ (forall x : F12, fpow x (q ^ 4 - q ^ 2 + 1) = 1 ->
     x * t12_uinv t x = 1 /\ t12_csq t x = x * x /\ forall e, t12_cexp t x e = fpow x e).
  Proof.
    destruct (t12_facts t Hc) as (H1 & H2 & H3 & HH & Hnr & Hxi & Hok).
    destruct (t12_fields t Hp Hc) as (FF2 & FF6 & FF12).
    unfold t12_cyc_check in Hcyc. apply andb_true_iff in Hcyc. destruct Hcyc as [C2 C3].
    assert (H2h := hom_fp2 _ HH (bigz (t12_nr2 t))).
    rewrite <- (nonpower_hom _ H2h), <- (lit2_big2 _ _ Hxi), (of_big_bigz p _ Hnr) in C2.
    rewrite <- (nonpower_hom _ H2h), <- (lit2_big2 _ _ Hxi), (of_big_bigz p _ Hnr) in C3.
    assert (RF2 := FieldLaws_Ring _ (FF_field _ _ _ FF2)).
    apply (nonpower_split _ _ _ _ RF2) in C2. apply (nonpower_split _ _ _ _ RF2) in C3.
    destruct C2 as (Hx0 & C2 & M2). destruct C3 as (_ & C3 & M3).
    destruct (six_div _ M2 M3) as (e & E6 & E3 & E2). rewrite <- E3 in C2. rewrite <- E2 in C3.
    unfold t12_uinv, t12_csq, t12_cexp, t12_Fp12 in *. unfold t12_Fp2 in *. rewrite <- H3 in *.
    split; [intros x; symmetry; exact (fp12_conj _ _ q _ FF2 e H2 E6 Hx0 C2 C3 x)|].
    intros x Hx.
    split; [|split].
    - exact (fp12_unitary _ _ q _ FF2 e H2 E6 Hx0 C2 C3 x Hx).
    - exact (fp12_cyc_sq _ _ q _ FF2 e H2 E6 Hx0 C2 C3 x Hx).
    - intros n. exact (fp12_cyc_exp _ _ q _ FF2 FF12 e H2 E6 Hx0 C2 C3 x n Hx).
  Qed.
  Lemma t12_cyc : (forall x : F12, fpow x (q ^ 4 - q ^ 2 + 1) = 1 ->
     x * t12_uinv t x = 1 /\ t12_csq t x = x * x /\ forall e, t12_cexp t x e = fpow x e).
  Proof. exact (proj2 t12_cyc_all). Qed.
End ShippedCyc12.

Section ShippedCyc6.
  Variable t : tower6.
  Hypothesis Hp : prime (t6_p t).
  Hypothesis Hc : t6_field_check t = true.
  Hypothesis Hcyc : t6_cyc_check t = true.
  Local Notation p := (t6_p t).
  Local Notation q := (Z.to_N (t6_p t)).
  Local Notation F6 := (t6_Fp6 t).


  Lemma t6_cyc : (forall x : F6, fpow x (q ^ 2 - q + 1) = 1 ->
     x * t6_uinv t x = 1 /\ t6_csq t x = x * x /\
     forall fw e, wnaf_contract fw -> t6_cexp t fw x e = fpow x e).
  Proof.
    destruct (t6_facts t Hc) as (H1 & H2 & H3 & HH & Hnr & Hok).
    destruct (t6_fields t Hp Hc) as (FF3 & FF6).
    unfold t6_cyc_check in Hcyc. apply andb_true_iff in Hcyc. destruct Hcyc as [C2 C3].
    rewrite <- (nonpower_hom _ HH), (of_big_bigz p _ Hnr) in C2.
    rewrite <- (nonpower_hom _ HH), (of_big_bigz p _ Hnr) in C3.
    apply (nonpower_split _ _ _ _ (Zp_ring p)) in C2. apply (nonpower_split _ _ _ _ (Zp_ring p)) in C3.
    destruct C2 as (Hx0 & C2 & M2). destruct C3 as (_ & C3 & M3).
    destruct (six_div _ M2 M3) as (e & E6 & E3 & E2). rewrite <- E3 in C2. rewrite <- E2 in C3.
    rewrite <- (N.pow_1_r q) in E6.
    unfold t6_uinv, t6_csq, t6_cexp, t6_Fp6 in *. rewrite <- H3 in *.
    intros x Hx. assert (FK := Zp_FinField p Hp).
    split; [|split].
    - exact (fp6t_unitary _ q _ FK e H2 E6 Hx0 C2 C3 x Hx).
    - exact (fp6t_cyc_sq _ q _ FK e H2 E6 Hx0 C2 C3 x Hx).
    - intros fw n Hw. exact (fp6t_cyc_exp _ q _ FK FF6 e H2 E6 Hx0 C2 C3 fw x n Hw Hx).
  Qed.
End ShippedCyc6.

Section ShippedCyc4.
  Variable t : tower4.
  Hypothesis Hp : prime (t4_p t).
  Hypothesis Hc : t4_field_check t = true.
  Hypothesis Hcyc : t4_cyc_check t = true.
  Local Notation p := (t4_p t).
  Local Notation q := (Z.to_N (t4_p t)).
  Local Notation F4 := (t4_Fp4 t).


  Lemma t4_cyc : (forall x : F4, fpow x (q ^ 2 + 1) = 1 ->
     x * t4_uinv t x = 1 /\ t4_csq t x = x * x /\
     forall fw e, wnaf_contract fw -> t4_cexp t fw x e = fpow x e).
  Proof.
    destruct (t4_facts t Hc) as (H1 & H2 & H3 & HH & Hnr & Hok).
    destruct (t4_fields t Hp Hc) as (FF2 & FF4).
    unfold t4_cyc_check in Hcyc.
    assert (H2h := hom_fp2 _ HH (bigz (t4_nr2 t))).
    rewrite <- (nonpower_hom _ H2h), (of_big_bigz p _ Hnr) in Hcyc.
    replace (qmap (of_big p) (fp2_u (BigZp (bigz p)) (bigz (t4_nr2 t)))) with
      (fp2_u (Zp p) (tozp p (t4_nr2 t))) in Hcyc.
    2:{ unfold fp2_u, qmap; cbn [q0 q1]. rewrite (hom_0 _ _ _ HH), (hom_1 _ _ _ HH). reflexivity. }
    apply (nonpower_split _ _ _ _ (FieldLaws_Ring _ (FF_field _ _ _ FF2))) in Hcyc.
    destruct Hcyc as (Hx0 & C2 & M2).
    assert (E2 : (2 * ((q ^ 2 - 1) / 2) = q ^ 2 - 1)%N).
    { assert (D := N.div_mod (q ^ 2 - 1) 2 ltac:(lia)). rewrite M2 in D. lia. }
    unfold t4_uinv, t4_csq, t4_cexp, t4_Fp4 in *. rewrite <- H3 in *.
    intros x Hx. assert (RK := Zp_ring p).
    split; [|split].
    - exact (fp4_unitary _ q _ RK FF2 FF4 _ E2 Hx0 C2 x Hx).
    - exact (fp4_cyc_sq _ q _ RK FF2 FF4 _ E2 Hx0 C2 x Hx).
    - intros fw n Hw. exact (fp4_cyc_exp _ q _ RK FF2 FF4 _ E2 Hx0 C2 fw x n Hw Hx).
  Qed.
End ShippedCyc4.

Lemma bls381_cyc_check : t12_cyc_check bls12_381_tower = true.
Proof. vm_cast_no_check (eq_refl true). Qed.
Lemma bls377_cyc_check : t12_cyc_check bls12_377_tower = true.
Proof. vm_cast_no_check (eq_refl true). Qed.
Lemma alt_bn_cyc_check : t12_cyc_check alt_bn128_tower = true.
Proof. vm_cast_no_check (eq_refl true). Qed.
Lemma bn_cyc_check : t12_cyc_check bn128_tower = true.
Proof. vm_cast_no_check (eq_refl true). Qed.
Lemma mnt4_cyc_check : t4_cyc_check mnt4_tower = true.
Proof. vm_cast_no_check (eq_refl true). Qed.
Lemma mnt6_cyc_check : t6_cyc_check mnt6_tower = true.
Proof. vm_cast_no_check (eq_refl true). Qed.
Lemma edwards_cyc_check : t6_cyc_check edwards_tower = true.
Proof. vm_cast_no_check (eq_refl true). Qed.
