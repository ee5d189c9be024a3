(** Exponent bookkeeping for Model/FinalExp.v. *)
From Coq Require Import ZArith NArith List Bool Lia Ring Field Znumtheory.
From Bignums Require Import BigN.
From Verif Require Import Base.Field Base.Zp Base.Ext Base.Hom Base.BigZp Spec.Digits Model.Power Model.Fp2 Model.Fp12
  Model.FieldParams Model.Shipped Model.FinalExp Proof.Power Proof.Homs Proof.FiniteField Proof.Shipped Proof.ShippedTowers Proof.CycClasses.
Local Open Scope fld_scope.

Section Zpow.
  Variable F : FieldOps.
  Hypothesis KL : FieldLaws F.
  Let R := FieldLaws_Ring F KL.
  Add Field Ff : (FL_th F KL).
  Variable m : N.
  Hypothesis Hm : (0 < m)%N.
  Definition G (x : F) := fpow x m = 1.
  (** integer exponents on x^m = 1 *)
  Definition zpw (x : F) (k : Z) : F := fpow x (Z.to_N (k mod Z.of_N m)).
  Lemma fpow_mod x n : G x -> fpow x n = fpow x (n mod m).
  Proof.
    intros H. rewrite (N.div_mod n m) at 1 by lia. rewrite (fpow_add F R), (fpow_mul F R), H, (fpow_one F R). ring.
  Qed.
  Lemma zpw_nat x n : G x -> fpow x n = zpw x (Z.of_N n).
  Proof. intros H. unfold zpw. rewrite <- N2Z.inj_mod, N2Z.id. apply fpow_mod, H. Qed.
  Lemma zpw_add x a b : G x -> zpw x a * zpw x b = zpw x (a + b).
  Proof.
    intros H. unfold zpw. rewrite <- (fpow_add F R), fpow_mod by exact H. f_equal.
    assert (A := Z.mod_pos_bound a (Z.of_N m) ltac:(lia)). assert (B := Z.mod_pos_bound b (Z.of_N m) ltac:(lia)).
    apply N2Z.inj. rewrite N2Z.inj_mod, N2Z.inj_add, !Z2N.id by (try apply Z.mod_pos_bound; lia).
    symmetry. apply Z.add_mod. lia.
  Qed.
  Lemma zpw_1 x : G x -> zpw x 1 = x.
  Proof. intros H. change 1%Z with (Z.of_N 1). rewrite <- zpw_nat by exact H. apply (fpow_1 F R). Qed.
  Lemma G_zpw x a : G x -> G (zpw x a).
  Proof. intros H. unfold G, zpw. rewrite <- (fpow_mul F R), N.mul_comm, (fpow_mul F R), H. apply (fpow_one F R). Qed.
  Lemma zpw_pow x a n : G x -> fpow (zpw x a) n = zpw x (a * Z.of_N n).
  Proof.
    intros H. unfold zpw. rewrite <- (fpow_mul F R), fpow_mod by exact H. f_equal.
    assert (A := Z.mod_pos_bound a (Z.of_N m) ltac:(lia)).
    apply N2Z.inj. rewrite N2Z.inj_mod, N2Z.inj_mul, !Z2N.id by (try apply Z.mod_pos_bound; lia).
    rewrite Z.mul_mod_idemp_l by lia. reflexivity.
  Qed.
  Lemma zpw_inv x a y : G x -> zpw x a * y = 1 -> y = zpw x (- a).
  Proof.
    intros H E. assert (E2 : zpw x a * zpw x (- a) = 1).
    { rewrite zpw_add by exact H. replace (a + - a)%Z with 0%Z by lia. reflexivity. }
    transitivity (y * (zpw x a * zpw x (- a))); [rewrite E2; ring|].
    transitivity ((zpw x a * y) * zpw x (- a)); [ring|]. rewrite E. ring.
  Qed.

  Section Chain.
    Variable p : N.
    Variable uinv csq : F -> F.
    Variable cexp frob : F -> N -> F.
    Variable z : N.
    Variable zn : bool.
    Hypothesis Huinv : forall x, G x -> x * uinv x = 1.
    Hypothesis Hcsq : forall x, G x -> csq x = x * x.
    Hypothesis Hcexp : forall x e, G x -> cexp x e = fpow x e.
    Hypothesis Hfrob : forall x k, frob x k = fpow x (p ^ k).
    Let u := (if zn then - Z.of_N z else Z.of_N z)%Z.
    Lemma c_uinv x a : G x -> uinv (zpw x a) = zpw x (- a).
    Proof. intros H. apply zpw_inv; [exact H|]. apply Huinv, G_zpw, H. Qed.
    Lemma c_csq x a : G x -> csq (zpw x a) = zpw x (a + a).
    Proof. intros H. rewrite Hcsq by (apply G_zpw, H). apply zpw_add, H. Qed.
    Lemma c_expz x a : G x -> bls_exp_by_z F uinv cexp z zn (zpw x a) = zpw x (a * u).
    Proof.
      intros H. unfold bls_exp_by_z. rewrite Hcexp by (apply G_zpw, H). rewrite zpw_pow by exact H. unfold u.
      destruct zn; [|reflexivity]. rewrite c_uinv by exact H. f_equal. lia.
    Qed.
    Lemma c_frob x a k : G x -> frob (zpw x a) k = zpw x (a * Z.of_N (p ^ k)).
    Proof. intros H. rewrite Hfrob. apply zpw_pow, H. Qed.
    Definition bls_exponent : Z :=
      let P := Z.of_N p in
      ((u * u - 2 * u + 1) * P ^ 3 + (u * u * u - 2 * u * u + u) * P ^ 2 + (u * u * u * u - 2 * u * u * u + 2 * u - 1) * P
       + (u * u * u * u * u - 2 * u * u * u * u + 2 * u * u - u + 3))%Z.
    Lemma bls_last_chunk_ok x : G x -> bls_last_chunk F uinv csq cexp frob z zn x = zpw x bls_exponent.
    Proof.
      intros H. unfold bls_last_chunk. cbv zeta.
      set (e := zpw x 1). assert (Ee : x = e) by (unfold e; symmetry; apply zpw_1, H).
      transitivity (bls_last_chunk F uinv csq cexp frob z zn e); [rewrite <- Ee; reflexivity|].
      unfold bls_last_chunk. cbv zeta. unfold e.
      repeat first [rewrite c_csq by exact H | rewrite c_uinv by exact H | rewrite c_expz by exact H |
                    rewrite c_frob by exact H | rewrite zpw_add by exact H].
      f_equal. unfold bls_exponent. rewrite !N2Z.inj_pow. cbn [Z.of_N]. ring.
    Qed.
    Lemma bls_first_chunk_ok x : x <> 0 -> (1 < p)%N -> (forall y, uinv y = fpow y (p ^ 6)) ->
      bls_first_chunk F uinv frob x = fpow x ((p ^ 6 - 1) * (p ^ 2 + 1)).
    Proof.
      intros X P1 U. unfold bls_first_chunk. cbv zeta. rewrite Hfrob, U.
      assert (E : fpow x (p ^ 6) * finv x = fpow x (p ^ 6 - 1)).
      { replace (p ^ 6)%N with ((p ^ 6 - 1) + 1)%N at 1 by (assert (p ^ 6 <> 0)%N by (apply N.pow_nonzero; lia); lia).
        rewrite (fpow_add F R), (fpow_1 F R). field. exact X. }
      rewrite E. rewrite (fpow_mul F R), (fpow_add F R _ (p ^ 2)), (fpow_1 F R). reflexivity.
    Qed.
    Lemma two_last_ok w1 w0 wn x y : G x -> x * y = 1 ->
      two_last_chunk F cexp frob w1 w0 wn x y =
      zpw x (Z.of_N p * Z.of_N w1 + (if wn then - Z.of_N w0 else Z.of_N w0)).
    Proof.
      intros H XY. unfold two_last_chunk. cbv zeta.
      assert (Gy : y = zpw x (- (1))) by (apply zpw_inv; [exact H|]; rewrite zpw_1 by exact H; exact XY).
      assert (Gx : x = zpw x 1) by (symmetry; apply zpw_1, H).
      rewrite Hfrob, N.pow_1_r, (zpw_nat x p H), Hcexp by (apply G_zpw, H). rewrite zpw_pow by exact H.
      destruct wn.
      - rewrite Gy, Hcexp by (apply G_zpw, H). rewrite zpw_pow, zpw_add by exact H. f_equal; lia.
      - rewrite Hcexp by exact H. rewrite (zpw_nat x w0 H), zpw_add by exact H. reflexivity.
    Qed.
    Lemma first4_ok x y : x * y = 1 -> (1 < p)%N -> mnt4_first_chunk F frob x y = fpow x (p ^ 2 - 1).
    Proof.
      intros X P1. unfold mnt4_first_chunk. cbv zeta. rewrite Hfrob.
      replace (p ^ 2)%N with ((p ^ 2 - 1) + 1)%N at 1 by (assert (p ^ 2 <> 0)%N by (apply N.pow_nonzero; lia); lia).
      rewrite (fpow_add F R), (fpow_1 F R). transitivity (fpow x (p ^ 2 - 1) * (x * y)); [ring|]. rewrite X. ring.
    Qed.
    Lemma first6_ok x y : x * y = 1 -> (1 < p)%N -> mnt6_first_chunk F frob x y = fpow x ((p ^ 3 - 1) * (p + 1)).
    Proof.
      intros X P1. unfold mnt6_first_chunk. cbv zeta. rewrite !Hfrob.
      assert (E : fpow x (p ^ 3) * y = fpow x (p ^ 3 - 1)).
      { replace (p ^ 3)%N with ((p ^ 3 - 1) + 1)%N at 1 by (assert (p ^ 3 <> 0)%N by (apply N.pow_nonzero; lia); lia).
        rewrite (fpow_add F R), (fpow_1 F R). transitivity (fpow x (p ^ 3 - 1) * (x * y)); [ring|]. rewrite X. ring. }
      rewrite E, N.pow_1_r, (fpow_mul F R), (fpow_add F R _ p), (fpow_1 F R). reflexivity.
    Qed.
  End Chain.
End Zpow.

Section Shipped12.
  Variable t : tower12.
  Hypothesis Hp : prime (t12_p t).
  Hypothesis Hc : t12_field_check t = true.
  Hypothesis Hcyc : t12_cyc_check t = true.
  Hypothesis Hfr : t12_frob_check t = true.
  Local Notation p := (Z.to_N (t12_p t)).
  Variable z : N.
  Variable zn : bool.
  Variables r k : N.
  Local Notation m := (p ^ 4 - p ^ 2 + 1)%N.
  Hypothesis E1 : ((p ^ 6 - 1) * (p ^ 2 + 1) * m = p ^ 12 - 1)%N.
  Lemma first12_G f : f <> 0 -> G (t12_Fp12 t) m (fpow f ((p ^ 6 - 1) * (p ^ 2 + 1))).
  Proof.
    intros Hf. destruct (t12_fields t Hp Hc) as (_ & _ & FF). assert (R := FieldLaws_Ring _ (FF_field _ _ _ FF)).
    unfold G. rewrite <- (fpow_mul _ R), E1. apply (FF_fermat _ _ _ FF), Hf.
  Qed.
  Lemma final12 f : f <> 0 -> (1 < p)%N ->
    bls_final_exponentiation (t12_Fp12 t) (t12_uinv t) (t12_csq t) (t12_cexp t) (t12_frob12 t) z zn f =
    zpw (t12_Fp12 t) m (fpow f ((p ^ 6 - 1) * (p ^ 2 + 1))) (bls_exponent p z zn).
  Proof.
    intros Hf P1. destruct (t12_fields t Hp Hc) as (_ & _ & FF). assert (KL := FF_field _ _ _ FF).
    destruct (t12_cyc_all t Hp Hc Hcyc) as (Hu & Hcy). destruct (t12_frobs t Hp Hc Hfr) as (_ & _ & Hfrob).
    unfold bls_final_exponentiation. rewrite (bls_first_chunk_ok _ KL m ltac:(lia) p _ _ z zn Hfrob f Hf P1 Hu).
    assert (M : (0 < m)%N) by lia.
    refine (bls_last_chunk_ok _ KL m M p _ _ _ _ z zn _ _ _ Hfrob _ (first12_G f Hf)).
    - intros x Hx. apply (Hcy x Hx).
    - intros x Hx. apply (Hcy x Hx).
    - intros x e Hx. apply (Hcy x Hx).
  Qed.
  (** [k * (m / r)] is the exponent *)
  Lemma final12_exact f : f <> 0 -> (1 < p)%N -> (bls_exponent p z zn = Z.of_N (k * (m / r)))%Z ->
    ((p ^ 6 - 1) * (p ^ 2 + 1) * (k * (m / r)) = k * ((p ^ 12 - 1) / r))%N ->
    bls_final_exponentiation (t12_Fp12 t) (t12_uinv t) (t12_csq t) (t12_cexp t) (t12_frob12 t) z zn f =
    fpow f (k * ((p ^ 12 - 1) / r)).
  Proof.
    intros Hf P1 E2 E3. destruct (t12_fields t Hp Hc) as (_ & _ & FF). assert (KL := FF_field _ _ _ FF).
    assert (R := FieldLaws_Ring _ KL).
    rewrite (final12 f Hf P1), E2, <- (zpw_nat _ KL m ltac:(lia) _ _ (first12_G f Hf)), <- (fpow_mul _ R), E3. reflexivity.
  Qed.
End Shipped12.

Section Two.
  Variable F : FieldOps.
  Hypothesis KL : FieldLaws F.
  Let R := FieldLaws_Ring F KL.
  Add Field Ff2 : (FL_th F KL).
  Variables p m : N.
  Hypothesis Hm : (0 < m)%N.
  Hypothesis P1 : (1 < p)%N.
  Variable cexp frob : F -> N -> F.
  Hypothesis Hcexp : forall x e, G F m x -> cexp x e = fpow x e.
  Hypothesis Hfrob : forall x k, (k <= 3)%N -> frob x k = fpow x (p ^ k).
  Variables w1 w0 : N.
  Variable wn : bool.
  Let frob' x k := if (k <=? 3)%N then frob x k else fpow x (p ^ k).
  Lemma frob'_ok (x : F) k : frob' x k = fpow x (p ^ k).
  Proof. unfold frob'. destruct (N.leb_spec k 3); [apply Hfrob; assumption|reflexivity]. Qed.
  Lemma inv_pow (x y : F) n : x * y = 1 -> fpow x n * fpow y n = 1.
  Proof. intros E. rewrite <- (fpow_mul_l F R), E. apply (fpow_one F R). Qed.
  Variables d e : N.
  Hypothesis E2 : (Z.of_N p * Z.of_N w1 + (if wn then - Z.of_N w0 else Z.of_N w0) = Z.of_N e)%Z.
  Lemma mnt4_ok (f : F) : f <> 0 -> (p ^ 2 - 1 = d)%N -> G F m (fpow f d) ->
    mnt4_final_exponentiation F cexp frob w1 w0 wn f = fpow f (d * e).
  Proof.
    intros Hf D Hg. assert (I : f * finv f = 1) by (field; exact Hf). assert (I' : finv f * f = 1) by (field; exact Hf).
    change (mnt4_final_exponentiation F cexp frob w1 w0 wn f) with (mnt4_final_exponentiation F cexp frob' w1 w0 wn f).
    unfold mnt4_final_exponentiation. cbv zeta.
    rewrite (first4_ok F KL m Hm p _ w0 wn frob'_ok _ _ I P1), (first4_ok F KL m Hm p _ w0 wn frob'_ok _ _ I' P1), D.
    rewrite (two_last_ok F KL m Hm p _ _ Hcexp frob'_ok w1 w0 wn _ _ Hg (inv_pow _ _ _ I)), E2.
    rewrite <- (zpw_nat F KL m Hm _ _ Hg). symmetry. apply (fpow_mul F R).
  Qed.
  Lemma mnt6_ok (f : F) : f <> 0 -> ((p ^ 3 - 1) * (p + 1) = d)%N -> G F m (fpow f d) ->
    mnt6_final_exponentiation F cexp frob w1 w0 wn f = fpow f (d * e).
  Proof.
    intros Hf D Hg. assert (I : f * finv f = 1) by (field; exact Hf). assert (I' : finv f * f = 1) by (field; exact Hf).
    change (mnt6_final_exponentiation F cexp frob w1 w0 wn f) with (mnt6_final_exponentiation F cexp frob' w1 w0 wn f).
    unfold mnt6_final_exponentiation. cbv zeta.
    rewrite (first6_ok F KL m Hm p _ w0 wn frob'_ok _ _ I P1), (first6_ok F KL m Hm p _ w0 wn frob'_ok _ _ I' P1), D.
    rewrite (two_last_ok F KL m Hm p _ _ Hcexp frob'_ok w1 w0 wn _ _ Hg (inv_pow _ _ _ I)), E2.
    rewrite <- (zpw_nat F KL m Hm _ _ Hg). symmetry. apply (fpow_mul F R).
  Qed.
End Two.

Lemma order_from_exponent F p n (FF : FinField F p n) (f : F) r k : f <> 0 -> (k * ((p ^ n - 1) / r) * r = k * (p ^ n - 1))%N ->
  fpow (fpow f (k * ((p ^ n - 1) / r))) r = 1.
Proof.
  intros Hf E. assert (R := FieldLaws_Ring _ (FF_field _ _ _ FF)).
  rewrite <- (fpow_mul _ R), E, N.mul_comm, (fpow_mul _ R), (FF_fermat _ _ _ FF f Hf). apply (fpow_one _ R).
Qed.

Lemma hom12_gen (A B : FieldOps) (h : A -> B) (H : Hom A B h) (nr : A) (x6 x12 : quad A) (nr' : B) (x6' x12' : quad B) :
  nr' = h nr -> x6' = qmap h x6 -> x12' = qmap h x12 ->
  Hom (Fp12 (Fp2 A nr) (fp2_sqr A nr) x6 x12) (Fp12 (Fp2 B nr') (fp2_sqr B nr') x6' x12') (qmap (cmap (qmap h))).
Proof. intros -> -> ->. exact (hom_fp12 _ (hom_fp2 _ H nr) _ _ x6 x12). Qed.
(** Powers in a shipped Fp12, evaluated on BigN. *)
Section Eval12.
  Variable t : tower12.
  Hypothesis Hp : prime (t12_p t).
  Hypothesis Hc : t12_field_check t = true.
  Local Notation p := (t12_p t).
  Definition t12_big : FieldOps :=
    Fp12 (Fp2 (BigZp (bigz p)) (bigz (t12_nr2 t))) (fp2_sqr (BigZp (bigz p)) (bigz (t12_nr2 t))) (big2 (t12_xi6 t)) (big2 (t12_xi12 t)).
  Definition t12_of_big (x : t12_big) : t12_Fp12 t := qmap (cmap (qmap (of_big p))) x.
  Lemma t12_big_hom : Hom t12_big (t12_Fp12 t) t12_of_big.
  Proof.
    destruct (t12_facts t Hc) as (H1 & H2 & H3 & HH & Hnr & Hxi & Hok).
    apply (hom12_gen _ _ _ HH); [symmetry; apply of_big_bigz, Hnr|apply lit2_big2, Hxi|apply lit2_big2; rewrite <- H3; exact Hxi].
  Qed.
  Lemma t12_pow_neq (x : t12_big) e : fpower x e =? 1 = false -> fpow (t12_of_big x) e <> 1.
  Proof.
    intros E. destruct (t12_fields t Hp Hc) as (_ & _ & FF). assert (R := FieldLaws_Ring _ (FF_field _ _ _ FF)).
    rewrite <- (fpower_fpow _ _ _ R), <- (hom_fpower _ t12_big_hom), <- (hom_1 _ _ _ t12_big_hom).
    apply (hom_eqb_false _ t12_big_hom _ _ R E).
  Qed.
End Eval12.

Definition t12_sample (t : tower12) : t12_Fp12 t := t12_of_big t
  (mkq (mkc (mkq (bigz 1) (bigz 2)) (mkq (bigz 3) (bigz 4)) (mkq (bigz 5) (bigz 6)))
       (mkc (mkq (bigz 7) (bigz 8)) (mkq (bigz 9) (bigz 1)) (mkq (bigz 2) (bigz 3)))).
Section Gcd.
  Variables (F : FieldOps) (KL : FieldLaws F).
  Let R := FieldLaws_Ring F KL.
  Add Ring FR9 : (RL_th F R).
  Lemma fpow_gcd (h : F) a b : (0 < a)%N -> fpow h a = 1 -> fpow h b = 1 -> fpow h (N.gcd a b) = 1.
  Proof.
    intros P Ha Hb. destruct (N.gcd_bezout_pos a b P) as (x & y & E).
    assert (E' : fpow h (x * a) = fpow h (N.gcd a b + y * b)) by (rewrite E; reflexivity).
    rewrite (N.mul_comm x), (N.mul_comm y), (fpow_add F R), !(fpow_mul F R), Ha, Hb, !(fpow_one F R) in E'.
    transitivity (fpow h (N.gcd a b) * 1); [ring|symmetry; exact E'].
  Qed.
End Gcd.
Lemma pow_step (F : FieldOps) (R : RingLaws F) (f y : F) a b r : fpow f b = y -> fpow (fpow f (a * b)) r = 1 -> fpow (fpow y r) a = 1.
Proof. intros <- H. rewrite <- !(fpow_mul F R) in *. replace (b * (r * a))%N with (a * b * r)%N by lia. exact H. Qed.
(** f is chosen with f^(p^2) easy to write down: f = 1 + w *)
Definition alt_bn_f : t12_big alt_bn128_tower :=
  mkq (mkc (mkq (bigz 1) (bigz 0)) (mkq (bigz 0) (bigz 0)) (mkq (bigz 0) (bigz 0)))
      (mkc (mkq (bigz 1) (bigz 0)) (mkq (bigz 0) (bigz 0)) (mkq (bigz 0) (bigz 0))).
Definition alt_bn_g : Z := nth 4 alt_bn128_fp12_2over3over2_Frobenius_coeffs_c1 0%Z.
Definition alt_bn_f2 : t12_big alt_bn128_tower :=
  mkq (mkc (mkq (bigz 1) (bigz 0)) (mkq (bigz 0) (bigz 0)) (mkq (bigz 0) (bigz 0)))
      (mkc (mkq (bigz alt_bn_g) (bigz 0)) (mkq (bigz 0) (bigz 0)) (mkq (bigz 0) (bigz 0))).
Lemma alt_bn_frob2 : t12_frob12 alt_bn128_tower (t12_of_big _ alt_bn_f) 2 = t12_of_big _ alt_bn_f2.
Proof.
  assert (QE : forall (A : Type) (x y : quad A), q0 x = q0 y -> q1 x = q1 y -> x = y) by (intros A [] []; cbn; intros; subst; reflexivity).
  assert (CE : forall (A : Type) (x y : cub A), c0 x = c0 y -> c1 x = c1 y -> c2 x = c2 y -> x = y) by (intros A [] []; cbn; intros; subst; reflexivity).
  apply QE; apply CE; apply QE; apply zp_ext; vm_compute; reflexivity.
Qed.
Local Notation alt_bn_p := (Z.to_N (t12_p alt_bn128_tower)).
Local Notation alt_bn_m := (alt_bn_p ^ 4 - alt_bn_p ^ 2 + 1)%N.
Local Notation alt_bn_e := (Z.to_N (bls_exponent alt_bn_p alt_bn128_final_exponent_z alt_bn128_final_exponent_is_z_neg mod Z.of_N alt_bn_m) *
  Z.to_N alt_bn128_scalar_field_254_modulus)%N.
Lemma alt_bn_E1 : ((alt_bn_p ^ 6 - 1) * (alt_bn_p ^ 2 + 1) * alt_bn_m = alt_bn_p ^ 12 - 1)%N.
Proof. vm_compute. reflexivity. Qed.
Lemma alt_bn_pos : (0 < alt_bn_e)%N.
Proof. vm_compute. reflexivity. Qed.
Lemma alt_bn_gcd : N.gcd alt_bn_e alt_bn_m = Z.to_N alt_bn128_scalar_field_254_modulus.
Proof. vm_compute. reflexivity. Qed.
Lemma alt_bn_p6 : (0 < alt_bn_p ^ 6)%N.
Proof. vm_compute. reflexivity. Qed.
Lemma fixed_not (F : FieldOps) (R : RingLaws F) (w : F) P : (0 < P)%N -> fpow w (P - 1) = 1 -> fpow w P = w.
Proof.
  intros H E. replace P with (P - 1 + 1)%N by lia. rewrite (fpow_add F R), E, (fpow_1 F R). apply (Rmul_1_l (RL_th F R)).
Qed.
(** (f^(p^2) f)^r *)
Definition alt_bn_w : t12_big alt_bn128_tower :=
  fpower (fmul alt_bn_f2 alt_bn_f) (Z.to_N alt_bn128_scalar_field_254_modulus).
Lemma alt_bn_w_check : (let a : BigZp (bigz (t12_p alt_bn128_tower)) := q0 (c0 (q1 alt_bn_w)) in fopp a =? a) = false.
Proof. vm_cast_no_check (eq_refl false). Qed.
Lemma alt_bn_w_not : t12_uinv alt_bn128_tower (t12_of_big _ alt_bn_w) <> t12_of_big _ alt_bn_w.
Proof.
  generalize alt_bn_w_check. generalize alt_bn_w as w. intros w C E. apply (f_equal (fun x => q0 (c0 (q1 x)))) in E.
  destruct (t12_facts _ alt_bn_field_check) as (H1 & _ & _ & HH & _). revert E. rewrite <- (hom_eqb _ _ _ HH), (hom_opp _ _ _ HH) in C.
  exact (proj1 (feqb_false (Zp (t12_p alt_bn128_tower)) (Zp_ring _) _ _) C).
Qed.
Lemma alt_bn128_order : exists f : t12_Fp12 alt_bn128_tower, f <> 0 /\
  fpow (alt_bn128_final_exponentiation f) (Z.to_N alt_bn128_scalar_field_254_modulus) <> 1.
Proof.
  exists (t12_of_big _ alt_bn_f).
  assert (Z0 : t12_of_big alt_bn128_tower alt_bn_f <> 0).
  { intros H. apply (f_equal (fun x => zval (q0 (c0 (q0 x))))) in H. vm_compute in H. discriminate H. }
  split; [exact Z0|]. unfold alt_bn128_final_exponentiation.
  destruct (t12_fields _ alt_bn_p_prime alt_bn_field_check) as (_ & _ & FF). assert (KL := FF_field _ _ _ FF). assert (R := FieldLaws_Ring _ KL).
  rewrite (final12 _ alt_bn_p_prime alt_bn_field_check alt_bn_cyc_check alt_bn_frob_check);
    [|vm_compute; reflexivity|exact Z0|vm_compute; reflexivity].
  assert (HG := first12_G _ alt_bn_p_prime alt_bn_field_check alt_bn_E1 _ Z0). unfold G in HG.
  unfold zpw. rewrite <- (fpow_mul _ R). intros H1.
  assert (H2 := fpow_gcd _ KL _ _ _ alt_bn_pos H1 HG). rewrite alt_bn_gcd in H2.
  (* (f^(p^2) f)^r is fixed by x -> x^(p^6) *)
  destruct (t12_frobs _ alt_bn_p_prime alt_bn_field_check alt_bn_frob_check) as (_ & _ & Hfrob).
  destruct (t12_cyc_all _ alt_bn_p_prime alt_bn_field_check alt_bn_cyc_check) as (Hu & _).
  assert (Y : fpow (t12_of_big _ alt_bn_f) (Z.to_N (t12_p alt_bn128_tower) ^ 2 + 1) = t12_of_big _ (fmul alt_bn_f2 alt_bn_f)).
  { rewrite (fpow_add _ R), (fpow_1 _ R), <- Hfrob, alt_bn_frob2. symmetry. apply (hom_mul _ _ _ (t12_big_hom _ alt_bn_field_check)). }
  assert (W : forall (x : t12_big alt_bn128_tower) e, fpow (t12_of_big _ x) e = t12_of_big _ (fpower x e)).
  { intros x e. rewrite <- (fpower_fpow _ _ _ R). symmetry. apply (hom_fpower _ (t12_big_hom _ alt_bn_field_check)). }
  assert (H3 := pow_step _ R _ _ _ _ _ Y H2).
  apply alt_bn_w_not. rewrite Hu.
  exact (fixed_not _ R _ _ alt_bn_p6 (eq_ind _ (fun w => fpow w (alt_bn_p ^ 6 - 1) = 1) H3 _ (W (fmul alt_bn_f2 alt_bn_f) _))).
Qed.
