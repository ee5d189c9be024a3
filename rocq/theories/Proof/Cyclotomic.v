(** Cyclotomic subgroups: unitary inversion, cyclotomic squaring and
    exponentiation.  Fp6_2over3 and Fp12 are both W = B[w]/(w^6 - xi) written as
    a quadratic over a cubic extension; B has q elements (q = p resp. p^2) and
    the cyclotomic subgroup is x^(q^2 - q + 1) = 1. *)
From Coq Require Import ZArith NArith List Bool Lia Ring Field Znumtheory.
From Verif Require Import Base.Field Base.Zp Base.Ext Spec.PolyQuot Spec.Digits
  Model.Power Model.Fp2 Model.Fp3 Model.Fp4 Model.Fp6_2over3 Model.Fp6_3over2 Model.Fp12
  Proof.Power Proof.ExtTheory Proof.Towers Proof.Frob Proof.FiniteField Proof.Frobenius.
Import ListNotations.
Local Open Scope fld_scope.

Definition qconj {F : FieldOps} (x : quad F) : quad F := mkq (q0 x) (- q1 x).

(** ** The q-power map of a quadratic extension is conjugation *)
Section Conj.
  Variable F : FieldOps.
  Variables p n : N.
  Variable nu : F.
  Hypothesis FF : FinField F p n.
  Let KL := FF_field F p n FF.
  Let R := FieldLaws_Ring F KL.
  Local Notation Q := (Quad F nu).
  Add Field Ff : (FL_th F KL).

  Lemma half_power_m1 (c : F) (e : N) : c <> 0 -> (2 * e = p ^ n - 1)%N -> fpow c e <> 1 -> fpow c e = - (1).
  Proof.
    intros Hc He H1.
    destruct (fsqr_eq F KL (fpow c e) 1) as [E|E]; [|contradiction|exact E].
    rewrite <- (fpow_add F R). replace (e + e)%N with (p ^ n - 1)%N by lia.
    rewrite (FF_fermat F p n FF _ Hc). ring.
  Qed.
  Lemma quad_conj_pow (e : N) : nu <> 0 -> (2 * e = p ^ n - 1)%N -> fpow nu e <> 1 ->
    forall x : quad F, fpow (x : Q) (p ^ n) = qconj x.
  Proof.
    intros Hnu He H1 [a b].
    assert (HQ := FF_Q_ge_2 F p n FF).
    assert (Hw : fpow (mkq 0 1 : Q) (p ^ n) = mkq 0 (- (1))).
    { rewrite <- (half_power_m1 nu e Hnu He H1). replace (p ^ n)%N with (2 * e + 1)%N by lia.
      apply (quad_fpow_w F p n nu FF). }
    rewrite (quad_frob_pow F p n nu FF n _ _ _ Hw), !(FF_frob F p n FF). unfold qconj; cbn. f_equal. ring.
  Qed.
End Conj.

(** ** Sextic case *)
Section Sextic.
  Variable B : FieldOps.
  Variables p n : N.
  Variable xi : B.
  Hypothesis FB : FinField B p n.
  Let KB := FF_field B p n FB.
  Let RB := FieldLaws_Ring B KB.
  Add Field Bf : (FL_th B KB).
  Variable e : N.
  Hypothesis p2 : p <> 2%N.
  Hypothesis He : (6 * e = p ^ n - 1)%N.
  Hypothesis Hxi : xi <> 0.
  Hypothesis X2 : fpow xi (3 * e) <> 1.
  Hypothesis X3 : fpow xi (2 * e) <> 1.
  Local Notation C := (Cub B xi).
  Definition cub_v : C := mkc 0 1 0.
  Local Notation W := (Quad C cub_v).

  Lemma xi_ns : not_square xi.
  Proof. apply (not_square_test B p n FB (3 * e) xi Hxi); [lia|exact X2]. Qed.
  Lemma xi_nc : not_cube xi.
  Proof. apply (not_cube_test B p n FB (2 * e) xi Hxi); [lia|exact X3]. Qed.
  Lemma C_FinField : FinField C p (3 * n).
  Proof. apply (cub_FinField B p n xi FB); [exists (2 * e)%N; lia|exact xi_nc]. Qed.
  Let FC := C_FinField.
  Let KC := FF_field _ _ _ FC.
  Let RC := FieldLaws_Ring _ KC.
  Lemma v_not_square : not_square (K := C) cub_v.
  Proof.
    intros x Hx. apply (cub_not_square B p n xi FB cub_v) with (x := x).
    - unfold cub_v. rewrite (cub_lin_norm B xi KB).
      replace (0 * 0 * 0 + xi * (1 * 1 * 1)) with xi by ring. exact xi_ns.
    - exact Hx.
  Qed.
  Lemma W_FinField : FinField W p (6 * n).
  Proof.
    replace (6 * n)%N with (2 * (3 * n))%N by lia. apply (quad_FinField C p (3 * n) cub_v FC p2 v_not_square).
  Qed.
  Let KW := FF_field _ _ _ W_FinField.
  Let RW := FieldLaws_Ring _ KW.

  Let z : B := fpow xi e.
  Lemma z3 : z * z * z = - (1).
  Proof.
    unfold z. rewrite <- !(fpow_add B RB). replace (e + e + e)%N with (3 * e)%N by lia.
    apply (half_power_m1 B p n FB); [exact Hxi|lia|exact X2].
  Qed.
  Lemma z2 : z * z = z - 1.
  Proof.
    assert (H : (z + 1) * (z * z - z + 1) = 0).
    { transitivity (z * z * z + 1); [ring|]. rewrite z3. ring. }
    apply (fmul_integral B KB) in H. destruct H as [H|H].
    - exfalso. apply X3. replace (2 * e)%N with (e + e)%N by lia. rewrite (fpow_add B RB). fold z.
      assert (E : z = - (1)) by (apply (fsub_0_eq B RB); rewrite <- H; ring). rewrite E. ring.
    - apply (fsub_0_eq B RB). rewrite <- H. ring.
  Qed.
  Lemma z_neq_0 : z <> 0.
  Proof. apply (fpow_neq_0 B KB), Hxi. Qed.

  Local Notation elt x0 x1 x2 x3 x4 x5 := (mkq (A := C) (mkc x0 x2 x4) (mkc x1 x3 x5)).
  Lemma W_frob x0 x1 x2 x3 x4 x5 :
    fpow (elt x0 x1 x2 x3 x4 x5 : W) (p ^ n) =
    elt x0 (z * x1) (z * z * x2) (- x3) (- z * x4) (- (z * z) * x5).
  Proof.
    assert (HQ := FF_Q_ge_2 B p n FB).
    assert (Hc : fpow (mkc 0 1 0 : C) (p ^ n) = mkc 0 (z * z) 0).
    { unfold z. rewrite <- (fpow_add B RB). replace (p ^ n)%N with (3 * (e + e) + 1)%N by lia.
      apply (cub_fpow_w B p n xi FB). }
    assert (Hw : fpow (mkq (A := C) 0 1 : W) (p ^ n) = mkq (A := C) 0 (mkc z 0 0 : C)).
    { replace (p ^ n)%N with (2 * (3 * e) + 1)%N by lia.
      rewrite (quad_fpow_w C p (3 * n) cub_v FC). f_equal. apply (cub_fpow_w_triple B p n xi FB). }
    rewrite (quad_frob_pow C p (3 * n) cub_v FC n _ _ _ Hw).
    rewrite !(cub_frob_pow B p n xi FB n _ _ _ _ Hc), !(FF_frob B p n FB).
    assert (Z := z3). cbn. f_equal; f_equal; ring [Z].
  Qed.

  Section Member.
    Variables x0 x1 x2 x3 x4 x5 : B.
    Local Notation x := (elt x0 x1 x2 x3 x4 x5 : W).
    Hypothesis Hx : fpow x (p ^ n * p ^ n - p ^ n + 1) = 1.

    Lemma W_rel : (elt x0 (z * z * x1) (z * z * z * z * x2) x3 (z * z * x4) (z * z * z * z * x5) : W) * x
      = elt x0 (z * x1) (z * z * x2) (- x3) (- z * x4) (- (z * z) * x5).
    Proof.
      assert (HQ := FF_Q_ge_2 B p n FB).
      rewrite <- W_frob.
      transitivity (fpow x (p ^ n * p ^ n - p ^ n + 1) * fpow x (p ^ n)).
      2:{ rewrite Hx. apply (Rmul_1_l (RL_th _ RW)). }
      rewrite <- (fpow_add W RW). replace (p ^ n * p ^ n - p ^ n + 1 + p ^ n)%N with (p ^ n * p ^ n + 1)%N by nia.
      rewrite (fpow_add W RW), (fpow_1 W RW), (fpow_mul W RW), !W_frob. f_equal.
      f_equal; f_equal; ring [z3].
    Qed.
    Lemma W_rels :
      x0 * x0 + xi * (x3 * x3) - xi * (x1 * x5) - xi * (x2 * x4) = x0 /\
      x0 * x1 + xi * (x3 * x4) - (1 + 1) * xi * (x2 * x5) = x1 /\
      x1 * x1 + xi * (x4 * x4) - x0 * x2 - xi * (x3 * x5) = x2 /\
      x1 * x2 + xi * (x4 * x5) - (1 + 1) * (x0 * x3) = x3 /\
      x2 * x2 + xi * (x5 * x5) - x0 * x4 - x1 * x3 = x4 /\
      x0 * x5 + x2 * x3 - (1 + 1) * (x1 * x4) = x5.
    Proof.
      assert (H := W_rel). assert (Z := z2). assert (Hz := z_neq_0).
      assert (H0 := f_equal (fun t : quad C => c0 (q0 t)) H).
      assert (H1 := f_equal (fun t : quad C => c0 (q1 t)) H).
      assert (H2 := f_equal (fun t : quad C => c1 (q0 t)) H).
      assert (H3 := f_equal (fun t : quad C => c1 (q1 t)) H).
      assert (H4 := f_equal (fun t : quad C => c2 (q0 t)) H).
      assert (H5 := f_equal (fun t : quad C => c2 (q1 t)) H).
      cbn in H0, H1, H2, H3, H4, H5. clear H.
      repeat split.
      - etransitivity; [|exact H0]. ring [Z].
      - apply (fmul_cancel_l B KB z _ _ Hz). etransitivity; [|exact H1]. ring [Z].
      - apply (fmul_cancel_l B KB (z * z)); [apply (fmul_neq_0 B KB); exact Hz|]. etransitivity; [|exact H2]. ring [Z].
      - transitivity (- - x3); [|ring]. rewrite <- H3. ring [Z].
      - apply (fmul_cancel_l B KB z _ _ Hz). transitivity (- (- z * x4)); [|ring]. rewrite <- H4. ring [Z].
      - apply (fmul_cancel_l B KB (z * z)); [apply (fmul_neq_0 B KB); exact Hz|].
        transitivity (- (- (z * z) * x5)); [|ring]. rewrite <- H5. ring [Z].
    Qed.
    (** compressed squaring (Granger-Scott) *)
    Ltac lc k H :=
      lazymatch type of H with
      | ?l = ?r => apply (fsub_0_eq B RB); transitivity (k * (l - r)); [ring|rewrite H; ring]
      end.
    Lemma W_gs :
      elt ((1+1+1) * (x0 * x0 + xi * (x3 * x3)) - (1+1) * x0)
          ((1+1+1) * (xi * ((1+1) * (x2 * x5))) + (1+1) * x1)
          ((1+1+1) * (x1 * x1 + xi * (x4 * x4)) - (1+1) * x2)
          ((1+1+1) * ((1+1) * (x0 * x3)) + (1+1) * x3)
          ((1+1+1) * (x2 * x2 + xi * (x5 * x5)) - (1+1) * x4)
          ((1+1+1) * ((1+1) * (x1 * x4)) + (1+1) * x5)
      = x * x.
    Proof.
      destruct W_rels as (H0 & H1 & H2 & H3 & H4 & H5). cbn.
      f_equal; f_equal.
      - lc ((1 + 1) : B) H0.
      - lc ((1 + 1) : B) H2.
      - lc ((1 + 1) : B) H4.
      - lc ((- (1 + 1)) : B) H1.
      - lc ((- (1 + 1)) : B) H3.
      - lc ((- (1 + 1)) : B) H5.
    Qed.
  End Member.

  Lemma W_conj (x : W) : fpow x (p ^ (3 * n)) = qconj x.
  Proof.
    destruct (p_odd_Q C p (3 * n) FC p2) as [h Hh].
    assert (D : exists k, (h = 3 * e * (2 * k + 1))%N).
    { assert (E3 : (p ^ (3 * n) - 1 = (p ^ n - 1) * (p ^ n * p ^ n + p ^ n + 1))%N).
      { assert (HQ := FF_Q_ge_2 B p n FB). replace (3 * n)%N with (n + n + n)%N by lia. rewrite !N.pow_add_r. nia. }
      rewrite E3, <- He in Hh.
      assert (Q1 : (p ^ n = 6 * e + 1)%N) by (assert (HQ := FF_Q_ge_2 B p n FB); lia).
      exists ((p ^ n * p ^ n + p ^ n) / 2)%N.
      assert (Hdiv : (2 * ((p ^ n * p ^ n + p ^ n) / 2) = p ^ n * p ^ n + p ^ n)%N).
      { rewrite Q1. replace ((6 * e + 1) * (6 * e + 1) + (6 * e + 1))%N with ((18 * e * e + 9 * e + 1) * 2)%N by lia.
        rewrite N.div_mul by lia. lia. }
      rewrite Hdiv. nia. }
    destruct D as [k Hk].
    apply (quad_conj_pow C p (3 * n) cub_v FC h).
    - intros E0. apply (v_not_square 0). rewrite E0. cbn. f_equal; ring.
    - exact Hh.
    - rewrite Hk. rewrite (fpow_mul C RC).
      assert (E : fpow cub_v (3 * e) = mkc z 0 0) by apply (cub_fpow_w_triple B p n xi FB). rewrite E.
      rewrite (cub_fpow_base B p n xi FB). intros H. apply (f_equal c0) in H. change (fpow z (2 * k + 1) = 1) in H.
      (* z^(2k+1) = 1 would make the non-square xi's power trivial *)
      assert (Hh1 : fpow (fpow xi (3 * e)) (2 * k + 1) = 1).
      { replace (3 * e)%N with (e * 3)%N by lia. rewrite (fpow_mul B RB). fold z.
        rewrite <- (fpow_mul B RB). rewrite N.mul_comm, (fpow_mul B RB), H. apply (fpow_one B RB). }
      assert (M1 : fpow xi (3 * e) = - (1)) by (apply (half_power_m1 B p n FB); [exact Hxi|lia|exact X2]).
      rewrite M1, (fpow_add B RB), (fpow_mul B RB), (fpow_2 B RB), (fpow_1 B RB) in Hh1.
      replace (- (1) * - (1) : B) with (1 : B) in Hh1 by ring. rewrite (fpow_one B RB) in Hh1.
      apply X2. rewrite M1. etransitivity; [|exact Hh1]. ring.
  Qed.
  (** the cyclotomic subgroup lies in the norm-1 subgroup *)
  Lemma W_unitary (x : W) : fpow x (p ^ n * p ^ n - p ^ n + 1) = 1 -> x * (qconj x : W) = 1.
  Proof.
    intros Hx. rewrite <- W_conj. assert (HQ := FF_Q_ge_2 B p n FB).
    transitivity (fpow x (p ^ (3 * n) + 1)).
    - rewrite (fpow_add W RW), (fpow_1 W RW). apply (Rmul_comm (RL_th _ RW)).
    - replace (p ^ (3 * n) + 1)%N with ((p ^ n * p ^ n - p ^ n + 1) * (p ^ n + 1))%N.
      + rewrite (fpow_mul W RW), Hx. apply (fpow_one W RW).
      + replace (3 * n)%N with (n + n + n)%N by lia. rewrite !N.pow_add_r. nia.
  Qed.
End Sextic.

(** ** Exponentiation in a group-like monoid with a shortcut squaring *)
Section CycExp.
  Variable F : FieldOps.
  Hypothesis KL : FieldLaws F.
  Let R := FieldLaws_Ring F KL.
  Add Field Ff : (FL_th F KL).
  (** [G]: the subgroup on which [csq] squares and [inv] inverts *)
  Variable G : F -> Prop.
  Variable csq : F -> F.
  Hypothesis G1 : G 1.
  Hypothesis Gmul : forall x y, G x -> G y -> G (x * y).
  Hypothesis Gsq : forall x, G x -> csq x = x * x.

  Lemma G_pow x e : G x -> G (fpow x e).
  Proof.
    intros H. induction e using N.peano_ind; [exact G1|]. rewrite fpow_succ. apply Gmul; assumption.
  Qed.

  Lemma cyc_exp_binary (one : F) (mul : F -> F -> F) x e :
    one = 1 -> (forall x y, mul x y = x * y) -> G x ->
    (if N.eqb e 0 then one
     else snd (for_down (nbits e)
           (fun i '(found_one, res) =>
              let res := if found_one : bool then csq res else res in
              if N.testbit e (N.of_nat i) then (true, mul res x) else (found_one, res))
           (false, one))) = fpow x e.
  Proof.
    intros -> Hm Hx. destruct (N.eqb_spec e 0) as [->|He]; [reflexivity|].
    assert (H := for_down_ind
      (fun i '(found, r) => r = fpow x (N.shiftr e (N.of_nat i))
           /\ (found = false -> N.shiftr e (N.of_nat i) = 0%N))
      (nbits e)
      (fun i '(found_one, result) =>
              let result := if found_one : bool then csq result else result in
              if N.testbit e (N.of_nat i) then (true, mul result x)
              else (found_one, result)) (false, 1)).
    cbn beta in H.
    set (res := for_down _ _ _) in *. destruct res as [found r] eqn:Er. cbn [snd].
    destruct H as [H _].
    - rewrite shiftr_nbits. split; [reflexivity|tauto].
    - clear res found r Er. intros i [found r] Hi [Hr Hf].
      rewrite shiftr_step.
      set (y := N.shiftr e (N.of_nat (S i))) in *.
      assert (Hsq : (if found then csq r else r) = fpow x (2 * y)).
      { destruct found.
        - rewrite Gsq; [rewrite Hr, (fpow_double F R); reflexivity|]. rewrite Hr. apply G_pow, Hx.
        - rewrite Hr, (Hf eq_refl). reflexivity. }
      cbv zeta. rewrite Hsq. destruct (N.testbit e (N.of_nat i)); cbn [N.b2n].
      + split; [|discriminate]. rewrite Hm, N.add_comm, (fpow_add F R), (fpow_1 F R). ring.
      + rewrite N.add_0_r. split; [reflexivity|]. intros E. rewrite (Hf E). reflexivity.
    - cbn [N.of_nat] in H. rewrite N.shiftr_0_r in H. exact H.
  Qed.

  (** integer powers of an invertible element *)
  Definition zpow (x xinv : F) (k : Z) : F :=
    match k with Z0 => 1 | Zpos q => fpow x (Npos q) | Zneg q => fpow xinv (Npos q) end.
  Lemma zpow_succ x y k : x * y = 1 -> zpow x y (k + 1) = zpow x y k * x.
  Proof.
    intros H. destruct k as [|q|q]; cbn [zpow].
    - change (fpow x 1 = 1 * x). rewrite (fpow_1 F R). ring.
    - cbn [Z.add]. cbn [zpow]. rewrite Pos.add_1_r. change (Npos (Pos.succ q)) with (N.succ (Npos q)).
      rewrite fpow_succ. ring.
    - destruct (Pos.eq_dec q 1) as [->|Hq].
      + change (1 = fpow y 1 * x). rewrite (fpow_1 F R). rewrite <- H. ring.
      + replace (Z.neg q + 1)%Z with (Z.neg (Pos.pred q)) by lia. cbn [zpow].
        replace (Npos q) with (N.succ (Npos (Pos.pred q))) by lia.
        rewrite fpow_succ. transitivity ((x * y) * fpow y (N.pos (Pos.pred q))); [rewrite H; ring|ring].
  Qed.
  Lemma zpow_pred x y k : x * y = 1 -> zpow x y (k - 1) = zpow x y k * y.
  Proof.
    intros H. replace (zpow x y k) with (zpow x y (k - 1) * x).
    - transitivity (zpow x y (k - 1) * (x * y)); [rewrite H; ring|ring].
    - rewrite <- (zpow_succ x y _ H). f_equal. lia.
  Qed.
  Lemma zpow_add x y a b : x * y = 1 -> zpow x y (a + b) = zpow x y a * zpow x y b.
  Proof.
    intros H. induction b using Z.peano_ind.
    - rewrite Z.add_0_r. cbn. ring.
    - unfold Z.succ. rewrite Z.add_assoc, !(zpow_succ x y _ H), IHb. ring.
    - unfold Z.pred. replace (a + (b + -1))%Z with (a + b - 1)%Z by lia. replace (b + -1)%Z with (b - 1)%Z by lia.
      rewrite !(zpow_pred x y _ H), IHb. ring.
  Qed.
  Lemma G_zpow x y k : G x -> G y -> G (zpow x y k).
  Proof. intros Hx Hy. destruct k; cbn [zpow]; [exact G1|apply G_pow, Hx|apply G_pow, Hy]. Qed.

  Lemma skipn_nth_cons (l : list Z) i : (i < length l)%nat -> skipn i l = nth i l 0%Z :: skipn (S i) l.
  Proof.
    revert i. induction l as [|a l IH]; intros i Hi; cbn [length] in Hi; [lia|].
    destruct i; [reflexivity|]. cbn [nth]. change (skipn (S i) (a :: l)) with (skipn i l).
    change (skipn (S (S i)) (a :: l)) with (skipn (S i) l). apply IH. lia.
  Qed.
  Lemma cyc_exp_naf (one : F) (mul : F -> F -> F) x y (NAF : list Z) :
    one = 1 -> (forall x y, mul x y = x * y) -> G x -> G y -> x * y = 1 -> digits_ok 1 NAF ->
    snd (for_down (length NAF)
      (fun i '(found_nonzero, res) =>
         let res := if found_nonzero : bool then csq res else res in
         let d := nth i NAF 0%Z in
         if Z.eqb d 0 then (found_nonzero, res)
         else (true, if Z.ltb 0 d then mul res x else mul res y))
      (false, one)) = zpow x y (digits_value NAF).
  Proof.
    intros -> Hm Hx Hy Hxy Hd.
    match goal with |- snd (for_down ?n ?f ?st) = _ =>
    assert (H := for_down_ind
      (fun i '(found, r) => r = zpow x y (digits_value (skipn i NAF))
           /\ (found = false -> digits_value (skipn i NAF) = 0%Z)) n f st) end.
    cbn beta in H.
    set (res := for_down _ _ _) in *. destruct res as [found r] eqn:Er. cbn [snd].
    destruct H as [H _].
    - rewrite skipn_all. split; [reflexivity|reflexivity].
    - clear res found r Er. intros i [found r] Hi [Hr Hf].
      rewrite (skipn_nth_cons NAF i Hi). cbn [digits_value].
      set (Y := digits_value (skipn (S i) NAF)) in *.
      assert (Hsq : (if found then csq r else r) = zpow x y (2 * Y)).
      { destruct found.
        - rewrite Gsq; [|rewrite Hr; apply G_zpow; assumption].
          rewrite Hr. replace (2 * Y)%Z with (Y + Y)%Z by lia. rewrite (zpow_add x y _ _ Hxy). reflexivity.
        - rewrite Hr, (Hf eq_refl). reflexivity. }
      cbv zeta. rewrite Hsq. set (d := nth i NAF 0%Z).
      destruct (Z.eqb_spec d 0) as [E0|E0].
      + rewrite E0, Z.add_0_l. split; [reflexivity|]. intros E. rewrite (Hf E). reflexivity.
      + split; [|discriminate]. rewrite !Hm.
        assert (D : d = 1%Z \/ d = (-1)%Z).
        { destruct (Hd d) as [?|[_ Ha]]; [apply nth_In, Hi|contradiction|]. cbn in Ha. lia. }
        destruct D as [-> | ->].
        * cbn [Z.ltb]. change (0 ?= 1)%Z with Lt. cbv iota. rewrite Z.add_comm, (zpow_succ x y _ Hxy). reflexivity.
        * replace (-1 + 2 * Y)%Z with (2 * Y - 1)%Z by lia. rewrite (zpow_pred x y _ Hxy). reflexivity.
    - exact H.
  Qed.
End CycExp.
