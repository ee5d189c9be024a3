(** Homomorphisms that also respect inversion, and the Miller functions under them.
    [BigFp p] is [BigZp] with inversion by Fermat; a computation device for concrete points. *)
From Coq Require Import ZArith NArith List Bool Lia Znumtheory Ring_theory Field_theory.
From Bignums Require Import BigN.
From Verif Require Import Base.Field Base.Zp Base.Ext Base.Hom Base.BigZp Model.Power Model.Fp2 Model.Fp3 Model.Fp4
  Model.Fp6_2over3 Model.Fp6_3over2 Model.Fp12 Spec.Weierstrass Spec.Pairing Proof.Homs Proof.Frob Proof.FiniteField Proof.PairingFinal.
Local Open Scope fld_scope.

Lemma inv_uniq (K : FieldOps) (KL : FieldLaws K) (y z : K) : y <> 0 -> z * y = 1 -> z = finv y.
Proof.
  intros N E. apply (fmul_cancel_l K KL y _ _ N). rewrite (Rmul_comm (F_R (FL_th K KL)) y z), E. symmetry. rewrite (Rmul_comm (F_R (FL_th K KL))). apply (Finv_l (FL_th K KL)), N.
Qed.
Record FHom (A B : FieldOps) (h : A -> B) : Prop := mkFHom {
  fh_hom : Hom A B h;
  fh_inv : forall x, h (finv x) = finv (h x)
}.

(** [BigZp] with products brought to the least word size (a zero of some word size would otherwise grow) *)
Definition BigZr (m : BigN.t) : FieldOps := let A := BigZp m in {|
  car := BigN.t; f0 := @f0 A; f1 := @f1 A; fadd := @fadd A; fmul := fun x y => BigN.sub (@fmul A x y) BigN.zero;
  fsub := @fsub A; fopp := @fopp A; finv := @finv A; feqb := @feqb A |}.
Lemma BigZr_hom p m : (1 < p)%Z -> BigN.to_Z m = p -> Hom (BigZr m) (Zp p) (of_big p).
Proof.
  intros Hp Hm. destruct (BigZp_hom p m Hp Hm) as [H0 H1 Ha Hmu Hs Ho He]. constructor; try assumption.
  intros x y. rewrite <- Hmu. unfold of_big. f_equal. cbn [BigZr fmul]. rewrite BigN.spec_sub, BigN.spec_0, Z.sub_0_r.
  apply Z.max_r. apply BigN.spec_pos.
Qed.
(** a sum is reduced by one subtraction; the branches with a division are never taken on reduced operands *)
Definition BigFp (p : Z) : FieldOps :=
  let m := bigz p in let A := BigZr m in {|
  car := BigN.t; f0 := @f0 A; f1 := @f1 A;
  fadd := fun x y => let s := BigN.add x y in if BigN.leb m s then BigN.sub s m else s;
  fmul := @fmul A;
  fsub := fun x y => if BigN.leb y x then BigN.sub x y else if BigN.leb y m then BigN.add x (BigN.sub m y) else @fsub A x y;
  fopp := fun x => if BigN.leb x m then BigN.sub m x else @fopp A x;
  finv := fun x => @fpower A x (Z.to_N (p - 2)); feqb := @feqb A |}.
Lemma BigFp_hom p : prime p -> (2 < p)%Z -> FHom (BigFp p) (Zp p) (of_big p).
Proof.
  intros Pp Hp. assert (Hm : BigN.to_Z (bigz p) = p) by (apply bigz_spec; lia).
  assert (H : Hom (BigZr (bigz p)) (Zp p) (of_big p)) by (apply BigZr_hom; [lia|exact Hm]).
  assert (KL := FF_field _ _ _ (Zp_FinField p Pp)).
  split.
  - destruct H as [H0 H1 Ha Hmu Hs Ho He]. constructor; cbn [BigFp f0 f1 fadd fmul fsub fopp feqb car]; try assumption.
    + intros x y. cbv zeta. assert (C := BigN.spec_leb (bigz p) (BigN.add x y)). rewrite Hm in C.
      apply zp_ext. unfold of_big. zcbn. rewrite <- Zplus_mod.
      destruct (BigN.leb (bigz p) (BigN.add x y)).
      * symmetry in C. apply Z.leb_le in C. rewrite BigN.spec_sub, Hm, Z.max_r, BigN.spec_add by lia.
        rewrite <- (Z_mod_plus_full _ (-1) p). rewrite <- (Z_mod_plus_full (BigN.to_Z x + BigN.to_Z y) (-2) p). f_equal. lia.
      * rewrite BigN.spec_add. reflexivity.
    + intros x y. assert (C := BigN.spec_leb y x). assert (D := BigN.spec_leb y (bigz p)). rewrite Hm in D.
      destruct (BigN.leb y x).
      * symmetry in C. apply Z.leb_le in C. apply zp_ext. unfold of_big. zcbn. rewrite <- Zminus_mod, BigN.spec_sub, Z.max_r by lia. reflexivity.
      * destruct (BigN.leb y (bigz p)); [|apply Hs]. symmetry in D. apply Z.leb_le in D.
        apply zp_ext. unfold of_big. zcbn. rewrite <- Zminus_mod, BigN.spec_add, BigN.spec_sub, Hm, Z.max_r by lia.
        rewrite <- (Z_mod_plus_full (BigN.to_Z x - BigN.to_Z y) 1 p). f_equal. lia.
    + intros x. assert (D := BigN.spec_leb x (bigz p)). rewrite Hm in D.
      destruct (BigN.leb x (bigz p)); [|apply Ho]. symmetry in D. apply Z.leb_le in D.
      rewrite <- Ho. apply zp_ext. unfold of_big. zcbn. rewrite BigN.spec_sub, Hm, Z.max_r by lia.
      cbn [BigZr BigZp fopp]. rewrite BigN.spec_modulo, BigN.spec_sub, BigN.spec_modulo, Hm.
      assert (B := Z.mod_pos_bound (BigN.to_Z x) p ltac:(lia)). rewrite Z.max_r by lia. rewrite Z.mod_mod by lia.
      rewrite Zminus_mod_idemp_r. reflexivity.
  - intros x. cbn [BigFp finv]. rewrite (hom_fpower _ H), fpower_fpow by apply (FieldLaws_Ring _ KL).
    generalize (of_big p x). intros y. destruct (feq_dec (Zp p) (FieldLaws_Ring _ KL) y 0) as [->|N].
    + rewrite invp_0 by lia. apply fpow_zero; [apply (FieldLaws_Ring _ KL)|lia].
    + assert (E := Zp_fermat1 p y Pp N). replace (Z.to_N (p - 1)) with (Z.to_N (p - 2) + 1)%N in E by lia.
      rewrite fpow_add, fpow_1 in E by apply (FieldLaws_Ring _ KL).
      exact (inv_uniq _ KL y _ N E).
Qed.

Section Lift.
  Context {A B : FieldOps} (h : A -> B) (H : FHom A B h).
  Ltac inv_solve := repeat progress (homs (fh_hom _ _ _ H); rewrite ?(fh_inv _ _ _ H)); reflexivity.
  Lemma fhom_fp2 (nr : A) : FHom (Fp2 A nr) (Fp2 B (h nr)) (qmap h).
  Proof.
    split; [apply (hom_fp2 h (fh_hom _ _ _ H))|]. intros x. cbn [Fp2 finv]. unfold fp2_inv, qmap, fsqr; cbn [q0 q1]. f_equal; inv_solve.
  Qed.
  Lemma fhom_fp3 (nr : A) : FHom (Fp3 A nr) (Fp3 B (h nr)) (cmap h).
  Proof.
    split; [apply (hom_fp3 h (fh_hom _ _ _ H))|]. intros x. cbn [Fp3 finv]. unfold fp3_inv, cmap, fsqr; cbn [c0 c1 c2]. f_equal; inv_solve.
  Qed.
  Lemma fhom_fp6 Asqr Bsqr (xi : A) : (forall x, h (Asqr x) = Bsqr (h x)) -> FHom (Fp6 A Asqr xi) (Fp6 B Bsqr (h xi)) (cmap h).
  Proof.
    intros S. split; [apply (hom_fp6 h (fh_hom _ _ _ H))|]. intros x. cbn [Fp6 finv]. unfold fp6_inv, fp6_mbnr, cmap; cbn [c0 c1 c2].
    f_equal; repeat progress (homs (fh_hom _ _ _ H); rewrite ?(fh_inv _ _ _ H), ?S); reflexivity.
  Qed.
End Lift.
Section Lift2.
  Context {A B : FieldOps} (h : A -> B) (H : FHom A B h).
  Lemma fhom_fp4 (nr nr4 : A) : FHom (Fp4 A nr nr4) (Fp4 B (h nr) (h nr4)) (qmap (qmap h)).
  Proof.
    split; [apply (hom_fp4 h (fh_hom _ _ _ H))|]. assert (H2 := fhom_fp2 h H nr).
    assert (Hm : forall a : Fp2 A nr, qmap h (fp4_mbnr A nr nr4 a) = fp4_mbnr B (h nr) (h nr4) (qmap h a)).
    { intros a. unfold fp4_mbnr, qmap. cbn [q0 q1]. f_equal. apply (fh_hom _ _ _ H). }
    intros x. cbn [Fp4 finv]. unfold fp4_inv, fsqr.
    rewrite ?(hom_fp2_sqr h (fh_hom _ _ _ H)).
    unfold qmap at 1; cbn [q0 q1]. 
    f_equal; repeat progress (homs (fh_hom _ _ _ H2); rewrite ?(fh_inv _ _ _ H2), ?Hm, ?(hom_fp2_sqr h (fh_hom _ _ _ H))); reflexivity.
  Qed.
  Lemma fhom_fp6t (nr nr6 : A) : FHom (Fp6t A nr nr6) (Fp6t B (h nr) (h nr6)) (qmap (cmap h)).
  Proof.
    split; [apply (hom_fp6t h (fh_hom _ _ _ H))|]. assert (H2 := fhom_fp3 h H nr).
    assert (Hm : forall a : Fp3 A nr, cmap h (fp6t_mbnr A nr nr6 a) = fp6t_mbnr B (h nr) (h nr6) (cmap h a)).
    { intros a. unfold fp6t_mbnr, cmap. cbn [c0 c1 c2]. f_equal. apply (fh_hom _ _ _ H). }
    assert (Hs : forall a : Fp3 A nr, cmap h (fp3_sqr A nr a) = fp3_sqr B (h nr) (cmap h a)).
    { intros a. exact (hom_mul _ _ _ (fh_hom _ _ _ H2) a a). }
    intros x. cbn [Fp6t finv]. unfold fp6t_inv, fsqr.
    unfold qmap at 1; cbn [q0 q1].
    f_equal; repeat progress (homs (fh_hom _ _ _ H2); rewrite ?(fh_inv _ _ _ H2), ?Hm, ?Hs); reflexivity.
  Qed.
  Lemma fhom_fp12 Asqr Bsqr (xi xi12 : A) : (forall x, h (Asqr x) = Bsqr (h x)) ->
    FHom (Fp12 A Asqr xi xi12) (Fp12 B Bsqr (h xi) (h xi12)) (qmap (cmap h)).
  Proof.
    intros S. split; [apply (hom_fp12 h (fh_hom _ _ _ H))|]. assert (H2 := fhom_fp6 h H Asqr Bsqr xi S).
    assert (Hm : forall a : Fp6 A Asqr xi, cmap h (fp12_mbnr A Asqr xi xi12 a) = fp12_mbnr B Bsqr (h xi) (h xi12) (cmap h a)).
    { intros a. unfold fp12_mbnr, cmap. cbn [c0 c1 c2]. f_equal. apply (fh_hom _ _ _ H). }
    assert (Hs : forall a : Fp6 A Asqr xi, cmap h (fp6_sqr A xi a) = fp6_sqr B (h xi) (cmap h a)).
    { intros a. exact (hom_mul _ _ _ (fh_hom _ _ _ H2) a a). }
    intros x. cbn [Fp12 finv]. unfold fp12_inv.
    unfold qmap at 1; cbn [q0 q1].
    f_equal; repeat progress (homs (fh_hom _ _ _ H2); rewrite ?(fh_inv _ _ _ H2), ?Hm, ?Hs); reflexivity.
  Qed.
End Lift2.

Section Miller.
  Context {A B : FieldOps} (h : A -> B) (H : FHom A B h).
  Let HH := fh_hom _ _ _ H.
  Lemma fhom_div x y : h (fdiv x y) = fdiv (h x) (h y).
  Proof. unfold fdiv. rewrite (hom_mul _ _ _ HH), (fh_inv _ _ _ H). reflexivity. Qed.
  Ltac go := repeat progress (homs HH; rewrite ?fhom_div); reflexivity.
  Notation pm := (point_map (h : A -> B)).
  Lemma fhom_ec_add a P Q : pm (ec_add A a P Q) = ec_add B (h a) (pm P) (pm Q).
  Proof.
    destruct P as [|x1 y1], Q as [|x2 y2]; try reflexivity. cbn [point_map ec_add].
    rewrite <- (hom_opp _ _ _ HH), !(hom_eqb _ _ _ HH). destruct (x1 =? x2); [destruct (y1 =? - y2); [reflexivity|]|];
    unfold ec_line; cbn [point_map]; f_equal; go.
  Qed.
  Lemma fhom_line a P Q S : h (line A a P Q S) = line B (h a) (pm P) (pm Q) (pm S).
  Proof.
    destruct P as [|x1 y1], Q as [|x2 y2], S as [|x y]; try apply (hom_1 _ _ _ HH). cbn [point_map line].
    rewrite <- (hom_opp _ _ _ HH), !(hom_eqb _ _ _ HH). destruct (x1 =? x2); [destruct (y1 =? - y2)|]; go.
  Qed.
  Lemma fhom_vertical P S : h (vertical A P S) = vertical B (pm P) (pm S).
  Proof. destruct P as [|x1 y1], S as [|x y]; try apply (hom_1 _ _ _ HH). cbn [point_map vertical]. go. Qed.
  Lemma fhom_miller a n Q S : miller B (h a) n (pm Q) (pm S) = (h (fst (miller A a n Q S)), pm (snd (miller A a n Q S))).
  Proof.
    induction n as [n IH|n IH|]; cbn [miller]; [| |cbn [fst snd]; rewrite (hom_1 _ _ _ HH); reflexivity];
      rewrite IH; destruct (miller A a n Q S) as [f R]; cbn [fst snd];
      repeat progress (homs HH; rewrite ?fhom_div, ?fhom_line, ?fhom_vertical, ?fhom_ec_add); reflexivity.
  Qed.
  Lemma fhom_miller_fun a n Q S : miller_fun B (h a) n (pm Q) (pm S) = h (miller_fun A a n Q S).
  Proof. unfold miller_fun. rewrite fhom_miller. reflexivity. Qed.
  Lemma fhom_miller_fun_neg a n Q S : miller_fun_neg B (h a) n (pm Q) (pm S) = h (miller_fun_neg A a n Q S).
  Proof.
    unfold miller_fun_neg. rewrite fhom_miller. destruct (miller A a n Q S) as [f R]; cbn [fst snd].
    rewrite (fh_inv _ _ _ H), (hom_mul _ _ _ HH), fhom_vertical. reflexivity.
  Qed.
End Miller.
