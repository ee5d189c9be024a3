(** Homomorphisms lift to the extension classes and commute with [power]. *)
From Coq Require Import ZArith NArith List Bool Lia.
From Verif Require Import Base.Field Base.Ext Base.Hom Model.Power Model.Fp2 Model.Fp3 Model.Fp4
  Model.Fp6_2over3 Model.Fp6_3over2 Model.Fp12 Proof.Power.

Ltac homs H := rewrite ?(hom_0 _ _ _ H), ?(hom_1 _ _ _ H), ?(hom_add _ _ _ H), ?(hom_mul _ _ _ H),
                 ?(hom_sub _ _ _ H), ?(hom_opp _ _ _ H).
Ltac hom_solve H := repeat progress (homs H); reflexivity.

Section Power.
  Context {A B : FieldOps} (h : A -> B) (H : Hom A B h).

  Lemma for_down_map {S T : Type} (g : S -> T) n f f' st :
    (forall i s, g (f i s) = f' i (g s)) -> g (for_down n f st) = for_down n f' (g st).
  Proof.
    intros E. revert st. induction n as [|n IH]; intros st; cbn; [reflexivity|].
    rewrite IH, E. reflexivity.
  Qed.

  Lemma hom_power_gen {S T : Type} (g : S -> T) one one' mul mul' sqr sqr' x e :
    g one = one' -> (forall a b, g (mul a b) = mul' (g a) (g b)) -> (forall a, g (sqr a) = sqr' (g a)) ->
    g (power one mul sqr x e) = power one' mul' sqr' (g x) e.
  Proof.
    intros E1 Em Es. unfold power. destruct (N.eqb e 0); [exact E1|].
    set (f := fun i '(b, r) => _). set (f' := fun i '(b, r) => _).
    assert (E := for_down_map (fun '(b, r) => (b : bool, g r)) (nbits e) f f' (false, one)).
    cbv beta iota in E. rewrite E1 in E. rewrite <- E.
    - destruct (for_down (nbits e) f (false, one)); reflexivity.
    - intros i [b r]. unfold f, f'. cbv zeta.
      destruct b; rewrite <- ?Es; destruct (N.testbit e (N.of_nat i)); rewrite ?Em; reflexivity.
  Qed.

  (** Square-and-multiply with the class' own multiplication. *)
  Definition fpower {K : FieldOps} (x : K) (e : N) : K := power f1 fmul fsqr x e.

  Lemma hom_fpower x e : h (fpower x e) = fpower (h x) e.
  Proof.
    apply hom_power_gen; unfold fsqr; intros; homs H; reflexivity.
  Qed.

  Lemma hom_fofpos p : h (fofpos p) = fofpos p.
  Proof.
    induction p as [p IH|p IH|]; cbn [fofpos]; unfold fdbl; repeat progress (homs H); rewrite ?IH; reflexivity.
  Qed.
  Lemma hom_fofZ z : h (fofZ z) = fofZ z.
  Proof. destruct z; cbn [fofZ]; homs H; rewrite ?hom_fofpos; reflexivity. Qed.

  Lemma hom_eqb_true x y : RingLaws B -> feqb x y = true -> h x = h y.
  Proof. intros R E. rewrite <- (hom_eqb _ _ _ H) in E. apply (feqb_true B R), E. Qed.
  Lemma hom_eqb_false x y : RingLaws B -> feqb x y = false -> h x <> h y.
  Proof. intros R E. rewrite <- (hom_eqb _ _ _ H) in E. apply (feqb_false B R), E. Qed.
End Power.

Lemma fpower_fpow (K : FieldOps) (x : K) e : RingLaws K -> fpower x e = fpow x e.
Proof. intros R. apply (power_gen K R); reflexivity. Qed.

Section Lift.
  Context {A B : FieldOps} (h : A -> B) (H : Hom A B h).

  Lemma hom_fp2 (nr : A) : Hom (Fp2 A nr) (Fp2 B (h nr)) (qmap h).
  Proof.
    constructor; intros; unfold qmap; cbn [Fp2 f0 f1 fadd fmul fsub fopp feqb];
      unfold fp2_neg, fp2_sub, fp2_zero, fp2_one, fp2_add, fp2_mul, fp2_neg, fp2_sub, fp2_eqb; cbn [q0 q1].
    7: rewrite !(hom_eqb _ _ _ H); reflexivity.
    all: f_equal; hom_solve H.
  Qed.
  Lemma hom_fp2_sqr (nr : A) x : qmap h (fp2_sqr A nr x) = fp2_sqr B (h nr) (qmap h x).
  Proof. unfold qmap, fp2_sqr; cbn [q0 q1]; f_equal; hom_solve H. Qed.
  Lemma hom_fp3 (nr : A) : Hom (Fp3 A nr) (Fp3 B (h nr)) (cmap h).
  Proof.
    constructor; intros; unfold cmap; cbn [Fp3 f0 f1 fadd fmul fsub fopp feqb];
      unfold fp3_neg, fp3_sub, fp3_zero, fp3_one, fp3_add, fp3_mul, fp3_neg, fp3_sub, fp3_eqb; cbn [c0 c1 c2].
    7: rewrite !(hom_eqb _ _ _ H); reflexivity.
    all: f_equal; hom_solve H.
  Qed.
  Lemma hom_fp6 Asqr Bsqr (xi : A) : Hom (Fp6 A Asqr xi) (Fp6 B Bsqr (h xi)) (cmap h).
  Proof.
    constructor; intros; unfold cmap; cbn [Fp6 f0 f1 fadd fmul fsub fopp feqb];
      unfold fp6_neg, fp6_sub, fp6_zero, fp6_one, fp6_add, fp6_mul, fp6_neg, fp6_sub, fp6_eqb, fp6_mbnr; cbn [c0 c1 c2].
    7: rewrite !(hom_eqb _ _ _ H); reflexivity.
    all: f_equal; hom_solve H.
  Qed.
End Lift.

Section Lift2.
  Context {A B : FieldOps} (h : A -> B) (H : Hom A B h).

  Lemma hom_fp4 (nr nr4 : A) : Hom (Fp4 A nr nr4) (Fp4 B (h nr) (h nr4)) (qmap (qmap h)).
  Proof.
    assert (H2 := hom_fp2 h H nr).
    assert (Hm : forall a : Fp2 A nr, qmap h (fp4_mbnr A nr nr4 a) = fp4_mbnr B (h nr) (h nr4) (qmap h a)).
    { intros a. unfold fp4_mbnr, qmap. cbn [q0 q1]. f_equal. apply H. }
    constructor; intros; cbn [Fp4 f0 f1 fadd fmul fsub fopp feqb];
      unfold fp4_neg, fp4_sub, fp4_zero, fp4_one, fp4_add, fp4_mul, fp4_neg, fp4_sub, fp4_eqb.
    7: change (((qmap h (q0 x) : Fp2 B (h nr)) =? qmap h (q0 y)) && ((qmap h (q1 x) : Fp2 B (h nr)) =? qmap h (q1 y))
               = ((q0 x =? q0 y) && (q1 x =? q1 y)))%fld; rewrite !(hom_eqb _ _ _ H2); reflexivity.
    all: unfold qmap at 1; cbn [q0 q1]; f_equal;
      repeat progress (homs H2; rewrite ?Hm); reflexivity.
  Qed.
  Lemma hom_fp6t (nr nr6 : A) : Hom (Fp6t A nr nr6) (Fp6t B (h nr) (h nr6)) (qmap (cmap h)).
  Proof.
    assert (H2 := hom_fp3 h H nr).
    assert (Hm : forall a : Fp3 A nr, cmap h (fp6t_mbnr A nr nr6 a) = fp6t_mbnr B (h nr) (h nr6) (cmap h a)).
    { intros a. unfold fp6t_mbnr, cmap. cbn [c0 c1 c2]. f_equal. apply H. }
    constructor; intros; cbn [Fp6t f0 f1 fadd fmul fsub fopp feqb];
      unfold fp6t_neg, fp6t_sub, fp6t_zero, fp6t_one, fp6t_add, fp6t_mul, fp6t_neg, fp6t_sub, fp6t_eqb.
    7: change (((cmap h (q0 x) : Fp3 B (h nr)) =? cmap h (q0 y)) && ((cmap h (q1 x) : Fp3 B (h nr)) =? cmap h (q1 y))
               = ((q0 x =? q0 y) && (q1 x =? q1 y)))%fld; rewrite !(hom_eqb _ _ _ H2); reflexivity.
    all: unfold qmap at 1; cbn [q0 q1]; f_equal;
      repeat progress (homs H2; rewrite ?Hm); reflexivity.
  Qed.
  Lemma hom_fp12 Asqr Bsqr (xi xi12 : A) :
    Hom (Fp12 A Asqr xi xi12) (Fp12 B Bsqr (h xi) (h xi12)) (qmap (cmap h)).
  Proof.
    assert (H2 := hom_fp6 h H Asqr Bsqr xi).
    assert (Hm : forall a : Fp6 A Asqr xi, cmap h (fp12_mbnr A Asqr xi xi12 a) = fp12_mbnr B Bsqr (h xi) (h xi12) (cmap h a)).
    { intros a. unfold fp12_mbnr, cmap. cbn [c0 c1 c2]. f_equal. apply H. }
    constructor; intros; cbn [Fp12 f0 f1 fadd fmul fsub fopp feqb];
      unfold fp12_neg, fp12_sub, fp12_zero, fp12_one, fp12_add, fp12_mul, fp12_neg, fp12_sub, fp12_eqb.
    7: change (((cmap h (q0 x) : Fp6 B Bsqr (h xi)) =? cmap h (q0 y)) && ((cmap h (q1 x) : Fp6 B Bsqr (h xi)) =? cmap h (q1 y))
               = ((q0 x =? q0 y) && (q1 x =? q1 y)))%fld; rewrite !(hom_eqb _ _ _ H2); reflexivity.
    all: unfold qmap at 1; cbn [q0 q1]; f_equal;
      repeat progress (homs H2; rewrite ?Hm); reflexivity.
  Qed.
End Lift2.
