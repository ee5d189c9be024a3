(** Decidable conditions implying "P is on the curve and r P = O", computed with
    inversion-free formulas in a ring A that maps homomorphically to the field. *)
From Coq Require Import ZArith NArith List Bool Lia Ring Field.
From Verif Require Import Base.Field Base.Hom Spec.Group Spec.Weierstrass Spec.Edwards Spec.Montgomery
  Model.ShortWeierstrass Proof.Homs Proof.WeierstrassGroup Proof.WeierstrassRep Proof.EdwardsGroup
  Proof.MontgomeryGroup Properties.Weierstrass.
Local Open Scope fld_scope.

(** double-and-add *)
Fixpoint dbladd {T : Type} (add : T -> T -> T) (dbl : T -> T) (t : T) (n : positive) : T :=
  match n with
  | xH => t
  | xO m => dbl (dbladd add dbl t m)
  | xI m => add (dbl (dbladd add dbl t m)) t
  end.
Lemma dbladd_map {S T : Type} (g : S -> T) add dbl add' dbl' t n :
  (forall x y, g (add x y) = add' (g x) (g y)) -> (forall x, g (dbl x) = dbl' (g x)) ->
  g (dbladd add dbl t n) = dbladd add' dbl' (g t) n.
Proof. intros HA HD. induction n as [m IH|m IH|]; cbn; rewrite ?HA, ?HD, ?IH; reflexivity. Qed.
Lemma dbladd_rep (G : AbGroup) {T : Type} (rep : T -> G -> Prop) add dbl t (x : G) n :
  (forall s u y z, gin y -> gin z -> rep s y -> rep u z -> rep (add s u) (gadd y z)) ->
  (forall s y, gin y -> rep s y -> rep (dbl s) (gadd y y)) ->
  gin x -> rep t x -> rep (dbladd add dbl t n) (gmul (N.pos n) x).
Proof.
  intros HA HD X T0. induction n as [m IH|m IH|]; cbn [dbladd].
  - replace (N.pos m~1) with (N.succ (2 * N.pos m)) by lia.
    rewrite gmul_succ by exact X. rewrite gmul_double by exact X. rewrite g_comm by auto using gmul_in, g_inadd.
    apply HA; auto using gmul_in, g_inadd.
  - replace (N.pos m~0) with (2 * N.pos m)%N by lia. rewrite gmul_double by exact X. apply HD; auto using gmul_in.
  - rewrite gmul_1 by exact X. exact T0.
Qed.

(** ** Short Weierstrass *)
Definition tmap {A B : FieldOps} (h : A -> B) (t : triple A) : triple B := mkT (h (tX t)) (h (tY t)) (h (tZ t)).
Section SWHom.
  Context {A B : FieldOps} (h : A -> B) (H : Hom A B h).
  Lemma heqb0 x : (h x =? 0) = (x =? 0).
  Proof. rewrite <- (hom_0 _ _ _ H). apply (hom_eqb _ _ _ H). Qed.
  Lemma proj_is_zero_hom t : proj_is_zero B (tmap h t) = proj_is_zero A t.
  Proof. unfold proj_is_zero, tmap; cbn [tX tY tZ]. rewrite !heqb0. reflexivity. Qed.
  Lemma proj_eqb_hom t u : proj_eqb B (tmap h t) (tmap h u) = proj_eqb A t u.
  Proof.
    unfold proj_eqb. rewrite !proj_is_zero_hom. unfold tmap; cbn [tX tY tZ].
    rewrite <- !(hom_mul _ _ _ H), !(hom_eqb _ _ _ H). reflexivity.
  Qed.
  Lemma proj_dbl_hom a t : tmap h (proj_dbl A a t) = proj_dbl B (h a) (tmap h t).
  Proof.
    unfold proj_dbl. rewrite proj_is_zero_hom. destruct (proj_is_zero A t); [reflexivity|].
    unfold tmap; cbn [tX tY tZ]. unfold fdbl. repeat progress (homs H). reflexivity.
  Qed.
  Lemma proj_add_hom a t u : tmap h (proj_add A a t u) = proj_add B (h a) (tmap h t) (tmap h u).
  Proof.
    unfold proj_add. rewrite !proj_is_zero_hom, proj_eqb_hom.
    destruct (proj_is_zero A t); [reflexivity|]. destruct (proj_is_zero A u); [reflexivity|].
    destruct (proj_eqb A t u); [apply proj_dbl_hom|].
    unfold proj_add_1998_cmo_2, tmap; cbn [tX tY tZ]. repeat progress (homs H). reflexivity.
  Qed.
End SWHom.

Definition sw_multiple (A : FieldOps) (a x y : A) (r : positive) : triple A :=
  dbladd (proj_add A a) (proj_dbl A a) (mkT x y 1) r.
Definition sw_order_ok (A : FieldOps) (a x y : A) (r : positive) : bool :=
  let t := sw_multiple A a x y r in (tX t =? 0) && (tZ t =? 0).

Section SW.
  Context {A K : FieldOps} (h : A -> K) (H : Hom A K h) (KL : FieldLaws K).
  Let R := FieldLaws_Ring K KL.
  Add Field KSW : (FL_th K KL).
  Hypothesis two : (2 : K) <> 0.
  Lemma sw_multiple_rep (a x y : A) (b : K) r : nonsingular K (h a) b -> on_curve K (h a) b (Aff (h x) (h y)) ->
    is_projective (tmap h (sw_multiple A a x y r)) (ec_mul K (h a) (Pos.to_nat r) (Aff (h x) (h y))).
  Proof.
    intros NS ON. unfold sw_multiple.
    rewrite (dbladd_map (tmap h) _ _ (proj_add K (h a)) (proj_dbl K (h a))) by (intros; auto using proj_add_hom, proj_dbl_hom).
    change (Pos.to_nat r) with (N.to_nat (N.pos r)). rewrite <- (sw_gmul K KL two (h a) b NS).
    apply (dbladd_rep (sw_group K KL two (h a) b NS) (fun t P => is_projective t P)); cbn.
    - intros s u P Q HP HQ S U. exact (proj1 (C18_projective K KL two (h a) b P Q s u HP HQ S U)).
    - intros s P HP S. exact (proj1 (proj2 (proj2 (C18_projective K KL two (h a) b P P s s HP HP S S)))).
    - exact ON.
    - unfold is_projective, tmap; cbn [tX tY tZ rep_projective]. rewrite (hom_1 _ _ _ H).
      split; [apply (f1_neq_0 K KL)|]. split; ring.
  Qed.
  Lemma sw_order_sound (a x y : A) (b : K) r : nonsingular K (h a) b -> on_curve K (h a) b (Aff (h x) (h y)) ->
    sw_order_ok A a x y r = true -> ec_mul K (h a) (Pos.to_nat r) (Aff (h x) (h y)) = Inf.
  Proof.
    intros NS ON C. assert (M := sw_multiple_rep a x y b r NS ON). unfold sw_order_ok in C. cbv zeta in C.
    apply andb_true_iff in C. destruct C as [C1 C2].
    rewrite <- (heqb0 h H) in C1, C2. apply (feqb_true K R) in C1, C2.
    unfold is_projective, tmap in M; cbn [tX tY tZ] in M. rewrite C1, C2 in M.
    destruct (ec_mul K (h a) (Pos.to_nat r) (Aff (h x) (h y))) as [|u v]; [reflexivity|].
    destruct M as [M _]. exfalso. apply M. reflexivity.
  Qed.
End SW.

(** ** Twisted Edwards, homogeneous coordinates x = X/Z, y = Y/Z *)
Section TEForm.
  Variable A : FieldOps.
  Variables a d : A.
  Definition te_padd (P Q : triple A) : triple A :=
    let Z1Z2 := tZ P * tZ Q in
    let B := Z1Z2 * Z1Z2 in
    let C := tX P * tX Q in
    let D := tY P * tY Q in
    let E := d * (C * D) in
    let F := B - E in
    let G := B + E in
    mkT (Z1Z2 * F * (tX P * tY Q + tY P * tX Q)) (Z1Z2 * G * (D - a * C)) (F * G).
  Definition te_multiple (t : triple A) (r : positive) : triple A :=
    dbladd te_padd (fun t => te_padd t t) t r.
  Definition te_order_ok (t : triple A) (r : positive) : bool :=
    let u := te_multiple t r in (tX u =? 0) && (tY u =? tZ u).
  Definition te_on_ok (t : triple A) : bool :=
    let X2 := tX t * tX t in let Y2 := tY t * tY t in let Z2 := tZ t * tZ t in
    negb (tZ t =? 0) && ((a * X2 + Y2) * Z2 =? Z2 * Z2 + d * X2 * Y2).
End TEForm.
Section TE.
  Context {A K : FieldOps} (h : A -> K) (H : Hom A K h) (KL : FieldLaws K).
  Let R := FieldLaws_Ring K KL.
  Add Field KTE : (FL_th K KL).
  Hypothesis two : (2 : K) <> 0.
  Variables a d : A.
  Hypothesis cmp : complete K (h a) (h d).
  Local Notation on := (on_te K (h a) (h d)).
  Definition te_prep (t : triple K) (P : K * K) : Prop := tZ t <> 0 /\ tX t = fst P * tZ t /\ tY t = snd P * tZ t.
  Lemma te_padd_hom t u : tmap h (te_padd A a d t u) = te_padd K (h a) (h d) (tmap h t) (tmap h u).
  Proof. unfold te_padd, tmap; cbn [tX tY tZ]. repeat progress (homs H). reflexivity. Qed.
  Lemma te_padd_ok t u P Q : on P -> on Q -> te_prep t P -> te_prep u Q ->
    te_prep (te_padd K (h a) (h d) t u) (te_add K (h a) (h d) P Q).
  Proof.
    destruct P as [x1 y1], Q as [x2 y2], t as [X1 Y1 Z1], u as [X2 Y2 Z2].
    intros HP HQ (N1 & E1 & F1) (N2 & E2 & F2). cbn [tX tY tZ fst snd] in *. subst X1 Y1 X2 Y2.
    assert (D1 := te_den_p K KL two (h a) (h d) cmp x1 y1 x2 y2 HP HQ).
    assert (D2 := te_den_m K KL two (h a) (h d) cmp x1 y1 x2 y2 HP HQ).
    unfold te_prep, te_padd, te_add; cbn [tX tY tZ fst snd].
    assert (NZ : (Z1 * Z1) * (Z2 * Z2) <> 0) by (repeat apply (fmul_neq_0 K KL); assumption).
    set (F := Z1 * Z2 * (Z1 * Z2) - h d * (x1 * Z1 * (x2 * Z2) * (y1 * Z1 * (y2 * Z2)))).
    set (G := Z1 * Z2 * (Z1 * Z2) + h d * (x1 * Z1 * (x2 * Z2) * (y1 * Z1 * (y2 * Z2)))).
    assert (EF : F = (Z1 * Z1) * (Z2 * Z2) * (1 - h d * x1 * x2 * y1 * y2)) by (unfold F; ring).
    assert (EG : G = (Z1 * Z1) * (Z2 * Z2) * (1 + h d * x1 * x2 * y1 * y2)) by (unfold G; ring).
    clearbody F G. split; [rewrite EF, EG; repeat apply (fmul_neq_0 K KL); assumption|].
    split; rewrite EF, EG; field; assumption.
  Qed.
  Lemma te_multiple_rep t P r : on P -> te_prep (tmap h t) P ->
    te_prep (tmap h (te_multiple A a d t r)) (te_mul K (h a) (h d) (Pos.to_nat r) P).
  Proof.
    intros ON T. unfold te_multiple.
    rewrite (dbladd_map (tmap h) _ _ (te_padd K (h a) (h d)) (fun t => te_padd K (h a) (h d) t t)) by (intros; apply te_padd_hom).
    change (Pos.to_nat r) with (N.to_nat (N.pos r)). rewrite <- (te_gmul K KL two (h a) (h d) cmp).
    apply (dbladd_rep (te_group K KL two (h a) (h d) cmp) te_prep); cbn; auto using te_padd_ok.
  Qed.
  Lemma te_order_sound t P r : on P -> te_prep (tmap h t) P -> te_order_ok A a d t r = true ->
    te_mul K (h a) (h d) (Pos.to_nat r) P = te_zero.
  Proof.
    intros ON T C. assert (M := te_multiple_rep t P r ON T). unfold te_order_ok in C. cbv zeta in C.
    apply andb_true_iff in C. destruct C as [C1 C2].
    rewrite <- (heqb0 h H) in C1. rewrite <- (hom_eqb _ _ _ H) in C2. apply (feqb_true K R) in C1, C2.
    destruct M as (NZ & E & F). unfold tmap in NZ, E, F; cbn [tX tY tZ] in NZ, E, F. rewrite C1 in E. rewrite C2 in F.
    destruct (te_mul K (h a) (h d) (Pos.to_nat r) P) as [u v]. cbn [fst snd] in E, F. unfold te_zero. f_equal.
    - apply (fmul_cancel_r K KL) with (h (tZ (te_multiple A a d t r))); [exact NZ|]. rewrite <- E. ring.
    - apply (fmul_cancel_r K KL) with (h (tZ (te_multiple A a d t r))); [exact NZ|]. rewrite <- F. ring.
  Qed.
  Lemma te_on_sound t P : te_prep (tmap h t) P -> te_on_ok A a d t = true -> on P.
  Proof.
    destruct P as [x y]. intros (NZ & E & F) C. unfold te_on_ok in C. cbv zeta in C. apply andb_true_iff in C. destruct C as [_ C].
    rewrite <- (hom_eqb _ _ _ H) in C. apply (feqb_true K R) in C. revert C. repeat progress (homs H).
    unfold tmap in *; cbn [tX tY tZ fst snd] in *. rewrite E, F. intros C. unfold on_te.
    assert (N4 : h (tZ t) * h (tZ t) * (h (tZ t) * h (tZ t)) <> 0) by (repeat apply (fmul_neq_0 K KL); assumption).
    apply (fmul_cancel_r K KL) with (h (tZ t) * h (tZ t) * (h (tZ t) * h (tZ t))); [exact N4|].
    transitivity ((h a * (x * h (tZ t) * (x * h (tZ t))) + y * h (tZ t) * (y * h (tZ t))) * (h (tZ t) * h (tZ t))); [ring|].
    rewrite C. ring.
  Qed.
End TE.

(** ** Montgomery with B = 1, through the short Weierstrass curve of x + A/3 *)
Section Mont.
  Context {A K : FieldOps} (h : A -> K) (H : Hom A K h) (KL : FieldLaws K).
  Let R := FieldLaws_Ring K KL.
  Add Field KMo : (FL_th K KL).
  Hypothesis two : (2 : K) <> 0.
  Hypothesis three : (3 : K) <> 0.
  Variables a0 x y : A.
  Local Notation MA := (3 * h a0).
  Hypothesis ns : mont_nonsingular K MA 1.
  Lemma mont_mul_phi n P : on_mont K MA 1 P ->
    phi K MA 1 (mont_mul K MA 1 n P) = ec_mul K (wa K MA 1) n (phi K MA 1 P).
  Proof.
    intros ON. induction n as [|n IH]; [reflexivity|]. cbn [mont_mul ec_mul].
    rewrite <- IH. apply (phi_add K KL two three MA 1 ns); [exact ON|].
    replace n with (N.to_nat (N.of_nat n)) by lia. rewrite <- (mont_gmul K KL two three MA 1 ns).
    apply (gmul_in (mont_group K KL two three MA 1 ns)). exact ON.
  Qed.
  Definition mont_order_ok (r : positive) : bool :=
    sw_order_ok A (1 - 3 * (a0 * a0)) (x + a0) y r.
  Lemma mont_order_sound r : on_mont K MA 1 (Aff (h x) (h y)) -> mont_order_ok r = true ->
    mont_mul K MA 1 (Pos.to_nat r) (Aff (h x) (h y)) = Inf.
  Proof.
    intros ON C. apply (phi_inj K KL MA 1 ns). rewrite mont_mul_phi by exact ON.
    assert (E0 : A0 K MA = h a0) by (unfold A0; field; exact three).
    assert (EW : wa K MA 1 = h (1 - 3 * (a0 * a0))).
    { unfold wa. rewrite E0. repeat progress (homs H). field. apply (f1_neq_0 K KL). }
    assert (EP : phi K MA 1 (Aff (h x) (h y)) = Aff (h (x + a0)) (h y)).
    { cbn. rewrite E0, (hom_add _ _ _ H). f_equal; field; apply (f1_neq_0 K KL). }
    assert (ON' := proj1 (phi_on K KL three MA 1 ns _) ON). assert (NS := phi_nonsingular K KL three MA 1 ns).
    rewrite EP in *. rewrite EW in *.
    rewrite (sw_order_sound h H KL two _ _ _ (wb K MA 1) r NS ON' C). reflexivity.
  Qed.
End Mont.
