(** Bilinearity of the ate pairing: the second argument lies in the group generated by a
    point of the twist on which the Frobenius map is known, the first on the curve over the
    base field. *)
From Coq Require Import ZArith NArith List Bool Lia Ring Field Znumtheory.
From Verif Require Import Base.Field Base.Ext Base.Hom Spec.Group Spec.Weierstrass Spec.Pairing Proof.Homs Proof.Frob Proof.FiniteField
  Proof.WeierstrassCoords Proof.WeierstrassGroup Proof.WeierstrassRep Proof.PairingMiller Proof.PairingBls Proof.PairingNeg Proof.PairingReduced Proof.PairingFinal
  Proof.MillerLaws Proof.MillerBilinear Proof.OrderCheck Model.ShortWeierstrass Properties.Weierstrass.
Local Open Scope fld_scope.

Section FrobHom.
  Variable K : FieldOps.
  Variables p d : N.
  Hypothesis FF : FinField K p d.
  Let KL := FF_field _ _ _ FF.
  Let R := FieldLaws_Ring K KL.
  Add Field Kfh : (FL_th K KL).
  Lemma frob_hom : Hom K K (fun x => fpow x p).
  Proof.
    assert (P := FF_prime _ _ _ FF). assert (C := FF_char _ _ _ FF). assert (P2 := prime_ge_2 _ P).
    assert (A : forall x y : K, fpow (x + y) p = fpow x p + fpow y p) by (intros; apply (freshman K R); assumption).
    assert (Z : fpow (0 : K) p = 0) by (apply (fpow_zero K R); lia).
    assert (O : forall x : K, fpow (- x) p = - fpow x p).
    { intros x. assert (E := A x (- x)). replace (x + - x) with (0 : K) in E by ring. rewrite Z in E.
      transitivity (fpow x p + fpow (- x) p - fpow x p); [ring|]. rewrite <- E. ring. }
    assert (S : forall x y : K, fpow (x - y) p = fpow x p - fpow y p).
    { intros x y. replace (x - y) with (x + - y) by ring. rewrite A, O. ring. }
    constructor.
    - exact Z.
    - apply (fpow_one K R).
    - exact A.
    - intros. apply (fpow_mul_l K R).
    - exact S.
    - exact O.
    - intros x y. destruct (feqb_spec K R x y) as [->|N]; [apply (feqb_refl K R)|]. apply (feqb_false K R). intros E. apply N.
      destruct (feq_dec K R (x - y) 0) as [D|D]; [apply (fsub_0_eq K R), D|]. exfalso. apply (fpow_neq_0 K KL _ p D). rewrite S, E. ring.
  Qed.
End FrobHom.

(** the pairing is bilinear on E(K) and the group generated by Q0, and never zero *)
Definition bilinear {K F G : FieldOps} (a b : K) (a' : F) (Q0 : point F) (T : point K -> point F -> G) : Prop :=
  let G2 Q := exists k, Q = ec_mul F a' k Q0 in let G1 := on_curve K a b in
  (forall P Q, G1 P -> G2 Q -> T P Q <> 0) /\
  (forall P P' Q, G1 P -> G1 P' -> G2 Q -> T (ec_add K a P P') Q = T P Q * T P' Q) /\
  (forall P Q Q', G1 P -> G2 Q -> G2 Q' -> T P (ec_add F a' Q Q') = T P Q * T P Q') /\
  (forall i j P Q, G1 P -> G2 Q -> T (ec_mul K a (N.to_nat i) P) (ec_mul F a' (N.to_nat j) Q) = fpow (T P Q) (i * j)).
Lemma bilinear_ext {K F G : FieldOps} (a b : K) (a' : F) Q0 (T T' : point K -> point F -> G) :
  (forall P Q, T P Q = T' P Q) -> bilinear a b a' Q0 T -> bilinear a b a' Q0 T'.
Proof.
  intros E (A & B & C & D). repeat split.
  - intros P Q. rewrite <- E. apply A.
  - intros P P' Q. rewrite <- !E. apply B.
  - intros P Q Q'. rewrite <- !E. apply C.
  - intros i j P Q. rewrite <- !E. apply D.
Qed.

(** the condition on the generator of the twist *)
Definition gen_frob {F : FieldOps} (a' : F) (Q0 : point F) (n : positive) (p m : N) (nu : F) (sg : bool) : Prop :=
  match Q0, ec_mul F a' (N.to_nat (Npos n)) Q0 with
  | Aff x y, Aff X Y => X * (fpow nu m * fpow nu m) = fpow x p /\ Y * (fpow nu m * fpow nu m * fpow nu m) = (if sg then - fpow y p else fpow y p)
  | _, _ => False
  end.

Section Tw.
  Variables K F G : FieldOps.
  Variables p d : N.
  Hypothesis FK : FinField K p 1.
  Hypothesis KF : FieldLaws F.
  Hypothesis FG : FinField G p d.
  Let KK := FF_field _ _ _ FK.
  Let KG := FF_field _ _ _ FG.
  Let RF := FieldLaws_Ring F KF.
  Let RG := FieldLaws_Ring G KG.
  Add Field Ftb : (FL_th F KF).
  Add Field Gtb : (FL_th G KG).
  Hypothesis IK0 : finv (0 : K) = 0.
  Hypothesis J0 : finv (0 : G) = 0.
  Variable inc : K -> F.
  Hypothesis HI : Hom K F inc.
  Variable emb : F -> G.
  Hypothesis HE : Hom F G emb.
  Variable w : G.
  Hypothesis Hw : w <> 0.
  Variable conj : G -> G.
  Hypothesis HC : Hom G G conj.
  Hypothesis Ce : forall x, conj (emb x) = emb x.
  Hypothesis Cw : conj w = - w.
  Hypothesis Cc : forall x, conj (conj x) = x.
  Variables a b : K.
  Variables a' b' : F.
  Let A : G := emb (inc a).
  Let B : G := emb (inc b).
  Hypothesis Ha : emb a' = A * (w * w * w * w).
  Hypothesis Hb : emb b' = B * (w * w * w * w * w * w).
  Hypothesis two : (2 : F) <> 0.
  Hypothesis NS : nonsingular F a' b'.
  Variables e r : N.
  Variable n : positive.
  Hypothesis Hfix : forall x, x <> 0 -> conj x = x -> fpow x e = 1.
  Hypothesis Pr : prime (Z.of_N r).
  Hypothesis odd : N.odd r = true.
  Hypothesis nlt : (Npos n < r)%N.
  Variables sg neg : bool.
  Hypothesis Hnum : exists k, (e * (if sg then Npos n + p else p) = (if sg then 0 else e * Npos n) + k * (p ^ d - 1))%N.
  (** w^q = nu, with q a divisor of p - 1 *)
  Variables q m : N.
  Variable nu : F.
  Hypothesis Hq : p = (1 + q * m)%N.
  Hypothesis Hnu : fpow w q = emb nu.
  Let gam : F := fpow nu m.
  Variable Q0 : point F.
  Hypothesis OQ0 : on_curve F a' b' Q0.
  Hypothesis RQ0 : ec_mul F a' (N.to_nat r) Q0 = Inf.
  (** the Frobenius map of the curve, moved to the twist, is multiplication by n or -n *)
  Hypothesis FQ0 : gen_frob a' Q0 n p m nu sg.
  Local Notation psi := (untwist emb w).
  Local Notation pt P := (point_map (fun x => emb (inc x)) P).
  Definition phi_ (x : G) : G := fpow x p.
  Definition HPhi : Hom G G phi_ := frob_hom G p d FG.

  Lemma two' : (2 : G) <> 0. Proof. apply (two_GT F G KF KG emb HE two). Qed.
  Lemma w_neq0 x : x <> 0 -> emb x <> 0. Proof. apply (emb_neq0 F G KF KG emb HE). Qed.
  Lemma e2 (K1 K2 : FieldOps) (h : K1 -> K2) (HH : Hom K1 K2 h) : h (2 : K1) = (2 : K2). Proof. rewrite (hom_add _ _ _ HH), (hom_1 _ _ _ HH). reflexivity. Qed.
  Lemma e3 (K1 K2 : FieldOps) (h : K1 -> K2) (HH : Hom K1 K2 h) : h (3 : K1) = (3 : K2). Proof. rewrite (hom_add _ _ _ HH), (e2 _ _ _ HH), (hom_1 _ _ _ HH). reflexivity. Qed.
  Lemma nsG : nonsingular G A B.
  Proof.
    unfold nonsingular in *. intros Z. apply (w_neq0 _ NS).
    rewrite !(hom_add _ _ _ HE), !(hom_mul _ _ _ HE), !(hom_add _ _ _ HE), (hom_1 _ _ _ HE), Ha, Hb.
    transitivity ((2 * 2 * (A * A * A) + 3 * 3 * 3 * (B * B)) * fpow w 12); [cbn; ring|]. rewrite Z. ring.
  Qed.
  Local Notation onG := (on_curve G A B).
  Lemma psi_on Q : on_curve F a' b' Q -> onG (psi Q).
  Proof.
    destruct Q as [|x y]; [exact id|]. cbn [untwist on_curve]. intros E. apply (f_equal emb) in E.
    rewrite !(hom_add _ _ _ HE), !(hom_mul _ _ _ HE), Ha, Hb in E.
    apply (fmul_cancel_l G KG (w * w * w * w * w * w)); [repeat apply (fmul_neq_0 G KG); exact Hw|].
    transitivity (emb y * emb y); [field; exact Hw|]. rewrite E. field. exact Hw.
  Qed.
  Lemma pt_on P : on_curve K a b P -> onG (pt P).
  Proof.
    destruct P as [|x y]; [exact id|]. cbn [point_map on_curve]. intros E. unfold A, B.
    rewrite <- !(hom_mul _ _ _ HE), <- !(hom_mul _ _ _ HI), E, !(hom_add _ _ _ HI), !(hom_add _ _ _ HE). reflexivity.
  Qed.
  Lemma psi_mul k Q : on_curve F a' b' Q -> ec_mul G A k (psi Q) = psi (ec_mul F a' k Q).
  Proof.
    intros O. assert (OM : forall k, on_curve F a' b' (ec_mul F a' k Q)).
    { intros j. rewrite <- (Nat2N.id j), <- (sw_gmul F KF two a' b' NS). apply (gmul_in (sw_group F KF two a' b' NS)), O. }
    induction k as [|k IH]; [reflexivity|]. cbn [ec_mul]. rewrite IH. apply (untwist_add F G KF KG emb HE w Hw a' A Ha two b'); [exact O|apply OM].
  Qed.
  Definition HEI : Hom K G (fun x => emb (inc x)) :=
    mkHom K G (fun x => emb (inc x))
      (eq_trans (f_equal emb (hom_0 _ _ _ HI)) (hom_0 _ _ _ HE))
      (eq_trans (f_equal emb (hom_1 _ _ _ HI)) (hom_1 _ _ _ HE))
      (fun x y => eq_trans (f_equal emb (hom_add _ _ _ HI x y)) (hom_add _ _ _ HE _ _))
      (fun x y => eq_trans (f_equal emb (hom_mul _ _ _ HI x y)) (hom_mul _ _ _ HE _ _))
      (fun x y => eq_trans (f_equal emb (hom_sub _ _ _ HI x y)) (hom_sub _ _ _ HE _ _))
      (fun x => eq_trans (f_equal emb (hom_opp _ _ _ HI x)) (hom_opp _ _ _ HE _))
      (fun x y => eq_trans (hom_eqb _ _ _ HE _ _) (hom_eqb _ _ _ HI x y)).
  Lemma pt_add P P' : ec_add G A (pt P) (pt P') = pt (ec_add K a P P').
  Proof. exact (hom_ec_add K G KK KG _ HEI IK0 J0 a P P'). Qed.
  Lemma pt_mul k P : ec_mul G A k (pt P) = pt (ec_mul K a k P).
  Proof. induction k as [|k IH]; [reflexivity|]. cbn [ec_mul]. rewrite IH. apply pt_add. Qed.
  Lemma phi_emb x : phi_ (emb x) = emb (fpow x p).
  Proof. unfold phi_. symmetry. apply (hom_fpow F G emb HE). Qed.
  Lemma phi_K x : phi_ (emb (inc x)) = emb (inc x).
  Proof.
    rewrite phi_emb. f_equal. rewrite <- (hom_fpow K F inc HI). f_equal. assert (E := FF_frob _ _ _ FK x). rewrite N.pow_1_r in E. exact E.
  Qed.
  Lemma phi_w : phi_ w = emb gam * w.
  Proof.
    unfold phi_, gam. rewrite Hq, (fpow_add G RG), (fpow_1 G RG), (fpow_mul G RG), Hnu, <- (hom_fpow F G emb HE). ring.
  Qed.
  Lemma gam_neq0 : gam <> 0.
  Proof.
    intros Z. assert (N := fpow_neq_0 G KG w p Hw). fold (phi_ w) in N. rewrite phi_w, Z, (hom_0 _ _ _ HE) in N. apply N. ring.
  Qed.
  Lemma pt_V P : on_curve K a b P -> Vset G A B conj phi_ (pt P).
  Proof.
    intros O. split; [apply pt_on, O|]. destruct P as [|x y]; [split; reflexivity|]. cbn [point_map]. rewrite !Ce, !phi_K. split; reflexivity.
  Qed.
  Lemma conj_psi Q : point_map conj (psi Q) = ec_neg (psi Q).
  Proof. destruct Q as [|x y]; [reflexivity|]. apply (conj_untwist F G KG emb w Hw conj HC Ce Cw x y J0). Qed.
  Lemma Q0_U : Uset G A B conj phi_ n r sg (psi Q0).
  Proof.
    split; [apply psi_on, OQ0|]. split; [apply conj_psi|]. rewrite !psi_mul, RQ0 by exact OQ0. split; [|reflexivity].
    unfold gen_frob in FQ0. fold gam in FQ0. destruct Q0 as [|x y]; [contradiction|]. destruct (ec_mul F a' (N.to_nat (N.pos n)) (Aff x y)) as [|X Y]; [contradiction|].
    destruct FQ0 as [E1 E2]. clear FQ0. assert (G0 := w_neq0 _ gam_neq0).
    assert (P : point_map phi_ (psi (Aff x y)) = psi (Aff X (if sg then - Y else Y))).
    { cbn [untwist point_map]. unfold fdiv. rewrite !(hom_mul _ _ _ HPhi), !(h_inv G G KG KG phi_ HPhi J0 J0), !(hom_mul _ _ _ HPhi), !phi_emb, !phi_w.
      rewrite <- E1. replace (fpow y p) with ((if sg then - Y else Y) * (gam * gam * gam)) by (clear Hnum; destruct sg; [transitivity (- (Y * (gam * gam * gam))); [ring|rewrite E2; ring]|exact E2]).
      rewrite !(hom_mul _ _ _ HE). f_equal; field; auto. }
    rewrite P. clear P E2 Hnum. destruct sg; [|reflexivity]. cbn [untwist ec_neg]. rewrite (hom_opp _ _ _ HE). f_equal. unfold fdiv. ring.
  Qed.
  Lemma Hker (x : G) : x <> 0 ->
    if sg then fpow (fpow x e) (Npos n) * fpow (fpow x e) p = 1 else fpow (fpow x e) (Npos n) = fpow (fpow x e) p.
  Proof.
    intros N. destruct Hnum as (k & E). clear Hnum FQ0. assert (O : fpow x (k * (p ^ d - 1)) = 1).
    { rewrite N.mul_comm, (fpow_mul G RG), (FF_fermat G p d FG x N). apply (fpow_one G RG). }
    destruct sg.
    - rewrite <- (fpow_add G RG), <- (fpow_mul G RG), E. exact O.
    - rewrite <- !(fpow_mul G RG), E, (fpow_add G RG), O. ring.
  Qed.
  Definition inG2 (Q : point F) : Prop := exists k, Q = ec_mul F a' k Q0.
  Lemma G2_U Q : inG2 Q -> Uset G A B conj phi_ n r sg (psi Q).
  Proof.
    intros (k & ->). rewrite <- psi_mul by exact OQ0. rewrite <- (Nat2N.id k).
    apply (U_mul G KG two' A B nsG J0 conj phi_ HC HPhi (Ce (inc a)) (phi_K a) e p n r sg Hker), Q0_U.
  Qed.
  Lemma G2_on Q : inG2 Q -> on_curve F a' b' Q.
  Proof. intros (k & ->). rewrite <- (Nat2N.id k), <- (sw_gmul F KF two a' b' NS). apply (gmul_in (sw_group F KF two a' b' NS)), OQ0. Qed.
  Lemma G2_add Q Q' : inG2 Q -> inG2 Q' -> inG2 (ec_add F a' Q Q').
  Proof.
    intros (i & ->) (j & ->). exists (i + j)%nat. rewrite <- (Nat2N.id i), <- (Nat2N.id j), <- N2Nat.inj_add, <- !(sw_gmul F KF two a' b' NS).
    symmetry. apply (gmul_add (sw_group F KF two a' b' NS)), OQ0.
  Qed.
  Lemma G2_mul i Q : inG2 Q -> inG2 (ec_mul F a' i Q).
  Proof.
    intros (j & ->). exists (i * j)%nat. rewrite <- (Nat2N.id i), <- (Nat2N.id j), <- N2Nat.inj_mul, <- !(sw_gmul F KF two a' b' NS).
    symmetry. apply (gmul_mul (sw_group F KF two a' b' NS)), OQ0.
  Qed.
  Definition ateT (P : point K) (Q : point F) : G :=
    fpow (if neg then miller_fun_neg G A n (psi Q) (pt P) else miller_fun G A n (psi Q) (pt P)) e.
  Lemma ate_T P Q : ateT P Q = if neg then Tm G A e n (psi Q) (pt P) else Tn G A e n (psi Q) (pt P).
  Proof. unfold ateT, Tm, Tn. destruct neg; reflexivity. Qed.
  Definition CA : conj A = A := Ce (inc a).
  Definition PA : phi_ A = A := phi_K a.
  Lemma ate_neq0 P Q : on_curve K a b P -> inG2 Q -> ateT P Q <> 0.
  Proof.
    intros O U. rewrite ate_T. assert (V := pt_V P O). apply G2_U in U. destruct neg.
    - apply (Tm_neq0 G KG two' A B nsG J0 conj phi_ HC HPhi CA PA e p Hfix n r Pr odd nlt sg Hker (psi Q) (pt P) U V).
    - apply (Tn_neq0 G KG two' A B nsG J0 conj phi_ HC HPhi CA PA e p n r Pr odd nlt sg Hker (psi Q) (pt P) U V).
  Qed.
  Lemma ate_add_l P P' Q : on_curve K a b P -> on_curve K a b P' -> inG2 Q -> ateT (ec_add K a P P') Q = ateT P Q * ateT P' Q.
  Proof.
    intros O O' U. rewrite !ate_T, <- pt_add. assert (V := pt_V P O). assert (V' := pt_V P' O'). apply G2_U in U. destruct neg.
    - apply (Tm_add_r G KG two' A B nsG J0 conj phi_ HC HPhi CA PA e p (fun x => eq_refl) Hfix Cc n r Pr odd nlt sg Hker); assumption.
    - apply (Tn_add_r G KG two' A B nsG J0 conj phi_ HC HPhi CA PA e p (fun x => eq_refl) Hfix Cc n r Pr odd nlt sg Hker); assumption.
  Qed.
  Lemma ate_add_r P Q Q' : on_curve K a b P -> inG2 Q -> inG2 Q' -> ateT P (ec_add F a' Q Q') = ateT P Q * ateT P Q'.
  Proof.
    intros O U U'. rewrite !ate_T, <- (untwist_add F G KF KG emb HE w Hw a' A Ha two b') by (apply G2_on; assumption).
    assert (V := pt_V P O). apply G2_U in U, U'. destruct neg.
    - apply (Tm_add_l G KG two' A B nsG J0 conj phi_ HC HPhi CA PA e p (fun x => eq_refl) Hfix Cc n r Pr odd nlt sg Hker); assumption.
    - apply (Tn_add_l G KG two' A B nsG J0 conj phi_ HC HPhi CA PA e p (fun x => eq_refl) Hfix Cc n r Pr odd nlt sg Hker); assumption.
  Qed.
  Lemma ate_mul i j P Q : on_curve K a b P -> inG2 Q ->
    ateT (ec_mul K a (N.to_nat i) P) (ec_mul F a' (N.to_nat j) Q) = fpow (ateT P Q) (i * j).
  Proof.
    intros O U. rewrite !ate_T, <- pt_mul, <- psi_mul by (apply G2_on; assumption).
    assert (V := pt_V P O). apply G2_U in U.
    assert (UM := U_mul G KG two' A B nsG J0 conj phi_ HC HPhi CA PA e p n r sg Hker j (psi Q) U).
    rewrite N.mul_comm, (fpow_mul G RG). destruct neg.
    - rewrite (Tm_mul_r G KG two' A B nsG J0 conj phi_ HC HPhi CA PA e p (fun x => eq_refl) Hfix Cc n r Pr odd nlt sg Hker); try assumption.
      rewrite (Tm_mul_l G KG two' A B nsG J0 conj phi_ HC HPhi CA PA e p (fun x => eq_refl) Hfix Cc n r Pr odd nlt sg Hker); try assumption. reflexivity.
    - rewrite (Tn_mul_r G KG two' A B nsG J0 conj phi_ HC HPhi CA PA e p (fun x => eq_refl) Hfix Cc n r Pr odd nlt sg Hker); try assumption.
      rewrite (Tn_mul_l G KG two' A B nsG J0 conj phi_ HC HPhi CA PA e p (fun x => eq_refl) Hfix Cc n r Pr odd nlt sg Hker); try assumption. reflexivity.
  Qed.
  Theorem ate_bilinear : bilinear a b a' Q0 ateT.
  Proof.
    split; [|split; [|split]].
    - intros P Q O U. apply ate_neq0; assumption.
    - intros P P' Q O O' U. apply ate_add_l; assumption.
    - intros P Q Q' O U U'. apply ate_add_r; assumption.
    - intros i j P Q O U. apply ate_mul; assumption.
  Qed.
End Tw.

(** the condition on the generator, computed without inversions *)
Section FrobCheck.
  Context {A F : FieldOps} (h : A -> F) (H : Hom A F h) (KF : FieldLaws F).
  Let R := FieldLaws_Ring F KF.
  Add Field Ffc : (FL_th F KF).
  Definition frob_check (a x y nu : A) (n : positive) (p m : N) (sg : bool) : bool :=
    let t := sw_multiple A a x y n in let g := fpower nu m in let yp := fpower y p in
    negb (tZ t =? 0) && (tX t * (g * g) =? tZ t * fpower x p) && (tY t * (g * g * g) =? tZ t * (if sg then - yp else yp)).
  Hypothesis two : (2 : F) <> 0.
  Lemma frob_check_sound a x y nu n p m sg b : nonsingular F (h a) b -> on_curve F (h a) b (Aff (h x) (h y)) -> frob_check a x y nu n p m sg = true ->
    gen_frob (h a) (Aff (h x) (h y)) n p m (h nu) sg.
  Proof.
    intros NS O C. unfold frob_check in C. cbv zeta in C. rewrite !andb_true_iff in C. destruct C as ((C1 & C2) & C3).
    assert (M := sw_multiple_rep h H KF two a x y b n NS O). change (Pos.to_nat n) with (N.to_nat (N.pos n)) in M. set (t := sw_multiple A a x y n) in *.
    apply negb_true_iff in C1. rewrite <- (heqb0 h H) in C1. apply (feqb_false F R) in C1.
    rewrite <- (hom_eqb _ _ _ H) in C2, C3. apply (feqb_true F R) in C2, C3.
    assert (C3' : h (tY t) * (fpow (h nu) m * fpow (h nu) m * fpow (h nu) m) = h (tZ t) * (if sg then - fpow (h y) p else fpow (h y) p)).
    { revert C3. destruct sg; rewrite !(hom_mul _ _ _ H), ?(hom_opp _ _ _ H), !(hom_fpower h H), !(fpower_fpow F _ _ R); exact id. }
    rewrite !(hom_mul _ _ _ H), !(hom_fpower h H), !(fpower_fpow F _ _ R) in C2.
    unfold is_projective, tmap in M; cbn [tX tY tZ] in M. cbn [rep_projective] in M.
    unfold gen_frob. destruct (ec_mul F (h a) (N.to_nat (N.pos n)) (Aff (h x) (h y))) as [|X Y]; [destruct M as [_ M]; contradiction|].
    destruct M as (_ & MX & MY). rewrite MX in C2. rewrite MY in C3'. split; apply (fmul_cancel_l F KF (h (tZ t))); try exact C1; [rewrite <- C2; ring|].
    rewrite <- C3'. ring.
  Qed.
End FrobCheck.
