(** From the loop values of Proof/PairingCore.v to the Miller function of Spec/Pairing.v. *)
From Coq Require Import ZArith NArith List Bool Lia Ring Field Znumtheory.
From Verif Require Import Base.Field Base.Hom Spec.Group Spec.Weierstrass Spec.Pairing Model.Power Model.ShortWeierstrass Model.Pairing
  Proof.GroupFacts Proof.Instances Proof.WeierstrassCoords Proof.WeierstrassGroup Proof.WeierstrassRep Proof.PairingCore.
Import ListNotations.
Local Open Scope fld_scope.

Lemma run_prun {St C : Type} (d a : St -> St * C) R n : run d a R n = prun d a R n.
Proof. induction n as [m IH|m IH|]; cbn [run prun]; rewrite ?IH; reflexivity. Qed.
Lemma value_pvalue {St C GT : Type} (d a : St -> St * C) R (one : GT) ld la n : value d a R one ld la n = pvalue d a R one ld la n.
Proof. induction n as [m IH|m IH|]; cbn [value pvalue]; rewrite ?IH, ?run_prun; reflexivity. Qed.

Section Killed.
  Variable GT : FieldOps.
  Hypothesis KG : FieldLaws GT.
  Let R := FieldLaws_Ring GT KG.
  Add Field GTf : (FL_th GT KG).
  Variable e : N.
  (** non-zero and sent to one by x -> x^e *)
  Definition killed (x : GT) : Prop := x <> 0 /\ fpow x e = 1.
  Lemma killed_1 : killed 1.
  Proof. split; [apply (F_1_neq_0 (FL_th GT KG))|apply (fpow_one GT R)]. Qed.
  Lemma killed_mul x y : killed x -> killed y -> killed (x * y).
  Proof.
    intros [A B] [C D]. split; [apply (fmul_neq_0 GT KG); assumption|].
    rewrite (fpow_mul_l GT R), B, D. ring.
  Qed.
  Lemma killed_inv x : killed x -> killed (finv x).
  Proof.
    intros [A B]. assert (E : x * finv x = 1) by (field; exact A). split.
    - intros Z. rewrite Z in E. apply (F_1_neq_0 (FL_th GT KG)). rewrite <- E. ring.
    - assert (E2 : fpow (x * finv x) e = 1) by (rewrite E; apply (fpow_one GT R)).
      rewrite (fpow_mul_l GT R), B in E2. transitivity (1 * fpow (finv x) e); [ring|exact E2].
  Qed.
  Definition eqv (x y : GT) : Prop := exists m, killed m /\ x = m * y.
  Lemma eqv_refl x : eqv x x.
  Proof. exists 1. split; [apply killed_1|ring]. Qed.
  Lemma eqv_mul x y x' y' : eqv x y -> eqv x' y' -> eqv (x * x') (y * y').
  Proof. intros (m & M & ->) (m' & M' & ->). exists (m * m'). split; [apply killed_mul; assumption|ring]. Qed.
  Lemma eqv_div x y v : eqv x y -> killed v -> eqv x (y / v).
  Proof. intros (m & M & ->) V. exists (m * v). split; [apply killed_mul; assumption|]. field. apply V. Qed.
  Lemma eqv_inv x y : eqv x y -> y <> 0 -> eqv (finv x) (finv y).
  Proof. intros (m & M & ->) V. exists (finv m). split; [apply killed_inv, M|]. field. split; [exact V|apply M]. Qed.
  Lemma eqv_killed x m : killed m -> eqv (x * m) x.
  Proof. intros M. exists m. split; [exact M|ring]. Qed.
  Lemma eqv_killed_l x y m : killed m -> x * m = y -> eqv x y.
  Proof. intros M <-. exists (finv m). split; [apply killed_inv, M|]. field. apply M. Qed.
  Lemma eqv_pow x y : eqv x y -> fpow x e = fpow y e.
  Proof. intros (m & M & ->). rewrite (fpow_mul_l GT R). destruct M as [_ ->]. ring. Qed.
  Lemma eqv_neq0 x y : eqv x y -> (x <> 0 <-> y <> 0).
  Proof.
    intros (m & M & ->). split.
    - intros A B. apply A. rewrite B. ring.
    - intros A. apply (fmul_neq_0 GT KG); [apply M|exact A].
  Qed.
End Killed.

Section Twist.
  Variables F GT : FieldOps.
  Hypothesis KF : FieldLaws F.
  Hypothesis KG : FieldLaws GT.
  Let RF := FieldLaws_Ring F KF.
  Let RG := FieldLaws_Ring GT KG.
  Add Field Ftw : (FL_th F KF).
  Add Field GTtw : (FL_th GT KG).
  Variable emb : F -> GT.
  Hypothesis H : Hom F GT emb.
  Variable w : GT.
  Hypothesis Hw : w <> 0.
  Variable a' : F.
  Variable a : GT.
  Hypothesis Ha : emb a' = a * (w * w * w * w).
  Hypothesis two : (2 : F) <> 0.
  Local Notation psi := (untwist emb w).
  Local Notation "P ⊕ Q" := (ec_add F a' P Q) (at level 50, left associativity).

  Lemma emb_neq x y : x <> y -> emb x <> emb y.
  Proof. intros N. apply (feqb_false GT RG). rewrite (hom_eqb _ _ _ H). apply (feqb_false F RF), N. Qed.
  Lemma emb_neq0 x : x <> 0 -> emb x <> 0.
  Proof. intros N. rewrite <- (hom_0 _ _ _ H). apply emb_neq, N. Qed.
  Lemma emb_inv x : x <> 0 -> emb (finv x) = finv (emb x).
  Proof.
    intros N. assert (E : emb (finv x) * emb x = 1).
    { rewrite <- (hom_mul _ _ _ H), <- (hom_1 _ _ _ H). f_equal. field. exact N. }
    assert (N' := emb_neq0 x N). transitivity (emb (finv x) * emb x * finv (emb x)); [field; exact N'|]. rewrite E. field. exact N'.
  Qed.
  Lemma emb_div x y : y <> 0 -> emb (x / y) = emb x / emb y.
  Proof. intros N. unfold fdiv. rewrite (hom_mul _ _ _ H), emb_inv by exact N. reflexivity. Qed.
  Lemma emb_2 : emb 2 = 2.
  Proof. rewrite (hom_add _ _ _ H), (hom_1 _ _ _ H). reflexivity. Qed.
  Lemma two_GT : (2 : GT) <> 0.
  Proof. rewrite <- emb_2. apply emb_neq0, two. Qed.
  Lemma ww2 : w * w <> 0.
  Proof. apply (fmul_neq_0 GT KG); exact Hw. Qed.
  Lemma ww3 : w * w * w <> 0.
  Proof. apply (fmul_neq_0 GT KG); [apply ww2|exact Hw]. Qed.
  Lemma div_eqb (x y v : GT) : v <> 0 -> (x / v =? y / v) = (x =? y).
  Proof.
    intros V. destruct (feqb_spec GT RG x y) as [->|N]; [apply (feqb_refl GT RG)|]. apply (feqb_false GT RG). intros E. apply N.
    transitivity (x / v * v); [field; exact V|]. rewrite E. field. exact V.
  Qed.
  Lemma psi_eqx x1 x2 : (emb x1 / (w * w) =? emb x2 / (w * w)) = (x1 =? x2).
  Proof. rewrite div_eqb by apply ww2. apply (hom_eqb _ _ _ H). Qed.
  Lemma psi_eqy y1 y2 : (emb y1 / (w * w * w) =? - (emb y2 / (w * w * w))) = (y1 =? - y2).
  Proof.
    rewrite <- (hom_eqb _ _ _ H y1), (hom_opp _ _ _ H), <- (div_eqb (emb y1) (- emb y2) (w * w * w) ww3). f_equal. field. exact Hw.
  Qed.
  Ltac embs := repeat first [rewrite (hom_add _ _ _ H) | rewrite (hom_mul _ _ _ H) | rewrite (hom_sub _ _ _ H) |
    rewrite (hom_opp _ _ _ H) | rewrite (hom_1 _ _ _ H)].
  (** the untwisting map is a homomorphism *)
  Lemma untwist_add b' P Q : on_curve F a' b' P -> on_curve F a' b' Q -> ec_add GT a (psi P) (psi Q) = psi (P ⊕ Q).
  Proof.
    destruct P as [|x1 y1], Q as [|x2 y2]; try reflexivity. intros P1 P2. cbn [untwist ec_add].
    rewrite psi_eqx, psi_eqy. destruct (feqb_spec F RF x1 x2) as [->|N].
    - destruct (feqb_spec F RF y1 (- y2)) as [->|N]; [reflexivity|].
      assert (Y : y1 = y2).
      { cbn in P1, P2. assert (E : (y1 - y2) * (y1 + y2) = 0) by (transitivity (y1 * y1 - y2 * y2); [ring|rewrite P1, P2; ring]).
        destruct (feq_dec F RF (y1 - y2) 0) as [Z|Z]; [apply (fsub_0_eq F RF), Z|]. exfalso.
        apply (fmul_neq_0 F KF (y1 - y2) (y1 + y2)); [exact Z| |exact E]. intros Z2. apply N.
        transitivity (y1 + y2 - y2); [ring|rewrite Z2; ring]. }
      subst y2. assert (Y0 : y1 <> 0) by (intros Z; apply N; rewrite Z; ring).
      assert (D : (2 * y1 : F) <> 0) by (apply (fmul_neq_0 F KF); assumption).
      assert (Y0' := emb_neq0 _ Y0). assert (T := two_GT).
      cbn [untwist ec_line]. unfold ec_line. cbn [untwist]. f_equal; embs; rewrite emb_div by exact D; embs; rewrite Ha; field; auto.
    - assert (D : x2 - x1 <> 0) by (intros Z; apply N; symmetry; apply (fsub_0_eq F RF), Z).
      assert (D' := emb_neq0 _ D). rewrite (hom_sub _ _ _ H) in D'.
      assert (D2 : emb x2 * (w * w) - (w * w) * emb x1 <> 0).
      { intros Z. apply (fmul_neq_0 GT KG _ _ D' ww2). rewrite <- Z. ring. }
      cbn [untwist ec_line]. unfold ec_line. cbn [untwist]. f_equal; embs; rewrite emb_div by exact D; embs; field; auto.
  Qed.

  (** lines through untwisted points *)
  Lemma line_tangent x y xp yp : y <> 0 ->
    line GT a (psi (Aff x y)) (psi (Aff x y)) (Aff xp yp) * (w * w * w * emb (2 * y)) =
    emb (2 * y) * (w * w * w * yp - emb y) - emb (3 * (x * x) + a') * (w * w * xp - emb x).
  Proof.
    intros Y. cbn [untwist line]. rewrite psi_eqx, psi_eqy, (feqb_refl F RF).
    replace (y =? - y) with false.
    2:{ symmetry. apply (feqb_false F RF). intros E. apply (fmul_neq_0 F KF _ _ two Y).
        transitivity (y + y); [ring|]. rewrite E at 1. ring. }
    assert (Y' := emb_neq0 _ Y). assert (T := two_GT). embs. rewrite Ha. field. auto.
  Qed.
  Lemma line_chord x1 y1 x2 y2 xp yp : x2 - x1 <> 0 ->
    line GT a (psi (Aff x1 y1)) (psi (Aff x2 y2)) (Aff xp yp) * (w * w * w * emb (x2 - x1)) =
    emb (x2 - x1) * (w * w * w * yp - emb y1) - emb (y2 - y1) * (w * w * xp - emb x1).
  Proof.
    intros D. cbn [untwist line]. rewrite psi_eqx.
    replace (x1 =? x2) with false by (symmetry; apply (feqb_false F RF); intros ->; apply D; ring).
    assert (D' := emb_neq0 _ D). rewrite (hom_sub _ _ _ H) in D'.
    assert (D2 : emb x2 * (w * w) - (w * w) * emb x1 <> 0).
    { intros Z. apply (fmul_neq_0 GT KG _ _ D' ww2). rewrite <- Z. ring. }
    embs. field. auto.
  Qed.
End Twist.

(** the code's loop against the Miller function, up to factors killed by the final exponentiation *)
Section Equiv.
  Variables F GT : FieldOps.
  Hypothesis KF : FieldLaws F.
  Hypothesis KG : FieldLaws GT.
  Let RF := FieldLaws_Ring F KF.
  Let RG := FieldLaws_Ring GT KG.
  Add Field Feq : (FL_th F KF).
  Add Field GTeq : (FL_th GT KG).
  Variable emb : F -> GT.
  Hypothesis H : Hom F GT emb.
  Variable w : GT.
  Hypothesis Hw : w <> 0.
  Variables a' b' : F.
  Variable a : GT.
  Hypothesis Ha : emb a' = a * (w * w * w * w).
  Hypothesis two : (2 : F) <> 0.
  Hypothesis NS : nonsingular F a' b'.
  Variable e : N.
  Variable S : point GT.
  Local Notation psi := (untwist emb w).
  Local Notation on := (on_curve F a' b').
  Let G := sw_group F KF two a' b' NS.
  Variables xq yq : F.
  Let Q : point F := Aff xq yq.
  Hypothesis onQ : on Q.
  Variable r : N.
  Hypothesis Pr : prime (Z.of_N r).
  Hypothesis Qr : ec_mul F a' (N.to_nat r) Q = Inf.
  Definition mult (m : N) : point F := gmul (G := G) m Q.
  Lemma mult_in m : on (mult m).
  Proof. apply (gmul_in G m Q). exact onQ. Qed.
  Lemma mult_add m n : mult (m + n) = ec_add F a' (mult m) (mult n).
  Proof. apply (gmul_add G). exact onQ. Qed.
  Lemma mult_1 : mult 1 = Q.
  Proof. reflexivity. Qed.
  Lemma mult_neq m : (0 < m < r)%N -> mult m <> Inf.
  Proof.
    intros B E. assert (Z : Q = (Inf : point F)); [|discriminate Z].
    apply (prime_order G r Q m Pr onQ); [|exact B|exact E].
    transitivity (ec_mul F a' (N.to_nat r) Q); [apply (sw_gmul F KF two a' b' NS)|exact Qr].
  Qed.
  Lemma mult_aff m : (0 < m < r)%N -> exists x y, mult m = Aff x y /\ on (Aff x y).
  Proof.
    intros B. assert (N := mult_neq m B). assert (O := mult_in m). destruct (mult m) as [|x y]; [contradiction|]. eauto.
  Qed.
  Lemma mult_y m x y : (0 < m)%N -> (2 * m < r)%N -> mult m = Aff x y -> y <> 0.
  Proof.
    intros B L E Z. apply (mult_neq (m + m)); [lia|]. rewrite mult_add, E, Z. cbn. rewrite (feqb_refl F RF).
    replace (0 =? - 0) with true; [reflexivity|]. symmetry. replace (- 0) with (0 : F) by ring. apply (feqb_refl F RF).
  Qed.
  Lemma mult_x m x y : (1 < m)%N -> (m + 1 < r)%N -> mult m = Aff x y -> x <> xq.
  Proof.
    intros B L E Z. subst x. assert (O := mult_in m). rewrite E in O.
    destruct (feq_dec F RF y yq) as [Y|Y].
    - apply (mult_neq (m - 1)); [lia|].
      apply (g_cancel_l G Q (mult (m - 1)) Inf onQ (mult_in _) I). change (ec_add F a' Q (mult (m - 1)) = ec_add F a' Q Inf).
      rewrite <- mult_1 at 1. rewrite <- mult_add. replace (1 + (m - 1))%N with m by lia. rewrite E, Y. reflexivity.
    - apply (mult_neq (m + 1)); [lia|]. rewrite mult_add, mult_1, E. unfold Q. cbn. rewrite (feqb_refl F RF).
      replace (y =? - yq) with true; [reflexivity|]. symmetry.
      assert (Y2 : y = - yq) by (apply (Proof.WeierstrassCoords.sq_eq_on F KF a' b' xq); assumption).
      rewrite Y2. apply (feqb_refl F RF).
  Qed.

  Context {St C D : Type}.
  Variable dstep : St -> St * C.
  Variable astep : St -> St * D.
  Variable R0 : St.
  Variable dl : C -> GT.
  Variable al : D -> GT.
  Variable rep : St -> F -> F -> Prop.
  Hypothesis rep0 : rep R0 xq yq.
  Hypothesis HD : forall R x y x3 y3, rep R x y -> on (Aff x y) -> y <> 0 -> ec_add F a' (Aff x y) (Aff x y) = Aff x3 y3 ->
    rep (fst (dstep R)) x3 y3 /\ dl (snd (dstep R)) <> 0 /\
    eqv GT e (dl (snd (dstep R))) (line GT a (psi (Aff x y)) (psi (Aff x y)) S).
  Hypothesis HA : forall R x y x3 y3, rep R x y -> on (Aff x y) -> x <> xq -> ec_add F a' (Aff x y) Q = Aff x3 y3 ->
    rep (fst (astep R)) x3 y3 /\ al (snd (astep R)) <> 0 /\
    eqv GT e (al (snd (astep R))) (line GT a (psi (Aff x y)) (psi Q) S).
  Hypothesis HV : forall x y, on (Aff x y) -> killed GT e (vertical GT (psi (Aff x y)) S).
  Theorem miller_equiv n : (Npos n < r)%N ->
    exists x y, mult (Npos n) = Aff x y /\ on (Aff x y) /\ rep (prun dstep astep R0 n) x y /\
      pvalue dstep astep R0 1 (fun c f => f * f * dl c) (fun c f => f * al c) n <> 0 /\
      eqv GT e (pvalue dstep astep R0 1 (fun c f => f * f * dl c) (fun c f => f * al c) n) (fst (miller GT a n (psi Q) S)) /\
      snd (miller GT a n (psi Q) S) = psi (Aff x y).
  Proof.
    induction n as [m IH|m IH|]; intros L.
    - destruct IH as (x & y & E & O & Rp & V0 & V & W); [lia|].
      destruct (mult_aff (Npos (xO m))) as (x2 & y2 & E2 & O2); [lia|].
      destruct (mult_aff (Npos (xI m))) as (x3 & y3 & E3 & O3); [lia|].
      assert (Y := mult_y (Npos m) x y ltac:(lia) ltac:(lia) E).
      assert (X := mult_x (Npos (xO m)) x2 y2 ltac:(lia) ltac:(lia) E2).
      assert (A2 : ec_add F a' (Aff x y) (Aff x y) = Aff x2 y2).
      { rewrite <- E, <- E2, <- mult_add. f_equal; lia. }
      assert (A3 : ec_add F a' (Aff x2 y2) Q = Aff x3 y3).
      { rewrite <- E2, <- E3, <- mult_1, <- mult_add. f_equal; lia. }
      destruct (HD _ _ _ _ _ Rp O Y A2) as (Rp2 & D0 & D1).
      destruct (HA _ _ _ _ _ Rp2 O2 X A3) as (Rp3 & D2 & D3).
      exists x3, y3. cbn [prun pvalue]. split; [exact E3|]. split; [exact O3|]. split; [exact Rp3|].
      cbn [miller]. destruct (miller GT a m (psi Q) S) as [f R]. cbn [fst snd] in V, W |- *. subst R.
      rewrite (untwist_add F GT KF KG emb H w Hw a' a Ha two b' _ _ O O), A2.
      rewrite (untwist_add F GT KF KG emb H w Hw a' a Ha two b' _ _ O2 onQ), A3.
      split; [repeat apply (fmul_neq_0 GT KG); assumption|]. split; [|reflexivity].
      apply (eqv_mul GT KG); [apply (eqv_mul GT KG); [apply (eqv_mul GT KG); exact V|]|];
        apply (eqv_div GT KG); auto.
    - destruct IH as (x & y & E & O & Rp & V0 & V & W); [lia|].
      destruct (mult_aff (Npos (xO m))) as (x2 & y2 & E2 & O2); [lia|].
      assert (Y := mult_y (Npos m) x y ltac:(lia) ltac:(lia) E).
      assert (A2 : ec_add F a' (Aff x y) (Aff x y) = Aff x2 y2).
      { rewrite <- E, <- E2, <- mult_add. f_equal; lia. }
      destruct (HD _ _ _ _ _ Rp O Y A2) as (Rp2 & D0 & D1).
      exists x2, y2. cbn [prun pvalue]. split; [exact E2|]. split; [exact O2|]. split; [exact Rp2|].
      cbn [miller]. destruct (miller GT a m (psi Q) S) as [f R]. cbn [fst snd] in V, W |- *. subst R.
      rewrite (untwist_add F GT KF KG emb H w Hw a' a Ha two b' _ _ O O), A2.
      split; [repeat apply (fmul_neq_0 GT KG); assumption|]. split; [|reflexivity].
      apply (eqv_mul GT KG); [apply (eqv_mul GT KG); exact V|]. apply (eqv_div GT KG); auto.
    - exists xq, yq. split; [apply mult_1|]. split; [exact onQ|]. split; [exact rep0|].
      cbn [pvalue miller fst snd]. split; [apply (F_1_neq_0 (FL_th GT KG))|]. split; [apply (eqv_refl GT KG)|reflexivity].
  Qed.
End Equiv.
