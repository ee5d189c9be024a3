(** The mnt4 and mnt6 pairings. *)
From Coq Require Import ZArith NArith List Bool Lia Ring Field Znumtheory.
From Verif Require Import Base.Field Base.Zp Base.Ext Base.Hom Spec.Group Spec.Weierstrass Spec.Pairing Spec.AtePairing Model.Power Model.Fp2 Model.Fp3 Model.Fp4
  Model.Fp6_2over3 Model.ShortWeierstrass Model.FieldParams Model.Shipped Model.CurveParams Model.Generators Model.FinalExp Model.Pairing
  Proof.ExtTheory Proof.Towers Proof.FiniteField Proof.Shipped Proof.ShippedTowers Proof.PrimesPairing Proof.PrimesMisc
  Proof.Instances Proof.Generators Proof.Marshalling
  Proof.WeierstrassCoords Proof.WeierstrassGroup Proof.WeierstrassRep Proof.PairingCore Proof.PairingMiller Proof.PairingA40 Proof.PairingBls
  Proof.PairingProj.
Import ListNotations.
Local Open Scope fld_scope.

Lemma cub_ext {A : Type} (x y : cub A) : c0 x = c0 y -> c1 x = c1 y -> c2 x = c2 y -> x = y.
Proof. destruct x, y; cbn; intros -> -> ->; reflexivity. Qed.

Section ProjAffine.
  Variable F : FieldOps.
  Hypothesis KF : FieldLaws F.
  Let R := FieldLaws_Ring F KF.
  Add Field Fpa : (FL_th F KF).
  Lemma proj_affine zx zy t x y : rep_projective (tX t) (tY t) (tZ t) (Aff x y) ->
    proj_to_affine F zx zy t = mkA x y /\ proj_is_zero F t = false.
  Proof.
    destruct t as [X Y Z]. cbn [tX tY tZ rep_projective]. intros (N & -> & ->).
    assert (E : proj_is_zero F (mkT (x * Z) (y * Z) Z) = false).
    { unfold proj_is_zero. cbn [tX tZ]. apply (feqb_false F R) in N. rewrite N. apply andb_false_r. }
    unfold proj_to_affine. rewrite E. cbn [tX tY tZ]. split; [|reflexivity]. f_equal; field; exact N.
  Qed.
  (** y <> 0 in an odd prime-order subgroup *)
  Hypothesis two : (2 : F) <> 0.
  Variables a b : F.
  Hypothesis NS : nonsingular F a b.
  Lemma odd_y x y r : on_curve F a b (Aff x y) -> prime (Z.of_N r) -> (2 < r)%N -> ec_mul F a (N.to_nat r) (Aff x y) = Inf -> y <> 0.
  Proof.
    intros O PR L E ->. assert (Z : (Aff x 0 : point F) = Inf); [|discriminate Z].
    apply (prime_order (sw_group F KF two a b NS) r (Aff x 0) 2 PR O); [|lia|].
    - transitivity (ec_mul F a (N.to_nat r) (Aff x 0)); [apply (sw_gmul F KF two a b NS)|exact E].
    - change (ec_add F a (Aff x 0) (Aff x 0) = Inf). replace (Aff x 0) with (Aff x (- 0) : point F) at 1 by (f_equal; ring).
      apply (ec_add_opp F KF).
  Qed.
End ProjAffine.

Section Mnt.
  Variables K F G : FieldOps.
  Hypothesis KK : FieldLaws K.
  Variables p d : N.
  Hypothesis FF : FinField F p d.
  Let KF := FF_field _ _ _ FF.
  Hypothesis KG : FieldLaws G.
  Let RF := FieldLaws_Ring F KF.
  Let RG := FieldLaws_Ring G KG.
  Add Field Fmnt : (FL_th F KF).
  Add Field Gmnt : (FL_th G KG).
  Variable e : N.
  Hypothesis He : (2 * (p ^ d - 1) * (e / (2 * (p ^ d - 1))) = e)%N.
  Variable smul : K -> F -> F.
  Variable inc : K -> F.
  Hypothesis HI : Hom K F inc.
  Hypothesis Hs : forall k x, smul k x = inc k * x.
  Variable squared : G -> G.
  Hypothesis Hq : forall f, squared f = f * f.
  Variable emb : F -> G.
  Hypothesis H : Hom F G emb.
  Variable w : G.
  Hypothesis Hw : w <> 0.
  Variable mkgt : F -> F -> G.
  Hypothesis Hmk : forall u v, mkgt u v = emb u + emb v * w.
  Hypothesis Hmk0 : forall u v, u <> 0 \/ v <> 0 -> mkgt u v <> 0.
  Variable twist : F.
  Hypothesis Htw : emb twist = w * w.
  Variables a b : K.
  Variables a' b' : F.
  Hypothesis Ea' : a' = inc a * twist * twist.
  Hypothesis Eb' : b' = inc b * twist * twist * twist.
  Hypothesis two : (2 : F) <> 0.
  Hypothesis NS1 : nonsingular K a b.
  Hypothesis NS : nonsingular F a' b'.
  Variable n : positive.
  Variable loop_neg : bool.
  Variable max_bits : nat.
  Hypothesis Hbits : (N.size (Npos n) <= N.of_nat max_bits)%N.
  Variable r : N.
  Hypothesis Pr : prime (Z.of_N r).
  Hypothesis nlt : (2 * Npos n < r)%N.
  Variable g_RR : pr_g1_prec K F -> dbl_coeffs F -> G.
  Hypothesis HRR : forall P dc, g_RR P dc = pr_g_RR K F G mkgt P dc.
  Lemma He1 : ((p ^ d - 1) * (e / (p ^ d - 1)) = e)%N.
  Proof.
    assert (D : (p ^ d - 1 <> 0)%N).
    { assert (Q := FF_Q_ge_2 F p d FF). lia. }
    rewrite <- He at 1. set (q := (e / (2 * (p ^ d - 1)))%N) in *.
    replace (2 * (p ^ d - 1) * q)%N with ((2 * q) * (p ^ d - 1))%N by lia. rewrite N.div_mul by exact D. rewrite <- He. fold q. lia.
  Qed.
  Lemma kill_emb c : c <> 0 -> killed G e (emb c).
  Proof. apply (killed_hom F G KF KG emb H p d FF e He1). Qed.
  Lemma twist_neq0 : twist <> 0.
  Proof. exact (twist_0 F G KG emb H w Hw twist Htw). Qed.
  Lemma kill_w : killed G e w.
  Proof.
    split; [exact Hw|]. rewrite <- He. set (q := (e / (2 * (p ^ d - 1)))%N).
    replace (2 * (p ^ d - 1) * q)%N with (2 * ((p ^ d - 1) * q))%N by lia.
    rewrite (fpow_mul G RG w 2), (fpow_2 G RG), <- Htw, (fpow_mul G RG (emb twist)), <- (hom_fpow F G emb H), (FF_fermat F p d FF _ twist_neq0).
    rewrite (hom_1 _ _ _ H). apply (fpow_one G RG).
  Qed.
  Lemma twist_ns s : s * s <> twist.
  Proof.
    intros E. assert (Z : mkgt s 1 * mkgt s (- (1)) = 0).
    { rewrite !Hmk, (hom_opp _ _ _ H), (hom_1 _ _ _ H). transitivity (emb s * emb s - w * w); [ring|].
      rewrite <- Htw, <- E, (hom_mul _ _ _ H). ring. }
    apply (fmul_neq_0 G KG (mkgt s 1) (mkgt s (- (1)))); [| |exact Z]; apply Hmk0; right.
    - apply (F_1_neq_0 (FL_th F KF)).
    - intros N. apply (F_1_neq_0 (FL_th F KF)). transitivity (- - (1 : F)); [ring|]. rewrite N. ring.
  Qed.
  Lemma two_K : (2 : K) <> 0.
  Proof. intros Z. apply two. rewrite <- (hom_1 _ _ _ HI), <- (hom_add _ _ _ HI), Z. apply (hom_0 _ _ _ HI). Qed.
  Local Notation prec1 := (pr_precompute_g1 K F smul twist).
  Local Notation prec2 := (pr_precompute_g2 K F smul twist a' (Npos n) loop_neg max_bits).
  Lemma mnt_gen zx1 zy1 zx2 zy2 tP tQ xp yp xq yq :
    on_curve K a b (Aff xp yp) -> ec_mul K a (N.to_nat r) (Aff xp yp) = Inf ->
    on_curve F a' b' (Aff xq yq) -> ec_mul F a' (N.to_nat r) (Aff xq yq) = Inf ->
    rep_projective (tX tP) (tY tP) (tZ tP) (Aff xp yp) -> rep_projective (tX tQ) (tY tQ) (tZ tQ) (Aff xq yq) ->
    exists x y f,
    ec_mul F a' (Pos.to_nat n) (Aff xq yq) = Aff x y /\
    jrep F (fst (fst (pr_g2_loop K F smul a' (Npos n) max_bits xq yq (yq * yq) (mkXP xq yq 1 1, [], [])))) x y /\
    pr_miller_end K F G inc mkgt squared (Npos n) loop_neg max_bits g_RR (prec1 zx1 zy1 tP) (prec2 zx2 zy2 tQ) =
      Some (f, length (dbls (prec2 zx2 zy2 tQ)), length (adds (prec2 zx2 zy2 tQ))) /\
    f <> 0 /\
    (loop_neg = false -> fpow f e = fpow (miller_fun G (emb (inc a)) n (untwist emb w (Aff xq yq)) (Aff (emb (inc xp)) (emb (inc yp)))) e) /\
    (loop_neg = true -> fpow f e = fpow (miller_fun_neg G (emb (inc a)) n (untwist emb w (Aff xq yq)) (Aff (emb (inc xp)) (emb (inc yp)))) e).
  Proof.
    intros OP RP OQ RQ TP TQ.
    destruct (proj_affine K KK zx1 zy1 tP xp yp TP) as [AP ZP]. destruct (proj_affine F KF zx2 zy2 tQ xq yq TQ) as [AQ _].
    assert (L2 : (2 < r)%N) by lia.
    assert (Y := odd_y K KK two_K a b NS1 xp yp r OP Pr L2 RP).
    rewrite (pr_precompute_g2_eq K F smul twist a' n loop_neg max_bits Hbits zx2 zy2 xq yq tQ AQ).
    assert (E1 : prec1 zx1 zy1 tP = mkR1 xp yp (inc xp * twist) (inc yp * twist)).
    { unfold pr_precompute_g1. rewrite ZP, AP. cbn [aX aY]. rewrite !Hs. reflexivity. }
    rewrite E1.
    exact (pr_miller_main K F G KK KF KG smul inc HI Hs squared Hq emb H w Hw mkgt Hmk Hmk0 twist Htw a b a' b' Ea' Eb' two
      n loop_neg max_bits Hbits e kill_emb kill_w twist_ns xp yp Y OP g_RR HRR NS r Pr nlt xq yq OQ RQ).
  Qed.
End Mnt.

(** ** F_(p^4) over F_(p^2) *)
Section Emb4.
  Variable K : FieldOps.
  Variable nr : K.
  Hypothesis KK : FieldLaws K.
  Local Notation F := (Fp2 K nr).
  Local Notation G := (Fp4 K nr nr).
  Hypothesis KF : FieldLaws F.
  Hypothesis KG : FieldLaws G.
  Let RK := FieldLaws_Ring K KK.
  Let R := FieldLaws_Ring F KF.
  Let RG := FieldLaws_Ring G KG.
  Add Field Ke4 : (FL_th K KK).
  Add Field Fe4 : (FL_th F KF).
  Local Notation emb := (emb4 K nr).
  Local Notation w := (w4 K nr).
  Ltac go4 := unfold emb4, w4; cbn; unfold fp4_add, fp4_sub, fp4_neg, fp4_sub, fp4_zero, fp4_one, fp4_mul, fp4_mbnr; cbn;
    unfold fp2_zero, fp2_one, fp2_neg, fp2_sub, fp2_add, fp2_mul; cbn.
  Lemma emb4_hom : Hom F G emb.
  Proof.
    constructor; try reflexivity; intros;
      try (destruct x as [x0 x1]; try destruct y as [y0 y1]; go4; f_equal; apply quad_ext; cbn; ring).
    destruct (feqb_spec F R x y) as [->|N]; [apply (feqb_refl G RG)|]. apply (feqb_false G RG). intros E. apply N.
    exact (f_equal (fun q => q0 q) E).
  Qed.
  Lemma w4_0 : w <> 0.
  Proof. intros E. apply (F_1_neq_0 (FL_th K KK)). exact (f_equal (fun q => q0 (q1 q)) E). Qed.
  Lemma mk4 (u v : F) : (mkq u v : G) = emb u + emb v * w.
  Proof. destruct u, v. go4. f_equal; apply quad_ext; cbn; ring. Qed.
  Lemma mk4_0 (u v : F) : u <> 0 \/ v <> 0 -> (mkq u v : G) <> 0.
  Proof. intros [N|N] E; apply N; [exact (f_equal (fun q => q0 q) E)|exact (f_equal (fun q => q1 q) E)]. Qed.
  Lemma tw4 : emb (mkq 0 1) = w * w.
  Proof. go4. f_equal; apply quad_ext; cbn; ring. Qed.
  Lemma inv4_0 : finv (0 : G) = 0.
  Proof.
    cbn. unfold fp4_inv, fp4_zero. cbn. set (t := fp2_inv _ _ _). destruct t as [t0 t1]. go4. f_equal; apply quad_ext; cbn; ring.
  Qed.
  Lemma a4_eq (a : K) : (mkq (a * nr) 0 : F) = inc2 K nr a * (mkq 0 1 : F) * (mkq 0 1 : F).
  Proof. apply quad_ext; cbn; ring. Qed.
  Lemma b4_eq (b : K) : (mkq 0 (b * nr) : F) = inc2 K nr b * (mkq 0 1 : F) * (mkq 0 1 : F) * (mkq 0 1 : F).
  Proof. apply quad_ext; cbn; ring. Qed.
End Emb4.

(** ** F_(p^6) over F_(p^3) *)
Section Emb6.
  Variable K : FieldOps.
  Variable nr : K.
  Hypothesis KK : FieldLaws K.
  Local Notation F := (Fp3 K nr).
  Local Notation G := (Fp6t K nr nr).
  Hypothesis KF : FieldLaws F.
  Hypothesis KG : FieldLaws G.
  Let RK := FieldLaws_Ring K KK.
  Let R := FieldLaws_Ring F KF.
  Let RG := FieldLaws_Ring G KG.
  Add Field Ke6 : (FL_th K KK).
  Add Field Fe6 : (FL_th F KF).
  Local Notation emb := (emb6 K nr).
  Local Notation w := (w6 K nr).
  Ltac go6 := unfold emb6, w6; cbn; unfold fp6t_add, fp6t_sub, fp6t_neg, fp6t_sub, fp6t_zero, fp6t_one, fp6t_mul, fp6t_mbnr; cbn;
    unfold fp3_zero, fp3_one, fp3_neg, fp3_sub, fp3_add, fp3_mul; cbn.
  Lemma inc3_hom : Hom K F (inc3 K nr).
  Proof.
    constructor; try reflexivity; intros; try (apply cub_ext; cbn; ring).
    destruct (feqb_spec K RK x y) as [->|N]; [apply (feqb_refl _ R)|]. apply (feqb_false _ R). intros E. apply N.
    exact (f_equal (fun q => c0 q) E).
  Qed.
  Lemma inc3_smul k x : fp3_smul K k x = inc3 K nr k * (x : F).
  Proof. apply cub_ext; cbn; ring. Qed.
  Lemma emb6_hom : Hom F G emb.
  Proof.
    constructor; try reflexivity; intros;
      try (destruct x as [x0 x1 x2]; try destruct y as [y0 y1 y2]; go6; f_equal; apply cub_ext; cbn; ring).
    destruct (feqb_spec F R x y) as [->|N]; [apply (feqb_refl G RG)|]. apply (feqb_false G RG). intros E. apply N.
    exact (f_equal (fun q => q0 q) E).
  Qed.
  Lemma w6_0 : w <> 0.
  Proof. intros E. apply (F_1_neq_0 (FL_th K KK)). exact (f_equal (fun q => c0 (q1 q)) E). Qed.
  Lemma mk6 (u v : F) : (mkq u v : G) = emb u + emb v * w.
  Proof. destruct u, v. go6. f_equal; apply cub_ext; cbn; ring. Qed.
  Lemma mk6_0 (u v : F) : u <> 0 \/ v <> 0 -> (mkq u v : G) <> 0.
  Proof. intros [N|N] E; apply N; [exact (f_equal (fun q => q0 q) E)|exact (f_equal (fun q => q1 q) E)]. Qed.
  Lemma tw6 : emb (mkc 0 1 0) = w * w.
  Proof. go6. f_equal; apply cub_ext; cbn; ring. Qed.
  Lemma inv6_0 : finv (0 : G) = 0.
  Proof.
    cbn. unfold fp6t_inv, fp6t_zero. cbn. set (t := fp3_inv _ _ _). destruct t as [t0 t1 t2]. go6. f_equal; apply cub_ext; cbn; ring.
  Qed.
  Lemma sqr6 (x : G) : fp6t_sqr K nr nr x = x * x.
  Proof. destruct x as [[x0 x1 x2] [y0 y1 y2]]. unfold fp6t_sqr. go6. f_equal; apply cub_ext; cbn; ring. Qed.
  Lemma a6_eq (a : K) : (mkc 0 0 a : F) = inc3 K nr a * (mkc 0 1 0 : F) * (mkc 0 1 0 : F).
  Proof. apply cub_ext; cbn; ring. Qed.
  Lemma b6_eq (b : K) : (mkc (b * nr) 0 0 : F) = inc3 K nr b * (mkc 0 1 0 : F) * (mkc 0 1 0 : F) * (mkc 0 1 0 : F).
  Proof. apply cub_ext; cbn; ring. Qed.
  Lemma RR6 (P : pr_g1_prec K F) (dc : dbl_coeffs F) :
    pr_g_RR' K F G (fun x y => mkq x y) P dc = pr_g_RR K F G (fun x y => mkq x y) P dc.
  Proof. unfold pr_g_RR', pr_g_RR. f_equal; ring. Qed.
End Emb6.

(** ** both towers, over an abstract prime field *)
Definition mnt4_main_gen (K : FieldOps) (nr : K) (KK : FieldLaws K) (p : N) (FF2 : FinField (Fp2 K nr) p 2) (FF4 : FinField (Fp4 K nr nr) p 4)
  (e : N) (He : (2 * (p ^ 2 - 1) * (e / (2 * (p ^ 2 - 1))) = e)%N) (a b : K) (two : (2 : Fp2 K nr) <> 0)
  (NS1 : nonsingular K a b) (NS : nonsingular (Fp2 K nr) (mkq (a * nr) 0) (mkq 0 (b * nr))) (n : positive) (neg : bool) (mb : nat)
  (Hb : (N.size (Npos n) <= N.of_nat mb)%N) (r : N) (Pr : prime (Z.of_N r)) (nlt : (2 * Npos n < r)%N) :=
  let KF := FF_field _ _ _ FF2 in let KG := FF_field _ _ _ FF4 in
  mnt_gen K (Fp2 K nr) (Fp4 K nr nr) KK p 2 FF2 KG e He (fp2_smul K) (inc2 K nr) (inc2_hom K nr KK KF) (inc2_smul K nr KK)
    (fp4_sqr K nr nr) (fun f => eq_refl) (emb4 K nr) (emb4_hom K nr KK KF KG) (w4 K nr) (w4_0 K nr KK)
    (fun x y => mkq x y) (mk4 K nr KK) (mk4_0 K nr) (mkq 0 1) (tw4 K nr KK) a b (mkq (a * nr) 0) (mkq 0 (b * nr))
    (a4_eq K nr KK a) (b4_eq K nr KK b) two NS1 NS n neg mb Hb r Pr nlt (pr_g_RR K (Fp2 K nr) (Fp4 K nr nr) (fun x y => mkq x y)) (fun _ _ => eq_refl).
Definition mnt6_main_gen (K : FieldOps) (nr : K) (KK : FieldLaws K) (p : N) (FF3 : FinField (Fp3 K nr) p 3) (FF6 : FinField (Fp6t K nr nr) p 6)
  (e : N) (He : (2 * (p ^ 3 - 1) * (e / (2 * (p ^ 3 - 1))) = e)%N) (a b : K) (two : (2 : Fp3 K nr) <> 0)
  (NS1 : nonsingular K a b) (NS : nonsingular (Fp3 K nr) (mkc 0 0 a) (mkc (b * nr) 0 0)) (n : positive) (neg : bool) (mb : nat)
  (Hb : (N.size (Npos n) <= N.of_nat mb)%N) (r : N) (Pr : prime (Z.of_N r)) (nlt : (2 * Npos n < r)%N) :=
  let KF := FF_field _ _ _ FF3 in let KG := FF_field _ _ _ FF6 in
  mnt_gen K (Fp3 K nr) (Fp6t K nr nr) KK p 3 FF3 KG e He (fp3_smul K) (inc3 K nr) (inc3_hom K nr KK KF) (inc3_smul K nr KK)
    (fp6t_sqr K nr nr) (sqr6 K nr KK) (emb6 K nr) (emb6_hom K nr KK KF KG) (w6 K nr) (w6_0 K nr KK)
    (fun x y => mkq x y) (mk6 K nr KK) (mk6_0 K nr) (mkc 0 1 0) (tw6 K nr KK) a b (mkc 0 0 a) (mkc (b * nr) 0 0)
    (a6_eq K nr KK a) (b6_eq K nr KK b) two NS1 NS n neg mb Hb r Pr nlt
    (pr_g_RR' K (Fp3 K nr) (Fp6t K nr nr) (fun x y => mkq x y)) (RR6 K nr KF).

(** ** the shipped instances *)
Definition mnt4_a : Zp mnt4_p := tozp mnt4_p mnt4_298_a.
Definition mnt4_b : Zp mnt4_p := tozp mnt4_p mnt4_298_b.
Definition mnt6_a : Zp mnt6_p := tozp mnt6_p mnt6_298_a.
Definition mnt6_b : Zp mnt6_p := tozp mnt6_p mnt6_298_b.

Lemma mnt4_K : FieldLaws (Zp mnt4_p).
Proof. apply Zp_field; [vm_compute; reflexivity|exact mnt4_p_prime]. Qed.
Lemma mnt6_K : FieldLaws (Zp mnt6_p).
Proof. apply Zp_field; [vm_compute; reflexivity|exact mnt6_p_prime]. Qed.
Lemma mnt4_He : (2 * (Z.to_N mnt4_p ^ 2 - 1) * (mnt4_e / (2 * (Z.to_N mnt4_p ^ 2 - 1))) = mnt4_e)%N.
Proof. vm_compute. reflexivity. Qed.
Lemma mnt6_He : (2 * (Z.to_N mnt6_p ^ 3 - 1) * (mnt6_e / (2 * (Z.to_N mnt6_p ^ 3 - 1))) = mnt6_e)%N.
Proof. vm_compute. reflexivity. Qed.
Lemma mnt4_r_prime : prime (Z.of_N mnt4_r).
Proof. exact prime_mnt6_base_field_298. Qed.
Lemma mnt6_r_prime : prime (Z.of_N mnt6_r).
Proof. exact prime_mnt4_base_field_298. Qed.
Lemma mnt4_nlt : (2 * Npos mnt_n < mnt4_r)%N.
Proof. reflexivity. Qed.
Lemma mnt6_nlt : (2 * Npos mnt_n < mnt6_r)%N.
Proof. reflexivity. Qed.
Lemma mnt_bits : (N.size (Npos mnt_n) <= N.of_nat mnt_max_bits)%N.
Proof. vm_compute. discriminate. Qed.
Lemma mnt4_ns1 : nonsingular (Zp mnt4_p) mnt4_a mnt4_b.
Proof. intros E. apply (f_equal (@zval _)) in E. vm_compute in E. discriminate E. Qed.
Lemma mnt6_ns1 : nonsingular (Zp mnt6_p) mnt6_a mnt6_b.
Proof. intros E. apply (f_equal (@zval _)) in E. vm_compute in E. discriminate E. Qed.
Lemma mnt4_ok_g2 : ok_g2 (t4_Fp2 mnt4_tower) mnt4_g2_a mnt4_g2_b (lits2 (t4_p mnt4_tower) mnt4_298_g2_one) mnt6_base_field_298_modulus.
Proof. exact (t4_g2_sound _ mnt4_p_prime mnt4_field_check _ _ _ _ mnt4_g2_check). Qed.
Lemma mnt6_ok_g2 : ok_g2 (t6_Fp3 mnt6_tower) mnt6_g2_a mnt6_g2_b (lits3 (t6_p mnt6_tower) mnt6_298_g2_one) mnt4_base_field_298_modulus.
Proof. exact (t6_g2_sound _ mnt6_p_prime mnt6_field_check _ _ _ _ mnt6_g2_check). Qed.

Definition mnt4_gen := mnt4_main_gen (Zp mnt4_p) (tozp mnt4_p mnt4_fp2_non_residue) mnt4_K (Z.to_N mnt4_p)
  (proj1 (t4_fields _ mnt4_p_prime mnt4_field_check)) (proj2 (t4_fields _ mnt4_p_prime mnt4_field_check))
  mnt4_e mnt4_He mnt4_a mnt4_b (proj1 (proj2 (proj2 (proj2 mnt4_ok_g2)))) mnt4_ns1 (proj1 mnt4_ok_g2)
  mnt_n mnt4_ate_is_loop_count_neg mnt_max_bits mnt_bits mnt4_r mnt4_r_prime mnt4_nlt.
Definition mnt6_gen := mnt6_main_gen (Zp mnt6_p) (tozp mnt6_p mnt6_fp3_non_residue) mnt6_K (Z.to_N mnt6_p)
  (proj1 (t6_fields _ mnt6_p_prime mnt6_field_check)) (proj2 (t6_fields _ mnt6_p_prime mnt6_field_check))
  mnt6_e mnt6_He mnt6_a mnt6_b (proj1 (proj2 (proj2 (proj2 mnt6_ok_g2)))) mnt6_ns1 (proj1 mnt6_ok_g2)
  mnt_n mnt6_ate_is_loop_count_neg mnt_max_bits mnt_bits mnt6_r mnt6_r_prime mnt6_nlt.

Lemma mnt4_miller std xp yp xq yq tP tQ :
  on_curve (Zp mnt4_p) mnt4_a mnt4_b (Aff xp yp) -> ec_mul (Zp mnt4_p) mnt4_a (N.to_nat mnt4_r) (Aff xp yp) = Inf ->
  on_curve (t4_Fp2 mnt4_tower) mnt4_g2_a mnt4_g2_b (Aff xq yq) -> ec_mul (t4_Fp2 mnt4_tower) mnt4_g2_a (N.to_nat mnt4_r) (Aff xq yq) = Inf ->
  rep_projective (tX tP) (tY tP) (tZ tP) (Aff xp yp) -> rep_projective (tX tQ) (tY tQ) (tZ tQ) (Aff xq yq) ->
  exists g, mnt4_pair std tP tQ = Some g /\ g <> 0 /\
    fpow g mnt4_e = fpow (miller_fun (t4_Fp4 mnt4_tower) (mnt4_emb (mnt4_inc mnt4_a)) mnt_n (untwist mnt4_emb mnt4_wt (Aff xq yq))
      (Aff (mnt4_emb (mnt4_inc xp)) (mnt4_emb (mnt4_inc yp)))) mnt4_e.
Proof.
  intros OP RP OQ RQ TP TQ.
  destruct (mnt4_gen 0 (zero_fill_y _ std) 0 (zero_fill_y _ std) tP tQ xp yp xq yq OP RP OQ RQ TP TQ)
    as (x & y & f & _ & _ & E & G0 & V & _).
  exists f. split; [|split; [exact G0|exact (V eq_refl)]].
  unfold mnt4_pair, mnt4_miller_loop, pr_miller_loop. exact (f_equal (option_map (fun '(f, _, _) => f)) E).
Qed.
Lemma mnt6_miller xp yp xq yq tP tQ :
  on_curve (Zp mnt6_p) mnt6_a mnt6_b (Aff xp yp) -> ec_mul (Zp mnt6_p) mnt6_a (N.to_nat mnt6_r) (Aff xp yp) = Inf ->
  on_curve (t6_Fp3 mnt6_tower) mnt6_g2_a mnt6_g2_b (Aff xq yq) -> ec_mul (t6_Fp3 mnt6_tower) mnt6_g2_a (N.to_nat mnt6_r) (Aff xq yq) = Inf ->
  rep_projective (tX tP) (tY tP) (tZ tP) (Aff xp yp) -> rep_projective (tX tQ) (tY tQ) (tZ tQ) (Aff xq yq) ->
  exists g, mnt6_pair tP tQ = Some g /\ g <> 0 /\
    fpow g mnt6_e = fpow (miller_fun_neg (t6_Fp6 mnt6_tower) (mnt6_emb (mnt6_inc mnt6_a)) mnt_n (untwist mnt6_emb mnt6_wt (Aff xq yq))
      (Aff (mnt6_emb (mnt6_inc xp)) (mnt6_emb (mnt6_inc yp)))) mnt6_e.
Proof.
  intros OP RP OQ RQ TP TQ.
  destruct (mnt6_gen 0 1 0 1 tP tQ xp yp xq yq OP RP OQ RQ TP TQ) as (x & y & f & _ & _ & E & G0 & _ & V).
  exists f. split; [|split; [exact G0|exact (V eq_refl)]].
  unfold mnt6_pair, mnt6_miller_loop, pr_miller_loop. exact (f_equal (option_map (fun '(f, _, _) => f)) E).
Qed.
