(** The Miller loops and the bls12 final exponentiation under homomorphisms of all three fields. *)
From Coq Require Import ZArith NArith List Bool Lia.
From Verif Require Import Base.Field Base.Ext Base.Hom Model.Power Model.Fp2 Model.Fp3 Model.Fp4
  Model.Fp6_2over3 Model.Fp6_3over2 Model.Fp12 Model.ShortWeierstrass Model.Edwards Model.EdwardsG2 Model.FinalExp Model.Pairing
  Proof.Homs Proof.FastField Proof.OrderCheck.
Import ListNotations.
Local Open Scope fld_scope.

Lemma bit_loop_map {S T : Type} (g : S -> T) top lc body body' st :
  (forall b s, g (body b s) = body' b (g s)) -> g (bit_loop top lc body st) = bit_loop top lc body' (g st).
Proof.
  intros E. unfold bit_loop. set (f := fun i '(b, r) => _). set (f' := fun i '(b, r) => _).
  assert (M := for_down_map (fun '(b, s) => (b : bool, g s)) top f f' (false, st)).
  cbv beta iota in M. rewrite <- M.
  - destruct (for_down top f (false, st)). reflexivity.
  - intros i [b s]. unfold f, f'. cbv zeta. destruct b; rewrite ?E; reflexivity.
Qed.
Lemma nth_error_map_some {A B} (g : A -> B) l n : nth_error (map g l) n = option_map g (nth_error l n).
Proof. revert n. induction l; destruct n; cbn; auto. Qed.
Definition amap {A B : FieldOps} (h : A -> B) (P : affine A) : affine B := mkA (h (aX P)) (h (aY P)).

Section Point.
  Context {A B : FieldOps} (h : A -> B) (H : FHom A B h).
  Let HH := fh_hom _ _ _ H.
  Ltac go := repeat progress (homs HH; rewrite ?(fh_inv _ _ _ H)); reflexivity.
  Lemma map_eqb0 (x : A) : (h x =? 0) = (x =? 0).
  Proof. rewrite <- (hom_0 _ _ _ HH). apply (hom_eqb _ _ _ HH). Qed.
  Lemma map_jac_to_affine zx zy P : amap h (jac_to_affine A zx zy P) = jac_to_affine B (h zx) (h zy) (tmap h P).
  Proof.
    unfold jac_to_affine, jac_is_zero. cbn [tmap tX tY tZ]. rewrite map_eqb0. destruct (tZ P =? 0); [reflexivity|].
    unfold amap; cbn [aX aY]. f_equal; go.
  Qed.
  Lemma map_proj_to_affine zx zy P : amap h (proj_to_affine A zx zy P) = proj_to_affine B (h zx) (h zy) (tmap h P).
  Proof.
    unfold proj_to_affine, proj_is_zero. cbn [tmap tX tY tZ]. rewrite !map_eqb0. destruct (_ && _); [reflexivity|].
    unfold amap; cbn [aX aY]. f_equal; go.
  Qed.
End Point.

Section A40.
  Context {K F G K' F' G' : FieldOps} (hK : K -> K') (hF : F -> F') (hG : G -> G').
  Hypotheses (HK : FHom K K' hK) (HF : FHom F F' hF) (HG : FHom G G' hG).
  Let EK := fh_hom _ _ _ HK. Let EF := fh_hom _ _ _ HF. Let EG := fh_hom _ _ _ HG.
  Variables (smul : K -> F -> F) (smul' : K' -> F' -> F').
  Hypothesis Hsmul : forall k x, hF (smul k x) = smul' (hK k) (hF x).
  Variables (squared : G -> G) (squared' : G' -> G').
  Hypothesis Hsq : forall x, hG (squared x) = squared' (hG x).
  Variables (m045 : G -> F -> F -> F -> G) (m045' : G' -> F' -> F' -> F' -> G').
  Hypothesis H045 : forall f a b c, hG (m045 f a b c) = m045' (hG f) (hF a) (hF b) (hF c).
  Variables (tw tb : F) (lc : N) (neg : bool) (mb : nat) (zx1 zy1 : K) (zx2 zy2 : F).
  Definition elmap (c : ell_coeffs F) : ell_coeffs F' := mkEll (hF (ell_0 c)) (hF (ell_VW c)) (hF (ell_VV c)).
  Definition p1map (P : a40_g1_prec K) : a40_g1_prec K' := mkP1 (hK (PX P)) (hK (PY P)).
  Definition p2map (Q : a40_g2_prec F) : a40_g2_prec F' := mkP2 (hF (QX Q)) (hF (QY Q)) (map elmap (coeffs Q)).
  Lemma map_fofZ (z : Z) : hK (fofZ z) = fofZ z. Proof. apply (hom_fofZ hK EK). Qed.
  Ltac go := repeat progress (homs EF; rewrite ?Hsmul, ?map_fofZ, ?(fh_inv _ _ _ HF)); reflexivity.
  Lemma map_a40_g1 P : p1map (a40_precompute_g1 K zx1 zy1 P) = a40_precompute_g1 K' (hK zx1) (hK zy1) (tmap hK P).
  Proof.
    unfold a40_precompute_g1. rewrite <- (map_jac_to_affine hK HK). unfold jac_is_zero. cbn [tmap tZ]. rewrite (map_eqb0 hK HK).
    destruct (tZ P =? 0); unfold p1map; cbn [PX PY aX aY amap]; rewrite ?(hom_0 _ _ _ EK); reflexivity.
  Qed.
  Lemma map_a40_dbl ti R : (fun '(R, c) => (tmap hF R, elmap c)) (a40_doubling_step K F smul tw tb ti R) = a40_doubling_step K' F' smul' (hF tw) (hF tb) (hK ti) (tmap hF R).
  Proof.
    unfold a40_doubling_step, tmap, elmap; cbn [tX tY tZ ell_0 ell_VW ell_VV]. f_equal; f_equal; go.
  Qed.
  Lemma map_a40_add b R : (fun '(R, c) => (tmap hF R, elmap c)) (a40_mixed_addition_step F tw b R) = a40_mixed_addition_step F' (hF tw) (amap hF b) (tmap hF R).
  Proof.
    unfold a40_mixed_addition_step, tmap, elmap, amap; cbn [tX tY tZ aX aY ell_0 ell_VW ell_VV]. f_equal; f_equal; go.
  Qed.
  Definition st2 (st : triple F * list (ell_coeffs F)) := let '(R, cs) := st in (tmap hF R, map elmap cs).
  Lemma map_a40_loop q ti st : st2 (a40_g2_loop K F smul tw tb lc mb q ti st) = a40_g2_loop K' F' smul' (hF tw) (hF tb) lc mb (amap hF q) (hK ti) (st2 st).
  Proof.
    unfold a40_g2_loop. apply (bit_loop_map st2). intros b [R cs]. unfold st2 at 2. rewrite <- map_a40_dbl.
    destruct (a40_doubling_step K F smul tw tb ti R) as [R1 c1]. destruct b; [|unfold st2; rewrite map_app; reflexivity].
    rewrite <- map_a40_add. destruct (a40_mixed_addition_step F tw q R1) as [R2 c2]. unfold st2. rewrite !map_app. reflexivity.
  Qed.
  Lemma map_a40_g2 Q : p2map (a40_precompute_g2 K F smul tw tb lc mb zx2 zy2 Q) = a40_precompute_g2 K' F' smul' (hF tw) (hF tb) lc mb (hF zx2) (hF zy2) (tmap hF Q).
  Proof.
    unfold a40_precompute_g2. rewrite <- (map_jac_to_affine hF HF). cbv zeta. set (q := jac_to_affine F zx2 zy2 Q).
    rewrite <- (map_fofZ 2), <- (fh_inv _ _ _ HK).
    assert (E := map_a40_loop q (finv (fofZ 2)) (mkT (aX q) (aY q) 1, [])). unfold st2 at 2 in E. cbn [map] in E.
    unfold tmap in E; cbn [tX tY tZ] in E. rewrite (hom_1 _ _ _ EF) in E. cbn [amap aX aY] in E |- *. rewrite <- E.
    destruct (a40_g2_loop _ _ _ _ _ _ _ _ _ _). reflexivity.
  Qed.
  Lemma map_a40_line P c f : hG (a40_line K F G smul m045 P c f) = a40_line K' F' G' smul' m045' (p1map P) (elmap c) (hG f).
  Proof. unfold a40_line. rewrite H045, !Hsmul. reflexivity. Qed.
  Lemma map_a40_miller P Q : option_map hG (a40_miller_loop K F G smul squared m045 lc neg mb P Q) =
    a40_miller_loop K' F' G' smul' squared' m045' lc neg mb (p1map P) (p2map Q).
  Proof.
    unfold a40_miller_loop.
    assert (E : option_map (fun '(f, i) => (hG f, i)) (a40_miller_state K F G smul squared m045 lc mb P Q) =
      a40_miller_state K' F' G' smul' squared' m045' lc mb (p1map P) (p2map Q)).
    { unfold a40_miller_state. rewrite <- (hom_1 _ _ _ EG).
      change (Some (hG 1, O)) with (option_map (fun '(f, i) => (hG f, i : nat)) (Some (1, O))).
      apply bit_loop_map. intros b [[f i]|]; [|reflexivity]. cbn [option_map p2map coeffs]. rewrite !nth_error_map_some.
      destruct (nth_error (coeffs Q) i) as [c|]; [|reflexivity]. cbn [option_map]. rewrite ?nth_error_map_some.
      destruct b; [destruct (nth_error (coeffs Q) (S i)); [|reflexivity]|]; cbn [option_map]; rewrite !map_a40_line, Hsq; reflexivity. }
    rewrite <- E. destruct (a40_miller_state _ _ _ _ _ _ _ _ _ _) as [[f i]|]; [|reflexivity]. cbn [option_map].
    destruct neg; rewrite ?(fh_inv _ _ _ HG); reflexivity.
  Qed.
End A40.

Section Proj.
  Context {K F G K' F' G' : FieldOps} (hK : K -> K') (hF : F -> F') (hG : G -> G').
  Hypotheses (HK : FHom K K' hK) (HF : FHom F F' hF) (HG : FHom G G' hG).
  Let EK := fh_hom _ _ _ HK. Let EF := fh_hom _ _ _ HF. Let EG := fh_hom _ _ _ HG.
  Variables (smul : K -> F -> F) (smul' : K' -> F' -> F').
  Hypothesis Hsmul : forall k x, hF (smul k x) = smul' (hK k) (hF x).
  Variables (of_base : K -> F) (of_base' : K' -> F').
  Hypothesis Hbase : forall k, hF (of_base k) = of_base' (hK k).
  Variables (mkgt : F -> F -> G) (mkgt' : F' -> F' -> G').
  Hypothesis Hgt : forall x y, hG (mkgt x y) = mkgt' (hF x) (hF y).
  Variables (squared : G -> G) (squared' : G' -> G').
  Hypothesis Hsq : forall x, hG (squared x) = squared' (hG x).
  Variables (tw ta : F) (lc : N) (neg : bool) (mb : nat) (zx1 zy1 : K) (zx2 zy2 : F).
  Definition r1map (P : pr_g1_prec K F) : pr_g1_prec K' F' := mkR1 (hK (rPX P)) (hK (rPY P)) (hF (rPX_twist P)) (hF (rPY_twist P)).
  Definition dmap (c : dbl_coeffs F) : dbl_coeffs F' := mkDbl (hF (c_H c)) (hF (c_4C c)) (hF (c_J c)) (hF (c_L c)).
  Definition admap (c : add_coeffs F) : add_coeffs F' := mkAdd (hF (c_L1 c)) (hF (c_RZ c)).
  Definition xmap (R : ext_proj F) : ext_proj F' := mkXP (hF (pX R)) (hF (pY R)) (hF (pZ R)) (hF (pT R)).
  Definition r2map (Q : pr_g2_prec F) : pr_g2_prec F' := mkR2 (hF (rQX Q)) (hF (rQY Q)) (hF (rQY2 Q)) (hF (rQX_over_twist Q)) (hF (rQY_over_twist Q))
    (map dmap (dbls Q)) (map admap (adds Q)).
  Ltac go := repeat progress (homs EF; rewrite ?Hsmul, ?Hbase, ?(hom_opp _ _ _ EK), ?(hom_fofZ hK EK), ?(fh_inv _ _ _ HF)); reflexivity.
  Lemma map_pr_g1 P : r1map (pr_precompute_g1 K F smul tw zx1 zy1 P) = pr_precompute_g1 K' F' smul' (hF tw) (hK zx1) (hK zy1) (tmap hK P).
  Proof.
    unfold pr_precompute_g1. rewrite <- (map_proj_to_affine hK HK). unfold proj_is_zero. cbn [tmap tX tZ]. rewrite !(map_eqb0 hK HK).
    destruct (_ && _); unfold r1map; cbn [rPX rPY rPX_twist rPY_twist aX aY amap]; rewrite ?Hsmul, ?(hom_0 _ _ _ EK); reflexivity.
  Qed.
  Lemma map_pr_dbl R : (fun '(R, c) => (xmap R, dmap c)) (pr_doubling_step K F smul ta R) = pr_doubling_step K' F' smul' (hF ta) (xmap R).
  Proof.
    unfold pr_doubling_step, xmap, dmap, fdbl; cbn [pX pY pZ pT c_H c_4C c_J c_L]. f_equal; f_equal; go.
  Qed.
  Lemma map_pr_add qx qy qy2 R : (fun '(R, c) => (xmap R, admap c)) (pr_mixed_addition_step F qx qy qy2 R) = pr_mixed_addition_step F' (hF qx) (hF qy) (hF qy2) (xmap R).
  Proof.
    unfold pr_mixed_addition_step, xmap, admap; cbn [pX pY pZ pT c_L1 c_RZ]. f_equal; f_equal; go.
  Qed.
  Definition st3 (st : ext_proj F * list (dbl_coeffs F) * list (add_coeffs F)) := let '(R, ds, az) := st in (xmap R, map dmap ds, map admap az).
  Lemma map_pr_loop qx qy qy2 st : st3 (pr_g2_loop K F smul ta lc mb qx qy qy2 st) = pr_g2_loop K' F' smul' (hF ta) lc mb (hF qx) (hF qy) (hF qy2) (st3 st).
  Proof.
    unfold pr_g2_loop. apply (bit_loop_map st3). intros b [[R ds] az]. unfold st3 at 2. rewrite <- map_pr_dbl.
    destruct (pr_doubling_step K F smul ta R) as [R1 c1]. destruct b; [|unfold st3; rewrite map_app; reflexivity].
    rewrite <- map_pr_add. destruct (pr_mixed_addition_step F qx qy qy2 R1) as [R2 c2]. unfold st3. rewrite !map_app. reflexivity.
  Qed.
  Lemma map_pr_g2 Q : r2map (pr_precompute_g2 K F smul tw ta lc neg mb zx2 zy2 Q) = pr_precompute_g2 K' F' smul' (hF tw) (hF ta) lc neg mb (hF zx2) (hF zy2) (tmap hF Q).
  Proof.
    unfold pr_precompute_g2. rewrite <- (map_proj_to_affine hF HF). cbv zeta. set (q := proj_to_affine F zx2 zy2 Q). cbn [amap aX aY].
    rewrite <- (hom_mul _ _ _ EF).
    assert (E := map_pr_loop (aX q) (aY q) (aY q * aY q) (mkXP (aX q) (aY q) 1 1, [], [])).
    unfold st3 at 2 in E. cbn [map] in E. unfold xmap at 1 in E; cbn [pX pY pZ pT] in E. rewrite (hom_1 _ _ _ EF) in E. rewrite <- E.
    destruct (pr_g2_loop _ _ _ _ _ _ _ _ _ _) as [[R ds] az]. unfold st3.
    unfold r2map; cbn [rQX rQY rQY2 rQX_over_twist rQY_over_twist dbls adds]. f_equal; try go.
    destruct neg; [|reflexivity]. cbn [xmap pX pY pZ].
    repeat rewrite <- ?(fh_inv _ _ _ HF), <- ?(hom_opp _ _ _ EF), <- ?(hom_mul _ _ _ EF).
    rewrite <- map_pr_add. destruct (pr_mixed_addition_step F _ _ _ R). rewrite map_app. reflexivity.
  Qed.
  Variables (gRR : pr_g1_prec K F -> dbl_coeffs F -> G) (gRR' : pr_g1_prec K' F' -> dbl_coeffs F' -> G').
  Hypothesis HgRR : forall P c, hG (gRR P c) = gRR' (r1map P) (dmap c).
  Lemma map_pr_gRR P c : hG (pr_g_RR K F G mkgt P c) = pr_g_RR K' F' G' mkgt' (r1map P) (dmap c).
  Proof. unfold pr_g_RR. rewrite Hgt. cbn [r1map dmap rPX_twist rPY_twist c_H c_4C c_J c_L]. f_equal; go. Qed.
  Lemma map_pr_gRR' P c : hG (pr_g_RR' K F G mkgt P c) = pr_g_RR' K' F' G' mkgt' (r1map P) (dmap c).
  Proof. unfold pr_g_RR'. rewrite Hgt. cbn [r1map dmap rPX_twist rPY_twist c_H c_4C c_J c_L]. f_equal; go. Qed.
  Lemma map_pr_gRQ P Q c : hG (pr_g_RQ K F G of_base mkgt P Q c) = pr_g_RQ K' F' G' of_base' mkgt' (r1map P) (r2map Q) (admap c).
  Proof.
    unfold pr_g_RQ, pr_L1_coeff. rewrite Hgt. cbn [r1map r2map admap rPX rPY_twist c_L1 c_RZ rQY_over_twist rQX_over_twist]. f_equal; go.
  Qed.
  Lemma map_pr_state P Q : option_map (fun '(f, i, j) => (hG f, i, j)) (pr_miller_state K F G of_base mkgt squared lc mb gRR P Q) =
    pr_miller_state K' F' G' of_base' mkgt' squared' lc mb gRR' (r1map P) (r2map Q).
  Proof.
    unfold pr_miller_state. rewrite <- (hom_1 _ _ _ EG).
    change (Some (hG 1, O, O)) with (option_map (fun '(f, i, j) => (hG f, i : nat, j : nat)) (Some (1, O, O))).
    apply bit_loop_map. intros b [[[f i] j]|]; [|reflexivity]. cbn [option_map]. change (adds (r2map Q)) with (map admap (adds Q)); change (dbls (r2map Q)) with (map dmap (dbls Q)). rewrite !nth_error_map_some.
    destruct (nth_error (dbls Q) i) as [c|]; [|reflexivity]. cbn [option_map]. rewrite ?nth_error_map_some.
    destruct b; [destruct (nth_error (adds Q) j); [|reflexivity]|]; cbn [option_map]; rewrite !(hom_mul _ _ _ EG), ?map_pr_gRQ, HgRR, Hsq; reflexivity.
  Qed.
  Lemma map_pr_miller P Q : option_map hG (pr_miller_loop K F G of_base mkgt squared lc neg mb gRR P Q) =
    pr_miller_loop K' F' G' of_base' mkgt' squared' lc neg mb gRR' (r1map P) (r2map Q).
  Proof.
    unfold pr_miller_loop, pr_miller_end. rewrite <- map_pr_state. destruct (pr_miller_state _ _ _ _ _ _ _ _ _ _ _) as [[[f i] j]|]; [|reflexivity].
    cbn [option_map]. destruct neg; [|reflexivity]. change (adds (r2map Q)) with (map admap (adds Q)). rewrite nth_error_map_some. destruct (nth_error (adds Q) j); [|reflexivity]. cbn [option_map].
    rewrite (fh_inv _ _ _ HG), (hom_mul _ _ _ EG), map_pr_gRQ. reflexivity.
  Qed.
End Proj.

Section Ed.
  Context {K F G K' F' G' : FieldOps} (hK : K -> K') (hF : F -> F') (hG : G -> G').
  Hypotheses (HK : FHom K K' hK) (HF : FHom F F' hF) (HG : FHom G G' hG).
  Let EK := fh_hom _ _ _ HK. Let EF := fh_hom _ _ _ HF. Let EG := fh_hom _ _ _ HG.
  Variables (smul : K -> F -> F) (smul' : K' -> F' -> F').
  Hypothesis Hsmul : forall k x, hF (smul k x) = smul' (hK k) (hF x).
  Variables (mkgt : F -> F -> G) (mkgt' : F' -> F' -> G').
  Hypothesis Hgt : forall x y, hG (mkgt x y) = mkgt' (hF x) (hF y).
  Variables (squared : G -> G) (squared' : G' -> G').
  Hypothesis Hsq : forall x, hG (squared x) = squared' (hG x).
  Variables (mula : F -> F) (mula' : F' -> F').
  Hypothesis Hmula : forall x, hF (mula x) = mula' (hF x).
  Variables (lc : N) (mb : nat).
  Definition e1map (P : ed_g1_prec K) : ed_g1_prec K' := mkE1 (hK (P_XY P)) (hK (P_XZ P)) (hK (P_ZZplusYZ P)).
  Definition comap (c : conic F) : conic F' := mkConic (hF (c_ZZ c)) (hF (c_XY c)) (hF (c_XZ c)).
  Ltac go := repeat progress (homs EF; rewrite ?Hsmul, ?Hmula); reflexivity.
  Lemma map_ed_g1 x y : e1map (ed_precompute_g1 K (mkE x y)) = ed_precompute_g1 K' (mkE (hK x) (hK y)).
  Proof. unfold ed_precompute_g1, e1map; cbn [P_XY P_XZ P_ZZplusYZ Edwards.eX Edwards.eY]. f_equal; hom_solve EK. Qed.
  Lemma map_ed_dbl R : (fun '(R, c) => (xmap hF R, comap c)) (ed_doubling_step F mula R) = ed_doubling_step F' mula' (xmap hF R).
  Proof. unfold ed_doubling_step, xmap, comap; cbn [pX pY pZ pT c_ZZ c_XY c_XZ]. f_equal; f_equal; go. Qed.
  Lemma map_ed_add B R : (fun '(R, c) => (xmap hF R, comap c)) (ed_mixed_addition_step F mula B R) = ed_mixed_addition_step F' mula' (xmap hF B) (xmap hF R).
  Proof. unfold ed_mixed_addition_step, xmap, comap; cbn [pX pY pZ pT c_ZZ c_XY c_XZ]. f_equal; f_equal; go. Qed.
  Definition est (st : ext_proj F * list (conic F)) := let '(R, cs) := st in (xmap hF R, map comap cs).
  Lemma map_ed_loop q st : est (ed_g2_loop F mula lc mb q st) = ed_g2_loop F' mula' lc mb (xmap hF q) (est st).
  Proof.
    unfold ed_g2_loop. apply (bit_loop_map est). intros b [R cs]. unfold est at 2. rewrite <- map_ed_dbl.
    destruct (ed_doubling_step F mula R) as [R1 c1]. destruct b; [|unfold est; rewrite map_app; reflexivity].
    rewrite <- map_ed_add. destruct (ed_mixed_addition_step F mula q R1) as [R2 c2]. unfold est. rewrite !map_app. reflexivity.
  Qed.
  Lemma map_ed_g2 x y z : map comap (ed_precompute_g2 F mula lc mb (mkI x y z)) = ed_precompute_g2 F' mula' lc mb (mkI (hF x) (hF y) (hF z)).
  Proof.
    unfold ed_precompute_g2. cbv zeta. cbn [iX iY iZ]. rewrite <- (hom_mul _ _ _ EF).
    assert (E := map_ed_loop (mkXP x y z (x * y)) (mkXP x y z (x * y), [])).
    unfold est at 2 in E. cbn [map] in E.
    change (xmap hF (mkXP x y z (x * y))) with (mkXP (hF x) (hF y) (hF z) (hF (x * y))) in E. rewrite <- E.
    destruct (ed_g2_loop _ _ _ _ _ _). reflexivity.
  Qed.
  Lemma map_ed_gRR P c : hG (ed_g_RR K F G smul mkgt P c) = ed_g_RR K' F' G' smul' mkgt' (e1map P) (comap c).
  Proof. unfold ed_g_RR. rewrite Hgt. cbn [e1map comap P_XY P_XZ P_ZZplusYZ c_ZZ c_XY c_XZ]. f_equal; go. Qed.
  Lemma map_ed_gRQ P c : hG (ed_g_RQ K F G smul mkgt P c) = ed_g_RQ K' F' G' smul' mkgt' (e1map P) (comap c).
  Proof. unfold ed_g_RQ. rewrite Hgt. cbn [e1map comap P_XY P_XZ P_ZZplusYZ c_ZZ c_XY c_XZ]. f_equal; go. Qed.
  Lemma map_ed_miller P Q : option_map hG (ed_miller_loop K F G smul mkgt squared lc mb P Q) =
    ed_miller_loop K' F' G' smul' mkgt' squared' lc mb (e1map P) (map comap Q).
  Proof.
    unfold ed_miller_loop.
    assert (E : option_map (fun '(f, i) => (hG f, i)) (ed_miller_state K F G smul mkgt squared lc mb P Q) =
      ed_miller_state K' F' G' smul' mkgt' squared' lc mb (e1map P) (map comap Q)).
    { unfold ed_miller_state. rewrite <- (hom_1 _ _ _ EG).
      change (Some (hG 1, O)) with (option_map (fun '(f, i) => (hG f, i : nat)) (Some (1, O))).
      apply bit_loop_map. intros b [[f i]|]; [|reflexivity]. cbn [option_map]. rewrite !nth_error_map_some.
      destruct (nth_error Q i) as [c|]; [|reflexivity]. cbn [option_map].
      destruct b; [destruct (nth_error Q (S i)); [|reflexivity]|]; cbn [option_map]; rewrite !(hom_mul _ _ _ EG), ?map_ed_gRQ, map_ed_gRR, Hsq; reflexivity. }
    rewrite <- E. destruct (ed_miller_state _ _ _ _ _ _ _ _ _ _) as [[f i]|]; reflexivity.
  Qed.
End Ed.

Section BlsFinal.
  Context {G G' : FieldOps} (h : G -> G') (H : FHom G G' h).
  Variables (ui cs : G -> G) (ui' cs' : G' -> G') (ce fr : G -> N -> G) (ce' fr' : G' -> N -> G') (z : N) (zn : bool).
  Hypothesis Hui : forall x, h (ui x) = ui' (h x).
  Hypothesis Hcs : forall x, h (cs x) = cs' (h x).
  Hypothesis Hce : forall x n, h (ce x n) = ce' (h x) n.
  Hypothesis Hfr : forall x n, h (fr x n) = fr' (h x) n.
  Lemma map_bls_exp x : h (bls_exp_by_z G ui ce z zn x) = bls_exp_by_z G' ui' ce' z zn (h x).
  Proof. unfold bls_exp_by_z. destruct zn; rewrite ?Hui, Hce; reflexivity. Qed.
  Lemma map_bls_final x : h (bls_final_exponentiation G ui cs ce fr z zn x) = bls_final_exponentiation G' ui' cs' ce' fr' z zn (h x).
  Proof.
    unfold bls_final_exponentiation, bls_last_chunk, bls_first_chunk.
    repeat rewrite ?(hom_mul _ _ _ (fh_hom _ _ _ H)), ?(fh_inv _ _ _ H), ?map_bls_exp, ?Hui, ?Hcs, ?Hfr. reflexivity.
  Qed.
End BlsFinal.

(** the members of the gt class of bls12 *)
Lemma snd_map {X Y : Type} (g : X -> Y) (p : bool * X) : g (snd p) = snd (let '(b, r) := p in (b, g r)).
Proof. destruct p; reflexivity. Qed.
Section Fp12Map.
  Context {A B : FieldOps} (h : A -> B) (H : FHom A B h).
  Let HH := fh_hom _ _ _ H.
  Variables (Asqr : A -> A) (Bsqr : B -> B).
  Hypothesis Hsqr : forall x, h (Asqr x) = Bsqr (h x).
  Variables (xi xi12 : A).
  Notation h12 := (qmap (cmap h)).
  Lemma map_fp12_sqr x : h12 (fp12_sqr A Asqr xi xi12 x) = fp12_sqr B Bsqr (h xi) (h xi12) (h12 x).
  Proof. exact (hom_mul _ _ _ (hom_fp12 h HH Asqr Bsqr xi xi12) x x). Qed.
  Lemma map_fp12_045 f a b c : h12 (fp12_mul_by_045 A Asqr xi xi12 f a b c) = fp12_mul_by_045 B Bsqr (h xi) (h xi12) (h12 f) (h a) (h b) (h c).
  Proof. unfold fp12_mul_by_045, qmap, cmap; cbn [q0 q1 c0 c1 c2]. f_equal; f_equal; hom_solve HH. Qed.
  Lemma map_fp12_ui x : h12 (fp12_unitary_inversed A Asqr xi x) = fp12_unitary_inversed B Bsqr (h xi) (h12 x).
  Proof.
    unfold fp12_unitary_inversed. unfold qmap; cbn [q0 q1]. f_equal.
    exact (hom_opp _ _ _ (hom_fp6 h HH Asqr Bsqr xi) (q1 x)).
  Qed.
  Lemma map_fp12_csq x : h12 (fp12_cyclotomic_squared A Asqr xi x) = fp12_cyclotomic_squared B Bsqr (h xi) (h12 x).
  Proof. unfold fp12_cyclotomic_squared, qmap, cmap; cbn [q0 q1 c0 c1 c2]. f_equal; f_equal; hom_solve HH. Qed.
  Lemma map_fp12_cexp x e : h12 (fp12_cyclotomic_exp A Asqr xi xi12 x e) = fp12_cyclotomic_exp B Bsqr (h xi) (h xi12) (h12 x) e.
  Proof.
    assert (E1 := hom_1 _ _ _ (hom_fp12 h HH Asqr Bsqr xi xi12)). cbn [Fp12 f1] in E1.
    unfold fp12_cyclotomic_exp. destruct (N.eqb e 0); [exact E1|].
    set (f := fun i '(b, r) => _). set (f' := fun i '(b, r) => _).
    assert (E := for_down_map (fun '(b, r) => (b : bool, h12 r)) (nbits e) f f' (false, fp12_one A Asqr xi)).
    cbv beta iota in E. rewrite E1 in E. refine (eq_trans _ (f_equal snd (E _))); clear E.
    - exact (snd_map h12 _).
    - intros i [b r]. unfold f, f'. cbv zeta.
      assert (Em := hom_mul _ _ _ (hom_fp12 h HH Asqr Bsqr xi xi12)). cbn [Fp12 fmul] in Em.
      destruct b; rewrite <- ?map_fp12_csq; destruct (N.testbit e (N.of_nat i)); rewrite ?Em; reflexivity.
  Qed.
End Fp12Map.
Section FrobMap.
  Context {A B : FieldOps} (h : A -> B) (H : FHom A B h).
  Let HH := fh_hom _ _ _ H.
  Variable nr : A.
  Lemma nth_map0 l n : nth n (map h l) 0 = h (nth n l 0).
  Proof. rewrite <- (hom_0 _ _ _ HH). apply map_nth. Qed.
  Lemma map_fp2_frob fc x k : qmap h (fp2_frob A fc x k) = fp2_frob B (map h fc) (qmap h x) k.
  Proof. unfold fp2_frob, qmap; cbn [q0 q1]. rewrite nth_map0, (hom_mul _ _ _ HH). reflexivity. Qed.
  Lemma map_fp6_frob f2 f61 f62 x k : cmap (qmap h) (fp6_frob A nr f2 f61 f62 x k) = fp6_frob B (h nr) (map h f2) (map h f61) (map h f62) (cmap (qmap h) x) k.
  Proof.
    unfold fp6_frob. unfold cmap at 1; cbn [c0 c1 c2]. rewrite !nth_map0. unfold cmap; cbn [c0 c1 c2]. rewrite <- !map_fp2_frob.
    f_equal; exact (hom_mul _ _ _ (hom_fp2 h HH nr) _ _).
  Qed.
  Lemma map_fp12_frob f2 f61 f62 f12 x k : qmap (cmap (qmap h)) (fp12_frob A nr f2 f61 f62 f12 x k) =
    fp12_frob B (h nr) (map h f2) (map h f61) (map h f62) (map h f12) (qmap (cmap (qmap h)) x) k.
  Proof.
    unfold fp12_frob. unfold qmap at 1; cbn [q0 q1].
    change (q0 (qmap (cmap (qmap h)) x)) with (cmap (qmap h) (q0 x)). change (q1 (qmap (cmap (qmap h)) x)) with (cmap (qmap h) (q1 x)).
    rewrite !nth_map0, <- !map_fp6_frob. f_equal.
    generalize (fp6_frob A nr f2 f61 f62 (q1 x) k). intros y. unfold fp6_smul, cmap; cbn [c0 c1 c2].
    f_equal; exact (hom_mul _ _ _ (hom_fp2 h HH nr) _ _).
  Qed.
End FrobMap.
