(** Polynomials as coefficient lists: evaluation, products, identities checked
    on a fast representation, and a certificate that a cubic has no root. *)
From Coq Require Import ZArith NArith List Bool Lia Ring.
From Verif Require Import Base.Field Base.Ext Base.Hom Proof.Homs Proof.Frob Proof.FiniteField.
Import ListNotations.
Local Open Scope fld_scope.

Section Poly.
  Variable K : FieldOps.
  Fixpoint peval (l : list K) (x : K) : K := match l with [] => 0 | c :: r => c + x * peval r x end.
  Fixpoint ladd (a b : list K) : list K :=
    match a, b with
    | [], _ => b
    | _, [] => a
    | x :: a', y :: b' => x + y :: ladd a' b'
    end.
  Definition lscale (c : K) (l : list K) : list K := map (fmul c) l.
  Fixpoint lmul (a b : list K) : list K :=
    match a with [] => [] | c :: r => ladd (lscale c b) (0 :: lmul r b) end.
  Definition lcube (a : list K) : list K := lmul a (lmul a a).
  (** equal up to trailing zeros *)
  Fixpoint leqb (a b : list K) : bool :=
    match a, b with
    | [], _ => forallb (fun y => feqb y 0) b
    | _, [] => forallb (fun y => feqb y 0) a
    | x :: a', y :: b' => feqb x y && leqb a' b'
    end.
  Hypothesis R : RingLaws K.
  Add Ring KR : (RL_th K R).
  Lemma peval_add a b x : peval (ladd a b) x = peval a x + peval b x.
  Proof. revert b. induction a as [|c a IH]; intros [|d b]; cbn [ladd peval]; try ring. rewrite IH. ring. Qed.
  Lemma peval_scale c l x : peval (lscale c l) x = c * peval l x.
  Proof. induction l as [|d l IH]; cbn [lscale map peval]; [ring|]. unfold lscale in IH. rewrite IH. ring. Qed.
  Lemma peval_mul a b x : peval (lmul a b) x = peval a x * peval b x.
  Proof. induction a as [|c a IH]; cbn [lmul peval]; [ring|]. rewrite peval_add, peval_scale. cbn [peval]. rewrite IH. ring. Qed.
  Lemma peval_zeros l x : forallb (fun y : K => feqb y 0) l = true -> peval l x = 0.
  Proof.
    induction l as [|c l IH]; cbn [forallb peval]; [reflexivity|]. rewrite andb_true_iff. intros [E H].
    apply (feqb_true K R) in E. rewrite E, IH by exact H. ring.
  Qed.
  Lemma leqb_ok a b x : leqb a b = true -> peval a x = peval b x.
  Proof.
    revert b. induction a as [|c a IH]; intros [|d b]; cbn [leqb]; intros H.
    - reflexivity.
    - rewrite (peval_zeros _ x H). reflexivity.
    - rewrite (peval_zeros _ x H). reflexivity.
    - rewrite andb_true_iff in H. destruct H as [E H]. apply (feqb_true K R) in E. cbn [peval]. rewrite E, (IH b H). reflexivity.
  Qed.
  Lemma peval_app a b x : peval (a ++ b) x = peval a x + fpow x (N.of_nat (length a)) * peval b x.
  Proof.
    induction a as [|c a IH]; cbn [app peval length].
    - change (fpow x (N.of_nat 0)) with (@f1 K). ring.
    - rewrite IH. replace (N.of_nat (S (length a))) with (1 + N.of_nat (length a))%N by lia.
      rewrite (fpow_add K R), (fpow_1 K R). ring.
  Qed.
End Poly.
Arguments peval {K}. Arguments ladd {K}. Arguments lscale {K}. Arguments lmul {K}. Arguments lcube {K}. Arguments leqb {K}.

Section Homs.
  Context {A B : FieldOps} (h : A -> B) (H : Hom A B h).
  Lemma map_ladd a b : map h (ladd a b) = ladd (map h a) (map h b).
  Proof.
    revert b. induction a as [|c a IH]; intros [|d b]; try reflexivity. cbn [ladd map]. rewrite IH, (hom_add _ _ _ H). reflexivity.
  Qed.
  Lemma map_lscale c l : map h (lscale c l) = lscale (h c) (map h l).
  Proof. induction l as [|d l IH]; [reflexivity|]. cbn. rewrite (hom_mul _ _ _ H). unfold lscale in IH. rewrite IH. reflexivity. Qed.
  Lemma map_lmul a b : map h (lmul a b) = lmul (map h a) (map h b).
  Proof.
    induction a as [|c a IH]; [reflexivity|]. cbn [lmul map]. rewrite map_ladd, map_lscale. cbn [map]. rewrite IH, (hom_0 _ _ _ H). reflexivity.
  Qed.
  Lemma map_zeros l : forallb (fun y : B => feqb y 0) (map h l) = forallb (fun y : A => feqb y 0) l.
  Proof. induction l as [|c l IH]; [reflexivity|]. cbn. rewrite <- (hom_0 _ _ _ H), (hom_eqb _ _ _ H), (hom_0 _ _ _ H), IH. reflexivity. Qed.
  Lemma map_leqb a b : leqb (map h a) (map h b) = leqb a b.
  Proof.
    revert b. induction a as [|c a IH]; intros [|d b]; cbn [leqb map]; try reflexivity.
    - apply (map_zeros (d :: b)).
    - apply (map_zeros (c :: a)).
    - rewrite (hom_eqb _ _ _ H), IH. reflexivity.
  Qed.
End Homs.

(** ** Residues modulo x^3 + A x + B *)
Section Cubic.
  Variable K : FieldOps.
  Variables cA cB : K.
  Definition gmulc (a b : cub K) : cub K :=
    let d0 := c0 a * c0 b in
    let d1 := c0 a * c1 b + c1 a * c0 b in
    let d2 := c0 a * c2 b + c1 a * c1 b + c2 a * c0 b in
    let d3 := c1 a * c2 b + c2 a * c1 b in
    let d4 := c2 a * c2 b in
    mkc (d0 - cB * d3) (d1 - cA * d3 - cB * d4) (d2 - cA * d4).
  Definition gx : cub K := mkc 0 1 0.
  Fixpoint gpow (e : positive) : cub K :=
    match e with
    | xH => gx
    | xO q => let t := gpow q in gmulc t t
    | xI q => let t := gpow q in gmulc (gmulc t t) gx
    end.
  Definition ceval (a : cub K) (x : K) : K := c0 a + x * (c1 a + x * c2 a).
  (** u (x^q - x) + v (x^3 + A x + B) = 1 *)
  Definition noroot_check (q : positive) (u v : list K) : bool :=
    let r := gpow q in
    leqb (ladd (lmul u [c0 r; c1 r - 1; c2 r]) (lmul v [cB; cA; 0; 1])) [1].
  Hypothesis R : RingLaws K.
  Add Ring KR2 : (RL_th K R).
  Lemma ceval_mul a b x : x * x * x + cA * x + cB = 0 -> ceval (gmulc a b) x = ceval a x * ceval b x.
  Proof.
    intros E. unfold ceval, gmulc; cbn [c0 c1 c2]. set (d3 := c1 a * c2 b + c2 a * c1 b). set (d4 := c2 a * c2 b).
    transitivity ((c0 a + x * (c1 a + x * c2 a)) * (c0 b + x * (c1 b + x * c2 b)) - (d3 + d4 * x) * (x * x * x + cA * x + cB)).
    - unfold d3, d4. ring.
    - rewrite E. ring.
  Qed.
  Lemma ceval_pow e x : x * x * x + cA * x + cB = 0 -> ceval (gpow e) x = fpow x (Npos e).
  Proof.
    intros E. induction e as [e IH|e IH|]; cbn [gpow]; cbv zeta.
    - rewrite !ceval_mul, IH by exact E. replace (N.pos e~1) with (N.pos e + N.pos e + 1)%N by lia.
      rewrite !(fpow_add K R), (fpow_1 K R). unfold ceval, gx; cbn [c0 c1 c2]. ring.
    - rewrite !ceval_mul, IH by exact E. replace (N.pos e~0) with (N.pos e + N.pos e)%N by lia.
      rewrite !(fpow_add K R). ring.
    - change (N.pos 1) with 1%N. rewrite (fpow_1 K R). unfold ceval, gx; cbn [c0 c1 c2]. ring.
  Qed.
  Lemma noroot_sound q u v : @f1 K <> 0 -> (forall x : K, fpow x (Npos q) = x) -> noroot_check q u v = true ->
    forall x, x * x * x + cA * x + cB <> 0.
  Proof.
    intros NZ FX C x E. apply NZ. assert (C' := leqb_ok K R _ _ x C).
    rewrite (peval_add K R), !(peval_mul K R) in C'. cbn [peval] in C'.
    assert (P := ceval_pow q x E). rewrite FX in P. unfold ceval in P.
    transitivity (peval u x * (c0 (gpow q) + x * (c1 (gpow q) + x * c2 (gpow q)) - x) + peval v x * (x * x * x + cA * x + cB)).
    - transitivity (1 + x * @f0 K); [ring|]. rewrite <- C'. ring.
    - rewrite E, P. ring.
  Qed.
End Cubic.
Section CubicHom.
  Context {A B : FieldOps} (h : A -> B) (H : Hom A B h).
  Lemma map_gmulc cA cB a b : cmap h (gmulc A cA cB a b) = gmulc B (h cA) (h cB) (cmap h a) (cmap h b).
  Proof. unfold gmulc, cmap; cbn [c0 c1 c2]. hom_solve H. Qed.
  Lemma map_gx : cmap h (gx A) = gx B.
  Proof. unfold gx, cmap; cbn [c0 c1 c2]. homs H. reflexivity. Qed.
  Lemma map_gpow cA cB e : cmap h (gpow A cA cB e) = gpow B (h cA) (h cB) e.
  Proof. induction e as [e IH|e IH|]; cbn [gpow]; cbv zeta; rewrite ?map_gmulc, ?IH, ?map_gx; reflexivity. Qed.
  Lemma map_noroot cA cB q u v :
    noroot_check B (h cA) (h cB) q (map h u) (map h v) = noroot_check A cA cB q u v.
  Proof.
    unfold noroot_check. rewrite <- map_gpow. generalize (gpow A cA cB q) as r. intros r. cbv zeta. cbn [cmap c0 c1 c2].
    rewrite <- (hom_1 _ _ _ H), <- (hom_sub _ _ _ H), <- (hom_0 _ _ _ H).
    change [h (c0 r); h (c1 r - 1); h (c2 r)] with (map h [c0 r; c1 r - 1; c2 r]).
    change [h cB; h cA; h 0; h 1] with (map h [cB; cA; 0; 1]).
    rewrite <- !(map_lmul h H), <- (map_ladd h H). change [h 1] with (map h [1]). apply (map_leqb h H).
  Qed.
End CubicHom.
Section Fix.
  Variables (F : FieldOps) (p n : N) (FF : FinField F p n).
  Let R := FieldLaws_Ring F (FF_field _ _ _ FF).
  Add Ring FRR : (RL_th F R).
  Lemma FF_fix (x : F) : fpow x (p ^ n) = x.
  Proof.
    assert (G := FF_Q_ge_2 F p n FF).
    replace (p ^ n)%N with ((p ^ n - 1) + 1)%N by lia. rewrite (fpow_add F R), (fpow_1 F R).
    destruct (feqb x 0) eqn:E.
    - apply (feqb_true F R) in E. rewrite E. ring.
    - apply (feqb_false F R) in E. rewrite (FF_fermat F p n FF x E). ring.
  Qed.
End Fix.
