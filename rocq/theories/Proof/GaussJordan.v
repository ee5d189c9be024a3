(** gauss_jordan_impl against mathcomp's rank, determinant and inverse *)
Set Warnings "-notation-overridden,-ambiguous-paths".
From mathcomp Require Import all_ssreflect all_algebra fingroup perm.
From mathcomp Require Import zify.
From Coq Require Import Lia.
From Verif Require Import Base.Field Model.Vector Model.Matrix Spec.LinAlg Spec.MathcompField
  Proof.Vector Proof.Matrix Proof.GaussLoops Proof.GaussStep.
Set Implicit Arguments. Unset Strict Implicit. Unset Printing Implicit Defensive.
Import GRing.Theory.
Local Open Scope ring_scope.

Section GJ.
Variable F : fieldType.
Notation K := (mc_ops F).

Lemma mc_laws : FieldLaws K.
Proof.
split=> /=.
- split=> /=.
  + split=> /=; [exact: add0r|exact: addrC|exact: addrA|exact: mul1r|exact: mulrC|exact: mulrA|exact: mulrDl|by []|exact: subrr].
  + by move/eqP; rewrite oner_eq0.
  + by [].
  + by move=> p /eqP Hp; rewrite mulVf.
- by move=> x y; split; move/eqP.
Qed.

Variable absgt : F -> F -> bool.
Variable negl : F -> bool.
Hypothesis Hnegl : forall v, negl v = (v == 0).
Hypothesis Hgt_nz : forall x y, absgt x y = true -> x <> 0.
Hypothesis Hgt_0 : forall x, x <> 0 -> absgt x 0 = true.

Lemma eqb_eqn a b : Nat.eqb a b = (a == b).
Proof. by case: (PeanoNat.Nat.eqb_spec a b) => [->|H]; [rewrite eqxx|apply/esym/eqP]. Qed.

(** a matrix that differs from the identity in column i only *)
Definition colmx M (i : 'I_M) (v : 'I_M -> F) : 'M[F]_M :=
  \matrix_(a, b) if b == i then v a else (a == b)%:R.

Lemma det_colmx M (i : 'I_M) v : \det (colmx i v) = v i.
Proof.
rewrite (expand_det_col _ i).
have E: forall a, cofactor (colmx i v) a i = cofactor (1%:M : 'M[F]_M) a i.
  move=> a; rewrite /cofactor; congr (_ * \det _).
  by apply/matrixP=> x y; rewrite !mxE; case: eqP => // /esym/eqP; rewrite (negbTE (neq_lift _ _)).
have A1: \adj (1%:M : 'M[F]_M) = 1%:M.
  by rewrite -[LHS]mulmx1 mul_adj_mx det1.
rewrite (bigD1 i) //= big1 ?addr0.
  rewrite E mxE eqxx. have: (\adj (1%:M : 'M[F]_M)) i i = 1 by rewrite A1 mxE eqxx.
  by rewrite mxE => ->; rewrite mulr1.
move=> a Ha; rewrite E.
have: (\adj (1%:M : 'M[F]_M)) i a = 0 by rewrite A1 mxE eq_sym (negbTE Ha).
by rewrite mxE => ->; rewrite mulr0.
Qed.

Lemma colmx_mul M N (i : 'I_M) v (A : 'M[F]_(M, N)) a b :
  (colmx i v *m A) a b = if a == i then v a * A i b else A a b + v a * A i b.
Proof.
rewrite mxE (bigD1 i) //= mxE eqxx.
case: ifP => [/eqP ->|Ha].
  rewrite big1 ?addr0 // => k Hk. by rewrite mxE (negbTE Hk) eq_sym (negbTE Hk) mul0r.
rewrite (bigD1 a) /=; last by rewrite Ha.
rewrite big1 ?addr0 => [|k /andP [Hk Hka]].
  by rewrite mxE Ha eqxx mul1r addrC.
by rewrite mxE (negbTE Hk) eq_sym (negbTE Hka) mul0r.
Qed.

Section Fixed.
Variables (M N : nat) (A : 'M[F]_(M, N)).

Definition inv (s : gj_state K) : Prop :=
  [/\ shape M N (gj_m K s), gj_rank K s = gj_i K s,
      (exists P : 'M[F]_M, [/\ \det P = gj_det K s, \det P != 0 &
                               to_mx M N (gj_m K s) = P *m A]) &
      exists c, reduced K M N (gj_m K s) (gj_i K s) (gj_j K s) c].

Lemma swap_idx_tperm p i (Hp : (p < M)%N) (Hi : (i < M)%N) (a : 'I_M) :
  tperm (Ordinal Hp) (Ordinal Hi) a = swap_idx p i a :> nat.
Proof.
rewrite /swap_idx !eqb_eqn. case: tpermP => [->|->|H1 H2] /=.
- by rewrite eqxx.
- by rewrite eqxx; case: eqP => // ->.
- case: eqP => [E|_]; first by case: H1; apply: val_inj.
  by case: eqP => [E|//]; case: H2; apply: val_inj.
Qed.

Lemma step_matrix m m' d d' i i' j :
  (i < M)%N -> (j < N)%N -> step_effect K M N m m' d d' i i' j ->
  exists Q : 'M[F]_M, [/\ \det Q * d = d', \det Q != 0 & to_mx M N m' = Q *m to_mx M N m].
Proof.
move=> Hi Hj [p [[Hp1 Hp2] /=]].
have Hp: (p < M)%N by apply/ltP; lia.
pose io := Ordinal Hi. pose po := Ordinal Hp. pose jo := Ordinal Hj.
pose S : 'M[F]_M := perm_mx (tperm po io).
have HS a b : (S *m to_mx M N m) a b = @coef K m (swap_idx p i a) b.
  by rewrite -row_permE mxE mxE swap_idx_tperm.
have HdS : \det S * d = if Nat.eqb p i then d else - d.
  rewrite det_perm odd_tperm eqb_eqn -val_eqE /=.
  by case: (p == i); rewrite ?expr0 ?mul1r // expr1 mulN1r.
have HdS0 : \det S != 0 by rewrite det_perm signr_eq0.
case=> [[Hz [_ [-> [He _]]]]|[Hnz [_ [-> He]]]].
- exists S; split=> //. apply/matrixP=> a b. rewrite HS mxE. apply: He; exact/ltP.
- set piv := coef _ _ _ in Hnz He *.
  pose v (a : 'I_M) : F := if a == io then piv^-1 else - (@coef K m (swap_idx p i a) j * piv^-1).
  exists (colmx io v *m S). rewrite det_mulmx det_colmx /v eqxx. split.
  + by rewrite -mulrA HdS mulrC.
  + by rewrite mulf_neq0 // invr_eq0; apply/eqP.
  + rewrite -mulmxA. apply/matrixP=> a b. rewrite colmx_mul !HS [LHS]mxE.
    rewrite He; [|exact/ltP|exact/ltP].
    have -> : Nat.eqb a i = (a == io) by rewrite eqb_eqn -val_eqE.
    rewrite /v. case: ifP => Ha.
    * by rewrite /fdiv /= mulrC.
    * by rewrite /fdiv /= mulNr -mulrA [piv^-1 * _]mulrC.
Qed.

Lemma inv_step s : inv s -> (gj_i K s < M)%N -> (gj_j K s < N)%N ->
  exists s', [/\ gj_step K absgt negl M N s = Some s', inv s' & gj_j K s' = (gj_j K s).+1].
Proof.
case=> Hs Hr [P [HP HP0 HPm]] [c Hc] Hi Hj.
have Hi' := ltP Hi. have Hj' := ltP Hj.
case: (@gj_step_spec K mc_laws absgt negl Hnegl Hgt_nz Hgt_0 M N s Hs Hi' Hj' Hr)
   => s' [E [Hs' [Hj2 [Hr' Heff]]]].
exists s'; split=> //. split=> //.
- case: (step_matrix Hi Hj Heff) => Q [HQ HQ0 HQm].
  exists (Q *m P). rewrite det_mulmx HP HQ. split=> //.
  + by rewrite -HQ -HP mulf_neq0.
  + by rewrite HQm HPm mulmxA.
- exists (fun k => if Nat.eqb k (gj_i K s) then gj_j K s else c k). rewrite Hj2.
  exact: (reduced_step K mc_laws M N _ _ _ _ _ _ _ _ Hi' Hj' Hc Heff).
Qed.

Lemma inv_loop fuel s : inv s -> (N - gj_j K s <= fuel)%N ->
  exists s', [/\ gj_loop K absgt negl fuel M N s = Some s', inv s' &
                 (M <= gj_i K s')%N || (N <= gj_j K s')%N].
Proof.
elim: fuel s => [|fuel IH] s Hinv Hf.
- exists s. split=> //.
  + rewrite /=. have HN: (N <= gj_j K s)%N by rewrite -subn_eq0 -leqn0.
    case: (PeanoNat.Nat.ltb_spec (gj_j K s) N) => [H|H]; last by rewrite Bool.andb_false_r.
    by move/leP: HN; lia.
  + by rewrite -(subn_eq0 N) -leqn0 Hf orbT.
- rewrite [gj_loop _ _ _ _ _ _ _]/=.
  case: (PeanoNat.Nat.ltb_spec (gj_i K s) M) => [/ltP H1|/leP H1] /=; last first.
    by exists s; rewrite H1.
  case: (PeanoNat.Nat.ltb_spec (gj_j K s) N) => [/ltP H2|/leP H2] /=; last first.
    by exists s; rewrite H2 orbT.
  case: (inv_step Hinv H1 H2) => s1 [-> Hinv1 Hj1].
  apply: IH => //. by rewrite Hj1 subnS; move: Hf; case: (N - gj_j K s)%N.
Qed.
End Fixed.

Lemma inv_init M N (m : matrix F) : shape M N m -> inv (to_mx M N m) (mkGJ K m 1 0 0 0).
Proof.
move=> Hm. split=> //=.
- exists 1%:M. by rewrite det1 oner_eq0 mul1mx.
- by exists (fun _ => 0%N); repeat split; intros; lia.
Qed.

(** what a run of gauss_jordan_impl delivers *)
Lemma gauss_jordan_spec M N (m : matrix F) : shape M N m ->
  exists r k d (P : 'M[F]_M), [/\ gauss_jordan K absgt negl M N m = Some (r, k, d),
    shape M N r, is_rref (to_mx M N r) k,
    P \in unitmx /\ to_mx M N r = P *m to_mx M N m &
    d = if k == M then \det P else 0].
Proof.
move=> Hm. case: (inv_loop (fuel := N) (inv_init Hm)); first by rewrite subn0.
move=> s [E [Hs Hr [P [HP HP0 HPm]] [c Hc]] Hend].
exists (gj_m K s), (gj_rank K s), (if gj_rank K s == M then \det P else 0), P. split=> //.
- rewrite /gauss_jordan E eqb_eqn HP. by [].
- case: Hc => Hi [Hj [Hc1 [Hc2 [Hc3 [Hc4 Hc5]]]]]. exists c. rewrite Hr. split.
  + exact/leP.
  + move=> k Hk. apply/ltP. have := Hc1 k (ltP Hk). lia.
  + move=> k k' Hk Hk'. apply/ltP. exact: (Hc2 _ _ (ltP Hk) (ltP Hk')).
  + move=> k a b Hk Hb. rewrite mxE Hb. rewrite (Hc3 k a (ltP Hk)); last exact/ltP.
    rewrite eqb_eqn -val_eqE /=. by case: eqP.
  + split=> [k b Hk Hb|k b Hk].
    * rewrite mxE. apply: Hc4; exact/ltP.
    * rewrite mxE. have Hk2 := leP Hk. have HkM := ltP (ltn_ord k).
      apply: Hc5 => //. have Hb := ltn_ord b.
      case/orP: Hend => He; last by apply/ltP; exact: leq_trans Hb He.
      by move: (leq_trans He Hk); rewrite leqNgt ltn_ord.
- by rewrite unitmxE unitfE HP0.
Qed.

(** the rank of a matrix in reduced row-echelon form *)
Lemma rref_rank M N (R : 'M[F]_(M, N)) r : is_rref R r -> \rank R = r.
Proof.
case=> c [HrM Hc1 Hc2 Hc3 [_ Hz]].
pose wid (k : 'I_r) : 'I_M := widen_ord HrM k.
have Hw (k : 'I_r) : (wid k < r)%N by exact: (ltn_ord k).
(* the first r rows *)
pose B : 'M[F]_(r, N) := \matrix_(k, b) R (wid k) b.
have HRB : (R <= B)%MS.
  apply/row_subP=> a. case: (ltnP a r) => Ha.
    have -> : row a R = row (Ordinal Ha) B.
      apply/rowP=> b; rewrite !mxE. by congr (R _ _); apply: val_inj.
    exact: row_sub.
  have -> : row a R = 0 by apply/rowP=> b; rewrite !mxE Hz.
  exact: sub0mx.
have HBR : (B <= R)%MS.
  apply/row_subP=> k. have -> : row k B = row (wid k) R by apply/rowP=> b; rewrite !mxE.
  exact: row_sub.
have -> : \rank R = \rank B by apply/eqP; rewrite eqn_leq !mxrankS.
(* columns c k of B form the identity *)
pose C : 'M[F]_(N, r) := \matrix_(b, k) (b == c (wid k) :> nat)%:R.
have HBC : B *m C = 1%:M.
  apply/matrixP=> a k. rewrite !mxE.
  pose ck := Ordinal (Hc1 (wid k) (Hw k)).
  rewrite (bigD1 ck) //= big1 ?addr0 => [|b Hb].
    rewrite !mxE /= eqxx mulr1. rewrite (Hc3 (wid k) (wid a) ck) //.
  rewrite !mxE. by move: Hb; rewrite -val_eqE /= => /negbTE ->; rewrite mulr0.
have Hrow: row_free B by apply/row_freeP; exists C.
exact/eqP.
Qed.

Lemma unit_rank M N (P : 'M[F]_M) (A : 'M[F]_(M, N)) : P \in unitmx -> \rank (P *m A) = \rank A.
Proof. move=> HP. have H: row_full P by rewrite row_full_unit. by rewrite (eqmxMfull A H). Qed.

(** M pivots in M columns: the identity *)
Lemma rref_full M (R : 'M[F]_M) : is_rref R M -> R = 1%:M.
Proof.
case=> c [_ Hc1 Hc2 Hc3 _].
have Hge : forall n, (n < M)%N -> (n <= c n)%N.
  elim=> [//|n IH H]. have Hn : (n < M)%N by lia.
  have := Hc2 (Ordinal Hn) (Ordinal H). have := IH Hn. rewrite /=. lia.
have Hle : forall d k, (k + d).+1 = M -> (c k <= k)%N.
  elim=> [|d IH] k Hk.
    have HM: (k < M)%N by lia. have := Hc1 (Ordinal HM) HM. rewrite /=. lia.
  have H1 : (k < M)%N by lia. have H2 : (k.+1 < M)%N by lia.
  have := Hc2 (Ordinal H1) (Ordinal H2). have := IH k.+1. rewrite /=. lia.
have Hcn : forall k : 'I_M, c k = k :> nat.
  move=> k. have Hk := ltn_ord k. have := Hge k Hk. have := Hle (M - k.+1)%N k. lia.
apply/matrixP=> a b. rewrite (Hc3 b a b) // ?Hcn //. by rewrite mxE.
Qed.

End GJ.

Section Default.
Variable F : fieldType.
Notation K := (mc_ops F).
Variable absgt : F -> F -> bool.
Variable negl_of : nat -> nat -> matrix F -> F -> bool.
Hypothesis Hnegl : forall M N m v, negl_of M N m v = (v == 0).
Hypothesis Hgt_nz : forall x y, absgt x y = true -> x <> 0.
Hypothesis Hgt_0 : forall x, x <> 0 -> absgt x 0 = true.
Let gj M N m := @gauss_jordan_spec F absgt (negl_of M N m) (Hnegl M N m) Hgt_nz Hgt_0 M N m.

Lemma rref_spec M N (m : matrix F) : shape M N m ->
  exists r (P : 'M[F]_M), [/\ rref K absgt negl_of M N m = Some r, shape M N r,
     is_rref (to_mx M N r) (\rank (to_mx M N m)),
     P \in unitmx & to_mx M N r = P *m to_mx M N m].
Proof.
move=> Hm. case: (gj Hm) => r [k [d [P [E Hs Hr [HP HPm] _]]]].
exists r, P. rewrite /rref /gauss_jordan_default E. split=> //.
by rewrite -(unit_rank (to_mx M N m) HP) -HPm (rref_rank Hr).
Qed.

Lemma rank_spec M N (m : matrix F) : shape M N m ->
  rank K absgt negl_of M N m = Some (\rank (to_mx M N m)).
Proof.
move=> Hm. case: (gj Hm) => r [k [d [P [E Hs Hr [HP HPm] _]]]].
rewrite /rank /gauss_jordan_default E.
by rewrite -(unit_rank (to_mx M N m) HP) -HPm (rref_rank Hr).
Qed.

(** what [det] returns is the inverse of the determinant (0 for a singular matrix) *)
Lemma det_spec M (m : matrix F) : shape M M m ->
  det K absgt negl_of M m = Some (\det (to_mx M M m))^-1.
Proof.
move=> Hm. case: (gj Hm) => r [k [d [P [E Hs Hr [HP HPm] Hd]]]].
rewrite /det /gauss_jordan_default E Hd. congr Some.
have Hk : k = \rank (to_mx M M m) by rewrite -(unit_rank (to_mx M M m) HP) -HPm (rref_rank Hr).
case: eqP => [HkM|HkM].
  rewrite HkM in Hr. have := rref_full Hr; rewrite HPm => E1.
  have: \det P * \det (to_mx M M m) = 1 by rewrite -det_mulmx E1 det1.
  move=> E2. have Hn : \det (to_mx M M m) != 0.
    by apply/eqP=> Hz; move: E2; rewrite Hz mulr0 => /esym/eqP; rewrite oner_eq0.
  by apply: (mulIf Hn); rewrite E2 mulVf.
have : ~~ row_free (to_mx M M m) by rewrite -row_leq_rank -Hk -ltnNge ltn_neqAle; apply/andP; split; [apply/eqP|rewrite Hk rank_leq_row].
by rewrite row_free_unit unitmxE unitfE negbK => /eqP ->; rewrite invr0.
Qed.

Lemma inverse_spec M (m : matrix F) : shape M M m ->
  (to_mx M M m \in unitmx ->
     exists r, [/\ inverse K absgt negl_of M m = Ok r, shape M M r &
                    to_mx M M r = invmx (to_mx M M m)]) /\
  (to_mx M M m \notin unitmx -> inverse K absgt negl_of M m = Throws).
Proof.
move=> Hm. set A := to_mx M M m. rewrite /inverse (rank_spec Hm) -/A.
split=> HA; last first.
  have HlM : (\rank A < M)%N.
    rewrite ltnNge row_leq_rank row_free_unit. exact: HA.
  case: (PeanoNat.Nat.ltb_spec (\rank A) M) => // H. lia.
have HrM : \rank A = M by apply/eqP; rewrite -/(row_free A) row_free_unit.
rewrite HrM. case: (PeanoNat.Nat.ltb_spec M M) => [H|_]; first by lia.
case: (get_identity_spec K M) => id [-> [Hid Hide]].
case: (@horzcat_spec F M M M m id Hm Hid) => h [-> [Hh Hhe]].
have Hmx : to_mx M (M + M) h = row_mx A 1%:M.
  apply/matrixP=> a b. rewrite mxE /coef.
  have Ha := ltP (ltn_ord a).
  rewrite -(splitK b). case: (split b) => c /=; rewrite ?row_mxEl ?row_mxEr.
    have Hc := ltP (ltn_ord c). rewrite (proj1 (Hhe a c Ha _)); last by lia.
    case: (PeanoNat.Nat.ltb_spec c M) => [_|H]; last by lia.
    by rewrite mxE.
  have Hc := ltP (ltn_ord c). rewrite (proj1 (Hhe a (M + c)%N Ha _)); last by lia.
  case: (PeanoNat.Nat.ltb_spec (M + c)%N M) => [H|_]; first by lia.
  have -> : PeanoNat.Nat.sub (M + c)%N M = c by lia.
  rewrite (proj1 (Hide a c Ha Hc)) eqb_eqn mxE -val_eqE /=. by case: eqP.
case: (rref_spec Hh) => r [P [E Hs Hr HP]]. rewrite Hmx => HPm.
have -> : rref K absgt negl_of M (PeanoNat.Nat.add M M) h = Some r by exact: E.
have Hfree : \rank (row_mx A (1%:M : 'M[F]_M)) = M.
  apply/eqP; rewrite -/(row_free _). apply/row_freeP. exists (col_mx 0 1%:M).
  by rewrite mul_row_col mulmx0 add0r mulmx1.
rewrite Hmx Hfree in Hr.
have HL : P *m A = 1%:M.
  have HPA : P *m A \in unitmx by rewrite unitmx_mul HP HA.
  apply: rref_full. rewrite HPm mul_mx_row in Hr.
  case: Hr => c [_ Hc1 Hc2 Hc3 [Hc4 _]].
  exists c. split=> //.
  - move=> k _. case: (ltnP (c k) M) => // Hck.
    have Hrow : row k (P *m A) = 0.
      apply/rowP=> b. have := Hc4 k (lshift M b) (ltn_ord k).
      rewrite row_mxEl !mxE => -> //=. exact: leq_trans (ltn_ord b) Hck.
    have : (delta_mx 0 k : 'rV[F]_M) *m (P *m A) = 0 by rewrite -rowE.
    move/(congr1 (mulmx^~ (invmx (P *m A)))). rewrite mul0mx -mulmxA mulmxV // mulmx1.
    move/rowP/(_ k). rewrite !mxE !eqxx /= => /eqP. by rewrite oner_eq0.
  - move=> k a b Hk Hb. have := Hc3 k a (lshift M b) Hk Hb. by rewrite row_mxEl.
  - split=> k b Hk; last by move: (ltn_ord k); rewrite ltnNge Hk.
    move=> Hb. have := Hc4 k (lshift M b) Hk Hb. by rewrite row_mxEl.
have HPinv : P = invmx A.
  by rewrite -[LHS]mulmx1 -(mulmxV HA) mulmxA HL mul1mx.
case: (@submat_ok F M M M (PeanoNat.Nat.add M M) r 0 M Hs) => [||x [-> [Hx Hxe]]]; try lia.
exists x. split=> //. rewrite -HPinv. apply/matrixP=> a b.
have Ha := ltP (ltn_ord a). have Hb := ltP (ltn_ord b).
rewrite mxE /coef (proj1 (Hxe a b Ha Hb)).
have := congr1 (fun X : 'M[F]_(M, M + M) => X a (rshift M b)) HPm.
rewrite mul_mx_row row_mxEr mulmx1 => <-. by rewrite mxE.
Qed.
End Default.
