(** Elliptic curve primality certificates (Goldwasser-Kilian, Atkin-Morain).

    A point Q = (x, y) of y^2 = x^3 + a x + b modulo n, and a prime q with (q - 1)^2 > 4 n.
    The multiple (q - 1) Q is computed modulo n in Jacobian coordinates without any case
    distinction; that its last coordinate is a unit shows that no exceptional case was met
    modulo any prime factor of n, and that it is - Q shows that Q has order q there. *)
From Coq Require Import ZArith NArith List Bool Lia Znumtheory Ring Field.
From Bignums Require Import BigN.
From Verif Require Import Base.Field Base.Zp Base.BigZp Spec.Group Spec.Weierstrass Model.ShortWeierstrass
  Proof.WeierstrassGroup Proof.WeierstrassRep Proof.OrderCheck Proof.Instances Proof.Pocklington.
Import ListNotations.
Local Open Scope fld_scope.

Section Formulas.
  Variable A : FieldOps.
  Variables a x y : A.
  Definition jd (t : triple A) : triple A :=
    let YY := tY t * tY t in
    let ZZ := tZ t * tZ t in
    let XX := tX t * tX t in
    let S2 := (tX t + tX t) * YY in
    let S := S2 + S2 in
    let M := XX + XX + XX + a * (ZZ * ZZ) in
    let X3 := M * M - (S + S) in
    let W := YY * YY in
    let W2 := W + W in let W4 := W2 + W2 in
    mkT X3 (M * (S - X3) - (W4 + W4)) ((tY t + tY t) * tZ t).
  Definition jm (t : triple A) : triple A :=
    let ZZ := tZ t * tZ t in
    let H := x * ZZ - tX t in
    let r := y * (ZZ * tZ t) - tY t in
    let HH := H * H in
    let HHH := HH * H in
    let V := tX t * HH in
    let X3 := r * r - HHH - (V + V) in
    mkT X3 (r * (V - X3) - tY t * HHH) (tZ t * H).
  Definition jmult (n : positive) : triple A := dbladd (fun t _ => jm t) jd (mkT x y 1) n.
  Definition jok (b w : A) (q : positive) : bool :=
    let t := jmult (Pos.pred q) in
    let ZZ := tZ t * tZ t in
    let six := 2 * 3 in
    let disc := 2 * 2 * (a * a * a) + 3 * 3 * 3 * (b * b) in
    (y * y =? x * x * x + a * x + b) && (tX t =? x * ZZ) && (tY t =? 0 - y * (ZZ * tZ t)) &&
    (w * (tZ t * disc * six) =? 1).
End Formulas.

(** maps that preserve the ring operations only *)
Section Maps.
  Context {A B : FieldOps} (h : A -> B).
  Hypothesis h0 : h 0 = 0.
  Hypothesis h1 : h 1 = 1.
  Hypothesis ha : forall x y, h (x + y) = h x + h y.
  Hypothesis hm : forall x y, h (x * y) = h x * h y.
  Hypothesis hs : forall x y, h (x - y) = h x - h y.
  Hypothesis he : forall x y, (x =? y) = true -> h x = h y.
  Ltac hh := rewrite ?ha, ?hm, ?hs.
  Lemma jd_map a t : tmap h (jd A a t) = jd B (h a) (tmap h t).
  Proof. unfold jd, tmap; cbn [tX tY tZ]. repeat progress hh. reflexivity. Qed.
  Lemma jm_map x y t : tmap h (jm A x y t) = jm B (h x) (h y) (tmap h t).
  Proof. unfold jm, tmap; cbn [tX tY tZ]. repeat progress hh. reflexivity. Qed.
  Lemma jmult_map a x y n : tmap h (jmult A a x y n) = jmult B (h a) (h x) (h y) n.
  Proof.
    unfold jmult. rewrite (dbladd_map (tmap h) _ _ (fun t _ => jm B (h x) (h y) t) (jd B (h a))).
    - unfold tmap; cbn [tX tY tZ]. rewrite h1. reflexivity.
    - intros t u. apply jm_map.
    - intros t. apply jd_map.
  Qed.
  Lemma jok_map a b w x y q : jok A a x y b w q = true ->
    let t := jmult B (h a) (h x) (h y) (Pos.pred q) in
    on_curve B (h a) (h b) (Aff (h x) (h y)) /\ tX t = h x * (tZ t * tZ t) /\ tY t = 0 - h y * (tZ t * tZ t * tZ t) /\
    h w * (tZ t * (2 * 2 * (h a * h a * h a) + 3 * 3 * 3 * (h b * h b)) * (2 * 3)) = 1.
  Proof.
    unfold jok. cbv zeta. rewrite !andb_true_iff. intros [[[C1 C2] C3] C4].
    rewrite <- jmult_map. unfold tmap; cbn [tX tY tZ on_curve].
    apply he in C1, C2, C3, C4.
    repeat progress rewrite ?ha, ?hm, ?hs, ?h0, ?h1 in C1. repeat progress rewrite ?ha, ?hm, ?hs, ?h0, ?h1 in C2.
    repeat progress rewrite ?ha, ?hm, ?hs, ?h0, ?h1 in C3. repeat progress rewrite ?ha, ?hm, ?hs, ?h0, ?h1 in C4.
    repeat split; assumption.
  Qed.
End Maps.

(** over a field *)
Section Field.
  Variable K : FieldOps.
  Hypothesis KL : FieldLaws K.
  Let R := FieldLaws_Ring K KL.
  Add Field Ke : (FL_th K KL).
  Variables a b : K.
  Hypothesis two : (2 : K) <> 0.
  Hypothesis ns : nonsingular K a b.
  Local Notation rep t P := (rep_jacobian (tX t) (tY t) (tZ t) P).
  Local Notation G := (sw_group K KL two a b ns).

  Lemma nz_l (x y : K) : x * y <> 0 -> x <> 0.
  Proof. intros N E. apply N. rewrite E. ring. Qed.
  Lemma nz_r (x y : K) : x * y <> 0 -> y <> 0.
  Proof. intros N E. apply N. rewrite E. ring. Qed.

  Lemma jd_rep t P : rep t P -> tZ (jd K a t) <> 0 -> rep (jd K a t) (ec_add K a P P).
  Proof.
    destruct t as [X Y Z], P as [|u v]; cbn [rep_jacobian tX tY tZ]; intros E N.
    { exfalso. apply (nz_r _ _ N). exact E. }
    destruct E as (NZ & -> & ->).
    assert (Nv : v <> 0).
    { intros E. apply N. unfold jd; cbn [tX tY tZ]. rewrite E. ring. }
    rewrite (ec_tangent K KL two a u v Nv). unfold ec_line, jd, fdiv; cbn [rep_jacobian tX tY tZ] in *.
    split; [exact N|]. split; field; split; assumption.
  Qed.
  Lemma jm_rep x y t P : rep t P -> tZ (jm K x y t) <> 0 -> rep (jm K x y t) (ec_add K a P (Aff x y)).
  Proof.
    destruct t as [X Y Z], P as [|u v]; cbn [rep_jacobian tX tY tZ]; intros E N.
    { exfalso. apply (nz_l _ _ N). exact E. }
    destruct E as (NZ & -> & ->).
    assert (Nx : x - u <> 0).
    { intros E. apply N. unfold jm; cbn [tX tY tZ]. replace (x * (Z * Z) - u * (Z * Z)) with ((x - u) * (Z * Z)) by ring.
      rewrite E. ring. }
    rewrite (ec_chord K KL a u v x y Nx). unfold ec_line, jm, fdiv; cbn [rep_jacobian tX tY tZ] in *.
    split; [exact N|]. split; field; assumption.
  Qed.
  Lemma jmult_rep x y n : on_curve K a b (Aff x y) -> tZ (jmult K a x y n) <> 0 ->
    rep (jmult K a x y n) (gmul (G := G) (N.pos n) (Aff x y)).
  Proof.
    intros ON. unfold jmult. induction n as [m IH|m IH|]; cbn [dbladd]; intros N.
    - assert (N1 := nz_l _ _ N). assert (N2 := nz_r _ _ N1). specialize (IH N2).
      replace (N.pos m~1) with (N.succ (2 * N.pos m)) by lia.
      rewrite gmul_succ, gmul_double by exact ON. rewrite g_comm by auto using gmul_in, g_inadd.
      exact (jm_rep x y _ _ (jd_rep _ _ IH N1) N).
    - assert (N2 := nz_r _ _ N). specialize (IH N2).
      replace (N.pos m~0) with (2 * N.pos m)%N by lia. rewrite gmul_double by exact ON. exact (jd_rep _ _ IH N).
    - rewrite gmul_1 by exact ON. cbn. split; [apply (f1_neq_0 K KL)|]. split; ring.
  Qed.
  Lemma jmult_order x y q : (1 < q)%positive -> on_curve K a b (Aff x y) ->
    let t := jmult K a x y (Pos.pred q) in
    tZ t <> 0 -> tX t = x * (tZ t * tZ t) -> tY t = 0 - y * (tZ t * tZ t * tZ t) ->
    gmul (G := G) (N.pos q) (Aff x y) = Inf.
  Proof.
    intros Q ON t N EX EY. assert (M := jmult_rep x y (Pos.pred q) ON N). fold t in M.
    replace (N.pos q) with (N.succ (N.pos (Pos.pred q))) by lia. rewrite gmul_succ by exact ON.
    assert (E : gmul (G := G) (N.pos (Pos.pred q)) (Aff x y) = Aff x (- y)).
    { destruct (gmul (G := G) (N.pos (Pos.pred q)) (Aff x y)) as [|u v].
      - exfalso. apply N. exact M.
      - destruct M as (_ & E1 & E2). rewrite EX in E1. rewrite EY in E2.
        assert (C2 : tZ t * tZ t <> 0) by (intros Z; destruct (fmul_integral K KL _ _ Z); auto).
        assert (C3 : tZ t * tZ t * tZ t <> 0) by (intros Z; destruct (fmul_integral K KL _ _ Z); auto).
        f_equal.
        + transitivity (u * (tZ t * tZ t) / (tZ t * tZ t)); [field; exact N|]. rewrite <- E1. field; exact N.
        + transitivity (v * (tZ t * tZ t * tZ t) / (tZ t * tZ t * tZ t)); [field; exact N|]. rewrite <- E2. field; exact N. }
    rewrite E. apply (ec_add_opp_r K KL).
  Qed.

  (** a point of prime order q has (q - 1) / 2 multiples with different abscissae *)
  Definition absc (P : point K) : K := match P with Inf => 0 | Aff u _ => u end.
  Lemma multiple_diff (P : point K) q i j : on_curve K a b P -> P <> Inf -> prime (Z.of_N q) ->
    gmul (G := G) q P = Inf -> (i < j)%N -> (j < q)%N -> gmul (G := G) i P <> gmul (G := G) j P.
  Proof.
    intros ON N PR Q L1 L2 E. apply N. apply (prime_order G q P (j - i) PR ON Q); [lia|].
    replace j with ((j - i) + i)%N in E by lia. rewrite gmul_add in E by exact ON.
    rewrite g_comm in E by (apply gmul_in; exact ON). symmetry in E.
    apply (g_cancel_l G (gmul (G := G) i P) (gmul (G := G) (j - i) P) g0); auto using gmul_in, g_in0.
    rewrite E. symmetry. apply g_0r. apply gmul_in, ON.
  Qed.
  Lemma multiples_absc (P : point K) q i j : on_curve K a b P -> P <> Inf -> prime (Z.of_N q) ->
    gmul (G := G) q P = Inf -> (0 < i)%N -> (0 < j)%N -> (i + j < q)%N ->
    absc (gmul (G := G) i P) = absc (gmul (G := G) j P) -> i = j.
  Proof.
    intros ON N PR Q I J L E.
    assert (Z : forall k, (0 < k < q)%N -> gmul (G := G) k P <> Inf).
    { intros k Hk E'. apply N. exact (prime_order G q P k PR ON Q Hk E'). }
    assert (Zi := Z i ltac:(lia)). assert (Zj := Z j ltac:(lia)). assert (Zij := Z (i + j)%N ltac:(lia)).
    rewrite gmul_add in Zij by exact ON.
    assert (Oi : on_curve K a b (gmul (G := G) i P)) by (apply (gmul_in G i P ON)).
    assert (Oj : on_curve K a b (gmul (G := G) j P)) by (apply (gmul_in G j P ON)).
    assert (Di := multiple_diff P q i j ON N PR Q). assert (Dj := multiple_diff P q j i ON N PR Q).
    destruct (gmul (G := G) i P) as [|u v]; [contradiction|]. destruct (gmul (G := G) j P) as [|u' v']; [contradiction|].
    cbn [absc] in E. subst u'.
    destruct (N.lt_trichotomy i j) as [C|[C|C]]; [exfalso|exact C|exfalso].
    - specialize (Di C ltac:(lia)).
      destruct (ec_trichotomy K KL a b u v u v' Oi Oj) as [[_ T]|[[_ [T _]]|T]].
      + apply Zij. cbn. exact (ec_add_opp' K KL a u v v' T).
      + apply Di. rewrite T. reflexivity.
      + apply T. ring.
    - specialize (Dj C ltac:(lia)).
      destruct (ec_trichotomy K KL a b u v u v' Oi Oj) as [[_ T]|[[_ [T _]]|T]].
      + apply Zij. cbn. exact (ec_add_opp' K KL a u v v' T).
      + apply Dj. rewrite T. reflexivity.
      + apply T. ring.
  Qed.
End Field.

(** at most p abscissae *)
Lemma zp_pigeon p (f : nat -> zp p) k : (0 < p)%Z ->
  (forall i j, (i < k)%nat -> (j < k)%nat -> f i = f j -> i = j) -> (Z.of_nat k <= p)%Z.
Proof.
  intros P INJ.
  assert (L : (length (map (fun i => zval (f i)) (seq 0 k)) <= length (map Z.of_nat (seq 0 (Z.to_nat p))))%nat).
  { apply NoDup_incl_length.
    - assert (H : forall l, NoDup l -> (forall i, In i l -> (i < k)%nat) -> NoDup (map (fun i => zval (f i)) l)).
      { induction l as [|i l IH]; intros ND B; [constructor|]. inversion_clear ND as [|? ? NI ND']. cbn. constructor.
        - intros I. apply in_map_iff in I. destruct I as (j & E & J). apply zp_ext in E.
          apply INJ in E; [subst j; contradiction|apply B; right; exact J|apply B; left; reflexivity].
        - apply IH; [exact ND'|]. intros j J. apply B. right. exact J. }
      apply H; [apply seq_NoDup|]. intros i I. apply in_seq in I. lia.
    - intros z I. apply in_map_iff in I. destruct I as (i & <- & I). apply in_map_iff.
      assert (B := Z.mod_pos_bound (zval (f i)) p P). rewrite zval_mod in B.
      exists (Z.to_nat (zval (f i))). split; [lia|]. apply in_seq. lia. }
  rewrite !map_length, !seq_length in L. lia.
Qed.

Lemma small_prime_factor n : (1 < n)%Z -> ~ prime n -> exists p, prime p /\ (p | n)%Z /\ (p * p <= n)%Z.
Proof.
  intros N NP. destruct (not_prime_divide n N NP) as (d & Hd & [e He]).
  assert (e0 : (1 < e)%Z) by nia.
  assert (H : exists c, (1 < c)%Z /\ (c | n)%Z /\ (c * c <= n)%Z).
  { destruct (Z_le_gt_dec d e); [exists d|exists e]; (split; [lia|]; split; [|nia]); [exists e|exists d]; lia. }
  destruct H as (c & C1 & C2 & C3). destruct (has_prime_divisor c C1) as (p & P & D).
  exists p. split; [exact P|]. split; [eapply Z.divide_trans; eassumption|].
  assert (p2 := prime_ge_2 p P). assert (p <= c)%Z by (apply Z.divide_pos_le; [lia|exact D]). nia.
Qed.

(** reduction modulo a divisor *)
Lemma of_big_ring p n m : (1 < p)%Z -> (p | n)%Z -> (0 < n)%Z -> BigN.to_Z m = n ->
  let h := of_big p : BigZp m -> Zp p in
  h 0 = 0 /\ h 1 = 1 /\ (forall x y, h (x + y) = h x + h y) /\ (forall x y, h (x * y) = h x * h y) /\
  (forall x y, h (x - y) = h x - h y) /\ (forall x y, (x =? y) = true -> h x = h y).
Proof.
  intros Hp D N M h.
  assert (MM : forall z, ((z mod n) mod p = z mod p)%Z) by (intros z; symmetry; apply Zmod_div_mod; [lia|lia|exact D]).
  assert (Hsub : forall y, BigN.to_Z (BigN.sub m (BigN.modulo y m)) = (n - BigN.to_Z y mod n)%Z).
  { intros y. rewrite BigN.spec_sub, BigN.spec_modulo, M.
    assert (H := Z.mod_pos_bound (BigN.to_Z y) n ltac:(lia)). lia. }
  unfold h. repeat apply conj; intros; apply zp_ext; unfold of_big; cbn [BigZp f0 f1 fadd fmul fsub fopp feqb car] in *; zcbn.
  - rewrite BigN.spec_0. reflexivity.
  - rewrite BigN.spec_1. reflexivity.
  - rewrite BigN.spec_modulo, BigN.spec_add, M, MM. apply Zplus_mod.
  - rewrite BigN.spec_modulo, BigN.spec_mul, M, MM. apply Zmult_mod.
  - rewrite BigN.spec_modulo, BigN.spec_add, M, MM, Hsub.
    rewrite <- Zminus_mod. destruct D as [c ->].
    replace (BigN.to_Z x + (c * p - BigN.to_Z y mod (c * p)))%Z with ((BigN.to_Z x - BigN.to_Z y mod (c * p)) + c * p)%Z by ring.
    rewrite Z.mod_add by lia. rewrite Zminus_mod, MM, <- Zminus_mod. reflexivity.
  - rewrite BigN.spec_eqb, !BigN.spec_modulo, M in H. apply Z.eqb_eq in H.
    rewrite <- (MM (BigN.to_Z x)), H, MM. reflexivity.
Qed.

Definition ecpp_check (n a b x y w : Z) (q : positive) : bool :=
  jok (BigZp (bigz n)) (bigz a) (bigz x) (bigz y) (bigz b) (bigz w) q &&
  (1 <? n)%Z && (4 * n <? (Z.pos q - 1) * (Z.pos q - 1))%Z.

Theorem ecpp_sound n a b x y w q : ecpp_check n a b x y w q = true -> prime (Z.pos q) -> prime n.
Proof.
  unfold ecpp_check. rewrite !andb_true_iff, !Z.ltb_lt. intros [[C N] S] PQ.
  destruct (prime_dec n) as [P|NP]; [exact P|exfalso].
  destruct (small_prime_factor n N NP) as (p & P & D & B). assert (p2 := prime_ge_2 p P).
  assert (H : BigN.to_Z (bigz n) = n) by (apply bigz_spec; lia).
  destruct (of_big_ring p n (bigz n) ltac:(lia) D ltac:(lia) H) as (h0 & h1 & ha & hm & hs & he).
  assert (M := jok_map (of_big p : BigZp (bigz n) -> Zp p) h0 h1 ha hm hs he _ _ _ _ _ _ C). cbv zeta in M.
  set (K := Zp p) in *. set (KL := Zp_field p ltac:(lia) P : FieldLaws K). assert (R := FieldLaws_Ring K KL).
  set (A := of_big p (bigz a) : K) in *. set (B' := of_big p (bigz b) : K) in *.
  set (X := of_big p (bigz x) : K) in *. set (Y := of_big p (bigz y) : K) in *. set (W := of_big p (bigz w) : K) in *.
  destruct M as (ON & EX & EY & U).
  assert (NZ : tZ (jmult K A X Y (Pos.pred q)) * (2 * 2 * (A * A * A) + 3 * 3 * 3 * (B' * B')) * (2 * 3) <> 0).
  { exact (proj2 (fmul_eq_1_neq_0 K KL _ _ U)). }
  assert (two : (2 : K) <> 0) by exact (nz_l K KL _ _ (nz_r K KL _ _ NZ)).
  assert (NZ' := nz_l K KL _ _ NZ).
  assert (ns : nonsingular K A B') by exact (nz_r K KL _ _ NZ').
  assert (NZ2 := nz_l K KL _ _ NZ').
  assert (Q1 : (1 < q)%positive) by (assert (X1 := prime_ge_2 _ PQ); lia).
  assert (O := jmult_order K KL A B' two ns X Y q Q1 ON NZ2 EX EY).
  set (k := Z.to_nat ((Z.pos q - 1) / 2)).
  assert (L : (Z.of_nat k <= p)%Z).
  { apply (zp_pigeon p (fun i => absc K (gmul (G := sw_group K KL two A B' ns) (N.of_nat (Datatypes.S i)) (Aff X Y))) k); [lia|].
    intros i j I J E. apply (multiples_absc K KL A B' two ns (Aff X Y) (N.pos q)) in E; [lia|exact ON|discriminate|exact PQ|exact O|lia|lia|].
    assert (K2 := Z.div_mod (Z.pos q - 1) 2 ltac:(lia)). assert (K3 := Z.mod_pos_bound (Z.pos q - 1) 2 ltac:(lia)). unfold k in I, J. lia. }
  unfold k in L. rewrite Z2Nat.id in L by (apply Z.div_pos; lia).
  assert (E := Z.div_mod (Z.pos q - 1) 2 ltac:(lia)). assert (E2 := Z.mod_pos_bound (Z.pos q - 1) 2 ltac:(lia)).
  destruct (Z.eq_dec ((Z.pos q - 1) mod 2) 0) as [E0|E0].
  - rewrite E0 in E. set (c := ((Z.pos q - 1) / 2)%Z) in *. assert (0 <= c)%Z by (apply Z.div_pos; lia).
    rewrite E in S. nia.
  - assert (D2 : (2 | Z.pos q)%Z) by (exists ((Z.pos q - 1) / 2 + 1)%Z; lia).
    destruct (prime_divisors _ PQ 2 D2) as [F|[F|[F|F]]]; lia.
Qed.
