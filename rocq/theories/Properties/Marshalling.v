(** C39, C40, C41: encodings of bls12-381 points and of field elements. *)
From Coq Require Import ZArith NArith List Bool Lia Znumtheory.
From Verif Require Import Base.Field Base.Zp Base.Ext Spec.Octets Spec.Weierstrass
  Model.ShortWeierstrass Model.Fp Model.Fp2 Model.FieldParams Model.Shipped Model.Sqrt Model.CurveParams Model.Generators Model.Marshalling
  Proof.Bytes Proof.Marshalling Proof.Bincode Proof.Shipped Proof.ShippedTowers Proof.Generators Proof.Bls381
  Proof.PrimesPairing Proof.Frob Properties.Weierstrass Properties.Sqrt Properties.Generators.
Import ListNotations.
Local Open Scope fld_scope.

(** the two curves *)
Definition on_g1 (P : point K1) : Prop := on_curve K1 0 bls_b1 P.
Definition on_g2 (P : point K2) : Prop := on_curve K2 0 bls_b2 P.

Ltac bls := first [match goal with |- car (Fp2 _ _) => exact bls_b2 | |- car (Zp _) => exact bls_b1 end | assumption | match goal with
  | |- prime _ => exact bls381_p_prime
  | |- (_ < _)%Z => exact bls_p_gt
  | |- (_ <= _)%Z => exact bls_p_small
  | |- FieldLaws (Zp _) => exact bls_K1
  | |- FieldLaws _ => exact bls_K2
  | |- bls_b1 = _ => exact bls_b1_4
  | |- bls_b2 = _ => exact bls_b2_4
  | |- forall x, _ + bls_b1 <> _ => exact bls_no2_g1
  | |- forall x, _ + bls_b2 <> _ => exact bls_no2_g2
  | |- decides_squares _ => first [exact C15_bls12_381_base | exact C15_bls12_381_fp2]
  end].
(** arguments the lemma does not use *)
Ltac junk := first [exact (fun _ => None) | exact (fun _ => true)].

Lemma flag_in c s : In (mflag c s) flags.
Proof. destruct c, s; cbn; tauto. Qed.
Section BLS.
  (** both branches of STANDARD_EC_INF_POINTS_ENABLED: any zero_fill *)
  Variables (zx1 zy1 : K1) (zx2 zy2 : K2).
  (** external code *)
  Variables (ressol : K1 -> K1) (fit : N -> N).
  (** loop bound of element_fp2::sqrt *)
  Variable fuel : nat.
  Definition contracts : Prop := ressol_contract ressol /\ fit_ok fit /\ (Z.to_nat (sp_s bls12_381_sqrt) <= fuel)%nat.

  Definition g1_encode_compressed : triple K1 -> list N := g1_compress bls_p zx1 zy1.
  Definition g1_encode : triple K1 -> list N := g1_octets bls_p zx1 zy1.
  Definition g2_encode_compressed : triple K2 -> list N := g2_compress bls_p bls_nr zx2 zy2.
  Definition g2_encode : triple K2 -> list N := g2_octets bls_p bls_nr zx2 zy2.
  Definition g1_decode : list N -> option (triple K1) :=
    octets_to_g1 bls_p bls_b1 zx1 zy1 (fp_is_square bls_p bls12_381_base_half) (fp_sqrt bls_p ressol) fit.
  Definition g2_decode : list N -> option (triple K2) :=
    octets_to_g2 bls_p bls_nr bls_b2 zx2 zy2 (fp2_is_square bls_p bls_nr bls12_381_fp2_group_order_minus_one_half)
      (fp2_sqrt bls_p bls_nr bls12_381_sqrt fuel) fit.

  Lemma on_g1_y x y : on_g1 (Aff x y) -> y * y = x * x * x + bls_b1 /\ y <> 0.
  Proof.
    intros H. unfold on_g1, on_curve in H.
    assert (E : y * y = x * x * x + bls_b1) by (rewrite H; apply (drop0 K1 bls_K1)).
    split; [exact E|]. intros ->. rewrite (zero_sqr K1 bls_K1) in E. exact (bls_no2_g1 x (eq_sym E)).
  Qed.
  Lemma on_g2_y x y : on_g2 (Aff x y) -> y * y = x * x * x + bls_b2 /\ y <> 0.
  Proof.
    intros H. unfold on_g2, on_curve in H.
    assert (E : y * y = x * x * x + bls_b2) by (rewrite H; apply (drop0 K2 bls_K2)).
    split; [exact E|]. intros ->. rewrite (zero_sqr K2 bls_K2) in E. exact (bls_no2_g2 x (eq_sym E)).
  Qed.
  Lemma aff_1 (K : FieldOps) (KL : FieldLaws K) (x y : K) : is_jacobian (mkT x y 1) (Aff x y).
  Proof. apply (jac_1 K KL). Qed.

  (** ** C39: decoding the encoding of any representation of any curve point gives the point *)
  Theorem C39_g1_compressed P t : contracts -> on_g1 P -> is_jacobian t P ->
    exists t', g1_decode (g1_encode_compressed t) = Some t' /\ is_jacobian t' P.
  Proof.
    intros (RS & FT & FU) ON J. assert (RT := bls_root1 ressol RS). destruct P as [|x y].
    - exists (trip_zero K1 zx1 zy1). split; [|reflexivity]. eapply (roundtrip_g1_inf bls_p); [bls|exact J].
    - destruct (on_g1_y x y ON) as [E N]. exists (mkT x y 1). split; [|apply aff_1; bls].
      eapply (roundtrip_g1_compressed bls_p bls_nr); try bls; try exact J; junk.
  Qed.
  Theorem C39_g1_uncompressed P t : contracts -> on_g1 P -> is_jacobian t P ->
    exists t', g1_decode (g1_encode t) = Some t' /\ is_jacobian t' P.
  Proof.
    intros (RS & FT & FU) ON J. destruct P as [|x y].
    - exists (trip_zero K1 zx1 zy1). split; [|reflexivity]. eapply (roundtrip_g1_inf bls_p); [bls|exact J].
    - destruct (on_g1_y x y ON) as [E N]. exists (mkT x y 1). split; [|apply aff_1; bls].
      eapply (roundtrip_g1 bls_p bls_nr); try bls; try exact J; junk.
  Qed.
  Theorem C39_g2_compressed P t : contracts -> on_g2 P -> is_jacobian t P ->
    exists t', g2_decode (g2_encode_compressed t) = Some t' /\ is_jacobian t' P.
  Proof.
    intros (RS & FT & FU) ON J. assert (RT := bls_root2 fuel FU). destruct P as [|x y].
    - exists (trip_zero K2 zx2 zy2). split; [|reflexivity]. eapply (roundtrip_g2_inf bls_p bls_nr); [bls|exact J].
    - destruct (on_g2_y x y ON) as [E N]. exists (mkT x y 1). split; [|apply aff_1; bls].
      eapply (roundtrip_g2_compressed bls_p bls_nr); try bls; try exact J; junk.
  Qed.
  Theorem C39_g2_uncompressed P t : contracts -> on_g2 P -> is_jacobian t P ->
    exists t', g2_decode (g2_encode t) = Some t' /\ is_jacobian t' P.
  Proof.
    intros (RS & FT & FU) ON J. destruct P as [|x y].
    - exists (trip_zero K2 zx2 zy2). split; [|reflexivity]. eapply (roundtrip_g2_inf bls_p bls_nr); [bls|exact J].
    - destruct (on_g2_y x y ON) as [E N]. exists (mkT x y 1). split; [|apply aff_1; bls].
      eapply (roundtrip_g2 bls_p bls_nr); try bls; try exact J; junk.
  Qed.

  (** ** C39: the encodings are those of the draft *)
  (** y is the larger of y and -y: by value; over Fp2 comparing the u-coordinate first *)
  Definition larger (y : K1) : bool := (zval (fopp y) <? zval y)%Z.
  Definition larger2 (y : K2) : bool :=
    ((zval (q1 (fopp y)) <? zval (q1 y)) || ((zval (q1 (fopp y)) =? zval (q1 y)) && (zval (q0 (fopp y)) <? zval (q0 y))))%Z.
  Definition coord (x : K1) : N := Z.to_N (zval x).
  Local Notation bit b w := (if b then 2 ^ w else 0)%N.
  Theorem C39_g1_compressed_format t x y : is_jacobian t (Aff x y) ->
    length (g1_encode_compressed t) = 48%nat /\ octets (g1_encode_compressed t) /\
    be_value (g1_encode_compressed t) = (2 ^ 383 + bit (larger y) 381 + coord x)%N.
  Proof.
    intros J. unfold g1_encode_compressed. rewrite (g1_compress_aff bls_p bls_p_gt bls_p_small bls_K1 zx1 zy1 t x y J).
    destruct (be_mark (mflag true (sign_gf_p bls_p y)) [] (fp_int bls_p x)) as (L & O & E);
      [apply flag_in|constructor|apply fp_int_bound; bls|]. cbn [app length] in L, O, E.
    split; [exact L|]. split; [exact O|]. rewrite E.
    assert (S : sign_gf_p bls_p y = larger y).
    { apply eq_true_iff_eq. unfold larger. rewrite Z.ltb_lt. apply sign_larger; bls. }
    rewrite S. change (chunks_value []) with 0%N. change (fp_int bls_p x) with (coord x). generalize (coord x). intros v.
    destruct (larger y);
      [change (mflag true true * 256 ^ N.of_nat (47 + 0))%N with (2 ^ 383 + 2 ^ 381)%N
      |change (mflag true false * 256 ^ N.of_nat (47 + 0))%N with (2 ^ 383 + 0)%N]; change (256 ^ N.of_nat 0)%N with 1%N; lia.
  Qed.
  Theorem C39_g1_uncompressed_format t x y : is_jacobian t (Aff x y) ->
    length (g1_encode t) = 96%nat /\ octets (g1_encode t) /\
    be_value (g1_encode t) = (2 ^ 384 * coord x + coord y)%N.
  Proof.
    intros J. unfold g1_encode. rewrite (g1_octets_aff bls_p bls_p_gt bls_p_small bls_K1 zx1 zy1 t x y J).
    destruct (be_mark (mflag false false) (le 48 (fp_int bls_p y)) (fp_int bls_p x)) as (L & O & E);
      [apply flag_in|apply le_bytes|apply fp_int_bound; bls|]. rewrite le_length in L, E.
    split; [exact L|]. split; [exact O|]. rewrite E, chunks_le by (apply fp_int_48; bls).
    change (fp_int bls_p x) with (coord x). change (fp_int bls_p y) with (coord y). 
    change (mflag false false * 256 ^ N.of_nat (47 + 48))%N with 0%N. change (256 ^ N.of_nat 48)%N with (2 ^ 384)%N. lia.
  Qed.
  Lemma sign2_larger y : sign_gf_p2 bls_p bls_nr y = larger2 y.
  Proof. apply (sign2_lex bls_p bls_nr); bls. Qed.
  Theorem C39_g2_compressed_format t x y : is_jacobian t (Aff x y) ->
    length (g2_encode_compressed t) = 96%nat /\ octets (g2_encode_compressed t) /\
    be_value (g2_encode_compressed t) = (2 ^ 767 + bit (larger2 y) 765 + 2 ^ 384 * coord (q1 x) + coord (q0 x))%N.
  Proof.
    intros J. unfold g2_encode_compressed. rewrite (g2_compress_aff bls_p bls_nr bls_p_gt bls_p_small bls_K2 zx2 zy2 t x y J).
    destruct (be_mark (mflag true (sign_gf_p2 bls_p bls_nr y)) (le 48 (fp_int bls_p (q0 x))) (fp_int bls_p (q1 x))) as (L & O & E);
      [apply flag_in|apply le_bytes|apply fp_int_bound; bls|]. rewrite le_length in L, E.
    split; [exact L|]. split; [exact O|]. rewrite E, chunks_le by (apply fp_int_48; bls).
    rewrite sign2_larger. change (fp_int bls_p (q0 x)) with (coord (q0 x)). change (fp_int bls_p (q1 x)) with (coord (q1 x)).
    change (256 ^ N.of_nat 48)%N with (2 ^ 384)%N. generalize (coord (q0 x)) (coord (q1 x)). intros v w.
    destruct (larger2 y);
      [change (mflag true true * 256 ^ N.of_nat (47 + 48))%N with (2 ^ 767 + 2 ^ 765)%N
      |change (mflag true false * 256 ^ N.of_nat (47 + 48))%N with (2 ^ 767 + 0)%N]; lia.
  Qed.
  Theorem C39_g2_uncompressed_format t x y : is_jacobian t (Aff x y) ->
    length (g2_encode t) = 192%nat /\ octets (g2_encode t) /\
    be_value (g2_encode t) = (2 ^ 1152 * coord (q1 x) + 2 ^ 768 * coord (q0 x) + 2 ^ 384 * coord (q1 y) + coord (q0 y))%N.
  Proof.
    intros J. unfold g2_encode. rewrite (g2_octets_aff bls_p bls_nr bls_p_gt bls_p_small bls_K2 zx2 zy2 t x y J).
    set (lo := le 48 (fp_int bls_p (q0 y)) ++ le 48 (fp_int bls_p (q1 y)) ++ le 48 (fp_int bls_p (q0 x))).
    replace (le 48 (fp_int bls_p (q0 y)) ++ le 48 (fp_int bls_p (q1 y)) ++ le 48 (fp_int bls_p (q0 x)) ++ le 48 (fp_int bls_p (q1 x)))
      with (lo ++ le 48 (fp_int bls_p (q1 x))) by (unfold lo; rewrite <- !app_assoc; reflexivity).
    assert (LL : length lo = 144%nat) by (unfold lo; rewrite !app_length, !le_length; reflexivity).
    destruct (be_mark (mflag false false) lo (fp_int bls_p (q1 x))) as (L & O & E);
      [apply flag_in|unfold lo; repeat (apply Forall_app; split); apply le_bytes|apply fp_int_bound; bls|]. rewrite LL in L, E.
    split; [exact L|]. split; [exact O|]. rewrite E. unfold lo. rewrite !chunks_app, !le_length, !chunks_le by (apply fp_int_48; bls).
    change (fp_int bls_p) with coord. generalize (coord (q0 x)) (coord (q1 x)) (coord (q0 y)) (coord (q1 y)). intros a b c d.
    change (mflag false false * 256 ^ N.of_nat (47 + 144))%N with 0%N. change (256 ^ N.of_nat 48)%N with (2 ^ 384)%N.
    change (256 ^ N.of_nat 144)%N with (2 ^ 384 * (2 ^ 768))%N. change (2 ^ 1152)%N with (2 ^ 384 * 2 ^ 768)%N. change (2 ^ 768)%N with (2 ^ 384 * 2 ^ 384)%N.
    generalize (2 ^ 384)%N. intros w. lia.
  Qed.
  Theorem C39_infinity_format t u : is_jacobian t (Inf : point K1) -> is_jacobian u (Inf : point K2) ->
    g1_encode_compressed t = 0xC0%N :: repeat 0%N 47 /\ g1_encode t = 0x40%N :: repeat 0%N 95 /\
    g2_encode_compressed u = 0xC0%N :: repeat 0%N 95 /\ g2_encode u = 0x40%N :: repeat 0%N 191.
  Proof.
    intros J1 J2. split; [|split; [|split]].
    - eapply g1_compress_inf; [bls|exact J1].
    - eapply g1_octets_inf; [bls|exact J1].
    - eapply g2_compress_inf; [bls|exact J2].
    - eapply g2_octets_inf; [bls|exact J2].
  Qed.

  (** ** C40: what the decoders accept *)
  (** the claim: accepted strings are the encodings of the points returned, and these lie in the prime-order subgroup *)
  Definition accepts_only_encodings {K : FieldOps} (on : point K -> Prop) (n : nat) (enc : triple K -> list N) (dec : list N -> option (triple K)) : Prop :=
    forall o t, octets o -> length o = n -> dec o = Some t ->
    exists P, on P /\ is_jacobian t P /\ ec_mul K 0 (Z.to_nat bls12_scalar_field_381_modulus) P = Inf /\ enc t = o.

  (** What does hold: the point is on the curve, and a canonical string is the encoding of the point returned.
      Missing: the decoders test neither canonicity nor subgroup membership. *)
  Definition accepts_curve_points {K : FieldOps} (on : point K -> Prop) (n : nat) (enc : triple K -> list N) (dec : list N -> option (triple K)) (c : nat) : Prop :=
    forall o t, octets o -> length o = n -> dec o = Some t ->
    exists P, on P /\ is_jacobian t P /\ (canonical (Z.to_N bls_p) c o -> enc t = o).
  Theorem C40_g1_compressed_partial : contracts -> accepts_curve_points on_g1 48 g1_encode_compressed g1_decode 1.
  Proof.
    intros (RS & FT & FU) o t O L D.
    eapply (accepted_g1_compressed bls_p bls_nr) with (fit := fit); try bls; try exact D; junk.
  Qed.
  Theorem C40_g1_uncompressed_partial : contracts -> accepts_curve_points on_g1 96 g1_encode g1_decode 2.
  Proof.
    intros (RS & FT & FU) o t O L D.
    eapply (accepted_g1 bls_p bls_nr) with (fit := fit); try bls; try exact D; junk.
  Qed.
  Theorem C40_g2_compressed_partial : contracts -> accepts_curve_points on_g2 96 g2_encode_compressed g2_decode 2.
  Proof.
    intros (RS & FT & FU) o t O L D.
    exact (accepted_g2_compressed bls_p bls_nr bls381_p_prime bls_p_gt bls_p_small bls_K1 bls_K2 bls_b1 bls_b2 zx2 zy2
      (fun _ => true) (fun _ => None) _ _ fit FT bls_no2_g2 bls_b2_4 o t O L D).
  Qed.
  Theorem C40_g2_uncompressed_partial : contracts -> accepts_curve_points on_g2 192 g2_encode g2_decode 4.
  Proof.
    intros (RS & FT & FU) o t O L D.
    exact (accepted_g2 bls_p bls_nr bls_p_gt bls_p_small bls_K2 bls_b1 bls_b2 zx2 zy2 (fun _ => true) (fun _ => None) _ _ fit FT o t O L D).
  Qed.

  (** points outside the subgroup are accepted *)
  Definition G1_small : point K1 := Aff (0 : K1) (tozp bls_p 2 : K1).
  Definition G2_small : point K2 := aff2 (K := K2) (lits2 bls_p bls_small2).
  Lemma G1_small_out : on_g1 G1_small /\ ec_mul K1 0 (Z.to_nat bls12_scalar_field_381_modulus) G1_small <> Inf.
  Proof.
    destruct (sw_check_sound bls_small1 bls381_p_prime bls_small1_check) as (A & B & D & two & E).
    assert (G : sw_generator K1 0 bls_b1 G1_small 3).
    { split; [exact A|]. split; [exact B|]. split; [discriminate|]. split; [exact D|exact E]. }
    split; [exact B|]. intros F.
    assert (P3 : prime 3) by exact prime_3.
    apply (sw_order_prime K1 bls_K1 two 0 bls_b1 _ _ G P3) in F; [|apply Nat2Z.inj_lt; rewrite Z2Nat.id; [vm_compute; reflexivity|vm_compute; discriminate]].
    rewrite Z2Nat.id in F by (vm_compute; discriminate). apply Z.mod_divide in F; [|discriminate]. vm_compute in F. discriminate F.
  Qed.
  Lemma prime_13' : prime 13.
  Proof. exact prime_13. Qed.
  Lemma G2_small_out : on_g2 G2_small /\ ec_mul K2 0 (Z.to_nat bls12_scalar_field_381_modulus) G2_small <> Inf.
  Proof.
    assert (S := t12_g2_mul_sound _ bls381_p_prime bls381_field_check _ _ _ _ bls_small2_check).
    destruct (ok_g2_generator K2 bls_K2 _ _ _ _ S prime_13') as [G O]. split; [exact (proj1 (proj2 G))|]. intros F.
    apply O in F; [|apply Nat2Z.inj_lt; rewrite Z2Nat.id; [vm_compute; reflexivity|vm_compute; discriminate]].
    rewrite Z2Nat.id in F by (vm_compute; discriminate). apply Z.mod_divide in F; [|discriminate]. vm_compute in F. discriminate F.
  Qed.
  Lemma jac_unique (K : FieldOps) (KL : FieldLaws K) t P Q : is_jacobian (K := K) t P -> is_jacobian t Q -> P = Q.
  Proof. exact (rep_jacobian_unique K KL _ _ _ P Q). Qed.
  Theorem C40_g1_compressed_refuted : contracts -> ~ accepts_only_encodings on_g1 48 g1_encode_compressed g1_decode.
  Proof.
    intros C H. destruct G1_small_out as [ON OUT]. assert (J := aff_1 K1 bls_K1 0 (tozp bls_p 2)).
    destruct (C39_g1_compressed G1_small _ C ON J) as (t' & D & J').
    destruct (C39_g1_compressed_format _ _ _ J) as (L & O & _).
    destruct (H _ _ O L D) as (P & _ & J'' & S & _). rewrite (jac_unique K1 bls_K1 _ _ _ J'' J') in S. exact (OUT S).
  Qed.
  Theorem C40_g1_uncompressed_refuted : contracts -> ~ accepts_only_encodings on_g1 96 g1_encode g1_decode.
  Proof.
    intros C H. destruct G1_small_out as [ON OUT]. assert (J := aff_1 K1 bls_K1 0 (tozp bls_p 2)).
    destruct (C39_g1_uncompressed G1_small _ C ON J) as (t' & D & J').
    destruct (C39_g1_uncompressed_format _ _ _ J) as (L & O & _).
    destruct (H _ _ O L D) as (P & _ & J'' & S & _). rewrite (jac_unique K1 bls_K1 _ _ _ J'' J') in S. exact (OUT S).
  Qed.
  Theorem C40_g2_compressed_refuted : contracts -> ~ accepts_only_encodings on_g2 96 g2_encode_compressed g2_decode.
  Proof.
    intros C H. destruct G2_small_out as [ON OUT]. assert (J := aff_1 K2 bls_K2 (fst (lits2 bls_p bls_small2)) (snd (lits2 bls_p bls_small2))).
    destruct (C39_g2_compressed G2_small _ C ON J) as (t' & D & J').
    destruct (C39_g2_compressed_format _ _ _ J) as (L & O & _).
    destruct (H _ _ O L D) as (P & _ & J'' & S & _). rewrite (jac_unique K2 bls_K2 _ _ _ J'' J') in S. exact (OUT S).
  Qed.
  Theorem C40_g2_uncompressed_refuted : contracts -> ~ accepts_only_encodings on_g2 192 g2_encode g2_decode.
  Proof.
    intros C H. destruct G2_small_out as [ON OUT]. assert (J := aff_1 K2 bls_K2 (fst (lits2 bls_p bls_small2)) (snd (lits2 bls_p bls_small2))).
    destruct (C39_g2_uncompressed G2_small _ C ON J) as (t' & D & J').
    destruct (C39_g2_uncompressed_format _ _ _ J) as (L & O & _).
    destruct (H _ _ O L D) as (P & _ & J'' & S & _). rewrite (jac_unique K2 bls_K2 _ _ _ J'' J') in S. exact (OUT S).
  Qed.

  (** Independently of the subgroup: a string that is not the encoding of the point returned. *)
  Definition accepts_other {K : FieldOps} (n : nat) (enc : triple K -> list N) (dec : list N -> option (triple K)) (o : list N) : Prop :=
    octets o /\ length o = n /\ exists t, dec o = Some t /\ enc t <> o.
  (** infinity followed by any octets other than 1 *)
  Theorem C40_infinity_refuted :
    accepts_other 48 g1_encode_compressed g1_decode (0xC0%N :: 2%N :: repeat 0%N 46) /\
    accepts_other 96 g1_encode g1_decode (0x40%N :: 2%N :: repeat 0%N 94) /\
    accepts_other 96 g2_encode_compressed g2_decode (0xC0%N :: 2%N :: repeat 0%N 94) /\
    accepts_other 192 g2_encode g2_decode (0x40%N :: 2%N :: repeat 0%N 190).
  Proof.
    assert (ZZ : forall n, octets (repeat 0%N n)) by (induction n; constructor; [reflexivity|assumption]).
    repeat split; try (constructor; [reflexivity|constructor; [reflexivity|apply ZZ]]).
    - exists (trip_zero K1 zx1 zy1). split; [reflexivity|]. unfold g1_encode_compressed. rewrite g1_compress_inf; [discriminate|bls|reflexivity].
    - exists (trip_zero K1 zx1 zy1). split; [reflexivity|]. unfold g1_encode. rewrite g1_octets_inf; [discriminate|bls|reflexivity].
    - exists (trip_zero K2 zx2 zy2). split; [reflexivity|]. unfold g2_encode_compressed. rewrite g2_compress_inf; [discriminate|bls|reflexivity].
    - exists (trip_zero K2 zx2 zy2). split; [reflexivity|]. unfold g2_encode. rewrite g2_octets_inf; [discriminate|bls|reflexivity].
  Qed.
  (** x = p instead of x = 0 *)
  Definition x_is_p : list N := map_first (fun b => N.lor b 0x80) (rev (le 48 (Z.to_N bls_p))).
  Definition x_is_0 : list N := 0x80%N :: repeat 0%N 47.
  Lemma fit_vals : fit_ok fit -> fit (Z.to_N bls_p) = Z.to_N bls_p /\ fit 0%N = 0%N /\ fit 2%N = 2%N.
  Proof. intros F. repeat split; apply F; vm_compute; reflexivity. Qed.
  Theorem C40_coordinate_refuted : contracts -> accepts_other 48 g1_encode_compressed g1_decode x_is_p.
  Proof.
    intros C. assert (C' := C). destruct C' as (RS & FT & FU). destruct (fit_vals FT) as (F1 & F2 & _).
    split; [apply Forall_forall; intros b I; assert (A : forallb (fun b => (b <? 256)%N) x_is_p = true) by (vm_compute; reflexivity); rewrite forallb_forall in A; apply N.ltb_lt, A, I|].
    split; [vm_compute; reflexivity|].
    destruct G1_small_out as [ON _]. assert (J := aff_1 K1 bls_K1 0 (tozp bls_p 2)).
    destruct (C39_g1_compressed G1_small _ C ON J) as (t' & D & J').
    assert (E0 : g1_encode_compressed (mkT (0 : K1) (tozp bls_p 2 : K1) 1) = x_is_0).
    { unfold g1_encode_compressed. rewrite (g1_compress_aff bls_p bls_p_gt bls_p_small bls_K1 zx1 zy1 _ _ _ J).
      assert (S : sign_gf_p bls_p (tozp bls_p 2) = false) by (vm_compute; reflexivity). rewrite S. vm_compute. reflexivity. }
    exists t'. split.
    - rewrite <- D, E0. unfold g1_decode, octets_to_g1.
      assert (M1 : m_byte_of x_is_p = Some 0x80%N) by (vm_compute; reflexivity).
      assert (M2 : m_byte_of x_is_0 = Some 0x80%N) by (vm_compute; reflexivity). rewrite M1, M2.
      change (has 0x80 C_bit) with true. unfold compressed_to_g1.
      assert (V1 : import_bits fit (rev (map_first (fun b => N.land b 0x1F) x_is_p)) = Z.to_N bls_p).
      { unfold import_bits. assert (V : chunks_value (rev (map_first (fun b => N.land b 31) x_is_p)) = Z.to_N bls_p) by (vm_compute; reflexivity). rewrite V. exact F1. }
      assert (V2 : import_bits fit (rev (map_first (fun b => N.land b 0x1F) x_is_0)) = 0%N).
      { unfold import_bits. assert (V : chunks_value (rev (map_first (fun b => N.land b 31) x_is_0)) = 0%N) by (vm_compute; reflexivity). rewrite V. exact F2. }
      cbv zeta. rewrite V1, V2.
      assert (V3 : int_fp bls_p (Z.to_N bls_p) = int_fp bls_p 0) by (apply (zp_ext bls_p); vm_compute; reflexivity). rewrite V3.
      assert (L1 : Nat.eqb (length (map_first (fun b => N.land b 31) x_is_p)) sizeof_field_element = true) by (vm_compute; reflexivity).
      assert (L2 : Nat.eqb (length (map_first (fun b => N.land b 31) x_is_0)) sizeof_field_element = true) by (vm_compute; reflexivity).
      rewrite L1, L2. change (has 128 I_bit) with false. reflexivity.
    - assert (E1 : g1_encode_compressed t' = x_is_0).
      { unfold g1_encode_compressed. rewrite (g1_compress_aff bls_p bls_p_gt bls_p_small bls_K1 zx1 zy1 _ _ _ J').
        assert (S : sign_gf_p bls_p (tozp bls_p 2) = false) by (vm_compute; reflexivity). rewrite S. vm_compute. reflexivity. }
      rewrite E1. intros X. assert (Y : be_value x_is_0 = be_value x_is_p) by (rewrite X; reflexivity). vm_compute in Y. discriminate Y.
  Qed.
End BLS.

(** ** C41: bincode field elements *)
Section C41.
  Variables (p : Z) (bits : nat) (fit : N -> N).
  Local Notation n := (modulus_chunks bits).
  (** modulus_bits bounds the modulus; integral_type holds the field elements *)
  Definition field_sizes : Prop := (1 < p <= 2 ^ Z.of_nat bits)%Z /\ forall v, (Z.of_N v < p)%Z -> fit v = v.
  Definition written (x : Zp p) (w : list N) : Prop :=
    length w = n /\ octets w /\ be_value (rev w) = Z.to_N (zval x).
  Theorem C41_prime_roundtrip x : field_sizes ->
    exists w, fp_to_bytes p bits x (repeat 0%N n) = Some w /\ written x w /\ fp_from_bytes p bits fit w = Some (true, x).
  Proof.
    intros [[H1 H2] F]. exists (le n (fp_int p x)). split; [apply fp_to_bytes_zeros; assumption|]. split.
    - split; [apply le_length|]. split; [apply le_bytes|]. rewrite be_rev, rev_involutive. apply chunks_le, fp_int_n; assumption.
    - apply fp_from_bytes_le; try assumption. apply F. unfold fp_int. assert (R := Zp.zval_range p H1 x). rewrite Z2N.id; lia.
  Qed.
  (** acceptance: the value, little-endian, is below the modulus *)
  Theorem C41_prime_accepts l : length l = n -> fit (be_value (rev l)) = be_value (rev l) ->
    exists x, fp_from_bytes p bits fit l = Some ((Z.of_N (be_value (rev l)) <? p)%Z, x) /\ x = tozp p (Z.of_N (be_value (rev l))).
  Proof.
    rewrite be_rev, rev_involutive. intros L F. eexists. split; [apply (fp_from_bytes_spec p bits fit l L F)|reflexivity].
  Qed.
  Theorem C41_prime_length l : length l <> n -> fp_from_bytes p bits fit l = None.
  Proof. intros L. unfold fp_from_bytes. rewrite (proj2 (Nat.eqb_neq _ _)) by congruence. reflexivity. Qed.

  (** The claim about buffers: whatever the range held before, it ends up holding the encoding. *)
  Definition determines_output : Prop := forall x out, length out = n ->
    exists w, fp_to_bytes p bits x out = Some w /\ written x w.
  (** What holds: the octets up to the highest non-zero one are written, the rest is left as it was; so
      the output is the encoding when the element needs all its octets, or the tail was zero. *)
  Theorem C41_output_partial x out : field_sizes -> length out = n ->
    exists k, (1 <= k <= n)%nat /\ (zval x < 256 ^ Z.of_nat k)%Z /\ (k = 1%nat \/ (256 ^ Z.of_nat (k - 1) <= zval x)%Z) /\
    exists w, length w = k /\ fp_to_bytes p bits x out = Some (w ++ skipn k out) /\
      written x (w ++ repeat 0%N (n - k)).
  Proof.
    intros [[H1 H2] F] L. exists (export_chunks (fp_int p x)).
    assert (B := fp_int_n p bits H1 H2 x). assert (N0 := bits_pos p bits H1 H2). assert (R := Zp.zval_range p H1 x).
    assert (V : Z.of_N (fp_int p x) = zval x) by (unfold fp_int; apply Z2N.id; lia).
    assert (EF := export_chunks_fits (fp_int p x)).
    split; [split; [apply export_chunks_pos|apply export_chunks_le; assumption]|]. split; [|split].
    - apply N2Z.inj_lt in EF. rewrite V, N2Z.inj_pow, nat_N_Z in EF. exact EF.
    - destruct (export_chunks_least (fp_int p x)) as [E|E]; [left; exact E|right].
      apply N2Z.inj_le in E. rewrite V, N2Z.inj_pow, nat_N_Z in E. exact E.
    - exists (export_bits (fp_int p x)). split; [apply export_length|]. split; [apply fp_to_bytes_any; exact L|].
      destruct (export_pad n (fp_int p x) N0 B) as (j & Ej & EP).
      replace (n - export_chunks (fp_int p x))%nat with j by lia. rewrite <- EP. split; [apply le_length|]. split; [apply le_bytes|].
      rewrite be_rev, rev_involutive. apply chunks_le, B.
  Qed.
  Theorem C41_output_refuted : (8 < bits)%nat -> (1 < p)%Z -> ~ determines_output.
  Proof.
    intros B P1 H. assert (MC := modulus_chunks_spec bits). destruct n as [|[|k]] eqn:EN; [lia|lia|].
    destruct (H (tozp p 0) (repeat 1%N (S (S k)))) as (w & E & L & O & V); [rewrite EN; apply repeat_length|].
    rewrite fp_to_bytes_any in E by (rewrite EN; apply repeat_length).
    assert (Z0 : fp_int p (tozp p 0) = 0%N) by (unfold fp_int; rewrite zval_tozp, Z.mod_0_l by lia; reflexivity).
    rewrite Z0 in E. change (export_bits 0) with [0%N] in E. change (export_chunks 0) with 1%nat in E. cbn [skipn repeat app] in E.
    apply (f_equal (fun o => match o with Some w => w | None => [] end)) in E. cbn in E. subst w.
    rewrite zval_tozp, Z.mod_0_l, be_rev, rev_involutive in V by lia.
    change (Z.to_N 0) with 0%N in V. rewrite !chunks_cons in V. lia.
  Qed.
End C41.

(** extension fields, as lists of coordinates; the towers are iterations of this *)
Theorem C41_extension_roundtrip {A : Type} size enc (dec : list N -> option (bool * A)) dim data :
  (forall x, exists w, enc x (repeat 0%N size) = Some w /\ length w = size /\ dec w = Some (true, x)) -> length data = dim ->
  exists w, ext_to_bytes size enc dim data (repeat 0%N (dim * size)) = Some w /\ length w = (dim * size)%nat /\
    ext_from_bytes size dec dim w = Some (true, data).
Proof.
  intros H L. apply (ext_codec (fun _ => True) size enc dec dim); [intros x _; apply H|]. split; [exact L|].
  apply Forall_forall. auto.
Qed.
Theorem C41_extension_accepts {A : Type} size (dec : list N -> option (bool * A)) ok dim l :
  (forall c, length c = size -> exists x, dec c = Some (ok c, x)) -> length l = (dim * size)%nat ->
  exists b x, ext_from_bytes size dec dim l = Some (b, x) /\
    (b = true <-> forall k, (k < dim)%nat -> ok (firstn size (skipn (k * size) l)) = true).
Proof.
  intros J L. destruct (ext_judged size dec dim ok J l L) as [x E]. exists (forallb (fun k => ok (chunk size l k)) (seq 0 dim)), x.
  split; [exact E|]. rewrite forallb_forall. split.
  - intros H k K. apply (H k). apply in_seq. lia.
  - intros H k I. apply in_seq in I. apply H. lia.
Qed.

(** bls12-381: Fp2 elements on 96 octets *)
Theorem C41_bls12_381_fp2 (fit : N -> N) (a b : K1) : (forall v, (Z.of_N v < bls_p)%Z -> fit v = v) ->
  exists w, ext_to_bytes 48 (fp_to_bytes bls_p 381) 2 [a; b] (repeat 0%N 96) = Some w /\ length w = 96%nat /\
    ext_from_bytes 48 (fp_from_bytes bls_p 381 fit) 2 w = Some (true, [a; b]).
Proof.
  intros F. apply (C41_extension_roundtrip 48 (fp_to_bytes bls_p 381) (fp_from_bytes bls_p 381 fit) 2); [|reflexivity].
  intros x. destruct (C41_prime_roundtrip bls_p 381 fit x) as (w & E & (L & _) & D).
  { split; [|exact F]. split; [vm_compute; reflexivity|vm_compute; discriminate]. }
  exists w. split; [exact E|]. split; [exact L|exact D].
Qed.
(** and Fp12 elements, through Fp6, on 576 octets *)
Theorem C41_bls12_381_fp12 (fit : N -> N) (x : list (list (list K1))) : (forall v, (Z.of_N v < bls_p)%Z -> fit v = v) ->
  let enc2 := ext_to_bytes 48 (fp_to_bytes bls_p 381) 2 in let dec2 := ext_from_bytes 48 (fp_from_bytes bls_p 381 fit) 2 in
  let enc6 := ext_to_bytes 96 enc2 3 in let dec6 := ext_from_bytes 96 dec2 3 in
  length x = 2%nat -> Forall (fun c => length c = 3%nat /\ Forall (fun d => length d = 2%nat) c) x ->
  exists w, ext_to_bytes 288 enc6 2 x (repeat 0%N 576) = Some w /\ length w = 576%nat /\
    ext_from_bytes 288 dec6 2 w = Some (true, x).
Proof.
  intros F enc2 dec2 enc6 dec6 L G.
  assert (C1 : codec (fun _ => True) 48 (fp_to_bytes bls_p 381) (fp_from_bytes bls_p 381 fit)).
  { intros y _. destruct (C41_prime_roundtrip bls_p 381 fit y) as (w & E & (L' & _) & D).
    { split; [|exact F]. split; [vm_compute; reflexivity|vm_compute; discriminate]. }
    exists w. split; [exact E|]. split; [exact L'|exact D]. }
  assert (C2 := ext_codec _ _ _ _ 2 C1). assert (C6 := ext_codec _ _ _ _ 3 C2). assert (C12 := ext_codec _ _ _ _ 2 C6).
  apply C12. split; [exact L|]. eapply Forall_impl; [|exact G]. intros c [Lc Hc]. split; [exact Lc|].
  eapply Forall_impl; [|exact Hc]. intros d Ld. split; [exact Ld|]. apply Forall_forall. auto.
Qed.

(** ** Cases *)
(** the contracts are met: p = 3 mod 4, so a^((p+1)/4) is a ressol, and the identity is a fit *)
Definition ressol_3mod4 (a : K1) : K1 := fpow a (Z.to_N ((bls_p + 1) / 4)).
Lemma ressol_3mod4_ok : ressol_contract ressol_3mod4.
Proof.
  intros a N [y E]. unfold ressol_3mod4. assert (R := FieldLaws_Ring K1 bls_K1).
  set (e := Z.to_N ((bls_p + 1) / 4)). assert (E4 : (2 * (e + e) = Z.to_N bls_p + 1)%N) by (vm_compute; reflexivity).
  assert (Y2 : a = fpow y 2) by (rewrite (fpow_2 K1 R); symmetry; exact E). rewrite Y2.
  rewrite <- (fpow_add K1 R), <- (fpow_mul K1 R), E4, (fpow_add K1 R), (fpow_1 K1 R), (Zp_fermat bls_p y bls381_p_prime), (fpow_2 K1 R). reflexivity.
Qed.
Definition bls_fuel : nat := Z.to_nat (sp_s bls12_381_sqrt).
Example contracts_met : contracts ressol_3mod4 (fun v => v) bls_fuel.
Proof. split; [exact ressol_3mod4_ok|]. split; [intros v _; reflexivity|]. apply le_n. Qed.

(** the generator of G1, in scaled Jacobian coordinates, and its encoding *)
Definition g1x : Z := nth 0 bls12_381_g1_one 0%Z.
Definition g1y : Z := nth 1 bls12_381_g1_one 0%Z.
Definition G1gen : point K1 := Aff (tozp bls_p g1x : K1) (tozp bls_p g1y : K1).
Lemma G1gen_on : on_g1 G1gen.
Proof. unfold on_g1, on_curve, G1gen. apply (zp_ext bls_p). vm_compute. reflexivity. Qed.
Definition G1gen_t : triple K1 := mkT (tozp bls_p (g1x * 4) : K1) (tozp bls_p (g1y * 8) : K1) (tozp bls_p 2 : K1).
Lemma G1gen_rep : is_jacobian G1gen_t G1gen.
Proof.
  unfold is_jacobian, rep_jacobian, G1gen, G1gen_t, tX, tY, tZ.
  split; [intros H; apply (f_equal zval) in H; vm_compute in H; discriminate H|].
  split; apply (zp_ext bls_p); vm_compute; reflexivity.
Qed.
Example C39_generator_case : forall zx zy, exists t',
  g1_decode zx zy ressol_3mod4 (fun v => v) (g1_encode_compressed zx zy G1gen_t) = Some t' /\ is_jacobian t' G1gen.
Proof. intros zx zy. exact (C39_g1_compressed zx zy ressol_3mod4 (fun v => v) bls_fuel _ _ contracts_met G1gen_on G1gen_rep). Qed.
Example C39_generator_format : forall zx zy,
  be_value (g1_encode_compressed zx zy G1gen_t) = (2 ^ 383 + Z.to_N g1x)%N.
Proof.
  intros zx zy. destruct (C39_g1_compressed_format zx zy _ _ _ G1gen_rep) as (_ & _ & E). rewrite E. vm_compute. reflexivity.
Qed.
(** the point of order 13 on the twist has an encoding that is decoded to it *)
Example C39_g2_case : forall zx zy, exists t',
  g2_decode zx zy (fun v => v) bls_fuel (g2_encode_compressed zx zy (mkT (fst (lits2 bls_p bls_small2) : K2) (snd (lits2 bls_p bls_small2) : K2) 1)) = Some t' /\
  is_jacobian t' G2_small.
Proof.
  intros zx zy. apply (C39_g2_compressed zx zy ressol_3mod4 (fun v => v) bls_fuel G2_small _ contracts_met (proj1 G2_small_out)).
  apply aff_1. exact bls_K2.
Qed.
(** canonical strings are accepted and re-encoded: the generator's *)
Example C40_case : forall zx zy, exists o t, octets o /\ length o = 48%nat /\
  g1_decode zx zy ressol_3mod4 (fun v => v) o = Some t /\ canonical (Z.to_N bls_p) 1 o.
Proof.
  intros zx zy. destruct (C39_generator_case zx zy) as (t' & D & _). destruct (C39_g1_compressed_format zx zy _ _ _ G1gen_rep) as (L & O & _).
  exists (g1_encode_compressed zx zy G1gen_t), t'. split; [exact O|]. split; [exact L|]. split; [exact D|].
  unfold g1_encode_compressed. rewrite (g1_compress_aff bls_p bls_p_gt bls_p_small bls_K1 zx zy _ _ _ G1gen_rep).
  assert (S : sign_gf_p bls_p (tozp bls_p g1y) = false) by (vm_compute; reflexivity). rewrite S.
  unfold canonical. match goal with |- if flag 6 ?o then _ else _ => set (oc := o) end.
  assert (F6 : flag 6 oc = false) by (vm_compute; reflexivity). rewrite F6.
  assert (P0 : (piece 0 oc mod 2 ^ 381 < Z.to_N bls_p)%N) by (vm_compute; reflexivity).
  split; [exact P0|]. intros k K. lia.
Qed.
(** 2^16 + 3 in a 24-bit field over a dirty buffer *)
Example C41_case : field_sizes 16777213 24 (fun v => v) /\
  fp_to_bytes 16777213 24 (tozp _ 65539) [0; 0; 0]%N = Some [3; 0; 1]%N /\
  fp_from_bytes 16777213 24 (fun v => v) [3; 0; 1]%N = Some (true, tozp _ 65539) /\
  fst (match fp_from_bytes 16777213 24 (fun v => v) [255; 255; 255]%N with Some r => r | None => (true, tozp _ 0) end) = false /\
  fp_to_bytes 16777213 24 (tozp _ 7) [1; 1; 1]%N = Some [7; 1; 1]%N.
Proof.
  split; [split; [split; [reflexivity|discriminate]|reflexivity]|]. repeat split; vm_compute; reflexivity.
Qed.
