(** curve_element_serializer: the encoders produce the fixed-length strings of
    the format, the decoders invert them. *)
From Coq Require Import ZArith NArith List Bool Lia Znumtheory Ring.
From Verif Require Import Base.Field Base.Zp Base.Ext Spec.Weierstrass Spec.Octets Model.Fp Model.Fp2 Model.ShortWeierstrass Model.Marshalling
  Proof.ExtTheory Proof.Power Proof.Towers Proof.FpHelpers Proof.WeierstrassOps Proof.Bytes.
Import ListNotations.
Local Open Scope fld_scope.

(** ** Flag bits on arrays *)
Lemma flags_roundtrip l b m : (b < 32)%N -> In m flags ->
  let o := map_first (fun b => N.lor b m) (rev (l ++ [b])) in
  m_byte_of o = Some m /\ map_first (fun b => N.land b 0x1F) o = rev (l ++ [b]).
Proof.
  intros B M. rewrite rev_app_distr. cbn [rev app map_first m_byte_of].
  destruct (flag_or b m B M) as (-> & -> & _). auto.
Qed.
Lemma flags_masked o : Forall byte o -> o <> [] ->
  exists l b m, m_byte_of o = Some m /\ In m flags /\ (b < 32)%N /\ Forall byte l /\ length o = S (length l) /\
    map_first (fun b => N.land b 0x1F) o = rev (l ++ [b]) /\ map_first (fun b => N.lor b m) (rev (l ++ [b])) = o.
Proof.
  destruct o as [|x r]; intros H N; [congruence|]. inversion H; subst.
  destruct (flag_split x H2) as (I & L & E).
  exists (rev r), (N.land x 0x1F), (N.land x 0xE0). rewrite rev_app_distr, rev_involutive. cbn [m_byte_of map_first rev app length].
  rewrite E, rev_length. repeat split; auto using Forall_rev'.
Qed.
Lemma no_octet_one_repeat n : no_octet_one (repeat 0%N n) = true.
Proof. unfold no_octet_one. induction n as [|n IH]; [reflexivity|]. exact IH. Qed.

(** ** Square roots picked by sign *)
Definition finds_roots {F : FieldOps} (root : F -> option F) : Prop :=
  forall a, a <> 0 -> (exists y, y * y = a) -> exists r, root a = Some r /\ r * r = a.
Section Pick.
Variables (F : FieldOps) (FL : FieldLaws F).
Add Ring FR1 : (RL_th F (FieldLaws_Ring F FL)).
Lemma pick_root root (sign : F -> bool) y :
  finds_roots root -> (forall v, v <> 0 -> sign (- v) = negb (sign v)) -> y <> 0 ->
  exists r, root (y * y) = Some r /\ (if Bool.eqb (sign r) (sign y) then r else - r) = y.
Proof.
  intros RT SG N.
  destruct (RT (y * y)) as (r & E & Q); [apply (fmul_neq_0 F FL); auto|exists y; reflexivity|].
  exists r. split; [exact E|]. destruct (fsqr_eq F FL r y Q) as [->| ->]; [rewrite eqb_reflx; reflexivity|].
  rewrite SG by exact N. destruct (sign y); cbn; ring.
Qed.
Lemma fpow3 (x : F) : fpow x 3 = x * x * x.
Proof. change (fpow x 3) with (x * (x * (x * 1))). ring. Qed.
Lemma on0 (b x y : F) : on_curve F 0 b (Aff x y) <-> y * y = x * x * x + b.
Proof. cbn [on_curve]. split; intros ->; ring. Qed.
Lemma jac_affine zx zy t x y : rep_jacobian (tX t) (tY t) (tZ t) (Aff x y) -> jac_to_affine F zx zy t = mkA x y /\ jac_is_zero F t = false.
Proof.
  destruct t as [X Y Z]. cbn [tX tY tZ rep_jacobian]. intros (N & -> & ->).
  unfold jac_to_affine. rewrite (jac_is_zero_f F FL) by exact N. cbn [tX tY tZ]. split; [|reflexivity].
  assert (I := finv_r F FL Z N). f_equal.
  - transitivity (x * (Z * finv Z) * (Z * finv Z)); [ring|]. rewrite I. ring.
  - transitivity (y * (Z * finv Z) * (Z * finv Z) * (Z * finv Z)); [ring|]. rewrite I. ring.
Qed.
Lemma jac_of_affine (x y : F) : rep_jacobian x y 1 (Aff x y).
Proof. cbn. split; [apply (f1_neq_0 F FL)|]. split; ring. Qed.
Lemma jac_inf t : rep_jacobian (tX t) (tY t) (tZ t) Inf -> jac_is_zero F t = true.
Proof. intros H. apply (jac_is_zero_t F FL), H. Qed.
Lemma wf_1 (b x y : F) : jac0_is_well_formed F b (mkT x y 1) = true <-> y * y = x * x * x + b.
Proof.
  unfold jac0_is_well_formed. rewrite (jac_is_zero_f F FL) by apply (f1_neq_0 F FL). cbn [tX tY tZ].
  split; [intros H; apply (feqb_true F (FieldLaws_Ring F FL)) in H; rewrite H; ring|].
  intros H. assert (E : y * y = x * (x * x) + b * (1 * (1 * 1) * (1 * (1 * 1)))) by (rewrite H; ring).
  rewrite E. apply (feqb_refl F (FieldLaws_Ring F FL)).
Qed.
Lemma drop0 (b x : F) : x * x * x + 0 * x + b = x * x * x + b.
Proof. ring. Qed.
Lemma jac_1 (x y : F) : rep_jacobian x y 1 (Aff x y).
Proof. cbn. split; [apply (f1_neq_0 F FL)|]. split; ring. Qed.
Lemma rep_jacobian_unique (X Y Z : F) P Q : rep_jacobian X Y Z P -> rep_jacobian X Y Z Q -> P = Q.
Proof.
  destruct P as [|x y], Q as [|x' y']; cbn; try tauto.
  intros (N & A & B) (_ & C & D). f_equal.
  - apply (fmul_cancel_r F FL (Z * Z)); [apply (fmul_neq_0 F FL); exact N|congruence].
  - apply (fmul_cancel_r F FL (Z * Z * Z)); [repeat apply (fmul_neq_0 F FL); exact N|congruence].
Qed.
End Pick.

Section Z.
  Variables (p nr : Z).
  Hypothesis p_prime : prime p.
  Hypothesis p_odd : (2 < p)%Z.
  Hypothesis p_small : (p <= 2 ^ 381)%Z.
  Notation K := (Zp p).
  Notation K2 := (Fp2 K (tozp p nr)).
  Hypothesis KL : FieldLaws K.
  Hypothesis K2L : FieldLaws K2.
  Add Ring KR1 : (RL_th K (FieldLaws_Ring K KL)).
  Add Ring KR2 : (RL_th K2 (FieldLaws_Ring K2 K2L)).

  Lemma zval_range (x : K) : (0 <= zval x < p)%Z.
  Proof. apply Zp.zval_range. lia. Qed.
  Lemma fp_int_bound x : (fp_int p x < 32 * 256 ^ N.of_nat 47)%N.
  Proof.
    unfold fp_int. assert (H := zval_range x).
    assert (E : (32 * 256 ^ N.of_nat 47 = 2 ^ 381)%N) by (vm_compute; reflexivity). rewrite E.
    apply N2Z.inj_lt. rewrite Z2N.id by lia. change (Z.of_N (2 ^ 381)) with (2 ^ 381)%Z. lia.
  Qed.
  Lemma fp_int_48 x : (fp_int p x < 256 ^ N.of_nat 48)%N.
  Proof. eapply N.lt_trans; [apply fp_int_bound|]. vm_compute. reflexivity. Qed.
  Lemma int_fp_int x : int_fp p (fp_int p x) = x.
  Proof.
    unfold int_fp, fp_int, fp_of_int. assert (H := zval_range x). rewrite Z2N.id by lia.
    apply zp_ext. rewrite zval_tozp. apply Z.mod_small, H.
  Qed.
  Lemma fp_int_int v : (Z.of_N v < p)%Z -> fp_int p (int_fp p v) = v.
  Proof.
    intros H. unfold int_fp, fp_int, fp_of_int. rewrite zval_tozp, Z.mod_small by lia. apply N2Z.id.
  Qed.
  Lemma half_val : zval (fp_of_int p ((p - 1) / 2)) = ((p - 1) / 2)%Z.
  Proof.
    unfold fp_of_int. rewrite zval_tozp. apply Z.mod_small.
    assert (H := Z.div_mod (p - 1) 2). assert (L := Z.mod_pos_bound (p - 1) 2). lia.
  Qed.
  Lemma odd_p : (p mod 2 = 1)%Z.
  Proof.
    destruct (Z.eq_dec (p mod 2) 0) as [E|E].
    - exfalso. apply Z.mod_divide in E; [|lia]. destruct (prime_divisors p p_prime 2 E); lia.
    - assert (L := Z.mod_pos_bound p 2). lia.
  Qed.
  Lemma zval_opp (x : K) : x <> 0 -> zval (- x) = (p - zval x)%Z.
  Proof.
    intros N. change (zval (- x)) with ((- zval x) mod p)%Z. assert (H := zval_range x).
    assert (zval x <> 0)%Z by (intros E; apply N, zp_ext; rewrite E; change (zval (0 : K)) with (0 mod p)%Z; rewrite Z.mod_0_l; lia).
    rewrite Z_mod_nz_opp_full; rewrite Z.mod_small; lia.
  Qed.
  Lemma sign_spec x : sign_gf_p p x = true <-> (p - 1 < 2 * zval x)%Z.
  Proof.
    unfold sign_gf_p, fp_gtb. rewrite Z.ltb_lt, half_val. assert (O := odd_p).
    assert (D := Z.div_mod p 2). assert (E : ((p - 1) / 2 = p / 2)%Z).
    { replace (p - 1)%Z with ((p / 2) * 2)%Z by lia. apply Z.div_mul. lia. }
    rewrite E. lia.
  Qed.
  Lemma sign_opp x : x <> 0 -> sign_gf_p p (- x) = negb (sign_gf_p p x).
  Proof.
    intros N. assert (A := sign_spec x). assert (B := sign_spec (- x)). rewrite zval_opp in B by exact N.
    assert (O := odd_p). assert (D := Z.div_mod p 2).
    destruct (sign_gf_p p x), (sign_gf_p p (- x)); cbn; try reflexivity; exfalso.
    - destruct A as [A _], B as [B _]. specialize (A eq_refl). specialize (B eq_refl). lia.
    - assert (~ (p - 1 < 2 * zval x))%Z by (rewrite <- A; discriminate). assert (~ (p - 1 < 2 * (p - zval x)))%Z by (rewrite <- B; discriminate). lia.
  Qed.
  Lemma eqb_0 (x : K) : (x =? tozp p 0) = true <-> x = 0.
  Proof.
    change (tozp p 0) with (0 : K). split; [apply (feqb_true K (FieldLaws_Ring K KL))|intros ->; apply (feqb_refl K (FieldLaws_Ring K KL))].
  Qed.
  Lemma sign2_opp (x : K2) : x <> 0 -> sign_gf_p2 p nr (- x) = negb (sign_gf_p2 p nr x).
  Proof.
    intros N. destruct x as [a b]. unfold sign_gf_p2. change (q1 (- (mkq a b : K2))) with (- b). change (q0 (- (mkq a b : K2))) with (- a).
    cbn [q0 q1].
    destruct (b =? tozp p 0) eqn:E.
    - apply eqb_0 in E. subst b. replace (- (0 : K)) with (0 : K) by ring. rewrite (proj2 (eqb_0 _) eq_refl).
      apply sign_opp. intros ->. apply N. reflexivity.
    - assert (B : b <> 0) by (intros H; apply eqb_0 in H; congruence).
      destruct (- b =? tozp p 0) eqn:E'.
      + apply eqb_0 in E'. exfalso. apply B. replace b with (- - b) by ring. rewrite E'. ring.
      + apply sign_opp, B.
  Qed.

  Lemma pow3 x : fp_pow_int p x 3 = x * x * x.
  Proof.
    unfold fp_pow_int. change (Z.to_N (3 mod 2 ^ 128)) with 3%N. rewrite fp_powm_eq by lia.
    apply (fpow3 K KL).
  Qed.
  Lemma pow3_2 (x : K2) : fp2_pow K (tozp p nr) x 3 = x * x * x.
  Proof.
    transitivity (fpow x 3); [|apply (fpow3 K2 K2L)].
    apply (power_gen K2 (FieldLaws_Ring K2 K2L)); [reflexivity|reflexivity|]. intros y. apply (fp2_sqr_eq K (tozp p nr) (FieldLaws_Ring K KL)).
  Qed.

  (** *** The encoders *)
  Definition sizeF := sizeof_field_element.
  Local Notation iv := (fp_int p).
  Variables (b1 : K) (b2 : K2) (zx1 zy1 : K) (zx2 zy2 : K2).
  Definition mflag (c s : bool) : N := ((if c then 0x80 else 0) + (if s then 0x20 else 0))%N.
  Definition mark (m : N) (l : list N) := map_first (fun b => N.lor b m) (rev l).

  Lemma enc1 v : (v < 256 ^ N.of_nat 48)%N -> write_rev (repeat 0%N 48) 0 (export_bits v) = rev (le 48 v).
  Proof.
    intros H. assert (E := write_rev_zeros [] 48 0 v 0 (ltac:(lia)) H eq_refl). cbn [app] in E.
    rewrite rev_repeat, app_nil_r in E. exact E.
  Qed.
  Lemma enc2 v w : (v < 256 ^ N.of_nat 48)%N -> (w < 256 ^ N.of_nat 48)%N ->
    write_rev (write_rev (repeat 0%N 96) 0 (export_bits v)) 48 (export_bits w) = rev (le 48 v ++ le 48 w).
  Proof.
    intros H1 H2. assert (E := write_rev_zeros [] 48 48 v 0 (ltac:(lia)) H1 eq_refl).
    cbn [app] in E. rewrite rev_repeat in E. change (48 + 48)%nat with 96%nat in E. rewrite E.
    assert (E2 := write_rev_zeros (le 48 v) 48 0 w 48 (ltac:(lia)) H2 (eq_sym (le_length 48 v))).
    change (48 + 0)%nat with 48%nat in E2. rewrite E2, app_nil_r. reflexivity.
  Qed.
  Lemma enc4 v w x y : (v < 256 ^ N.of_nat 48)%N -> (w < 256 ^ N.of_nat 48)%N -> (x < 256 ^ N.of_nat 48)%N -> (y < 256 ^ N.of_nat 48)%N ->
    write_rev (write_rev (write_rev (write_rev (repeat 0%N 192) 0 (export_bits v)) 48 (export_bits w)) 96 (export_bits x)) 144 (export_bits y)
    = rev (le 48 v ++ le 48 w ++ le 48 x ++ le 48 y).
  Proof.
    intros H1 H2 H3 H4. assert (E := write_rev_zeros [] 48 144 v 0 (ltac:(lia)) H1 eq_refl).
    cbn [app] in E. rewrite rev_repeat in E. change (48 + 144)%nat with 192%nat in E. rewrite E.
    assert (E2 := write_rev_zeros (le 48 v) 48 96 w 48 (ltac:(lia)) H2 (eq_sym (le_length 48 v))).
    change (48 + 96)%nat with 144%nat in E2. rewrite E2, (app_assoc (le 48 v)).
    assert (L2 : 96%nat = length (le 48 v ++ le 48 w)) by (rewrite app_length, !le_length; reflexivity).
    assert (E3 := write_rev_zeros (le 48 v ++ le 48 w) 48 48 x 96 (ltac:(lia)) H3 L2).
    change (48 + 48)%nat with 96%nat in E3. rewrite E3, (app_assoc (le 48 v ++ le 48 w)).
    assert (L3 : 144%nat = length ((le 48 v ++ le 48 w) ++ le 48 x)) by (rewrite !app_length, !le_length; reflexivity).
    assert (E4 := write_rev_zeros ((le 48 v ++ le 48 w) ++ le 48 x) 48 0 y 144 (ltac:(lia)) H4 L3).
    change (48 + 0)%nat with 48%nat in E4. rewrite E4, app_nil_r, !app_assoc. reflexivity.
  Qed.

  Lemma g1_compress_aff t x y : rep_jacobian (tX t) (tY t) (tZ t) (Aff x y) ->
    g1_compress p zx1 zy1 t = mark (mflag true (sign_gf_p p y)) (le 48 (iv x)).
  Proof.
    intros H. destruct (jac_affine K KL zx1 zy1 t x y H) as [E Z]. unfold g1_compress. rewrite E, Z. cbn [aX aY].
    change sizeof_field_element with 48%nat. rewrite enc1 by apply fp_int_48. unfold mark. destruct (sign_gf_p p y); reflexivity.
  Qed.
  Lemma g1_octets_aff t x y : rep_jacobian (tX t) (tY t) (tZ t) (Aff x y) ->
    g1_octets p zx1 zy1 t = mark (mflag false false) (le 48 (iv y) ++ le 48 (iv x)).
  Proof.
    intros H. destruct (jac_affine K KL zx1 zy1 t x y H) as [E Z]. unfold g1_octets. rewrite E, Z. cbn [aX aY].
    change sizeof_field_element with 48%nat. change (2 * 48)%nat with 96%nat. cbv zeta. rewrite enc2 by apply fp_int_48.
    destruct (sign_gf_p p y); reflexivity.
  Qed.
  Lemma g2_compress_aff t x y : rep_jacobian (tX t) (tY t) (tZ t) (Aff x y) ->
    g2_compress p nr zx2 zy2 t = mark (mflag true (sign_gf_p2 p nr y)) (le 48 (iv (q0 x)) ++ le 48 (iv (q1 x))).
  Proof.
    intros H. destruct (jac_affine K2 K2L zx2 zy2 t x y H) as [E Z]. unfold g2_compress. rewrite E, Z. cbn [aX aY].
    change sizeof_field_element with 48%nat. change (2 * 48)%nat with 96%nat. cbv zeta. rewrite enc2 by apply fp_int_48.
    unfold mark. destruct (sign_gf_p2 p nr y); reflexivity.
  Qed.
  Lemma g2_octets_aff t x y : rep_jacobian (tX t) (tY t) (tZ t) (Aff x y) ->
    g2_octets p nr zx2 zy2 t
    = mark (mflag false false) (le 48 (iv (q0 y)) ++ le 48 (iv (q1 y)) ++ le 48 (iv (q0 x)) ++ le 48 (iv (q1 x))).
  Proof.
    intros H. destruct (jac_affine K2 K2L zx2 zy2 t x y H) as [E Z]. unfold g2_octets. rewrite E, Z. cbn [aX aY].
    change sizeof_field_element with 48%nat. change (2 * 48)%nat with 96%nat. change (3 * 48)%nat with 144%nat. change (4 * 48)%nat with 192%nat.
    cbv zeta. rewrite enc4 by apply fp_int_48. destruct (sign_gf_p2 p nr y); reflexivity.
  Qed.
  Lemma g1_compress_inf t : rep_jacobian (tX t) (tY t) (tZ t) Inf -> g1_compress p zx1 zy1 t = 0xC0%N :: repeat 0%N 47.
  Proof. intros H. unfold g1_compress. rewrite (jac_inf K KL t H). reflexivity. Qed.
  Lemma g1_octets_inf t : rep_jacobian (tX t) (tY t) (tZ t) Inf -> g1_octets p zx1 zy1 t = 0x40%N :: repeat 0%N 95.
  Proof. intros H. unfold g1_octets. rewrite (jac_inf K KL t H). reflexivity. Qed.
  Lemma g2_compress_inf t : rep_jacobian (tX t) (tY t) (tZ t) Inf -> g2_compress p nr zx2 zy2 t = 0xC0%N :: repeat 0%N 95.
  Proof. intros H. unfold g2_compress. rewrite (jac_inf K2 K2L t H). reflexivity. Qed.
  Lemma g2_octets_inf t : rep_jacobian (tX t) (tY t) (tZ t) Inf -> g2_octets p nr zx2 zy2 t = 0x40%N :: repeat 0%N 191.
  Proof. intros H. unfold g2_octets. rewrite (jac_inf K2 K2L t H). reflexivity. Qed.

  (** *** The decoders *)
  Variables (sq1 : K -> bool) (root1 : K -> option K) (sq2 : K2 -> bool) (root2 : K2 -> option K2) (fit : N -> N).
  Definition fit_ok := forall v, (v < 2 ^ 381)%N -> fit v = v.
  Definition decides_squares {F : FieldOps} (sq : F -> bool) := forall a, sq a = true <-> exists y, y * y = a.
  Hypothesis FIT : fit_ok.
  Local Notation dec1 := (octets_to_g1 p b1 zx1 zy1 sq1 root1 fit).
  Local Notation dec2 := (octets_to_g2 p nr b2 zx2 zy2 sq2 root2 fit).

  Lemma in_flags c s : In (mflag c s) flags.
  Proof. destruct c, s; cbn; tauto. Qed.
  Lemma le48_top v : (v < 32 * 256 ^ N.of_nat 47)%N -> exists b, (b < 32)%N /\ le 48 v = le 47 v ++ [b].
  Proof. apply (le_top 47). Qed.
  (** the flags come off an encoding *)
  Lemma unmark {T : Type} (f g : list N -> N -> option T) m lo v : m_byte_valid m = true -> In m flags -> (v < 32 * 256 ^ N.of_nat 47)%N ->
    match m_byte_of (mark m (lo ++ le 48 v)) with
    | None => None
    | Some m0 => check (m_byte_valid m0)
        (if has m0 C_bit then f (map_first (fun b => N.land b 0x1F) (mark m (lo ++ le 48 v))) m0
         else g (map_first (fun b => N.land b 0x1F) (mark m (lo ++ le 48 v))) m0)
    end = (if has m C_bit then f else g) (rev (lo ++ le 48 v)) m.
  Proof.
    intros V M B. destruct (le48_top v B) as (b & L & E). rewrite E, app_assoc.
    destruct (flags_roundtrip (lo ++ le 47 v) b m L M) as [E1 E2]. unfold mark. rewrite E1, E2, V. cbn [check].
    destruct (has m C_bit); reflexivity.
  Qed.
  Lemma import_iv x : import_bits fit (le 48 (iv x)) = iv x.
  Proof.
    unfold import_bits. rewrite chunks_le by apply fp_int_48. apply FIT.
    assert (H := fp_int_bound x). assert (E : (32 * 256 ^ N.of_nat 47 = 2 ^ 381)%N) by (vm_compute; reflexivity). rewrite E in H. exact H.
  Qed.
  Lemma firstn_le v r : firstn 48 (le 48 v ++ r) = le 48 v.
  Proof. assert (E := firstn_app_l (le 48 v) r). rewrite le_length in E. exact E. Qed.
  Lemma skipn_le v r k : skipn (48 + k) (le 48 v ++ r) = skipn k r.
  Proof. assert (E := skipn_app_l (le 48 v) r k). rewrite le_length in E. exact E. Qed.
  Lemma skipn_le0 v r : skipn 48 (le 48 v ++ r) = r.
  Proof. exact (skipn_le v r 0). Qed.
  Lemma firstn_le0 v : firstn 48 (le 48 v) = le 48 v.
  Proof. assert (E := firstn_le v []). rewrite app_nil_r in E. exact E. Qed.

  Section G1.
    Hypothesis B4 : b1 = fp_of_int p 4.
    Hypothesis SQ : decides_squares sq1.
    Hypothesis RT : finds_roots root1.
    Lemma dec_g1_compressed x y : y * y = x * x * x + b1 -> y <> 0 ->
      compressed_to_g1 p b1 zx1 zy1 sq1 root1 fit (rev (le 48 (iv x))) (mflag true (sign_gf_p p y)) = Some (mkT x y 1).
    Proof.
      intros E N. unfold compressed_to_g1. rewrite rev_length, le_length, rev_involutive, import_iv, int_fp_int, pow3. cbn [Nat.eqb sizeof_field_element check].
      rewrite <- B4, <- E, (proj2 (SQ (y * y))) by (exists y; reflexivity).
      destruct (pick_root K KL root1 (sign_gf_p p) y RT sign_opp N) as (r & -> & P).
      assert (W := proj2 (wf_1 K KL b1 x y) E).
      assert (HI : has (mflag true (sign_gf_p p y)) I_bit = false) by (destruct (sign_gf_p p y); reflexivity).
      assert (HS : has (mflag true (sign_gf_p p y)) S_bit = sign_gf_p p y) by (destruct (sign_gf_p p y); reflexivity).
      rewrite HI, HS. cbn [check]. destruct (Bool.eqb (sign_gf_p p r) (sign_gf_p p y)); rewrite P, W; reflexivity.
    Qed.
    Lemma dec_g1_uncompressed x y : y * y = x * x * x + b1 ->
      uncompressed_to_g1 p b1 zx1 zy1 fit (rev (le 48 (iv y) ++ le 48 (iv x))) (mflag false false) = Some (mkT x y 1).
    Proof.
      intros E. unfold uncompressed_to_g1. rewrite rev_length, app_length, !le_length, rev_involutive.
      change sizeof_field_element with 48%nat. rewrite firstn_le. rewrite skipn_le0.
      rewrite !import_iv, !int_fp_int. rewrite (proj2 (wf_1 K KL b1 x y) E). reflexivity.
    Qed.
    Lemma roundtrip_g1_compressed t x y : rep_jacobian (tX t) (tY t) (tZ t) (Aff x y) -> y * y = x * x * x + b1 -> y <> 0 ->
      dec1 (g1_compress p zx1 zy1 t) = Some (mkT x y 1).
    Proof.
      intros H E N. rewrite (g1_compress_aff t x y H). unfold octets_to_g1.
      etransitivity; [apply (unmark _ _ (mflag true (sign_gf_p p y)) [] (iv x)); [destruct (sign_gf_p p y); reflexivity|apply in_flags|apply fp_int_bound]|].
      cbn [app]. rewrite <- dec_g1_compressed by assumption. destruct (sign_gf_p p y); reflexivity.
    Qed.
    Lemma roundtrip_g1 t x y : rep_jacobian (tX t) (tY t) (tZ t) (Aff x y) -> y * y = x * x * x + b1 ->
      dec1 (g1_octets p zx1 zy1 t) = Some (mkT x y 1).
    Proof.
      intros H E. rewrite (g1_octets_aff t x y H). unfold octets_to_g1.
      etransitivity; [apply (unmark _ _ (mflag false false) (le 48 (iv y)) (iv x)); [reflexivity|apply in_flags|apply fp_int_bound]|].
      cbn [app]. rewrite <- dec_g1_uncompressed by assumption. reflexivity.
    Qed.
    Lemma roundtrip_g1_inf t : rep_jacobian (tX t) (tY t) (tZ t) Inf ->
      dec1 (g1_compress p zx1 zy1 t) = Some (trip_zero K zx1 zy1) /\ dec1 (g1_octets p zx1 zy1 t) = Some (trip_zero K zx1 zy1).
    Proof. intros H. rewrite (g1_compress_inf t H), (g1_octets_inf t H). split; reflexivity. Qed.
  End G1.

  Section G2.
    Hypothesis B4 : b2 = (mkq (fp_of_int p 4) (fp_of_int p 4) : K2).
    Hypothesis SQ : decides_squares sq2.
    Hypothesis RT : finds_roots root2.
    Lemma dec_g2_compressed (x y : K2) : y * y = x * x * x + b2 -> y <> 0 ->
      compressed_to_g2 p nr b2 zx2 zy2 sq2 root2 fit (rev (le 48 (iv (q0 x)) ++ le 48 (iv (q1 x)))) (mflag true (sign_gf_p2 p nr y)) = Some (mkT x y 1).
    Proof.
      intros E N. unfold compressed_to_g2. rewrite rev_length, app_length, !le_length, rev_involutive.
      change sizeof_field_element with 48%nat. rewrite firstn_le. rewrite skipn_le0.
      rewrite !import_iv, !int_fp_int, <- B4. replace (mkq (q0 x) (q1 x)) with x by (destruct x; reflexivity). rewrite pow3_2.
      change (Nat.eqb (48 + 48) (2 * 48)) with true. cbn [check].
      rewrite <- E, (proj2 (SQ (y * y))) by (exists y; reflexivity).
      destruct (pick_root K2 K2L root2 (sign_gf_p2 p nr) y RT sign2_opp N) as (r & -> & P).
      assert (W := proj2 (wf_1 K2 K2L b2 x y) E).
      assert (HI : has (mflag true (sign_gf_p2 p nr y)) I_bit = false) by (destruct (sign_gf_p2 p nr y); reflexivity).
      assert (HS : has (mflag true (sign_gf_p2 p nr y)) S_bit = sign_gf_p2 p nr y) by (destruct (sign_gf_p2 p nr y); reflexivity).
      rewrite HI, HS. cbn [check]. destruct (Bool.eqb (sign_gf_p2 p nr r) (sign_gf_p2 p nr y)); rewrite P, W; reflexivity.
    Qed.
    Lemma dec_g2_uncompressed (x y : K2) : y * y = x * x * x + b2 ->
      uncompressed_to_g2 p nr b2 zx2 zy2 fit (rev (le 48 (iv (q0 y)) ++ le 48 (iv (q1 y)) ++ le 48 (iv (q0 x)) ++ le 48 (iv (q1 x)))) (mflag false false)
      = Some (mkT x y 1).
    Proof.
      intros E. unfold uncompressed_to_g2. rewrite rev_length, !app_length, !le_length, rev_involutive.
      change sizeof_field_element with 48%nat. cbv zeta. rewrite firstn_le.
      assert (S1 := skipn_le (iv (q0 y)) (le 48 (iv (q1 y)) ++ le 48 (iv (q0 x)) ++ le 48 (iv (q1 x))) 0).
      assert (S2 := skipn_le (iv (q0 y)) (le 48 (iv (q1 y)) ++ le 48 (iv (q0 x)) ++ le 48 (iv (q1 x))) 48).
      assert (S3 := skipn_le (iv (q0 y)) (le 48 (iv (q1 y)) ++ le 48 (iv (q0 x)) ++ le 48 (iv (q1 x))) 96).
      change (48 + 0)%nat with 48%nat in S1. change (48 + 48)%nat with (2 * 48)%nat in S2. change (48 + 96)%nat with (3 * 48)%nat in S3.
      rewrite S1, S2, S3, skipn_O.
      assert (T2 := skipn_le (iv (q1 y)) (le 48 (iv (q0 x)) ++ le 48 (iv (q1 x))) 0). change (48 + 0)%nat with 48%nat in T2.
      assert (T3 := skipn_le (iv (q1 y)) (le 48 (iv (q0 x)) ++ le 48 (iv (q1 x))) 48). change (48 + 48)%nat with 96%nat in T3.
      rewrite T2, T3, skipn_O.
      assert (U3 := skipn_le (iv (q0 x)) (le 48 (iv (q1 x))) 0). change (48 + 0)%nat with 48%nat in U3. rewrite U3, skipn_O.
      rewrite !firstn_le, !import_iv, !int_fp_int.
      replace (mkq (q0 x) (q1 x)) with x by (destruct x; reflexivity). replace (mkq (q0 y) (q1 y)) with y by (destruct y; reflexivity).
      rewrite (proj2 (wf_1 K2 K2L b2 x y) E). reflexivity.
    Qed.
    Lemma roundtrip_g2_compressed t (x y : K2) : rep_jacobian (tX t) (tY t) (tZ t) (Aff x y) -> y * y = x * x * x + b2 -> y <> 0 ->
      dec2 (g2_compress p nr zx2 zy2 t) = Some (mkT x y 1).
    Proof.
      intros H E N. rewrite (g2_compress_aff t x y H). unfold octets_to_g2.
      etransitivity; [apply (unmark _ _ (mflag true (sign_gf_p2 p nr y)) (le 48 (iv (q0 x))) (iv (q1 x))); [destruct (sign_gf_p2 p nr y); reflexivity|apply in_flags|apply fp_int_bound]|].
      rewrite <- dec_g2_compressed by assumption. destruct (sign_gf_p2 p nr y); reflexivity.
    Qed.
    Lemma roundtrip_g2 t (x y : K2) : rep_jacobian (tX t) (tY t) (tZ t) (Aff x y) -> y * y = x * x * x + b2 ->
      dec2 (g2_octets p nr zx2 zy2 t) = Some (mkT x y 1).
    Proof.
      intros H E. rewrite (g2_octets_aff t x y H). unfold octets_to_g2. rewrite !app_assoc.
      etransitivity; [apply (unmark _ _ (mflag false false) ((le 48 (iv (q0 y)) ++ le 48 (iv (q1 y))) ++ le 48 (iv (q0 x))) (iv (q1 x))); [reflexivity|apply in_flags|apply fp_int_bound]|].
      rewrite <- dec_g2_uncompressed by assumption. rewrite <- !app_assoc. reflexivity.
    Qed.
    Lemma roundtrip_g2_inf t : rep_jacobian (tX t) (tY t) (tZ t) Inf ->
      dec2 (g2_compress p nr zx2 zy2 t) = Some (trip_zero K2 zx2 zy2) /\ dec2 (g2_octets p nr zx2 zy2 t) = Some (trip_zero K2 zx2 zy2).
    Proof. intros H. rewrite (g2_compress_inf t H), (g2_octets_inf t H). split; reflexivity. Qed.
  End G2.

  (** *** Re-encoding what was accepted *)
  Lemma be_rev l : be_value l = chunks_value (rev l).
  Proof.
    unfold be_value, chunks_value. rewrite <- fold_left_rev_right with (f := fun b acc => (256 * acc + b)%N).
    generalize (rev l). intros m. induction m as [|b m IH]; [reflexivity|]. cbn [fold_right]. rewrite IH. change (2 ^ 8)%N with 256%N. lia.
  Qed.
  Lemma le_rev X : octets X -> le (length X) (be_value X) = rev X.
  Proof. intros H. rewrite be_rev, <- rev_length. apply le_chunks, Forall_rev', H. Qed.
  Lemma be_bound X : octets X -> (be_value X < 256 ^ N.of_nat (length X))%N.
  Proof. intros H. rewrite be_rev, <- rev_length. apply chunks_bound, Forall_rev', H. Qed.
  Lemma be_app X Y : be_value (X ++ Y) = (be_value X * 256 ^ N.of_nat (length Y) + be_value Y)%N.
  Proof. rewrite !be_rev, rev_app_distr, chunks_app, rev_length. lia. Qed.
  Lemma be_cons b X : be_value (b :: X) = (b * 256 ^ N.of_nat (length X) + be_value X)%N.
  Proof. change (b :: X) with ([b] ++ X). rewrite be_app. reflexivity. Qed.
  Lemma pow_381 : (32 * 256 ^ N.of_nat 47 = 2 ^ 381)%N.
  Proof. vm_compute. reflexivity. Qed.

  (** a string cut into its first octet and the rest *)
  Lemma first_octet a : byte a -> exists m b, In m flags /\ (b < 32)%N /\ N.land a 0xE0 = m /\ N.land a 0x1F = b /\ N.lor b m = a /\ a = (b + m)%N.
  Proof.
    intros H. destruct (flag_split a H) as (I & L & E). exists (N.land a 0xE0), (N.land a 0x1F). repeat split; auto.
    destruct (flag_or _ _ L I) as (_ & _ & S & _). rewrite <- S. symmetry. exact E.
  Qed.
  Lemma flags_cases m : In m flags -> m_byte_valid m = true -> m = 0%N \/ m = 0x40%N \/ m = 0x80%N \/ m = 0xA0%N \/ m = 0xC0%N.
  Proof. clear. cbn. intros [<-|[<-|[<-|[<-|[<-|[<-|[<-|[<-|[]]]]]]]]]; cbn; intros H; try discriminate H; tauto. Qed.
  (** masking the head of the leading piece *)
  Lemma head_mod a b m A : length A = 47%nat -> octets A -> (b < 32)%N -> In m flags -> a = (b + m)%N ->
    (be_value (a :: A) mod 2 ^ 381 = be_value (b :: A) /\ be_value (b :: A) < 2 ^ 381)%N.
  Proof.
    intros L O B M ->. assert (H := be_bound A O). rewrite !be_cons, L in *. rewrite <- pow_381. set (P := (256 ^ N.of_nat 47)%N) in *.
    assert (U : (b * P + be_value A < 32 * P)%N) by nia. split; [|exact U].
    assert (exists k, m = 32 * k)%N as [k ->].
    { revert M. clear. cbn. intros [<-|[<-|[<-|[<-|[<-|[<-|[<-|[<-|[]]]]]]]]];
        [exists 0%N|exists 1%N|exists 2%N|exists 3%N|exists 4%N|exists 5%N|exists 6%N|exists 7%N]; reflexivity. }
    replace ((b + 32 * k) * P + be_value A)%N with (b * P + be_value A + k * (32 * P))%N by lia.
    rewrite N.mod_add by (assert (X := pow256_pos 47); fold P in X; lia). apply N.mod_small, U.
  Qed.
  Lemma fp_int_canon v : (v < Z.to_N p)%N -> iv (int_fp p v) = v.
  Proof. intros H. apply fp_int_int. lia. Qed.
  Lemma be_zero X : octets X -> be_value X = 0%N -> X = repeat 0%N (length X).
  Proof.
    intros H E. rewrite <- (rev_involutive X) at 1. rewrite <- (le_rev X H), E, le_0, rev_repeat. reflexivity.
  Qed.
  (** the infinity case: only the flag bits are set *)
  Lemma inf_canon a b m T : octets T -> (b < 32)%N -> In m flags -> a = (b + m)%N ->
    (be_value (a :: T) mod (32 * 256 ^ N.of_nat (length T)) = 0)%N -> b = 0%N /\ T = repeat 0%N (length T).
  Proof.
    intros O B M -> H. assert (L := be_bound T O). rewrite be_cons in H. set (P := (256 ^ N.of_nat (length T))%N) in *.
    assert (PP : (0 < P)%N) by apply pow256_pos.
    assert (exists k, m = 32 * k)%N as [k ->].
    { revert M. clear. cbn. intros [<-|[<-|[<-|[<-|[<-|[<-|[<-|[<-|[]]]]]]]]];
        [exists 0%N|exists 1%N|exists 2%N|exists 3%N|exists 4%N|exists 5%N|exists 6%N|exists 7%N]; reflexivity. }
    replace ((b + 32 * k) * P + be_value T)%N with (b * P + be_value T + k * (32 * P))%N in H by lia.
    rewrite N.mod_add in H by lia. rewrite N.mod_small in H by nia. split; [nia|]. apply be_zero; [exact O|nia].
  Qed.
  Lemma flag6 a b m T : (b < 32)%N -> In m flags -> a = (b + m)%N -> flag 6 (a :: T) = has m I_bit.
  Proof.
    intros B M ->. cbn [flag]. assert (IB := in_range 32 b B).
    assert (C : forallb (fun b => forallb (fun m => Bool.eqb (N.testbit (b + m) 6) (has m I_bit)) flags) (range 32) = true) by (vm_compute; reflexivity).
    rewrite forallb_forall in C. specialize (C b IB). rewrite forallb_forall in C. specialize (C m M). apply eqb_prop, C.
  Qed.
  Lemma mark_of b m A lo : N.lor b m = (b + m)%N -> mark m (lo ++ rev (b :: A)) = ((b + m)%N :: A) ++ rev lo.
  Proof. intros E. unfold mark. rewrite rev_app_distr, rev_involutive. cbn [app map_first]. rewrite E. reflexivity. Qed.
  Lemma sign_pick (F : FieldOps) (sign : F -> bool) r s : (sign (- r) = negb (sign r)) ->
    sign (if Bool.eqb (sign r) s then r else - r) = s.
  Proof. intros H. destruct (Bool.eqb (sign r) s) eqn:E; [apply eqb_prop, E|]. rewrite H. destruct (sign r), s; cbn in *; congruence. Qed.

  (** the value of an encoding, and that it consists of octets *)
  Lemma be_mark m lo v : In m flags -> octets lo -> (v < 32 * 256 ^ N.of_nat 47)%N ->
    length (mark m (lo ++ le 48 v)) = (48 + length lo)%nat /\ octets (mark m (lo ++ le 48 v)) /\
    (be_value (mark m (lo ++ le 48 v)) = m * 256 ^ N.of_nat (47 + length lo) + v * 256 ^ N.of_nat (length lo) + chunks_value lo)%N.
  Proof.
    intros M O H. destruct (le48_top v H) as (b & B & E). destruct (flag_or b m B M) as (_ & _ & S & Y).
    assert (L48 : (32 * 256 ^ N.of_nat 47 < 256 ^ N.of_nat 48)%N) by (vm_compute; reflexivity).
    assert (EV := chunks_le 48 v (N.lt_trans _ _ _ H L48)). rewrite E, chunks_app, le_length in EV.
    rewrite E. unfold mark. rewrite app_assoc, rev_app_distr. cbn [rev app map_first]. rewrite S.
    assert (LR : length (rev (lo ++ le 47 v)) = (47 + length lo)%nat) by (rewrite rev_length, app_length, le_length; lia).
    cbn [length]. rewrite LR. split; [lia|]. split; [constructor; [exact Y|apply Forall_rev', Forall_app; split; [exact O|apply le_bytes]]|].
    rewrite be_cons, LR, be_rev, rev_involutive, chunks_app. revert EV. generalize (chunks_value (le 47 v)). intros V EV. rewrite <- EV. cbn [chunks_value fold_right].
    rewrite Nat2N.inj_add, N.pow_add_r. set (Q := (256 ^ N.of_nat 47)%N). set (W := (256 ^ N.of_nat (length lo))%N).
    ring.
  Qed.
  Lemma sign_larger y : sign_gf_p p y = true <-> Z.lt (zval (- y)) (zval y).
  Proof.
    rewrite sign_spec. destruct (feq_dec K (FieldLaws_Ring K KL) y 0) as [->|N].
    - assert (E : zval (0 : K) = 0%Z) by (change (zval (0 : K)) with (0 mod p)%Z; apply Z.mod_0_l; lia).
      replace (- (0 : K)) with (0 : K) by ring. rewrite E. lia.
    - rewrite (zval_opp y N). assert (O := odd_p). assert (D := Z.div_mod p 2). lia.
  Qed.
  Lemma sign2_lex (y : K2) : sign_gf_p2 p nr y =
    ((zval (q1 (fopp y)) <? zval (q1 y)) || ((zval (q1 (fopp y)) =? zval (q1 y)) && (zval (q0 (fopp y)) <? zval (q0 y))))%Z.
  Proof.
    destruct y as [a b]. unfold sign_gf_p2. change (q1 (- (mkq a b : K2))) with (- b). change (q0 (- (mkq a b : K2))) with (- a). cbn [q0 q1].
    assert (SA : sign_gf_p p a = (zval (fopp a) <? zval a)%Z) by (apply eq_true_iff_eq; rewrite Z.ltb_lt; apply sign_larger).
    assert (SB : sign_gf_p p b = (zval (fopp b) <? zval b)%Z) by (apply eq_true_iff_eq; rewrite Z.ltb_lt; apply sign_larger).
    destruct (b =? tozp p 0) eqn:E.
    - apply eqb_0 in E. subst b. replace (- (0 : K)) with (0 : K) by ring. rewrite Z.ltb_irrefl, Z.eqb_refl. exact SA.
    - assert (B : b <> 0) by (intros H; apply eqb_0 in H; congruence). rewrite <- SB.
      assert (N : (zval (fopp b) =? zval b)%Z = false).
      { apply Z.eqb_neq. rewrite (zval_opp b B). intros X. assert (O := odd_p). replace p with (zval b * 2)%Z in O by lia. rewrite Z.mod_mul in O by lia. discriminate O. }
      rewrite N. cbn [andb]. rewrite orb_false_r. reflexivity.
  Qed.
  Lemma cut2 (T : list N) i j : length T = (i + j)%nat -> exists A Y, T = A ++ Y /\ length A = i /\ length Y = j.
  Proof.
    intros L. exists (firstn i T), (skipn i T). rewrite firstn_skipn, firstn_length, skipn_length. repeat split; lia.
  Qed.
  Lemma firstn_rev48 (Y : list N) r : length Y = 48%nat -> firstn 48 (rev Y ++ r) = rev Y.
  Proof. intros L. assert (E := firstn_app_l (rev Y) r). rewrite rev_length, L in E. exact E. Qed.
  Lemma skipn_rev48 (Y : list N) r : length Y = 48%nat -> skipn 48 (rev Y ++ r) = r.
  Proof. intros L. assert (E := skipn_app_l (rev Y) r 0). rewrite rev_length, L in E. exact E. Qed.
  Lemma skipn_skipn' (l : list N) i j : skipn j (skipn i l) = skipn (i + j) l.
  Proof. revert l. induction i as [|i IH]; intros l; [reflexivity|]. destruct l as [|x l]; cbn [skipn Nat.add]; [destruct j; reflexivity|apply IH]. Qed.
  Lemma eq_refl_S {n m : nat} : n = m -> S n = S m.
  Proof. congruence. Qed.
  Lemma piece_0 A Y : length A = 48%nat -> piece 0 (A ++ Y) = be_value A.
  Proof. intros L. unfold piece. rewrite Nat.mul_0_r, skipn_O. assert (E := firstn_app_l A Y). rewrite L in E. rewrite E. reflexivity. Qed.
  Lemma piece_S k A Y : length A = 48%nat -> piece (S k) (A ++ Y) = piece k Y.
  Proof.
    intros L. unfold piece. replace (48 * S k)%nat with (length A + 48 * k)%nat by lia. rewrite skipn_app_l. reflexivity.
  Qed.
  Lemma piece_1 A Y Z0 : length A = 48%nat -> length Y = 48%nat -> piece 1 (A ++ Y ++ Z0) = be_value Y.
  Proof. intros L1 L2. rewrite piece_S by exact L1. apply piece_0, L2. Qed.
  Lemma piece_last1 A Y : length A = 48%nat -> length Y = 48%nat -> piece 1 (A ++ Y) = be_value Y.
  Proof. intros L1 L2. rewrite piece_S by exact L1. rewrite <- (app_nil_r Y) at 1. apply piece_0, L2. Qed.
  Lemma p_lt v : (v < Z.to_N p)%N -> (v < 2 ^ 381)%N.
  Proof. intros H. apply N2Z.inj_lt. change (Z.of_N (2 ^ 381)) with (2 ^ 381)%Z. lia. Qed.

  Section Accepted1.
    Hypothesis NO2 : forall x : K, x * x * x + b1 <> 0.
    Hypothesis B4 : b1 = fp_of_int p 4.
    Lemma accepted_g1_compressed o t : octets o -> length o = 48%nat -> dec1 o = Some t ->
      exists P, on_curve K 0 b1 P /\ rep_jacobian (tX t) (tY t) (tZ t) P /\ (canonical (Z.to_N p) 1 o -> g1_compress p zx1 zy1 t = o).
    Proof.
      intros O L D. destruct o as [|a A]; [discriminate L|].
      assert (H1 := Forall_inv O). assert (H2 := Forall_inv_tail O). injection L as L.
      destruct (first_octet a H1) as (m & b & M & B & E1 & E2 & E3 & E4).
      unfold octets_to_g1 in D. cbn [m_byte_of map_first] in D. rewrite E1, E2 in D.
      destruct (m_byte_valid m) eqn:V; [|discriminate D]. cbn [check] in D.
      destruct (head_mod a b m A L H2 B M E4) as [HM HB].
      assert (OB : octets (b :: A)) by (constructor; [apply N.lt_trans with 32%N; [exact B|reflexivity]|exact H2]).
      assert (C : m = 0x80%N \/ m = 0xA0%N \/ m = 0xC0%N).
      { destruct (flags_cases m M V) as [->|[->|[->|[->| ->]]]]; try tauto; exfalso; cbn [has] in D;
          unfold uncompressed_to_g1 in D; cbn [length] in D; rewrite L in D; discriminate D. }
      assert (HC : has m C_bit = true) by (destruct C as [->|[->| ->]]; reflexivity). rewrite HC in D.
      unfold compressed_to_g1 in D. cbn [length] in D. rewrite L in D. cbn [Nat.eqb sizeof_field_element check] in D.
      unfold canonical. rewrite (flag6 a b m A B M E4).
      destruct (has m I_bit) eqn:HI.
      - assert (m = 0xC0%N) as -> by (destruct C as [->|[->| ->]]; [discriminate HI|discriminate HI|reflexivity]).
        destruct (no_octet_one (b :: A)); [|discriminate D]. injection D as <-. exists Inf. split; [exact I|]. split; [reflexivity|].
        intros H. rewrite (g1_compress_inf (trip_zero K zx1 zy1) eq_refl).
        change (2 ^ (384 * N.of_nat 1 - 3))%N with (2 ^ 381)%N in H. rewrite <- pow_381, <- L in H.
        destruct (inf_canon a b 0xC0 A H2 B M E4 H) as [-> ->]. rewrite E4, L. reflexivity.
      - unfold import_bits in D. rewrite <- be_rev, (FIT _ HB) in D. set (v := be_value (b :: A)) in *.
        rewrite pow3, <- B4 in D. set (x := int_fp p v) in *.
        destruct (sq1 (x * x * x + b1)); [|discriminate D]. cbn [check] in D.
        destruct (root1 (x * x * x + b1)) as [r|]; [|discriminate D].
        set (y := if Bool.eqb (sign_gf_p p r) (has m S_bit) then r else - r).
        assert (DY : jac0_is_well_formed K b1 (mkT x y 1) = true /\ t = mkT x y 1).
        { unfold y. destruct (Bool.eqb (sign_gf_p p r) (has m S_bit));
            (match type of D with check ?c _ = _ => destruct c; [|discriminate D] end; injection D as <-; auto). }
        destruct DY as [W ->]. apply (wf_1 K KL) in W.
        exists (Aff x y). split; [apply (on0 K KL), W|]. split; [apply (jac_of_affine K KL)|].
        intros [H _]. rewrite (g1_compress_aff (mkT x y 1) x y (jac_of_affine K KL x y)).
        assert (F48 : firstn 48 (skipn (48 * 0) (a :: A)) = a :: A) by (cbn [skipn Nat.mul]; apply firstn_all2; cbn [length]; lia).
        unfold piece in H. rewrite F48, HM in H. unfold x. rewrite (fp_int_canon v H).
        assert (R0 : r <> 0). { intros ->. assert (Y0 : y = 0) by (unfold y; destruct Bool.eqb; [reflexivity|ring]). rewrite Y0 in W. apply (NO2 x). rewrite <- W. ring. }
        assert (S : sign_gf_p p y = has m S_bit) by (apply sign_pick, sign_opp, R0). rewrite S.
        assert (LR := le_rev (b :: A) OB). cbn [length] in LR. rewrite L in LR. fold v in LR. rewrite LR.
        assert (MM : mflag true (has m S_bit) = m) by (destruct C as [->|[->| ->]]; [reflexivity|reflexivity|discriminate HI]). rewrite MM.
        assert (T := mark_of b m A [] (eq_trans E3 E4)). cbn [app rev] in T. rewrite app_nil_r in T. rewrite E4. exact T.
    Qed.
    Lemma accepted_g1 o t : octets o -> length o = 96%nat -> dec1 o = Some t ->
      exists P, on_curve K 0 b1 P /\ rep_jacobian (tX t) (tY t) (tZ t) P /\ (canonical (Z.to_N p) 2 o -> g1_octets p zx1 zy1 t = o).
    Proof.
      intros O L D. destruct o as [|a T]; [discriminate L|].
      assert (H1 := Forall_inv O). assert (H2 := Forall_inv_tail O). injection L as L.
      destruct (first_octet a H1) as (m & b & M & B & E1 & E2 & E3 & E4).
      unfold octets_to_g1 in D. cbn [m_byte_of map_first] in D. rewrite E1, E2 in D.
      destruct (m_byte_valid m) eqn:V; [|discriminate D]. cbn [check] in D.
      assert (C : m = 0%N \/ m = 0x40%N).
      { destruct (flags_cases m M V) as [->|[->|[->|[->| ->]]]]; try tauto; exfalso; cbn [has] in D;
          unfold compressed_to_g1 in D; cbn [length] in D; rewrite L in D; discriminate D. }
      assert (HC : has m C_bit = false) by (destruct C as [->| ->]; reflexivity). rewrite HC in D.
      unfold uncompressed_to_g1 in D. cbn [length] in D. rewrite L in D. change (Nat.eqb 96 (2 * sizeof_field_element)) with true in D. cbn [check] in D.
      unfold canonical. rewrite (flag6 a b m T B M E4).
      destruct (has m I_bit) eqn:HI.
      - assert (m = 0x40%N) as -> by (destruct C as [->| ->]; [discriminate HI|reflexivity]).
        destruct (no_octet_one (b :: T)); [|discriminate D]. injection D as <-. exists Inf. split; [exact I|]. split; [reflexivity|].
        intros H. rewrite (g1_octets_inf (trip_zero K zx1 zy1) eq_refl).
        assert (PW : (2 ^ (384 * N.of_nat 2 - 3) = 32 * 256 ^ N.of_nat 95)%N) by (vm_compute; reflexivity).
        rewrite PW, <- L in H. destruct (inf_canon a b 0x40 T H2 B M E4 H) as [-> ->]. rewrite E4, L. reflexivity.
      - assert (m = 0%N) as -> by (destruct C as [->| ->]; [reflexivity|discriminate HI]).
        destruct (cut2 T 47 48 L) as (A & Y & -> & LA & LY). apply Forall_app in H2. destruct H2 as [OA OY].
        destruct (head_mod a b 0 A LA OA B M E4) as [HM HB].
        assert (OB : octets (b :: A)) by (constructor; [apply N.lt_trans with 32%N; [exact B|reflexivity]|exact OA]).
        change (rev (b :: A ++ Y)) with (rev ((b :: A) ++ Y)) in D. rewrite rev_app_distr in D. change sizeof_field_element with 48%nat in D.
        rewrite firstn_rev48, skipn_rev48 in D by exact LY.
        unfold import_bits in D. rewrite <- !be_rev, (FIT _ HB) in D. set (v := be_value (b :: A)) in *. set (x := int_fp p v) in *.
        set (y := int_fp p (fit (be_value Y))) in *. destruct (jac0_is_well_formed K b1 (mkT x y 1)) eqn:W; [|discriminate D].
        assert (DT : t = mkT x y 1) by (cbn [check] in D; congruence). rewrite DT. apply (wf_1 K KL) in W. exists (Aff x y). split; [apply (on0 K KL), W|]. split; [apply (jac_of_affine K KL)|].
        intros [HX HK]. rewrite (g1_octets_aff (mkT x y 1) x y (jac_of_affine K KL x y)).
        assert (P0 : piece 0 (a :: A ++ Y) = be_value (a :: A)) by exact (piece_0 (a :: A) Y (eq_refl_S LA)).
        assert (P1 : piece 1 (a :: A ++ Y) = be_value Y) by exact (piece_last1 (a :: A) Y (eq_refl_S LA) LY).
        rewrite P0, HM in HX. assert (HY := HK 1%nat (ltac:(lia))). rewrite P1 in HY. unfold x. rewrite (fp_int_canon v HX).
        unfold y. rewrite FIT by (apply p_lt; exact HY). rewrite (fp_int_canon _ HY).
        assert (LR := le_rev (b :: A) OB). cbn [length] in LR. rewrite LA in LR. fold v in LR. rewrite LR.
        assert (LR2 := le_rev Y OY). rewrite LY in LR2. rewrite LR2. change (mflag false false) with 0%N.
        rewrite (mark_of b 0 A (rev Y) (eq_trans E3 E4)), rev_involutive, E4. reflexivity.
    Qed.
  End Accepted1.
  Section Accepted2.
    Hypothesis NO2 : forall x : K2, x * x * x + b2 <> 0.
    Hypothesis B4 : b2 = (mkq (fp_of_int p 4) (fp_of_int p 4) : K2).
    Lemma accepted_g2_compressed o t : octets o -> length o = 96%nat -> dec2 o = Some t ->
      exists P, on_curve K2 0 b2 P /\ rep_jacobian (tX t) (tY t) (tZ t) P /\ (canonical (Z.to_N p) 2 o -> g2_compress p nr zx2 zy2 t = o).
    Proof.
      intros O L D. destruct o as [|a T]; [discriminate L|].
      assert (H1 := Forall_inv O). assert (H2 := Forall_inv_tail O). injection L as L.
      destruct (first_octet a H1) as (m & b & M & B & E1 & E2 & E3 & E4).
      unfold octets_to_g2 in D. cbn [m_byte_of map_first] in D. rewrite E1, E2 in D.
      destruct (m_byte_valid m) eqn:V; [|discriminate D]. cbn [check] in D.
      assert (C : m = 0x80%N \/ m = 0xA0%N \/ m = 0xC0%N).
      { destruct (flags_cases m M V) as [->|[->|[->|[->| ->]]]]; try tauto; exfalso; cbn [has] in D;
          unfold uncompressed_to_g2 in D; cbn [length] in D; rewrite L in D; discriminate D. }
      assert (HC : has m C_bit = true) by (destruct C as [->|[->| ->]]; reflexivity). rewrite HC in D.
      unfold compressed_to_g2 in D. cbn [length] in D. rewrite L in D. change (Nat.eqb 96 (2 * sizeof_field_element)) with true in D. cbn [check] in D.
      unfold canonical. rewrite (flag6 a b m T B M E4).
      destruct (has m I_bit) eqn:HI.
      - assert (m = 0xC0%N) as -> by (destruct C as [->|[->| ->]]; [discriminate HI|discriminate HI|reflexivity]).
        destruct (no_octet_one (b :: T)); [|discriminate D]. injection D as <-. exists Inf. split; [exact I|]. split; [reflexivity|].
        intros H. rewrite (g2_compress_inf (trip_zero K2 zx2 zy2) eq_refl).
        assert (PW : (2 ^ (384 * N.of_nat 2 - 3) = 32 * 256 ^ N.of_nat 95)%N) by (vm_compute; reflexivity).
        rewrite PW, <- L in H. destruct (inf_canon a b 0xC0 T H2 B M E4 H) as [-> ->]. rewrite E4, L. reflexivity.
      - destruct (cut2 T 47 48 L) as (A & X0 & -> & LA & LX). apply Forall_app in H2. destruct H2 as [OA OX].
        destruct (head_mod a b m A LA OA B M E4) as [HM HB].
        assert (OB : octets (b :: A)) by (constructor; [apply N.lt_trans with 32%N; [exact B|reflexivity]|exact OA]).
        change (rev (b :: A ++ X0)) with (rev ((b :: A) ++ X0)) in D. rewrite rev_app_distr in D. change sizeof_field_element with 48%nat in D.
        rewrite firstn_rev48, skipn_rev48 in D by exact LX.
        unfold import_bits in D. rewrite <- !be_rev, (FIT _ HB) in D. set (v := be_value (b :: A)) in *.
        set (x := mkq (int_fp p (fit (be_value X0))) (int_fp p v) : K2) in *.
        rewrite pow3_2, <- B4 in D. destruct (sq2 (x * x * x + b2)); [|discriminate D]. cbn [check] in D.
        destruct (root2 (x * x * x + b2)) as [r|]; [|discriminate D].
        set (y := if Bool.eqb (sign_gf_p2 p nr r) (has m S_bit) then r else - r).
        assert (DY : jac0_is_well_formed K2 b2 (mkT x y 1) = true /\ t = mkT x y 1).
        { unfold y. destruct (Bool.eqb (sign_gf_p2 p nr r) (has m S_bit));
            (match type of D with check ?c _ = _ => destruct c; [|discriminate D] end; injection D as <-; auto). }
        destruct DY as [W ->]. apply (wf_1 K2 K2L) in W.
        exists (Aff x y). split; [apply (on0 K2 K2L), W|]. split; [apply (jac_of_affine K2 K2L)|].
        intros [HX HK]. rewrite (g2_compress_aff (mkT x y 1) x y (jac_of_affine K2 K2L x y)).
        assert (P0 : piece 0 (a :: A ++ X0) = be_value (a :: A)) by exact (piece_0 (a :: A) X0 (eq_refl_S LA)).
        assert (P1 : piece 1 (a :: A ++ X0) = be_value X0) by exact (piece_last1 (a :: A) X0 (eq_refl_S LA) LX).
        rewrite P0, HM in HX. assert (HY := HK 1%nat (ltac:(lia))). rewrite P1 in HY. unfold x at 1 2. cbn [q0 q1]. rewrite (fp_int_canon v HX).
        rewrite FIT by (apply p_lt; exact HY). rewrite (fp_int_canon _ HY).
        assert (R0 : r <> 0). { intros E. assert (Y0 : y = 0) by (unfold y; rewrite E; destruct (Bool.eqb (sign_gf_p2 p nr 0) (has m S_bit)); [reflexivity|ring]). rewrite Y0 in W. apply (NO2 x). rewrite <- W. ring. }
        assert (S : sign_gf_p2 p nr y = has m S_bit) by (apply sign_pick, sign2_opp, R0). rewrite S.
        assert (LR := le_rev (b :: A) OB). cbn [length] in LR. rewrite LA in LR. fold v in LR. rewrite LR.
        assert (LR2 := le_rev X0 OX). rewrite LX in LR2. rewrite LR2.
        assert (MM : mflag true (has m S_bit) = m) by (destruct C as [->|[->| ->]]; [reflexivity|reflexivity|discriminate HI]). rewrite MM.
        rewrite (mark_of b m A (rev X0) (eq_trans E3 E4)), rev_involutive, E4. reflexivity.
    Qed.
    Lemma accepted_g2 o t : octets o -> length o = 192%nat -> dec2 o = Some t ->
      exists P, on_curve K2 0 b2 P /\ rep_jacobian (tX t) (tY t) (tZ t) P /\ (canonical (Z.to_N p) 4 o -> g2_octets p nr zx2 zy2 t = o).
    Proof.
      intros O L D. destruct o as [|a T]; [discriminate L|].
      assert (H1 := Forall_inv O). assert (H2 := Forall_inv_tail O). injection L as L.
      destruct (first_octet a H1) as (m & b & M & B & E1 & E2 & E3 & E4).
      unfold octets_to_g2 in D. cbn [m_byte_of map_first] in D. rewrite E1, E2 in D.
      destruct (m_byte_valid m) eqn:V; [|discriminate D]. cbn [check] in D.
      assert (C : m = 0%N \/ m = 0x40%N).
      { destruct (flags_cases m M V) as [->|[->|[->|[->| ->]]]]; try tauto; exfalso; cbn [has] in D;
          unfold compressed_to_g2 in D; cbn [length] in D; rewrite L in D; discriminate D. }
      assert (HC : has m C_bit = false) by (destruct C as [->| ->]; reflexivity). rewrite HC in D.
      unfold uncompressed_to_g2 in D. cbn [length] in D. rewrite L in D. change (Nat.eqb 192 (4 * sizeof_field_element)) with true in D. cbn [check] in D.
      unfold canonical. rewrite (flag6 a b m T B M E4).
      destruct (has m I_bit) eqn:HI.
      - assert (m = 0x40%N) as -> by (destruct C as [->| ->]; [discriminate HI|reflexivity]).
        destruct (no_octet_one (b :: T)); [|discriminate D]. injection D as <-. exists Inf. split; [exact I|]. split; [reflexivity|].
        intros H. rewrite (g2_octets_inf (trip_zero K2 zx2 zy2) eq_refl).
        assert (PW : (2 ^ (384 * N.of_nat 4 - 3) = 32 * 256 ^ N.of_nat 191)%N) by (vm_compute; reflexivity).
        rewrite PW, <- L in H. destruct (inf_canon a b 0x40 T H2 B M E4 H) as [-> ->]. rewrite E4, L. reflexivity.
      - assert (m = 0%N) as -> by (destruct C as [->| ->]; [reflexivity|discriminate HI]).
        destruct (cut2 T 47 144 L) as (A & T1 & -> & LA & L1). apply Forall_app in H2. destruct H2 as [OA OT].
        destruct (cut2 T1 48 96 L1) as (X0 & T2 & -> & LX & L2). apply Forall_app in OT. destruct OT as [OX OT].
        destruct (cut2 T2 48 48 L2) as (Y1 & Y0 & -> & LY1 & LY0). apply Forall_app in OT. destruct OT as [OY1 OY0].
        destruct (head_mod a b 0 A LA OA B M E4) as [HM HB].
        assert (OB : octets (b :: A)) by (constructor; [apply N.lt_trans with 32%N; [exact B|reflexivity]|exact OA]).
        change (rev (b :: A ++ X0 ++ Y1 ++ Y0)) with (rev ((b :: A) ++ X0 ++ Y1 ++ Y0)) in D. rewrite !rev_app_distr, <- !app_assoc in D.
        change sizeof_field_element with 48%nat in D. cbv zeta in D.
        assert (S2 : forall r : list N, skipn (2 * 48) (rev Y0 ++ rev Y1 ++ r) = r).
        { intros r. change (2 * 48)%nat with (48 + 48)%nat. rewrite <- skipn_skipn'. rewrite !skipn_rev48 by assumption. reflexivity. }
        assert (S3 : forall r : list N, skipn (3 * 48) (rev Y0 ++ rev Y1 ++ rev X0 ++ r) = r).
        { intros r. change (3 * 48)%nat with (2 * 48 + 48)%nat. rewrite <- skipn_skipn', S2. apply skipn_rev48, LX. }
        rewrite S2, S3, firstn_rev48, (skipn_rev48 Y0), firstn_rev48, firstn_rev48 in D by assumption.
        unfold import_bits in D. rewrite <- !be_rev, (FIT _ HB) in D. set (v := be_value (b :: A)) in *.
        set (x := mkq (int_fp p (fit (be_value X0))) (int_fp p v) : K2) in *.
        set (y := mkq (int_fp p (fit (be_value Y0))) (int_fp p (fit (be_value Y1))) : K2) in *.
        destruct (jac0_is_well_formed K2 b2 (mkT x y 1)) eqn:W; [|discriminate D].
        assert (DT : t = mkT x y 1) by (cbn [check] in D; congruence). rewrite DT. apply (wf_1 K2 K2L) in W. exists (Aff x y). split; [apply (on0 K2 K2L), W|]. split; [apply (jac_of_affine K2 K2L)|].
        intros [HX HK]. rewrite (g2_octets_aff (mkT x y 1) x y (jac_of_affine K2 K2L x y)).
        assert (P0 : piece 0 (a :: A ++ X0 ++ Y1 ++ Y0) = be_value (a :: A)) by exact (piece_0 (a :: A) _ (eq_refl_S LA)).
        assert (P1 : piece 1 (a :: A ++ X0 ++ Y1 ++ Y0) = be_value X0) by exact (piece_1 (a :: A) X0 _ (eq_refl_S LA) LX).
        assert (P2 : piece 2 (a :: A ++ X0 ++ Y1 ++ Y0) = be_value Y1) by exact (eq_trans (piece_S 1 (a :: A) _ (eq_refl_S LA)) (piece_1 X0 Y1 _ LX LY1)).
        assert (P3 : piece 3 (a :: A ++ X0 ++ Y1 ++ Y0) = be_value Y0) by exact (eq_trans (piece_S 2 (a :: A) _ (eq_refl_S LA)) (eq_trans (piece_S 1 X0 _ LX) (piece_last1 Y1 Y0 LY1 LY0))).
        rewrite P0, HM in HX. assert (K1 := HK 1%nat (ltac:(lia))). assert (K2' := HK 2%nat (ltac:(lia))). assert (K3 := HK 3%nat (ltac:(lia))).
        rewrite P1 in K1. rewrite P2 in K2'. rewrite P3 in K3. unfold x, y. cbn [q0 q1]. rewrite (fp_int_canon v HX).
        rewrite !FIT by (apply p_lt; assumption). rewrite !fp_int_canon by assumption.
        assert (LR := le_rev (b :: A) OB). cbn [length] in LR. rewrite LA in LR. fold v in LR. rewrite LR.
        assert (LRX := le_rev X0 OX). rewrite LX in LRX. rewrite LRX.
        assert (LR0 := le_rev Y0 OY0). rewrite LY0 in LR0. rewrite LR0.
        assert (LR1 := le_rev Y1 OY1). rewrite LY1 in LR1. rewrite LR1. change (mflag false false) with 0%N.
        rewrite !app_assoc. rewrite (mark_of b 0 A _ (eq_trans E3 E4)), !rev_app_distr, !rev_involutive, E4. cbn [app]. rewrite <- !app_assoc. reflexivity.
    Qed.
  End Accepted2.
End Z.
