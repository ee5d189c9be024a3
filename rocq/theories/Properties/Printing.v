(** C70, C71: operator<< of the element classes. *)
From Coq Require Import ZArith NArith List String Ascii Bool.
From Verif Require Import Base.Field Base.Zp Base.Ext Spec.Json Model.ShortWeierstrass Model.Edwards Model.Montgomery Model.Pairing
  Model.Printing Proof.Json.
Import ListNotations.
Local Open Scope string_scope.

(** the printing functions of the towers *)
Definition show_fp2 (p : Z) := show_quad (@show_fp p).
Definition show_fp3 (p : Z) := show_cub (@show_fp p).
Definition show_fp4 (p : Z) := show_quad (show_fp2 p).
Definition show_fp6_3over2 (p : Z) := show_cub (show_fp2 p).
Definition show_fp6_2over3 (p : Z) := show_quad (show_fp3 p).
Definition show_fp12 (p : Z) := show_quad (show_fp6_3over2 p).

(** ** C70.  The text identifies the element: different elements are printed differently *)
Definition injective {A : Type} (show : A -> string) : Prop := forall x y, show x = show y -> x = y.
Theorem C70_fields p : (0 < p)%Z -> injective (@show_fp p) /\ injective (show_fp2 p) /\ injective (show_fp3 p) /\ injective (show_fp4 p) /\
  injective (show_fp6_3over2 p) /\ injective (show_fp6_2over3 p) /\ injective (show_fp12 p).
Proof.
  intros P. assert (R := readable_fp p P).
  assert (R2 := readable_quad _ R). assert (R3 := readable_cub _ R).
  repeat split; intros x y; apply readable_inj; unfold show_fp12, show_fp6_2over3, show_fp6_3over2, show_fp4, show_fp3, show_fp2;
    repeat first [apply readable_quad | apply readable_cub | exact R].
Qed.
Print Assumptions C70_fields.
(** points with coordinates in a prime field, or in fp2 or fp3 (the G2 groups), whose text can be read off *)
Theorem C70_curves (K : FieldOps) (show : K -> string) : readable show ->
  injective (show_affine K show) /\ injective (show_te_affine K show) /\ injective (show_triple K show) /\
  injective (show_jacobian_a4 K show) /\ injective (show_inverted K show) /\ injective (show_extended K show).
Proof.
  intros R. repeat split; intros P Q.
  - now apply read_affine.
  - now apply read_te_affine.
  - now apply read_triple.
  - now apply read_jacobian_a4.
  - now apply read_inverted.
  - now apply read_extended.
Qed.
Print Assumptions C70_curves.
Theorem C70_readable p : (0 < p)%Z -> readable (@show_fp p) /\ readable (show_fp2 p) /\ readable (show_fp3 p).
Proof. intros P. assert (R := readable_fp p P). split; [exact R | split; [exact (readable_quad _ R) | exact (readable_cub _ R)]]. Qed.
Print Assumptions C70_readable.
(** Montgomery points: the identity is printed as the finite point with the coordinates it
    happens to hold, for (0, 0) the point of order 2 of every Montgomery curve *)
Theorem C70_montgomery_refuted (K : FieldOps) (show : K -> string) (x y : K) :
  show_mont K show (mont_zero x y) = show_mont K show (mont_of x y) /\ mont_zero x y <> mont_of x y /\
  mont_is_zero (mont_zero x y) = true /\ mont_is_zero (mont_of x y) = false.
Proof. repeat split; try reflexivity. discriminate. Qed.
Print Assumptions C70_montgomery_refuted.
Theorem C70_montgomery_partial (K : FieldOps) (show : K -> string) P Q : readable show ->
  show_mont K show P = show_mont K show Q -> mont_is_zero P = mont_is_zero Q -> P = Q.
Proof.
  intros R E I. destruct (read_mont K show R P Q E) as [X Y]. destruct P, Q. cbn in *. now subst.
Qed.
Print Assumptions C70_montgomery_partial.
Example C70_hypotheses : (0 < 7)%Z /\ readable (show_fp2 7) /\ show_fp2 7 (mkq (tozp 7 3) (tozp 7 5)) = "[3,5]" /\
  show_fp12 7 (mkq (mkc (mkq (tozp 7 1) (tozp 7 2)) (mkq (tozp 7 3) (tozp 7 4)) (mkq (tozp 7 5) (tozp 7 6)))
                   (mkc (mkq (tozp 7 6) (tozp 7 5)) (mkq (tozp 7 4) (tozp 7 3)) (mkq (tozp 7 2) (tozp 7 1))))
  = "[[[1,2],[3,4],[5,6]],[[6,5],[4,3],[2,1]]]" /\
  show_extended (Zp 7) (@show_fp 7) (mkX (tozp 7 3 : Zp 7) (tozp 7 5) (tozp 7 1) (tozp 7 2)) = "{""X"":3,""Y"":5,""T"":1,""Z"":2}" /\
  show_mont (Zp 7) (@show_fp 7) (mont_of (tozp 7 3 : Zp 7) (tozp 7 5)) = "{""X"":3,""Y"":5}".
Proof. split; [reflexivity|]. split; [apply C70_readable; reflexivity|]. repeat split. Qed.

(** ** C71.  The text is a JSON document: the decimal number, an array of the coefficients, an object with
    one member per coordinate *)
Definition fp_json (p : Z) (x : zp p) : json -> Prop := decimal (Z.to_N (zval x)).
Theorem C71_fp p : shows (@show_fp p) (fp_json p).
Proof. exact (shows_fp p). Qed.
Print Assumptions C71_fp.
Theorem C71_extensions (A : Type) (show : A -> string) (den : A -> json -> Prop) : shows show den ->
  shows (show_quad show) (fun x j => exists j0 j1, den (q0 x) j0 /\ den (q1 x) j1 /\ j = Arr [j0; j1]) /\
  shows (show_cub show) (fun x j => exists j0 j1 j2, den (c0 x) j0 /\ den (c1 x) j1 /\ den (c2 x) j2 /\ j = Arr [j0; j1; j2]).
Proof. intros S. split; [exact (shows_quad show den S) | exact (shows_cub show den S)]. Qed.
Print Assumptions C71_extensions.
Theorem C71_points (K : FieldOps) (show : K -> string) (den : K -> json -> Prop) : shows show den ->
  shows (show_affine K show) (fun P => object_of den [("X", aX P); ("Y", aY P)]) /\
  shows (show_te_affine K show) (fun P => object_of den [("X", Edwards.eX P); ("Y", eY P)]) /\
  shows (show_mont K show) (fun P => object_of den [("X", mX P); ("Y", mY P)]) /\
  shows (show_triple K show) (fun P => object_of den [("X", tX P); ("Y", tY P); ("Z", tZ P)]) /\
  shows (show_inverted K show) (fun P => object_of den [("X", iX P); ("Y", iY P); ("Z", iZ P)]) /\
  shows (show_extended K show) (fun P => object_of den [("X", xX P); ("Y", xY P); ("T", xT P); ("Z", xZ P)]).
Proof.
  intros S.
  assert (two : forall x y, exists j, object_of den [("X", x); ("Y", y)] j /\
    text j ("{""X"":" ++ show x ++ ",""Y"":" ++ show y ++ "}")).
  { intros x y. destruct (S x) as (jx & Dx & Tx), (S y) as (jy & Dy & Ty). exists (Obj [("X", jx); ("Y", jy)]).
    split; [eexists; split; [reflexivity |]; repeat constructor; auto | obj]. }
  assert (three : forall x y z, exists j, object_of den [("X", x); ("Y", y); ("Z", z)] j /\
    text j ("{""X"":" ++ show x ++ ",""Y"":" ++ show y ++ ",""Z"":" ++ show z ++ "}")).
  { intros x y z. destruct (S x) as (jx & Dx & Tx), (S y) as (jy & Dy & Ty), (S z) as (jz & Dz & Tz).
    exists (Obj [("X", jx); ("Y", jy); ("Z", jz)]).
    split; [eexists; split; [reflexivity |]; repeat constructor; auto | obj]. }
  repeat split; intros P; try apply two; try apply three.
  destruct (S (xX P)) as (jx & Dx & Tx), (S (xY P)) as (jy & Dy & Ty), (S (xT P)) as (jt & Dt & Tt), (S (xZ P)) as (jz & Dz & Tz).
  exists (Obj [("X", jx); ("Y", jy); ("T", jt); ("Z", jz)]).
  split; [eexists; split; [reflexivity |]; repeat constructor; auto | unfold show_extended; obj].
Qed.
Print Assumptions C71_points.
(** jacobian_with_a4_0 (bls12, alt_bn128, secp_k1, pallas, vesta) and jacobian_with_a4_minus_3: the
    quotation marks before Y and Z are missing, so no point at all is printed as JSON *)
Theorem C71_jacobian_a4_refuted (K : FieldOps) (show : K -> string) (den : K -> json -> Prop) P j : shows show den ->
  ~ text j (show_jacobian_a4 K show P).
Proof. intros S T. exact (jacobian_a4_no_json K show (shows_text show den S) P j T). Qed.
Print Assumptions C71_jacobian_a4_refuted.
(** the precomputed values of G1 are printed as JSON objects ... *)
Theorem C71_precomputed_g1 (K F : FieldOps) (show : K -> string) (showF : F -> string) den denF : shows show den -> shows showF denF ->
  shows (show_a40_g1 K show) (fun p => object_of den [("PX", PX p); ("PY", PY p)]) /\
  shows (show_pr_g1 K F show showF) (fun p j => exists j1 j2 j3 j4, den (rPX p) j1 /\ den (rPY p) j2 /\ denF (rPX_twist p) j3 /\
    denF (rPY_twist p) j4 /\ j = Obj [("PX", j1); ("PY", j2); ("PX_twist", j3); ("PY_twist", j4)]).
Proof. exact (precomputed_g1_json K F show showF den denF). Qed.
Print Assumptions C71_precomputed_g1.
(** ... those of G2 only when they hold no coefficient: every coefficient is followed by a comma, also the last *)
Theorem C71_precomputed_g2_refuted (F : FieldOps) (showF : F -> string) (denF : F -> json -> Prop) j : shows showF denF ->
  (forall p, coeffs p <> [] -> ~ text j (show_a40_g2 F showF p)) /\
  (forall p, dbls p <> [] \/ adds p <> [] -> ~ text j (show_pr_g2 F showF p)).
Proof. exact (precomputed_g2_no_json F showF denF j). Qed.
Print Assumptions C71_precomputed_g2_refuted.
(** ... and the comma after the last coefficient is all that is wrong: with one more element written there, the text is the
    object of the members and the coefficients, in order.  Missing: the claim itself, refuted above. *)
Theorem C71_precomputed_g2_partial (F : FieldOps) (showF : F -> string) (denF : F -> json -> Prop) : shows showF denF ->
  (forall p, exists pre post jx jy js, show_a40_g2 F showF p = pre ++ post /\ denF (QX p) jx /\ denF (QY p) jy /\
    Forall2 (fun d => array_of denF [ell_0 d; ell_VW d; ell_VV d]) (coeffs p) js /\
    text (Obj [("QX", jx); ("QY", jy); ("coeffs", Arr (js ++ [Lit "null"]))]) (pre ++ "null" ++ post)) /\
  (forall p, exists s1 s2 s3 jx jy j2 jxt jyt ds aa, show_pr_g2 F showF p = s1 ++ s2 ++ s3 /\
    denF (rQX p) jx /\ denF (rQY p) jy /\ denF (rQY2 p) j2 /\ denF (rQX_over_twist p) jxt /\ denF (rQY_over_twist p) jyt /\
    Forall2 (fun d => array_of denF [c_H d; c_4C d; c_J d; c_L d]) (dbls p) ds /\
    Forall2 (fun d => array_of denF [c_L1 d; c_RZ d]) (adds p) aa /\
    text (Obj [("QX", jx); ("QY", jy); ("QY2", j2); ("QX_over_twist", jxt); ("QY_over_twist", jyt);
               ("dbl_coeffs", Arr (ds ++ [Lit "null"])); ("add_coeffs", Arr (aa ++ [Lit "null"]))]) (s1 ++ "null" ++ s2 ++ "null" ++ s3)).
Proof. intros S. split; [exact (a40_g2_completed F showF denF S) | exact (pr_g2_completed F showF denF S)]. Qed.
Print Assumptions C71_precomputed_g2_partial.
Example C71_hypotheses : let x := tozp 7 10 in show_fp x = "3" /\ show_fp2 7 (mkq x (tozp 7 12)) = "[3,5]" /\ show_fp (tozp 1009 1000) = "1000" /\
  show_triple (Zp 7) (@show_fp 7) (mkT (x : Zp 7) (tozp 7 0) (tozp 7 1)) = "{""X"":3,""Y"":0,""Z"":1}" /\
  show_jacobian_a4 (Zp 7) (@show_fp 7) (mkT (x : Zp 7) (tozp 7 0) (tozp 7 1)) = "{""X"":3,Y"":0,Z"":1}" /\
  shows (@show_fp 7) (fp_json 7) /\ readable (@show_fp 7).
Proof. cbv zeta. do 5 (split; [reflexivity |]). split; [apply shows_fp | now apply readable_fp]. Qed.
