(** Residues modulo p on machine-integer backed naturals: a fast executable copy
    of [Zp p], connected to it by a homomorphism.  Not a model of any source
    file: a computation device for concrete constants. *)
From Coq Require Import ZArith NArith List Bool Lia.
From Bignums Require Import BigN.
From Verif Require Import Base.Field Base.Zp Base.Ext Base.Hom Model.Power.
Local Open Scope Z_scope.

Definition BigZp (m : BigN.t) : FieldOps := {|
  car := BigN.t;
  f0 := BigN.zero;
  f1 := BigN.one;
  fadd x y := BigN.modulo (BigN.add x y) m;
  fmul x y := BigN.modulo (BigN.mul x y) m;
  fsub x y := BigN.modulo (BigN.add x (BigN.sub m (BigN.modulo y m))) m;
  fopp x := BigN.modulo (BigN.sub m (BigN.modulo x m)) m;
  finv x := x;
  feqb x y := BigN.eqb (BigN.modulo x m) (BigN.modulo y m)
|}.

Definition bigz (z : Z) : BigN.t := BigN.of_N (Z.to_N z).

Lemma bigz_spec z : 0 <= z -> BigN.to_Z (bigz z) = z.
Proof. intros H. unfold bigz. rewrite BigN.spec_of_N. apply Z2N.id, H. Qed.

Definition of_big (p : Z) (x : BigN.t) : Zp p := tozp p (BigN.to_Z x).

Lemma BigZp_hom (p : Z) (m : BigN.t) : 1 < p -> BigN.to_Z m = p -> Hom (BigZp m) (Zp p) (of_big p).
Proof.
  intros Hp Hm.
  assert (Hsub : forall y, BigN.to_Z (BigN.sub m (BigN.modulo y m)) = p - BigN.to_Z y mod p).
  { intros y. rewrite BigN.spec_sub, BigN.spec_modulo, Hm.
    assert (H := Z.mod_pos_bound (BigN.to_Z y) p ltac:(lia)). lia. }
  constructor; unfold of_big; intros; apply zp_ext || idtac; cbn [BigZp f0 f1 fadd fmul fsub fopp feqb car]; zcbn.
  - rewrite BigN.spec_0. reflexivity.
  - rewrite BigN.spec_1. reflexivity.
  - rewrite BigN.spec_modulo, BigN.spec_add, Hm, mod_mod_any. apply Zplus_mod.
  - rewrite BigN.spec_modulo, BigN.spec_mul, Hm, mod_mod_any. apply Zmult_mod.
  - rewrite BigN.spec_modulo, BigN.spec_add, Hm, mod_mod_any, Hsub.
    rewrite <- Zminus_mod.
    replace (BigN.to_Z x + (p - BigN.to_Z y mod p)) with ((BigN.to_Z x - BigN.to_Z y mod p) + 1 * p) by ring.
    rewrite Z.mod_add by lia. apply Zminus_mod_idemp_r.
  - rewrite BigN.spec_modulo, Hm, mod_mod_any, Hsub.
    replace (p - BigN.to_Z x mod p) with (- (BigN.to_Z x mod p) + 1 * p) by ring.
    rewrite Z.mod_add by lia. reflexivity.
  - rewrite BigN.spec_eqb, !BigN.spec_modulo, Hm. reflexivity.
Qed.

Lemma of_big_bigz p z : 0 <= z -> of_big p (bigz z) = tozp p z.
Proof. intros H. unfold of_big. rewrite bigz_spec by exact H. reflexivity. Qed.
