(** Structure preserving maps between field classes.  Used to transport
    computations from a fast representation (Base/BigZp.v) to Z/p. *)
From Coq Require Import ZArith NArith List Bool.
From Verif Require Import Base.Field Base.Ext Model.Power.

Record Hom (A B : FieldOps) (h : A -> B) : Prop := mkHom {
  hom_0 : h f0 = f0;
  hom_1 : h f1 = f1;
  hom_add : forall x y, h (fadd x y) = fadd (h x) (h y);
  hom_mul : forall x y, h (fmul x y) = fmul (h x) (h y);
  hom_sub : forall x y, h (fsub x y) = fsub (h x) (h y);
  hom_opp : forall x, h (fopp x) = fopp (h x);
  hom_eqb : forall x y, feqb (h x) (h y) = feqb x y
}.

Definition qmap {A B : Type} (h : A -> B) (x : quad A) : quad B := mkq (h (q0 x)) (h (q1 x)).
Definition cmap {A B : Type} (h : A -> B) (x : cub A) : cub B := mkc (h (c0 x)) (h (c1 x)) (h (c2 x)).
