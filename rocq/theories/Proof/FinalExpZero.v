(** The final exponentiations send 0 to 0. *)
From Coq Require Import ZArith NArith List Bool Lia Ring.
From Verif Require Import Base.Field Base.Zp Base.Ext Spec.Digits Model.Power Model.Fp2 Model.Fp3 Model.Fp4 Model.Fp6_2over3 Model.FieldParams Model.Shipped Model.FinalExp
  Proof.Power Proof.ExtTheory Proof.Cyclotomic Proof.FiniteField Proof.ShippedTowers Proof.PairingBls Proof.PairingMnt.
Import ListNotations.
Local Open Scope fld_scope.

Section Mul0.
  Variable F : FieldOps.
  Hypothesis R : RingLaws F.
  Add Ring Fmz : (RL_th F R).
  Lemma ring_mul_0 (x : F) : x * 0 = 0.
  Proof. ring. Qed.
End Mul0.

Section CExp.
  Variable F : FieldOps.
  Hypothesis R : RingLaws F.
  Add Ring Fcez : (RL_th F R).
  Variable csq : F -> F.
  Variable mul : F -> F -> F.
  Hypothesis Hm : forall x, mul x 0 = 0.
  Variable NAF : list Z.
  Variable one : F.
  Local Notation loop := (snd (for_down (length NAF)
      (fun i '(found_nonzero, res) =>
         let res := if found_nonzero : bool then csq res else res in
         let d := nth i NAF 0%Z in
         if Z.eqb d 0 then (found_nonzero, res)
         else (true, if Z.ltb 0 d then mul res 0 else mul res 0))
      (false, one))).
  (** the last digit read is not zero *)
  Lemma cexp_zero_odd : Z.odd (digits_value NAF) = true -> loop = 0.
  Proof.
    intros Od. match goal with |- snd (for_down ?n ?f ?st) = _ => assert (H := for_down_ind (fun i (s : bool * F) => i = O -> snd s = 0) n f st) end.
    apply H; [| |reflexivity].
    - destruct NAF; [discriminate Od|]. intros N. discriminate N.
    - intros i [found r] Hi _ ->. destruct NAF as [|d l]; [discriminate Od|]. cbn [nth]. destruct (Z.eqb_spec d 0) as [->|N].
      + cbn [digits_value] in Od. rewrite Z.add_0_l, Z.odd_mul in Od. discriminate Od.
      + destruct (Z.ltb 0 d); apply Hm.
  Qed.
  Lemma cexp_zero_sq : csq 0 = 0 -> digits_value NAF <> 0%Z -> loop = 0.
  Proof.
    intros C V. match goal with |- snd (for_down ?n ?f ?st) = _ =>
      assert (H := for_down_ind (fun i (s : bool * F) => if fst s then snd s = 0 else digits_value (skipn i NAF) = 0%Z) n f st) end.
    set (res := for_down _ _ _) in *. destruct res as [found r] eqn:Er. cbn [fst snd] in H |- *. destruct found.
    - apply H; clear H; [rewrite skipn_all; reflexivity|]. intros i [found r'] Hi P. cbn [fst snd] in P.
      rewrite (skipn_nth_cons NAF i Hi). destruct (Z.eqb_spec (nth i NAF 0%Z) 0) as [E|N].
      + cbn [fst snd]. destruct found; [rewrite P; exact C|]. cbn [digits_value]. rewrite E, P. reflexivity.
      + cbn [fst snd]. destruct (Z.ltb 0 _); apply Hm.
    - exfalso. apply V. apply H; clear H; [rewrite skipn_all; reflexivity|]. intros i [found r'] Hi P. cbn [fst snd] in P.
      rewrite (skipn_nth_cons NAF i Hi). destruct (Z.eqb_spec (nth i NAF 0%Z) 0) as [E|N].
      + cbn [fst snd]. destruct found; [rewrite P; exact C|]. cbn [digits_value]. rewrite E, P. reflexivity.
      + cbn [fst snd]. destruct (Z.ltb 0 _); apply Hm.
  Qed.
End CExp.

Section Two.
  Variable GT : FieldOps.
  Hypothesis RG : RingLaws GT.
  Add Ring GTtz : (RL_th GT RG).
  Variable cexp : GT -> N -> GT.
  Variable frob : GT -> N -> GT.
  Variables w1 abs_w0 : N.
  Variable w0_neg : bool.
  Hypothesis I0 : finv (0 : GT) = 0.
  Hypothesis F0 : forall k, frob 0 k = 0.
  Hypothesis C0 : cexp 0 w1 = 0.
  Lemma last_zero y : two_last_chunk GT cexp frob w1 abs_w0 w0_neg 0 y = 0.
  Proof. unfold two_last_chunk. rewrite F0, C0. ring. Qed.
  Lemma mnt4_zero : mnt4_final_exponentiation GT cexp frob w1 abs_w0 w0_neg 0 = 0.
  Proof.
    unfold mnt4_final_exponentiation. cbv zeta. rewrite I0. replace (mnt4_first_chunk GT frob 0 0) with (0 : GT); [apply last_zero|].
    unfold mnt4_first_chunk. rewrite F0. ring.
  Qed.
  Lemma mnt6_zero : mnt6_final_exponentiation GT cexp frob w1 abs_w0 w0_neg 0 = 0.
  Proof.
    unfold mnt6_final_exponentiation. cbv zeta. rewrite I0. replace (mnt6_first_chunk GT frob 0 0) with (0 : GT); [apply last_zero|].
    unfold mnt6_first_chunk. cbv zeta. rewrite !F0. replace (0 * 0) with (0 : GT) by ring. rewrite F0. ring.
  Qed.
End Two.

Section Four.
  Variable K : FieldOps.
  Variables nr : K.
  Hypothesis KK : FieldLaws K.
  Let RK := FieldLaws_Ring K KK.
  Add Field Kfz : (FL_th K KK).
  Lemma frob4_0 fc2 fc4 k : fp4_frob K nr fc2 fc4 (0 : Fp4 K nr nr) k = (0 : Fp4 K nr nr).
  Proof. apply quad_ext; apply quad_ext; cbn; ring. Qed.
  Lemma mul4_0 (RG : RingLaws (Fp4 K nr nr)) (x : Fp4 K nr nr) : fp4_mul K nr nr x (0 : Fp4 K nr nr) = (0 : Fp4 K nr nr).
  Proof. exact (ring_mul_0 _ RG x). Qed.
  Lemma cexp4_0 (RG : RingLaws (Fp4 K nr nr)) find_wnaf k : wnaf_contract find_wnaf -> N.odd k = true ->
    fp4_cyclotomic_exp K nr nr (0 : Fp4 K nr nr) (find_wnaf 1%nat k) = (0 : Fp4 K nr nr).
  Proof.
    intros W O. unfold fp4_cyclotomic_exp.
    assert (E : fp4_unitary_inversed K nr (0 : Fp4 K nr nr) = (0 : Fp4 K nr nr)) by (apply quad_ext; apply quad_ext; cbn; ring).
    rewrite E. apply (cexp_zero_odd (Fp4 K nr nr) _ _ (mul4_0 RG)). rewrite (proj1 (W 1%nat k (le_n _))).
    destruct k as [|[| |]]; try discriminate O; reflexivity.
  Qed.
  Lemma frob6_0 a b c k : fp6t_frob K nr a b c (0 : Fp6t K nr nr) k = (0 : Fp6t K nr nr).
  Proof. apply quad_ext; apply cub_ext; cbn; ring. Qed.
  Lemma mul6_0 (RG : RingLaws (Fp6t K nr nr)) (x : Fp6t K nr nr) : fp6t_mul K nr nr x (0 : Fp6t K nr nr) = (0 : Fp6t K nr nr).
  Proof. exact (ring_mul_0 _ RG x). Qed.
  Lemma cexp6_0 (RG : RingLaws (Fp6t K nr nr)) find_wnaf k : wnaf_contract find_wnaf -> k <> 0%N ->
    fp6t_cyclotomic_exp K nr nr (0 : Fp6t K nr nr) (find_wnaf 1%nat k) = (0 : Fp6t K nr nr).
  Proof.
    intros W O. unfold fp6t_cyclotomic_exp.
    assert (E : fp6t_unitary_inversed K nr (0 : Fp6t K nr nr) = (0 : Fp6t K nr nr)) by (apply quad_ext; apply cub_ext; cbn; ring).
    rewrite E. apply (cexp_zero_sq (Fp6t K nr nr) _ _ (mul6_0 RG)).
    - apply quad_ext; apply cub_ext; cbn; ring.
    - rewrite (proj1 (W 1%nat k (le_n _))). lia.
  Qed.
End Four.
