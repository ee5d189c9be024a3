(** Facts about JSON texts, and the texts the printing functions write. *)
From Coq Require Import ZArith NArith List String Ascii Bool Lia.
From Verif Require Import Base.Field Base.Zp Base.Ext Spec.Json Model.ShortWeierstrass Model.Edwards Model.Montgomery Model.Pairing Model.Printing.
Import ListNotations.
Local Open Scope string_scope.

Lemma app_nil (s : string) : s ++ "" = s.
Proof. induction s; cbn; congruence. Qed.
Lemma app_ass (a b c : string) : (a ++ b) ++ c = a ++ b ++ c.
Proof. induction a; cbn; congruence. Qed.
Lemma all_app f a b : all_chars f (a ++ b) = all_chars f a && all_chars f b.
Proof. induction a; cbn; auto. now rewrite IHa, andb_assoc. Qed.

(** ** A scanner every JSON text passes: outside string literals only some characters occur,
    and a comma is not followed by a closing bracket *)
Inductive state := Out (comma : bool) | Inside | Escape.
Definition plain (c : ascii) : bool :=
  is_digit c || existsb (Ascii.eqb c) ["{"; "["; ":"; "+"; "-"; "."; "e"; "E"; "t"; "r"; "u"; "f"; "a"; "l"; "s"; "n"]%char.
Definition step (st : state) (c : ascii) : option state :=
  match st with
  | Inside => if Ascii.eqb c """" then Some (Out false) else if Ascii.eqb c "\" then Some Escape else Some Inside
  | Escape => Some Inside
  | Out b => if is_space c then Some (Out b) else if Ascii.eqb c """" then Some Inside
             else if Ascii.eqb c "," then Some (Out true)
             else if Ascii.eqb c "]" || Ascii.eqb c "}" then (if b then None else Some (Out false))
             else if plain c then Some (Out false) else None
  end.
Fixpoint scan (st : state) (s : string) : option state :=
  match s with EmptyString => Some st | String c s => match step st c with Some st => scan st s | None => None end end.
Lemma scan_app st a b : scan st (a ++ b) = match scan st a with Some st => scan st b | None => None end.
Proof. revert st. induction a; intros st; cbn; auto. destruct (step st a); auto. Qed.
Lemma scan_space b w : all_chars is_space w = true -> scan (Out b) w = Some (Out b).
Proof. induction w; cbn -[is_space]; auto. intros H. apply andb_prop in H. destruct H as [-> H]. auto. Qed.
Lemma digit_step b c : is_digit c = true -> step (Out b) c = Some (Out false).
Proof.
  unfold step, plain. intros D. rewrite D. unfold is_digit in D. apply andb_prop in D. destruct D as [D1 D2].
  apply N.leb_le in D1. apply N.leb_le in D2.
  assert (E : forall x, N_of_ascii c <> N_of_ascii x -> Ascii.eqb c x = false). { intros x H. apply Ascii.eqb_neq. congruence. }
  rewrite !E by (cbn; lia). unfold is_space. cbn [orb].
  assert (S : forall k, (N_of_ascii c <> k -> N.eqb (N_of_ascii c) k = false)%N) by (intros; now apply N.eqb_neq).
  now rewrite !S by lia.
Qed.
Lemma scan_digits b s : all_chars is_digit s = true -> s <> "" -> scan (Out b) s = Some (Out false).
Proof.
  revert b. induction s as [| c s IH]; intros b H N; [easy |]. cbn [all_chars] in H. apply andb_prop in H. destruct H as [D H].
  cbn [scan]. rewrite digit_step by auto. destruct s; auto. apply IH; easy.
Qed.
Lemma integer_digits s : integer s -> all_chars is_digit s = true /\ s <> "".
Proof. intros [| c t D _ H]; split; try easy. cbn [all_chars]. now rewrite D. Qed.
Lemma scan_number b s : number s -> scan (Out b) s = Some (Out false).
Proof.
  intros [sg i fr ex Hs Hi Hf He]. destruct (integer_digits i Hi) as [Di Ni].
  rewrite !scan_app.
  assert (S : exists b', scan (Out b) sg = Some (Out b')) by (destruct Hs as [-> | ->]; cbn; eauto).
  destruct S as [b' ->]. rewrite scan_app, scan_digits, scan_app by auto.
  assert (F : scan (Out false) fr = Some (Out false)).
  { destruct Hf as [-> | (d & [Nd Dd] & ->)]; auto. rewrite scan_app. cbn [scan step is_space]. apply scan_digits; auto. }
  rewrite F. destruct He as [-> | (e & g & d & Ee & G & [Nd Dd] & ->)]; auto. rewrite scan_app.
  assert (S : scan (Out false) e = Some (Out false)) by (destruct Ee as [-> | ->]; reflexivity).
  rewrite S, scan_app. assert (S2 : scan (Out false) g = Some (Out false)) by (destruct G as [-> | [-> | ->]]; reflexivity).
  rewrite S2. now apply scan_digits.
Qed.
Lemma scan_chars s : chars s -> scan Inside s = Some Inside.
Proof.
  induction 1 as [| c s N1 N2 _ IH | c s _ IH]; cbn; auto.
  apply Ascii.eqb_neq in N1. apply Ascii.eqb_neq in N2. now rewrite N1, N2.
Qed.
Lemma scan_quoted b s : chars s -> scan (Out b) ("""" ++ s ++ """") = Some (Out false).
Proof. intros H. cbn. rewrite scan_app, scan_chars by auto. reflexivity. Qed.

Scheme text_mut := Induction for text Sort Prop with spaced_mut := Induction for spaced Sort Prop
  with elements_mut := Induction for elements Sort Prop with members_mut := Induction for members Sort Prop.
Lemma scan_key b k w1 w2 s st : all_chars is_space w1 = true -> chars k -> all_chars is_space w2 = true -> scan (Out false) s = st ->
  scan (Out b) (w1 ++ """" ++ k ++ """" ++ w2 ++ ":" ++ s) = st.
Proof.
  intros W1 C W2 S. rewrite scan_app, scan_space by auto.
  replace ("""" ++ k ++ """" ++ w2 ++ ":" ++ s) with (("""" ++ k ++ """") ++ w2 ++ ":" ++ s) by now rewrite !app_ass.
  rewrite scan_app, scan_quoted, scan_app, scan_space by auto. cbn. exact S.
Qed.
Lemma scan_text j s : text j s -> forall b, scan (Out b) s = Some (Out false).
Proof.
  intros H. induction H using text_mut with
    (P0 := fun j s _ => forall b, scan (Out b) s = Some (Out false))
    (P1 := fun l s _ => forall b, scan (Out b) s = Some (Out false))
    (P2 := fun l s _ => forall b, scan (Out b) s = Some (Out false)); intros b.
  - destruct i as [<- | [<- | [<- | []]]]; reflexivity.
  - now apply scan_number.
  - now apply scan_quoted.
  - cbn. rewrite scan_app, scan_space by auto. reflexivity.
  - cbn. rewrite scan_app, IHtext. reflexivity.
  - cbn. rewrite scan_app, scan_space by auto. reflexivity.
  - cbn. rewrite scan_app, IHtext. reflexivity.
  - rewrite scan_app, scan_space, scan_app, IHtext, scan_space by auto. reflexivity.
  - apply IHtext.
  - rewrite scan_app, IHtext. cbn. apply IHtext0.
  - now apply scan_key.
  - apply scan_key; auto. rewrite scan_app, IHtext. cbn. apply IHtext0.
Qed.

(** ** Decimal notation *)
Lemma digit_ok n : (n < 10)%N -> is_digit (ascii_of_N (48 + n)) = true /\ (N_of_ascii (ascii_of_N (48 + n)) - 48 = n)%N /\
  (n <> 0%N -> ascii_of_N (48 + n) <> "0"%char).
Proof.
  intros H. assert (E : N_of_ascii (ascii_of_N (48 + n)) = (48 + n)%N) by (apply N_ascii_embedding; lia).
  unfold is_digit. rewrite E. repeat split.
  - apply andb_true_intro. split; apply N.leb_le; lia.
  - lia.
  - intros N F. apply (f_equal N_of_ascii) in F. rewrite E in F. change (N_of_ascii "0") with 48%N in F. lia.
Qed.
Lemma digits_value fuel n acc : (n < 10 ^ N.of_nat fuel)%N -> (0 < fuel)%nat ->
  decimal_value 0 (digits fuel n acc) = decimal_value n acc.
Proof.
  revert n acc. induction fuel as [| fuel IH]; intros n acc L P; [lia |]. cbn [digits].
  assert (M : (n mod 10 < 10)%N) by now apply N.mod_lt.
  destruct (digit_ok _ M) as (_ & V & _). pose proof (N.div_mod n 10 ltac:(easy)) as D.
  destruct (N.eqb_spec (n / 10) 0) as [E | E].
  - cbn [decimal_value]. rewrite V. f_equal. rewrite E in D. lia.
  - assert (n / 10 < 10 ^ N.of_nat fuel)%N.
    { apply N.div_lt_upper_bound; [easy |]. rewrite Nat2N.inj_succ, N.pow_succ_r' in L. exact L. }
    rewrite IH; auto.
    + cbn [decimal_value]. rewrite V. f_equal. lia.
    + destruct fuel; [|lia]. cbn in H. lia.
Qed.
Lemma digits_shape fuel n acc : (0 < fuel)%nat -> n <> 0%N -> (n < 10 ^ N.of_nat fuel)%N -> all_chars is_digit acc = true ->
  exists c s, digits fuel n acc = String c s /\ is_digit c = true /\ c <> "0"%char /\ all_chars is_digit s = true.
Proof.
  revert n acc. induction fuel as [| fuel IH]; intros n acc P N L A; [lia |]. cbn [digits].
  assert (M : (n mod 10 < 10)%N) by now apply N.mod_lt.
  destruct (digit_ok _ M) as (D & _ & Z). pose proof (N.div_mod n 10 ltac:(easy)) as DM.
  destruct (N.eqb_spec (n / 10) 0) as [E | E].
  - eexists _, _. split; [reflexivity |]. repeat split; auto. apply Z. rewrite E in DM. lia.
  - assert (n / 10 < 10 ^ N.of_nat fuel)%N.
    { apply N.div_lt_upper_bound; [easy |]. rewrite Nat2N.inj_succ, N.pow_succ_r' in L. exact L. }
    apply IH; auto.
    + destruct fuel; [|lia]. cbn in H. lia.
    + cbn [all_chars]. now rewrite D.
Qed.
Lemma dec_fuel n : (n < 10 ^ N.of_nat (S (N.size_nat n)))%N.
Proof.
  apply N.lt_le_trans with (2 ^ N.size n)%N; [apply N.size_gt |].
  replace (N.of_nat (S (N.size_nat n))) with (N.succ (N.size n)).
  - apply N.le_trans with (2 ^ N.succ (N.size n))%N; [apply N.pow_le_mono_r; lia | apply N.pow_le_mono_l; lia].
  - destruct n as [| p]; [reflexivity |]. cbn. induction p; cbn in *; lia.
Qed.
Lemma dec_ok n : integer (dec n) /\ decimal_value 0 (dec n) = n.
Proof.
  unfold dec. split.
  - destruct (N.eq_dec n 0) as [-> | N]; [apply int_zero |].
    destruct (digits_shape (S (N.size_nat n)) n "" ltac:(lia) N (dec_fuel n) eq_refl) as (c & s & -> & D & Z & A). now apply int_digits.
  - rewrite digits_value; auto using dec_fuel. lia.
Qed.
Lemma dec_decimal n : decimal n (Num (dec n)) /\ text (Num (dec n)) (dec n).
Proof.
  destruct (dec_ok n) as [I V]. split; [exists (dec n); auto |]. constructor.
  replace (dec n) with ("" ++ dec n ++ "" ++ "") by (cbn; apply app_nil). constructor; auto.
Qed.

(** ** What can be read back: the text of one item determines the item and the rest *)
Lemma digits_split a b t u : all_chars is_digit a = true -> all_chars is_digit b = true -> delimited t -> delimited u ->
  a ++ t = b ++ u -> a = b /\ t = u.
Proof.
  revert b. induction a as [| c a IH]; intros b A B T U E.
  - destruct b as [| d b]; [auto |]. cbn in *. subst t. cbn in T. rewrite T in B. discriminate.
  - destruct b as [| d b]; cbn in *.
    + subst u. cbn in U. rewrite U in A. discriminate.
    + injection E as -> E. apply andb_prop in A. apply andb_prop in B. destruct (IH b (proj2 A) (proj2 B) T U E) as [-> ->]. auto.
Qed.
Lemma readable_fp p : (0 < p)%Z -> readable (@show_fp p).
Proof.
  intros P x y t u T U E. unfold show_fp in E. destruct (dec_ok (Z.to_N (zval x))) as [I1 V1], (dec_ok (Z.to_N (zval y))) as [I2 V2].
  apply digits_split in E; auto using (fun s h => proj1 (integer_digits s h)). destruct E as [E ->]. split; auto.
  apply zp_ext. rewrite E, V2 in V1. apply Z2N.inj in V1; auto.
  - rewrite <- zval_mod. now apply Z.mod_pos_bound.
  - rewrite <- zval_mod. now apply Z.mod_pos_bound.
Qed.
Lemma readable_inj {A : Type} (show : A -> string) x y : readable show -> show x = show y -> x = y.
Proof. intros R E. apply (R x y "" ""); cbn; auto. now rewrite E. Qed.
(** strip the same literal from both sides, then read an item off both sides *)
Ltac strip := cbn [append] in *; repeat match goal with H : String ?c _ = String ?c _ |- _ => injection H as H end.
Ltac read R := match goal with H : ?s ?x ++ ?t = ?s ?y ++ ?u |- _ => apply R in H; [destruct H as [? H] | exact eq_refl | exact eq_refl]; strip end.
Lemma readable_quad {A : Type} (show : A -> string) : readable show -> readable (show_quad show).
Proof.
  intros R [x0 x1] [y0 y1] t u T U E. unfold show_quad in E. cbn [q0 q1] in E. rewrite !app_ass in E. strip.
  read R. read R. subst. auto.
Qed.
Lemma readable_cub {A : Type} (show : A -> string) : readable show -> readable (show_cub show).
Proof.
  intros R [x0 x1 x2] [y0 y1 y2] t u T U E. unfold show_cub in E. cbn [c0 c1 c2] in E. rewrite !app_ass in E. strip.
  do 3 read R. subst. auto.
Qed.
Section ReadCurves.
  Variables (K : FieldOps) (show : K -> string).
  Hypothesis R : readable show.
  Lemma read_affine P Q : show_affine K show P = show_affine K show Q -> P = Q.
  Proof. destruct P, Q. unfold show_affine. cbn. intros E. strip. do 2 read R. subst. auto. Qed.
  Lemma read_te_affine P Q : show_te_affine K show P = show_te_affine K show Q -> P = Q.
  Proof. destruct P, Q. unfold show_te_affine. cbn. intros E. strip. do 2 read R. subst. auto. Qed.
  Lemma read_mont P Q : show_mont K show P = show_mont K show Q -> mX P = mX Q /\ mY P = mY Q.
  Proof. destruct P, Q. unfold show_mont. cbn. intros E. strip. do 2 read R. subst. auto. Qed.
  Lemma read_triple P Q : show_triple K show P = show_triple K show Q -> P = Q.
  Proof. destruct P, Q. unfold show_triple. cbn. intros E. strip. do 3 read R. subst. auto. Qed.
  Lemma read_jacobian_a4 P Q : show_jacobian_a4 K show P = show_jacobian_a4 K show Q -> P = Q.
  Proof. destruct P, Q. unfold show_jacobian_a4. cbn. intros E. strip. do 3 read R. subst. auto. Qed.
  Lemma read_inverted P Q : show_inverted K show P = show_inverted K show Q -> P = Q.
  Proof. destruct P, Q. unfold show_inverted. cbn. intros E. strip. do 3 read R. subst. auto. Qed.
  Lemma read_extended P Q : show_extended K show P = show_extended K show Q -> P = Q.
  Proof. destruct P, Q. unfold show_extended. cbn. intros E. strip. do 4 read R. subst. auto. Qed.
End ReadCurves.

(** ** JSON documents *)
Lemma tight j s : text j s -> spaced j s.
Proof. intros H. replace s with ("" ++ s ++ "") by (cbn; apply app_nil). now constructor. Qed.
Lemma shows_fp p : shows (@show_fp p) (fun x => decimal (Z.to_N (zval x))).
Proof. intros x. eexists. apply dec_decimal. Qed.
Definition den_quad {A : Type} (den : A -> json -> Prop) (x : quad A) (j : json) : Prop :=
  exists j0 j1, den (q0 x) j0 /\ den (q1 x) j1 /\ j = Arr [j0; j1].
Definition den_cub {A : Type} (den : A -> json -> Prop) (x : cub A) (j : json) : Prop :=
  exists j0 j1 j2, den (c0 x) j0 /\ den (c1 x) j1 /\ den (c2 x) j2 /\ j = Arr [j0; j1; j2].
Lemma shows_quad {A : Type} show (den : A -> json -> Prop) : shows show den -> shows (show_quad show) (den_quad den).
Proof.
  intros S x. destruct (S (q0 x)) as (j0 & D0 & T0), (S (q1 x)) as (j1 & D1 & T1).
  exists (Arr [j0; j1]). split; [unfold den_quad; eauto 6 |].
  unfold show_quad. replace (show (q0 x) ++ "," ++ show (q1 x) ++ "]") with ((show (q0 x) ++ "," ++ show (q1 x)) ++ "]") by now rewrite !app_ass.
  apply t_arr. apply e_more; [now apply tight | apply e_one; now apply tight].
Qed.
Lemma shows_cub {A : Type} show (den : A -> json -> Prop) : shows show den -> shows (show_cub show) (den_cub den).
Proof.
  intros S x. destruct (S (c0 x)) as (j0 & D0 & T0), (S (c1 x)) as (j1 & D1 & T1), (S (c2 x)) as (j2 & D2 & T2).
  exists (Arr [j0; j1; j2]). split; [unfold den_cub; eauto 8 |].
  unfold show_cub. replace (show (c0 x) ++ "," ++ show (c1 x) ++ "," ++ show (c2 x) ++ "]")
    with ((show (c0 x) ++ "," ++ show (c1 x) ++ "," ++ show (c2 x)) ++ "]") by now rewrite !app_ass.
  apply t_arr. apply e_more; [now apply tight | apply e_more; [now apply tight | apply e_one; now apply tight]].
Qed.
(** an object with one-letter (or longer, quote-free) keys, written without spaces *)
Lemma member_last k j s : chars k -> text j s -> members [(k, j)] ("""" ++ k ++ """:" ++ s).
Proof. intros C T. exact (m_one k j "" "" s eq_refl C eq_refl (tight j s T)). Qed.
Lemma member_more k j l s s' : chars k -> text j s -> members l s' -> members ((k, j) :: l) ("""" ++ k ++ """:" ++ s ++ "," ++ s').
Proof. intros C T M. exact (m_more k j l "" "" s s' eq_refl C eq_refl (tight j s T) M). Qed.
Lemma object l s s' : members l s -> s' = "{" ++ s ++ "}" -> text (Obj l) s'.
Proof. intros M ->. now apply t_obj. Qed.
Ltac key := repeat (first [apply ch_end | apply ch_plain; [discriminate | discriminate |]]).
Ltac obj := eapply object; [repeat first [apply member_last; [key | eassumption] | apply member_more; [key | eassumption |]]
                           | repeat progress (cbn [append]; rewrite ?app_ass); reflexivity].

(** ** Texts that are not JSON *)
Section NoJson.
  Variables (K : FieldOps) (show : K -> string).
  Hypothesis S : forall x, exists j, text j (show x).
  Lemma scan_show b x t : scan (Out b) (show x ++ t) = scan (Out false) t.
  Proof. destruct (S x) as [j T]. now rewrite scan_app, (scan_text j _ T). Qed.
  Lemma jacobian_a4_no_json P j : ~ text j (show_jacobian_a4 K show P).
  Proof.
    intros T. apply scan_text with (b := false) in T. revert T. unfold show_jacobian_a4. cbn [append scan step is_space].
    cbn. rewrite scan_show. cbn. discriminate.
  Qed.
  (** after an item list with a trailing comma a closing bracket stops the scanner *)
  Lemma scan_items {A : Type} (item : A -> string) l t : (forall b d t, scan (Out b) (item d ++ t) = scan (Out false) t) -> l <> [] ->
    forall b, scan (Out b) (show_items item l ++ t) = scan (Out true) t.
  Proof.
    intros H N. destruct l as [| d l]; [easy |]. clear N. revert d. induction l as [| e l IH]; intros d b; cbn [show_items];
      rewrite !app_ass, H; cbn; [reflexivity |]. specialize (IH e true). cbn [show_items] in IH. rewrite !app_ass in IH. exact IH.
  Qed.
  Lemma scan_any_items {A : Type} (item : A -> string) l t : (forall b d t, scan (Out b) (item d ++ t) = scan (Out false) t) ->
    forall b, exists b', scan (Out b) (show_items item l ++ t) = scan (Out b') t /\ (l = [] -> b' = b) /\ (l <> [] -> b' = true).
  Proof.
    intros H b. destruct l as [| d l]; [exists b; cbn; repeat split; congruence |]. exists true. split; [| split; congruence].
    apply scan_items; congruence.
  Qed.
  Lemma scan_ell b d t : scan (Out b) (show_ell K show d ++ t) = scan (Out false) t.
  Proof. unfold show_ell. rewrite !app_ass. cbn. rewrite scan_show. cbn. rewrite scan_show. cbn. rewrite scan_show. reflexivity. Qed.
  Lemma scan_dbl b d t : scan (Out b) (show_dbl K show d ++ t) = scan (Out false) t.
  Proof. unfold show_dbl. rewrite !app_ass. cbn. do 3 (rewrite scan_show; cbn). rewrite scan_show. reflexivity. Qed.
  Lemma scan_add b d t : scan (Out b) (show_add K show d ++ t) = scan (Out false) t.
  Proof. unfold show_add. rewrite !app_ass. cbn. rewrite scan_show. cbn. rewrite scan_show. reflexivity. Qed.
  Lemma a40_g2_no_json p j : coeffs p <> [] -> ~ text j (show_a40_g2 K show p).
  Proof.
    intros N T. apply scan_text with (b := false) in T. revert T. unfold show_a40_g2, endl. cbn. rewrite scan_show. cbn. rewrite scan_show. cbn.
    rewrite (scan_items (show_ell K show)); auto using scan_ell. discriminate.
  Qed.
  Lemma pr_g2_no_json p j : dbls p <> [] \/ adds p <> [] -> ~ text j (show_pr_g2 K show p).
  Proof.
    intros N T. apply scan_text with (b := false) in T. revert T. unfold show_pr_g2, endl. cbn.
    do 5 (rewrite scan_show; cbn).
    edestruct (scan_any_items (show_dbl K show) (dbls p)) as (b & E & B0 & B1); [exact scan_dbl |]. rewrite E. clear E.
    destruct (dbls p) as [| d l] eqn:L.
    - rewrite (B0 eq_refl). cbn. destruct N as [N | N]; [easy |]. rewrite (scan_items (show_add K show)); auto using scan_add. discriminate.
    - rewrite B1 by easy. discriminate.
  Qed.
End NoJson.
Lemma shows_text {A : Type} show (den : A -> json -> Prop) : shows show den -> forall x, exists j, text j (show x).
Proof. intros S x. destruct (S x) as (j & _ & T). eauto. Qed.
Lemma precomputed_g2_no_json (F : FieldOps) (showF : F -> string) (denF : F -> json -> Prop) j : shows showF denF ->
  (forall p, coeffs p <> [] -> ~ text j (show_a40_g2 F showF p)) /\
  (forall p, dbls p <> [] \/ adds p <> [] -> ~ text j (show_pr_g2 F showF p)).
Proof.
  intros S. split; intros p N; [apply a40_g2_no_json | apply pr_g2_no_json]; auto; eapply shows_text; eauto.
Qed.

(** ** The precomputed values of G1 *)
Lemma line_last k j s : chars k -> text j s -> members [(k, j)] (endl ++ """" ++ k ++ """:" ++ s).
Proof. intros C T. exact (m_one k j endl "" s eq_refl C eq_refl (tight j s T)). Qed.
Lemma line_more k j l s s' : chars k -> text j s -> members l s' -> members ((k, j) :: l) (endl ++ """" ++ k ++ """:" ++ s ++ "," ++ s').
Proof. intros C T M. exact (m_more k j l endl "" s s' eq_refl C eq_refl (tight j s T) M). Qed.
Ltac lines := eapply object; [repeat first [apply line_last; [key | eassumption] | apply line_more; [key | eassumption |]]
                             | unfold endl; repeat progress (cbn [append]; rewrite ?app_ass); reflexivity].
Lemma precomputed_g1_json (K F : FieldOps) (show : K -> string) (showF : F -> string) den denF : shows show den -> shows showF denF ->
  shows (show_a40_g1 K show) (fun p => object_of den [("PX", PX p); ("PY", PY p)]) /\
  shows (show_pr_g1 K F show showF) (fun p j => exists j1 j2 j3 j4, den (rPX p) j1 /\ den (rPY p) j2 /\ denF (rPX_twist p) j3 /\
    denF (rPY_twist p) j4 /\ j = Obj [("PX", j1); ("PY", j2); ("PX_twist", j3); ("PY_twist", j4)]).
Proof.
  intros S SF. split; intros p.
  - destruct (S (PX p)) as (j1 & D1 & T1), (S (PY p)) as (j2 & D2 & T2). exists (Obj [("PX", j1); ("PY", j2)]).
    split; [eexists; split; [reflexivity |]; repeat constructor; auto | unfold show_a40_g1; lines].
  - destruct (S (rPX p)) as (j1 & D1 & T1), (S (rPY p)) as (j2 & D2 & T2), (SF (rPX_twist p)) as (j3 & D3 & T3), (SF (rPY_twist p)) as (j4 & D4 & T4).
    exists (Obj [("PX", j1); ("PY", j2); ("PX_twist", j3); ("PY_twist", j4)]).
    split; [eauto 12 | unfold show_pr_g1; lines].
Qed.

(** ** The precomputed values of G2 *)
Lemma items_elements {A : Type} (f : A -> string) l js : Forall2 (fun d j => text j (f d)) l js ->
  elements (js ++ [Lit "null"])%list (endl ++ show_items f l ++ "null").
Proof.
  induction 1 as [| d j l js T _ IH].
  - apply e_one. exact (t_spaced endl (Lit "null") "null" "" eq_refl (t_lit "null" (or_intror (or_intror (or_introl eq_refl)))) eq_refl).
  - assert (E := e_more j _ (endl ++ f d ++ "") _ (t_spaced endl j (f d) "" eq_refl T eq_refl) IH).
    cbn [List.app show_items]. revert E. generalize endl. intros w E.
    replace (w ++ (f d ++ "," ++ w ++ show_items f l) ++ "null") with ((w ++ f d ++ "") ++ "," ++ w ++ show_items f l ++ "null"); [exact E |].
    rewrite app_nil, !app_ass. reflexivity.
Qed.
Lemma shows_items {A : Type} (f : A -> string) den l : shows f den -> exists js, Forall2 den l js /\ Forall2 (fun d j => text j (f d)) l js.
Proof.
  intros S. induction l as [| d l (js & D & T)]; [exists []; split; constructor |]. destruct (S d) as (j & Dj & Tj). exists (j :: js). split; now constructor.
Qed.
Lemma array_item l s s' : elements l s -> s' = "[" ++ s ++ "]" -> text (Arr l) s'.
Proof. intros E ->. now apply t_arr. Qed.
Ltac arr := eapply array_item; [repeat first [apply e_one; apply tight; eassumption | apply e_more; [apply tight; eassumption |]]
                               | repeat progress (cbn [append]; rewrite ?app_ass); reflexivity].
Section G2.
  Variables (F : FieldOps) (showF : F -> string) (denF : F -> json -> Prop).
  Hypothesis S : shows showF denF.
  Lemma shows_ell : shows (show_ell F showF) (fun d => array_of denF [ell_0 d; ell_VW d; ell_VV d]).
  Proof.
    intros d. destruct (S (ell_0 d)) as (j1 & D1 & T1), (S (ell_VW d)) as (j2 & D2 & T2), (S (ell_VV d)) as (j3 & D3 & T3).
    exists (Arr [j1; j2; j3]). split; [eexists; split; [reflexivity |]; auto | unfold show_ell; arr].
  Qed.
  Lemma shows_dbl : shows (show_dbl F showF) (fun d => array_of denF [c_H d; c_4C d; c_J d; c_L d]).
  Proof.
    intros d. destruct (S (c_H d)) as (j1 & D1 & T1), (S (c_4C d)) as (j2 & D2 & T2), (S (c_J d)) as (j3 & D3 & T3), (S (c_L d)) as (j4 & D4 & T4).
    exists (Arr [j1; j2; j3; j4]). split; [eexists; split; [reflexivity |]; auto | unfold show_dbl; arr].
  Qed.
  Lemma shows_add : shows (show_add F showF) (fun d => array_of denF [c_L1 d; c_RZ d]).
  Proof.
    intros d. destruct (S (c_L1 d)) as (j1 & D1 & T1), (S (c_RZ d)) as (j2 & D2 & T2).
    exists (Arr [j1; j2]). split; [eexists; split; [reflexivity |]; auto | unfold show_add; arr].
  Qed.
  Lemma line_final k j s : chars k -> text j s -> members [(k, j)] (endl ++ """" ++ k ++ """:" ++ s ++ endl).
  Proof. intros C T. exact (m_one k j endl "" (s ++ endl) eq_refl C eq_refl (t_spaced "" j s endl eq_refl T eq_refl)). Qed.
  (** the last array of an object, and one before it *)
  Lemma closing {A : Type} (f : A -> string) l js : Forall2 (fun d j => text j (f d)) l js ->
    text (Arr (js ++ [Lit "null"])) ("[" ++ (endl ++ show_items f l ++ "null") ++ "]").
  Proof. intros H. apply t_arr, items_elements, H. Qed.
  Lemma a40_g2_completed p : exists pre post jx jy js, show_a40_g2 F showF p = pre ++ post /\ denF (QX p) jx /\ denF (QY p) jy /\
    Forall2 (fun d => array_of denF [ell_0 d; ell_VW d; ell_VV d]) (coeffs p) js /\
    text (Obj [("QX", jx); ("QY", jy); ("coeffs", Arr (js ++ [Lit "null"]))]) (pre ++ "null" ++ post).
  Proof.
    destruct (S (QX p)) as (jx & Dx & Tx), (S (QY p)) as (jy & Dy & Ty), (shows_items _ _ (coeffs p) shows_ell) as (js & D & T).
    exists ("{" ++ endl ++ """QX"":" ++ showF (QX p) ++ "," ++ endl ++ """QY"":" ++ showF (QY p) ++ "," ++ endl ++
      """coeffs"":[" ++ endl ++ show_items (show_ell F showF) (coeffs p)), ("]" ++ endl ++ "}"), jx, jy, js.
    split; [unfold show_a40_g2; generalize endl; intros w; repeat progress (cbn [append]; rewrite ?app_ass); reflexivity |].
    split; [exact Dx |]. split; [exact Dy |]. split; [exact D |]. apply closing in T.
    eapply object; [apply line_more; [key | exact Tx |]; apply line_more; [key | exact Ty |]; apply line_final; [key | exact T] |].
    generalize endl; intros w. repeat progress (cbn [append]; rewrite ?app_ass). reflexivity.
  Qed.
  Lemma pr_g2_completed p : exists s1 s2 s3 jx jy j2 jxt jyt ds aa, show_pr_g2 F showF p = s1 ++ s2 ++ s3 /\
    denF (rQX p) jx /\ denF (rQY p) jy /\ denF (rQY2 p) j2 /\ denF (rQX_over_twist p) jxt /\ denF (rQY_over_twist p) jyt /\
    Forall2 (fun d => array_of denF [c_H d; c_4C d; c_J d; c_L d]) (dbls p) ds /\
    Forall2 (fun d => array_of denF [c_L1 d; c_RZ d]) (adds p) aa /\
    text (Obj [("QX", jx); ("QY", jy); ("QY2", j2); ("QX_over_twist", jxt); ("QY_over_twist", jyt);
               ("dbl_coeffs", Arr (ds ++ [Lit "null"])); ("add_coeffs", Arr (aa ++ [Lit "null"]))]) (s1 ++ "null" ++ s2 ++ "null" ++ s3).
  Proof.
    destruct (S (rQX p)) as (jx & Dx & Tx), (S (rQY p)) as (jy & Dy & Ty), (S (rQY2 p)) as (j2 & D2 & T2),
      (S (rQX_over_twist p)) as (jxt & Dxt & Txt), (S (rQY_over_twist p)) as (jyt & Dyt & Tyt),
      (shows_items _ _ (dbls p) shows_dbl) as (ds & DD & TD), (shows_items _ _ (adds p) shows_add) as (aa & DA & TA).
    exists ("{" ++ endl ++ """QX"":" ++ showF (rQX p) ++ "," ++ endl ++ """QY"":" ++ showF (rQY p) ++ "," ++ endl ++
      """QY2"":" ++ showF (rQY2 p) ++ "," ++ endl ++ """QX_over_twist"":" ++ showF (rQX_over_twist p) ++ "," ++ endl ++
      """QY_over_twist"":" ++ showF (rQY_over_twist p) ++ "," ++ endl ++ """dbl_coeffs"":[" ++ endl ++ show_items (show_dbl F showF) (dbls p)),
      ("]," ++ endl ++ """add_coeffs"":[" ++ endl ++ show_items (show_add F showF) (adds p)), ("]" ++ endl ++ "}"), jx, jy, j2, jxt, jyt, ds, aa.
    split; [unfold show_pr_g2; generalize endl; intros w; repeat progress (cbn [append]; rewrite ?app_ass); reflexivity |].
    do 7 (split; [assumption |]). apply closing in TD. apply closing in TA.
    eapply object; [do 6 (apply line_more; [key | eassumption |]); apply line_final; [key | exact TA] |].
    generalize endl; intros w. repeat progress (cbn [append]; rewrite ?app_ass). reflexivity.
  Qed.
End G2.
