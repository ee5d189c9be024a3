(** JSON texts (RFC 8259) and the documents they stand for. *)
From Coq Require Import NArith List String Ascii Bool.
Import ListNotations.
Local Open Scope string_scope.

Definition is_digit (c : ascii) : bool := N.leb 48 (N_of_ascii c) && N.leb (N_of_ascii c) 57.
Definition is_space (c : ascii) : bool :=
  let n := N_of_ascii c in N.eqb n 32 || N.eqb n 9 || N.eqb n 10 || N.eqb n 13.
Fixpoint all_chars (f : ascii -> bool) (s : string) : bool :=
  match s with EmptyString => true | String c s => f c && all_chars f s end.

(** numbers: a sign, an integer without leading zeros, a fraction, an exponent *)
Inductive integer : string -> Prop :=
| int_zero : integer "0"
| int_digits c s : is_digit c = true -> c <> "0"%char -> all_chars is_digit s = true -> integer (String c s).
Definition digits1 (s : string) : Prop := s <> "" /\ all_chars is_digit s = true.
Inductive number : string -> Prop :=
  num sg i fr ex : sg = "" \/ sg = "-" -> integer i -> (fr = "" \/ exists d, digits1 d /\ fr = "." ++ d) ->
    (ex = "" \/ exists e g d, (e = "e" \/ e = "E") /\ (g = "" \/ g = "+" \/ g = "-") /\ digits1 d /\ ex = e ++ g ++ d) ->
    number (sg ++ i ++ fr ++ ex).
(** the inside of a string literal; an escape is a backslash and the character after it
    (a superset of the escapes of the RFC) *)
Inductive chars : string -> Prop :=
| ch_end : chars ""
| ch_plain c s : c <> """"%char -> c <> "\"%char -> chars s -> chars (String c s)
| ch_escape c s : chars s -> chars (String "\" (String c s)).

Inductive json :=
| Lit (s : string) | Num (lexeme : string) | Str (inside : string) | Arr (l : list json) | Obj (l : list (string * json)).

Inductive text : json -> string -> Prop :=
| t_lit s : In s ["true"; "false"; "null"] -> text (Lit s) s
| t_num s : number s -> text (Num s) s
| t_str s : chars s -> text (Str s) ("""" ++ s ++ """")
| t_arr0 w : all_chars is_space w = true -> text (Arr []) ("[" ++ w ++ "]")
| t_arr l s : elements l s -> text (Arr l) ("[" ++ s ++ "]")
| t_obj0 w : all_chars is_space w = true -> text (Obj []) ("{" ++ w ++ "}")
| t_obj l s : members l s -> text (Obj l) ("{" ++ s ++ "}")
with spaced : json -> string -> Prop :=
| t_spaced w1 j s w2 : all_chars is_space w1 = true -> text j s -> all_chars is_space w2 = true -> spaced j (w1 ++ s ++ w2)
with elements : list json -> string -> Prop :=
| e_one j s : spaced j s -> elements [j] s
| e_more j l s s' : spaced j s -> elements l s' -> elements (j :: l) (s ++ "," ++ s')
with members : list (string * json) -> string -> Prop :=
| m_one k j w1 w2 s : all_chars is_space w1 = true -> chars k -> all_chars is_space w2 = true -> spaced j s ->
    members [(k, j)] (w1 ++ """" ++ k ++ """" ++ w2 ++ ":" ++ s)
| m_more k j l w1 w2 s s' : all_chars is_space w1 = true -> chars k -> all_chars is_space w2 = true -> spaced j s ->
    members l s' -> members ((k, j) :: l) (w1 ++ """" ++ k ++ """" ++ w2 ++ ":" ++ s ++ "," ++ s').

(** the number a string of decimal digits stands for *)
Fixpoint decimal_value (acc : N) (s : string) : N :=
  match s with EmptyString => acc | String c s => decimal_value (10 * acc + (N_of_ascii c - 48)) s end.
(** [j] is the plain decimal notation of n *)
Definition decimal (n : N) (j : json) : Prop := exists l, j = Num l /\ integer l /\ decimal_value 0 l = n.

(** [show] can be read back when something other than a digit follows *)
Definition delimited (t : string) : Prop := match t with EmptyString => True | String c _ => is_digit c = false end.
Definition readable {A : Type} (show : A -> string) : Prop := forall x y t u, delimited t -> delimited u ->
  show x ++ t = show y ++ u -> x = y /\ t = u.
(** [show] writes a text of a document that [den] relates to the value *)
Definition shows {A : Type} (show : A -> string) (den : A -> json -> Prop) : Prop := forall x, exists j, den x j /\ text j (show x).
(** the object with the members l *)
Definition object_of {K : Type} (den : K -> json -> Prop) (l : list (string * K)) (j : json) : Prop :=
  exists l', j = Obj l' /\ Forall2 (fun a b => fst a = fst b /\ den (snd a) (snd b)) l l'.
(** the array with the elements l *)
Definition array_of {K : Type} (den : K -> json -> Prop) (l : list K) (j : json) : Prop :=
  exists l', j = Arr l' /\ Forall2 den l l'.
