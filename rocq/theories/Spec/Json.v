(** JSON (RFC 8259) as a grammar on bytes.  With [py] the three constants that
    Python's json module also reads are included. *)
From Coq Require Import ZArith List Ascii String.
From Verif.Base Require Import CStr.
From Verif.Spec Require IntText.
Import ListNotations.
Open Scope list_scope.
Open Scope nat_scope.

(** A character of a string: a byte as it stands, or \uXXXX. *)
Inductive jchar : Type := Byte (c : ascii) | Unit_ (n : Z).

Inductive json : Type :=
| JConst (s : str)                       (* true, false, null; NaN, Infinity, -Infinity *)
| JInt (z : Z)
| JReal (s : str)                        (* a number with a fraction or an exponent, as written *)
| JString (s : list jchar)
| JArray (l : list json)
| JObject (l : list (list jchar * json)).

Definition plain (s : string) : list jchar := map Byte (lit s).

Definition blank (s : str) : Prop := Forall (fun c => In c [" "; "009"; "010"; "013"]%char) s.

Definition dig (c : ascii) : Prop := 48 <= nat_of_ascii c <= 57.
Definition digs (s : str) : Prop := s <> [] /\ Forall dig s.

(** int = zero / ( digit1-9 *DIGIT ), with its value. *)
Inductive int_part : str -> Z -> Prop :=
| int_zero : int_part (lit "0") 0%Z
| int_digits c s n : dig c -> c <> "0"%char -> IntText.numeral 10 (c :: s) n -> int_part (c :: s) n.

Inductive fraction : str -> Prop := frac s : digs s -> fraction (lit "." ++ s).
Inductive exponent : str -> Prop :=
| expo e sign s : In e ["e"; "E"]%char -> In sign [[]; lit "+"; lit "-"] -> digs s -> exponent ([e] ++ sign ++ s).

Inductive number : str -> json -> Prop :=
| num_int s n : int_part s n -> number s (JInt n)
| num_neg s n : int_part s n -> number (lit "-" ++ s) (JInt (- n)%Z)
| num_real sign s n f e : In sign [[]; lit "-"] -> int_part s n ->
    (f = [] \/ fraction f) -> (e = [] \/ exponent e) -> f ++ e <> [] ->
    number (sign ++ s ++ f ++ e) (JReal (sign ++ s ++ f ++ e)).

Definition hex4 (s : str) (n : Z) : Prop := List.length s = 4%nat /\ IntText.numeral 16 s n.

Definition escapes : list (ascii * ascii) :=
  [(""""%char, """"%char); ("\"%char, "\"%char); ("/"%char, "/"%char); ("b"%char, "008"%char); ("f"%char, "012"%char);
   ("n"%char, "010"%char); ("r"%char, "013"%char); ("t"%char, "009"%char)].

(** The characters between the quotes. *)
Inductive chars : str -> list jchar -> Prop :=
| chars_end : chars [] []
| chars_plain c s l : 32 <= nat_of_ascii c -> c <> """"%char -> c <> "\"%char -> chars s l -> chars (c :: s) (Byte c :: l)
| chars_escape e c s l : In (e, c) escapes -> chars s l -> chars ("\"%char :: e :: s) (Byte c :: l)
| chars_hex h n s l : hex4 h n -> chars s l -> chars (lit "\u" ++ h ++ s) (Unit_ n :: l).

Definition quoted_string (s : str) (l : list jchar) : Prop := exists t, s = lit """" ++ t ++ lit """" /\ chars t l.

Section Grammar.
Variable py : bool.

Definition constants : list string :=
  ["true"; "false"; "null"]%string ++ if py then ["NaN"; "Infinity"; "-Infinity"]%string else [].

Inductive value : str -> json -> Prop :=
| value_const s : In s constants -> value (lit s) (JConst (lit s))
| value_number s v : number s v -> value s v
| value_string s l : quoted_string s l -> value s (JString l)
| value_array0 w : blank w -> value (lit "[" ++ w ++ lit "]") (JArray [])
| value_array s l : elements s l -> value (lit "[" ++ s ++ lit "]") (JArray l)
| value_object0 w : blank w -> value (lit "{" ++ w ++ lit "}") (JObject [])
| value_object s l : members s l -> value (lit "{" ++ s ++ lit "}") (JObject l)
with elements : str -> list json -> Prop :=
| elements_one w1 s w2 v : blank w1 -> value s v -> blank w2 -> elements (w1 ++ s ++ w2) [v]
| elements_more w1 s w2 v s' l : blank w1 -> value s v -> blank w2 -> elements s' l ->
    elements (w1 ++ s ++ w2 ++ lit "," ++ s') (v :: l)
with members : str -> list (list jchar * json) -> Prop :=
| members_one w1 k kl w2 w3 s v w4 : blank w1 -> quoted_string k kl -> blank w2 -> blank w3 -> value s v -> blank w4 ->
    members (w1 ++ k ++ w2 ++ lit ":" ++ w3 ++ s ++ w4) [(kl, v)]
| members_more w1 k kl w2 w3 s v w4 s' l : blank w1 -> quoted_string k kl -> blank w2 -> blank w3 -> value s v -> blank w4 ->
    members s' l -> members (w1 ++ k ++ w2 ++ lit ":" ++ w3 ++ s ++ w4 ++ lit "," ++ s') ((kl, v) :: l).

(** The text [s] is the JSON value [v]. *)
Definition json_text (s : str) (v : json) : Prop :=
  exists w1 t w2, s = w1 ++ t ++ w2 /\ blank w1 /\ value t v /\ blank w2.
End Grammar.

Scheme value_ind' := Minimality for value Sort Prop
  with elements_ind' := Minimality for elements Sort Prop
  with members_ind' := Minimality for members Sort Prop.
Combined Scheme json_grammar_ind from value_ind', elements_ind', members_ind'.
