(** What a regular expression means, and how one is written.  Nothing here refers to the model. *)
From Coq Require Import NArith Bool List Ascii String.
From Verif.Base Require Import CStr.
Import ListNotations.
Open Scope list_scope.

(** ** Meaning *)
(** An element of a set [...]: a character, a range of them, a kind of them. *)
Inductive item := One (c : ascii) | From_to (a b : ascii) | OfKind (k : ascii).
Inductive rx :=
  | Char (c : ascii)               (* this character *)
  | Kind (k : ascii)               (* a character of a kind *)
  | Any                            (* any character *)
  | Start | Stop                   (* the beginning, the end of the text *)
  | Word (b : bool)                (* where a word begins or ends; not there *)
  | Set_ (out : bool) (its : list item)  (* a character in (out of) the set *)
  | Seq (a b : rx)                 (* one behind the other *)
  | Or (a b : rx)                  (* one or the other *)
  | Rep (a : rx) (min : N) (max : option N). (* so often *)

Definition lies (a c b : N) : bool := (N.leb a c && N.leb c b)%bool.
Definition small (c : ascii) := lies (code "a") (code c) (code "z").
Definition capital (c : ascii) := lies (code "A") (code c) (code "Z").
Definition digit (c : ascii) := lies (code "0") (code c) (code "9").
Definition letter (c : ascii) := small c || capital c.
Definition white (c : ascii) := N.eqb (code c) 32 || lies 9 (code c) 13.
Definition hex (c : ascii) := digit c || lies (code "A") (code c) (code "F") || lies (code "a") (code c) (code "f").
Definition ctrl (c : ascii) := N.ltb (code c) 32 || N.eqb (code c) 127.
Definition visible (c : ascii) := lies 33 (code c) 126.
(** The kinds, named by the letter behind the backslash. *)
Definition kind (k c : ascii) : bool :=
  if aeqb k "a" then letter c else if aeqb k "A" then negb (letter c)
  else if aeqb k "w" then letter c || digit c || aeqb c "_" else if aeqb k "W" then negb (letter c || digit c || aeqb c "_")
  else if aeqb k "s" then white c else if aeqb k "S" then negb (white c)
  else if aeqb k "d" then digit c else if aeqb k "D" then negb (digit c)
  else if aeqb k "x" then hex c else if aeqb k "X" then negb (hex c)
  else if aeqb k "c" then ctrl c else if aeqb k "C" then negb (ctrl c)
  else if aeqb k "p" then visible c && negb (letter c || digit c)
  else if aeqb k "P" then negb (visible c && negb (letter c || digit c))
  else if aeqb k "l" then small c else if aeqb k "u" then capital c else false.

Section meaning.
Variables (icase : bool) (text : str).
Definition same (c d : ascii) : Prop := c = d \/ icase = true /\ toupper c = toupper d.
Definition has (it : item) (c : ascii) : Prop :=
  match it with
  | One d => same c d
  | From_to a b => exists d, same c d /\ (code a <= code d <= code b)%N
  | OfKind k => kind k c = true
  end.
Definition blank_at (o : option ascii) : bool := match o with Some c => white c | None => true end.
(** Between the characters [i - 1] and [i]. *)
Definition boundary (i : nat) : bool :=
  xorb (blank_at (match i with O => None | S i => nth_error text i end)) (blank_at (nth_error text i)).

Fixpoint times (R : nat -> nat -> Prop) (n : nat) (i j : nat) : Prop :=
  match n with O => i = j | S n => exists k, R i k /\ times R n k j end.
(** [lang r i j]: the characters from [i] up to [j] are an instance of [r]. *)
Fixpoint lang (r : rx) (i j : nat) : Prop :=
  match r with
  | Char d => j = S i /\ exists c, nth_error text i = Some c /\ same c d
  | Kind k => j = S i /\ exists c, nth_error text i = Some c /\ kind k c = true
  | Any => j = S i /\ exists c, nth_error text i = Some c
  | Start => i = 0 /\ j = 0
  | Stop => i = List.length text /\ j = i
  | Word b => j = i /\ boundary i = b
  | Set_ out its => j = S i /\ exists c, nth_error text i = Some c /\
                    (if out then ~ Exists (fun it => has it c) its else Exists (fun it => has it c) its)
  | Seq a b => exists k, lang a i k /\ lang b k j
  | Or a b => lang a i j \/ lang b i j
  | Rep a min max => exists n, (min <= N.of_nat n)%N /\ (match max with Some m => N.of_nat n <= m | None => True end)%N /\
                     times (lang a) n i j
  end.
(** The whole text is an instance of [r]. *)
Definition matches (r : rx) : Prop := lang r 0 (List.length text).
End meaning.

(** ** Writing *)
(** Behind a backslash: characters that stand for control characters, and the kinds. *)
Definition control_letter (c d : ascii) : Prop :=
  In (c, code d) [("n"%char, 10%N); ("t"%char, 9%N); ("r"%char, 13%N); ("f"%char, 12%N); ("v"%char, 11%N)].
Definition kind_letters : str := lit "aAwWsSdDxXcCpPlu".
Definition printing (c : ascii) : Prop := (32 <= code c <= 126)%N.

(** Decimal numbers. *)
Definition value (ds : str) : N := fold_left (fun v d => v * 10 + (code d - 48))%N ds 0%N.
Definition digits (ds : str) : Prop := ds <> [] /\ Forall (fun d => digit d = true) ds.
(** How often: behind the thing to be repeated. *)
Inductive count : str -> N -> option N -> Prop :=
  | count_any : count (lit "*") 0 None
  | count_some : count (lit "+") 1 None
  | count_option : count (lit "?") 0 (Some 1%N)
  | count_exact ds : digits ds -> count (lit "{" ++ ds ++ lit "}") (value ds) (Some (value ds))
  | count_least ds : digits ds -> count (lit "{" ++ ds ++ lit ",}") (value ds) None
  | count_range ds es : digits ds -> digits es -> count (lit "{" ++ ds ++ lit "," ++ es ++ lit "}") (value ds) (Some (value es)).

(** A character or a kind in a set; [minus] says whether a plain '-' may stand for itself. *)
Inductive member (minus : bool) : str -> item -> Prop :=
  | member_plain c : printing c -> ~ In c (lit "\]") -> (minus = false -> c <> "-"%char) -> member minus [c] (One c)
  | member_control c d : control_letter c d -> member minus ["\"%char; c] (One d)
  | member_kind k : In k kind_letters -> member minus ["\"%char; k] (OfKind k)
  | member_escaped c : c <> NUL -> ~ In c (lit "ntrfv" ++ kind_letters) -> member minus ["\"%char; c] (One c).
(** The end of a range. *)
Inductive limit : str -> ascii -> Prop :=
  | limit_plain c : printing c -> c <> "\"%char -> limit [c] c
  | limit_control c d : control_letter c d -> limit ["\"%char; c] d
  | limit_escaped c : c <> NUL -> ~ In c (lit "ntrfv") -> limit ["\"%char; c] c.
(** A '-' behind a single member makes a range. *)
Inductive members : bool -> str -> list item -> Prop :=
  | members_none minus : members minus [] []
  | members_one minus s it rest its : member minus s it -> members false rest its -> members minus (s ++ rest) (it :: its)
  | members_range minus s a t b rest its : member minus s (One a) -> limit t b -> members true rest its ->
      members minus (s ++ lit "-" ++ t ++ rest) (From_to a b :: its).

(** [avoid] lists the characters that do not stand for themselves where a thing begins: "^" where it
    would mean the beginning of the text, "?" behind "(", and those that would continue or end what is
    before.  A special character stands for itself elsewhere. *)
Definition specials : str := lit "([$.\".
Definition behind (repeated : bool) : str := lit "|)*+" ++ (if repeated then [] else lit "?{").
Inductive level := Atom | Chain | List_.
Inductive written : level -> str -> str -> rx -> Prop :=
  | w_plain avoid c : printing c -> ~ In c (specials ++ avoid) -> written Atom avoid [c] (Char c)
  | w_control avoid c d : control_letter c d -> written Atom avoid ["\"%char; c] (Char d)
  | w_kind avoid k : In k kind_letters -> written Atom avoid ["\"%char; k] (Kind k)
  | w_word avoid : written Atom avoid (lit "\b") (Word true)
  | w_no_word avoid : written Atom avoid (lit "\B") (Word false)
  | w_escaped avoid c : c <> NUL -> ~ In c (lit "ntrfvbB" ++ kind_letters) -> written Atom avoid ["\"%char; c] (Char c)
  | w_any avoid : written Atom avoid (lit ".") Any
  | w_stop avoid : written Atom avoid (lit "$") Stop
  | w_set avoid s its : its <> [] -> hd_error s <> Some "^"%char -> members true s its ->
      written Atom avoid (lit "[" ++ s ++ lit "]") (Set_ false its)
  | w_set_out avoid s its : its <> [] -> members true s its -> written Atom avoid (lit "[^" ++ s ++ lit "]") (Set_ true its)
  | w_group avoid s r : written List_ (lit "^?") s r -> written Atom avoid (lit "(" ++ s ++ lit ")") r
  | w_group_plain avoid s r : written List_ (lit "^") s r -> written Atom avoid (lit "(?:" ++ s ++ lit ")") r
  | w_last avoid s r : written Atom avoid s r -> written Chain avoid s r
  | w_last_rep avoid s r c min max : written Atom avoid s r -> count c min max -> written Chain avoid (s ++ c) (Rep r min max)
  | w_more avoid s r t q : written Atom avoid s r -> written Chain (behind false) t q -> written Chain avoid (s ++ t) (Seq r q)
  | w_more_rep avoid s r c min max t q : written Atom avoid s r -> count c min max -> written Chain (behind true) t q ->
      written Chain avoid (s ++ c ++ t) (Seq (Rep r min max) q)
  | w_list avoid s r : written Chain avoid s r -> written List_ avoid s r
  | w_start avoid s r : written Chain [] s r -> written List_ avoid (lit "^" ++ s) (Seq Start r)
  | w_or avoid s r t q : written Chain avoid s r -> written List_ (lit "^") t q -> written List_ avoid (s ++ lit "|" ++ t) (Or r q)
  | w_start_or avoid s r t q : written Chain [] s r -> written List_ (lit "^") t q ->
      written List_ avoid (lit "^" ++ s ++ lit "|" ++ t) (Or (Seq Start r) q).
(** The pattern [s] is a way to write [r]. *)
Definition writes (s : str) (r : rx) : Prop := written List_ (lit "^") s r.

(** ** What the claims ask of an expression *)
(** No word boundaries; numbers below 65535; ranges between ASCII characters and, if the case of letters
    does not matter, between two small letters, two capitals or two digits. *)
Definition range_ok (icase : bool) (it : item) : Prop :=
  match it with
  | From_to a b => (code a < 128 /\ code b < 128)%N /\
      (icase = true -> (small a && small b) || (capital a && capital b) || (digit a && digit b) = true)
  | _ => True
  end.
Fixpoint tame (icase : bool) (r : rx) : Prop :=
  match r with
  | Word _ => False
  | Set_ _ its => Forall (range_ok icase) its
  | Seq a b | Or a b => tame icase a /\ tame icase b
  | Rep a min max => tame icase a /\ (min < 65535)%N /\ (match max with Some m => m < 65535 | None => True end)%N
  | _ => True
  end.
(** Nothing that the end of the text could be taken for: no '.', no set of characters to leave out, no
    word boundary, and no character, range or kind to which the byte 0 belongs. *)
Definition stays_item (it : item) : Prop :=
  match it with
  | One c => c <> NUL
  | From_to a b => (0 < code a < 128)%N
  | OfKind k => kind k NUL = false
  end.
Fixpoint stays (r : rx) : Prop :=
  match r with
  | Any | Word _ => False
  | Set_ out its => out = false /\ Forall stays_item its
  | Kind k => kind k NUL = false
  | Char c => c <> NUL
  | Start | Stop => True
  | Seq a b | Or a b => stays a /\ stays b
  | Rep a _ _ => stays a
  end.
(** Expressions for which matching is exact: nothing repeated and no alternatives but, at the end, a
    single character as often as said, with or without a '$' behind. *)
Fixpoint plain (r : rx) : Prop :=
  match r with
  | Char _ | Kind _ | Any | Start | Stop | Set_ _ _ => True
  | Seq a b => plain a /\ plain b
  | _ => False
  end.
Definition single (r : rx) : Prop := match r with Char _ | Kind _ | Set_ _ _ => True | _ => False end.
Inductive simple : rx -> Prop :=
  | simple_plain r : plain r -> simple r
  | simple_rep a min max : single a -> stays a -> simple (Rep a min max)
  | simple_rep_stop a min max : single a -> stays a -> simple (Seq (Rep a min max) Stop)
  | simple_seq a b : plain a -> simple b -> simple (Seq a b).
(** What the compiler is known to accept: patterns below a gigabyte with at most four digits in a row and,
    if they are longer than 32 characters, without '-'. *)
Definition acceptable (pat : str) : Prop :=
  no_nul pat /\ (N.of_nat (List.length pat) < 1073741824)%N /\ (~ In "-"%char pat \/ List.length pat <= 32) /\
  (forall a ds b, pat = a ++ ds ++ b -> Forall (fun d => digit d = true) ds -> List.length ds <= 4).
(** Storing a value. *)
Definition stored (vals : list str) (at_ : nat) (v : str) (vals' : list str) : Prop :=
  List.length vals' = List.length vals /\ nth_error vals' at_ = Some v /\ forall k, k <> at_ -> nth_error vals' k = nth_error vals k.
