(** What getopt, getopt_long and getopt_long_only read from a command line, call by call.  Independent of their code:
    a caller declares letters and names; words are read from left to right. *)
From Coq Require Import ZArith Bool List Ascii String Arith.
From Verif.Base Require Import CInt CStr.
From Verif.Spec Require Import CmdLine.
Import ListNotations.
Open Scope list_scope.
Open Scope nat_scope.

(** ** What a caller declares *)
(** [LongName]: the letter is followed by a name ("W;"). *)
Inductive takes : Type := Nothing | Value | MaybeValue | LongName.

(** A name; [m_flag]: the variable that is set to [m_value], if any; otherwise that is the value returned. *)
Record name : Type := mkName { m_text : str; m_takes : takes; m_flag : option nat; m_value : Z }.

(** What becomes of words that are no options: they come after all options, reading stops at the first, or they are
    reported like options. *)
Inductive style : Type := Collect | Stop | InOrder.

(** [q_names]: none for getopt; [q_only]: also one dash may introduce a name; [q_colon]: the option string begins with
    a colon (no messages, and ':' for a missing value). *)
Record request : Type := mkRequest {
  q_letters : list (ascii * takes);
  q_names : option (list name);
  q_style : style;
  q_only : bool;
  q_colon : bool
}.

(** The option string. *)
Definition letter_text (l : ascii * takes) : str :=
  fst l :: match snd l with Nothing => [] | Value => lit ":" | MaybeValue => lit "::" | LongName => lit ";" end.
Definition option_string (q : request) : str :=
  (if q_colon q then lit ":" else []) ++ flat_map letter_text (q_letters q).

(** Letters that can be declared: not those with a meaning in the option string, and not the one whose code, as an
    int, is the -1 that says "no more".  Only W takes a name, and only if there are names. *)
Definition fine_letter (q : request) (l : ascii * takes) : Prop :=
  ~ In (fst l) ["000"; "+"; "-"; ":"; ";"; "255"]%char /\ (snd l = LongName -> fst l = "W"%char /\ q_names q <> None).
(** Names that can be declared: C strings; the value returned is not -1. *)
Definition fine_name (n : name) : Prop :=
  c_string (m_text n) /\ m_takes n <> LongName /\ (m_flag n = None -> m_value n <> (-1)%Z).
Definition fine (q : request) : Prop :=
  Forall (fine_letter q) (q_letters q) /\ forall ns, q_names q = Some ns -> Forall fine_name ns.

(** ** What a call reports *)
(** [dash]: how the name was introduced; [text]: what was written there. *)
Inductive event : Type :=
| Letter (c : ascii) (value : option str)
| Name (k : nat) (value : option str)          (* the [k]-th name *)
| Word (w : str)                               (* a word that is no option *)
| NoLetter (c : ascii)                         (* no such letter *)
| LetterLacks (c : ascii)                      (* its value is missing *)
| NoName (dash text : str)                     (* no such name *)
| Ambiguous (dash text : str)                  (* several names start like this *)
| Refuses (k : nat) (dash text : str)          (* a value for a name that takes none *)
| NameLacks (k : nat) (dash text : str)        (* its value is missing *)
| Malformed.                                   (* a dash at the end of a group of letters *)

Section Reading.
Variable q : request.

(** The semicolon of "W;" is a letter too. *)
Definition known : list (ascii * takes) :=
  flat_map (fun l => match snd l with LongName => [l; (";"%char, Nothing)] | _ => [l] end) (q_letters q).
(** The first declaration of a letter counts. *)
Definition letter_is (c : ascii) (t : takes) : Prop :=
  exists before after, known = before ++ (c, t) :: after /\ ~ In c (map fst before).
Definition letter_known (c : ascii) : Prop := exists t, letter_is c t.

Definition names : list name := match q_names q with Some ns => ns | None => [] end.
Definition is_name (k : nat) (n : name) : Prop := nth_error names k = Some n.

(** The [k]-th name is [s]; it starts with [s]. *)
Definition exactly (s : str) (k : nat) : Prop := exists n, is_name k n /\ m_text n = s.
(** [short]: the text could as well be a letter; then one character is no abbreviation. *)
Definition starts (short : bool) (s : str) (k : nat) : Prop :=
  (exists n, is_name k n /\ prefix_of s (m_text n)) /\ ~ (short = true /\ List.length s = 1).
(** Two names that mean the same. *)
Definition alike (j k : nat) : Prop :=
  q_only q = false /\ exists n m, is_name j n /\ is_name k m /\ m_takes n = m_takes m /\ m_flag n = m_flag m /\ m_value n = m_value m.

(** The text [s] stands for the [k]-th name: it is the first with this text; or no name has this text, it is the
    first that starts with it, and all others that do mean the same. *)
Definition stands_for (short : bool) (s : str) (k : nat) : Prop :=
  (exactly s k /\ forall j, exactly s j -> k <= j) \/
  ((forall j, ~ exactly s j) /\ starts short s k /\ forall j, starts short s j -> j = k \/ (k < j /\ alike j k)).
Definition stands_for_none (short : bool) (s : str) : Prop := forall j, ~ exactly s j /\ ~ starts short s j.
Definition stands_for_several (short : bool) (s : str) : Prop :=
  (forall j, ~ exactly s j) /\ exists k, starts short s k /\ (forall j, starts short s j -> k <= j) /\
  exists j, starts short s j /\ j <> k /\ ~ alike j k.

Definition name_takes (k : nat) (t : takes) : Prop := exists n, is_name k n /\ m_takes n = t.

(** The text [s] is read as a name, with the words [ws] behind it; [ws'] remain. *)
Inductive by_name (short : bool) (dash s : str) : list str -> event -> list str -> Prop :=
| name_alone ws k t : splits s s None -> stands_for short s k -> name_takes k t -> t <> Value ->
    by_name short dash s ws (Name k None) ws
| name_here ws a v k t : splits s a (Some v) -> stands_for short a k -> name_takes k t -> t <> Nothing ->
    by_name short dash s ws (Name k (Some v)) ws
| name_next v ws k : splits s s None -> stands_for short s k -> name_takes k Value ->
    by_name short dash s (v :: ws) (Name k (Some v)) ws
| name_lacks k : splits s s None -> stands_for short s k -> name_takes k Value ->
    by_name short dash s [] (NameLacks k dash s) []
| name_refuses ws a v k : splits s a (Some v) -> stands_for short a k -> name_takes k Nothing ->
    by_name short dash s ws (Refuses k dash a) ws
| name_several ws a v : splits s a v -> stands_for_several short a ->
    by_name short dash s ws (Ambiguous dash a) ws
| name_none ws a v : splits s a v -> stands_for_none short a -> short = false ->
    by_name short dash s ws (NoName dash s) ws.

(** ** Where reading stands *)
(** [Before others ws]: before the words [ws]; [others] were passed over.  [Within others w p ws]: within the word
    [w], of which [p] is left. *)
Inductive position : Type :=
| Before (others ws : list str)
| Within (others : list str) (w p : str) (ws : list str).

Definition behind (others : list str) (w p : str) (ws : list str) : position :=
  match p with [] => Before others ws | _ => Within others w p ws end.

(** The text is tried as a letter: there are no names; or names need two dashes; or it is no name, and a letter. *)
Definition tried_as_letter (c : ascii) (p : str) : Prop :=
  c <> "-"%char /\
  (q_names q = None \/ q_only q = false \/
   (letter_known c /\ exists a v, splits (c :: p) a v /\ stands_for_none true a)).

(** One call that reports [e]. *)
Inductive call : position -> event -> position -> Prop :=
(* words *)
| call_collect others w ws e x : q_style q = Collect -> ~ option_word w -> call (Before (others ++ [w]) ws) e x ->
    call (Before others (w :: ws)) e x
| call_word w ws : q_style q = InOrder -> ~ option_word w -> call (Before [] (w :: ws)) (Word w) (Before [] ws)
| call_option others p ws e x : p <> [] -> p <> lit "-" -> call (Within others ("-"%char :: p) p ws) e x ->
    call (Before others (("-"%char :: p) :: ws)) e x
(* names *)
| call_name others w s ws e ws' : q_names q <> None -> s <> [] -> by_name false (lit "--") s ws e ws' ->
    call (Within others w ("-"%char :: s) ws) e (Before others ws')
| call_only others w c p ws short e ws' : q_names q <> None -> q_only q = true -> c <> "-"%char ->
    (short = true <-> letter_known c) -> by_name short (lit "-") (c :: p) ws e ws' ->
    call (Within others w (c :: p) ws) e (Before others ws')
| call_malformed others w ws : q_names q <> None -> call (Within others w (lit "-") ws) Malformed (Before others (w :: ws))
(* letters *)
| call_no_letter others w c p ws : tried_as_letter c p -> ~ letter_known c ->
    call (Within others w (c :: p) ws) (NoLetter c) (behind others w p ws)
| call_dash others w p ws : q_names q = None -> p <> [] ->
    call (Within others w ("-"%char :: p) ws) (NoLetter "-"%char) (behind others w p ws)
| call_flag others w c p ws : tried_as_letter c p -> letter_is c Nothing ->
    call (Within others w (c :: p) ws) (Letter c None) (behind others w p ws)
| call_value others w c p ws t : tried_as_letter c p -> letter_is c t -> t = Value \/ t = MaybeValue -> p <> [] ->
    call (Within others w (c :: p) ws) (Letter c (Some p)) (Before others ws)
| call_next others w c v ws : tried_as_letter c [] -> letter_is c Value ->
    call (Within others w [c] (v :: ws)) (Letter c (Some v)) (Before others ws)
| call_lacks others w c t : tried_as_letter c [] -> letter_is c t -> t = Value \/ t = LongName ->
    call (Within others w [c] []) (LetterLacks c) (Before others [])
| call_omitted others w c ws : tried_as_letter c [] -> letter_is c MaybeValue ->
    call (Within others w [c] ws) (Letter c None) (Before others ws)
| call_long others w c p ws e ws' : tried_as_letter c p -> letter_is c LongName -> p <> [] -> by_name false (lit "-W ") p ws e ws' ->
    call (Within others w (c :: p) ws) e (Before others ws')
| call_long_next others w c v ws e ws' : tried_as_letter c [] -> letter_is c LongName -> by_name false (lit "-W ") v ws e ws' ->
    call (Within others w [c] (v :: ws)) e (Before others ws').

(** A call that reports "no more"; the words from optind on are then [r]. *)
Inductive done : position -> list str -> Prop :=
| done_end others : done (Before others []) others
| done_collect others w ws r : q_style q = Collect -> ~ option_word w -> done (Before (others ++ [w]) ws) r ->
    done (Before others (w :: ws)) r
| done_stop w ws : q_style q = Stop -> ~ option_word w -> done (Before [] (w :: ws)) (w :: ws)
| done_dashes others ws : done (Before others (lit "--" :: ws)) (others ++ ws)
| done_dash others w ws : q_names q = None -> done (Within others w (lit "-") ws) (w :: ws).

(** Calls one after another. *)
Inductive calls : position -> list event -> position -> Prop :=
| calls_none x : calls x [] x
| calls_one x e y es z : call x e y -> calls y es z -> calls x (e :: es) z.

(** The words [ws] are read: the events, and the words that remain. *)
Definition reads (ws : list str) (es : list event) (r : list str) : Prop :=
  exists x, calls (Before [] ws) es x /\ done x r.
(** Reading the words comes to a place that it returns to. *)
Definition circles (ws : list str) : Prop :=
  exists es x es', calls (Before [] ws) es x /\ calls x es' x /\ es' <> [].
End Reading.
