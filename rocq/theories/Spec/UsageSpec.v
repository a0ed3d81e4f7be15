(** Usage lines and messages about errors, as texts, for C81 and C82.  Options are named as in Spec/WrapSpec.v. *)
From Coq Require Import ZArith Bool List Ascii String.
From Verif.Base Require Import CInt CStr.
From Verif.Base Require Import Tm.
From Verif.Model Require Import ArgInt Argtable Wrap ArgDate ArgObject Trex Usage.
From Verif.Spec Require Import WrapSpec.
Import ListNotations.
Open Scope list_scope.

(** ** Usage *)
(** An option of a table: its names, whether it takes a value, and how often it is expected. *)
Record expected := mkE { x_option : named; x_takes : bool; x_least : Z; x_most : Z }.

Definition with_value (sep : str) (n : named) : str :=
  match n_value n with
  | None => []
  | Some v => sep ++ (if n_optional n then ["["%char] ++ v ++ ["]"%char] else v)
  end.
(** One name is enough: a letter before a word. *)
Definition short_syntax (n : named) : str :=
  match n_shorts n, n_longs n with
  | c :: _, _ => ["-"%char; c] ++ with_value (lit " ") n
  | [], l :: _ => lit "--" ++ l ++ with_value (lit "=") n
  | [], [] => with_value [] n
  end.
(** As often as expected: optional ones in brackets, more than two of them as dots. *)
Definition in_brackets (s : str) : str := lit " [" ++ s ++ lit "]".
Definition times (s : str) (least most : Z) : str :=
  List.concat (repeat (lit " " ++ s) (Z.to_nat least)) ++
  match (most - least)%Z with
  | 0%Z => []
  | 1%Z => in_brackets s
  | 2%Z => in_brackets s ++ in_brackets s
  | _ => in_brackets s ++ lit "..."
  end.

(** Letters without values are gathered: "-ab[cd]" if some are mandatory, "[-cd]" if none is. *)
Definition letter (x : expected) : option ascii :=
  if x_takes x then None else match n_shorts (x_option x) with c :: _ => Some c | [] => None end.
Fixpoint letters (which : expected -> bool) (xs : list expected) : str :=
  match xs with
  | [] => []
  | x :: xs => match letter x with
               | Some c => if which x then c :: letters which xs else letters which xs
               | None => letters which xs
               end
  end.
Definition mandatory (x : expected) : bool := (1 <=? x_least x)%Z.
Definition gathered (xs : list expected) : str :=
  match letters mandatory xs, letters (fun x => negb (mandatory x)) xs with
  | [], [] => []
  | [], os => lit " [-" ++ os ++ lit "]"
  | ms, [] => lit " -" ++ ms
  | ms, os => lit " -" ++ ms ++ lit "[" ++ os ++ lit "]"
  end.
Definition usage_of (x : expected) : str :=
  match letter x with
  | Some _ => []
  | None => match short_syntax (x_option x) with [] => [] | s => times s (x_least x) (x_most x) end
  end.
Definition usage_line (xs : list expected) : str := gathered xs ++ List.concat (map usage_of xs).
(** The verbose form: all names. *)
Definition verbose_line (xs : list expected) : str :=
  List.concat (map (fun x => times (full_syntax (lit "|") (x_option x)) (x_least x) (x_most x)) xs).
(** Two columns. *)
Definition glossary_line (w : nat) (x : expected) : str :=
  match n_help (x_option x) with
  | None => []
  | Some g => lit "  " ++ left w (full_syntax (lit ", ") (x_option x)) ++ lit " " ++ g ++ ["010"%char]
  end.
Definition glossary_text (w : nat) (xs : list expected) : str := List.concat (map (glossary_line w) xs).

(** Counts as the constructors make them. *)
Definition countable (x : expected) : Prop := (0 <= x_least x <= x_most x)%Z /\ (x_most x <= INT_MAX)%Z.

(** A table with such options; a text that may be absent. *)
Definition in_table (xs : list expected) : Prop := Forall (fun x => presentable (x_option x) /\ countable x) xs.
Definition str_fine (o : option str) : Prop := forall s, o = Some s -> no_nul s.
Definition suffix_text (suffix : option str) : str := match suffix with Some s => s | None => [] end.
(** The same counts, as far as it is told: three or more optional ones are dots. *)
Definition same_counts (least most least' most' : Z) : Prop :=
  least = least' /\ (most - least = most' - least' \/ 3 <= most - least /\ 3 <= most' - least')%Z.

(** ** Errors *)
Inductive complaint :=
  | TooFew | TooManyOf (v : str)                     (* of an option with values *)
  | FlagTooFew | FlagTooMany
  | NotInt (v : str) | IntTooLarge (v : str) | NotDouble (v : str) | NoMatch (v : str)
  | NotDate (v : str) (example : str)
  | Unexpected (v : str) | NeedsArgument (v : str) | UnknownLong (v : str) | UnknownLetter (c : ascii) | MoreErrors | OutOfMemory.
Definition in_quotes (v : str) : str := [""""%char] ++ v ++ [""""%char].
(** The option with its names and the form of its value; with the value that was given, cut after 198 characters. *)
Definition given (n : named) (v : option str) : named :=
  {| n_shorts := n_shorts n; n_longs := n_longs n; n_value := v; n_optional := false; n_help := n_help n |}.
Definition called (n : named) : str := full_syntax (lit "|") (given n (n_value n)).
Definition called_with (n : named) (v : str) : str :=
  firstn 198 (full_syntax (lit "|") (given n (Some v))).
Definition nl : str := ["010"%char].
Definition says (n : named) (c : complaint) : str :=
  match c with
  | TooFew => lit "missing option " ++ called n ++ nl
  | TooManyOf v => lit "excess option " ++ called_with n v ++ nl
  | FlagTooFew => lit "missing option " ++ called n ++ nl ++ nl
  | FlagTooMany => lit "extraneous option " ++ called n ++ nl
  | NotInt v | NotDouble v => lit "invalid argument " ++ in_quotes v ++ lit " to option " ++ called n ++ nl
  | IntTooLarge v => lit "integer overflow at option " ++ called n ++ lit " (" ++ v ++ lit " is too large)" ++ nl
  | NoMatch v => lit "illegal value  " ++ called_with n v ++ nl
  | NotDate v ex => lit "illegal timestamp format " ++ in_quotes v ++ nl ++ lit "correct format is " ++ in_quotes ex ++ nl
  | Unexpected v => lit "unexpected argument " ++ in_quotes v ++ nl
  | NeedsArgument v => lit "option " ++ in_quotes v ++ lit " requires an argument" ++ nl
  | UnknownLong v => lit "invalid option " ++ in_quotes v ++ nl
  | UnknownLetter c => lit "invalid option " ++ in_quotes (lit "-" ++ [c]) ++ nl
  | MoreErrors => lit "too many errors to display" ++ nl
  | OutOfMemory => lit "insufficient memory" ++ nl
  end.
Definition message (prog : str) (n : named) (c : complaint) : str := prog ++ lit ": " ++ says n c.
(** The texts in it. *)
Definition texts (c : complaint) : list str :=
  match c with
  | TooManyOf v | NotInt v | IntTooLarge v | NotDouble v | NoMatch v | Unexpected v | NeedsArgument v | UnknownLong v => [v]
  | NotDate v ex => [v; ex]
  | UnknownLetter c => [[c]]
  | _ => []
  end.

(** ** The messages of a program with commands *)
Definition program_name (name : option str) : str := match name with None | Some [] => lit "<name>" | Some n => n end.
Definition ask_for_help (name ver : option str) : str :=
  program_name name ++ lit " v" ++ (match ver with None | Some [] => lit "0.0.0.0" | Some v => v end) ++ nl ++
  lit "Please type '" ++ program_name name ++ lit " help' to get more information." ++ nl.
Definition help_of (name : option str) (cmd : str) (description : option str) (xs : list expected) : str :=
  (match description with Some d => cmd ++ lit ": " ++ d ++ nl | None => [] end) ++
  lit "Usage:" ++ nl ++ lit "  " ++ program_name name ++ verbose_line xs ++ nl ++ lit " " ++ nl ++
  lit "Available options:" ++ nl ++ glossary_text 23 xs ++ nl.
Definition error_help (name : option str) (xs : list expected) (cs : list (named * complaint)) : str :=
  List.concat (map (fun nc => message (program_name name) (fst nc) (snd nc)) cs) ++
  lit "Usage: " ++ nl ++ lit "  " ++ program_name name ++ verbose_line xs ++ nl ++ nl.

(** ** What the code has of these *)
(** The table entry of an option. *)
Definition entry_of (x : expected) : u_entry := mkU (members (x_option x)) (x_takes x) (x_least x) (x_most x).
Definition header_of (n : named) : named_by := mkN (g_shortopts (members n)) (g_longopts (members n)) (n_value n).
(** The error codes: what an option of some kind means by them.  The date that shows the format is the one
    strftime makes of zeros. *)
Inductive means (n : named) : u_error -> complaint -> Prop :=
  | means_few K f v : K <> KLit -> K <> KEnd -> means n (mkX K f (header_of n) 1 v) TooFew
  | means_many K f v : K <> KLit -> K <> KEnd -> means n (mkX K f (header_of n) 2 (Some v)) (TooManyOf v)
  | means_flag_few f v : means n (mkX KLit f (header_of n) 1 v) FlagTooFew
  | means_flag_many f v : means n (mkX KLit f (header_of n) 2 v) FlagTooMany
  | means_int f v : means n (mkX KInt f (header_of n) 3 (Some v)) (NotInt v)
  | means_large f v : means n (mkX KInt f (header_of n) 4 (Some v)) (IntTooLarge v)
  | means_double f v : means n (mkX KDbl f (header_of n) 5 (Some v)) (NotDouble v)
  | means_date f v ex : f (mkTm 0 0 0 0 0 0 0 0 0) = Some ex -> means n (mkX KDate f (header_of n) 6 (Some v)) (NotDate v ex)
  | means_match f v : means n (mkX KRex f (header_of n) 7 (Some v)) (NoMatch v)
  | means_more f h v : means n (mkX KEnd f h 1 v) MoreErrors
  | means_memory f h v : means n (mkX KEnd f h 2 v) OutOfMemory
  | means_unexpected f h v : means n (mkX KEnd f h 3 (Some v)) (Unexpected v)
  | means_long f h v : means n (mkX KEnd f h 4 (Some v)) (UnknownLong v)
  | means_argument f h v : means n (mkX KEnd f h 5 (Some v)) (NeedsArgument v)
  | means_letter f h c code v : ~ (1 <= code <= 5)%Z -> (code mod 256 = Z.of_nat (nat_of_ascii c))%Z ->
      means n (mkX KEnd f h code v) (UnknownLetter c).
(** A complaint whose texts are C strings, about an option whose names fit. *)
Definition sayable (prog : str) (n : named) (c : complaint) : Prop :=
  presentable n /\ Forall no_nul (prog :: texts c).
