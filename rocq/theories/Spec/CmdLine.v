(** What a command line means: words are read from left to right.  Independent of
    getopt and argtable3. *)
From Coq Require Import List Ascii String.
From Verif.Base Require Import CStr.
Import ListNotations.
Open Scope list_scope.

(** The options: name, and whether a value is required (otherwise none is allowed). *)
Definition options : Type := list (str * bool).
Definition names (os : options) : list str := map fst os.

Definition prefix_of (s n : str) : Prop := exists r, n = s ++ r.

(** The text [s] stands for the option [n]: its name, or an abbreviation that no
    other name starts with. *)
Definition stands_for (os : options) (s n : str) : Prop :=
  In n (names os) /\
  (s = n \/
   (~ In s (names os) /\ prefix_of s n /\ forall n', In n' (names os) -> prefix_of s n' -> n' = n)).

Definition is_flag (os : options) (n : str) : Prop := In (n, false) os.
Definition is_valued (os : options) (n : str) : Prop := In (n, true) os.

(** A word that may hold options: a dash followed by something. *)
Definition option_word (w : str) : Prop := exists c r, w = "-"%char :: c :: r.

Definition no_char (c : ascii) (s : str) : Prop := ~ In c s.

(** The words of a command line hold no null byte. *)
Definition c_string (w : str) : Prop := no_char "000"%char w.

(** [s] is [name] or [name=value]. *)
Definition splits (s name : str) (value : option str) : Prop :=
  no_char "="%char name /\
  s = name ++ match value with Some v => lit "=" ++ v | None => [] end.

(** What is read. [last] is the last word that was read for it. *)
Inductive event : Type :=
| Given (name : str) (value : option str) (last : str)
| Unknown (word : str)     (* no such option, ambiguous, or a value for a flag *)
| NoValue (word : str)     (* the value is missing *)
| Letter (c : ascii).      (* a one-letter option: there are none *)

Section Reading.
Variable os : options.

(** The long option with text [s] in the word [w], followed by the words [ws],
    is the event [e], and the words [ws'] remain. *)
Inductive long_option (w s : str) : list str -> event -> list str -> Prop :=
| long_flag ws n :
    splits s s None -> stands_for os s n -> is_flag os n ->
    long_option w s ws (Given n None w) ws
| long_flag_value ws a v n :
    splits s a (Some v) -> stands_for os a n -> is_flag os n ->
    long_option w s ws (Unknown w) ws
| long_value_here ws a v n :
    splits s a (Some v) -> stands_for os a n -> is_valued os n ->
    long_option w s ws (Given n (Some v) w) ws
| long_value_next v ws n :
    splits s s None -> stands_for os s n -> is_valued os n ->
    long_option w s (v :: ws) (Given n (Some v) v) ws
| long_value_missing n :
    splits s s None -> stands_for os s n -> is_valued os n ->
    long_option w s [] (NoValue w) []
| long_unknown ws a v :
    splits s a v -> (forall n, ~ stands_for os a n) ->
    long_option w s ws (Unknown w) ws.

(** Reading the words gives the events, and the words that are no options.
    [posix]: stop at the first of these (POSIXLY_CORRECT is set). *)
Inductive reads (posix : bool) : list str -> list event -> list str -> Prop :=
| reads_end : reads posix [] [] []
| reads_other w ws es r :
    ~ option_word w -> posix = false -> reads posix ws es r -> reads posix (w :: ws) es (w :: r)
| reads_posix_stop w ws :
    ~ option_word w -> posix = true -> reads posix (w :: ws) [] (w :: ws)
| reads_dashes ws : reads posix (lit "--" :: ws) [] ws
| reads_letters ls ws es r :
    ls <> [] -> no_char "-"%char ls -> reads posix ws es r ->
    reads posix ((lit "-" ++ ls) :: ws) (map Letter ls ++ es) r
| reads_long ls s ws e ws' es r :
    no_char "-"%char ls -> s <> [] ->
    long_option (lit "-" ++ ls ++ lit "-" ++ s) s ws e ws' -> reads posix ws' es r ->
    reads posix ((lit "-" ++ ls ++ lit "-" ++ s) :: ws) (map Letter ls ++ e :: es) r.

(** Reading gives the events [es] and then reaches a word of the form -abc-. *)
Inductive stuck_after (posix : bool) : list str -> list event -> Prop :=
| stuck_here ls ws :
    ls <> [] -> no_char "-"%char ls -> stuck_after posix ((lit "-" ++ ls ++ lit "-") :: ws) []
| stuck_other w ws es :
    ~ option_word w -> posix = false -> stuck_after posix ws es -> stuck_after posix (w :: ws) es
| stuck_letters ls ws es :
    ls <> [] -> no_char "-"%char ls -> stuck_after posix ws es ->
    stuck_after posix ((lit "-" ++ ls) :: ws) (map Letter ls ++ es)
| stuck_long ls s ws e ws' es :
    no_char "-"%char ls -> s <> [] ->
    long_option (lit "-" ++ ls ++ lit "-" ++ s) s ws e ws' -> stuck_after posix ws' es ->
    stuck_after posix ((lit "-" ++ ls ++ lit "-" ++ s) :: ws) (map Letter ls ++ e :: es).
End Reading.
