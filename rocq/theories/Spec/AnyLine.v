(** What a command line means for any set of options: letters and names, values
    that are needed or may be left out, several options in one word.  Independent of
    getopt and argtable3. *)
From Coq Require Import List Ascii String Arith.
From Verif.Base Require Import CStr.
From Verif.Spec Require Import CmdLine.
Import ListNotations.
Open Scope list_scope.
Open Scope nat_scope.

Inductive takes : Type := Nothing | Value | MaybeValue.

(** An option is known by its place in the list.  An option with no letters and no
    names is a positional argument. *)
Record opt : Type := mkOpt { o_letters : list ascii; o_names : list str; o_takes : takes }.

(** What is read. [last] is the last word that was read for it. *)
Inductive event : Type :=
| Long (k : nat) (value : option str) (last : str)   (* given by name *)
| Short (k : nat) (value : option str)               (* given by letter *)
| Unknown (word : str)     (* no such name, ambiguous, or a value for an option without *)
| NoValue (word : str)     (* the value is missing *)
| NoLetter (c : ascii).    (* no such letter *)

Section Reading.
Variable os : list opt.

Definition has_name (k : nat) (n : str) : Prop := exists o, nth_error os k = Some o /\ In n (o_names o).
Definition has_letter (k : nat) (c : ascii) : Prop := exists o, nth_error os k = Some o /\ In c (o_letters o).
Definition option_takes (k : nat) (t : takes) : Prop := exists o, nth_error os k = Some o /\ o_takes o = t.

(** The letter [c] is option [k]: the first that has it. *)
Definition letter_means (c : ascii) (k : nat) : Prop :=
  has_letter k c /\ forall j, has_letter j c -> k <= j.

(** The text [s] stands for option [k]: it is one of its names (the first option
    with that name counts), or it is no name, and all names that start with it are
    names of option [k]. *)
Definition name_means (s : str) (k : nat) : Prop :=
  (has_name k s /\ forall j, has_name j s -> k <= j) \/
  ((forall j, ~ has_name j s) /\ (exists n, has_name k n /\ prefix_of s n) /\
   forall j n, has_name j n -> prefix_of s n -> j = k).

(** The text [s] after two dashes in the word [w], followed by the words [ws], is the
    event [e], and the words [ws'] remain. *)
Inductive long_option (w s : str) : list str -> event -> list str -> Prop :=
| long_alone ws k t :
    splits s s None -> name_means s k -> option_takes k t -> t <> Value ->
    long_option w s ws (Long k None w) ws
| long_refused ws a v k :
    splits s a (Some v) -> name_means a k -> option_takes k Nothing ->
    long_option w s ws (Unknown w) ws
| long_here ws a v k t :
    splits s a (Some v) -> name_means a k -> option_takes k t -> t <> Nothing ->
    long_option w s ws (Long k (Some v) w) ws
| long_next v ws k :
    splits s s None -> name_means s k -> option_takes k Value ->
    long_option w s (v :: ws) (Long k (Some v) v) ws
| long_missing k :
    splits s s None -> name_means s k -> option_takes k Value ->
    long_option w s [] (NoValue w) []
| long_unknown ws a v :
    splits s a v -> (forall k, ~ name_means a k) ->
    long_option w s ws (Unknown w) ws.

(** The text [p] that remains of the word [w], followed by the words [ws]. *)
Inductive inside (w : str) : str -> list str -> list event -> list str -> Prop :=
| inside_end ws : inside w [] ws [] ws
| inside_unknown c p ws es ws' :
    c <> "-"%char -> (forall k, ~ letter_means c k) -> inside w p ws es ws' ->
    inside w (c :: p) ws (NoLetter c :: es) ws'
| inside_flag c p ws k es ws' :
    letter_means c k -> option_takes k Nothing -> inside w p ws es ws' ->
    inside w (c :: p) ws (Short k None :: es) ws'
| inside_value c p ws k t :
    letter_means c k -> option_takes k t -> t <> Nothing -> p <> [] ->
    inside w (c :: p) ws [Short k (Some p)] ws
| inside_next c v ws k :
    letter_means c k -> option_takes k Value ->
    inside w [c] (v :: ws) [Short k (Some v)] ws
| inside_missing c k :
    letter_means c k -> option_takes k Value ->
    inside w [c] [] [NoValue w] []
| inside_omitted c ws k :
    letter_means c k -> option_takes k MaybeValue ->
    inside w [c] ws [Short k None] ws
| inside_long s ws e ws' :
    s <> [] -> long_option w s ws e ws' ->
    inside w ("-"%char :: s) ws [e] ws'.

(** Reading the text comes to a dash at its end: -ab- *)
Inductive ends_in_dash : str -> Prop :=
| dash_here : ends_in_dash (lit "-")
| dash_unknown c p :
    c <> "-"%char -> (forall k, ~ letter_means c k) -> ends_in_dash p -> ends_in_dash (c :: p)
| dash_flag c p k :
    letter_means c k -> option_takes k Nothing -> ends_in_dash p -> ends_in_dash (c :: p).

(** Reading the words gives the events, and the words that are no options.
    [posix]: stop at the first of these (POSIXLY_CORRECT is set). *)
Inductive reads (posix : bool) : list str -> list event -> list str -> Prop :=
| reads_end : reads posix [] [] []
| reads_other w ws es r :
    ~ option_word w -> posix = false -> reads posix ws es r -> reads posix (w :: ws) es (w :: r)
| reads_posix_stop w ws :
    ~ option_word w -> posix = true -> reads posix (w :: ws) [] (w :: ws)
| reads_dashes ws : reads posix (lit "--" :: ws) [] ws
| reads_word p ws es ws' es' r :
    p <> [] -> p <> lit "-" -> inside ("-"%char :: p) p ws es ws' -> reads posix ws' es' r ->
    reads posix (("-"%char :: p) :: ws) (es ++ es') r.

(** Reading comes to a word of the form -ab- *)
Inductive gets_stuck (posix : bool) : list str -> Prop :=
| stuck_here p ws :
    p <> lit "-" -> ends_in_dash p -> gets_stuck posix (("-"%char :: p) :: ws)
| stuck_other w ws :
    ~ option_word w -> posix = false -> gets_stuck posix ws -> gets_stuck posix (w :: ws)
| stuck_later p ws es ws' :
    p <> [] -> p <> lit "-" -> inside ("-"%char :: p) p ws es ws' -> gets_stuck posix ws' ->
    gets_stuck posix (("-"%char :: p) :: ws).
End Reading.
