(** Text in a column, for C74. *)
From Coq Require Import List Ascii Arith.
From Verif.Base Require Import CStr.
From Verif.Model Require Import Wrap.
Import ListNotations.
Open Scope list_scope.
Open Scope nat_scope.

(** The words of a text: what white space separates. *)
Fixpoint words_from (word : str) (s : str) : list str :=
  match s with
  | [] => match word with [] => [] | _ => [word] end
  | c :: s => if isspace c then match word with [] => words_from [] s | _ => word :: words_from [] s end
              else words_from (word ++ [c]) s
  end.
Definition words (s : str) : list str := words_from [] s.

(** The pieces of a word on lines of [width] characters: the word itself, if it fits on a line;
    otherwise all but the last fill a line. *)
Definition pieces (width : nat) (word : str) (ps : list str) : Prop :=
  concat ps = word /\ ~ In [] ps /\ (List.length word <= width -> ps = [word]) /\
  Forall (fun p => List.length p = width) (removelast ps).

(** [lines] show the words of [text] in order, on lines of at most [width] characters. *)
Definition shows (width : nat) (text : str) (lines : list str) : Prop :=
  (forall l, In l lines -> List.length l <= width /\ ~ In "010"%char l) /\
  exists pss, Forall2 (pieces width) (words text) pss /\ concat (map words lines) = concat pss.

(** The printed text: the first line as it is, the others after a margin or without one, each ended. *)
Inductive printed_lines (margin : nat) : list str -> str -> Prop :=
| pl_none : printed_lines margin [] []
| pl_last l : printed_lines margin [l] (l ++ ["010"%char])
| pl_more l ls n t : n = 0 \/ n = margin -> printed_lines margin ls t -> ls <> [] ->
    printed_lines margin (l :: ls) (l ++ ["010"%char] ++ repeat " "%char n ++ t).

(** An option as the glossary names it. *)
Record named := { n_shorts : list ascii; n_longs : list str; n_value : option str; n_optional : bool; n_help : option str }.
Fixpoint joined (sep : str) (l : list str) : str :=
  match l with
  | [] => []
  | [x] => x
  | x :: l => x ++ sep ++ joined sep l
  end.
Definition option_names (sep : str) (n : named) : str :=
  joined sep (map (fun c => ["-"%char; c]) (n_shorts n) ++ map (app ["-"; "-"]%char) (n_longs n)).
Definition option_value (n : named) : str :=
  match n_value n with
  | None => []
  | Some v => (match n_longs n, n_shorts n with _ :: _, _ => ["="%char] | [], _ :: _ => [" "%char] | [], [] => [] end) ++
              (if n_optional n then ["["%char] ++ v ++ ["]"%char] else v)
  end.
Definition full_syntax (sep : str) (n : named) : str := option_names sep n ++ option_value n.
(** Long names stand under long names. *)
Definition gnu_column (n : named) : str :=
  (match n_shorts n, n_longs n with [], _ :: _ => repeat " "%char 4 | _, _ => [] end) ++ full_syntax [","; " "]%char n.
Definition left (w : nat) (s : str) : str := s ++ repeat " "%char (w - List.length s).

(** The names are usable and the column text fits the buffer of 200 bytes. *)
Definition presentable (n : named) : Prop :=
  ~ In NUL (n_shorts n) /\ Forall (fun l => l <> [] /\ no_nul l /\ ~ In ","%char l) (n_longs n) /\
  (forall v, n_value n = Some v -> no_nul v) /\ (forall g, n_help n = Some g -> no_nul g) /\
  List.length (gnu_column n) <= 198.

(** The help for one option: the names, then the help text in the columns 28 to 79;
    names of more than 25 characters have a line for themselves. *)
Definition help_entry (n : named) (out : str) : Prop :=
  match n_help n with
  | None => out = []
  | Some g => exists lines text, shows 52 g lines /\ printed_lines 28 lines text /\
      out = (if 25 <? List.length (gnu_column n)
             then repeat " "%char 2 ++ gnu_column n ++ [" "; "010"]%char ++ repeat " "%char 28
             else repeat " "%char 2 ++ left 25 (gnu_column n) ++ [" "%char]) ++ text
  end.

(** The table entry of such an option: names of several letters are separated by commas. *)
Definition members (n : named) : gnu_entry :=
  mkG (match n_shorts n with [] => None | so => Some so end) (match n_longs n with [] => None | l => Some (joined [","%char] l) end)
      (n_value n) (n_optional n) (n_help n).
(** The length of the help texts. *)
Definition help_size (n : named) : nat := match n_help n with Some g => List.length g | None => 0 end.
