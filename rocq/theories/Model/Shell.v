(** bindings/NodeJS/judger.cc:183: the command is given to popen, that is to /bin/sh -c.  Here the words of
    simple commands with quoting (POSIX Shell Command Language 2.2: backslash, single quotes, double quotes);
    Model/NodeBinding.v has those without.  [None]: not modelled (expansions, redirections, comments,
    assignments, reserved words, operators other than ; and newline) or a syntax error. *)
From Coq Require Import ZArith Bool List Ascii String.
From Verif.Base Require Import CInt CStr.
From Verif.Model Require Import Config Judger NodeBinding.
Import ListNotations.
Open Scope list_scope.

Inductive quoting : Type := Bare | Escaped | Single | Double | DoubleEscaped.

(** A word that has begun may be empty: ''. *)
Definition sh_add (word : option str) (s : str) : option str := Some (match word with Some w => w | None => [] end ++ s).
Definition sh_close (word : option str) (words : list str) : list str := match word with Some w => words ++ [w] | None => words end.

Definition newline : ascii := "010"%char.
Definition squote : ascii := "'"%char.
Definition dquote : ascii := """"%char.
Definition backslash : ascii := "\"%char.

Fixpoint sh_lex (s : str) (q : quoting) (word : option str) (words : list str) : option (list (list str)) :=
  match s with
  | [] =>
      match q with
      | Bare => match sh_close word words with
                | [] => Some []
                | ws => if simple_command ws then Some [ws] else None
                end
      | _ => None                                     (* a quote that is not closed *)
      end
  | c :: s =>
      match q with
      | Bare =>
          if shell_neutral c then sh_lex s Bare (sh_add word [c]) words
          else if aeqb c squote then sh_lex s Single (sh_add word []) words
          else if aeqb c dquote then sh_lex s Double (sh_add word []) words
          else if aeqb c backslash then sh_lex s Escaped word words
          else if aeqb c " "%char || aeqb c "009"%char then sh_lex s Bare None (sh_close word words)
          else if aeqb c ";"%char || aeqb c newline then
            match sh_close word words with
            | [] => if aeqb c newline then sh_lex s Bare None [] else None
            | ws => if simple_command ws
                    then match sh_lex s Bare None [] with Some cs => Some (ws :: cs) | None => None end
                    else None
            end
          else None
      | Escaped =>                                    (* 2.2.1 *)
          if aeqb c newline then sh_lex s Bare word words else sh_lex s Bare (sh_add word [c]) words
      | Single =>                                     (* 2.2.2 *)
          if aeqb c squote then sh_lex s Bare word words else sh_lex s Single (sh_add word [c]) words
      | Double =>                                     (* 2.2.3 *)
          if aeqb c dquote then sh_lex s Bare word words
          else if aeqb c backslash then sh_lex s DoubleEscaped word words
          else if aeqb c "$"%char || aeqb c "`"%char then None
          else sh_lex s Double (sh_add word [c]) words
      | DoubleEscaped =>
          if aeqb c newline then sh_lex s Double word words
          else if existsb (aeqb c) [dquote; backslash; "$"%char; "`"%char] then sh_lex s Double (sh_add word [c]) words
          else sh_lex s Double (sh_add word [backslash; c]) words
      end
  end.
Definition sh (cmd : str) : option (list (list str)) := sh_lex cmd Bare None [].

(** bindings/NodeJS/judger.cc:107-201 in a world, as [node_calls] of Model/Callers.v, with this shell. *)
Inductive node_sh_calls (W : world) (own : str) (obj : string -> jsval) : history -> option node_out -> Prop :=
| node_sh_refuses : node_command obj = NThrows -> node_sh_calls W own obj NothingRun None
| node_sh_crashes : node_command obj = NUndef -> node_sh_calls W own obj NothingRun (Some NodeUndefined)
| node_sh_starts cmd argv h t st o :
    node_command obj = NVal cmd -> sh cmd = Some [argv] -> hd_error argv = Some (lit "/usr/lib/judger/libjudger.so") ->
    judger W argv h (Prints t st) -> (h = NothingRun -> own = []) ->
    node_decodes (own ++ t) o -> node_sh_calls W own obj h (Some o).
