(** C82: messages about errors of all kinds of options, and the messages of a program with commands.  The code
    is in Model/Usage.v ([UB]: undefined behaviour); complaints and their wording are in Spec/UsageSpec.v. *)
From Coq Require Import ZArith Bool List Ascii String.
From Verif.Base Require Import CInt CStr Tm.
From Verif.Model Require Import ArgObject Messages Wrap Usage.
From Verif.Spec Require Import DstrSpec WrapSpec UsageSpec UsageSamples.
From Verif.Proofs Require Import UsageErrors UsageSampleFacts.
Import ListNotations.
Open Scope list_scope.
Open Scope Z_scope.

(** Every error has its message, in the order of the errors, with the option and the word it is about. *)
Theorem C82_errors : forall prog es cs,
  Forall2 (fun e nc => means (fst nc) e (snd nc) /\ sayable prog (fst nc) (snd nc)) es cs ->
  Z.of_nat (List.length (List.concat (map (fun nc => message prog (fst nc) (snd nc)) cs))) < LIMIT ->
  print_errors_of es prog = Val (List.concat (map (fun nc => message prog (fst nc) (snd nc)) cs)).
Proof. exact errors_printed. Qed.
Print Assumptions C82_errors.
(** The hint to ask for help. *)
Theorem C82_ask : forall name ver, str_fine name -> str_fine ver -> Z.of_nat (List.length (ask_for_help name ver)) < LIMIT ->
  through_dstr (Val (make_get_help_msg name ver)) = Val (ask_for_help name ver).
Proof. exact ask_printed. Qed.
Print Assumptions C82_ask.
(** Help if it was asked for; else the errors, if there are any, with the usage; else nothing.  The value
    returned tells whether something was printed, the exit code whether it was an error. *)
Theorem C82_help_or_errors : forall name cmd help nerrors description xs es cs exitcode,
  str_fine name -> no_nul cmd -> str_fine description -> in_table xs ->
  Forall2 (fun e nc => means (fst nc) e (snd nc) /\ sayable (program_name name) (fst nc) (snd nc)) es cs ->
  Z.of_nat (List.length (help_of name cmd description xs)) < LIMIT -> Z.of_nat (List.length (error_help name xs cs)) < LIMIT ->
  exists os code exit', make_syntax_err_help_msg name cmd help nerrors description (map entry_of xs) es exitcode = Val (os, code, exit') /\
    through_dstr (Val os) = Val (if 0 <? help then help_of name cmd description xs else if 0 <? nerrors then error_help name xs cs else []) /\
    code = (if (0 <? help) || (0 <? nerrors) then 1 else 0) /\
    exit' = (if 0 <? help then 0 else if 0 <? nerrors then 1 else exitcode).
Proof. exact err_help_ok. Qed.
Print Assumptions C82_help_or_errors.

(** ** Where it falls short *)
(** The date that shows the right format is not the last of 1999, as the code intends, but no date at all. *)
Theorem C82_date_refuted : exists strftime n, presentable n /\
  strftime (mkTm 59 59 23 31 11 99 5 364 0) = Some (lit "1999-12-31") /\
  print_errors_of [mkX KDate strftime (header_of n) 6 (Some (lit "never"))] (lit "p") =
  Val (lit "p: illegal timestamp format ""never""" ++ nl ++ lit "correct format is ""1900-01-00""" ++ nl).
Proof. exact date_example_somewhere. Qed.
Print Assumptions C82_date_refuted.
(** If the date does not fit the buffer, what is printed is undefined. *)
Theorem C82_long_date_refuted : forall e prog v strftime, strftime (mkTm 0 0 0 0 0 0 0 0 0) = None ->
  print_errors_of [mkX KDate strftime e 6 (Some v)] prog = UB.
Proof. exact date_unbounded. Qed.
Print Assumptions C82_long_date_refuted.

Example sample_messages :
  Forall2 (fun e nc => means (fst nc) e (snd nc) /\ sayable (lit "p") (fst nc) (snd nc)) sample_errors sample_complaints /\
  Z.of_nat (List.length (List.concat (map (fun nc => message (lit "p") (fst nc) (snd nc)) sample_complaints))) < LIMIT /\
  List.concat (map (fun nc => message (lit "p") (fst nc) (snd nc)) sample_complaints) =
  lit "p: missing option -x" ++ nl ++ nl ++
  lit "p: integer overflow at option -l|--level=<n> (99999999999 is too large)" ++ nl ++
  lit "p: excess option -l|--level=7" ++ nl ++
  lit "p: illegal timestamp format ""never""" ++ nl ++ lit "correct format is ""1900-01-00""" ++ nl ++
  lit "p: missing option <file>" ++ nl ++
  lit "p: invalid option ""-" ++ ["195"%char] ++ lit """" ++ nl ++
  lit "p: invalid option ""--what""" ++ nl.
Proof. exact (conj sample_means (conj (proj2 sample_limit) sample_errors_shown)). Qed.
