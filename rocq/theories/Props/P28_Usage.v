(** C81: usage lines and the plain glossary of any table.  The code is in Model/Usage.v ([UB]: undefined
    behaviour); what the lines look like is in Spec/UsageSpec.v, the options they show in Spec/WrapSpec.v. *)
From Coq Require Import ZArith Bool List Ascii String.
From Verif.Base Require Import CInt CStr.
From Verif.Model Require Import Usage.
From Verif.Spec Require Import DstrSpec WrapSpec UsageSpec UsageSamples.
From Verif.Proofs Require Import UsageProofs UsageSampleFacts.
Import ListNotations.
Open Scope list_scope.
Open Scope Z_scope.

(** The short line: switches gathered, then every other option under one name, as often as it is expected. *)
Theorem C81_syntax : forall xs suffix, in_table xs -> str_fine suffix ->
  Z.of_nat (List.length (usage_line xs ++ suffix_text suffix)) < LIMIT ->
  print_syntax (map entry_of xs) suffix = Val (usage_line xs ++ suffix_text suffix).
Proof. exact syntax_printed. Qed.
Print Assumptions C81_syntax.
(** The verbose line: every option under all names. *)
Theorem C81_syntaxv : forall xs suffix, in_table xs -> str_fine suffix ->
  Z.of_nat (List.length (verbose_line xs ++ suffix_text suffix)) < LIMIT ->
  print_syntaxv (map entry_of xs) suffix = Val (verbose_line xs ++ suffix_text suffix).
Proof. exact syntaxv_printed. Qed.
Print Assumptions C81_syntaxv.
(** The glossary: a line for every option with a help text, in the order of the table. *)
Theorem C81_glossary : forall width xs, Forall (fun x => presentable (x_option x)) xs ->
  let w := match width with Some w => w | None => 20%nat end in
  Z.of_nat (List.length (glossary_text w xs)) < LIMIT -> print_glossary width (map entry_of xs) = Val (glossary_text w xs).
Proof. exact glossary_plain_printed. Qed.
Print Assumptions C81_glossary.
(** The verbose line tells how often an option is expected. *)
Theorem C81_determined : forall n least most least' most' takes,
  presentable n -> full_syntax (lit "|") n <> [] -> hd_error (full_syntax (lit "|") n) <> Some "["%char ->
  let x := mkE n takes least most in let y := mkE n takes least' most' in
  countable x -> countable y -> Z.of_nat (List.length (verbose_line [x])) < LIMIT -> Z.of_nat (List.length (verbose_line [y])) < LIMIT ->
  print_syntaxv (map entry_of [x]) None = print_syntaxv (map entry_of [y]) None -> same_counts least most least' most'.
Proof. exact full_nonempty_determined. Qed.
Print Assumptions C81_determined.

(** ** Where it falls short *)
(** A negative minimum is not refused: with a large maximum the number of optional ones overflows. *)
Theorem C81_overflow_refuted : exists x, presentable (x_option x) /\ x_most x = INT_MAX /\ x_least x = -1 /\
  print_syntax (map entry_of [x]) None = UB /\ print_syntaxv (map entry_of [x]) None = UB.
Proof. exact overflow_somewhere. Qed.
Print Assumptions C81_overflow_refuted.
(** The short line does not tell how often a switch is expected. *)
Theorem C81_switch_count_refuted : exists n line, presentable n /\
  print_syntax (map entry_of [mkE n false 1 1]) None = Val line /\ print_syntax (map entry_of [mkE n false 3 7]) None = Val line.
Proof. exact switch_counts_somewhere. Qed.
Print Assumptions C81_switch_count_refuted.
(** Names that do not fit the buffer are cut without notice. *)
Theorem C81_cut_refuted : exists n line, List.length (full_syntax (lit "|") n) = 306%nat /\
  print_syntaxv (map entry_of [mkE n true 1 1]) None = Val line /\ List.length line = 199%nat.
Proof. exact cut_somewhere. Qed.
Print Assumptions C81_cut_refuted.

Example sample_usage : in_table sample_table /\ Z.of_nat (List.length (usage_line sample_table)) < LIMIT /\
  usage_line sample_table = lit " -x[v] [-l [<n>]] [-l [<n>]] --on=%Y-%m-%d [--on=%Y-%m-%d] <file> <file> [<file>]..." /\
  verbose_line sample_table = lit " [-v|-w|--verbose|--loud]... -x [-l|--level=[<n>]] [-l|--level=[<n>]] --on=%Y-%m-%d [--on=%Y-%m-%d] <file> <file> [<file>]...".
Proof. exact (conj sample_in_table (conj (proj1 sample_limit) (conj sample_usage_shown sample_verbose_shown))). Qed.
