(** C74: text in columns, and the glossary that wraps its help texts.  The code is
    in Model/Wrap.v ([None]: more rounds than [fuel]); words, lines and the form of
    the glossary are in Spec/WrapSpec.v. *)
From Coq Require Import ZArith Bool List Ascii String Arith Lia.
From Verif.Base Require Import CInt CStr CMem.
From Verif.Model Require Import Dstr ArgCat Messages Wrap.
From Verif.Spec Require Import DstrSpec WrapSpec.
From Verif.Proofs Require Import WrapProofs WrapClaims.
Import ListNotations.
Open Scope list_scope.
Open Scope nat_scope.

(** The words of the text appear in their order on lines that fit, and no word that fits is broken. *)
Theorem C74_column : forall fuel lmargin rmargin text, (0 <= lmargin <= rmargin)%Z -> (rmargin < U32_MOD - 1)%Z ->
  no_nul text -> List.length text < fuel -> ((lmargin + 2) * Z.of_nat (List.length text) < LIMIT)%Z ->
  exists lines out, option_map through_dstr (print_formatted fuel lmargin rmargin text) = Some (Val out) /\
    shows (Z.to_nat (rmargin - lmargin + 1)) text lines /\ printed_lines (Z.to_nat lmargin) lines out.
Proof. exact column_printed. Qed.
Print Assumptions C74_column.

(** The glossary: for every table, each help text behind the names of its option. *)
Theorem C74_glossary : forall fuel table, Forall presentable table -> list_sum (map help_size table) < fuel ->
  (230 * Z.of_nat (List.length table) + 30 * Z.of_nat (list_sum (map help_size table)) < LIMIT - 1)%Z ->
  exists outs, print_glossary_gnu fuel (map members table) = Some (Val (List.concat outs ++ ["010"%char])) /\ Forall2 help_entry table outs.
Proof. exact glossary_printed. Qed.
Print Assumptions C74_glossary.

(** The example in the comment of the code. *)
Definition sample_text : str := lit "Some text that doesn't fit.".
Definition NL1 : string := String "010"%char EmptyString.
Example C74_sample :
  option_map through_dstr (print_formatted 40 4 10 sample_text) =
    Some (Val (lit ("Some" ++ NL1 ++ "    text" ++ NL1 ++ "    that" ++ NL1 ++ "    doesn't" ++ NL1 ++ "    fit." ++ NL1))) /\
  words sample_text = map lit ["Some"; "text"; "that"; "doesn't"; "fit."]%string.
Proof. split; vm_compute; reflexivity. Qed.
Print Assumptions C74_sample.
Example C74_sample_broken :
  option_map through_dstr (print_formatted 40 2 5 (lit "a  abcdefghij k")) =
    Some (Val (lit ("a" ++ NL1 ++ "  abcd" ++ NL1 ++ "  efgh" ++ NL1 ++ "  ij k" ++ NL1))).
Proof. vm_compute. reflexivity. Qed.
Print Assumptions C74_sample_broken.

Definition sample_table : list named :=
  [ {| n_shorts := ["h"; "?"]%char; n_longs := [lit "help"]; n_value := None; n_optional := false; n_help := Some (lit "Display this help") |};
    {| n_shorts := []; n_longs := [lit "max_cpu_time"; lit "cpu"]; n_value := Some (lit "<n>"); n_optional := true; n_help := Some (lit "Time") |};
    {| n_shorts := []; n_longs := []; n_value := Some (lit "FILE"); n_optional := false; n_help := None |} ].
Example C74_sample_glossary : Forall presentable sample_table /\
  print_glossary_gnu 100 (map members sample_table) = Some (Val (lit (
    "  -h, -?, --help            Display this help" ++ NL1 ++
    "      --max_cpu_time, --cpu=[<n>] " ++ NL1 ++
    "                            Time" ++ NL1 ++ NL1))).
Proof.
  split; [|vm_compute; reflexivity]. unfold sample_table, presentable, gnu_column, full_syntax, option_names, option_value, no_nul.
  repeat constructor; cbn [n_shorts n_longs n_value n_help n_optional]; try discriminate; try (vm_compute; lia);
    try (intros ? E; injection E as <-); vm_compute; intuition discriminate.
Qed.
Print Assumptions C74_sample_glossary.

(** Not every line but the first has the margin: a newline in the last stretch that fits is followed by none. *)
Theorem C74_margin_refuted : exists text, option_map through_dstr (print_formatted 40 4 20 text) = Some (Val (lit ("a" ++ NL1 ++ "b" ++ NL1))) /\
  words text = [lit "a"; lit "b"].
Proof. exists (lit ("a" ++ NL1 ++ "b")). split; vm_compute; reflexivity. Qed.
Print Assumptions C74_margin_refuted.

(** A column without width is never finished. *)
Theorem C74_no_width_refuted : forall lmargin, (1 <= lmargin < U32_MOD)%Z -> forall fuel, print_formatted fuel lmargin (lmargin - 1) (lit "a") = None.
Proof. exact no_width_loops. Qed.
Print Assumptions C74_no_width_refuted.

(** An empty help text leaves its line open: the next option continues it. *)
Theorem C74_empty_help_refuted : exists n1 n2, presentable n1 /\ presentable n2 /\
  print_glossary_gnu 100 (map members [n1; n2]) = Some (Val (lit (
    "      --a                   " ++ "      --b                   x" ++ NL1 ++ NL1))).
Proof.
  exists {| n_shorts := []; n_longs := [lit "a"]; n_value := None; n_optional := false; n_help := Some [] |},
         {| n_shorts := []; n_longs := [lit "b"]; n_value := None; n_optional := false; n_help := Some (lit "x") |}.
  split; [|split; [|vm_compute; reflexivity]]; unfold presentable, gnu_column, full_syntax, option_names, option_value, no_nul;
  repeat constructor; cbn [n_shorts n_longs n_value n_help n_optional]; try discriminate; try (vm_compute; lia);
    try (intros ? E; injection E as <-); vm_compute; intuition discriminate.
Qed.
Print Assumptions C74_empty_help_refuted.

(** More of C62: with any number of letters and names, a text that fits is complete. *)
Theorem C62_complete : forall N n sep, 1 <= N -> no_nul sep -> ~ In NUL (n_shorts n) ->
  Forall (fun l => l <> [] /\ no_nul l /\ ~ In ","%char l) (n_longs n) -> (forall v, n_value n = Some v -> no_nul v) -> List.length (full_syntax sep n) < N ->
  buffer_text (arg_cat_optionv (g_shortopts (members n)) (g_longopts (members n)) (n_value n) (n_optional n) sep (fresh_buffer N)) = Val (full_syntax sep n).
Proof. exact option_complete. Qed.
Print Assumptions C62_complete.
Example C62_complete_case : map (full_syntax (lit "|")) sample_table = map lit ["-h|-?|--help"; "--max_cpu_time|--cpu=[<n>]"; "FILE"]%string.
Proof. reflexivity. Qed.
