(** src/argtable3.c:5825-5890: printing a text in a column, and 5902-5935: the
    glossary in that form.  The indices are unsigned ints in C; they stay between 0
    and the length of the text, which an assertion keeps below UINT_MAX, and are
    numbers here.  Reading behind the terminator of the text is [UB]. *)
From Coq Require Import ZArith Bool List Ascii String Arith.
From Verif.Base Require Import CInt CStr CMem.
From Verif.Model Require Import ArgInt Argtable Dstr ArgCat Messages.
Import ListNotations.
Open Scope list_scope.
Open Scope nat_scope.

Definition NL : ascii := "010"%char.
(** [*(text + i)] *)
Definition char_at (text : str) (i : nat) : cres ascii := load (terminated text) i.

(** Lines 5842-5844; [n] bytes are left, with the terminator. *)
Fixpoint eat (n : nat) (text : str) (line_start : nat) : cres nat :=
  match n with
  | 0 => UB
  | S n => cbind (char_at text line_start) (fun c =>
           if isspace c && negb (aeqb c NL) then eat n text (S line_start) else Val line_start)
  end.
(** Lines 5850-5852. *)
Fixpoint find_space (text : str) (line_start line_end : nat) : cres nat :=
  match line_end with
  | 0 => Val 0
  | S le => if line_start <? line_end
            then cbind (char_at text line_end) (fun c => if negb (isspace c) then find_space text line_start le else Val line_end)
            else Val line_end
  end.
(** Lines 5860-5862: the second condition is about the start of the line. *)
Fixpoint consume (text : str) (line_start line_end : nat) : cres nat :=
  match line_end with
  | 0 => Val 0
  | S le => if line_start <? line_end
            then cbind (char_at text line_end) (fun c => cbind (char_at text line_start) (fun c0 =>
                 if isspace c && negb (aeqb c0 NL) then consume text line_start le else Val line_end))
            else Val line_end
  end.
(** Lines 5848-5867. *)
Definition line_break (colwidth : Z) (text : str) (line_start line_end : nat) : cres nat :=
  if (colwidth <? Z.of_nat (line_end - line_start))%Z then
    let line_end := line_start + Z.to_nat colwidth in
    cbind (find_space text line_start line_end) (fun le =>
    if le =? line_start then Val line_end
    else cbind (consume text line_start le) (fun le => Val (S le)))
  else Val line_end.
(** Lines 5870-5881: [n] characters are left; the new [line_start] and what is printed. *)
Fixpoint print_line (n : nat) (text : str) (line_start : nat) : cres (nat * list op) :=
  match n with
  | 0 => Val (line_start, [])
  | S n => cbind (char_at text line_start) (fun c =>
           if aeqb c NL then Val (S line_start, [])
           else cbind (print_line n text (S line_start)) (fun '(ls, os) => Val (ls, Catc c :: os)))
  end.
(** Lines 5838-5895; [None]: more than [fuel] rounds. *)
Fixpoint format_lines (fuel : nat) (lmargin : nat) (colwidth : Z) (text : str) (line_start line_end : nat) : option (cres (list op)) :=
  match fuel with
  | 0 => None
  | S fuel =>
      if line_start <? line_end then
        match cbind (eat (List.length text + 1 - line_start) text line_start) (fun ls =>
              cbind (line_break colwidth text ls line_end) (fun le =>
              cbind (print_line (le - ls) text ls) (fun '(ls, os) => Val (ls, le, os)))) with
        | UB => Some UB
        | Val (ls, le, os) =>
            let again := le <? List.length text in
            let indent := if again then repeat (Cat (lit " ")) lmargin else [] in
            option_map (after (os ++ [Cat [NL]] ++ indent))
              (format_lines fuel lmargin colwidth text ls (if again then List.length text else le))
        end
      else Some (Val [])
  end.
(** Lines 5825-5896.  (Line 5833 is never true.) *)
Definition print_formatted (fuel : nat) (lmargin rmargin : Z) (text : str) : option (cres (list op)) :=
  format_lines fuel (Z.to_nat lmargin) (cast_u32 (cast_u32 (rmargin - lmargin) + 1)) text 0 (List.length text).

(** The members of a table entry that arg_print_glossary_gnu_ds reads. *)
Record gnu_entry := mkG {
  g_shortopts : option str; g_longopts : option str; g_datatype : option str; g_optvalue : bool; g_glossary : option str }.
(** Lines 5908 and 5914-5918: [syntax] with its first four bytes set to spaces. *)
Definition gnu_syntax (e : gnu_entry) : cres cursor :=
  match g_shortopts e, g_longopts e with
  | None, Some _ => cbind (store (c_buf syntax) 0 (bytes (lit "    "))) (fun b =>
                    cbind (store b 4 [Some NUL]) (fun b => Val (mkC b 0 199)))
  | _, _ => Val syntax
  end.
(** Lines 5906-5931. *)
Definition gnu_entry_ops (fuel : nat) (e : gnu_entry) : option (cres (list op)) :=
  match g_glossary e with
  | None => Some (Val [])
  | Some g =>
      match buffer_text (cbind (gnu_syntax e) (arg_cat_optionv (g_shortopts e) (g_longopts e) (g_datatype e) (g_optvalue e) (lit ", "))) with
      | UB => Some UB
      | Val s =>
          let (first, s) := if 25 <? List.length s
                            then ([catf "  %-25s %s." (lit "  " ++ fmt_left 25 s ++ lit " " ++ [NL])], [])
                            else ([], s) in
          option_map (after (first ++ [catf "  %-25s " (lit "  " ++ fmt_left 25 s ++ lit " ")])) (print_formatted fuel 28 79 g)
      end
  end.
(** arg_print_glossary_gnu_ds, lines 5902-5935. *)
Fixpoint gnu_ops (fuel : nat) (table : list gnu_entry) : option (cres (list op)) :=
  match table with
  | [] => Some (Val [Cat [NL]])
  | e :: table =>
      match gnu_entry_ops fuel e, gnu_ops fuel table with
      | Some a, Some b => Some (cbind a (fun os => after os b))
      | _, _ => None
      end
  end.
(** arg_print_glossary_gnu, lines 5937-5942: what is written to the stream. *)
Definition print_glossary_gnu (fuel : nat) (table : list gnu_entry) : option (cres str) :=
  option_map through_dstr (gnu_ops fuel table).
