(** src/argtable3.c:5589-5790: usage lines and the plain glossary of any table; 2036-2070, 2612-2640, 2736-2766,
    2808-2813, 2951-2975, 3244-3275, 3380-3399, 3671-3704, 4581-4601: the messages about errors of all kinds of
    options; 4870-4930: the messages made of them.  [Cat] and [Catf] are the calls on the growable string
    (Model/Dstr.v); the second argument of [Catf] is the formatted text, the first the length of the format. *)
From Coq Require Import ZArith Bool List Ascii String Arith.
From Verif.Base Require Import CInt CStr CMem Tm.
From Verif.Model Require Import ArgInt Argtable Dstr ArgCat Messages Wrap ArgDate ArgObject Trex.
Import ListNotations.
Open Scope list_scope.
Open Scope nat_scope.

(** The members of a table entry that are read here; [u_hasvalue] is ARG_HASVALUE in the flag. *)
Record u_entry := mkU { u_shown : gnu_entry; u_hasvalue : bool; u_min : Z; u_max : Z }.
Definition u_short (e : u_entry) : option str := g_shortopts (u_shown e).

(** [shortopts[0]] *)
Definition first_letter (so : str) : ascii := match so with c :: _ => c | [] => NUL end.
(** [arg_dstr_catf(ds, format, c)] for a format that ends with "%c" behind [prefix]. *)
Definition catf_c (prefix : string) (c : ascii) : op := Catf (String.length prefix + 2) (lit prefix ++ [c]).

(** Lines 5600-5617: mandatory switches, with what becomes of format1 and format2. *)
Fixpoint mandatory_ops (format1 format2 : string) (table : list u_entry) : list op * string :=
  match table with
  | [] => ([], format2)
  | e :: table =>
      if (u_min e <? 1)%Z then mandatory_ops format1 format2 table
      else match u_short e with
           | None => mandatory_ops format1 format2 table
           | Some so =>
               if u_hasvalue e then mandatory_ops format1 format2 table
               else let (os, f2) := mandatory_ops "" "[" table in (catf_c format1 (first_letter so) :: os, f2)
           end
  end.
(** Lines 5620-5638: optional switches, with the suffix. *)
Fixpoint optional_ops (format2 suffix : string) (table : list u_entry) : list op * string :=
  match table with
  | [] => ([], suffix)
  | e :: table =>
      if (u_min e >? 0)%Z then optional_ops format2 suffix table
      else match u_short e with
           | None => optional_ops format2 suffix table
           | Some so =>
               if u_hasvalue e then optional_ops format2 suffix table
               else let (os, sf) := optional_ops "" "]" table in (catf_c format2 (first_letter so) :: os, sf)
           end
  end.
(** arg_print_gnuswitch_ds, lines 5594-5641. *)
Definition gnuswitch_ds (table : list u_entry) : list op :=
  let (os1, format2) := mandatory_ops " -" " [-" table in
  let (os2, suffix) := optional_ops format2 "" table in
  os1 ++ os2 ++ [catf "%s" (lit suffix)].

(** Lines 5665-5693 and 5725-5751: one option as often as it is expected. *)
Definition instances (s : str) (mincount maxcount : Z) : cres (list op) :=
  cbind (int_op (maxcount - mincount)) (fun d =>
  Val (List.concat (repeat [Cat (lit " "); Cat s] (Z.to_nat mincount)) ++
       if (d =? 0)%Z then []
       else if (d =? 1)%Z then [Cat (lit " ["); Cat s; Cat (lit "]")]
       else if (d =? 2)%Z then [Cat (lit " ["); Cat s; Cat (lit "]"); Cat (lit " ["); Cat s; Cat (lit "]")]
       else [Cat (lit " ["); Cat s; Cat (lit "]...")])).

(** Lines 5651-5695. *)
Definition syntax_entry (e : u_entry) : cres (list op) :=
  match u_short e, u_hasvalue e with
  | Some _, false => Val []
  | _, _ =>
      cbind (buffer_text (arg_cat_option (u_short e) (g_longopts (u_shown e)) (g_datatype (u_shown e)) (g_optvalue (u_shown e)) syntax))
        (fun s => match s with [] => Val [] | _ => instances s (u_min e) (u_max e) end)
  end.
(** Lines 5714-5752. *)
Definition syntaxv_entry (e : u_entry) : cres (list op) :=
  cbind (buffer_text (arg_cat_optionv (u_short e) (g_longopts (u_shown e)) (g_datatype (u_shown e)) (g_optvalue (u_shown e)) (lit "|") syntax))
    (fun s => instances s (u_min e) (u_max e)).

(** Lines 5697-5699 and 5754-5756. *)
Definition suffix_ops (suffix : option str) : list op := match suffix with Some s => [Cat s] | None => [] end.
(** arg_print_syntax_ds, lines 5643-5700. *)
Definition print_syntax_ds (table : list u_entry) (suffix : option str) : cres (list op) :=
  after (gnuswitch_ds table) (cbind (over syntax_entry table) (fun os => Val (os ++ suffix_ops suffix))).
(** arg_print_syntaxv_ds, lines 5709-5757. *)
Definition print_syntaxv_ds (table : list u_entry) (suffix : option str) : cres (list op) :=
  cbind (over syntaxv_entry table) (fun os => Val (os ++ suffix_ops suffix)).
(** Lines 5771-5781, with a format "  %-<w>s %s\n" for a [w] of two digits; 5770: the default is 20. *)
Definition glossary_entry (w : nat) (e : u_entry) : cres (list op) :=
  match g_glossary (u_shown e) with
  | None => Val []
  | Some g =>
      cbind (buffer_text (arg_cat_optionv (u_short e) (g_longopts (u_shown e)) (g_datatype (u_shown e)) (g_optvalue (u_shown e)) (lit ", ") syntax))
        (fun s => Val [Catf 11 (lit "  " ++ fmt_left w s ++ lit " " ++ g ++ [NL])])
  end.
(** arg_print_glossary_ds, lines 5766-5782.  (Tables end with a terminator.) *)
Definition print_glossary_ds (format : option nat) (table : list u_entry) : cres (list op) :=
  over (glossary_entry (match format with Some w => w | None => 20 end)) table.
(** arg_print_syntax, arg_print_syntaxv and arg_print_glossary, lines 5702-5707, 5759-5764, 5784-5789. *)
Definition print_syntax (table : list u_entry) (suffix : option str) : cres str := through_dstr (print_syntax_ds table suffix).
Definition print_syntaxv (table : list u_entry) (suffix : option str) : cres str := through_dstr (print_syntaxv_ds table suffix).
Definition print_glossary (format : option nat) (table : list u_entry) : cres str := through_dstr (print_glossary_ds format table).

(** ** Messages about errors *)
(** The members of the header an error function reads. *)
Record named_by := mkN { m_short : option str; m_long : option str; m_data : option str }.
(** arg_print_option_ds, lines 5570-5579. *)
Definition print_option_ds (e : named_by) (data : option str) (suffix : str) : cres (list op) :=
  cbind (option_text (m_short e) (m_long e) data) (fun s => Val [Cat s; Cat suffix]).
(** src/argtable3.c:79 *)
Definition ARG_ERR_BADDOUBLE : Z := 5.
(** [arg_dstr_catf(ds, "%s: ", progname)] *)
Definition colon (progname : str) : op := Catf 4 (progname ++ lit ": ").
(** The cases of ARG_ERR_MINCOUNT and ARG_ERR_MAXCOUNT of all kinds but arg_lit. *)
Definition missing_ops (e : named_by) : cres (list op) := after [Cat (lit "missing option ")] (print_option_ds e (m_data e) [NL]).
Definition excess_ops (e : named_by) (argval : str) : cres (list op) := after [Cat (lit "excess option ")] (print_option_ds e (Some argval) [NL]).
(** [arg_dstr_catf(ds, "invalid argument \"%s\" to option ", argval)] *)
Definition invalid_ops (e : named_by) (argval : str) : cres (list op) :=
  after [Catf 32 (lit "invalid argument """ ++ argval ++ lit """ to option ")] (print_option_ds e (m_data e) [NL]).

(** Lines 2059-2068: the buffer is left as it is, with nothing in it, if the text does not fit; [strftime]
    gives the formatted text, if it fits 200 bytes with its terminator, for the format of the option.
    (What arg_strptime has changed before it fails is lost here; it fails at its first character.) *)
Definition baddate_ops (strftime : tm -> option str) (argval : str) : cres (list op) :=
  let zero := mkTm 0 0 0 0 0 0 0 0 0 in
  let tm := match strptime 100 (lit "1999-12-31 23:59:59") (lit "%F %H:%M:%S") zero false with
            | DRet (Some (_, tm)) => Val tm | DRet None => Val zero | _ => UB end in
  cbind tm (fun tm =>
  match strftime tm with
  | Some t => Val [Catf 31 (lit "illegal timestamp format """ ++ argval ++ lit """" ++ [NL]);
                   Catf 24 (lit "correct format is """ ++ t ++ lit """" ++ [NL])]
  | None => UB
  end).

(** The error functions: arg_lit 3380-3399, arg_int 3244-3275, arg_dbl 2614-2639, arg_str 4581-4601,
    arg_rex 3671-3704, arg_file 2951-2975, arg_date 2040-2070. *)
Definition errorfn (K : kind) (strftime : tm -> option str) (e : named_by) (progname : str) (code : Z) (argval : option str) : cres (list op) :=
  let v := str_of argval in
  let common (other : cres (list op)) : cres (list op) :=
    after [colon progname]
      (if (code =? ARG_ERR_MINCOUNT)%Z then missing_ops e
       else if (code =? ARG_ERR_MAXCOUNT)%Z then excess_ops e v
       else other) in
  match K with
  | KLit =>
      if (code =? ARG_ERR_MINCOUNT)%Z then
        after [Catf 19 (progname ++ lit ": missing option ")]
          (cbind (print_option_ds e (m_data e) [NL]) (fun os => Val (os ++ [Cat [NL]])))
      else if (code =? ARG_ERR_MAXCOUNT)%Z then
        after [Catf 22 (progname ++ lit ": extraneous option ")] (print_option_ds e (m_data e) [NL])
      else Val []
  | KInt => common (if (code =? ARG_ERR_BADINT)%Z then invalid_ops e v
                    else if (code =? ARG_ERR_OVERFLOW)%Z then
                      after [Cat (lit "integer overflow at option ")]
                        (cbind (print_option_ds e (m_data e) (lit " ")) (fun os =>
                         Val (os ++ [Catf 19 (lit "(" ++ v ++ lit " is too large)" ++ [NL])])))
                    else Val [])
  | KDbl => common (if (code =? ARG_ERR_BADDOUBLE)%Z then invalid_ops e v else Val [])
  | KStr => common (Val [])
  | KRex => common (if (code =? ARG_ERR_REGNOMATCH)%Z
                    then after [Cat (lit "illegal value  ")] (print_option_ds e (Some v) [NL]) else Val [])
  | KFile => common (Val [Catf 23 (lit "unknown error at """ ++ v ++ lit """" ++ [NL])])
  | KDate => common (if (code =? ARG_ERR_BADDATE)%Z then baddate_ops strftime v else Val [])
  | KEnd =>                                            (* lines 2736-2766 *)
      Val [colon progname;
           if (code =? ARG_ELIMIT)%Z then Cat (lit "too many errors to display")
           else if (code =? ARG_EMALLOC)%Z then Cat (lit "insufficient memory")
           else if (code =? ARG_ENOMATCH)%Z then Catf 24 (lit "unexpected argument """ ++ v ++ lit """")
           else if (code =? ARG_EMISSARG)%Z then Catf 32 (lit "option """ ++ v ++ lit """ requires an argument")
           else if (code =? ARG_ELONGOPT)%Z then Catf 19 (lit "invalid option """ ++ v ++ lit """")
           else Catf 20 (lit "invalid option ""-" ++ [ascii_of_N (Z.to_N (code mod 256))] ++ lit """");
           Cat [NL]]
  end.

(** What arg_end holds of an error: the error function of the option with the option, the code and the word. *)
Record u_error := mkX { x_kind : kind; x_strftime : tm -> option str; x_named : named_by; x_code : Z; x_argval : option str }.
(** arg_print_errors_ds, lines 2805-2813. *)
Definition print_errors_ds (es : list u_error) (progname : str) : cres (list op) :=
  over (fun x => errorfn (x_kind x) (x_strftime x) (x_named x) progname (x_code x) (x_argval x)) es.
(** arg_print_errors, lines 2815-2820. *)
Definition print_errors_of (es : list u_error) (progname : str) : cres str := through_dstr (print_errors_ds es progname).

(** ** Messages made of these *)
(** Lines 4870-4882. *)
Definition module_name (name : option str) : str := match name with None | Some [] => lit "<name>" | Some n => n end.
Definition module_version (ver : option str) : str := match ver with None | Some [] => lit "0.0.0.0" | Some v => v end.
(** arg_make_get_help_msg, lines 4884-4887. *)
Definition make_get_help_msg (name ver : option str) : list op :=
  [Catf 7 (module_name name ++ lit " v" ++ module_version ver ++ [NL]);
   Catf 47 (lit "Please type '" ++ module_name name ++ lit " help' to get more information." ++ [NL])].
(** arg_make_help_msg, lines 4889-4902; [description] is that of the command, if it is registered. *)
Definition make_help_msg (name : option str) (cmd : str) (description : option str) (table : list u_entry) : cres (list op) :=
  after (match description with Some d => [Catf 7 (cmd ++ lit ": " ++ d ++ [NL])] | None => [] end ++
         [Cat (lit "Usage:" ++ [NL]); Catf 4 (lit "  " ++ module_name name)])
    (cbind (print_syntaxv_ds table (Some ([NL; " "%char; NL] ++ lit "Available options:" ++ [NL]))) (fun os =>
     cbind (print_glossary_ds (Some 23) table) (fun os' => Val (os ++ os' ++ [Cat [NL]])))).
(** arg_make_syntax_err_msg, lines 4904-4910. *)
Definition make_syntax_err_msg (name : option str) (table : list u_entry) (es : list u_error) : cres (list op) :=
  cbind (print_errors_ds es (module_name name)) (fun os =>
  cbind (print_syntaxv_ds table (Some [NL])) (fun os' =>
  Val (os ++ [Cat (lit "Usage: " ++ [NL]); Catf 4 (lit "  " ++ module_name name)] ++ os' ++ [Cat [NL]]))).
(** arg_make_syntax_err_help_msg, lines 4912-4930: what is appended, the value returned, and [*exitcode]. *)
Definition make_syntax_err_help_msg (name : option str) (cmd : str) (help nerrors : Z) (description : option str)
    (table : list u_entry) (es : list u_error) (exitcode : Z) : cres (list op * Z * Z) :=
  if (help >? 0)%Z then cbind (make_help_msg name cmd description table) (fun os => Val (os, 1, 0)%Z)
  else if (nerrors >? 0)%Z then cbind (make_syntax_err_msg name table es) (fun os => Val (os, 1, 1)%Z)
  else Val ([], 0%Z, exitcode).

(** ** Numbers with a fraction: arg_dbl_scanfn, lines 2578-2605.  [strtod] gives the value, as its eight
    bytes, and the number of characters it has read. *)
Definition dbl_scan (strtod : str -> Z * nat) (maxcount count : Z) (dval : list Z) (argval : option str) : cres (Z * Z * list Z) :=
  if (count =? maxcount)%Z then Val (ARG_ERR_MAXCOUNT, count, dval)
  else match argval with
  | None => cbind (int_op (count + 1)) (fun c => Val (0%Z, c, dval))
  | Some text =>
      let (val, end_) := strtod text in
      cbind (CMem.load (terminated text) end_) (fun c =>
      if aeqb c NUL then
        if ((0 <=? count) && (count <? Z.of_nat (List.length dval)))%Z
        then cbind (int_op (count + 1)) (fun c =>
             Val (0%Z, c, firstn (Z.to_nat count) dval ++ [val] ++ skipn (S (Z.to_nat count)) dval))
        else UB
      else Val (ARG_ERR_BADDOUBLE, count, dval))
  end.
