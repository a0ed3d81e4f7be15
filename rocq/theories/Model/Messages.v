(** What main prints: error messages, usage, version and the result
    (src/main.c:47-64 and 172-187, src/argtable3.c).  All but the result go
    through the growable string and the fixed option buffer. *)
From Coq Require Import ZArith Bool List Ascii String Decimal DecimalString.
From Verif.Base Require Import CInt CStr CMem.
From Verif.Model Require Import Config ArgInt Argtable Main Dstr ArgCat.
Import ListNotations.
Open Scope list_scope.
Open Scope nat_scope.

(** printf's %d and %ld: decimal notation. *)
Definition fmt_d (n : Z) : str := lit (NilZero.string_of_int (Z.to_int n)).

(** printf's %-<w>s: at least [w] characters, filled up with spaces. *)
Definition fmt_left (w : nat) (s : str) : str := s ++ repeat " "%char (w - List.length s).

(** [arg_dstr_catf(ds, fmt, ...)] expanding to [text]. *)
Definition catf (fmt : string) (text : str) : op := Catf (String.length fmt) text.

(** src/main.c:4-5 and 17-37: the datatypes of integer and string options; an
    arg_lit has none (src/argtable3.c:3408-3432). *)
Definition datatype (e : entry) : option str :=
  match e_kind e with ALit => None | AInt => Some (lit "<n>") | AStr => Some (lit "<str>") end.

Definition str_of (s : option str) : str := match s with Some s => s | None => [] end.

(** arg_print_option_ds, src/argtable3.c:5570-5579. *)
Definition print_option (e : entry) (data : option str) (suffix : string) : cres (list op) :=
  cbind (option_text (e_short e) (e_long e) data) (fun s => Val [Cat s; Cat (lit suffix)]).

Definition after (os : list op) (r : cres (list op)) : cres (list op) := cbind r (fun os' => Val (os ++ os')).

(** src/main.c:43. *)
Definition progname : str := lit "libjudger.so".
Definition name_colon : op := catf "%s: " (progname ++ lit ": ").

(** The error functions: arg_int_errorfn, src/argtable3.c:3244-3275. *)
Definition int_errorfn (e : entry) (code : Z) (argval : option str) : cres (list op) :=
  let argval := str_of argval in
  after [name_colon]
   (if (code =? ARG_ERR_MINCOUNT)%Z then
      after [Cat (lit "missing option ")] (print_option e (datatype e) (String "010" ""))
    else if (code =? ARG_ERR_MAXCOUNT)%Z then
      after [Cat (lit "excess option ")] (print_option e (Some argval) (String "010" ""))
    else if (code =? ARG_ERR_BADINT)%Z then
      after [catf "invalid argument ""%s"" to option " (lit "invalid argument """ ++ argval ++ lit """ to option ")]
            (print_option e (datatype e) (String "010" ""))
    else if (code =? ARG_ERR_OVERFLOW)%Z then
      after [Cat (lit "integer overflow at option ")]
        (cbind (print_option e (datatype e) " ") (fun os =>
         Val (os ++ [Catf 19 (lit "(" ++ argval ++ lit " is too large)" ++ ["010"%char])])))
    else Val []).

(** arg_lit_errorfn, src/argtable3.c:3380-3399. *)
Definition lit_errorfn (e : entry) (code : Z) : cres (list op) :=
  if (code =? ARG_ERR_MINCOUNT)%Z then
    after [catf "%s: missing option " (progname ++ lit ": missing option ")]
      (cbind (print_option e (datatype e) (String "010" "")) (fun os => Val (os ++ [Cat ["010"%char]])))
  else if (code =? ARG_ERR_MAXCOUNT)%Z then
    after [catf "%s: extraneous option " (progname ++ lit ": extraneous option ")]
      (print_option e (datatype e) (String "010" ""))
  else Val [].

(** arg_str_errorfn, src/argtable3.c:4581-4601. *)
Definition str_errorfn (e : entry) (code : Z) (argval : option str) : cres (list op) :=
  after [name_colon]
   (if (code =? ARG_ERR_MINCOUNT)%Z then
      after [Cat (lit "missing option ")] (print_option e (datatype e) (String "010" ""))
    else if (code =? ARG_ERR_MAXCOUNT)%Z then
      after [Cat (lit "excess option ")] (print_option e (Some (str_of argval)) (String "010" ""))
    else Val []).

(** arg_end_errorfn, src/argtable3.c:2736-2766.  [%c] prints the low byte. *)
Definition end_errorfn (code : Z) (argval : option str) : list op :=
  let argval := str_of argval in
  [name_colon;
   if (code =? ARG_ELIMIT)%Z then Cat (lit "too many errors to display")
   else if (code =? ARG_EMALLOC)%Z then Cat (lit "insufficient memory")
   else if (code =? ARG_ENOMATCH)%Z then
     catf "unexpected argument ""%s""" (lit "unexpected argument """ ++ argval ++ lit """")
   else if (code =? ARG_EMISSARG)%Z then
     catf "option ""%s"" requires an argument" (lit "option """ ++ argval ++ lit """ requires an argument")
   else if (code =? ARG_ELONGOPT)%Z then
     catf "invalid option ""%s""" (lit "invalid option """ ++ argval ++ lit """")
   else catf "invalid option ""-%c""" (lit "invalid option ""-" ++ [ascii_of_N (Z.to_N (code mod 256))] ++ lit """");
   Cat ["010"%char]].

(** One iteration of arg_print_errors_ds, src/argtable3.c:2808-2812. *)
Definition error_ops (e : perror) : cres (list op) :=
  match er_parent e with
  | None => Val (end_errorfn (er_code e) (er_argval e))
  | Some i =>
      match nth_error arg_table i with
      | None => UB
      | Some p =>
          match e_kind p with
          | AInt => int_errorfn p (er_code e) (er_argval e)
          | ALit => lit_errorfn p (er_code e)
          | AStr => str_errorfn p (er_code e) (er_argval e)
          end
      end
  end.

Fixpoint errors_ops (es : list perror) : cres (list op) :=
  match es with
  | [] => Val []
  | e :: es => cbind (error_ops e) (fun os => after os (errors_ops es))
  end.

(** The calls on a new growable string, fputs of it, and its destruction:
    arg_print_errors, src/argtable3.c:2815-2820, arg_print_syntax 5702-5707 and
    arg_print_glossary 5784-5789. *)
Definition through_dstr (r : cres (list op)) : cres str :=
  cbind r (fun os =>
  cbind (calls os arg_dstr_create) (fun d =>
  cbind (arg_dstr_cstr d) (fun t =>
  cbind (arg_dstr_destroy d) (fun _ => Val t)))).

(** src/main.c:60-61. *)
Definition print_errors (es : list perror) : cres str :=
  cbind (through_dstr (errors_ops es)) (fun t =>
  Val (t ++ lit "Try '" ++ progname ++ lit " --help' for more information." ++ ["010"%char])).

(** arg_print_gnuswitch_ds, src/argtable3.c:5594-5641, for a table without short
    options: the suffix is "" and nothing else is printed. *)
Definition gnuswitch_ops : list op := [catf "%s" []].

(** One iteration of arg_print_syntax_ds, src/argtable3.c:5651-5695, for an entry
    without short options. *)
Definition syntax_ops (e : entry) : cres (list op) :=
  cbind (buffer_text (arg_cat_option (e_short e) (e_long e) (datatype e) false syntax)) (fun s =>
  Val (match s with
       | [] => []
       | _ =>
           List.concat (repeat [Cat (lit " "); Cat s] (e_min e)) ++
           match (e_max e - e_min e) with
           | 0 => []
           | 1 => [Cat (lit " ["); Cat s; Cat (lit "]")]
           | 2 => [Cat (lit " ["); Cat s; Cat (lit "]"); Cat (lit " ["); Cat s; Cat (lit "]")]
           | _ => [Cat (lit " ["); Cat s; Cat (lit "]...")]
           end
       end)).

Fixpoint over {A} (f : A -> cres (list op)) (l : list A) : cres (list op) :=
  match l with
  | [] => Val []
  | a :: l => cbind (f a) (fun os => after os (over f l))
  end.

(** The glossaries, src/main.c:15-37. *)
Definition glossaries : list str := map lit
  [ "Display This Help And Exit"; "Display Version Info And Exit"; "Max CPU Time (ms)"; "Max Real Time (ms)";
    "Max Memory (byte)"; "only check memory usage, do not setrlimit (default False)";
    "Max Stack (byte, default 16M)"; "Max Process Number"; "Max Output Size (byte)"; "Exe Path"; "Input Path";
    "Output Path"; "Error Path"; "Arg"; "Env"; "Log Path"; "Seccomp Rule Name"; "UID (default 65534)";
    "GID (default 65534)" ]%string.

(** One iteration of arg_print_glossary_ds, src/argtable3.c:5771-5781, with the
    format "  %-25s %s\n". *)
Definition glossary_ops (eg : entry * str) : cres (list op) :=
  let (e, g) := eg in
  cbind (buffer_text (arg_cat_optionv (e_short e) (e_long e) (datatype e) false (lit ", ") syntax)) (fun s =>
  Val [Catf 11 (lit "  " ++ fmt_left 25 s ++ lit " " ++ g ++ ["010"%char])]).

(** src/main.c:48-50. *)
Definition print_usage : cres str :=
  cbind (through_dstr (after gnuswitch_ops
          (cbind (over syntax_ops arg_table) (fun os => Val (os ++ [Cat ["010"%char; "010"%char]]))))) (fun s =>
  cbind (through_dstr (over glossary_ops (combine arg_table glossaries))) (fun g =>
  Val (lit "Usage: " ++ progname ++ s ++ g))).

(** src/main.c:55. *)
Definition print_version : str :=
  lit "Version: " ++ fmt_d (Z.land (Z.shiftr VERSION 16) 255) ++ lit "." ++
  fmt_d (Z.land (Z.shiftr VERSION 8) 255) ++ lit "." ++ fmt_d (Z.land VERSION 255) ++ ["010"%char].

(** src/main.c:172-187: the result (without a newline at the end). *)
Definition json_field (name : string) (n : Z) : str :=
  lit "    """ ++ lit name ++ lit """: " ++ fmt_d n.
Definition print_result (r : result) : str :=
  let nl := ["010"%char] in let sep := lit "," ++ nl in
  lit "{" ++ nl ++
  json_field "cpu_time" (cpu_time r) ++ sep ++
  json_field "real_time" (real_time r) ++ sep ++
  json_field "memory" (memory r) ++ sep ++
  json_field "signal" (signal r) ++ sep ++
  json_field "exit_code" (exit_code r) ++ sep ++
  json_field "error" (error r) ++ sep ++
  json_field "result" (verdict r) ++ nl ++ lit "}".

(** What main writes to its standard output for an action; [run] gives the
    result that run() stores for a configuration. *)
Definition printed (run : config -> result) (a : action) : cres str :=
  match a with
  | Usage => print_usage
  | Version => Val print_version
  | Errors es => print_errors es
  | Run c => Val (print_result (run c))
  end.
