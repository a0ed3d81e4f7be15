(** The messages a user sees, as texts. *)
From Coq Require Import ZArith List Ascii String.
From Verif.Base Require Import CStr.
From Verif.Spec Require Import Invocation.
Import ListNotations.
Open Scope list_scope.

Definition newline : str := ["010"%char].
Definition quoted (s : str) : str := lit """" ++ s ++ lit """".

(** The form of a value in a message about the option [n]. *)
Definition placeholder (n : str) : str :=
  match find (fun o => str_eqb (o_name o) n) judger_options with
  | Some o => match o_kind o with Flag => [] | Number => lit "=<n>" | Text => lit "=<str>" end
  | None => []
  end.
Definition described (n : str) : str := lit "--" ++ n ++ placeholder n.

Definition complaint (f : fault) : str :=
  match f with
  | UnknownOption w => lit "invalid option " ++ quoted w
  | MissingValue w => lit "option " ++ quoted w ++ lit " requires an argument"
  | NoSuchLetter c => lit "invalid option " ++ quoted (lit "-" ++ [c])
  | TooMany n None => lit "extraneous option --" ++ n
  | TooMany n (Some v) => lit "excess option " ++ firstn 198 (lit "--" ++ n ++ lit "=" ++ v)   (* cut, see C62 *)
  | NotANumber n v => lit "invalid argument " ++ quoted v ++ lit " to option " ++ described n
  | OutOfRange n v => lit "integer overflow at option " ++ described n ++ lit " (" ++ v ++ lit " is too large)"
  | Stray w => lit "unexpected argument " ++ quoted w
  | Required n => lit "missing option " ++ described n
  | MoreFaults => lit "too many errors to display"
  end.

Definition report_line (f : fault) : str := lit "libjudger.so: " ++ complaint f ++ newline.
Definition hint : str := lit "Try 'libjudger.so --help' for more information." ++ newline.
Definition report (fs : list fault) : str := List.concat (map report_line fs) ++ hint.

(** The codes 1 to 5, which no terminal sends as letters, are taken for other
    faults. *)
Definition ordinary (c : ascii) : Prop := ~ (1 <= nat_of_ascii c <= 5).

(** Shorter than 100 megabytes (Linux accepts at most 128 KiB per word). *)
Definition short (w : str) : Prop := (Z.of_nat (List.length w) <= 100000000)%Z.

(** The help text. *)
Definition description (n : str) : str :=
  let is s := str_eqb n (lit s) in
  lit (if is "help" then "Display This Help And Exit"
  else if is "version" then "Display Version Info And Exit"
  else if is "max_cpu_time" then "Max CPU Time (ms)"
  else if is "max_real_time" then "Max Real Time (ms)"
  else if is "max_memory" then "Max Memory (byte)"
  else if is "memory_limit_check_only" then "only check memory usage, do not setrlimit (default False)"
  else if is "max_stack" then "Max Stack (byte, default 16M)"
  else if is "max_process_number" then "Max Process Number"
  else if is "max_output_size" then "Max Output Size (byte)"
  else if is "exe_path" then "Exe Path"
  else if is "input_path" then "Input Path"
  else if is "output_path" then "Output Path"
  else if is "error_path" then "Error Path"
  else if is "args" then "Arg"
  else if is "env" then "Env"
  else if is "log_path" then "Log Path"
  else if is "seccomp_rule_name" then "Seccomp Rule Name"
  else if is "uid" then "UID (default 65534)"
  else "GID (default 65534)")%string.

Definition usage_item (o : opt) : str :=
  lit " " ++
  if str_eqb (o_name o) (lit "exe_path") then described (o_name o)
  else lit "[" ++ described (o_name o) ++ lit "]" ++ (if Nat.eqb (o_most o) 1 then [] else lit "...").

(** Two columns, the first one at least 25 wide. *)
Definition help_line (o : opt) : str :=
  let d := described (o_name o) in
  lit "  " ++ d ++ repeat " "%char (25 - List.length d) ++ lit " " ++ description (o_name o) ++ newline.

Definition help_text : str :=
  lit "Usage: libjudger.so" ++ List.concat (map usage_item judger_options) ++ newline ++ newline ++
  List.concat (map help_line judger_options).
