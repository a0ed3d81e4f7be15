(** The Node binding: bindings/NodeJS/judger.cc.  Modelled: the object it is called
    with, the command line it builds, the part of the shell that splits it, and
    the decoding of the output.  Not modelled: getters and proxies, a first
    argument that is not an object, strings that are not valid UTF-16, a
    failing popen, and doubles (a number is an integer). *)
From Coq Require Import ZArith Bool List Ascii String.
From Verif.Base Require Import CInt CStr CMem.
From Verif.Model Require Import Config Argtable Main Messages.
From Verif.Spec Require Import Json.
Import ListNotations.
Open Scope list_scope.
Open Scope nat_scope.

(** JavaScript values as far as the binding distinguishes them.  For a number, [n] is what
    ToInteger gives; a string is represented by its UTF-8 bytes; an object by
    its properties. *)
Inductive jsval : Type :=
| JSNull                                  (* null or undefined *)
| JSNum (n : Z)
| JSStr (s : str)
| JSArr (l : list jsval)
| JSObj (get : string -> jsval)
| JSOther.

Inductive nres (A : Type) : Type :=
| NVal (a : A)
| NThrows                                 (* a JavaScript exception *)
| NUndef.                                 (* undefined behaviour *)
Arguments NVal {A} a.
Arguments NThrows {A}.
Arguments NUndef {A}.
Definition nbind {A B} (x : nres A) (f : A -> nres B) : nres B :=
  match x with NVal a => f a | NThrows => NThrows | NUndef => NUndef end.

(** " --" key "=" text, lines 36-39 and 68-71 *)
Definition js_option (key : string) (text : str) : str := lit " --" ++ lit key ++ lit "=" ++ text.

(** ToNumber, lines 29-46; [str] is what has been built so far. *)
Definition to_number (args : string -> jsval) (key : string) (s : str) : nres str :=
  match args key with
  | JSNull => NVal s
  | JSNum n => NVal (s ++ js_option key (fmt_d n))
  | _ => NThrows
  end.

(** _ToCharPTR, lines 48-52, into the array of line 57: strcpy copies up to the first NUL
    and writes a NUL behind; the array has 255 elements. *)
Definition to_char_ptr (s : str) : nres str :=
  match cstr (terminated s) with
  | Val t => if List.length t <? 255 then NVal t else NUndef
  | UB => NUndef
  end.

(** ToCStr, lines 55-80. *)
Definition to_cstr (args : jsval) (key : string) (s : str) : nres str :=
  let val := match args with
             | JSObj get => get key
             | JSArr _ => JSNull         (* an array has no property of this name *)
             | v => v
             end in
  match val with
  | JSNull => NVal s
  | JSStr t => nbind (to_char_ptr t) (fun t => NVal (s ++ js_option key t))
  | _ => NThrows
  end.

Fixpoint node_each {A} (f : A -> str -> nres str) (l : list A) (s : str) : nres str :=
  match l with
  | [] => NVal s
  | a :: l => nbind (f a s) (node_each f l)
  end.

(** Lines 125-126. *)
Definition node_int_vars : list string :=
  ["max_cpu_time"; "max_real_time"; "max_memory"; "memory_limit_check_only"; "max_stack"; "max_process_number";
   "max_output_size"; "uid"; "gid"]%string.
Definition node_str_vars : list string :=
  ["input_path"; "output_path"; "error_path"; "exe_path"; "log_path"; "seccomp_rule_name"]%string.

(** Lines 138-156. *)
Definition node_args (o : string -> jsval) (s : str) : nres str :=
  match o "args"%string with
  | JSNull => NVal s
  | JSArr l => node_each (fun v => to_cstr v "args") l s
  | _ => NThrows
  end.

(** Lines 158-176.  Line 162 looks at args instead of env: with an array for
    args, env is used as an array whatever it is. *)
Definition node_env (o : string -> jsval) (s : str) : nres str :=
  match o "env"%string with
  | JSNull => NVal s
  | v =>
      match o "args"%string with
      | JSArr _ => match v with JSArr l => node_each (fun v => to_cstr v "env") l s | _ => NUndef end
      | _ => NThrows
      end
  end.

(** Method, lines 107-176: the command. *)
Definition node_command (o : string -> jsval) : nres str :=
  nbind (node_each (to_number o) node_int_vars (lit "/usr/lib/judger/libjudger.so")) (fun s =>
  nbind (node_each (to_cstr (JSObj o)) node_str_vars s) (fun s =>
  nbind (node_args o s) (fun s =>
  node_env o s))).

(** popen, line 183: /bin/sh -c.  Modelled: words of characters without a meaning to the
    shell, blanks, and the ends of commands; [None]: not modelled (quotes,
    expansions, redirections, comments, assignments, reserved words, ...). *)
Definition shell_neutral (c : ascii) : bool :=
  let n := nat_of_ascii c in
  ((48 <=? n) && (n <=? 57)) || ((65 <=? n) && (n <=? 90)) || ((97 <=? n) && (n <=? 122)) ||
  existsb (aeqb c) (lit "_-./=:,+@%").
Definition reserved : list string :=
  ["if"; "then"; "else"; "elif"; "fi"; "do"; "done"; "case"; "esac"; "while"; "until"; "for"; "in"; "function"; "select"; "time"]%string.
Definition simple_command (ws : list str) : bool :=
  match ws with
  | w :: _ => negb (existsb (aeqb "="%char) w) && negb (existsb (fun r => str_eqb w (lit r)) reserved)
  | [] => false
  end.
Definition end_word (word : str) (words : list str) : list str := match word with [] => words | _ => words ++ [word] end.
Fixpoint lex (s : str) (word : str) (words : list str) : option (list (list str)) :=
  match s with
  | [] => match end_word word words with
          | [] => Some []
          | ws => if simple_command ws then Some [ws] else None
          end
  | c :: s =>
      if shell_neutral c then lex s (word ++ [c]) words
      else if aeqb c " "%char || aeqb c "009"%char then lex s [] (end_word word words)
      else if aeqb c ";"%char || aeqb c "010"%char then
        match end_word word words with
        | [] => if aeqb c "010"%char then lex s [] [] else None
        | ws => if simple_command ws then match lex s [] [] with Some cs => Some (ws :: cs) | None => None end else None
        end
      else None
  end.
Definition shell (cmd : str) : option (list (list str)) := lex cmd [] [].

(** Lines 180-187: fgets(buf, 255) reads at most 254 bytes, up to a newline;
    std::string(buf) ends at the first NUL.  [room] more bytes fit behind [cur]. *)
Fixpoint upto_nul (s : str) : str :=
  match s with
  | [] => []
  | c :: s => if aeqb c NUL then [] else c :: upto_nul s
  end.
Fixpoint collect (room : nat) (cur : str) (out : str) : str :=
  match out with
  | [] => upto_nul cur
  | c :: out =>
      if aeqb c "010"%char || (room <=? 1) then upto_nul (cur ++ [c]) ++ collect 254 [] out
      else collect (room - 1) (cur ++ [c]) out
  end.
Definition node_reads (out : str) : str := collect 254 [] out.

(** Lines 192-195: the index of the last brace before [n], -1 if there is none. *)
Fixpoint last_brace (pr : str) (n : nat) : Z :=
  match n with
  | 0 => (-1)%Z
  | S n => match nth_error pr n with
           | Some c => if aeqb c "{"%char then Z.of_nat n else last_brace pr n
           | None => last_brace pr n     (* never *)
           end
  end.

(** Lines 190-200: what is printed and the text given to JSON::Parse.  The length is
    converted to [int].  Without a brace, pr + len is outside the text. *)
Definition node_split (out : str) : cres (str * str) :=
  let pr := node_reads out in
  let n := cast_int (Z.of_nat (List.length pr)) in
  if (n <=? 0)%Z then UB
  else
    let len := last_brace pr (Z.to_nat n) in
    if (len <? 0)%Z then UB else Val (firstn (Z.to_nat len) pr, skipn (Z.to_nat len) pr).

Inductive node_out : Type :=
| NodeReturns (shown : str) (v : json)      (* prints [shown], returns [v] *)
| NodeAborts (shown : str)                  (* ToLocalChecked of an empty value: the process ends *)
| NodeUndefined.

(** Lines 180-201, when the command wrote [out]. *)
Inductive node_decodes (out : str) : node_out -> Prop :=
| node_value shown text v : node_split out = Val (shown, text) -> json_text false text v -> node_decodes out (NodeReturns shown v)
| node_no_json shown text : node_split out = Val (shown, text) -> (forall v, ~ json_text false text v) -> node_decodes out (NodeAborts shown)
| node_outside : node_split out = UB -> node_decodes out NodeUndefined.

(** The whole call, when the shell runs one command, the judger.  [own] is what the program
    wrote to the judger's standard output. *)
Inductive node_run (posix : bool) (run : config -> result) (own : str) (o : string -> jsval) : option node_out -> Prop :=
| node_throws : node_command o = NThrows -> node_run posix run own o None
| node_crash : node_command o = NUndef -> node_run posix run own o (Some NodeUndefined)
| node_judged cmd argv a text r :
    node_command o = NVal cmd -> shell cmd = Some [argv] -> hd_error argv = Some (lit "/usr/lib/judger/libjudger.so") ->
    does posix argv (Val a) -> printed run a = Val text -> node_decodes (own ++ text) r -> node_run posix run own o (Some r).
