(** What the judger does for a command line: which options there are, which
    occurrences are accepted, which faults are reported, and the configuration
    the program is run with.  Independent of getopt and argtable3. *)
From Coq Require Import ZArith Bool List Ascii String.
From Verif.Base Require Import CStr.
From Verif.Model Require Import Config.
From Verif.Spec Require Import IntText CmdLine.
Import ListNotations.
Open Scope list_scope.
Open Scope nat_scope.

(** ** The options of the judger *)
Inductive kind : Type := Flag | Number | Text.
Record opt : Type := mkOpt { o_name : str; o_kind : kind; o_most : nat }.

Definition opt_ (n : string) (k : kind) (most : nat) : opt := mkOpt (lit n) k most.
Definition judger_options : list opt :=
  [ opt_ "help" Flag 1; opt_ "version" Flag 1;
    opt_ "max_cpu_time" Number 1; opt_ "max_real_time" Number 1; opt_ "max_memory" Number 1;
    opt_ "memory_limit_check_only" Number 1; opt_ "max_stack" Number 1;
    opt_ "max_process_number" Number 1; opt_ "max_output_size" Number 1;
    opt_ "exe_path" Text 1; opt_ "input_path" Text 1; opt_ "output_path" Text 1; opt_ "error_path" Text 1;
    opt_ "args" Text 255; opt_ "env" Text 255;
    opt_ "log_path" Text 1; opt_ "seccomp_rule_name" Text 1;
    opt_ "uid" Number 1; opt_ "gid" Number 1 ].

Definition takes_value (k : kind) : bool := match k with Flag => false | _ => true end.
Definition judger_names : options := map (fun o => (o_name o, takes_value (o_kind o))) judger_options.

(** ** Occurrences *)
Inductive value : Type := VFlag | VNumber (n : Z) | VText (s : str).

(** The accepted occurrences, in order. *)
Definition accepted : Type := list (str * value).
Fixpoint taken (n : str) (acc : accepted) : list value :=
  match acc with
  | [] => []
  | (m, v) :: acc => if str_eqb m n then v :: taken n acc else taken n acc
  end.

Inductive fault : Type :=
| UnknownOption (word : str)            (* unknown, ambiguous, or a value for a flag *)
| MissingValue (word : str)             (* no value, or an empty one *)
| NoSuchLetter (c : ascii)
| TooMany (name : str) (v : option str)
| NotANumber (name : str) (v : str)
| OutOfRange (name : str) (v : str)
| Stray (word : str)                    (* a word that is no option *)
| Required (name : str)
| MoreFaults.

Definition empty_value (v : option str) (word : str) : list fault :=
  match v with Some [] => [MissingValue word] | _ => [] end.

(** One event after the occurrences [acc]: what is accepted, the faults. *)
Inductive one (acc : accepted) : event -> accepted -> list fault -> Prop :=
| one_unknown w : one acc (Unknown w) [] [UnknownOption w]
| one_missing w : one acc (NoValue w) [] [MissingValue w]
| one_letter c : one acc (Letter c) [] [NoSuchLetter c]
| one_excess n k m v w :
    In (mkOpt n k m) judger_options -> List.length (taken n acc) = m ->
    one acc (Given n v w) [] (empty_value v w ++ [TooMany n v])
| one_flag n m w :
    In (mkOpt n Flag m) judger_options -> List.length (taken n acc) < m ->
    one acc (Given n None w) [(n, VFlag)] []
| one_number n m v w z :
    In (mkOpt n Number m) judger_options -> List.length (taken n acc) < m ->
    int_text v z -> is_int z ->
    one acc (Given n (Some v) w) [(n, VNumber z)] []
| one_no_number n m v w :
    In (mkOpt n Number m) judger_options -> List.length (taken n acc) < m ->
    (forall z, ~ int_text v z) ->
    one acc (Given n (Some v) w) [] (empty_value (Some v) w ++ [NotANumber n v])
| one_out_of_range n m v w z :
    In (mkOpt n Number m) judger_options -> List.length (taken n acc) < m ->
    int_text v z -> ~ is_int z ->
    one acc (Given n (Some v) w) [] [OutOfRange n v]
| one_text n m v w :
    In (mkOpt n Text m) judger_options -> List.length (taken n acc) < m ->
    one acc (Given n (Some v) w) [(n, VText v)] (empty_value (Some v) w).

Inductive occurs (acc : accepted) : list event -> accepted -> list fault -> Prop :=
| occurs_end : occurs acc [] acc []
| occurs_event e es new fs acc' fs' :
    one acc e new fs -> occurs (acc ++ new) es acc' fs' -> occurs acc (e :: es) acc' (fs ++ fs').

(** Reading a number with undefined behaviour (C38): the option may still be
    given, and its value is one of the texts [negated_min]. *)
Definition undefined (es : list event) : Prop :=
  exists es1 n v w es2 acc fs m,
    es = es1 ++ Given n (Some v) w :: es2 /\ occurs [] es1 acc fs /\
    In (mkOpt n Number m) judger_options /\ List.length (taken n acc) < m /\ negated_min v.
Definition harmless (es : list event) : Prop := ~ undefined es.

(** ** The whole command line *)
(** Everything that is wrong, the first ten. A missing exe_path is only looked
    for when nothing else is wrong. *)
Definition all_faults (acc : accepted) (fs : list fault) (stray : list str) : list fault :=
  match fs ++ map Stray stray with
  | [] => match taken (lit "exe_path") acc with [] => [Required (lit "exe_path")] | _ => [] end
  | l => l
  end.
Definition first_ten (fs : list fault) : list fault :=
  if List.length fs <=? 10 then fs else firstn 9 fs ++ [MoreFaults].

(** The value of an option or its default. *)
Definition number_of (acc : accepted) (n : string) (default : Z) : Z :=
  match taken (lit n) acc with VNumber z :: _ => z | _ => default end.
Definition text_of (acc : accepted) (n : string) (default : option str) : option str :=
  match taken (lit n) acc with VText s :: _ => Some s | _ => default end.
Fixpoint texts (vs : list value) : list str :=
  match vs with
  | [] => []
  | VText s :: vs => s :: texts vs
  | _ :: vs => texts vs
  end.

(** The elements of an array of 256 pointers: the strings, NULL, and the rest
    was never written. *)
Definition vector (ss : list str) (a : list cell) : Prop :=
  a = map Ptr ss ++ Null :: repeat Uninit (255 - List.length ss).

(** The configuration (struct config) that belongs to the accepted options. *)
Definition configured (acc : accepted) (c : config) : Prop :=
  max_cpu_time c = number_of acc "max_cpu_time" (-1) /\
  max_real_time c = number_of acc "max_real_time" (-1) /\
  max_memory c = number_of acc "max_memory" (-1) /\
  max_stack c = number_of acc "max_stack" 16777216 /\
  max_process_number c = number_of acc "max_process_number" (-1) /\
  max_output_size c = number_of acc "max_output_size" (-1) /\
  memory_limit_check_only c = (if (number_of acc "memory_limit_check_only" 0 =? 0)%Z then 0%Z else 1%Z) /\
  Some (exe_path c) = text_of acc "exe_path" None /\
  input_path c = text_of acc "input_path" (Some (lit "/dev/stdin")) /\
  output_path c = text_of acc "output_path" (Some (lit "/dev/stdout")) /\
  error_path c = text_of acc "error_path" (Some (lit "/dev/stderr")) /\
  vector (exe_path c :: texts (taken (lit "args") acc)) (args c) /\
  vector (texts (taken (lit "env") acc)) (env c) /\
  Some (log_path c) = text_of acc "log_path" (Some (lit "judger.log")) /\
  seccomp_rule_name c = text_of acc "seccomp_rule_name" None /\
  uid c = (number_of acc "uid" 65534 mod 2 ^ 32)%Z /\
  gid c = (number_of acc "gid" 65534 mod 2 ^ 32)%Z.

(** ** Command lines without faults *)
(** The values given for an option. *)
Fixpoint given (n : str) (es : list event) : list (option str) :=
  match es with
  | [] => []
  | Given m v _ :: es => if str_eqb m n then v :: given n es else given n es
  | _ :: es => given n es
  end.

Definition faultless (es : list event) (stray : list str) : Prop :=
  stray = [] /\
  (forall e, In e es -> exists n v w, e = Given n v w /\ v <> Some []) /\
  (forall n m v, In (mkOpt n Number m) judger_options -> In (Some v) (given n es) ->
     exists z, int_text v z /\ is_int z) /\
  (forall n k m, In (mkOpt n k m) judger_options -> List.length (given n es) <= m) /\
  List.length (given (lit "exe_path") es) = 1.

(** What a given value means. *)
Definition meaning (k : kind) (v : option str) (x : value) : Prop :=
  match k, v, x with
  | Flag, None, VFlag => True
  | Number, Some s, VNumber z => int_text s z /\ is_int z
  | Text, Some s, VText t => s = t
  | _, _, _ => False
  end.

(** The configuration that belongs to a command line without faults: that of the
    values given, in order. *)
Definition configured_by (es : list event) (c : config) : Prop :=
  exists acc, configured acc c /\
    forall n k m, In (mkOpt n k m) judger_options -> Forall2 (meaning k) (given n es) (taken n acc).

(** A setting [name=value] as a word of the command line. *)
Definition setting_word (s : str * str) : str := lit "--" ++ fst s ++ lit "=" ++ snd s.
Definition setting_event (s : str * str) : event := Given (fst s) (Some (snd s)) (setting_word s).

(** The option [n] was given, in any way. *)
Definition mentions (es : list event) (n : string) : Prop := exists v w, In (Given (lit n) v w) es.

(** The same up to how it was written. *)
Inductive alike : event -> event -> Prop :=
| alike_same e : alike e e
| alike_flag n w w' : alike (Given n None w) (Given n None w')
| alike_value n v w w' : v <> [] -> alike (Given n (Some v) w) (Given n (Some v) w').
