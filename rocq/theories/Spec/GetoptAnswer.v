(** How the code is asked to read what Spec/GetoptSpec.v describes, and how it reports what was read. *)
From Coq Require Import ZArith Bool List Ascii String Arith.
From Verif.Base Require Import CInt CStr.
From Verif.Model Require Import Getopt GetoptFull.
From Verif.Spec Require Import CmdLine GetoptSpec.
Import ListNotations.
Open Scope list_scope.
Open Scope nat_scope.

(** The array of long options. *)
Definition as_long (n : name) : long :=
  mkLong (m_text n) (match m_takes n with Nothing | LongName => 0 | Value => 1 | MaybeValue => 2 end)%Z (m_flag n) (m_value n).

(** What stands before the option string: nothing (the words are collected, unless POSIXLY_CORRECT is set or the
    function does not do that), '+', or '-'. *)
Definition mark (posix collects : bool) (s : style) (m : str) : Prop :=
  (m = [] /\ s = if collects && negb posix then Collect else Stop) \/ (m = lit "+" /\ s = Stop) \/ (m = lit "-" /\ s = InOrder).

(** The function [get] is called for the request [q]. *)
Definition asked (opterr posix : bool) (q : request) (get : gopt -> cres (out * gopt)) : Prop :=
  exists m, match q_names q with
            | None => q_only q = false /\ mark posix false (q_style q) m /\ get = getopt opterr posix (m ++ option_string q)
            | Some ns => mark posix true (q_style q) m /\
                get = (if q_only q then getopt_long_only else getopt_long) opterr posix (m ++ option_string q) (map as_long ns)
            end.

(** The code of a letter: a signed char. *)
Definition letter_code (c : ascii) : Z := let n := Z.of_nat (nat_of_ascii c) in if (n <? 128)%Z then n else (n - 256)%Z.

(** What a call returns and assigns when it reports an event, and the message. *)
Definition answer (opterr posix : bool) (q : request) (e : event) : out :=
  let said text := if opterr && negb (q_colon q) then Some text else None in
  let lacking := if q_colon q then 58%Z (* ':' *) else 63%Z (* '?' *) in
  let opt_of k := match nth_error (names q) k with
                  | Some n => match m_flag n with None => m_value n | Some _ => 0%Z end
                  | None => 0%Z
                  end in
  match e with
  | Letter c v => mkOut (letter_code c) v None None None None
  | Name k v =>
      match nth_error (names q) k with
      | Some n => match m_flag n with
                  | None => mkOut (m_value n) v None (Some k) None None
                  | Some f => mkOut 0 v None (Some k) (Some (f, m_value n)) None
                  end
      | None => mkOut 0 v None None None None
      end
  | Word w => mkOut 1 (Some w) None None None None
  | NoLetter c =>
      mkOut 63 None (Some (letter_code c)) None None
        (said ((if posix then lit "illegal option -- " else lit "invalid option -- ") ++ [c]))
  | LetterLacks c => mkOut lacking None (Some (letter_code c)) None None (said (lit "option requires an argument -- " ++ [c]))
  | NoName d s => mkOut 63 None (Some 0%Z) None None (said (lit "unrecognized option `" ++ d ++ s ++ lit "'"))
  | Ambiguous d s => mkOut 63 None (Some 0%Z) None None (said (lit "option `" ++ d ++ s ++ lit "' is ambiguous"))
  | Refuses k d s => mkOut 63 None (Some (opt_of k)) None None (said (lit "option `" ++ d ++ s ++ lit "' doesn't allow an argument"))
  | NameLacks k d s => mkOut lacking None (Some (opt_of k)) None None (said (lit "option `" ++ d ++ s ++ lit "' requires an argument"))
  | Malformed => mkOut lacking None None None None None
  end.

(** A caller ends with -1 after the outcomes [rs], and then finds the words [rest] from optind on. *)
Definition ends_with (get : gopt -> cres (out * gopt)) (argv : list str) (rs : list out) (rest : list str) (argv' : list str) : Prop :=
  exists fuel g, until_done get fuel (fresh argv) = Some (Val (rs, g)) /\ g_argv g = argv' /\ skipn (g_optind g) argv' = rest.

(** What arg_parse uses: the elements of its array, and the parts of an outcome that it looks at (Model/Getopt.v). *)
Definition parser_long (o : lopt) : long := mkLong (lo_name o) (Z.of_nat (lo_has_arg o)) (Some 0) (Z.of_nat (lo_val o)).
Definition as_parser (r : out) : gret :=
  mkRet (r_value r) (r_arg r) (match r_opt r with Some c => c | None => 0%Z end)
    (match r_store r with Some (_, v) => Z.to_nat v | None => 0 end).
