(** What parsing a command line does to the objects behind the options, and which
    errors it reports.  Independent of getopt and argtable3. *)
From Coq Require Import List ZArith Ascii String Arith.
From Verif.Base Require Import CInt CStr.
From Verif.Spec Require Import CmdLine AnyLine.
Import ListNotations.
Open Scope list_scope.
Open Scope nat_scope.

(** An error: what the object of option [k] answered to a value ([Refused], or
    [Failed] when it was checked at the end), or a fault of the command line. *)
Inductive error : Type :=
| Refused (k : nat) (code : Z) (value : option str)
| Failed (k : nat) (code : Z)
| UnknownName (word : str)
| UnknownLetter (c : ascii)
| MissingValue (word : str)
| NotTaken (word : str)
| TooMany.

Section Outcome.
Variable St : Type.

(** How the object of an option behaves: what it does with a value (or with the
    option alone), whether it is content at the end, how it starts over. *)
Record behaviour : Type := mkB {
  b_accept : option (option str -> St -> cres (Z * St));
  b_content : option (St -> Z);
  b_restart : option (St -> St)
}.

Variable os : list opt.
Variable bs : list behaviour.

Fixpoint put (k : nat) (s : St) (objs : list St) : list St :=
  match objs, k with
  | [], _ => []
  | _ :: r, 0 => s :: r
  | x :: r, S k => x :: put k s r
  end.

(** Offer a value to the object of option [k]; its answer, if it is not 0. *)
Inductive offers (k : nat) (v : option str) (objs : list St) : cres (list St * option Z) -> Prop :=
| offers_nobody b :
    nth_error bs k = Some b -> b_accept b = None -> offers k v objs (Val (objs, None))
| offers_taken b f s s' :
    nth_error bs k = Some b -> b_accept b = Some f -> nth_error objs k = Some s -> f v s = Val (0%Z, s') ->
    offers k v objs (Val (put k s' objs, None))
| offers_refused b f s s' code :
    nth_error bs k = Some b -> b_accept b = Some f -> nth_error objs k = Some s -> f v s = Val (code, s') -> code <> 0%Z ->
    offers k v objs (Val (put k s' objs, Some code))
| offers_undefined b f s :
    nth_error bs k = Some b -> b_accept b = Some f -> nth_error objs k = Some s -> f v s = UB ->
    offers k v objs UB.

Definition refusal (k : nat) (v : option str) (answer : option Z) : list error :=
  match answer with None => [] | Some code => [Refused k code v] end.

(** An empty value given by name, to an option that takes a value, is an error. *)
Definition empty_value (k : nat) (v : option str) (last : str) : list error :=
  match v, nth_error os k with
  | Some [], Some o => match o_takes o with Nothing => [] | _ => [MissingValue last] end
  | _, _ => []
  end.

(** One event. *)
Inductive happens (objs : list St) : event -> cres (list St * list error) -> Prop :=
| happens_long k v last objs' a :
    offers k v objs (Val (objs', a)) ->
    happens objs (Long k v last) (Val (objs', empty_value k v last ++ refusal k v a))
| happens_long_undefined k v last :
    offers k v objs UB -> happens objs (Long k v last) UB
| happens_short k v objs' a :
    offers k v objs (Val (objs', a)) -> happens objs (Short k v) (Val (objs', refusal k v a))
| happens_short_undefined k v :
    offers k v objs UB -> happens objs (Short k v) UB
| happens_unknown w : happens objs (Unknown w) (Val (objs, [UnknownName w]))
| happens_novalue w : happens objs (NoValue w) (Val (objs, [MissingValue w]))
| happens_noletter c : happens objs (NoLetter c) (Val (objs, [UnknownLetter c])).

Inductive happen : list St -> list event -> cres (list St * list error) -> Prop :=
| happen_nothing objs : happen objs [] (Val (objs, []))
| happen_then objs e es objs1 errs1 objs2 errs2 :
    happens objs e (Val (objs1, errs1)) -> happen objs1 es (Val (objs2, errs2)) ->
    happen objs (e :: es) (Val (objs2, errs1 ++ errs2))
| happen_undefined objs e es : happens objs e UB -> happen objs (e :: es) UB
| happen_later objs e es objs1 errs1 :
    happens objs e (Val (objs1, errs1)) -> happen objs1 es UB -> happen objs (e :: es) UB.

(** The positional arguments: options with neither letters nor names whose object
    accepts anything at all. *)
Definition is_positional (k : nat) : bool :=
  match nth_error os k, nth_error bs k with
  | Some (mkOpt [] [] _), Some b => match b_accept b with Some _ => true | None => false end
  | _, _ => false
  end.
Definition positionals : list nat := filter is_positional (seq 0 (List.length os)).

(** The words that are no options are offered to the positional arguments in order.
    One that refuses a word is left for good, and the word is offered to the next; if
    nobody takes it the last refusal is the error ([last]).  The words after it, and
    all words if there are no positional arguments, are errors. *)
Inductive shared : list nat -> list str -> list error -> list St -> cres (list St * list error) -> Prop :=
| shared_all ks last objs : shared ks [] last objs (Val (objs, []))
| shared_taken k ks w ws last objs objs1 r :
    offers k (Some w) objs (Val (objs1, None)) -> shared (k :: ks) ws [] objs1 r ->
    shared (k :: ks) (w :: ws) last objs r
| shared_refused k ks w ws last objs objs1 code r :
    offers k (Some w) objs (Val (objs1, Some code)) ->
    shared ks (w :: ws) [Refused k code (Some w)] objs1 r ->
    shared (k :: ks) (w :: ws) last objs r
| shared_undefined k ks w ws last objs :
    offers k (Some w) objs UB -> shared (k :: ks) (w :: ws) last objs UB
| shared_nobody w ws objs :
    shared [] (w :: ws) [] objs (Val (objs, map NotTaken (w :: ws)))
| shared_last w ws e objs :
    shared [] (w :: ws) [e] objs (Val (objs, e :: map NotTaken ws)).

(** Objects that are not content at the end. *)
Fixpoint complaints (k : nat) (bs : list behaviour) (objs : list St) : list error :=
  match bs, objs with
  | b :: bs, s :: objs =>
      match b_content b with
      | Some f => if (f s =? 0)%Z then [] else [Failed k (f s)]
      | None => []
      end ++ complaints (S k) bs objs
  | _, _ => []
  end.

Fixpoint restarted (bs : list behaviour) (objs : list St) : list St :=
  match bs, objs with
  | b :: bs, s :: objs => match b_restart b with Some f => f s | None => s end :: restarted bs objs
  | _, _ => []
  end.

(** At most [max] errors are kept; if there are more, the last of them says so. *)
Definition kept (max : nat) (errs : list error) : list error :=
  if List.length errs <=? max then errs else firstn (max - 1) errs ++ [TooMany].

(** The whole. *)
Inductive outcome (max : nat) (posix : bool) (words : list str) (objs : list St)
  : cres (list St * list error) -> Prop :=
| outcome_fine es rest objs1 errs1 objs2 errs2 :
    reads os posix words es rest ->
    happen (restarted bs objs) es (Val (objs1, errs1)) ->
    shared positionals rest [] objs1 (Val (objs2, errs2)) ->
    outcome max posix words objs
      (Val (objs2, kept max match errs1 ++ errs2 with [] => complaints 0 bs objs2 | errs => errs end))
| outcome_undefined_option es rest :
    reads os posix words es rest ->
    happen (restarted bs objs) es UB ->
    outcome max posix words objs UB
| outcome_undefined_argument es rest objs1 errs1 :
    reads os posix words es rest ->
    happen (restarted bs objs) es (Val (objs1, errs1)) ->
    shared positionals rest [] objs1 UB ->
    outcome max posix words objs UB.
End Outcome.
Arguments mkB {St}.
Arguments b_accept {St}.
Arguments b_content {St}.
Arguments b_restart {St}.

(** ** How options are declared *)
Definition join_commas (ns : list str) : str :=
  match ns with
  | [] => []
  | n :: ns => n ++ flat_map (fun m => lit "," ++ m) ns
  end.

(** Letters and names that can be declared.  (':' and '?' are answers of getopt,
    byte 255 is -1, ';' after W has a meaning of its own.) *)
Definition fine_letter (c : ascii) : Prop :=
  ~ In c ["000"; "-"; ":"; ";"; "?"; "255"]%char.
Definition fine_name (n : str) : Prop := n <> [] /\ no_char ","%char n /\ c_string n.
Definition fine_options (os : list opt) : Prop :=
  Forall (fun o => Forall fine_letter (o_letters o) /\ Forall fine_name (o_names o)) os.
