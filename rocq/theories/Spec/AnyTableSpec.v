(** How options are written down in a table of argtable3, and how errors are
    written down in its arg_end. *)
From Coq Require Import List ZArith Ascii String Arith.
From Verif.Base Require Import CInt CStr.
From Verif.Model Require Import Getopt Argtable AnyTable.
From Verif.Spec Require Import CmdLine AnyLine AnySpec.
Import ListNotations.
Open Scope list_scope.

Definition declare {St} (o : opt) (b : behaviour St) : hdr St :=
  mkHdr (match o_letters o with [] => None | l => Some l end)
        (match o_names o with [] => None | ns => Some (join_commas ns) end)
        (match o_takes o with Nothing => false | _ => true end)
        (match o_takes o with MaybeValue => true | _ => false end)
        (b_accept b) (b_content b) (b_restart b).

Fixpoint declared {St} (os : list opt) (bs : list (behaviour St)) : list (hdr St) :=
  match os, bs with
  | o :: os, b :: bs => declare o b :: declared os bs
  | _, _ => []
  end.

(** The faults of the command line belong to the end of the table. *)
Definition coded (e : error) : perror :=
  match e with
  | Refused k code v => mkErr (Some k) code v
  | Failed k code => mkErr (Some k) code None
  | UnknownName w => mkErr None ARG_ELONGOPT (Some w)
  | UnknownLetter c => mkErr None (schar c) None
  | MissingValue w => mkErr None ARG_EMISSARG (Some w)
  | NotTaken w => mkErr None ARG_ENOMATCH (Some w)
  | TooMany => mkErr None ARG_ELIMIT None
  end.

(** What arg_parse leaves for an outcome. *)
Definition left_by {St} (r : cres (list St * list error)) : cres (list St * list perror) :=
  match r with
  | UB => UB
  | Val (objs, errs) => Val (objs, map coded errs)
  end.

(** A call that returns [r] (the number of iterations does not matter), and a call
    that does not return. *)
Definition returns {A} (call : nat -> option (cres A)) (r : cres A) : Prop :=
  exists n, forall fuel, n <= fuel -> call fuel = Some r.
Definition never_returns {A} (call : nat -> option (cres A)) : Prop :=
  forall fuel r, call fuel <> Some (Val r).
