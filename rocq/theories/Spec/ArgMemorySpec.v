(** Tables of options for arg_parse, for C71. *)
From Coq Require Import List Ascii String Arith.
From Verif.Base Require Import CStr.
From Verif.Model Require Import Argtable.
Import ListNotations.

(** The long names of an entry, separated by commas: not empty, and the first one is not. *)
Definition long_names (l : option str) : Prop :=
  match l with None => True | Some s => no_nul s /\ exists c r, s = c :: r /\ c <> ","%char end.
Definition short_names (l : option str) : Prop := match l with None => True | Some s => no_nul s end.

Record usable (e : entry) : Prop := mkUsable {
  us_long : long_names (e_long e);
  us_short : short_names (e_short e);
  us_counts : e_min e <= e_max e
}.

(** The values of an entry as main can read them.  An element of [sval] that was counted
    without a value ([VNone]) still has its first value, the empty string. *)
Definition same_val (v v' : aval) : Prop := v = v' \/ (v = VStr [] /\ v' = VNone).
Definition same_entry (e e' : entry) : Prop := e_max e = e_max e' /\ Forall2 same_val (e_vals e) (e_vals e').
