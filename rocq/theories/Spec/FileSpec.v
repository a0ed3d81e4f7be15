(** Base names and extensions.  Nothing here refers to the model. *)
From Coq Require Import List Ascii String.
From Verif.Base Require Import CStr.
Import ListNotations.
Open Scope list_scope.

(** What is behind the last '/'; nothing if that is "." or "..". *)
Definition base_of (name base : str) : Prop :=
  exists dir last, name = dir ++ last /\ (dir = [] \/ exists d, dir = d ++ lit "/") /\ ~ In "/"%char last /\
    ((last = lit "." \/ last = lit "..") /\ base = [] \/ last <> lit "." /\ last <> lit ".." /\ base = last).
(** What is behind the last '.', with that dot, unless one of its sides is empty. *)
Definition dotted (base ext : str) : Prop :=
  exists stem e, base = stem ++ ext /\ ext = lit "." ++ e /\ ~ In "."%char e /\ stem <> [] /\ e <> [].
Definition ext_of (base ext : str) : Prop := dotted base ext \/ ext = [] /\ ~ exists x, dotted base x.

(** The array [a'] is [a] with [v] at [i]. *)
Definition stored_at (a : list str) (i : nat) (v : str) (a' : list str) : Prop :=
  List.length a' = List.length a /\ nth_error a' i = Some v /\ forall k, k <> i -> nth_error a' k = nth_error a k.
