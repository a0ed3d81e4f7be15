(** Files whose contents a program does not see. *)
From Coq Require Import ZArith Bool List Ascii String.
From Verif.Base Require Import CInt CStr.
From Verif.Model Require Import Config Names.
From Verif.Spec Require Import NamesSpec.
Import ListNotations.
Open Scope list_scope.
Open Scope Z_scope.

(** [u] has neither the right to read it (bit 2) nor to change its rights. *)
Definition hidden (u : who) (n : node) : Prop := ~ has_right 2 u n /\ w_uid u <> n_uid n.

(** The same object, or the same but for the contents of a file of the same size. *)
Inductive other_contents : node -> node -> Prop :=
| other a b uid gid mode : List.length a = List.length b ->
    other_contents (mkNode (IsFile a) uid gid mode) (mkNode (IsFile b) uid gid mode).
Definition same_in (secret : Prop) (m n : option node) : Prop :=
  m = n \/ secret /\ exists a b, m = Some a /\ n = Some b /\ other_contents a b.
(** The file systems are equal but for the contents of the secret files. *)
Definition equal_but (secret : nat -> Prop) (F G : fs) : Prop := forall i, same_in (secret i) (nth_error F i) (nth_error G i).
