(** Vocabulary for C89. *)
From Coq Require Import ZArith Bool List.
From Verif.Base Require Import CInt CStr.
From Verif.Model Require Import Config Child Timeout Judger Pipes.
From Verif.Spec Require Import SandboxSpec.
Import ListNotations.

(** [pipe o]: the open file description [o] is a writing end of the caller's pipe. *)

(** The caller sees the end of the pipe. *)
Definition at_end (pipe : ofile -> Prop) (t : tree) : Prop :=
  forall p x n o, t p = Some x -> fd_get x n = Some o -> ~ pipe o.

(** The judger was started with the pipe at the descriptors [ns] only. *)
Definition pipe_at (pipe : ofile -> Prop) (ns : list nat) (k0 : kstate) : Prop :=
  forall n o, descriptor k0 n = Some o -> pipe o -> In n ns.

(** The path is not a name of the pipe. *)
Definition elsewhere (pipe : ofile -> Prop) (path : option str) : Prop :=
  forall q o, path = Some q -> of_path o = q -> ~ pipe o.

(** The processes open no name of the pipe. *)
Definition opens_elsewhere (pipe : ofile -> Prop) (es : list tevent) : Prop :=
  forall p n o, In (Opens p n o) es -> ~ pipe o.
