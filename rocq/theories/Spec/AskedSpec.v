(** What was to be written through an open file description, and histories in
    which nothing but the output limit cuts a write short. *)
From Coq Require Import ZArith Bool List String.
From Verif.Base Require Import CInt CStr.
From Verif.Model Require Import Config Child Program Files.
From Verif.Spec Require Import ContainSpec FilesSpec.
Import ListNotations.
Open Scope list_scope.
Open Scope Z_scope.

(** The bytes the program asked to be written through the open file description [i], in order. *)
Fixpoint asked_through (i : nat) (ds : list deed) : str :=
  match ds with
  | [] => []
  | d :: rest =>
      match d_wrote d with
      | Some (o, asked, taken) => (if Nat.eqb (of_id o) i then asked else []) ++ asked_through i rest
      | None => asked_through i rest
      end
  end.

(** The device is never full and no signal interrupts a write: every write through [i] is
    performed completely, or at least so far that [L] bytes have gone through [i]. *)
Definition never_short (L : Z) (i : nat) (ds : list deed) : Prop :=
  forall before d after o asked taken,
    ds = before ++ d :: after -> d_wrote d = Some (o, asked, taken) -> of_id o = i ->
    taken = asked \/ L <= Z.of_nat (List.length (bytes_through i before) + List.length taken).

(** Process [p] of [w] is the program with the state [k] the judger started for [c]; all processes of
    [w] are programs just started under c_cpp or c_cpp_file_io; [o] is standard output (1) or
    standard error (2) of [p], which is the file [q], and nobody else can write to that file; there
    is an output limit. *)
Definition writes_to (file_of : str -> nat) (c : config) (k0 k : kstate) (w : world) (p n : nat) (q : str) (o : ofile) : Prop :=
  ((n = 1%nat /\ output_path c = Some q) \/ (n = 2%nat /\ error_path c = Some q)) /\
  not_held file_of k0 (file_of q) /\ well_told file_of (output_path c) (error_path c) /\
  w p = Some (inl (program_of k)) /\ SandboxSpec.descriptor k n = Some o /\
  all_started w /\ nobody_else file_of w p (of_id o) (file_of q) /\ max_output_size c <> -1.
