(** What becomes of the files a judged program writes. *)
From Coq Require Import ZArith Bool List String.
From Verif.Base Require Import CInt CStr.
From Verif.Model Require Import Config Seccomp Child Program Files.
From Verif.Spec Require Import SandboxSpec ContainSpec.
Import ListNotations.
Open Scope list_scope.
Open Scope Z_scope.

Definition size_of (D : disk) (f : nat) : Z := Z.of_nat (List.length (d_data D f)).

(** A program started with an output limit of at most [L] bytes. *)
Definition limited_to (L : Z) (P : proc) : Prop :=
  exists c ptr, judged c ptr P /\ max_output_size c <> -1 /\ max_output_size c <= L.

(** All processes are still running. *)
Definition all_running (w : world) : Prop := forall q s, w q = Some s -> exists P, s = inl P.

(** No process but [p] holds the open file description [i] or can write to the file [f]. *)
Definition nobody_else (file_of : str -> nat) (w : world) (p i f : nat) : Prop :=
  forall q P n o, w q = Some (inl P) -> q <> p -> fd P n = Some o ->
    of_id o <> i /\ (of_mode o <> MRead -> file_of (of_path o) <> f).

(** A history without calls that are not modelled, that open a file or that set an offset. *)
Definition streams_only (ds : list deed) : Prop :=
  forall d p sc, In d ds -> d_event d = Calls p sc ->
    In (sc_name sc) modelled /\ ~ In (sc_name sc) ["lseek"; "open"; "openat"]%string.

(** The bytes that were taken through the open file description [i], in order. *)
Fixpoint bytes_through (i : nat) (ds : list deed) : str :=
  match ds with
  | [] => []
  | d :: rest =>
      match d_wrote d with
      | Some (o, asked, taken) => (if Nat.eqb (of_id o) i then taken else []) ++ bytes_through i rest
      | None => bytes_through i rest
      end
  end.

(** The judger has no descriptor to write to the file [f]. *)
Definition not_held (file_of : str -> nat) (k0 : kstate) (f : nat) : Prop :=
  forall n o, descriptor k0 n = Some o -> of_mode o <> MRead -> file_of (of_path o) <> f.

(** Two paths that are the same, or name different files. *)
Definition well_told (file_of : str -> nat) (a b : option str) : Prop :=
  forall p q, a = Some p -> b = Some q -> p = q \/ file_of p <> file_of q.
