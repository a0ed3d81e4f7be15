(** What a judged program can and cannot do while it runs, stated about its
    state at the start and at any later time. *)
From Coq Require Import ZArith Bool List String.
From Verif.Base Require Import CInt CStr.
From Verif.Model Require Import Config Seccomp Child Program.
From Verif.Spec Require Import SandboxSpec.
Import ListNotations.
Open Scope list_scope.
Open Scope Z_scope.

(** [P] is the program as the judger has started it for the configuration [c],
    with limits as the kernel keeps them; [ptr] is the address of exe_path. *)
Definition judged (c : config) (ptr : Z) (P : proc) : Prop :=
  exists env log k0 path a v k,
    ready c k0 /\ euid (k_cred k0) = 0 /\ (forall r, fst (k_rlim k0 r) <= snd (k_rlim k0 r)) /\
    child_process env log c k0 = CExec path a v k /\ ptr = ce_exe_ptr env /\ P = program_of k.

(** An ordinary user is asked for. *)
Definition as_user (c : config) : Prop := uid c <> 0 /\ uid c <> keep_id /\ gid c <> keep_id.

Definition c_cpp_program (P : proc) : Prop :=
  exists c ptr, judged c ptr P /\ as_user c /\ seccomp_rule_name c = Some (lit "c_cpp").
Definition c_cpp_file_io_program (P : proc) : Prop :=
  exists c ptr, judged c ptr P /\ as_user c /\ seccomp_rule_name c = Some (lit "c_cpp_file_io").

(** All processes have just been started, under one of the two profiles. *)
Definition all_started (w : world) : Prop :=
  forall p s, w p = Some s -> exists P, s = inl P /\ (c_cpp_program P \/ c_cpp_file_io_program P).

(** Still what it was: one thread, the same identity, the same filters, no
    limit above the one it started with. *)
Definition held (P0 P : proc) : Prop :=
  p_threads P = 1%nat /\ p_cred P = p_cred P0 /\ p_filters P = p_filters P0 /\
  forall r, fst (p_rlim P r) <= snd (p_rlim P r) <= snd (p_rlim P0 r).

Definition fd (P : proc) (n : nat) : option ofile := match nth_error (p_fds P) n with Some x => x | None => None end.

(** Everything it can write to, it could write to at the start. *)
Definition no_new_outputs (P0 P : proc) : Prop :=
  forall n d, fd P n = Some d -> of_mode d <> MRead -> exists m, fd P0 m = Some d.

(** The events of process [q]. *)
Definition of_proc (q : nat) (e : event) : bool :=
  match e with Calls p _ => Nat.eqb p q | Hit p _ => Nat.eqb p q end.

(** Nobody else has the user id of [q]. *)
Definition own_user (w : world) (q : nat) : Prop :=
  forall p P Q, w p = Some (inl P) -> w q = Some (inl Q) -> p <> q -> ruid (p_cred P) <> ruid (p_cred Q).
