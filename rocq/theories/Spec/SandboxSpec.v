(** What the sandbox has to look like when the program starts, written from the
    configuration alone.  Of the model only the types are used (configuration,
    kernel state, events), no function. *)
From Coq Require Import ZArith Bool List String.
From Verif.Base Require Import CInt CStr.
From Verif.Model Require Import Config Seccomp Child.
From Verif.Spec Require Import RunSpec.
Import ListNotations.
Open Scope list_scope.
Open Scope Z_scope.

(** The kernel limit a configuration asks for; [None]: keep the inherited one. *)
Definition wanted_limit (c : config) (r : resource) : option Z :=
  match r with
  | RStack => Some (max_stack c)
  | RAs => if (max_memory c =? -1) || negb (memory_limit_check_only c =? 0) then None
           else Some (2 * max_memory c)
  | RCpu => if max_cpu_time c =? -1 then None else Some (max_cpu_time c / 1000 + 1)
  | RNproc => if max_process_number c =? -1 then None else Some (max_process_number c)
  | RFsize => if max_output_size c =? -1 then None else Some (max_output_size c)
  end.

(** The uid or gid value that means "do not change" ((uid_t)-1). *)
Definition keep_id : Z := 4294967295.

(** The steps of the set-up, in order. *)
Inductive sstep : Type :=
| SLimit (r : resource) (v : Z)
| SOpen (path : str) (m : omode)
| SOnto (fd : nat)                (* make fd refer to the file opened last *)
| SGid (g : Z)
| SGroups (gs : list Z)
| SUid (u : Z)
| SFilter
| SRun.

Definition limit_steps (c : config) : list sstep :=
  flat_map (fun r => match wanted_limit c r with Some v => [SLimit r v] | None => [] end)
           [RStack; RAs; RCpu; RNproc; RFsize].

Definition input_steps (c : config) : list sstep :=
  match input_path c with Some p => [SOpen p MRead; SOnto 0] | None => [] end.
Definition output_steps (c : config) : list sstep :=
  match output_path c with Some p => [SOpen p MWrite; SOnto 1] | None => [] end.
Definition error_steps (c : config) : list sstep :=
  match error_path c, output_path c with
  | None, _ => []
  | Some p, Some q => if str_eqb q p then [SOnto 2] else [SOpen p MWrite; SOnto 2]
  | Some p, None => [SOpen p MWrite; SOnto 2]
  end.
Definition id_steps (c : config) : list sstep :=
  (if gid c =? keep_id then [] else [SGid (gid c); SGroups [gid c]]) ++
  (if uid c =? keep_id then [] else [SUid (uid c)]).
Definition filter_steps (c : config) : list sstep :=
  match seccomp_rule_name c with Some _ => [SFilter] | None => [] end.

(** The complete sandbox, then the program. *)
Definition sandbox_script (c : config) : list sstep :=
  limit_steps c ++ input_steps c ++ output_steps c ++ error_steps c ++ id_steps c ++
  filter_steps c ++ [SRun].

(** The steps that were successfully performed, read off the trace. *)
Definition performed (ev : cevent) : list sstep :=
  match ev with
  | EvRlimit r v => [SLimit r v]
  | EvOpen _ p m => [SOpen p m]
  | EvDup2 _ n => [SOnto n]
  | EvSetgid g => [SGid g]
  | EvSetgroups gs => [SGroups gs]
  | EvSetuid u => [SUid u]
  | EvFilter _ => [SFilter]
  | EvExec => [SRun]
  | EvLog _ | EvFclose _ => []
  end.

(** Descriptor [n] of a state. *)
Definition descriptor (k : kstate) (n : nat) : option ofile :=
  match nth_error (k_fds k) n with Some x => x | None => None end.

(** State of the process right after fork: nothing done yet, the judger runs
    without seccomp filter, open file descriptions are numbered below
    [k_next]. *)
Definition forked (k : kstate) : Prop :=
  k_trace k = [] /\ k_filter k = [] /\
  (forall n o, descriptor k n = Some o -> (of_id o < k_next k)%nat).

(** Descriptor [n] is [path] opened in mode [m], a new description. *)
Definition redirected (k0 k : kstate) (n : nat) (path : str) (m : omode) : Prop :=
  exists o, descriptor k n = Some o /\ of_path o = path /\ of_mode o = m /\
            (k_next k0 <= of_id o)%nat.

(** The log line would hit the file size limit. *)
Definition log_over_limit (env : child_env) (k : kstate) : Prop :=
  ce_log_regular env = true /\ fst (k_rlim k RFsize) <= ce_log_size env.

(** Streams opened and closed, by identity. *)
Definition opened (tr : list cevent) : list nat :=
  flat_map (fun ev => match ev with EvOpen i _ _ => [i] | _ => [] end) tr.
Definition closed (tr : list cevent) : list nat :=
  flat_map (fun ev => match ev with EvFclose i => [i] | _ => [] end) tr.

(** The credentials asked for. *)
Definition dropped (c : config) (k : kstate) : Prop :=
  let cr := k_cred k in
  (gid c <> keep_id ->
     rgid cr = gid c /\ egid cr = gid c /\ sgid cr = gid c /\ groups cr = [gid c]) /\
  (uid c <> keep_id -> ruid cr = uid c /\ euid cr = uid c /\ suid cr = uid c).

(** What run() guarantees when it calls child_process, and a maximal CPU limit
    that can be rounded to seconds. *)
Definition ready (c : config) (k0 : kstate) : Prop :=
  config_typed c /\ limits_accepted c /\ max_cpu_time c <= 2147482647 /\ forked k0.

(** No filter, or one of the five profiles. *)
Definition known_rule (name : option str) : Prop :=
  match name with
  | None => True
  | Some nm => In nm [lit "c_cpp"; lit "c_cpp_file_io"; lit "general"; lit "golang"; lit "node"]
  end.
Definition whitelist_rule (name : option str) : Prop :=
  name = Some (lit "c_cpp") \/ name = Some (lit "c_cpp_file_io").

(** Number of libseccomp calls a profile needs (one initialisation, one per
    rule, one load); execveat is one more where the system call is known. *)
Definition seccomp_calls (has_execveat : bool) (nm : str) : nat :=
  let x := if has_execveat then 1%nat else 0%nat in
  if str_eqb nm (lit "c_cpp") then 30
  else if str_eqb nm (lit "c_cpp_file_io") then 33
  else if str_eqb nm (lit "general") then (x + 12)%nat
  else if str_eqb nm (lit "golang") then (x + 10)%nat
  else if str_eqb nm (lit "node") then (x + 6)%nat
  else 0.

(** Every call succeeds. *)
Definition all_succeed (env : child_env) : Prop :=
  (forall n, ce_ok env n = true) /\ (forall n, ce_seccomp_ok env n = true).

(** The system calls of the failure path: those of time/localtime/strerror and
    of log_write, fclose and raise. *)
Definition error_call (env : child_env) (sc : syscall) : Prop :=
  In sc (ce_libc_calls env) \/
  exists nm, In nm ["write"; "flock"; "close"; "tgkill"]%string /\ sc = mkSys true nm (fun _ => 0).

(** The state in which the process died, if it did not become the program. *)
Definition dead_state (e : child_end) : option kstate :=
  match e with CKilled _ k | CExit _ k => Some k | _ => None end.

(** The same configuration with another memory_limit_check_only. *)
Definition with_check_only (c : config) (z : Z) : config :=
  mkConfig (max_cpu_time c) (max_real_time c) (max_memory c) (max_stack c) (max_process_number c)
           (max_output_size c) z (exe_path c) (input_path c) (output_path c) (error_path c)
           (args c) (Config.env c) (log_path c) (seccomp_rule_name c) (uid c) (gid c).

(** No write of the failure path reaches a file size limit. *)
Definition log_fits (env : child_env) (c : config) (k0 : kstate) : Prop :=
  ce_log_regular env = false \/ ce_xfsz_default env = false \/
  (ce_log_size env < fst (k_rlim k0 RFsize) /\
   (max_output_size c = -1 \/ ce_log_size env < max_output_size c)).
