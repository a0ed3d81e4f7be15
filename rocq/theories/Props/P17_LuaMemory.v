(** C70: the memory of the Lua binding.  [global_judge_ ok t]: judger.run called with the
    table [t], where the n-th malloc succeeds when [ok n]; [UB] would be a free of
    something that is not an allocated block (a double free, say) or a write
    outside an array.  [read_config_ ok t]: the same up to the call of run()
    (Model/LuaMemory.v). *)
From Coq Require Import ZArith List String.
From Verif.Base Require Import CInt CStr CMem.
From Verif.Model Require Import Config LuaBinding LuaMemory.
From Verif.Spec Require Import LuaSpec LuaSamples LuaMemorySpec.
From Verif.Proofs Require Import LuaProofs LuaSampleFacts LuaMemoryProofs.
Import ListNotations.
Open Scope nat_scope.

(** Whatever the table, and whichever allocations fail, the memory is used
    properly and all of it is freed, also when an error is raised. *)
Theorem C70_memory_returned : forall ok t, exists called m,
  global_judge_ ok t = Val (called, m) /\ m_live m = [] /\
  (called = true <-> exists c, lua_config [LTable t] = Some c).
Proof. exact c70_memory. Qed.
Print Assumptions C70_memory_returned.

(** When no allocation fails, run() finds the configuration of C57 behind its
    pointers, all of them into live blocks. *)
Theorem C70_configuration : forall t c, lua_config [LTable t] = Some c ->
  exists L m, read_config_ (fun _ => true) t = Val (true, L, m) /\ points_to L (m_live m) c.
Proof. exact c70_configuration. Qed.
Print Assumptions C70_configuration.

(** Seven blocks for the sample; none after. *)
Example C70_sample : exists c L m m', lua_config [LTable lua_sample] = Some c /\
  read_config_ (fun _ => true) lua_sample = Val (true, L, m) /\ List.length (m_live m) = 7 /\
  global_judge_ (fun _ => true) lua_sample = Val (true, m') /\ m_calls m' = 7.
Proof. do 4 eexists. repeat (split; [vm_compute; reflexivity|]). vm_compute. reflexivity. Qed.

(** An error after six allocations: the second item of args is not a string. *)
Example C70_sample_error : exists t L m m', lua_config [LTable t] = None /\
  read_config_ (fun _ => true) t = Val (false, L, m) /\ List.length (m_live m) = 6 /\
  global_judge_ (fun _ => true) t = Val (false, m').
Proof.
  exists (map (fun kv => match snd kv with LTable (a :: _) => (fst kv, LTable [a; (LNumber 2, LNil)]) | _ => kv end) lua_sample).
  do 3 eexists. repeat (split; [vm_compute; reflexivity|]). vm_compute. reflexivity.
Qed.

(** But an allocation that fails is not reported: run() is called with a null pointer for the
    string. *)
Theorem C70_configuration_refuted : exists ok t c L m, lua_config [LTable t] = Some c /\
  read_config_ ok t = Val (true, L, m) /\ string_of L (m_live m) 4 = None.
Proof.
  exists (fun n => negb (Nat.eqb n 4)), lua_sample. do 3 eexists. repeat (split; [vm_compute; reflexivity|]). vm_compute. reflexivity.
Qed.
Print Assumptions C70_configuration_refuted.
