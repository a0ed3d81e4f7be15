(** C73: the registry of commands.  [served loadlimit ok qs] is what a program holds that
    calls arg_cmd_init and then makes the requests [qs] (Spec/CommandSpec.v), where the n-th
    malloc succeeds when [ok n]; [MUB] would be an access outside an array or a wrong free;
    [MPanic]: the process ended because malloc failed.  [loadlimit size] is when a table of
    [size] chains grows: any function. *)
From Coq Require Import ZArith Bool List Ascii String Arith Permutation.
From Verif.Base Require Import CInt CStr CMem.
From Verif.Model Require Import ArgMemory HashTable.
From Verif.Spec Require Import CommandSpec.
From Verif.Proofs Require Import HashTableProofs RegistryClaims.
Import ListNotations.
Open Scope Z_scope.

(** Whatever was registered and unregistered, and however names collide: a name is found when its last
    request registered it, with what that request gave; then dispatch calls that procedure. *)
Theorem C73_lookup : forall P loadlimit ok (qs : list (request P)), Forall fits qs ->
  (served loadlimit ok qs = MPanic /\ exists n, ok n = false) \/
  (exists r h, served loadlimit ok qs = MVal (r, h) /\
     forall name, match current qs name with
                  | Some (proc, description) =>
                      (exists i, cmd_info P name r = Val (Some i) /\ is_command i name (proc, description)) /\
                      cmd_dispatch P name r = MVal proc
                  | None => cmd_info P name r = Val None /\ cmd_dispatch P name r = MPanic
                  end).
Proof. exact c73_lookup. Qed.
Print Assumptions C73_lookup.

(** The count is the number of names registered, and a walk with an iterator meets each of them once, with its command; searching
    with an iterator finds the same. *)
Theorem C73_listing : forall P loadlimit ok (qs : list (request P)) r h, Forall fits qs -> served loadlimit ok qs = MVal (r, h) ->
  Z.of_nat (List.length qs) < 4294967296 ->
  exists names, NoDup names /\ (forall n, In n names <-> current qs n <> None) /\
    cmd_count P r = Val (Z.of_nat (List.length names)) /\
    exists cs, Permutation (map fst cs) names /\
      (forall fuel, (List.length names < fuel)%nat -> cmd_list P fuel r = Some (Val cs)) /\
      forall n i, In (n, i) cs -> exists x, current qs n = Some x /\ is_command i n x.
Proof. exact c73_listing. Qed.
Print Assumptions C73_listing.

Theorem C73_search : forall P loadlimit ok (qs : list (request P)) r h, Forall fits qs -> served loadlimit ok qs = MVal (r, h) ->
  exists t, r = Some t /\ forall name,
    match current qs name with
    | Some x => exists i v, itr_search (info P) hash_key equal_keys name t = Val (Some i) /\
                  itr_key (info P) t i = Val name /\ itr_value (info P) t i = Val v /\ is_command v name x
    | None => itr_search (info P) hash_key equal_keys name t = Val None
    end.
Proof. exact c73_search. Qed.
Print Assumptions C73_search.

(** Removing while walking: the commands that are not wanted are gone, the others are as before, and all memory is returned in the end. *)
Theorem C73_sweep : forall P loadlimit ok (qs : list (request P)) r h keep, Forall fits qs -> served loadlimit ok qs = MVal (r, h) ->
  Z.of_nat (List.length qs) < 4294967296 ->
  exists r' h', (forall fuel, (List.length qs < fuel)%nat -> swept keep fuel r h = Some (MVal (r', h'))) /\
    (forall name, match (if keep name then current qs name else None) with
                  | Some x => exists i, cmd_info P name r' = Val (Some i) /\ is_command i name x
                  | None => cmd_info P name r' = Val None
                  end) /\
    exists h2, cmd_uninit P r' h' = MVal h2 /\ h_live h2 = [].
Proof. exact c73_sweep. Qed.
Print Assumptions C73_sweep.

(** arg_cmd_uninit returns all memory. *)
Theorem C73_memory : forall P loadlimit ok (qs : list (request P)) r h, Forall fits qs -> served loadlimit ok qs = MVal (r, h) ->
  exists h', cmd_uninit P r h = MVal h' /\ h_live h' = [].
Proof. exact c73_memory. Qed.
Print Assumptions C73_memory.

(** Four requests: one name replaced, one removed; three blocks for the command that is left and two for the table. *)
Example C73_sample_fits : Forall fits sample_requests.
Proof. exact sample_fits. Qed.
Example C73_sample : exists t i, served (fun _ => 1) (fun _ => true) sample_requests = MVal (Some t, mkHeap [11; 10; 9; 7; 0]%nat 12) /\
  cmd_info nat (lit "b") (Some t) = Val (Some i) /\ ci_proc i = 4%nat /\ cmd_info nat (lit "a") (Some t) = Val None.
Proof. exact sample_served. Qed.
Example C73_sample_failure : served (fun _ => 1) (fun n => negb (n =? 7)%nat) sample_requests = MPanic.
Proof. exact sample_failure. Qed.

(** Without arg_cmd_init, the NULL table is read. *)
Theorem C73_uninitialised_refuted : forall P loadlimit ok name proc h,
  cmd_info P name None = UB /\ cmd_count P None = UB /\ cmd_register P loadlimit ok [] proc [] None h = MUB.
Proof. exact c73_uninitialised. Qed.
Print Assumptions C73_uninitialised_refuted.
