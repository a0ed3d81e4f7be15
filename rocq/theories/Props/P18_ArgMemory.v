(** C71: the memory of the option parser.  [main_m ok fuel posix argv]: main up to the call of
    run(), where the n-th malloc succeeds when [ok n]: what main does, with the heap when it
    returns; [MUB] would be an access outside an array or a free of something that is not
    allocated; [MPanic]: the process ended because malloc failed (Model/ArgMemory.v).
    [does posix argv a] is what C40-C49 are about. *)
From Coq Require Import List Ascii String Arith.
From Verif.Base Require Import CInt CStr.
From Verif.Model Require Import ArgInt Getopt Argtable Main ArgMemory.
From Verif.Spec Require Import ArgMemorySpec.
From Verif.Proofs Require Import ArgMemoryProofs.
Import ListNotations.
Open Scope nat_scope.

(** Whatever the words, where C40-C49 say what main does, it does that within its
    memory, and has freed everything when it returns; or one of the first 23
    allocations failed, and the process ends. *)
Theorem C71_memory_returned : forall posix argv a, does posix argv (Val a) -> forall ok, exists fuel,
  (main_m ok fuel posix argv = Some MPanic /\ exists n, n < 23 /\ ok n = false) \/
  (exists h, main_m ok fuel posix argv = Some (MVal (a, h)) /\ h_live h = []).
Proof. exact does_safe. Qed.
Print Assumptions C71_memory_returned.

(** And nothing else happens. *)
Theorem C71_outcomes : forall ok fuel posix argv r, main_m ok fuel posix argv = Some r ->
  match r with
  | MVal (a, h) => does posix argv (Val a) /\ h_live h = []
  | MUB => does posix argv UB
  | MPanic => exists n, n < 23 /\ ok n = false
  end.
Proof. exact only_does. Qed.
Print Assumptions C71_outcomes.

(** Six words, one of them unknown: 23 allocations, none left. *)
Example C71_sample : exists e h, main_m (fun _ => true) 10 true
  [lit "judger"; lit "--exe_path=/bin/true"; lit "--max_cpu_time=1000"; lit "--args=a"; lit "--args=b"; lit "--bad"] = Some (MVal (Errors [e], h)) /\
  h = mkHeap [] 23.
Proof. exact sample_main. Qed.
Example C71_sample_failure : main_m (fun n => negb (n =? 21)) 10 true sample_argv = Some MPanic.
Proof. exact sample_panic. Qed.

(** The parser for any table: it reads and writes inside the arrays of the entries and of the lists it makes for getopt,
    which are large enough for any names, counts and words; the values and errors are those of C40-C49's parser; the
    table can be freed. *)
Theorem C71_any_table : forall ok fuel posix em argv t t2 h2 d h3, Forall usable t -> 1 <= em ->
  new_table ok t (mkHeap [] 0) = MVal (t2, h2) -> new_end ok em h2 = MVal (d, h3) ->
  match parse_m ok fuel posix argv t2 d h3 with
  | None => arg_parse fuel posix em argv t = None
  | Some (MVal (t4, d4, h4)) => exists t' errs, arg_parse fuel posix em argv t = Some (Val (t', errs)) /\
      map me_count t4 = map e_count t' /\ Forall2 same_entry (map entry_of t4) t' /\
      errors_of (en_count d4) (en_arr d4) = Val errs /\ en_count d4 = List.length errs /\
      exists n, free_table (map me_id t4 ++ [en_id d4]) h4 = MVal (mkHeap [] n)
  | Some MUB => arg_parse fuel posix em argv t = Some UB
  | Some MPanic => exists n, h_calls h3 <= n < h_calls h3 + 3 /\ ok n = false
  end.
Proof. exact library_ok. Qed.
Print Assumptions C71_any_table.

(** The judger's table is usable. *)
Example C71_any_table_sample : Forall usable arg_table.
Proof. exact arg_table_usable. Qed.

(** The restrictions are needed: long names that begin with a comma, empty long
    names, and an arg_end without room. *)
Theorem C71_any_table_refuted :
  life 1 [mkEntry ALit None (Some (lit ",a")) 0 1 []] [lit "x"] = Some MUB /\
  life 1 [mkEntry ALit None (Some []) 0 1 []] [lit "x"] = Some MUB /\
  life 0 [mkEntry ALit None (Some (lit "a")) 1 1 []] [lit "x"] = Some MUB /\
  life 1 [mkEntry ALit None (Some (lit "a,,b,")) 1 1 []] [lit "x"; lit "--b"] = Some (MVal tt).
Proof. exact unusable. Qed.
Print Assumptions C71_any_table_refuted.
