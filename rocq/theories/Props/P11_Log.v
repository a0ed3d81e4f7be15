(** C51, C52: the log file.  [log_data s c]: the bytes that the call [c] of log_write gives
    to write(2), [UB] if they are read outside the buffer; [asks_line c l]: [l] is the
    line that [c] stands for; [exec ofd s tr s']: a history of any number of
    processes, [ofd p] the open file description process [p] logs through
    (Model/Logger.v, Spec/LogSpec.v). *)
From Coq Require Import ZArith NArith Bool List Ascii String Arith.
From Verif.Base Require Import CInt CStr CMem.
From Verif.Model Require Import Logger.
From Verif.Spec Require Import IntText LogSpec LogSamples NoLog.
From Verif.Proofs Require Import LogProofs LogSchedules LogSampleFacts NoLogProofs.
Import ListNotations.
Open Scope list_scope.
Open Scope nat_scope.

(** ** C51: log_write stays inside its buffer *)

(** A line below 8192 bytes is written as it is, whatever earlier calls left in
    the static buffers. *)
Theorem C51_line : forall s c l,
  sized s -> asks_line c l -> (N.of_nat (List.length l) < 8192)%N ->
  exists s', sized s' /\ log_data s c = Val (l, s').
Proof. exact data_line. Qed.
Print Assumptions C51_line.

Example C51_line_case : asks_line call_b (lit line_b ++ nl) /\ (N.of_nat (List.length (lit line_b ++ nl)) < 8192)%N /\
  sized fresh_buffers.
Proof.
  split; [|split; [reflexivity|exact fresh_sized]].
  apply (asks_line_intro 0 (lit "FATAL") (lit "child.c") 174
    (lit "Error: System errno: No such file or directory; Internal errno: EXECVE_FAILED") sample_date);
    try (apply lit_no_nul; reflexivity); [constructor|split; discriminate|cbn; repeat constructor].
Qed.

(** Memory outside the buffers is touched exactly for lines above 8192 bytes. *)
Theorem C51_in_bounds_iff : forall s c l,
  sized s -> asks_line c l -> log_data s c <> UB <-> (N.of_nat (List.length l) <= 8192)%N.
Proof. exact data_defined. Qed.
Print Assumptions C51_in_bounds_iff.

(** At 8192 bytes the last byte written is a NUL instead of the newline. *)
Theorem C51_exact_fit : forall s c l,
  sized s -> asks_line c l -> (N.of_nat (List.length l) = 8192)%N ->
  exists s', log_data s c = Val (firstn (N.to_nat 8191) l ++ [NUL], s').
Proof. intros s c l Z A L. destruct (data_cases s c l Z A) as (s' & _ & _ & D & _). eauto. Qed.
Print Assumptions C51_exact_fit.

Example C51_exact_fit_case : exists l, asks_line (long_call 8157) l /\ (N.of_nat (List.length l) = 8192)%N.
Proof. eexists. split; [apply long_line|]. rewrite long_length. reflexivity. Qed.

(** Every call in the program asks for a line below 8192 bytes, if the path of the
    source file has at most 4096 bytes and the error message of the system at
    most 1000. *)
Theorem C51_run_calls : forall source line date code,
  is_int line -> no_nul source -> (N.of_nat (List.length source) <= 4096)%N -> no_nul date -> List.length date <= 98 ->
  In code logged_codes -> short_line (error_exit_call source line (Some date) code).
Proof. exact run_call. Qed.
Print Assumptions C51_run_calls.

Theorem C51_child_calls : forall source line date reason code,
  is_int line -> no_nul source -> (N.of_nat (List.length source) <= 4096)%N -> no_nul date -> List.length date <= 98 ->
  List.length reason <= 1000 -> In code logged_codes ->
  short_line (child_error_exit_call source line (Some date) reason code).
Proof. exact child_call. Qed.
Print Assumptions C51_child_calls.

(** Not for every call, though. *)
Theorem C51_refuted : exists c l, asks_line c l /\ log_data fresh_buffers c = UB.
Proof. exact over_read. Qed.
Print Assumptions C51_refuted.

(** ** C52: access to the log file *)

(** Bytes of two processes are never mixed: between a byte of one and a later byte
    of another, the first has released the lock, or its description was closed. *)
Theorem C52_exclusive : forall ofd f0 a p m q b s,
  (forall p q, ofd p = ofd q -> p = q) ->
  exec ofd (quiet f0) (a ++ Byte p :: m ++ Byte q :: b) s -> p <> q -> In (Unlocked p) m \/ In (Closed (ofd p)) m.
Proof. intros ofd f0 a p m q b s D. exact (exclusive ofd D f0 a p m q b s). Qed.
Print Assumptions C52_exclusive.

(** If no write fails or is cut short and nobody is killed, the file holds the
    old contents and, at every moment, a beginning of the lines of those who
    obtained the lock, in that order; once nobody is logging all of these lines,
    and the lock is free. *)
Theorem C52_whole_lines : forall ofd f0 tr s,
  (forall p q, ofd p = ofd q -> p = q) ->
  exec ofd (quiet f0) tr s -> (forall e, In e tr -> ~ trouble e) -> (forall c, In c (started tr) -> short_line c) ->
  exists lines, Forall2 asks_line (granted (fun _ => None) tr) lines /\
    (exists rest, l_file s ++ rest = f0 ++ List.concat lines) /\
    (at_rest s -> l_file s = f0 ++ List.concat lines /\ l_lock s = None).
Proof. intros ofd f0 tr s D. exact (whole_lines ofd D f0 tr s). Qed.
Print Assumptions C52_whole_lines.

Example C52_whole_lines_case : exists s,
  exec (fun p => p) (quiet []) history s /\ (forall e, In e history -> ~ trouble e) /\
  (forall c, In c (started history) -> short_line c) /\ at_rest s /\
  l_file s = lit line_a ++ nl ++ lit line_b ++ nl /\ granted (fun _ => None) history = [call_a; call_b].
Proof.
  destruct history_runs as (s & E & F & _ & R). exists s.
  exact (conj E (conj history_calm (conj history_short (conj R (conj F history_granted))))).
Qed.

(** A failing write keeps the lock: until the process logs again or its
    description is closed, nobody else obtains it. *)
Theorem C52_write_failure_blocks : forall ofd f0 a p tr s,
  (forall p q, ofd p = ofd q -> p = q) ->
  exec ofd (quiet f0) (a ++ WriteFails p :: tr) s -> ~ In (Unlocked p) tr -> ~ In (Closed (ofd p)) tr ->
  l_lock s = Some (ofd p) /\ forall q, q <> p -> ~ In (Locked q) tr.
Proof. intros ofd f0 a p tr s D. exact (failed_write_blocks ofd D f0 a p tr s). Qed.
Print Assumptions C52_write_failure_blocks.

Theorem C52_refuted : exists s,
  exec (fun p => p) (quiet []) failing_history s /\ at_rest s /\ l_lock s <> None.
Proof. destruct failing_runs as (s & E & _ & L & R). exists s. split; [exact E|split; [exact R|rewrite L; discriminate]]. Qed.
Print Assumptions C52_refuted.

(** The lock does not separate processes that share a description. *)
Theorem C52_shared_refuted : exists tr s,
  exec (fun _ => 0) (quiet []) tr s /\ (forall e, In e tr -> ~ trouble e) /\
  (forall c, In c (started tr) -> short_line c) /\ at_rest s /\
  forall g lines, (forall c, In c g -> In c (started tr)) -> Forall2 asks_line g lines -> l_file s <> List.concat lines.
Proof. exact shared_breaks. Qed.
Print Assumptions C52_shared_refuted.

(** A line that could not be logged leaves a message on standard error. *)
Theorem C52_failures_reported : forall opened locks writes s c l,
  sized s -> asks_line c l -> (N.of_nat (List.length l) < 8192)%N -> opened && locks && writes = false ->
  exists calls s' t, log_write opened locks writes s c = Val (calls, s') /\ In (LStderr t) calls /\ t <> [].
Proof. exact failures_reported. Qed.
Print Assumptions C52_failures_reported.

Theorem C52_calls : forall s c l,
  sized s -> asks_line c l -> (N.of_nat (List.length l) < 8192)%N ->
  exists s', sized s' /\ log_write true true true s c = Val ([LFlockEx; LWrite l; LFlockUn], s').
Proof. exact write_calls. Qed.
Print Assumptions C52_calls.

(** A log that cannot be opened: each message is one note on stderr, and no file is touched. *)
Theorem C52_cannot_open : forall name locks writes cs, exists l,
  log_session false name locks writes cs = Val l /\ (forall c, In c l -> ~ uses_file c) /\
  printed l = lit "can not open log file " ++ name ++ List.concat (map (fun _ => lit "can not open log file") cs).
Proof. exact no_log. Qed.
Print Assumptions C52_cannot_open.

(** A log that can be opened: nothing on stderr, and each line is written under the lock, in order. *)
Theorem C52_session : forall name cs ls, Forall2 asks_line cs ls -> Forall (fun l => (N.of_nat (List.length l) < 8192)%N) ls ->
  log_session true name (fun _ => true) (fun _ => true) cs = Val (flat_map (fun l => [LFlockEx; LWrite l; LFlockUn]) ls).
Proof. exact with_log. Qed.
Print Assumptions C52_session.

Example C52_session_case : Forall2 asks_line [call_b] [lit line_b ++ nl] /\
  Forall (fun l => (N.of_nat (List.length l) < 8192)%N) [lit line_b ++ nl].
Proof. destruct C51_line_case as (A & L & _). split; repeat constructor; assumption. Qed.
