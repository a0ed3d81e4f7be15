(** C96: what can be read from the log.  [log_date zone t]: the time stamp printed at the moment [t] (seconds since 1970 UTC) where
    the clocks are [zone t] seconds ahead; [failure_call zone f]: the call of log_write for the failure [f], which is an ERROR_EXIT
    (run) or CHILD_ERROR_EXIT (child) with file, line, moment, reason and code (Model/Stamp.v); the calendar [nth_day], the text
    [stamp_of], the order [sorts_before] and [log_of zone fs s], [s] is the text of the failures [fs], in Spec/StampSpec.v;
    [exec], [granted] and [at_rest] as in C52. *)
From Coq Require Import ZArith NArith Bool List Ascii String.
From Verif.Base Require Import CInt CStr.
From Verif.Model Require Import Logger Stamp.
From Verif.Spec Require Import IntText LogSpec StampSpec.
From Verif.Proofs Require Import StampProofs LogReadback.
Import ListNotations.
Open Scope list_scope.
Open Scope Z_scope.

(** ** C96: time stamps *)
(** The stamp is the date in the calendar and the time of day. *)
Theorem C96_date : forall zone t, our_times (local zone t) -> log_date zone t = Some (stamp_of (local zone t)).
Proof. exact date_text. Qed.
Print Assumptions C96_date.

(** It always has 19 bytes. *)
Theorem C96_length : forall l, our_times l -> List.length (stamp_of l) = 19%nat.
Proof. intros l H. exact (proj1 (stamp_shape l H)). Qed.
Print Assumptions C96_length.

(** Stamps sort as the clocks show, and equal stamps are the same second on the clock. *)
Theorem C96_sorted : forall zone t1 t2 a b,
  our_times (local zone t1) -> our_times (local zone t2) -> log_date zone t1 = Some a -> log_date zone t2 = Some b ->
  (sorts_before a b <-> local zone t1 < local zone t2) /\ (a = b <-> local zone t1 = local zone t2).
Proof. exact stamps_sorted. Qed.
Print Assumptions C96_sorted.

(** While the zone does not change, that is the order in time. *)
Theorem C96_sorted_in_time : forall zone t1 t2 a b,
  zone t1 = zone t2 -> our_times (local zone t1) -> our_times (local zone t2) -> log_date zone t1 = Some a -> log_date zone t2 = Some b ->
  (sorts_before a b <-> t1 < t2) /\ (a = b <-> t1 = t2).
Proof. exact stamps_fixed. Qed.
Print Assumptions C96_sorted_in_time.

Example C96_date_case : our_times (local (fun _ => 3600) 1772319599) /\ our_times (local (fun _ => 3600) 1772319600) /\
  stamp_of (local (fun _ => 3600) 1772319599) = lit "2026-02-28 23:59:59" /\
  stamp_of (local (fun _ => 3600) 1772319600) = lit "2026-03-01 00:00:00" /\
  stamp_of 951782400 = lit "2000-02-29 00:00:00" /\ stamp_of 0 = lit "1970-01-01 00:00:00".
Proof. split; [split; vm_compute; congruence|]. split; [split; vm_compute; congruence|]. vm_compute. repeat split. Qed.

(** ** C96: the file *)
(** Every failure has its line. *)
Theorem C96_has_line : forall zone fs, Forall (possible zone) fs -> exists s, log_of zone fs s.
Proof. exact log_of_exists. Qed.
Print Assumptions C96_has_line.

(** From the text the failures can be read back: who failed, in which order, where, when by the clock, why and with which code. *)
Theorem C96_read_back : forall zone fs gs s,
  log_of zone fs s -> Forall (possible zone) fs -> log_of zone gs s -> Forall (possible zone) gs -> Forall2 (looks_like zone) fs gs.
Proof. intros zone fs gs s A B C D. exact (log_readback zone fs s A B gs C D). Qed.
Print Assumptions C96_read_back.

(** That is the file any number of judgers leave, in the order in which they got the lock (no write fails, nobody is killed; see C52). *)
Theorem C96_judgers : forall ofd zone tr s,
  (forall p q, ofd p = ofd q -> p = q) -> exec ofd (quiet []) tr s -> (forall e, In e tr -> ~ trouble e) ->
  (forall c, In c (started tr) -> exists f, possible zone f /\ brief f /\ c = failure_call zone f) -> at_rest s ->
  exists fs, granted (fun _ => None) tr = map (failure_call zone) fs /\ Forall (possible zone) fs /\ log_of zone fs (l_file s).
Proof. exact judgers_log. Qed.
Print Assumptions C96_judgers.

Definition sample_failures : list failure :=
  [RunFails (lit "runner.c") 49 1772319599 "INVALID_CONFIG";
   ChildFails (lit "child.c") 174 1772319600 (lit "No such file or directory") "EXECVE_FAILED"].
Example C96_read_back_case : Forall (possible (fun _ => 3600)) sample_failures /\ Forall brief sample_failures /\
  log_of (fun _ => 3600) sample_failures
    (lit "FATAL [2026-02-28 23:59:59] [runner.c:49]Error: INVALID_CONFIG" ++ ["010"%char] ++
     lit "FATAL [2026-03-01 00:00:00] [child.c:174]Error: System errno: No such file or directory; Internal errno: EXECVE_FAILED" ++ ["010"%char]).
Proof.
  assert (N : forall c s, forallb (fun x => negb (aeqb x c)) s = true -> ~ In c s).
  { intros c s F I. rewrite forallb_forall in F. apply F in I. apply negb_true_iff, aeqb_neq in I. congruence. }
  assert (P : Forall (possible (fun _ => 3600)) sample_failures).
  { constructor; [|constructor; [|constructor]]; cbn [possible].
    - split; [split; [|split]; apply N; reflexivity|]. do 2 (split; [split; vm_compute; congruence|]). right. left. reflexivity.
    - split; [split; [|split]; apply N; reflexivity|]. do 2 (split; [split; vm_compute; congruence|]).
      split; [apply N; reflexivity|]. split; [apply N; reflexivity|]. do 9 right. left. reflexivity. }
  split; [exact P|]. split; [repeat constructor; vm_compute; congruence|].
  apply Forall_inv in P as P1. apply Forall_inv_tail, Forall_inv in P as P2.
  exact (log_more _ _ _ _ _ (failure_asks _ _ P1) (log_more _ _ _ _ _ (failure_asks _ _ P2) (log_none _))).
Qed.

(** ** Where it falls short *)
(** When the clocks go back, a later line has the smaller stamp. *)
Theorem C96_clocks_back_refuted : exists zone t1 t2 a b, t1 < t2 /\ our_times (local zone t1) /\ our_times (local zone t2) /\
  log_date zone t1 = Some a /\ log_date zone t2 = Some b /\ sorts_before b a.
Proof. exists autumn. exact clocks_back. Qed.
Print Assumptions C96_clocks_back_refuted.

(** If the name of a source file may contain a colon, two different failures can have the same line. *)
Theorem C96_colon_refuted : forall zone now, our_times (local zone now) -> exists f source line reason code l,
  possible zone f /\ asks_line (failure_call zone f) l /\ no_nul source /\ is_int line /\ In code logged_codes /\ ~ In "010"%char reason /\ no_nul reason /\
  asks_line (failure_call zone (ChildFails source line now reason code)) l /\ ~ looks_like zone f (ChildFails source line now reason code).
Proof. exact colon_confuses. Qed.
Print Assumptions C96_colon_refuted.

(** With a clock in the far future localtime returns a null pointer, which strftime reads. *)
Theorem C96_far_future_refuted : exists now, now < 2 ^ 63 /\ forall s source line code,
  log_data s (failure_call (fun _ => 0) (RunFails source line now code)) = UB.
Proof. exact far_away. Qed.
Print Assumptions C96_far_future_refuted.
