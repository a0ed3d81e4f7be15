(** C105: what the size of the output file and the result say about the output.
    [fruns] and [disk_after] are those of C78, [reported] is that of C104; [xfsz p] says that
    SIGXFSZ has its default action in process [p]. *)
From Coq Require Import ZArith Bool List String Lia.
From Verif.Base Require Import CInt CStr.
From Verif.Model Require Import Config Runner Seccomp Child Program Files.
From Verif.Spec Require Import Verdict RunSpec Samples SandboxSpec ChildSamples ContainSpec ContainSamples FilesSpec FilesSamples ReportSpec AskedSpec.
From Verif.Proofs Require Import SampleFacts FilesFacts AskedProofs.
From Verif.Props Require Import P25_Written.
Import ListNotations.
Open Scope list_scope.
Open Scope Z_scope.

(** The file holds the beginning of what the program wanted to write, and all of it unless the
    file is exactly as long as the limit. *)
Theorem C105_prefix : forall file_of xfsz env log c k0 path a v k,
  ready c k0 -> child_process env log c k0 = CExec path a v k ->
  forall w p n q o D ds w' D', writes_to file_of c k0 k w p n q o ->
  fruns file_of xfsz w (disk_after file_of k D) ds w' D' -> streams_only ds -> never_short (max_output_size c) (of_id o) ds ->
  size_of D' (file_of q) <= max_output_size c /\
  exists lost, asked_through (of_id o) ds = d_data D' (file_of q) ++ lost /\ (lost <> [] -> size_of D' (file_of q) = max_output_size c).
Proof. exact output_prefix. Qed.
Print Assumptions C105_prefix.

(** A program that wants to write more when the file is full ends by SIGXFSZ, and that is what is
    reported: signal 25 and RUNTIME_ERROR, or a limit that was exceeded as well. *)
Theorem C105_over : forall file_of xfsz env log c k0 path a v k,
  ready c k0 -> child_process env log c k0 = CExec path a v k ->
  forall w p n q o D ds w' D' before d after o' asked taken, writes_to file_of c k0 k w p n q o ->
  fruns file_of xfsz w (disk_after file_of k D) ds w' D' -> streams_only ds -> xfsz p = true ->
  ds = before ++ d :: after -> d_wrote d = Some (o', asked, taken) -> of_id o' = of_id o -> asked <> [] ->
  max_output_size c <= Z.of_nat (List.length (bytes_through (of_id o) before)) ->
  w' p = Some (inr (Signaled 25)) /\
  forall r, reported c (Signaled 25) r ->
    error r = 0 /\ signal r = 25 /\ exit_code r = 0 /\ In (verdict r) [1; 2; 3; 4] /\ (verdict r = 4 <-> ~ over_a_limit c r).
Proof. exact output_over. Qed.
Print Assumptions C105_over.

(** So after a SUCCESS a write that was cut is the last one: nothing was asked for after it. *)
Theorem C105_success : forall file_of xfsz env log c k0 path a v k,
  ready c k0 -> child_process env log c k0 = CExec path a v k ->
  forall w p n q o D ds w' D' x r before d after o' asked taken, writes_to file_of c k0 k w p n q o ->
  fruns file_of xfsz w (disk_after file_of k D) ds w' D' -> streams_only ds -> never_short (max_output_size c) (of_id o) ds ->
  xfsz p = true -> w' p = Some (inr x) -> reported c x r -> verdict r = 0 ->
  ds = before ++ d :: after -> d_wrote d = Some (o', asked, taken) -> of_id o' = of_id o -> taken <> asked ->
  asked_through (of_id o) after = [].
Proof. exact output_success. Qed.
Print Assumptions C105_success.

(** The hypotheses are met by a program with a limit of 4 bytes whose only write is cut, and which
    is reported as a success: 56 is lost, and the file is full. *)
Example C105_case_stream : exists p a v o,
    ready (io_config "b" "a" "a" 4) sample_k0 /\
    child_process (sample_child_env None) sample_log (io_config "b" "a" "a" 4) sample_k0 = CExec p a v (io_state "b" "a" "a" 4) /\
    writes_to names (io_config "b" "a" "a" 4) sample_k0 (io_state "b" "a" "a" 4) (one (io_program "b" "a" "a" 4)) 7 1 (lit "a") o /\
    of_id o = 3%nat.
Proof.
  destruct (io_exec "b" "a" "a" 4 ltac:(lia)) as (p & a & v & E). exists p, a, v.
  destruct (descriptor (io_state "b" "a" "a" 4) 1) as [o|] eqn:Ho; [|vm_compute in Ho; discriminate Ho].
  exists o.
  split; [apply io_ready; lia|]. split; [exact E|]. split.
  { split; [left; split; reflexivity|]. split.
    { intros n o'. do 4 (destruct n as [|n]; [cbn; intros H; injection H as <-; cbn; discriminate|]). destruct n; discriminate. }
    split; [intros x y Hx Hy; left; injection Hx as <-; injection Hy as <-; reflexivity|]. split; [reflexivity|]. split; [exact Ho|].
    split; [apply one_started; lia|]. split; [|discriminate]. apply one_nobody. }
  (vm_compute in Ho; injection Ho as <-; reflexivity).
Qed.

Example C105_case : let P := io_program "b" "a" "a" 4 in
  let ds := [writes P 1 "123456" "1234"; ends 0] in
  exists w' D',
    fruns names dies (one P) (disk_after names (io_state "b" "a" "a" 4) full) ds w' D' /\ streams_only ds /\
    never_short 4 3 ds /\ w' 7%nat = Some (inr (Program.Exited 0)) /\
    asked_through 3 ds = lit "123456" /\ d_data D' (names (lit "a")) = lit "1234".
Proof.
  destruct C78_complete_refuted as (P & w' & D' & _ & _ & -> & F & Dd & W). exists w', D'.
  split; [exact F|]. split.
  { intros d q sc H. cbn in H. repeat destruct H as [<-|H]; try (intros X; injection X as <- <-; split; [vm_compute; tauto|
      intros Y; vm_compute in Y; repeat (destruct Y as [Y|Y]; [discriminate Y|]); exact Y]). destruct H. }
  split.
  { intros b d af o asked taken Eq Wr _. destruct b as [|b1 [|b2 b]].
    - injection Eq as <- _. right. vm_compute in Wr. injection Wr as <- <- <-. vm_compute. discriminate.
    - injection Eq as _ <- _. discriminate Wr.
    - destruct b; discriminate Eq. }
  split; [exact W|]. split; [vm_compute; reflexivity|exact Dd].
Qed.

Example C105_case_reported : reported (io_config "b" "a" "a" 4) (Program.Exited 0) (mkResult 80 120 1536000 0 0 0 0).
Proof.
  exists (sample_env (wait_status (seen (Program.Exited 0) false)) sample_usage), false, sample_usage. eexists. split.
  - destruct (sample_env_judged (Verdict.Exited 0) sample_usage) as (J1 & J2 & J3 & J4 & J5 & J6 & J7);
      [cbn; lia|apply tv_ok_b; reflexivity|unfold rss_ok; cbn; lia|].
    split; [exact J1|]. split; [repeat split; cbn; unfold limit_ok; lia|]. split; [exact J3|]. split; [right; reflexivity|].
    split; [exact J5|]. split; [exact J6|exact J7].
  - vm_compute. reflexivity.
Qed.

(** A second write: the end by SIGXFSZ. *)
Example C105_over_case : let P := io_program "b" "a" "a" 4 in exists w' D',
  fruns names dies (one P) (disk_after names (io_state "b" "a" "a" 4) full) [writes P 1 "123456" "1234"; writes P 1 "56" ""] w' D' /\
  bytes_through 3 [writes P 1 "123456" "1234"] = lit "1234" /\ w' 7%nat = Some (inr (Signaled 25)).
Proof. destruct C78_killed as (w' & D' & H & _ & K). exists w', D'. split; [exact H|split; [vm_compute; reflexivity|exact K]]. Qed.
