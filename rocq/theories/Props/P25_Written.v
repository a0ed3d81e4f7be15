(** C78: the files a judged program writes.  [fruns file_of xfsz w D ds w' D'] says that the processes
    of [w] perform [ds] (in any interleaving) on the files [D] and reach [w'] and [D'];
    [disk_after file_of k D] are the files when the judger starts the program of state [k]. *)
From Coq Require Import ZArith Bool List String Lia.
From Verif.Base Require Import CInt CStr.
From Verif.Model Require Import Config Runner Seccomp Child Program Files.
From Verif.Spec Require Import SandboxSpec ChildSamples ContainSpec ContainSamples FilesSpec FilesSamples.
From Verif.Proofs Require Import FilesProofs FilesFacts.
Import ListNotations.
Open Scope list_scope.
Open Scope Z_scope.

(** No file grows beyond the output limit, whatever the programs do. *)
Theorem C78_size : forall file_of xfsz L w D ds w' D',
  all_started w -> (forall p P, w p = Some (inl P) -> limited_to L P) -> fruns file_of xfsz w D ds w' D' ->
  forall f, size_of D' f <= Z.max (size_of D f) L.
Proof. exact sizes_bounded. Qed.
Print Assumptions C78_size.

(** Output and error file contain exactly the bytes that went through the stream, in order. *)
Theorem C78_captured : forall file_of xfsz env log c k0 path a v k, ready c k0 -> child_process env log c k0 = CExec path a v k ->
  forall n q w p o D ds w' D', (n = 1%nat /\ output_path c = Some q) \/ (n = 2%nat /\ error_path c = Some q) ->
  not_held file_of k0 (file_of q) -> well_told file_of (output_path c) (error_path c) ->
  w p = Some (inl (program_of k)) -> descriptor k n = Some o -> all_running w -> nobody_else file_of w p (of_id o) (file_of q) ->
  fruns file_of xfsz w (disk_after file_of k D) ds w' D' -> streams_only ds ->
  d_data D' (file_of q) = bytes_through (of_id o) ds.
Proof. exact stream_captured. Qed.
Print Assumptions C78_captured.

(** At the limit nothing is written any more and SIGXFSZ (25) ends the program. *)
Theorem C78_at_limit : forall file_of xfsz w D p P sc o asked taken w' D', w p = Some (inl P) -> of_mode o = MWrite ->
  fst (p_rlim P RFsize) <> 18446744073709551615 -> fst (p_rlim P RFsize) <= Z.of_nat (d_pos D (of_id o)) -> asked <> [] ->
  fstep file_of xfsz w D (mkDeed (Calls p sc) (Some (o, asked, taken))) w' D' ->
  taken = [] /\ D' = D /\ w' = if xfsz p then put w p (inr (Signaled 25)) else w.
Proof. exact at_limit. Qed.
Print Assumptions C78_at_limit.

(** Below it a write takes a prefix that stays below, and the program goes on. *)
Theorem C78_below_limit : forall file_of xfsz w D p P sc o asked taken w' D', w p = Some (inl P) -> of_mode o = MWrite ->
  fst (p_rlim P RFsize) <> 18446744073709551615 -> Z.of_nat (d_pos D (of_id o)) < fst (p_rlim P RFsize) ->
  fstep file_of xfsz w D (mkDeed (Calls p sc) (Some (o, asked, taken))) w' D' ->
  w' = w /\ (exists left, asked = taken ++ left) /\ Z.of_nat (d_pos D (of_id o) + List.length taken) <= fst (p_rlim P RFsize).
Proof. exact below_limit. Qed.
Print Assumptions C78_below_limit.

(** The program finds its input unchanged, at the beginning. *)
Theorem C78_input : forall file_of env log c k0 path a v k, ready c k0 -> child_process env log c k0 = CExec path a v k ->
  forall q D, input_path c = Some q -> (forall p, output_path c = Some p \/ error_path c = Some p -> file_of p <> file_of q) ->
  exists o, descriptor k 0 = Some o /\ of_path o = q /\ of_mode o = MRead /\
    d_data (disk_after file_of k D) (file_of q) = d_data D (file_of q) /\ d_pos (disk_after file_of k D) (of_id o) = 0%nat.
Proof. exact input_intact. Qed.
Print Assumptions C78_input.

(** Before the start output and error file are emptied, all others are left alone. *)
Theorem C78_emptied : forall file_of env log c k0 path a v k, ready c k0 -> child_process env log c k0 = CExec path a v k ->
  forall q D, output_path c = Some q \/ error_path c = Some q -> d_data (disk_after file_of k D) (file_of q) = [].
Proof. exact outputs_emptied. Qed.
Print Assumptions C78_emptied.
Theorem C78_others : forall file_of env log c k0 path a v k, ready c k0 -> child_process env log c k0 = CExec path a v k ->
  forall f D, (forall p, output_path c = Some p \/ error_path c = Some p -> file_of p <> f) ->
  d_data (disk_after file_of k D) f = d_data D f.
Proof. exact others_intact. Qed.
Print Assumptions C78_others.

(** One step of a sample history. *)
Ltac writes_ P n asked taken rest :=
  eapply fruns_cons; [eapply (f_write _ _ _ _ 7%nat P _ _ _ (lit asked) (lit taken ++ lit rest) (lit taken) (lit rest));
    [vm_compute; reflexivity|vm_compute; reflexivity|vm_compute; auto|vm_compute; reflexivity|vm_compute; reflexivity|vm_compute; reflexivity|reflexivity]|].
Ltac ends_ := eapply fruns_cons; [eapply f_rest; [vm_compute; reflexivity|vm_compute; reflexivity|vm_compute; tauto
    |intros H; vm_compute in H; repeat (destruct H as [H|H]; [discriminate H|]); exact H|eapply ex_exit; reflexivity]|].

(** Not vacuous: output and error are the same path, the pieces come in the order of writing; the
    hypotheses of all the theorems hold. *)
Example C78_sample : let P := io_program "b" "a" "a" 100 in
  let ds := [writes P 1 "out " "out "; writes P 2 "err " "err"; writes P 1 "end" "end"; ends 0] in
  exists p a v w' D',
    ready (io_config "b" "a" "a" 100) sample_k0 /\
    child_process (sample_child_env None) sample_log (io_config "b" "a" "a" 100) sample_k0 = CExec p a v (io_state "b" "a" "a" 100) /\
    not_held names sample_k0 (names (lit "a")) /\ well_told names (Some (lit "a")) (Some (lit "a")) /\
    all_started (one P) /\ (forall p P', one P p = Some (inl P') -> limited_to 100 P') /\
    fruns names dies (one P) (disk_after names (io_state "b" "a" "a" 100) full) ds w' D' /\ streams_only ds /\
    d_data D' 1 = lit "out errend" /\ d_data D' 2 = lit "input" /\ w' 7%nat = Some (inr (Exited 0)).
Proof.
  destruct (io_exec "b" "a" "a" 100 ltac:(lia)) as (p & a & v & E). exists p, a, v. do 2 eexists.
  split; [apply io_ready; lia|]. split; [exact E|]. split.
  { intros n o. do 4 (destruct n as [|n]; [cbn; intros H; injection H as <-; cbn; discriminate|]). destruct n; discriminate. }
  split; [intros x y Hx Hy; left; congruence|].
  split; [apply one_started; lia|]. split; [apply one_limited; lia|].
  split.
  { writes_ (io_program "b" "a" "a" 100) 1%nat "out "%string "out "%string ""%string.
    writes_ (io_program "b" "a" "a" 100) 2%nat "err "%string "err"%string " "%string.
    writes_ (io_program "b" "a" "a" 100) 1%nat "end"%string "end"%string ""%string.
    ends_. constructor. }
  split.
  { intros d q sc H. cbn in H. repeat destruct H as [<-|H]; try (intros X; injection X as <- <-; split; [vm_compute; tauto|
      intros Y; vm_compute in Y; repeat (destruct Y as [Y|Y]; [discriminate Y|]); exact Y]). destruct H. }
  split; [vm_compute; reflexivity|]. split; vm_compute; reflexivity.
Qed.

(** "What a program writes to output and error is kept" is false if the two paths are different
    spellings of the same file: the pieces overwrite each other. *)
Theorem C78_spelling_refuted : exists P w' D',
  all_started (one P) /\ P = io_program "b" "a" "./a" 100 /\
  fruns names dies (one P) (disk_after names (io_state "b" "a" "./a" 100) full) [writes P 1 "answer" "answer"; writes P 2 "log" "log"; ends 0] w' D' /\
  d_data D' (names (lit "a")) = lit "logwer".
Proof.
  exists (io_program "b" "a" "./a" 100). do 2 eexists. split; [apply one_started; lia|]. split; [reflexivity|]. split.
  { writes_ (io_program "b" "a" "./a" 100) 1%nat "answer"%string "answer"%string ""%string.
    writes_ (io_program "b" "a" "./a" 100) 2%nat "log"%string "log"%string ""%string. ends_. constructor. }
  vm_compute. reflexivity.
Qed.
Print Assumptions C78_spelling_refuted.

(** "A program that exits with 0 has written everything it wanted to" is false: the last write is
    shortened, without a signal. *)
Theorem C78_complete_refuted : exists P w' D',
  all_started (one P) /\ limited_to 4 P /\ P = io_program "b" "a" "a" 4 /\
  fruns names dies (one P) (disk_after names (io_state "b" "a" "a" 4) full) [writes P 1 "123456" "1234"; ends 0] w' D' /\
  d_data D' (names (lit "a")) = lit "1234" /\ w' 7%nat = Some (inr (Exited 0)).
Proof.
  exists (io_program "b" "a" "a" 4). do 2 eexists. split; [apply one_started; lia|]. split; [apply io_limited; lia|]. split; [reflexivity|]. split.
  { writes_ (io_program "b" "a" "a" 4) 1%nat "123456"%string "1234"%string ""%string. ends_. constructor. }
  split; vm_compute; reflexivity.
Qed.
Print Assumptions C78_complete_refuted.

(** "All the output together stays below the limit" is false: the limit is one of each file. *)
Theorem C78_total_refuted : exists P w' D',
  all_started (one P) /\ limited_to 4 P /\ P = io_program "i" "a" "b" 4 /\
  fruns names dies (one P) (disk_after names (io_state "i" "a" "b" 4) full) [writes P 1 "1234" "1234"; writes P 2 "5678" "5678"; ends 0] w' D' /\
  size_of D' (names (lit "a")) + size_of D' (names (lit "b")) = 8.
Proof.
  exists (io_program "i" "a" "b" 4). do 2 eexists. split; [apply one_started; lia|]. split; [apply io_limited; lia|]. split; [reflexivity|]. split.
  { writes_ (io_program "i" "a" "b" 4) 1%nat "1234"%string "1234"%string ""%string.
    writes_ (io_program "i" "a" "b" 4) 2%nat "5678"%string "5678"%string ""%string. ends_. constructor. }
  vm_compute. reflexivity.
Qed.
Print Assumptions C78_total_refuted.

(** "The input reaches the program" is false if it is also the output: it is emptied before the start. *)
Theorem C78_input_refuted : exists p a v,
  ready (io_config "b" "b" "a" 100) sample_k0 /\
  child_process (sample_child_env None) sample_log (io_config "b" "b" "a" 100) sample_k0 = CExec p a v (io_state "b" "b" "a" 100) /\
  d_data full (names (lit "b")) = lit "input" /\ d_data (disk_after names (io_state "b" "b" "a" 100) full) (names (lit "b")) = [].
Proof.
  destruct (io_exec "b" "b" "a" 100 ltac:(lia)) as (p & a & v & E). exists p, a, v.
  split; [apply io_ready; lia|]. split; [exact E|]. split; vm_compute; reflexivity.
Qed.
Print Assumptions C78_input_refuted.

(** A second write after the limit: SIGXFSZ. *)
Example C78_killed : let P := io_program "b" "a" "a" 4 in exists w' D',
  fruns names dies (one P) (disk_after names (io_state "b" "a" "a" 4) full) [writes P 1 "123456" "1234"; writes P 1 "56" ""] w' D' /\
  d_data D' 1 = lit "1234" /\ w' 7%nat = Some (inr (Signaled 25)).
Proof.
  do 2 eexists. split.
  { writes_ (io_program "b" "a" "a" 4) 1%nat "123456"%string "1234"%string ""%string.
    eapply fruns_cons; [eapply (f_over _ _ _ _ 7%nat (io_program "b" "a" "a" 4) _ _ _ (lit "56"));
      [vm_compute; reflexivity|vm_compute; reflexivity|vm_compute; auto|vm_compute; reflexivity|vm_compute; reflexivity|vm_compute; reflexivity]|constructor]. }
  split; vm_compute; reflexivity.
Qed.
