(** C100: whose files are opened. *)
From Coq Require Import ZArith Bool List Ascii String Lia.
From Verif.Base Require Import CInt CStr.
From Verif.Model Require Import Config Runner Seccomp Child Names.
From Verif.Spec Require Import RunSpec SandboxSpec NamesSpec Syscalls ChildSamples FilesSamples ContainSamples.
From Verif.Proofs Require Import ChildClaims FilesFacts NamesProofs NamesUse.
Import ListNotations.
Open Scope list_scope.
Open Scope Z_scope.

(** A small file system: /etc/passwd, /judge/safe/out and the link /judge/latest to "safe" belong to root, /judge/run to user 65534. *)
Definition dir (up : nat) (l : list (string * nat)) : kind := IsDir up (map (fun e => (lit (fst e), snd e)) l).
Definition small : fs :=
  [mkNode (dir 0 [("etc", 1%nat); ("judge", 3%nat)]) 0 0 493;
   mkNode (dir 0 [("passwd", 2%nat)]) 0 0 493;
   mkNode (IsFile (lit "root:0:0")) 0 0 420;
   mkNode (dir 0 [("run", 4%nat); ("safe", 5%nat); ("latest", 7%nat)]) 0 0 493;
   mkNode (dir 3 []) 65534 65534 493;
   mkNode (dir 3 [("out", 6%nat)]) 0 0 493;
   mkNode (IsFile (lit "old")) 0 0 420;
   mkNode (IsLink (lit "safe")) 0 0 511].
Definition root : who := mkWho 0 [0] 3.
Definition nobody : who := mkWho 65534 [65534] 4.

(** A path is found as path_resolution(7) says, if it needs at most 40 links. *)
Theorem C100_path : forall u F path p, p <> Nowhere ->
  (locate u F path true = p <-> exists k ds, (k <= 40)%nat /\ path_leads u F path k ds p).
Proof. exact path_spec. Qed.
Print Assumptions C100_path.
Example C100_path_example :
  locate root small (lit "/judge/latest//./out") true = Entry 5 (lit "out") 6 /\
  locate root small (lit "latest/../run/new") true = Free 4 (lit "new") /\ locate root small (lit "run/new/x") true = Nowhere.
Proof. repeat split. Qed.

(** Before the program starts the files at the output and the error path are emptied or made, and nothing else changes: first the
    one, then, if the paths differ in a letter, the other. *)
Theorem C100_judge : forall umask u env log c k0 path a v k F F',
  ready c k0 -> child_process env log c k0 = CExec path a v k -> openings umask u F (k_trace k) = Some F' ->
  exists F1,
    match output_path c with Some q => exists i, opened_w umask u q F F1 i | None => F1 = F end /\
    match error_path c with
    | Some q => if match output_path c with Some o => str_eqb o q | None => false end then F' = F1 else exists i, opened_w umask u q F1 F' i
    | None => F' = F1
    end.
Proof. exact judge_opens. Qed.
Print Assumptions C100_judge.
Example C100_judge_example : exists F',
  openings 18 root small (k_trace (io_state "/etc/passwd" "latest/out" "run/err" 100)) = Some F' /\
  option_map n_kind (nth_error F' 6) = Some (IsFile []) /\ option_map n_kind (nth_error F' 4) = Some (dir 3 [("err", 8%nat)]) /\
  nth_error F' 8 = Some (mkNode (IsFile []) 0 0 420) /\ nth_error F' 2 = nth_error small 2 /\ List.length F' = 9%nat.
Proof. eexists. split; [vm_compute; reflexivity|]. repeat split. Qed.

(** The log (fopen with "a", src/logger.c:14) is made if there is none, and otherwise nothing changes. *)
Theorem C100_log : forall umask u F path F' i,
  open_write umask u true false F path = Some (F', i) -> opened_a umask u path F F' i.
Proof. exact open_append_spec. Qed.
Print Assumptions C100_log.
Example C100_log_example :
  open_write 18 root true false small (lit "latest/out") = Some (small, 6%nat) /\
  option_map snd (open_write 18 root true false small (lit "judger.log")) = Some 8%nat.
Proof. split; reflexivity. Qed.

(** If every directory on the way of a path is shut to a user, no program of that user can make the path lead anywhere else, whatever it
    does; and the directories stay shut, so this goes on for the next program. *)
Theorem C100_safe : forall umask u v F held l F' held' path k ds p,
  performs umask u (F, held) l = (F', held') ->
  path_leads v F path k ds p -> all_shut u F ds -> path_leads v F' path k ds p /\ all_shut u F' ds.
Proof. exact path_kept. Qed.
Print Assumptions C100_safe.
Definition tries : list act :=
  [AUnlink (lit "/judge/safe/out"); ASymlink (lit "/etc/passwd") (lit "/judge/safe/new"); ARename (lit "/judge/safe") (lit "/judge/gone");
   AChmod (lit "/judge/safe") 511; AMkdir (lit "mine") 511; ASymlink (lit "/etc/passwd") (lit "mine/x"); AOpen (lit "mine/x") false true].
Lemma shut_small d n : In d [3; 3; 5]%nat -> nth_error small d = Some n -> shut nobody n.
Proof.
  intros I N. assert (n_uid n = 0 /\ n_gid n = 0 /\ n_mode n = 493) as (A & B & C).
  { cbn in I. destruct I as [<-|[<-|[<-|[]]]]; injection N as <-; repeat split. }
  split; [|rewrite A; discriminate]. intros R. apply may_right in R. unfold may in R. rewrite A, B, C in R. discriminate.
Qed.
Example C100_safe_example : exists F' held',
  performs 18 nobody (small, []) tries = (F', held') /\ F' <> small /\
  path_leads root small (lit "latest/out") 1 [3; 3; 5]%nat (Entry 5 (lit "out") 6) /\ all_shut nobody small [3; 3; 5]%nat.
Proof.
  do 2 eexists. split; [vm_compute; reflexivity|]. split; [discriminate|]. split; [|exact shut_small].
  assert (forall d n up l, nth_error small d = Some n -> n_kind n = IsDir up l -> searches root small d up l) as S.
  { intros d n up l A B. exists n. split; [exact A|]. split; [exact B|]. apply by_root. reflexivity. }
  unfold path_leads. change (origin_of root (lit "latest/out")) with 3%nat.
  change (components (lit "latest/out")) with [lit "latest"; lit "out"].
  eapply leads_link with (t := lit "safe"); [eapply S; reflexivity|split; discriminate|reflexivity|eexists; split; reflexivity|].
  change (components (lit "safe") ++ [lit "out"]) with [lit "safe"; lit "out"]. cbn [absolute lit].
  eapply leads_into; [eapply S; reflexivity|split; discriminate|reflexivity|eexists; split; [reflexivity|discriminate]|].
  eapply leads_entry; [eapply S; reflexivity|split; discriminate|reflexivity|eexists; split; [reflexivity|discriminate]].
Qed.

(** The same over any history of programs of such users and of openings by the judger, of whatever paths: once the path leads to an object, it
    leads to this one for good; and if it led to a free name, from the first opening on it leads to the file made then. *)
Theorem C100_history : forall v path k ds l F p,
  path_leads v F path k ds p -> (forall d x, p <> Free d x) -> outsiders F ds l -> path_leads v (history F l) path k ds p.
Proof. exact history_kept. Qed.
Print Assumptions C100_history.
Theorem C100_first : forall umask judge q F F' i k ds d x,
  open_write umask judge true true F q = Some (F', i) -> path_leads judge F q k ds (Free d x) -> (k <= 40)%nat ->
  path_leads judge F' q k ds (Entry d x i).
Proof. exact opened_entry. Qed.
Print Assumptions C100_first.
Example C100_history_example :
  let l := [Opens 18 root (lit "latest/new"); Runs 18 nobody [6%nat] tries; Opens 18 root (lit "latest/new")] in
  outsiders small [3; 3; 5]%nat l /\
  locate root small (lit "latest/new") true = Free 5 (lit "new") /\ locate root (history small l) (lit "latest/new") true = Entry 5 (lit "new") 8 /\
  locate root (history small l) (lit "/judge/run/mine/x") true = Entry 1 (lit "passwd") 2.
Proof.
  split; [|repeat split; vm_compute; reflexivity]. intros umask u held acts I. cbn [In] in I.
  destruct I as [I|[I|[I|[]]]]; try discriminate. injection I as _ <- _ _. exact shut_small.
Qed.

(** What was written to a file that the judger made, or that was not writable to the user before, is not changed by programs that do not have it
    open for writing: a mask with the bits 022 and a user other than root are enough. *)
Theorem C100_kept : forall umask judge q F F' i u l umask' held' F2 held2,
  w_uid judge = 0 -> w_uid u <> 0 -> Z.testbit umask 1 = true -> Z.testbit umask 4 = true ->
  opened_w umask judge q F F' i -> (forall n, nth_error F i = Some n -> shut u n) -> ~ In i held' ->
  performs umask' u (F', held') l = (F2, held2) -> untouched i F' F2.
Proof. exact opened_kept. Qed.
Print Assumptions C100_kept.
Example C100_kept_example : exists F' F2 held2,
  opened_w 18 root (lit "run/out") small F' 8 /\ nth_error small 8 = None /\
  performs 18 nobody (F', []) [AOpen (lit "out") true true; AUnlink (lit "out"); AOpen (lit "out") true true] = (F2, held2) /\
  held2 = [9]%nat /\ nth_error F2 8 = Some (mkNode (IsFile []) 0 0 420).
Proof.
  do 3 eexists. split; [apply open_write_spec; vm_compute; reflexivity|]. split; [reflexivity|].
  split; [vm_compute; reflexivity|]. split; reflexivity.
Qed.

(** "Programs cannot have files of others changed" is false if the user may write to the directory of the output file: one symbolic
    link there, and the next call empties any file of the system. *)
Theorem C100_any_file_refuted : forall umask umask' u judge F held q v d x i n data k1 ds1 k2 ds2 d2 x2 nd up l,
  w_uid judge = 0 -> locate u F q false = Free d x -> nth_error F d = Some nd -> n_kind nd = IsDir up l -> has_right 1 u nd ->
  path_leads judge F q k1 ds1 (Free d x) -> absolute v = true -> path_leads judge F v k2 ds2 (Entry d2 x2 i) ->
  (k1 + k2 < 40)%nat -> nth_error F i = Some n -> n_kind n = IsFile data ->
  exists F1 F2, performs umask u (F, held) [ASymlink v q] = (F1, held) /\ nth_error F1 i = Some n /\
    open_write umask' judge true true F1 q = Some (F2, i) /\ emptied i F1 F2.
Proof. exact any_file. Qed.
Print Assumptions C100_any_file_refuted.
(** /etc/passwd, with a call of run() that succeeds. *)
Example C100_any_file_example : exists F1 F2,
  performs 18 nobody (small, []) [ASymlink (lit "/etc/passwd") (lit "/judge/run/out")] = (F1, []) /\
  openings 18 root F1 (k_trace (io_state "/judge/safe/out" "/judge/run/out" "/judge/run/err" 100)) = Some F2 /\
  option_map n_kind (nth_error F1 2) = Some (IsFile (lit "root:0:0")) /\ option_map n_kind (nth_error F2 2) = Some (IsFile []) /\
  (exists p a v, child_process (sample_child_env None) sample_log (io_config "/judge/safe/out" "/judge/run/out" "/judge/run/err" 100) sample_k0
                 = CExec p a v (io_state "/judge/safe/out" "/judge/run/out" "/judge/run/err" 100)).
Proof.
  do 2 eexists. split; [vm_compute; reflexivity|]. split; [vm_compute; reflexivity|]. split; [reflexivity|]. split; [reflexivity|].
  apply io_exec. lia.
Qed.

(** Programs that can only open and write files, as under c_cpp_file_io, cannot do that: a path that leads to an object leads to the same one
    afterwards. *)
Theorem C100_only_opens : forall umask u judge F held l F' held' path k ds p,
  only_opens l -> performs umask u (F, held) l = (F', held') ->
  path_leads judge F path k ds p -> (forall d x, p <> Free d x) -> path_leads judge F' path k ds p.
Proof.
  intros umask u judge F held l F' held' path k ds p O H L N. exact (leads_more _ _ _ _ _ _ _ _ (extends_performs _ _ _ O _ _ _ _ H) L N).
Qed.
Print Assumptions C100_only_opens.
Example C100_only_opens_example : exists F' held',
  performs 18 nobody (small, []) [AOpen (lit "out") true true; AStore 8 (lit "mine"); AOpen (lit "/etc/passwd") false true] = (F', held') /\
  held' = [8]%nat /\ option_map n_kind (nth_error F' 8) = Some (IsFile (lit "mine")) /\
  locate root F' (lit "/judge/run/out") true = Entry 4 (lit "out") 8.
Proof. do 2 eexists. split; [vm_compute; reflexivity|]. repeat split. Qed.

(** Under c_cpp and c_cpp_file_io the calls that change names end the program; under all other rules, and without one, they are
    allowed. *)
Theorem C100_rules : forall env log c k0 path a v k sc,
  ready c k0 -> child_process env log c k0 = CExec path a v k -> In (sc_name sc) name_calls ->
  (seccomp_rule_name c = Some (lit "c_cpp") \/ seccomp_rule_name c = Some (lit "c_cpp_file_io") -> filters_action (k_filter k) sc = ActKill) /\
  (sc_native sc = true -> seccomp_rule_name c <> Some (lit "c_cpp") -> seccomp_rule_name c <> Some (lit "c_cpp_file_io") ->
   filters_action (k_filter k) sc = ActAllow).
Proof.
  exact (fun env log c k0 path a v k sc R E I =>
    conj (names_killed env log c k0 path a v k R E sc I) (names_allowed env log c k0 path a v k R E sc I)).
Qed.
Print Assumptions C100_rules.
Example C100_rules_example :
  filters_action (k_filter (io_state "i" "o" "e" 100)) (mkSys true "symlink" (fun _ => 0)) = ActKill /\ In "symlink"%string name_calls.
Proof. split; [vm_compute; reflexivity|cbn; auto]. Qed.
