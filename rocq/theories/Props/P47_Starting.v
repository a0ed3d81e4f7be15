(** C102: which program is started. *)
From Coq Require Import ZArith Bool List Ascii String Lia.
From Verif.Base Require Import CInt CStr.
From Verif.Model Require Import Config Runner Seccomp Child Names Reading Starting.
From Verif.Spec Require Import RunSpec SandboxSpec NamesSpec StartingSpec ChildSamples FilesSamples ContainSamples.
From Verif.Proofs Require Import ChildClaims FilesFacts NamesProofs NamesUse StartingProofs StartingUser.
Import ListNotations.
Open Scope list_scope.
Open Scope Z_scope.

(** /bin/prog and /bin/sh are programs, /bin/tool is a script for /bin/sh -e; /run belongs to user 65534, with a program of this user in it and a
    link /run/prog to /bin/prog. *)
Definition dir (up : nat) (l : list (string * nat)) : kind := IsDir up (map (fun e => (lit (fst e), snd e)) l).
Definition elf_file (s : string) : kind := IsFile (magic ++ lit s).
Definition script : str := lit "#! /bin/sh -e " ++ [newline] ++ lit "exit 0".
Definition system (prog_mode : Z) : fs :=
  [mkNode (dir 0 [("bin", 1%nat); ("run", 5%nat)]) 0 0 493;
   mkNode (dir 0 [("prog", 2%nat); ("sh", 3%nat); ("tool", 4%nat)]) 0 0 493;
   mkNode (elf_file "prog") 0 0 prog_mode;
   mkNode (elf_file "sh") 0 0 493;
   mkNode (IsFile script) 0 0 493;
   mkNode (dir 0 [("mine", 6%nat); ("prog", 7%nat)]) 65534 65534 493;
   mkNode (elf_file "mine") 65534 65534 493;
   mkNode (IsLink (lit "../bin/prog")) 0 0 511].
Definition nobody : who := mkWho 65534 [65534] 5.

(** A program is started exactly if, for its user, the path leads to a file that this user may execute and nobody has open for writing, and
    that is a program itself, or begins with "#!" and the name of such a file, through at most five names; and then this program is started
    with the arguments that go with it. *)
Theorem C102_program : forall u F busy p argv j argv',
  start u F busy p argv = Some (j, argv') <-> exists k, (k <= 5)%nat /\ stands_for u F busy k p argv j argv'.
Proof. intros u F busy p argv j argv'. exact (starts_spec u F busy 5 p argv j argv'). Qed.
Print Assumptions C102_program.
Example C102_program_example :
  start nobody (system 493) [] (lit "prog") [lit "a"; lit "b"] = Some (2%nat, [lit "a"; lit "b"]) /\
  start nobody (system 493) [] (lit "/bin/tool") [lit "a"; lit "b"] = Some (3%nat, [lit "/bin/sh"; lit "-e"; lit "/bin/tool"; lit "b"]) /\
  start nobody (system 493) [3%nat] (lit "/bin/tool") [lit "a"; lit "b"] = None /\ start nobody (system 420) [] (lit "prog") [] = None.
Proof. repeat split; vm_compute; reflexivity. Qed.

(** The rights are those of the user and the group of the configuration, not those of root: with another owner and no bit for others, or with a
    directory on the way that is closed to others, the program is not started. *)
Theorem C102_user : forall env log c k0 path a v k cwd,
  ready c k0 -> euid (k_cred k0) = 0 -> child_process env log c k0 = CExec path a v k -> uid c <> keep_id -> gid c <> keep_id ->
  path = exe_path c /\ a = args c /\ forall F busy argv j argv',
  start (person k cwd) F busy path argv = Some (j, argv') <->
  exists n, (n <= 5)%nat /\ stands_for (mkWho (uid c) [gid c] cwd) F busy n (exe_path c) argv j argv'.
Proof. exact judged_as_user. Qed.
Print Assumptions C102_user.
Example C102_user_case : exists path a v,
  ready (io_config "i" "o" "e" 100) sample_k0 /\ euid (k_cred sample_k0) = 0 /\
  child_process (sample_child_env None) sample_log (io_config "i" "o" "e" 100) sample_k0 = CExec path a v (io_state "i" "o" "e" 100) /\
  uid (io_config "i" "o" "e" 100) <> keep_id /\ gid (io_config "i" "o" "e" 100) <> keep_id.
Proof.
  destruct (io_exec "i" "o" "e" 100 ltac:(lia)) as (path & a & v & E). exists path, a, v.
  split; [apply io_ready; lia|]. split; [reflexivity|]. split; [exact E|]. split; discriminate.
Qed.
Example C102_user_example :
  let k := io_state "i" "o" "e" 100 in
  start (person k 5) (system 493) [] (lit "/bin/prog") [] = Some (2%nat, []) /\ start (person k 5) (system 448) [] (lit "/bin/prog") [] = None /\
  start (mkWho 0 [0] 5) (system 448) [] (lit "/bin/prog") [] = Some (2%nat, []) /\ start (mkWho 0 [0] 5) (system 420) [] (lit "/bin/prog") [] = None.
Proof. repeat split; vm_compute; reflexivity. Qed.

(** If the output or the error path leads to the program, it is emptied before it could be started, and is not started. *)
Theorem C102_overwritten : forall umask judge env log c k0 path a v k F F' u busy argv q i,
  ready c k0 -> child_process env log c k0 = CExec path a v k -> openings umask judge F (k_trace k) = Some F' ->
  output_path c = Some q \/ error_path c = Some q ->
  (exists k1 ds1 p1, (k1 <= 40)%nat /\ path_leads judge F' q k1 ds1 p1 /\ reaches p1 i) ->
  (exists k2 ds2 p2, (k2 <= 40)%nat /\ path_leads u F' path k2 ds2 p2 /\ reaches p2 i) ->
  start u F' busy path argv = None.
Proof. exact overwritten. Qed.
Print Assumptions C102_overwritten.
Example C102_overwritten_case : exists path a v,
  ready (io_config "/bin/tool" "prog" "err" 100) sample_k0 /\
  child_process (sample_child_env None) sample_log (io_config "/bin/tool" "prog" "err" 100) sample_k0 =
    CExec path a v (io_state "/bin/tool" "prog" "err" 100) /\
  output_path (io_config "/bin/tool" "prog" "err" 100) = Some (lit "prog").
Proof.
  destruct (io_exec "/bin/tool" "prog" "err" 100 ltac:(lia)) as (path & a & v & E). exists path, a, v.
  split; [apply io_ready; lia|]. split; [exact E|reflexivity].
Qed.
Example C102_overwritten_example : exists F',
  openings 18 (mkWho 0 [0] 5) (system 493) (k_trace (io_state "/bin/tool" "prog" "err" 100)) = Some F' /\
  locate (mkWho 0 [0] 5) F' (lit "prog") true = Entry 1 (lit "prog") 2 /\ locate nobody F' (lit "/bin/prog") true = Entry 1 (lit "prog") 2 /\
  start nobody (system 493) [] (lit "/bin/prog") [] <> None /\ exe_path (io_config "/bin/tool" "prog" "err" 100) = lit "/bin/prog".
Proof. eexists. split; [vm_compute; reflexivity|]. repeat split; try (vm_compute; reflexivity). vm_compute. discriminate. Qed.

(** If the way to the program and to its interpreters and these files are closed to all programs of a history, and the judger opens none of
    these files, the same program with the same contents is started afterwards. *)
Theorem C102_same_program : forall u F busy l p argv j argv',
  start u F busy p argv = Some (j, argv') ->
  (forall q i, uses u F busy p q i -> guarded u F l q i) ->
  start u (history F l) busy p argv = Some (j, argv') /\ nth_error (history F l) j = nth_error F j.
Proof. exact program_kept. Qed.
Print Assumptions C102_same_program.
Definition tries : list act :=
  [AUnlink (lit "/bin/prog"); ARename (lit "mine") (lit "/bin/prog"); AOpen (lit "/bin/prog") false true; AUnlink (lit "prog");
   ASymlink (lit "mine") (lit "prog")].
Example C102_same_program_example :
  let l := [Runs 18 nobody [] tries; Opens 18 (mkWho 0 [0] 5) (lit "out"); Runs 18 nobody [] tries] in
  start nobody (system 493) [] (lit "/bin/prog") [] = Some (2%nat, []) /\
  (forall q i, uses nobody (system 493) [] (lit "/bin/prog") q i -> guarded nobody (system 493) l q i) /\
  history (system 493) l <> system 493.
Proof.
  cbv zeta. split; [vm_compute; reflexivity|]. split; [|vm_compute; discriminate].
  intros q i U. assert (q = lit "/bin/prog" /\ i = 2%nat) as [-> ->].
  { assert (forall i data, runnable nobody (system 493) [] (lit "/bin/prog") i data -> i = 2%nat /\ data = magic ++ lit "prog") as R.
    { intros i' data R. apply executable_spec in R. vm_compute in R. injection R as <- <-. split; reflexivity. }
    inversion U as [p i' data Rn|p i' data name arg q' j Rn In _]; subst; destruct (R _ _ Rn) as [-> ->]; [split; reflexivity|].
    destruct In as (b1 & b2 & line & eol & D & _). discriminate. }
  assert (forall d n, In d [0; 1; 2]%nat -> nth_error (system 493) d = Some n -> shut nobody n) as Sh.
  { intros d n I N. assert (n_uid n = 0 /\ n_gid n = 0 /\ n_mode n = 493) as (A & B & C).
    { cbn in I. destruct I as [<-|[<-|[<-|[]]]]; injection N as <-; repeat split. }
    split; [|rewrite A; discriminate]. intros R. apply may_right in R. unfold may in R. rewrite A, B, C in R. discriminate. }
  assert (locate nobody (system 493) (lit "/bin/prog") true = Entry 1 (lit "prog") 2) as L by (vm_compute; reflexivity).
  assert (forall d n up l, nth_error (system 493) d = Some n -> n_kind n = IsDir up l -> n_uid n = 0 -> n_mode n = 493 -> n_gid n = 0 ->
          searches nobody (system 493) d up l) as S.
  { intros d n up l A B U0 M G. exists n. split; [exact A|]. split; [exact B|]. apply may_right. unfold may. rewrite U0, M, G. reflexivity. }
  exists 0%nat, [0; 1]%nat, (Entry 1 (lit "prog") 2). split; [lia|]. split.
  - unfold path_leads. change (origin_of nobody (lit "/bin/prog")) with 0%nat. change (components (lit "/bin/prog")) with [lit "bin"; lit "prog"].
    eapply leads_into; [eapply S; reflexivity|split; discriminate|reflexivity|eexists; split; [reflexivity|discriminate]|].
    eapply leads_entry; [eapply S; reflexivity|split; discriminate|reflexivity|eexists; split; [reflexivity|discriminate]].
  - split; [right; eauto|]. split; [|split].
    + intros umask u held acts I d n Id N. cbn [In] in I.
      assert (u = nobody) as -> by (destruct I as [I|[I|[I|[]]]]; congruence). apply (Sh d n); [cbn in *; intuition|exact N].
    + intros umask u held acts n I N. cbn [In] in I.
      assert (u = nobody) as -> by (destruct I as [I|[I|[I|[]]]]; congruence). apply (Sh 2%nat n); [cbn; auto|exact N].
    + cbn [spared]. split; [intros []|]. split; [|split; [intros []|exact Logic.I]].
      intros F' j O. vm_compute in O. injection O as _ <-. discriminate.
Qed.

(** "The program that is started is the one the path led to before" is false if programs may change the directory: here a link in a directory
    of the user is set to another program. *)
Theorem C102_same_refuted : exists u F l p argv,
  start u F [] p argv = Some (2%nat, argv) /\ start u (history F [Runs 18 u [] l]) [] p argv = Some (6%nat, argv).
Proof. exists nobody, (system 493), tries, (lit "prog"), [lit "prog"]. split; vm_compute; reflexivity. Qed.
Print Assumptions C102_same_refuted.
