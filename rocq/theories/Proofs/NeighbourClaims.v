From Coq Require Import ZArith Bool List String Lia.
From Verif.Base Require Import CInt CStr.
From Verif.Model Require Import Config Runner Seccomp Child Program Neighbours.
From Verif.Spec Require Import Verdict RunSpec Syscalls SandboxSpec Samples ChildSamples ContainSpec ContainSamples NeighbourSpec.
From Verif.Proofs Require Import SeccompProofs ChildClaims ProgramProofs RunnerClaims ContainSampleFacts NeighbourProofs.
Import ListNotations.
Open Scope list_scope.
Open Scope Z_scope.

Definition blacklists : list str := [lit "general"; lit "golang"; lit "node"].

(** kill is forbidden, its relatives are not. *)
Lemma signals_filter c ptr P nm sc : ContainSpec.judged c ptr P -> seccomp_rule_name c = Some nm -> In nm blacklists ->
  sc_native sc = true -> In (sc_name sc) signal_calls ->
  (sc_name sc = "kill"%string -> filters_action (p_filters P) sc = ActKill) /\
  (sc_name sc <> "kill"%string -> filters_action (p_filters P) sc = ActAllow).
Proof.
  intros (env & log & k0 & path & a & v & k & R & U & L & E & _ & ->) N I Na Sc. cbn [program_of p_filters].
  assert (Of : open_flags sc = None).
  { unfold open_flags. cbn in Sc. repeat destruct Sc as [<- | Sc]; try reflexivity. contradiction. }
  assert (Nk : sc_name sc <> "kill"%string -> ~ In (sc_name sc) ["clone"; "fork"; "vfork"; "kill"; "socket"; "execveat"; "execve"]%string).
  { intros X. cbn in Sc. repeat destruct Sc as [Y | Sc]; try contradiction; try congruence; rewrite <- Y; cbn; intuition discriminate. }
  cbn in I. destruct I as [<- | [<- | [<- | []]]].
  - destruct (c26_general _ _ _ _ _ _ _ _ R E N sc) as (A & _ & B). split.
    + intros X. apply A. right; left. rewrite X. cbn. tauto.
    + intros X. apply B. specialize (Nk X). cbn in Nk. split; [|intuition].
      unfold general_kills, is_execveat. rewrite Of. cbn. intros [Y | [Y | [[_ Y] | [[Y _] | (fl & Y & _)]]]]; try congruence; intuition.
  - destruct (c27_golang _ _ _ _ _ _ _ _ R E N sc) as (A & B). split.
    + intros X. apply A. right; left. rewrite X. cbn. tauto.
    + intros X. apply B. specialize (Nk X). cbn in Nk.
      unfold golang_kills, is_execveat. rewrite Of. cbn. intros [Y | [Y | [[_ Y] | (fl & Y & _)]]]; try congruence; intuition.
  - destruct (c27_node _ _ _ _ _ _ _ _ R E N sc) as (A & B). split.
    + intros X. apply A. right; left. rewrite X. cbn. tauto.
    + intros X. apply B. specialize (Nk X). cbn in Nk.
      unfold node_kills, is_execveat. cbn. intros [Y | [Y | [_ Y]]]; try congruence; intuition.
Qed.

(** With the same user id one program can end another. *)
Lemma can_end w p q P Q c ptr nm sig : w p = Some (inl P) -> ContainSpec.judged c ptr P -> as_user c ->
  seccomp_rule_name c = Some nm -> In nm blacklists ->
  w q = Some (inl Q) -> ruid (p_cred Q) = uid c -> Z.of_nat q <= 2147483647 -> 1 <= sig <= 64 ->
  exists sc w', sc_name sc = "tgkill"%string /\ nstep w (Calls p sc) w' /\
    w' q = Some (inr (Signaled sig)) /\ forall r, r <> q -> w' r = w r.
Proof.
  intros Hp J A N I Hq Rq Lq Ls. set (sc := call "tgkill" [Z.of_nat q; Z.of_nat q; sig]).
  assert (Sg : signal_of sc = sig) by (unfold signal_of, int_arg; cbn; apply cast_int_id; unfold INT_MIN, INT_MAX; lia).
  exists sc, (put w q (inr (Signaled sig))). split; [reflexivity|]. split; [|split].
  - apply (n_signal w p P sc); [exact Hp|cbn; tauto| |].
    + apply (signals_filter c ptr P nm sc J N I); [reflexivity|cbn; tauto|discriminate].
    + intros r. unfold put. destruct (Nat.eqb_spec r q) as [->|Ne]; [|now left]. right. exists Q. rewrite Sg.
      split; [exact Hq|]. split.
      { unfold meant_for, int_arg. cbn. rewrite cast_int_id by (unfold INT_MIN, INT_MAX; lia). apply Z.eqb_refl. }
      split; [|split; [lia|reflexivity]]. unfold may_signal.
      destruct (judged_facts c ptr P J A) as (_ & _ & _ & Ru & _); [congruence|]. rewrite Ru, Rq, Z.eqb_refl, !orb_true_r. reflexivity.
  - apply put_same.
  - intros r Ne. unfold put. destruct (Nat.eqb_spec r q); congruence.
Qed.

(** ** Samples *)
Lemma sub_program_as nm u p w : w p = Some (inl (sub_program (Some nm) u)) -> 0 < u < 4294967295 ->
  In nm ["c_cpp"; "c_cpp_file_io"; "general"; "golang"; "node"]%string -> program_as w p u.
Proof.
  intros H U I. exists (sub_program (Some nm) u), (sub_config (Some nm) u), sub_ptr. split; [exact H|].
  split. { apply sub_judged; [lia|]. clear - I; cbn in I |- *; intuition congruence. }
  split; [apply sub_user; lia|]. split; [discriminate|reflexivity].
Qed.

(** What the judger of the ended program reports. *)
Definition killed_env : run_env := sample_env (wait_status (Killed 9 false)) (mkRu (mkTv 0 100000) (mkTv 0 2000) 1024).

Lemma ended_by_neighbour nm : In nm ["general"; "golang"; "node"]%string ->
  exists evs w' r ef,
    callers (two (Some nm) 1001 1001) evs (fun _ => True) /\
    nruns (two (Some nm) 1001 1001) evs w' /\ existsb (of_proc 8) evs = false /\
    two (Some nm) 1001 1001 8%nat = Some (inl (sub_program (Some nm) 1001)) /\
    w' 8%nat = Some (inr (Signaled 9)) /\
    RunSpec.judged (sub_config (Some nm) 1001) killed_env (Killed 9 false) (mkRu (mkTv 0 100000) (mkTv 0 2000) 1024) /\
    run (sub_config (Some nm) 1001) killed_env = Returns (Val r) ef /\ verdict r = RUNTIME_ERROR.
Proof.
  intros I. set (w := two (Some nm) 1001 1001).
  destruct (can_end w 7 8 (sub_program (Some nm) 1001) (sub_program (Some nm) 1001) (sub_config (Some nm) 1001) sub_ptr (lit nm) 9)
    as (sc & w' & Nm & S & E & _).
  - reflexivity.
  - apply sub_judged; [lia|]. clear - I; cbn in I |- *; intuition congruence.
  - apply sub_user; lia.
  - reflexivity.
  - clear - I; cbn in I |- *; intuition (subst; tauto).
  - reflexivity.
  - destruct (judged_facts (sub_config (Some nm) 1001) sub_ptr (sub_program (Some nm) 1001)) as (_ & _ & _ & Ru & _).
    + apply sub_judged; [lia|]. clear - I; cbn in I |- *; intuition congruence.
    + apply sub_user; lia.
    + discriminate.
    + exact Ru.
  - cbn. lia.
  - lia.
  - assert (X : exists r ef, run (sub_config (Some nm) 1001) killed_env = Returns (Val r) ef /\ verdict r = RUNTIME_ERROR).
    { do 2 eexists. split; [vm_compute; reflexivity|reflexivity]. }
    destruct X as (r & ef & X1 & X2).
    exists [Calls 7 sc], w', r, ef. split.
    { intros p sc' [Y|[]]. injection Y as <- <-. exists 1001. split; [|exact Logic.I]. apply (sub_program_as nm); [reflexivity|lia|]. clear - I; cbn in I |- *; intuition congruence. }
    split; [econstructor; [exact S|constructor]|]. split; [reflexivity|]. split; [reflexivity|]. split; [exact E|].
    split; [|split; [exact X1|exact X2]].
    split; [reflexivity|]. split; [repeat split; cbn; unfold limit_ok; lia|]. split; [cbn; lia|].
    split; [right; reflexivity|]. split; [reflexivity|]. split; [cbn; lia|].
    split; [unfold tv_ok, instant_ok; cbn; lia|]. split; [unfold tv_ok, instant_ok; cbn; lia|].
    intros st ru' [= <- <-]. split; [exists (Killed 9 false); split; [cbn; lia|reflexivity]|]. split; [unfold tv_ok, instant_ok; cbn; lia|unfold rss_ok; cbn; lia].
Qed.

(** A judger, root, beside a program. *)
Definition judger : proc := program_of sample_k0.
Definition beside (nm : option string) : world :=
  fun p => match p with 5%nat => Some (inl judger) | 7%nat => Some (inl (sub_program nm 1001)) | _ => None end.

Definition set_uid_root : cred := mkCred 1001 0 0 1001 1001 1001 [1001].

Lemma judger_unsafe_gen w P J : w 7%nat = Some (inl P) -> w 5%nat = Some (inl J) ->
  (forall sc, filters_action (p_filters P) sc = ActAllow) -> p_nnp P = false ->
  p_cred P = mkCred 1001 1001 1001 1001 1001 1001 [1001] ->
  exists w', nruns w [Calls 7 (call "execve" [4096]); Calls 7 (call "kill" [5; 9])] w' /\ w' 5%nat = Some (inr (Signaled 9)).
Proof.
  intros H HJ A N C. set (P1 := mkProc [] (p_rlim P) set_uid_root (p_filters P) (p_nnp P) 1). set (w1 := put w 7 (inl P1)).
  exists (put w1 5 (inr (Signaled 9))). split; [|reflexivity].
  apply (nruns_cons w _ w1).
  { apply n_call; [cbn; tauto|]. apply (step_allowed w 7 P); [exact H|apply A|].
    apply (ex_execve w 7 P (call "execve" [4096]) [] set_uid_root); [reflexivity|intros n d X; destruct n; discriminate|].
    rewrite N, C. cbn. auto. }
  apply (nruns_cons w1 _ (put w1 5 (inr (Signaled 9)))); [|constructor].
  apply (n_signal w1 7 P1); [reflexivity|cbn; tauto|apply A|]. intros q. destruct (Nat.eqb_spec q 5) as [->|Ne];
    [|left; unfold put at 1; apply Nat.eqb_neq in Ne; rewrite Ne; reflexivity].
  right. exists J. split; [exact HJ|]. split; [reflexivity|]. split; [reflexivity|]. split; [discriminate|reflexivity].
Qed.

Lemma judger_unsafe : exists c ptr w evs w' P,
  w 7%nat = Some (inl P) /\ ContainSpec.judged c ptr P /\ as_user c /\ seccomp_rule_name c = None /\
  (forall p sc, In (Calls p sc) evs -> p = 7%nat) /\ w 5%nat = Some (inl judger) /\ ruid (p_cred judger) = 0 /\ suid (p_cred judger) = 0 /\
  not_hit 5 evs /\ nruns w evs w' /\ w' 5%nat = Some (inr (Signaled 9)).
Proof.
  destruct (judger_unsafe_gen (beside None) (sub_program None 1001) judger) as (w' & R & E).
  - reflexivity.
  - reflexivity.
  - intros sc. vm_compute. reflexivity.
  - vm_compute. reflexivity.
  - vm_compute. reflexivity.
  - exists (sub_config None 1001), sub_ptr, (beside None), [Calls 7 (call "execve" [4096]); Calls 7 (call "kill" [5; 9])], w', (sub_program None 1001).
    split; [reflexivity|]. split; [apply sub_judged; [lia|cbn; tauto]|]. split; [apply sub_user; lia|]. split; [reflexivity|].
    split. { intros p sc [X|[X|[]]]; injection X; congruence. }
    split; [reflexivity|]. split; [reflexivity|]. split; [reflexivity|]. split; [intros sig [X|[X|[]]]; discriminate|].
    split; [exact R|exact E].
Qed.

(** The judger is safe from programs under a profile. *)
Lemma judger_safe w evs w' q Q : w q = Some (inl Q) -> ruid (p_cred Q) = 0 -> suid (p_cred Q) = 0 ->
  callers w evs (fun _ => True) -> not_hit q evs -> nruns w evs w' -> w' q = Some (inl Q).
Proof.
  intros H R S C. apply (untouched w evs w' q Q H). intros p sc X. destruct (C p sc X) as (u & A & _). exists u. split; [exact A|].
  destruct A as (P & c & ptr & _ & _ & (U & _) & _ & <-). rewrite R, S. tauto.
Qed.

Lemma beside_general : callers (beside (Some "general"%string)) [Calls 7 (call "tgkill" [5; 5; 9])] (fun _ => True) /\
  not_hit 5 [Calls 7 (call "tgkill" [5; 5; 9])] /\
  nruns (beside (Some "general"%string)) [Calls 7 (call "tgkill" [5; 5; 9])] (beside (Some "general"%string)).
Proof.
  split. { intros p sc [X|[]]. injection X as <- <-. exists 1001. split; [|exact Logic.I]. apply (sub_program_as "general"); [reflexivity|lia|cbn; tauto]. }
  split; [intros sig [X|[]]; discriminate|]. econstructor; [|constructor].
  apply (n_signal _ 7 (sub_program (Some "general"%string) 1001)); [reflexivity|cbn; tauto|vm_compute; reflexivity|]. intros q. now left.
Qed.

(** Two programs of different users, each under a blacklist: one tries to end the other. *)
Lemma apart : program_as (two (Some "node"%string) 1001 1002) 8 1002 /\
  (forall p, p <> 8%nat -> ~ program_as (two (Some "node"%string) 1001 1002) p 1002) /\
  callers (two (Some "node"%string) 1001 1002) [Calls 7 (call "tkill" [8; 9]); Calls 8 (call "exit_group" [3])] (fun _ => True) /\
  exists w', nruns (two (Some "node"%string) 1001 1002) [Calls 7 (call "tkill" [8; 9]); Calls 8 (call "exit_group" [3])] w' /\
    w' 8%nat = Some (inr (Program.Exited 3)).
Proof.
  split; [apply (sub_program_as "node"); [reflexivity|lia|cbn; tauto]|].
  split.
  { intros p Ne A. destruct A as (P & c & ptr & H & J & U & N & E). unfold two in H.
    do 7 (destruct p as [|p]; [discriminate|]). destruct p as [|[|p]]; [|congruence|discriminate].
    destruct (judged_facts c ptr P J U N) as (_ & _ & _ & Ru & _).
    destruct (judged_facts (sub_config (Some "node"%string) 1001) sub_ptr (sub_program (Some "node"%string) 1001)) as (_ & _ & _ & Ru' & _).
    - apply sub_judged; [lia|cbn; tauto].
    - apply sub_user; lia.
    - discriminate.
    - assert (sub_program (Some "node"%string) 1001 = P) as <- by congruence. rewrite Ru' in Ru. cbn in Ru. lia. }
  split.
  { intros p sc [X|[X|[]]]; injection X as <- <-; [exists 1001|exists 1002]; (split; [|exact Logic.I]); apply (sub_program_as "node"); try reflexivity; try lia; cbn; tauto. }
  exists (put (two (Some "node"%string) 1001 1002) 8 (inr (Program.Exited 3))). split; [|reflexivity].
  eapply nruns_cons.
  { apply (n_signal _ 7 (sub_program (Some "node"%string) 1001)); [reflexivity|cbn; tauto|vm_compute; reflexivity|]. intros q. left. reflexivity. }
  eapply nruns_cons; [|constructor]. apply n_call; [cbn; tauto|].
  apply (step_allowed _ 8 (sub_program (Some "node"%string) 1002)); [reflexivity|vm_compute; reflexivity|].
  apply (ex_exit _ 8 _ (call "exit_group" [3])). reflexivity.
Qed.
