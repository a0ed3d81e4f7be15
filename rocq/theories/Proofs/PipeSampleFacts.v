(** The samples of Spec/PipeSamples.v. *)
From Coq Require Import ZArith Bool List Ascii String Lia.
From Verif.Base Require Import CInt CStr.
From Verif.Model Require Import Config Runner Child Argtable Main Messages.
From Verif.Model Require Import Timeout Judger Python PythonDecode NodeBinding Pipes.
From Verif.Spec Require Import Verdict RunSpec TimeoutSpec JudgerSpec SandboxSpec PipeSpec.
From Verif.Spec Require Import CmdLine Invocation PythonSpec NodeSpec JudgerSamples CallerSamples PipeSamples.
From Verif.Proofs Require Import JudgerSampleFacts CallerSampleFacts PipeProofs.
From Verif.Proofs Require NodeProofs.
Import ListNotations.
Open Scope list_scope.
Open Scope Z_scope.

Definition piped (argv : option (list str)) (ops : list gop) : option (list str * config * gstate * result) :=
  match argv with
  | Some argv =>
    match main_ 40 false argv with
    | Some (Val (Run c)) =>
      match gexec piped_world c (ginit piped_world) ops with
      | Some s =>
          match ppc (g_t s), refusal piped_world c, undefined_in piped_world c s with
          | PReturned (Val r), None, false => Some (argv, c, s, r)
          | _, _, _ => None
          end
      | None => None
      end
    | _ => None
    end
  | None => None
  end.
Lemma piped_judger a ops argv c s r : piped a ops = Some (argv, c, s, r) ->
  a = Some argv /\ judger piped_world argv (Ran c ops s) (Prints (print_result r) 0).
Proof.
  unfold piped. destruct a as [a|]; [|discriminate]. destruct (main_ 40 false a) as [[[| | |c']|]|] eqn:M; try discriminate.
  destruct (gexec _ _ _ ops) as [s'|] eqn:E; [|discriminate].
  destruct (ppc (g_t s')) as [| | | | | | | | |[r'|]] eqn:P; try discriminate.
  destruct (refusal _ _) eqn:R; [discriminate|]. destruct (undefined_in _ _ _) eqn:U; [discriminate|].
  intros X. injection X as <- <- <- <-. split; [reflexivity|]. change 0 with (exit_status (Run c')). apply judger_ran; try assumption. exists 40%nat. exact M.
Qed.

(** What the program has open at its start, by path. *)
Definition paths (x : fds) : list (option str) := map (option_map of_path) x.
Definition opened (c : config) : option fds := match set_up piped_world c with CExec _ _ _ k => Some (k_fds k) | _ => None end.
Definition opt_dec (u v : option str) : {u = v} + {u <> v}.
Proof. decide equality. apply list_eq_dec, ascii_dec. Defined.
Definition left_with (x : option (list str * config * gstate * result)) (ps : list (option str)) : bool :=
  match x with
  | Some (_, c, s, r) =>
      g_program s && negb (alive (g_t s)) && (verdict r =? SUCCESS) && (error r =? 0) && Processes.fork_call c "clone3" &&
      match opened c with
      | Some y => match list_eq_dec opt_dec (paths y) ps with left _ => true | right _ => false end
      | None => false
      end
  | None => false
  end.
Lemma left_with_ok a ops ps : left_with (piped a ops) ps = true -> exists argv c s r x t, a = Some argv /\
  judger piped_world argv (Ran c ops s) (Prints (print_result r) 0) /\ verdict r = SUCCESS /\ error r = 0 /\ alive (g_t s) = false /\
  left_over piped_world c s leaves t /\ t 1%nat = Some x /\ paths x = ps.
Proof.
  intros H. destruct (piped a ops) as [[[[argv c] s] r]|] eqn:E; [|discriminate H]. destruct (piped_judger _ _ _ _ _ _ E) as (A & J). clear E.
  unfold left_with, opened in H. destruct (set_up piped_world c) as [path av v k| | |] eqn:S; try (rewrite andb_false_r in H; discriminate H).
  rewrite !andb_true_iff in H. destruct H as (((((H1 & H2) & H3) & H4) & H5) & H6).
  destruct (list_eq_dec _ _ _) as [E|]; [|discriminate H6].
  exists argv, c, s, r, (k_fds k), (set (set (only (k_fds k)) 1 (Some (k_fds k))) 0 None).
  split; [exact A|]. split; [exact J|]. split; [lia|]. split; [lia|]. split; [destruct (alive (g_t s)); [discriminate H2|reflexivity]|].
  split; [|split; [reflexivity|exact E]].
  eapply left_program; [exact H1|exact S| |].
  - eapply truns_cons; [apply t_forks; [reflexivity|reflexivity|exact H5]|]. eapply truns_cons; [eapply t_ends; reflexivity|constructor].
  - intros _. split; [right; left; reflexivity|]. intros q call [X|[X|[]]]; discriminate X.
Qed.

Lemma piped_world_ok : world_ok piped_world.
Proof.
  split; [reflexivity|]. split; [reflexivity|]. split; [reflexivity|].
  intros n o. do 4 (destruct n as [|n]; [cbn; intros H; injection H as <-; cbn; lia|]). destruct n; discriminate.
Qed.
Lemma piped_at ns : In 1%nat ns -> pipe_at the_pipe ns (w_k0 piped_world).
Proof.
  intros I n o D [P|P]; (do 4 (destruct n as [|n]; [cbn in D; injection D as <-; try discriminate P; exact I|]); destruct n; discriminate D).
Qed.

Lemma the_elsewhere q : str_eqb q (lit "pipe:[77]") = false -> str_eqb q (lit "/dev/stdout") = false -> elsewhere the_pipe (Some q).
Proof.
  intros A B x o E Eo [P|P]; injection E as <-; rewrite <- Eo, P in *; rewrite (proj2 (str_eqb_eq _ _) eq_refl) in *; discriminate.
Qed.

(** A Python call whose program leaves a process behind: the pipe is at its end. *)
Lemma py_leaves : exists argv c s r x t, command (py_vars py_sample) = Some argv /\
  judger piped_world argv (Ran c sample_leaves s) (Prints (print_result r) 0) /\ verdict r = SUCCESS /\ error r = 0 /\ alive (g_t s) = false /\
  left_over piped_world c s leaves t /\ t 1%nat = Some x /\
  paths x = map (fun q => Some (lit q)) ["in"; "out"; "err"; "judger.log"; "in"; "out"; "err"]%string.
Proof. apply left_with_ok. vm_compute. reflexivity. Qed.

Definition js_open_argv : option (list str) :=
  match node_command (js_object js_open) with
  | NVal cmd => match shell cmd with Some [argv] => Some argv | _ => None end
  | _ => None
  end.
Lemma js_open_some argv : js_open_argv = Some argv -> exists cmd, node_command (js_object js_open) = NVal cmd /\ shell cmd = Some [argv].
Proof.
  unfold js_open_argv. destruct (node_command (js_object js_open)) as [cmd| |]; try discriminate.
  destruct (shell cmd) as [[|argv' [|? ?]]|] eqn:Es; try discriminate. intros A. injection A as ->. exists cmd. auto.
Qed.
Lemma js_open_leaves : exists cmd argv c s r t, node_command (js_object js_open) = NVal cmd /\ shell cmd = Some [argv] /\
  judger piped_world argv (Ran c sample_leaves s) (Prints (print_result r) 0) /\ verdict r = SUCCESS /\ error r = 0 /\ alive (g_t s) = false /\
  left_over piped_world c s leaves t /\ ~ at_end the_pipe t.
Proof.
  destruct (left_with_ok js_open_argv sample_leaves (map (fun q => Some (lit q)) ["in"; "/dev/stdout"; "err"; "judger.log"; "in"; "/dev/stdout"; "err"]%string))
    as (argv & c & s & r & x & t & A & J & V & Er & Al & L & T & P); [vm_compute; reflexivity|].
  destruct (js_open_some argv A) as (cmd & Ec & Es). exists cmd, argv, c, s, r, t.
  split; [exact Ec|]. split; [exact Es|]. split; [exact J|]. split; [exact V|]. split; [exact Er|]. split; [exact Al|]. split; [exact L|].
  intros H. destruct x as [|x0 [|[o|] x]]; try discriminate P. apply (H 1%nat (x0 :: Some o :: x) 1%nat o T eq_refl). right. injection P as _ P _. exact P.
Qed.

(** The process is stopped while it is being set up: it still has the pipe. *)
Definition stopped_early (x : option (list str * config * gstate * result)) : bool :=
  match x with Some (_, c, s, r) => negb (g_program s) && alive (g_t s) && (error r =? 0) | None => false end.
Lemma py_stopped : exists argv c s r t, command (py_vars py_sample) = Some argv /\
  judger piped_world argv (Ran c sample_stopped s) (Prints (print_result r) 0) /\ error r = 0 /\ left_over piped_world c s [] t /\ ~ at_end the_pipe t.
Proof.
  assert (stopped_early (piped (command (py_vars py_sample)) sample_stopped) = true) as H by (vm_compute; reflexivity).
  destruct (piped _ sample_stopped) as [[[[argv c] s] r]|] eqn:E; [|discriminate H]. destruct (piped_judger _ _ _ _ _ _ E) as (A & J). clear E.
  cbn [stopped_early] in H. rewrite !andb_true_iff in H. destruct H as ((H1 & H2) & H3).
  exists argv, c, s, r, (only (k_fds piped_k0)). split; [exact A|]. split; [exact J|]. split; [lia|].
  split; [apply left_set_up; [destruct (g_program s); [discriminate H1|reflexivity]|exact H2]|].
  intros H. apply (H 0%nat (k_fds piped_k0) 1%nat (mkOf 2 (lit "pipe:[77]") MWrite) eq_refl eq_refl). left. reflexivity.
Qed.

Lemma js_open_ok : object_of (js_object js_open) js_open /\ env_with_args (js_object js_open) /\ plain_call js_open /\ acceptable js_open.
Proof.
  assert (PL : forall s, forallb shell_neutral s = true -> (List.length s <= 254)%nat -> plain_text s).
  { intros s F L. split; [|exact L]. apply Forall_forall. intros x I. rewrite forallb_forall in F. apply F in I.
    unfold shell_neutral in I. unfold plain_char. rewrite !orb_true_iff, !andb_true_iff, !Nat.leb_le in I.
    destruct I as [[[I|I]|I]|I]; [tauto|tauto|tauto|]. right; right; right.
    apply existsb_exists in I. destruct I as (y & Iy & E). apply aeqb_eq in E. subst. exact Iy. }
  split; [|split; [|split]].
  - split; [|split; [|split]].
    + intros n z I. unfold k_ints in I. cbn [In] in I. repeat (destruct I as [I|I]; [injection I as <- <-; reflexivity|]). destruct I.
    + intros n z I. unfold k_strs in I. cbn [In] in I. repeat (destruct I as [I|I]; [injection I as <- <-; reflexivity|]). destruct I.
    + right. eexists. split; [reflexivity|]. repeat constructor.
    + right. eexists. split; [reflexivity|]. repeat constructor.
  - right. eexists. reflexivity.
  - split; [|split].
    + intros n s I. unfold k_strs in I. cbn [In js_open k_input_path k_output_path k_error_path k_exe_path k_log_path k_seccomp_rule_name] in I.
      repeat (destruct I as [I|I]; [first [discriminate I|injection I as _ <-; apply PL; [reflexivity|vm_compute; lia]]|]). destruct I.
    + constructor; [|constructor]. apply PL; [reflexivity|vm_compute; lia].
    + constructor; [|constructor]. apply PL; [reflexivity|vm_compute; lia].
  - split; [|split; [|split; [|split; [|split; [|split]]]]].
    + intros n z I. unfold k_ints in I. cbn in I. repeat (destruct I as [I|I]; [first [discriminate I|injection I as _ <-; vm_compute; split; discriminate]|]). destruct I.
    + intros n s I. unfold k_strs in I. cbn [In js_open k_input_path k_output_path k_error_path k_exe_path k_log_path k_seccomp_rule_name] in I.
      repeat (destruct I as [I|I]; [first [discriminate I|injection I as _ <-; discriminate]|]). destruct I.
    + constructor; [discriminate|constructor].
    + constructor; [discriminate|constructor].
    + cbn; lia.
    + cbn; lia.
    + discriminate.
Qed.
