(** C103: quoting the values of a call of the Node function. *)
From Coq Require Import ZArith Bool List Ascii String.
From Verif.Base Require Import CInt CStr.
From Verif.Model Require Import Config Runner Child Timeout Judger NodeBinding Messages Callers Shell Argtable Main.
From Verif.Spec Require Import Verdict RunSpec TimeoutSpec JudgerSpec CallerSpec OutputSpec.
From Verif.Spec Require Import CmdLine Invocation NodeSpec ShellSpec JudgerSamples CallerSamples.
From Verif.Proofs Require Import ShellProofs ShellSampleFacts.
Import ListNotations.
Open Scope list_scope.
Open Scope nat_scope.

(** C103.  If each string in the object is plain or the quoted form of a text (any bytes but NUL; at most
    254 with the quotes), the shell runs one command, the judger, with exactly the parameters meant ... *)
Theorem C103_quoted : forall posix o q p,
  object_of o q -> env_with_args o -> call_stands_for q p -> acceptable p ->
  exists cmd argv c, node_command o = NVal cmd /\ sh cmd = Some [argv] /\ hd_error argv = Some (lit "/usr/lib/judger/libjudger.so") /\
    does posix argv (Val (Run c)) /\ requests p c.
Proof. exact quoted_faithful. Qed.
Print Assumptions C103_quoted.
(** ... and nothing else, whether or not the judger accepts them. *)
Theorem C103_only : forall posix o q p,
  object_of o q -> env_with_args o -> call_stands_for q p -> forall cmd argvs,
  node_command o = NVal cmd -> sh cmd = Some argvs ->
  exists argv, argvs = [argv] /\ hd_error argv = Some (lit "/usr/lib/judger/libjudger.so") /\
    forall c, does posix argv (Val (Run c)) -> acceptable p /\ requests p c.
Proof. exact quoted_only. Qed.
Print Assumptions C103_only.
Example C103_quoted_case : object_of (js_object awkward_written) awkward_written /\ env_with_args (js_object awkward_written) /\
  call_stands_for awkward_written awkward /\ acceptable awkward.
Proof. exact (conj (proj1 awkward_object) (conj (proj2 awkward_object) (conj awkward_stands awkward_acceptable))). Qed.

(** From the call to the verdict: the result of a judger that did what was meant, reported truly. *)
Theorem C103_reports : forall W obj q p,
  object_of obj q -> env_with_args obj -> call_stands_for q p ->
  forall own h o, acceptable p -> nul_free own -> world_ok W -> measurable W h ->
  node_sh_calls W own obj h o ->
  exists c r, requests p c /\ reports W c h r /\
  ((Z.of_nat (List.length (own ++ print_result r)) < 2 ^ 31)%Z -> o = Some (NodeReturns own (result_object r))).
Proof. exact quoted_reports. Qed.
Print Assumptions C103_reports.
Example C103_reports_case : exists c s,
  object_of (js_object (all_quoted js_sample)) (all_quoted js_sample) /\ env_with_args (js_object (all_quoted js_sample)) /\
  call_stands_for (all_quoted js_sample) js_sample /\ acceptable js_sample /\
  node_sh_calls (sample_world None) (lit "{hello}") (js_object (all_quoted js_sample)) (Ran c sample_success s)
    (Some (NodeReturns (lit "{hello}") (result_object (mkResult 80 120 1536000 0 0 0 0)))) /\
  measurable (sample_world None) (Ran c sample_success s).
Proof.
  destruct js_quoted_runs as (c & s & R & M). exists c, s.
  exact (conj (proj1 js_quoted_object) (conj (proj2 js_quoted_object) (conj js_quoted_stands
    (conj (proj2 (proj2 (proj2 CallerSampleFacts.js_sample_ok))) (conj R M))))).
Qed.

(** What was shown for calls and commands without quotes holds for this shell. *)
Theorem C103_extends : forall cmd cs, shell cmd = Some cs -> sh cmd = Some cs.
Proof. exact shell_sh. Qed.
Print Assumptions C103_extends.
Theorem C103_extends_calls : forall W own obj h o, node_calls W own obj h o -> node_sh_calls W own obj h o.
Proof. exact calls_sh. Qed.
Print Assumptions C103_extends_calls.

(** Two more bytes, and three for each single quote; single quotes around are enough without one inside. *)
Theorem C103_length : forall s, List.length (quoted s) = 2 + List.length s + 3 * count_occ ascii_dec s quote.
Proof. exact quoted_length. Qed.
Print Assumptions C103_length.
Theorem C103_wrapped : forall s, ~ In quote s -> quoted s = wrapped s.
Proof. exact quoted_wrapped. Qed.
Print Assumptions C103_wrapped.
(** Otherwise they are not: a value can begin another command. *)
Theorem C103_wrapped_refuted : forall a b x,
  plain_text x -> nul_free a -> ~ In quote a -> command_word b -> List.length (wrapped (breaks_out a b)) <= 254 ->
  exists cmd, node_command (two_paths x (wrapped (breaks_out a b))) = NVal cmd /\
    sh cmd = Some [[lit "/usr/lib/judger/libjudger.so"; lit "--input_path=" ++ a]; [b; []; lit "--exe_path=" ++ x]].
Proof. exact wrapped_injects. Qed.
Print Assumptions C103_wrapped_refuted.
Example C103_wrapped_case : plain_text (lit "/bin/x") /\ nul_free (lit "my $file") /\ ~ In quote (lit "my $file") /\ command_word (lit "reboot") /\
  List.length (wrapped (breaks_out (lit "my $file") (lit "reboot"))) <= 254.
Proof. exact breaks_case. Qed.

(** Quotes, one by one (POSIX 2.2): what is between single quotes, what follows a backslash, what is between
    double quotes without dollar sign, backquote, double quote and backslash, is taken as it is. *)
Theorem C103_single : forall s, ~ In quote s -> sh (lit "x '" ++ s ++ lit "'") = Some [[lit "x"; s]].
Proof. exact sh_single_all. Qed.
Print Assumptions C103_single.
Theorem C103_backslash : forall c, c <> "010"%char -> sh (lit "x \" ++ [c]) = Some [[lit "x"; [c]]].
Proof. exact sh_backslash_all. Qed.
Print Assumptions C103_backslash.
Theorem C103_double : forall s, Forall (fun c => ~ In c (lit "$`""\")) s -> sh (lit "x """ ++ s ++ lit """") = Some [[lit "x"; s]].
Proof. exact sh_double_all. Qed.
Print Assumptions C103_double.
(** Between double quotes these four stand for themselves after a backslash; before others the backslash stays. *)
Theorem C103_double_backslash : forall c, c <> "010"%char ->
  sh (lit "x ""\" ++ [c] ++ lit """") = Some [[lit "x"; if in_dec ascii_dec c (lit "$`""\") then [c] else ["\"%char; c]]].
Proof. exact sh_double_backslash. Qed.
Print Assumptions C103_double_backslash.
(** A quote that is not closed is an error. *)
Theorem C103_open : forall s, ~ In quote s -> sh (lit "x '" ++ s) = None.
Proof. exact sh_open_all. Qed.
Print Assumptions C103_open.
