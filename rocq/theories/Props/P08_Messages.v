(** C64, C65: the texts the judger prints instead of a result.  [printed run a]
    is what main writes to its standard output for the action [a]
    (Model/Messages.v); the texts are in Spec/MessageSpec.v. *)
From Coq Require Import ZArith Bool List Ascii String Arith Lia.
From Verif.Base Require Import CInt CStr.
From Verif.Model Require Import Config Argtable Main Messages.
From Verif.Spec Require Import IntText CmdLine Invocation MessageSpec.
From Verif.Proofs Require Import MessageProofs CommandClaims InvocationClaims.
Import ListNotations.
Open Scope list_scope.
Open Scope nat_scope.

(** ** C64: every fault is explained *)
(** For every faulty command line: one line for each fault, in order, at most
    ten, then the hint; nothing is lost or cut except an excess value. *)
Theorem C64_error_report : forall run posix prog ws es r acc fs,
  Forall c_string ws -> Forall short ws -> reads judger_names posix ws es r -> harmless es -> occurs [] es acc fs ->
  ~ mentions es "help" -> ~ mentions es "version" -> all_faults acc fs r <> [] ->
  (forall c, In (Letter c) es -> ordinary c) ->
  exists a, does posix (prog :: ws) (Val a) /\ exit_status a = 1%Z /\
    printed run a = Val (report (first_ten (all_faults acc fs r))).
Proof. exact error_report. Qed.
Print Assumptions C64_error_report.

(** A command line with six kinds of faults. *)
Definition bad_words : list str :=
  map lit ["--max_cpu_time=12q"; "--uid"; "99999999999"; "-x"; "--nope=1"; "stray"; "--exe_path="]%string.
Example C64_case : forall run,
  match main_ 20 false (lit "judger" :: bad_words) with
  | Some (Val a) => printed run a
  | _ => UB
  end = Val (report [NotANumber (lit "max_cpu_time") (lit "12q"); OutOfRange (lit "uid") (lit "99999999999");
                     NoSuchLetter "x"; UnknownOption (lit "--nope=1"); MissingValue (lit "--exe_path="); Stray (lit "stray")]).
Proof. intros run. vm_compute. reflexivity. Qed.

(** The text of one of them. *)
Example C64_text : report [NotANumber (lit "max_cpu_time") (lit "12q")] =
  lit "libjudger.so: invalid argument ""12q"" to option --max_cpu_time=<n>" ++ newline ++
  lit "Try 'libjudger.so --help' for more information." ++ newline.
Proof. vm_compute. reflexivity. Qed.

(** The restriction on letters is needed: "-\001" is reported as too many
    errors. *)
Theorem C64_letters_refuted : exists w a, c_string w /\ reads judger_names false [w] [Letter "001"] [] /\
  does false [lit "judger"; w] (Val a) /\
  forall run, printed run a = Val (report [MoreFaults]) /\ report [MoreFaults] <> report [NoSuchLetter "001"].
Proof.
  exists ["-"%char; "001"%char]. eexists. split; [intros H; cbn in H; intuition discriminate|].
  split; [|split].
  - apply (reads_letters judger_names false ["001"%char] [] [] []); [discriminate| |constructor].
    intros [H|[]]; discriminate.
  - exists 5. vm_compute. reflexivity.
  - intros run. split; [vm_compute; reflexivity|]. vm_compute. discriminate.
Qed.
Print Assumptions C64_letters_refuted.

(** ** C65: help and version *)
Theorem C65_help_text : forall run posix prog ws es r, Forall c_string ws ->
  reads judger_names posix ws es r -> harmless es -> mentions es "help" ->
  exists a, does posix (prog :: ws) (Val a) /\ exit_status a = 0%Z /\ printed run a = Val help_text.
Proof.
  intros run posix prog ws es r C R H X. exists Usage. split; [exact (does_help posix prog ws es r C R H X)|].
  split; [reflexivity|]. vm_compute. reflexivity.
Qed.
Print Assumptions C65_help_text.

Theorem C65_version_text : forall run posix prog ws es r, Forall c_string ws ->
  reads judger_names posix ws es r -> harmless es -> ~ mentions es "help" -> mentions es "version" ->
  exists a, does posix (prog :: ws) (Val a) /\ exit_status a = 0%Z /\
    printed run a = Val (lit "Version: 2.1.1" ++ newline).
Proof.
  intros run posix prog ws es r C R H X Y. exists Version. split; [exact (does_version posix prog ws es r C R H X Y)|].
  split; reflexivity.
Qed.
Print Assumptions C65_version_text.

Example C65_case : forall run,
  match main_ 20 false (map lit ["judger"; "--hel"; "--bogus"]%string) with
  | Some (Val a) => printed run a
  | _ => UB
  end = Val help_text.
Proof. intros run. vm_compute. reflexivity. Qed.
