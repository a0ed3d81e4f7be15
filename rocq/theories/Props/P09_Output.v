(** C50: the result on standard output.  [printed run a] is what main writes for
    the action [a], where [run] is the result that run() computes
    (Model/Messages.v); [json_text py s v]: the text [s] is the JSON value [v]
    (Spec/Json.v). *)
From Coq Require Import ZArith Bool List Ascii String.
From Verif.Base Require Import CInt CStr.
From Verif.Model Require Import Config Argtable Main Messages.
From Verif.Spec Require Import IntText CmdLine Invocation MessageSpec.
From Verif.Spec Require Import Json OutputSpec.
From Verif.Proofs Require Import JsonProofs OutputProofs.
Import ListNotations.
Open Scope list_scope.

(** A run prints one JSON object with the seven fields, whatever their values. *)
Theorem C50_object : forall run c py, exists t, printed run (Run c) = Val t /\ json_text py t (result_object (run c)).
Proof. intros run c py. exists (print_result (run c)). split; [reflexivity|exact (result_text py (run c))]. Qed.
Print Assumptions C50_object.

(** It cannot be read as anything else. *)
Theorem C50_unique : forall run c py t v, printed run (Run c) = Val t -> json_text py t v -> v = result_object (run c).
Proof. intros run c py t v E H. injection E as <-. exact (json_unique py _ _ _ H (result_text py (run c))). Qed.
Print Assumptions C50_unique.

(** So the text determines the result. *)
Theorem C50_determines : forall run run' c c' t,
  printed run (Run c) = Val t -> printed run' (Run c') = Val t -> run c = run' c'.
Proof.
  intros run run' c c' t E E'. injection E as E. injection E' as E'.
  assert (result_object (run c) = result_object (run' c')) as H.
  { apply (json_unique false t); [rewrite <- E|rewrite <- E']; apply result_text. }
  injection H as H1 H2 H3 H4 H5 H6 H7. destruct (run c), (run' c'). cbn in *. congruence.
Qed.
Print Assumptions C50_determines.

(** If the program shares the judger's standard output (the default) and writes
    [s] before the judger writes the result, then the whole is JSON only if [s]
    is blank, and then it is still the judger's result: a program cannot forge a
    result. *)
Theorem C50_not_forged : forall run c py s t v,
  printed run (Run c) = Val t -> json_text py (s ++ t) v -> Json.blank s /\ v = result_object (run c).
Proof. intros run c py s t v E H. injection E as <-. exact (only_blank_before py s (run c) v H). Qed.
Print Assumptions C50_not_forged.

(** What is printed when there is no run is not JSON. *)
Theorem C50_only_results_are_json : forall run fs py v t,
  (exists a, (a = Usage \/ a = Version) /\ printed run a = Val t) \/ (fs <> [] /\ t = report fs) -> ~ json_text py t v.
Proof.
  intros run fs py v t [(a & [-> | ->] & E)|[N ->]].
  - assert (exists s, printed run Usage = Val (lit "Usage: " ++ s)) as (s & U) by (eexists; vm_compute; reflexivity).
    rewrite U in E. injection E as <-. apply (usage_not_json py).
  - injection E as <-. apply (version_not_json py).
  - rewrite <- (app_nil_r (report fs)). apply report_not_json. exact N.
Qed.
Print Assumptions C50_only_results_are_json.

(** A concrete result, with the smallest and largest values of the fields. *)
Example C50_case : forall c, printed (fun _ => mkResult 2147483647 (-2147483648) 9223372036854775807 0 (-1) (-10) 5) (Run c) =
  Val (lit "{" ++ newline ++ lit "    ""cpu_time"": 2147483647," ++ newline ++ lit "    ""real_time"": -2147483648," ++ newline ++
       lit "    ""memory"": 9223372036854775807," ++ newline ++ lit "    ""signal"": 0," ++ newline ++
       lit "    ""exit_code"": -1," ++ newline ++ lit "    ""error"": -10," ++ newline ++ lit "    ""result"": 5" ++ newline ++ lit "}").
Proof. intros c. vm_compute. reflexivity. Qed.
