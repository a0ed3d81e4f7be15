(** getopt, getopt_long and getopt_long_only (bundled with argtable3) for any caller.  Specification:
    Spec/GetoptSpec.v (what is read, call by call), Spec/GetoptAnswer.v (how the code is asked and how it answers). *)
From Coq Require Import ZArith Bool List Ascii String Arith Permutation.
From Verif.Base Require Import CInt CStr.
From Verif.Model Require Import Getopt GetoptFull.
From Verif.Spec Require Import CmdLine GetoptSpec GetoptAnswer GetoptSamples.
From Verif.Proofs Require Import GetoptTotal GetoptWords GetoptRefines GetoptEnds.
Import ListNotations.
Open Scope list_scope.
Open Scope nat_scope.

(** A caller that calls until -1 gets one answer for each thing read, in order, and finds the other words from optind
    on. *)
Theorem C90_reads :
  forall opterr posix q get prog words events rest,
  fine q -> asked opterr posix q get -> reads q words events rest ->
  exists argv', ends_with get (prog :: words) (map (answer opterr posix q) events) rest argv'.
Proof. intros o p q get prog ws es r F A. exact (reads_ends o p q F get A prog ws es r). Qed.
Print Assumptions C90_reads.

(** Nothing else: what a caller gets is an account of the command line. *)
Theorem C90_only_what_is_read :
  forall opterr posix q get prog words answers rest argv',
  fine q -> asked opterr posix q get -> ends_with get (prog :: words) answers rest argv' ->
  exists events, reads q words events rest /\ answers = map (answer opterr posix q) events.
Proof. intros o p q get prog ws rs r a' F A. exact (ends_reads o p q F get A prog ws rs r a'). Qed.
Print Assumptions C90_only_what_is_read.

(** Every command line is read to its end, or reading goes round in a circle; the latter only if there are long names. *)
Theorem C90_every_line :
  forall q words, fine q -> (exists events rest, reads q words events rest) \/ (q_names q <> None /\ circles q words).
Proof. intros q ws F. exact (reads_or_circles q F ws). Qed.
Print Assumptions C90_every_line.

(** It ends if no word is a dash, letters, and a dash. *)
Theorem C90_ends :
  forall q words, fine q ->
  (forall w, In w words -> ~ exists c p, c <> "-"%char /\ w = "-"%char :: c :: p ++ lit "-") ->
  exists events rest, reads q words events rest.
Proof. intros q ws F G. exact (good_reads q F ws G). Qed.
Print Assumptions C90_ends.

(** In a circle, the caller never gets -1, however often it calls. *)
Theorem C90_never :
  forall opterr posix q get prog words, fine q -> asked opterr posix q get -> circles q words ->
  forall calls, until_done get calls (fresh (prog :: words)) = None.
Proof. intros o p q get prog ws F A. exact (circles_never o p q F get A prog ws). Qed.
Print Assumptions C90_never.

(** No undefined behaviour. *)
Theorem C90_defined :
  forall opterr posix q get prog words calls, fine q -> asked opterr posix q get ->
  until_done get calls (fresh (prog :: words)) <> Some UB.
Proof. intros o p q get prog ws n F A. exact (never_ub o p q F get A prog ws n). Qed.
Print Assumptions C90_defined.

(** The words of argv are never lost or changed, whatever the option string, the names and the flags. *)
Theorem C90_words :
  forall opterr posix permute longonly options names argv answers rest argv',
  ends_with (getopt_internal opterr posix permute longonly options names) argv answers rest argv' -> Permutation argv argv'.
Proof. intros a b c d o l argv rs r a' H. exact (ends_perm a b c d o l argv rs r a' H). Qed.
Print Assumptions C90_words.

(** They stay where they are unless the words that are no options are collected. *)
Theorem C90_words_in_place :
  forall opterr posix q get argv answers rest argv',
  fine q -> asked opterr posix q get -> q_style q <> Collect -> ends_with get argv answers rest argv' -> argv' = argv.
Proof. intros o p q get argv rs r a' F A N H. exact (ends_kept o p q get argv rs r a' F A N H). Qed.
Print Assumptions C90_words_in_place.

(** The getopt_long of the option parser (Model/Getopt.v) is this one. *)
Theorem C90_parser :
  forall opterr posix options los g,
  colon_first options = true -> ~ In ";"%char options ->
  Getopt.getopt_long posix options los g =
  cbind (GetoptFull.getopt_long opterr posix options (map parser_long los) g) (fun '(r, g) => Val (as_parser r, g)).
Proof. intros o p opts los g Hc Hs. exact (refines o p opts Hc Hs los g). Qed.
Print Assumptions C90_parser.

(** ** Cases *)
Example C90_line : reads tool line line_events [lit "file"; lit "-a"] /\ fine tool /\
  asked true false tool (getopt_long true false (lit "ao:m::W;") (map as_long long_names)).
Proof. exact (conj line_reads (conj tool_fine tool_asked)). Qed.

(** The same line, by running the model. *)
Example C90_line_runs :
  option_map (fun x => cbind x (fun '(rs, g) => Val (map r_value rs, map r_warn rs, g_argv g, g_optind g)))
    (until_done (getopt_long true false (lit "ao:m::W;") (map as_long long_names)) 7 (fresh (lit "tool" :: line))) =
  Some (Val ([97; 111; 300; 63; 63; 0]%Z,
             [None; None; None; Some (lit "option `--v' is ambiguous"); Some (lit "invalid option -- q"); None],
             [lit "tool"; lit "-ao"; lit "x"; lit "--val=9"; lit "--v"; lit "-q"; lit "-Wverbose"; lit "--"; lit "file"; lit "-a"], 8)).
Proof. vm_compute. reflexivity. Qed.

(** getopt_long_only: "-via" is a name, "-ax" is not and is read as letters; "-v" could be two names. *)
Example C90_only_runs :
  fine only_tool /\ asked true false only_tool (getopt_long_only true false (lit "ao:m::W;") (map as_long long_names)) /\
  option_map (fun x => cbind x (fun '(rs, g) => Val (map r_value rs)))
    (until_done (getopt_long_only true false (lit "ao:m::W;") (map as_long long_names)) 9
       (fresh [lit "tool"; lit "-via=1"; lit "-aa"; lit "-v"; lit "-ve"])) = Some (Val [301; 97; 97; 63; 0]%Z).
Proof. split; [exact only_fine|]. split; [exact only_asked|]. vm_compute. reflexivity. Qed.

(** getopt: it stops at the first word that is no option; ':' says that a value is missing. *)
Example C90_getopt_runs :
  fine plain /\ asked true false plain (getopt true false (lit ":ao:")) /\
  option_map (fun x => cbind x (fun '(rs, g) => Val (map r_value rs, map r_opt rs, skipn (g_optind g) (g_argv g))))
    (until_done (getopt true false (lit ":ao:")) 9 (fresh [lit "tool"; lit "-a"; lit "file"; lit "-o"])) =
  Some (Val ([97]%Z, [None], [lit "file"; lit "-o"])) /\
  option_map (fun x => cbind x (fun '(rs, g) => Val (map r_value rs, map r_opt rs, skipn (g_optind g) (g_argv g))))
    (until_done (getopt true false (lit ":ao:")) 9 (fresh [lit "tool"; lit "-a"; lit "-o"])) =
  Some (Val ([97; 58]%Z, [None; Some 111%Z], [])).
Proof. split; [exact plain_fine|]. split; [exact plain_asked|]. split; vm_compute; reflexivity. Qed.

(** "-a-": letter, error, letter, error, ... *)
Example C90_dash_circles : circles tool [lit "-a-"].
Proof. exact dash_circles. Qed.
Example C90_dash_never : forall n,
  until_done (getopt_long true false (lit "ao:m::W;") (map as_long long_names)) n (fresh [lit "tool"; lit "-a-"]) = None.
Proof. exact (C90_never true false tool _ (lit "tool") [lit "-a-"] tool_fine tool_asked dash_circles). Qed.

(** The option strings of arg_parse begin with a colon and have no semicolon. *)
Example C90_parser_case : colon_first (lit ":ho:") = true /\ ~ In ";"%char (lit ":ho:").
Proof. split; [reflexivity|]. cbn. intuition discriminate. Qed.
