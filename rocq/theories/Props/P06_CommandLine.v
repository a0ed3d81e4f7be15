(** C40-C49: the command line.  [does posix argv a]: main, started with the
    argument vector [argv], does [a] (Model/Main.v).  What command lines mean is
    in Spec/CmdLine.v (reading words) and Spec/Invocation.v (options and values). *)
From Coq Require Import ZArith Bool List Ascii String Arith Lia.
From Verif.Base Require Import CInt CStr.
From Verif.Model Require Import Config ArgInt Permute Getopt Argtable Main.
From Verif.Spec Require Import IntText CmdLine Invocation.
From Verif.Proofs Require Import ArgIntClaims PermuteProofs GetoptLong GetoptProofs ParseSim InvocationProofs MainProofs InvocationClaims CommandClaims.
Import ListNotations.
Open Scope list_scope.
Open Scope nat_scope.

(** ** Concrete command lines *)
Definition sample_words : list str :=
  map lit ["--max_cpu=1000"; "stray"; "--exe_path"; "/bin/echo"; "--args=a"; "--args"; "-b"; "--env=X=1"; "--uid=-1"]%string.
Definition sample_events : list event :=
  [Given (lit "max_cpu_time") (Some (lit "1000")) (lit "--max_cpu=1000");
   Given (lit "exe_path") (Some (lit "/bin/echo")) (lit "/bin/echo");
   Given (lit "args") (Some (lit "a")) (lit "--args=a");
   Given (lit "args") (Some (lit "-b")) (lit "-b");
   Given (lit "env") (Some (lit "X=1")) (lit "--env=X=1");
   Given (lit "uid") (Some (lit "-1")) (lit "--uid=-1")].

Ltac str_diff := let E := fresh in intros E; vm_compute in E; discriminate E.
Ltac not_in := unfold no_char; vm_compute; intuition discriminate.
Ltac stands := split; [vm_compute; intuition fail|
  first [left; reflexivity|
    right; split; [vm_compute; intuition discriminate|split; [eexists; reflexivity|
      intros n' I [r' P]; cbn in I;
      repeat (destruct I as [<-|I]; [first [reflexivity|vm_compute in P; discriminate P]|]); destruct I]]]].
Ltac plain := let E := fresh in let c := fresh in let r := fresh in intros (c & r & E); discriminate E.

Example sample_reads : reads judger_names false sample_words sample_events [lit "stray"].
Proof.
  unfold sample_words, sample_events. cbn [map].
  eapply (reads_long judger_names false [] (lit "max_cpu=1000")); [not_in|discriminate| |].
  { apply (long_value_here _ _ _ _ (lit "max_cpu") (lit "1000")); [split; [not_in|reflexivity]|stands|vm_compute; intuition fail]. }
  apply reads_other; [plain|reflexivity|].
  eapply (reads_long judger_names false [] (lit "exe_path")); [not_in|discriminate| |].
  { apply long_value_next; [split; [not_in|rewrite app_nil_r; reflexivity]|stands|vm_compute; intuition fail]. }
  eapply (reads_long judger_names false [] (lit "args=a")); [not_in|discriminate| |].
  { apply (long_value_here _ _ _ _ (lit "args") (lit "a")); [split; [not_in|reflexivity]|stands|vm_compute; intuition fail]. }
  eapply (reads_long judger_names false [] (lit "args")); [not_in|discriminate| |].
  { apply long_value_next; [split; [not_in|rewrite app_nil_r; reflexivity]|stands|vm_compute; intuition fail]. }
  eapply (reads_long judger_names false [] (lit "env=X=1")); [not_in|discriminate| |].
  { apply (long_value_here _ _ _ _ (lit "env") (lit "X=1")); [split; [not_in|reflexivity]|stands|vm_compute; intuition fail]. }
  eapply (reads_long judger_names false [] (lit "uid=-1")); [not_in|discriminate| |].
  { apply (long_value_here _ _ _ _ (lit "uid") (lit "-1")); [split; [not_in|reflexivity]|stands|vm_compute; intuition fail]. }
  apply reads_end.
Qed.

(** The model on that command line: the stray word is the only error. *)
Example sample_main : main_ 20 false (lit "judger" :: sample_words) =
  Some (Val (Errors [mkErr None ARG_ENOMATCH (Some (lit "stray"))])).
Proof. vm_compute. reflexivity. Qed.

(** Settings as a caller writes them. *)
Definition sample_settings : list (str * str) :=
  [(lit "exe_path", lit "/bin/echo"); (lit "args", lit "a b"); (lit "args", lit "--help"); (lit "max_memory", lit "64MB")].

Example sample_run : exists c, main_ 20 true (lit "judger" :: map setting_word sample_settings) = Some (Val (Run c)) /\
  max_memory c = 67108864%Z /\ firstn 4 (args c) = [Ptr (lit "/bin/echo"); Ptr (lit "a b"); Ptr (lit "--help"); Null].
Proof. eexists. split; [vm_compute; reflexivity|]. vm_compute. auto. Qed.

(** ** C40: names *)
(** getopt's lookup of [s] in --s=v, for every text [s]: the [k]-th option is
    found iff [s] is its name or an abbreviation that fits no other option (and
    it takes a value); every other [s] is refused. *)
Theorem C40_resolution : forall s v k argv i, no_char "="%char s ->
  (parse_long_options (alloc_longoptions 0 arg_table) argv i (s ++ lit "=" ++ v) false = Val (mkRet 0 (Some v) 0 k, S i) <->
   exists n, stands_for judger_names s n /\ is_valued judger_names n /\ option_map o_name (nth_error judger_options k) = Some n) /\
  ((forall n, stands_for judger_names s n -> ~ is_valued judger_names n) ->
   parse_long_options (alloc_longoptions 0 arg_table) argv i (s ++ lit "=" ++ v) false = Val (mkRet BADCH None 0 0, S i)).
Proof. exact resolution. Qed.
Print Assumptions C40_resolution.

(** An abbreviation can be replaced by the full name. *)
Theorem C40_abbreviation : forall posix prog s n v ws es r a,
  stands_for judger_names s n -> is_valued judger_names n ->
  no_char "="%char s -> c_string s -> c_string v -> v <> [] -> Forall c_string ws -> reads judger_names posix ws es r ->
  (does posix (prog :: setting_word (s, v) :: ws) a <-> does posix (prog :: setting_word (n, v) :: ws) a).
Proof. exact abbreviation. Qed.
Print Assumptions C40_abbreviation.

(** With an unknown or ambiguous name nothing is run. *)
Theorem C40_unknown_not_run : forall posix prog ws es r w c,
  Forall c_string ws -> reads judger_names posix ws es r -> In (Unknown w) es ->
  ~ does posix (prog :: ws) (Val (Run c)).
Proof.
  intros posix prog ws es r w c C R I D. destruct (does_run posix prog ws es r C R c D) as (F & _).
  apply (not_given_faulty es r (Unknown w) I) in F; [exact F|discriminate].
Qed.
Print Assumptions C40_unknown_not_run.

Example C40_cases :
  stands_for judger_names (lit "max_cpu") (lit "max_cpu_time") /\
  (forall n, ~ stands_for judger_names (lit "max_") n) /\
  (forall n, ~ stands_for judger_names (lit "exe_path2") n).
Proof.
  split; [stands|]. split; intros n (I & [E|(_ & [q P] & U)]).
  - subst. vm_compute in I. intuition discriminate.
  - assert (lit "max_cpu_time" = n) as A by (apply U; [vm_compute; intuition fail|eexists; reflexivity]).
    assert (lit "max_memory" = n) as B by (apply U; [vm_compute; intuition fail|eexists; reflexivity]).
    rewrite <- B in A. discriminate.
  - subst. vm_compute in I. intuition discriminate.
  - cbn in I. repeat (destruct I as [<-|I]; [vm_compute in P; discriminate P|]). destruct I.
Qed.

(** ** C41: scanning *)
(** Every command line has one reading, or contains a word -abc- (see C42). *)
Theorem C41_reading_exists : forall posix ws,
  (exists es r, reads judger_names posix ws es r) \/ (exists es, stuck_after judger_names posix ws es).
Proof. intros posix ws. rewrite <- los_options. apply reads_total. exact los_fine. Qed.
Print Assumptions C41_reading_exists.

Theorem C41_reading_unique : forall posix ws es r es2 r2,
  reads judger_names posix ws es r -> reads judger_names posix ws es2 r2 -> es = es2 /\ r = r2.
Proof.
  intros posix ws es r es2 r2 H H2. rewrite <- los_options in H, H2.
  exact (reads_unique los posix EM los_fine ws es r H es2 r2 H2).
Qed.
Print Assumptions C41_reading_unique.

(** What main does depends only on what was read, not on how it was written
    or where the other words stand. *)
Theorem C41_depends_on_reading : forall posix posix' prog prog' ws ws' es es' r a,
  Forall c_string ws -> Forall c_string ws' ->
  reads judger_names posix ws es r -> reads judger_names posix' ws' es' r -> Forall2 alike es es' ->
  (does posix (prog :: ws) a <-> does posix' (prog' :: ws') a).
Proof. exact same_reading. Qed.
Print Assumptions C41_depends_on_reading.

(** The words of the sample in another order, written in another way and with POSIXLY_CORRECT: the same but for the stray word, which
    comes last behind two dashes. *)
Example C41_case : main_ 20 true (lit "judger" :: map lit ["--max_cpu_time"; "1000"; "--exe_path=/bin/echo"; "--args=a"; "--args=-b"; "--env"; "X=1"; "--uid=-1"; "--"; "stray"]%string) =
  main_ 20 false (lit "judger" :: sample_words).
Proof. vm_compute. reflexivity. Qed.

(** Everything that is wrong is reported, in the order of the reading, the other
    words last; see C49 for the number. *)
Theorem C41_reported : forall posix prog ws es r acc fs,
  Forall c_string ws -> reads judger_names posix ws es r -> harmless es -> occurs [] es acc fs ->
  ~ mentions es "help" -> ~ mentions es "version" -> all_faults acc fs r <> [] ->
  does posix (prog :: ws) (Val (Errors (map coded (first_ten (all_faults acc fs r))))).
Proof.
  intros posix prog ws es r acc fs C R H O X Y F.
  destruct (main_errors posix prog ws es r acc fs C R H O X Y F) as (n & M). exact (ends_does _ _ _ _ M).
Qed.
Print Assumptions C41_reported.

(** A word that is no option (and every word after --) prevents the run. *)
Theorem C41_other_word_not_run : forall posix prog ws es w r c,
  Forall c_string ws -> reads judger_names posix ws es (w :: r) -> ~ does posix (prog :: ws) (Val (Run c)).
Proof.
  intros posix prog ws es w r c C R D. destruct (does_run posix prog ws es (w :: r) C R c D) as ((F & _) & _). discriminate.
Qed.
Print Assumptions C41_other_word_not_run.

(** ** C42: termination *)
Theorem C42_refuted : exists argv, forall fuel posix, main_ fuel posix argv = None.
Proof.
  exists [lit "judger"; lit "-x-"]. intros fuel posix.
  apply (main_stuck posix (lit "judger") [lit "-x-"] []).
  - repeat constructor. not_in.
  - apply (stuck_here judger_names posix (lit "x") []); [discriminate|not_in].
  - intros (es1 & n & v & w & es2 & acc & fs & m & E & _). destruct es1; discriminate.
Qed.
Print Assumptions C42_refuted.

(** Exactly: parsing ends unless a word -abc- is reached (and no undefined
    conversion, C38, came before). *)
Theorem C42_terminates_iff : forall posix prog ws, Forall c_string ws ->
  ((exists a, does posix (prog :: ws) a) <->
   ~ exists es, stuck_after judger_names posix ws es /\ harmless es).
Proof.
  intros posix prog ws C. rewrite <- (main_terminates posix prog ws C). unfold does.
  split; [intros (a & fuel & H)|intros (fuel & a & H)]; eauto.
Qed.
Print Assumptions C42_terminates_iff.

(** In particular when no word has the form -abc-. *)
Theorem C42_ordinary_words : forall posix prog ws, Forall c_string ws ->
  (forall w ls, In w ws -> w = lit "-" ++ ls ++ lit "-" -> ls <> [] -> ~ no_char "-"%char ls) ->
  exists a, does posix (prog :: ws) a.
Proof.
  intros posix prog ws C N. apply (C42_terminates_iff posix prog ws C). intros (es & S & _).
  clear C. induction S as [ls ws Nl Nd|w ws es Nw Px H IH|ls ws es Ne Nd H IH|ls s ws e ws' es Nd Ns LO H IH].
  - apply (N (lit "-" ++ ls ++ lit "-") ls); auto. left. reflexivity.
  - apply IH. intros x l I. apply N. right. exact I.
  - apply IH. intros x l I. apply N. right. exact I.
  - apply IH. intros x l I. apply N. right. destruct LO; auto. right. exact I.
Qed.
Print Assumptions C42_ordinary_words.

Example C42_case : forall w ls, In w sample_words -> w = lit "-" ++ ls ++ lit "-" -> ls <> [] -> ~ no_char "-"%char ls.
Proof.
  intros w ls I -> _ _. assert (Forall (fun w => last w "x"%char <> "-"%char) sample_words) as F
    by (unfold sample_words; cbn [map]; repeat apply Forall_cons; try apply Forall_nil; vm_compute; discriminate).
  rewrite Forall_forall in F. apply (F _ I). rewrite app_assoc. apply last_last.
Qed.

(** The result is unique. *)
Theorem C42_deterministic : forall posix argv a b, does posix argv a -> does posix argv b -> a = b.
Proof. exact does_unique. Qed.
Print Assumptions C42_deterministic.

(** ** C43: exchanging blocks of argv *)
Theorem C43_block_swap : forall (a b c d : list str), 0 < List.length b -> 0 < List.length c ->
  permute_args (List.length a) (List.length a + List.length b) (List.length a + List.length b + List.length c) (a ++ b ++ c ++ d)
  = Val (a ++ c ++ b ++ d).
Proof. exact permute_args_swaps. Qed.
Print Assumptions C43_block_swap.

Example C43_case : permute_args 1 3 6 [0; 1; 2; 3; 4; 5; 6; 7] = Val [0; 3; 4; 5; 1; 2; 6; 7].
Proof. reflexivity. Qed.

Theorem C43_cycle_count : forall a b, 0 < b -> gcd a b = Val (Nat.gcd a b).
Proof. exact gcd_is_gcd. Qed.
Print Assumptions C43_cycle_count.

(** ** C44: limits on occurrences *)
(** Nothing is run unless the command line has no fault: exe_path once, every
    other option at most its number of times, no empty or bad value, no unknown
    option, no other word. *)
Theorem C44_run_only_faultless : forall posix prog ws c, Forall c_string ws ->
  does posix (prog :: ws) (Val (Run c)) ->
  exists es, reads judger_names posix ws es [] /\ faultless es [].
Proof.
  intros posix prog ws c C D. destruct (does_reads posix prog ws _ C D) as (es & r & R & _).
  destruct (does_run posix prog ws es r C R c D) as (F & _). pose proof F as (-> & _). exists es. auto.
Qed.
Print Assumptions C44_run_only_faultless.

(** Conversely (up to the 254 of C47). *)
Theorem C44_faultless_runs : forall posix prog ws es, Forall c_string ws ->
  reads judger_names posix ws es [] -> faultless es [] -> ~ mentions es "help" -> ~ mentions es "version" ->
  List.length (given (lit "args") es) <= 254 -> exists c, does posix (prog :: ws) (Val (Run c)).
Proof.
  intros posix prog ws es C R F X Y L. destruct (runs posix prog ws es [] C R F X Y L) as (c & D & _). eauto.
Qed.
Print Assumptions C44_faultless_runs.

(** The sample settings have no fault: the hypotheses of this theorem, of [C45_settings] and [C47_vectors] are met. *)
Example C44_sample :
  Forall (fun s => is_valued judger_names (fst s) /\ c_string (snd s)) sample_settings /\
  faultless (map setting_event sample_settings) [] /\
  ~ mentions (map setting_event sample_settings) "help" /\ ~ mentions (map setting_event sample_settings) "version" /\
  List.length (given (lit "args") (map setting_event sample_settings)) = 2 /\
  reads judger_names true (map setting_word sample_settings) (map setting_event sample_settings) [].
Proof.
  assert (Forall (fun s => is_valued judger_names (fst s) /\ c_string (snd s)) sample_settings) as V.
  { unfold sample_settings. repeat apply Forall_cons; try apply Forall_nil; (split; [vm_compute; intuition fail|unfold c_string; not_in]). }
  split; [exact V|]. split; [|split; [|split; [|split]]].
  - split; [reflexivity|]. split; [|split; [|split; [|reflexivity]]].
    + intros e I. apply in_map_iff in I. destruct I as ([n v] & <- & I). exists n, (Some v), (setting_word (n, v)).
      split; [reflexivity|]. cbn in I. repeat (destruct I as [I|I]; [injection I as <- <-; discriminate|]). destruct I.
    + intros n m v I J. exists 67108864%Z. split; [|unfold is_int; lia].
      apply In_given in J. destruct J as (w & J). apply in_map_iff in J. destruct J as ([n' v'] & E & J). injection E as <- <- <-. cbn [fst snd] in *.
      cbn in J. destruct J as [J|[J|[J|[J|[]]]]]; injection J as <- <-; try (vm_compute in I; intuition discriminate).
      apply plain_is_int. exact (with_unit_decimal 64 (lit "MB") 1048576 [] (unit_mb _ (or_introl eq_refl)) (Forall_nil _)).
    + intros n k m I. cbn [judger_options In] in I.
      repeat (destruct I as [I|I]; [injection I as <- <- <-; apply Nat.leb_le; vm_compute; reflexivity|]). destruct I.
  - intros (v & w & I). cbn in I. repeat (destruct I as [I|I]; [discriminate I|]). exact I.
  - intros (v & w & I). cbn in I. repeat (destruct I as [I|I]; [discriminate I|]). exact I.
  - reflexivity.
  - apply settings_read. eapply Forall_impl; [|exact V]. intros s [X _]. exact X.
Qed.

(** Otherwise errors are printed and the exit status is 1. *)
Theorem C44_faults_exit_1 : forall posix prog ws es r, Forall c_string ws ->
  reads judger_names posix ws es r -> ~ faultless es r -> harmless es -> ~ mentions es "help" -> ~ mentions es "version" ->
  exists errs, does posix (prog :: ws) (Val (Errors errs)) /\ errs <> [] /\ exit_status (Errors errs) = 1%Z.
Proof.
  intros posix prog ws es r C R F H X Y. destruct (faulty posix prog ws es r C R F H X Y) as (errs & D & N & _).
  exists errs. auto.
Qed.
Print Assumptions C44_faults_exit_1.

(** Without any argument the only error is the missing exe_path. *)
Theorem C44_no_arguments : forall posix argv, argv = [] \/ (exists prog, argv = [prog]) ->
  exists i, nth_error judger_options i = Some (opt_ "exe_path" Text 1) /\
  does posix argv (Val (Errors [mkErr (Some i) ARG_ERR_MINCOUNT None])).
Proof.
  intros posix argv H. exists 9. split; [reflexivity|].
  destruct H as [->|(prog & ->)]; exists 1; destruct posix; vm_compute; reflexivity.
Qed.
Print Assumptions C44_no_arguments.

(** ** C45: defaults and values *)
Theorem C45_configuration : forall posix prog ws es r c, Forall c_string ws ->
  reads judger_names posix ws es r -> does posix (prog :: ws) (Val (Run c)) -> configured_by es c.
Proof. intros posix prog ws es r c C R D. exact (proj1 (proj2 (does_run posix prog ws es r C R c D))). Qed.
Print Assumptions C45_configuration.

(** Settings written as --name=value are read as such, whatever the values. *)
Theorem C45_settings : forall posix prog ss,
  Forall (fun s => is_valued judger_names (fst s) /\ c_string (snd s)) ss ->
  faultless (map setting_event ss) [] -> List.length (given (lit "args") (map setting_event ss)) <= 254 ->
  exists c, does posix (prog :: map setting_word ss) (Val (Run c)) /\ configured_by (map setting_event ss) c.
Proof.
  intros posix prog ss F Fl L. apply (runs posix prog _ _ []); auto.
  - apply Forall_forall. intros w I. apply in_map_iff in I. destruct I as ([n v] & <- & I).
    rewrite Forall_forall in F. destruct (F _ I) as [V Cv]. cbn [fst snd] in *.
    destruct (no_equal_names n true V) as (_ & Cn & _).
    unfold setting_word, c_string, no_char in *. cbn [fst snd]. rewrite !in_app_iff.
    intros [[E|[E|[]]]|[E|[[E|[]]|E]]]; try discriminate; tauto.
  - apply settings_read. eapply Forall_impl; [|exact F]. intros s [V _]. exact V.
  - intros (v & w & I). apply in_map_iff in I. destruct I as ([n x] & E & I). injection E as En _ _. cbn [fst] in En. subst.
    rewrite Forall_forall in F. destruct (F _ I) as [V _]. vm_compute in V. intuition discriminate.
  - intros (v & w & I). apply in_map_iff in I. destruct I as ([n x] & E & I). injection E as En _ _. cbn [fst] in En. subst.
    rewrite Forall_forall in F. destruct (F _ I) as [V _]. vm_compute in V. intuition discriminate.
Qed.
Print Assumptions C45_settings.

(** ** C46: help and version *)
Theorem C46_help : forall posix prog ws es r, Forall c_string ws ->
  reads judger_names posix ws es r -> harmless es -> mentions es "help" ->
  does posix (prog :: ws) (Val Usage) /\ exit_status Usage = 0%Z.
Proof. intros posix prog ws es r C R H X. split; [exact (does_help posix prog ws es r C R H X)|reflexivity]. Qed.
Print Assumptions C46_help.

Theorem C46_version : forall posix prog ws es r, Forall c_string ws ->
  reads judger_names posix ws es r -> harmless es -> ~ mentions es "help" -> mentions es "version" ->
  does posix (prog :: ws) (Val Version) /\ exit_status Version = 0%Z.
Proof. intros posix prog ws es r C R H X Y. split; [exact (does_version posix prog ws es r C R H X Y)|reflexivity]. Qed.
Print Assumptions C46_version.

(** And only then. *)
Theorem C46_only : forall posix prog ws es r x, Forall c_string ws ->
  reads judger_names posix ws es r -> does posix (prog :: ws) (Val x) ->
  match x with
  | Usage => mentions es "help"
  | Version => ~ mentions es "help" /\ mentions es "version"
  | _ => ~ mentions es "help" /\ ~ mentions es "version"
  end.
Proof. intros posix prog ws es r x C R. exact (does_only posix prog ws es r C R x). Qed.
Print Assumptions C46_only.

Example C46_case : main_ 20 false (map lit ["judger"; "--bogus"; "--he"; "--version"; "stray"]%string) = Some (Val Usage).
Proof. vm_compute. reflexivity. Qed.

(** ** C47: the argument vector of the program *)
Theorem C47_vectors : forall posix prog ws es r c, Forall c_string ws ->
  reads judger_names posix ws es r -> does posix (prog :: ws) (Val (Run c)) ->
  exists xs ys, given (lit "exe_path") es = [Some (exe_path c)] /\
    given (lit "args") es = map Some xs /\ given (lit "env") es = map Some ys /\
    vector (exe_path c :: xs) (args c) /\ vector ys (env c).
Proof.
  intros posix prog ws es r c C R D. destruct (does_run posix prog ws es r C R c D) as (F & Cf & _).
  apply run_vectors; [exact Cf|]. apply F.
Qed.
Print Assumptions C47_vectors.

(** With 255 args, all accepted, NULL is stored behind the array. *)
Theorem C47_full_refuted : forall posix prog ws es r, Forall c_string ws ->
  reads judger_names posix ws es r -> faultless es r -> ~ mentions es "help" -> ~ mentions es "version" ->
  List.length (given (lit "args") es) = 255 -> does posix (prog :: ws) UB.
Proof. intros posix prog ws es r C R. exact (full_args posix prog ws es r C R). Qed.
Print Assumptions C47_full_refuted.

Theorem C47_refuted : exists ss, Forall (fun s => is_valued judger_names (fst s)) ss /\
  faultless (map setting_event ss) [] /\ forall posix prog, does posix (prog :: map setting_word ss) UB.
Proof.
  set (ss := (lit "exe_path", lit "a") :: repeat (lit "args", lit "b") 255).
  assert (Forall (fun s => is_valued judger_names (fst s)) ss) as V.
  { constructor; [vm_compute; intuition fail|]. apply Forall_forall. intros s I. apply repeat_spec in I. subst.
    vm_compute. intuition fail. }
  assert (faultless (map setting_event ss) []) as F.
  { split; [reflexivity|]. split; [|split; [|split; [|vm_compute; reflexivity]]].
    - intros e I. apply in_map_iff in I. destruct I as ([n v] & <- & I). exists n, (Some v), (setting_word (n, v)). split; [reflexivity|].
      destruct I as [E|I]; [|apply repeat_spec in I; rename I into E]; injection E; intros; subst; discriminate.
    - intros n m v I J. exfalso. apply In_given in J. destruct J as (w & J). apply in_map_iff in J.
      destruct J as ([n' v'] & E & J). injection E as <- <- <-. cbn [fst] in I.
      destruct J as [E|J]; [|apply repeat_spec in J; rename J into E]; inversion E; subst; vm_compute in I; intuition discriminate.
    - intros n k m I. cbn [judger_options In] in I.
      repeat (destruct I as [I|I]; [injection I as <- <- <-; apply Nat.leb_le; vm_compute; reflexivity|]). destruct I. }
  exists ss. split; [exact V|]. split; [exact F|]. intros posix prog.
  assert (forall n, n = "help"%string \/ n = "version"%string -> ~ mentions (map setting_event ss) n) as Nm.
  { intros n Hn (v & w & I). apply in_map_iff in I. destruct I as ([n' v'] & E & I). injection E as En _ _. cbn [fst] in En.
    destruct I as [X|I]; [|apply repeat_spec in I; rename I into X]; inversion X; subst; destruct Hn as [-> | ->]; discriminate. }
  apply (full_args posix prog _ (map setting_event ss) []); auto.
  - apply Forall_forall. intros w I. apply in_map_iff in I. destruct I as (s & <- & I).
    destruct I as [<-|I]; [|apply repeat_spec in I; subst]; unfold c_string; not_in.
  - apply settings_read. exact V.
Qed.
Print Assumptions C47_refuted.

(** ** C48: empty values *)
Theorem C48_empty_not_run : forall posix prog ws es r n w c, Forall c_string ws ->
  reads judger_names posix ws es r -> In (Given n (Some []) w) es -> ~ does posix (prog :: ws) (Val (Run c)).
Proof.
  intros posix prog ws es r n w c C R I D. destruct (does_run posix prog ws es r C R c D) as (F & _).
  apply (not_given_faulty es r _ I) in F; [exact F|]. intros n' v' w' E. injection E as _ <- _. reflexivity.
Qed.
Print Assumptions C48_empty_not_run.

(** So no string in the configuration is empty that comes from the command line. *)
Theorem C48_strings_not_empty : forall posix prog ws c, Forall c_string ws ->
  does posix (prog :: ws) (Val (Run c)) ->
  exe_path c <> [] /\ input_path c <> Some [] /\ output_path c <> Some [] /\ error_path c <> Some [] /\
  log_path c <> [] /\ seccomp_rule_name c <> Some [] /\ ~ In (Ptr []) (args c) /\ ~ In (Ptr []) (env c).
Proof. exact strings_not_empty. Qed.
Print Assumptions C48_strings_not_empty.

Example C48_case : main_ 20 false (map lit ["judger"; "--exe_path=/x"; "--args="]%string) =
  Some (Val (Errors [mkErr None ARG_EMISSARG (Some (lit "--args="))])).
Proof. vm_compute. reflexivity. Qed.

(** ** C49: number of errors *)
Theorem C49_bounded : forall posix prog ws errs, Forall c_string ws ->
  does posix (prog :: ws) (Val (Errors errs)) -> 1 <= List.length errs <= 10.
Proof.
  intros posix prog ws errs C D. destruct (does_reads posix prog ws _ C D) as (es & r & R & _).
  destruct (does_errors posix prog ws es r C R errs D) as (_ & _ & _ & _ & N & L). split; [|exact L].
  destruct errs; [congruence|cbn; lia].
Qed.
Print Assumptions C49_bounded.

(** Errors are reported exactly when something is wrong. *)
Theorem C49_positive_iff : forall posix prog ws es r, Forall c_string ws ->
  reads judger_names posix ws es r -> harmless es -> ~ mentions es "help" -> ~ mentions es "version" ->
  ((exists errs, does posix (prog :: ws) (Val (Errors errs))) <-> ~ faultless es r).
Proof.
  intros posix prog ws es r C R H X Y. split.
  - intros (errs & D). exact (proj1 (does_errors posix prog ws es r C R errs D)).
  - intros F. destruct (faulty posix prog ws es r C R F H X Y) as (errs & D & _). eauto.
Qed.
Print Assumptions C49_positive_iff.

(** The marker: with more than ten faults the first nine are kept. *)
Theorem C49_marker : forall posix prog ws es r acc fs,
  Forall c_string ws -> reads judger_names posix ws es r -> harmless es -> occurs [] es acc fs ->
  ~ mentions es "help" -> ~ mentions es "version" -> 10 < List.length (all_faults acc fs r) ->
  does posix (prog :: ws) (Val (Errors (map coded (firstn 9 (all_faults acc fs r) ++ [MoreFaults])))).
Proof.
  intros posix prog ws es r acc fs C R H O X Y L.
  assert (all_faults acc fs r <> []) as N by (intros E; rewrite E in L; cbn in L; lia).
  pose proof (C41_reported posix prog ws es r acc fs C R H O X Y N) as D. unfold first_ten in D.
  destruct (Nat.leb_spec (List.length (all_faults acc fs r)) 10); [lia|exact D].
Qed.
Print Assumptions C49_marker.

Example C49_case : exists e, main_ 20 false (lit "judger" :: repeat (lit "--nope") 12) =
  Some (Val (Errors (repeat e 9 ++ [mkErr None ARG_ELIMIT None]))).
Proof. eexists. vm_compute. reflexivity. Qed.
