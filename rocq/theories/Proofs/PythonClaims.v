(** The claims about the Python binding. *)
From Coq Require Import ZArith Bool List Ascii String Arith Lia.
From Verif.Base Require Import CInt CStr.
From Verif.Model Require Import Config ArgInt Argtable Main Messages Python.
From Verif.Spec Require Import IntText CmdLine Invocation PythonSpec.
From Verif.Proofs Require Import ArgIntProofs ArgIntClaims DecimalFacts InvocationProofs MainProofs InvocationClaims CommandClaims PythonProofs.
Import ListNotations.
Open Scope list_scope.
Open Scope nat_scope.

Lemma existsb_nul ws : existsb has_nul ws = false <-> Forall c_string ws.
Proof.
  assert (forall s, has_nul s = false <-> c_string s) as H.
  { intros s. unfold has_nul, c_string, no_char. rewrite <- not_true_iff_false, existsb_exists. split.
    - intros N I. apply N. exists "000"%char. split; [exact I|reflexivity].
    - intros N (x & I & E). apply Ascii.eqb_eq in E. subst. apply N. exact I. }
  induction ws as [|w ws IH]; cbn [existsb]; [split; constructor|]. rewrite orb_false_iff, H, IH. split.
  - intros [A B]. constructor; assumption.
  - intros F. apply Forall_cons_iff in F. exact F.
Qed.

Lemma word_c t : c_string (i_text t) -> (c_string (word_of t) <-> c_string (i_value t)).
Proof.
  intros C. unfold word_of, setting_word, c_string, no_char in *. cbn [fst snd]. rewrite !in_app_iff. cbn. intuition discriminate.
Qed.
Lemma words_c ts : Forall proper ts -> (Forall c_string (map word_of ts) <-> forall t, In t ts -> c_string (i_value t)).
Proof.
  intros F. rewrite Forall_forall in F. rewrite Forall_forall. split.
  - intros H t I. destruct (F t I) as (_ & _ & _ & _ & C). apply (word_c t C). apply H. apply in_map, I.
  - intros H w I. apply in_map_iff in I. destruct I as (t & <- & I). destruct (F t I) as (_ & _ & _ & _ & C). apply (word_c t C), H, I.
Qed.

Lemma command_items vars p : passes vars p ->
  command vars = if existsb has_nul (map word_of (items p)) then None else Some (judger_path :: map word_of (items p)).
Proof.
  intros P. unfold command. rewrite (proc_args_items vars p P). cbn [then_ existsb].
  change (has_nul judger_path) with false. reflexivity.
Qed.

(** ** Harmless and faultless *)
Lemma items_harmless p : harmless (map event_of (items p)).
Proof.
  intros (es1 & n & v & w & es2 & acc & fs & m & E & _ & I & _ & N).
  assert (In (Given n (Some v) w) (map event_of (items p))) as J by (rewrite E; apply in_or_app; right; left; reflexivity).
  apply in_map_iff in J. destruct J as (t & Et & J). injection Et as En Ev _. apply items_in in J.
  destruct J as [s J|s J|n' z J Nz|n' s J|s Er Ns]; cbn [same i_name i_value] in En, Ev; subst.
  - assert (In (mkOpt (lit "args") Text 255) judger_options) as X by in_options. destruct (option_unique _ _ _ _ _ I X). discriminate.
  - assert (In (mkOpt (lit "env") Text 255) judger_options) as X by in_options. destruct (option_unique _ _ _ _ _ I X). discriminate.
  - exact (fmt_d_not_negated z N).
  - pose proof (proj2 (str_valued p n' v J)) as X. destruct (option_unique _ _ _ _ _ I X). discriminate.
  - assert (In (mkOpt (lit "seccomp_rule_name") Text 1) judger_options) as X by in_options. destruct (option_unique _ _ _ _ _ I X). discriminate.
Qed.

(** The conditions other than null bytes, with one more argument. *)
Definition sound_ (p : py_call) : Prop :=
  (forall n z, In (n, z) (ints_of p) -> is_int z) /\ (forall n s, In (n, s) (strs_of p) -> s <> []) /\
  Forall (fun s => s <> []) (y_args p) /\ Forall (fun s => s <> []) (y_env p) /\
  List.length (y_args p) <= 255 /\ List.length (y_env p) <= 255.

Lemma given_py n p : given n (map event_of (items p)) = map Some (values n (items p)).
Proof. apply given_items. Qed.

Lemma In_some {A} (x : A) l : In (Some x) (map Some l) <-> In x l.
Proof. rewrite in_map_iff. split; [intros (y & E & I); congruence|intros I; exists x; auto]. Qed.

Lemma number_names p n m : In (mkOpt n Number m) judger_options -> exists n' z, n = lit n' /\ In (n', z) (ints_of p).
Proof.
  intros I.
  assert (In n (map (fun x => lit (fst x)) (ints_of p))) as H.
  { cbn [judger_options In] in I. unfold opt_ in I.
    repeat (destruct I as [I|I]; [try discriminate I; apply (f_equal o_name) in I; cbn [o_name] in I; rewrite <- I; unfold ints_of; cbn [map fst In]; tauto|]).
    destruct I. }
  apply in_map_iff in H. destruct H as ([n' z] & <- & K). exists n', z. auto.
Qed.

Lemma one_int p n z : In (n, z) (ints_of p) -> List.length (values (lit n) (items p)) <= 1.
Proof. intros I. rewrite (values_int p n z I). destruct (z =? -1)%Z; cbn; lia. Qed.
Lemma one_str p n s : In (n, s) (strs_of p) -> List.length (values (lit n) (items p)) <= 1.
Proof. intros I. rewrite (values_str p n s I). cbn; lia. Qed.

Lemma most_values p n k m : In (mkOpt n k m) judger_options -> n <> lit "args" -> n <> lit "env" ->
  List.length (values n (items p)) <= 1 /\ m = 1.
Proof.
  intros I Na Ne. cbn [judger_options In] in I. unfold opt_ in I.
  repeat (destruct I as [I|I]; [pose proof (f_equal o_name I) as E1; pose proof (f_equal o_most I) as E2; cbn [o_name o_most] in E1, E2;
    clear I; first [exfalso; apply Na; symmetry; exact E1|exfalso; apply Ne; symmetry; exact E1|rewrite <- E1, <- E2; clear; split; [|reflexivity]]|]);
    [..|destruct I].
  1-2: match goal with |- context [values (lit ?n)] => rewrite (values_flag p n 1) by in_options end; cbn; lia.
  all: first [rewrite values_rule_name; destruct (y_seccomp_rule_name p) as [[|c s]|]; cbn; lia|
    solve [eapply one_int; unfold ints_of; cbn [In]; repeat (try (left; reflexivity); right)]|
    solve [eapply one_str; unfold strs_of; cbn [In]; repeat (try (left; reflexivity); right)]].
Qed.

Lemma faultless_py p : faultless (map event_of (items p)) [] <-> sound_ p.
Proof.
  split.
  - intros (_ & F2 & F3 & F4 & F5).
    assert (forall t, In t (items p) -> i_value t <> []) as Ne.
    { intros t I E. destruct (F2 (event_of t)) as (n & v & w & Ev & N); [apply in_map, I|]. unfold event_of in Ev. rewrite E in Ev. injection Ev as _ Ev _. rewrite <- Ev in N. apply N. reflexivity. }
    split; [|split; [|split; [|split; [|split]]]].
    + intros n z I. destruct (Z.eq_dec z (-1)) as [->|N]; [unfold is_int; lia|].
      destruct (int_valued p n z I) as [_ O].
      destruct (F3 (lit n) 1 (fmt_d z) O) as (v & T & R).
      * rewrite given_py, In_some, (values_int p n z I). destruct (Z.eqb_spec z (-1)); [contradiction|]. left. reflexivity.
      * rewrite <- (fmt_d_only z v T R). exact R.
    + intros n s I. apply (Ne (same n s)). apply items_in. constructor. exact I.
    + apply Forall_forall. intros s I. apply (Ne (same "args" s)). apply items_in. constructor. exact I.
    + apply Forall_forall. intros s I. apply (Ne (same "env" s)). apply items_in. constructor. exact I.
    + specialize (F4 (lit "args") Text 255 ltac:(in_options)). rewrite given_py, map_length, values_args in F4. exact F4.
    + specialize (F4 (lit "env") Text 255 ltac:(in_options)). rewrite given_py, map_length, values_env in F4. exact F4.
  - intros (Hi & Hs & Ha & He & La & Le). rewrite Forall_forall in Ha, He. split; [reflexivity|].
    split; [|split; [|split]].
    + intros e I. apply in_map_iff in I. destruct I as (t & <- & I). eexists _, _, _. split; [reflexivity|].
      intros E. injection E as E. apply items_in in I. destruct I as [s I|s I|n z I N|n s I|s Er N]; cbn [same i_value] in E.
      * exact (Ha s I E).
      * exact (He s I E).
      * exact (fmt_d_nonempty z E).
      * exact (Hs n s I E).
      * exact (N E).
    + intros n m v I J. rewrite given_py, In_some in J. destruct (number_names p n m I) as (n' & z & -> & K).
      rewrite (values_int p n' z K) in J. destruct (z =? -1)%Z; [destruct J|]. destruct J as [<-|[]].
      exists z. split; [apply fmt_d_int|]; exact (Hi n' z K).
    + intros n k m I. rewrite given_py, map_length.
      destruct (list_eq_dec Ascii.ascii_dec n (lit "args")) as [->|Na].
      { assert (In (mkOpt (lit "args") Text 255) judger_options) as X by in_options. destruct (option_unique _ _ _ _ _ I X) as [_ ->]. rewrite values_args. exact La. }
      destruct (list_eq_dec Ascii.ascii_dec n (lit "env")) as [->|Nv].
      { assert (In (mkOpt (lit "env") Text 255) judger_options) as X by in_options. destruct (option_unique _ _ _ _ _ I X) as [_ ->]. rewrite values_env. exact Le. }
      destruct (most_values p n k m I Na Nv) as [L ->]. exact L.
    + rewrite given_py, map_length, (values_str p "exe_path" (y_exe_path p)); [reflexivity|]. left. reflexivity.
Qed.

(** ** Null bytes *)
Definition clean (p : py_call) : Prop :=
  (forall n s, In (n, s) (strs_of p) -> c_string s) /\ Forall c_string (y_args p) /\ Forall c_string (y_env p) /\
  match y_seccomp_rule_name p with Some s => c_string s | None => True end.

Lemma words_clean p : Forall c_string (map word_of (items p)) <-> clean p.
Proof.
  rewrite (words_c _ (items_proper p)). split.
  - intros H. split; [|split; [|split]].
    + intros n s I. apply (H (same n s)). apply items_in. constructor. exact I.
    + apply Forall_forall. intros s I. apply (H (same "args" s)). apply items_in. constructor. exact I.
    + apply Forall_forall. intros s I. apply (H (same "env" s)). apply items_in. constructor. exact I.
    + destruct (y_seccomp_rule_name p) as [[|c s]|] eqn:E; [intros []| |exact Logic.I].
      apply (H (mkItem (lit "seccomp_rule") (lit "seccomp_rule_name") (c :: s))). apply items_in. constructor; [exact E|discriminate].
  - intros (Hs & Ha & He & Hr) t I. rewrite Forall_forall in Ha, He. apply items_in in I.
    destruct I as [s I|s I|n z I N|n s I|s Er N]; cbn [same i_value].
    + exact (Ha s I).
    + exact (He s I).
    + apply fmt_d_c.
    + exact (Hs n s I).
    + rewrite Er in Hr. exact Hr.
Qed.

Lemma valid_iff p : valid p <-> sound_ p /\ clean p /\ List.length (y_args p) <= 254.
Proof.
  unfold valid, sound_, clean, usable. split.
  - intros (Hi & Hs & Ha & He & La & Le & Hr).
    split; [split; [exact Hi|]; split; [|split; [|split; [|split; [lia|exact Le]]]]|split; [|exact La]].
    + intros n s I. apply (Hs n s I).
    + eapply Forall_impl; [|exact Ha]; intros s X; apply X.
    + eapply Forall_impl; [|exact He]; intros s X; apply X.
    + split; [|split; [|split; [|exact Hr]]].
      * intros n s I. apply (Hs n s I).
      * eapply Forall_impl; [|exact Ha]; intros s X; apply X.
      * eapply Forall_impl; [|exact He]; intros s X; apply X.
  - intros ((Hi & Hs & Ha & He & La & Le) & (Cs & Ca & Ce & Cr) & L). rewrite Forall_forall in Ha, He, Ca, Ce.
    split; [exact Hi|]. split; [intros n s I; split; [exact (Hs n s I)|exact (Cs n s I)]|].
    split; [apply Forall_forall; intros s I; split; auto|]. split; [apply Forall_forall; intros s I; split; auto|]. auto.
Qed.

(** ** The configuration *)
Lemma taken_number acc n z : Forall2 (meaning Number) (map Some (if (z =? -1)%Z then [] else [fmt_d z])) (taken (lit n) acc) ->
  forall d, number_of acc n d = if (z =? -1)%Z then d else z.
Proof.
  intros F d. unfold number_of. destruct (z =? -1)%Z; cbn [map] in F.
  - inversion F. reflexivity.
  - inversion F as [|v x vs xs M F' Ev Ex]; subst. destruct x; cbn in M; try contradiction. destruct M as [T R]. exact (fmt_d_only z _ T R).
Qed.
Lemma taken_text acc n s : Forall2 (meaning Text) (map Some [s]) (taken (lit n) acc) -> forall d, text_of acc n d = Some s.
Proof.
  intros F d. unfold text_of. cbn [map] in F. inversion F as [|v x vs xs M F' Ev Ex]; subst.
  destruct x; cbn in M; try contradiction. congruence.
Qed.
Lemma taken_none acc n : Forall2 (meaning Text) [] (taken (lit n) acc) -> forall d, text_of acc n d = d.
Proof. intros F d. unfold text_of. inversion F. reflexivity. Qed.
Lemma taken_texts acc n l : Forall2 (meaning Text) (map Some l) (taken (lit n) acc) -> texts (taken (lit n) acc) = l.
Proof. intros F. apply meaning_texts in F. revert F. generalize (texts (taken (lit n) acc)). induction l; intros [|x xs] E; cbn in E; congruence || (injection E; intros; f_equal; auto; symmetry; auto). Qed.

Lemma asked p c : configured_by (map event_of (items p)) c -> asks_for p c.
Proof.
  intros (acc & Cf & M). unfold configured in Cf.
  destruct Cf as (E1 & E2 & E3 & E4 & E5 & E6 & E7 & E8 & E9 & E10 & E11 & E12 & E13 & E14 & E15 & E16 & E17).
  assert (forall n z, In (n, z) (ints_of p) -> forall d, number_of acc n d = if (z =? -1)%Z then d else z) as Nu.
  { intros n z I. apply taken_number. rewrite <- (values_int p n z I), <- given_py. apply (M (lit n) Number 1). apply (int_valued p n z I). }
  assert (forall n s, In (n, s) (strs_of p) -> forall d, text_of acc n d = Some s) as Te.
  { intros n s I. apply taken_text. rewrite <- (values_str p n s I), <- given_py. apply (M (lit n) Text 1). apply (str_valued p n s I). }
  assert (texts (taken (lit "args") acc) = y_args p) as Ta.
  { apply taken_texts. rewrite <- values_args, <- given_py. apply (M (lit "args") Text 255). in_options. }
  assert (texts (taken (lit "env") acc) = y_env p) as Tv.
  { apply taken_texts. rewrite <- values_env, <- given_py. apply (M (lit "env") Text 255). in_options. }
  assert (text_of acc "seccomp_rule_name" None = match y_seccomp_rule_name p with Some [] => None | r => r end) as Tr.
  { pose proof (M (lit "seccomp_rule_name") Text 1 ltac:(in_options)) as F. rewrite given_py, values_rule_name in F.
    destruct (y_seccomp_rule_name p) as [[|c0 s]|]; [exact (taken_none acc "seccomp_rule_name" F None)|exact (taken_text acc "seccomp_rule_name" _ F None)|exact (taken_none acc "seccomp_rule_name" F None)]. }
  rewrite (Nu "max_cpu_time"%string (y_max_cpu_time p)) in E1 by (cbn; tauto).
  rewrite (Nu "max_real_time"%string (y_max_real_time p)) in E2 by (cbn; tauto).
  rewrite (Nu "max_memory"%string (y_max_memory p)) in E3 by (cbn; tauto).
  rewrite (Nu "max_stack"%string (y_max_stack p)) in E4 by (cbn; tauto).
  rewrite (Nu "max_process_number"%string (y_max_process_number p)) in E5 by (cbn; tauto).
  rewrite (Nu "max_output_size"%string (y_max_output_size p)) in E6 by (cbn; tauto).
  rewrite (Nu "memory_limit_check_only"%string (y_memory_limit_check_only p)) in E7 by (cbn; tauto).
  rewrite (Nu "uid"%string (y_uid p)) in E16 by (cbn; tauto).
  rewrite (Nu "gid"%string (y_gid p)) in E17 by (cbn; tauto).
  rewrite (Te "exe_path"%string (y_exe_path p)) in E8 by (cbn; tauto).
  rewrite (Te "input_path"%string (y_input_path p)) in E9 by (cbn; tauto).
  rewrite (Te "output_path"%string (y_output_path p)) in E10 by (cbn; tauto).
  rewrite (Te "error_path"%string (y_error_path p)) in E11 by (cbn; tauto).
  rewrite (Te "log_path"%string (y_log_path p)) in E14 by (cbn; tauto).
  injection E8 as E8. injection E14 as E14. rewrite Ta, E8 in E12. rewrite Tv in E13. rewrite Tr in E15.
  assert (forall z, (if (z =? -1)%Z then (-1)%Z else z) = z) as D by (intros z; destruct (Z.eqb_spec z (-1)); congruence).
  rewrite D in *. unfold asks_for, or_default. repeat (split; [first [assumption|congruence]|]); assumption.
Qed.

(** ** What a call does *)
Section Call.
Variables (posix : bool) (vars : locals) (p : py_call).
Hypothesis P : passes vars p.
Let ws := map word_of (items p).
Let es := map event_of (items p).

Lemma py_reads : reads judger_names posix ws es [].
Proof. apply items_read, items_proper. Qed.
Lemma py_no_help : ~ mentions es "help".
Proof. apply (items_no_flag p "help" 1). in_options. Qed.
Lemma py_no_version : ~ mentions es "version".
Proof. apply (items_no_flag p "version" 1). in_options. Qed.
Lemma py_args : List.length (given (lit "args") es) = List.length (y_args p).
Proof. unfold es. rewrite given_py, map_length, values_args. reflexivity. Qed.

Lemma py_started argv : command vars = Some argv <-> clean p /\ argv = judger_path :: ws.
Proof.
  rewrite (command_items vars p P). fold ws. destruct (existsb has_nul ws) eqn:E.
  - split; [discriminate|]. intros [C _]. apply words_clean, existsb_nul in C. unfold ws in E. congruence.
  - apply existsb_nul in E. unfold ws in E. apply words_clean in E. split; [intros X; injection X as <-; auto|intros [_ ->]; reflexivity].
Qed.
Lemma py_not_started : command vars = None <-> ~ clean p.
Proof.
  split.
  - intros N C. assert (command vars = Some (judger_path :: ws)) by (apply py_started; auto). congruence.
  - intros N. destruct (command vars) as [argv|] eqn:E; [|reflexivity]. apply py_started in E. tauto.
Qed.

Theorem py_valid : valid p -> exists argv c, command vars = Some argv /\ does posix argv (Val (Run c)) /\ asks_for p c.
Proof.
  intros V. apply valid_iff in V. destruct V as (S & C & L). pose proof (proj2 (words_clean p) C) as W.
  destruct (runs posix judger_path ws es [] W py_reads) as (c & D & Cf).
  - apply faultless_py, S.
  - exact py_no_help.
  - exact py_no_version.
  - rewrite py_args. exact L.
  - exists (judger_path :: ws), c. split; [apply py_started; auto|]. split; [exact D|apply asked, Cf].
Qed.

Theorem py_only argv c : command vars = Some argv -> does posix argv (Val (Run c)) -> valid p /\ asks_for p c.
Proof.
  intros E D. apply py_started in E. destruct E as [C ->]. pose proof (proj2 (words_clean p) C) as W.
  destruct (does_run posix judger_path ws es [] W py_reads c D) as (F & Cf & _ & _ & L).
  apply faultless_py in F. rewrite py_args in L. split; [apply valid_iff; auto|apply asked, Cf].
Qed.

Theorem py_invalid : ~ valid p ->
  command vars = None \/
  exists argv, command vars = Some argv /\
    ((exists errs, does posix argv (Val (Errors errs)) /\ errs <> [] /\ List.length errs <= 10) \/
     (List.length (y_args p) = 255 /\ does posix argv UB)).
Proof.
  intros N. destruct (command vars) as [argv|] eqn:E; [right|left; reflexivity]. exists argv. split; [reflexivity|].
  apply py_started in E. destruct E as [C ->]. pose proof (proj2 (words_clean p) C) as W.
  destruct (faultless_dec posix ws es [] py_reads (items_harmless p)) as [F|F].
  - right. pose proof (proj1 (faultless_py p) F) as S.
    assert (List.length (y_args p) = 255) as L.
    { destruct (le_lt_dec (List.length (y_args p)) 254) as [Le|Gt].
      - destruct N. apply valid_iff. auto.
      - destruct S as (_ & _ & _ & _ & S & _). lia. }
    split; [exact L|]. apply (full_args posix judger_path ws es [] W py_reads F py_no_help py_no_version). rewrite py_args. exact L.
  - left. apply (faulty posix judger_path ws es [] W py_reads F (items_harmless p) py_no_help py_no_version).
Qed.
End Call.
