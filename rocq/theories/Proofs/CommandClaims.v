(** The properties of command lines. *)
From Coq Require Import ZArith Bool List Ascii String Arith Lia.
From Verif.Base Require Import CInt CStr.
From Verif.Model Require Import Config ArgInt Permute Getopt Argtable Main.
From Verif.Spec Require Import IntText CmdLine Invocation.
From Verif.Proofs Require Import ArgIntClaims PermuteProofs GetoptLong GetoptProofs ParseSim InvocationProofs MainProofs InvocationClaims.
Import ListNotations.
Open Scope list_scope.
Open Scope nat_scope.

(** ** One result *)
Lemma tagged_mono posix o los em : forall n p r, tagged_loop n posix o los em p = Some r ->
  forall m, tagged_loop (m + n) posix o los em p = Some r.
Proof.
  induction n as [|n IH]; intros p r H m; [discriminate|].
  rewrite Nat.add_succ_r. cbn [tagged_loop] in *. destruct (getopt_long posix o los (p_get p)) as [[x g]|]; [|exact H].
  destruct (r_code x =? DONE)%Z; [exact H|]. destruct (tagged_step em x _) as [p1|]; [|exact H]. apply IH. exact H.
Qed.

Lemma main_mono posix argv n a : main_ n posix argv = Some a -> forall m, main_ (m + n) posix argv = Some a.
Proof.
  unfold main_, arg_parse. destruct argv as [|w ws]; [auto|]. intros H m. unfold arg_parse_tagged in *.
  destruct (tagged_loop n posix _ _ _ _) as [x|] eqn:E; [|discriminate]. rewrite (tagged_mono _ _ _ _ _ _ _ E m). exact H.
Qed.

Theorem does_unique posix argv a b : does posix argv a -> does posix argv b -> a = b.
Proof.
  intros (n & A) (m & B). pose proof (main_mono _ _ _ _ A m) as A'. pose proof (main_mono _ _ _ _ B n) as B'.
  rewrite Nat.add_comm in B'. congruence.
Qed.

Lemma ends_does posix argv n a : (forall fuel, n <= fuel -> main_ fuel posix argv = Some a) -> does posix argv a.
Proof. intros H. exists n. apply H. lia. Qed.

(** Every command line that ends was read. *)
Lemma does_reads posix prog ws x : Forall c_string ws -> does posix (prog :: ws) (Val x) ->
  exists es r, reads judger_names posix ws es r /\ harmless es.
Proof.
  intros C D.
  assert ((exists es r, reads judger_names posix ws es r) \/ (exists es, stuck_after judger_names posix ws es)) as [(es & r & R)|(es & S)].
  { rewrite <- los_options. apply reads_total. exact los_fine. }
  - exists es, r. split; [exact R|]. intros U. destruct (main_undefined posix prog ws es r C R U) as (n & M).
    pose proof (does_unique _ _ _ _ D (ends_does _ _ _ _ M)). discriminate.
  - exfalso.
    assert (~ undefined es \/ apply_events los EM es (table_of [], []) = UB) as [H|U].
    { destruct (apply_events los EM es (table_of [], [])) as [y|] eqn:E; [left|right; reflexivity].
      intros (es1 & n & v & w & es2 & acc & fs & m & -> & O & I & L & Nm).
      pose proof (events_undefined es1 n m v w es2 [] acc fs [] (stuck_good _ _ _ S) within_nil O I L Nm) as U.
      change (bounded EM []) with (@nil perror) in U. congruence. }
    + destruct D as (n & D). rewrite (main_stuck posix prog ws es C S H) in D. discriminate.
    + rewrite <- los_options in S.
      pose proof (stuck_sim los posix EM los_fine ws es S _ [] (table_of []) [] (start_Rg prog ws) (fun _ => eq_refl) C) as X.
      rewrite U in X. destruct X as (n & F).
      assert (does posix (prog :: ws) UB) as D2.
      { exists n. unfold main_, arg_parse. change (arg_reset arg_table) with (table_of []). change end_max with EM.
        unfold arg_parse_tagged. change (alloc_shortoptions (table_of [])) with (lit ":").
        change (alloc_longoptions 0 (table_of [])) with los.
        rewrite start_loop, F by lia. reflexivity. }
      pose proof (does_unique _ _ _ _ D D2). discriminate.
Qed.

Section Command.
Variables (posix : bool) (prog : str) (ws : list str) (es : list event) (r : list str).
Hypothesis C : Forall c_string ws.
Hypothesis R : reads judger_names posix ws es r.

Theorem does_cases : harmless es -> exists a, does posix (prog :: ws) a /\
    (mentions es "help" -> a = Val Usage) /\
    (~ mentions es "help" -> mentions es "version" -> a = Val Version) /\
    (~ mentions es "help" -> ~ mentions es "version" ->
       (~ faultless es r -> exists errs, a = Val (Errors errs) /\ errs <> [] /\ len errs <= 10) /\
       (faultless es r -> len (given (lit "args") es) <= 254 -> exists c, a = Val (Run c) /\ configured_by es c) /\
       (faultless es r -> len (given (lit "args") es) = 255 -> a = UB)).
Proof.
  intros H. destruct (main_cases posix prog ws es r C R H) as (n & a & M & A). exists a. split; [apply (ends_does _ _ _ _ M)|exact A].
Qed.

Lemma mentions_dec n m : In (mkOpt (lit n) Flag m) judger_options -> mentions es n \/ ~ mentions es n.
Proof.
  intros _. unfold mentions. clear. induction es as [|e l IH]; [right; intros (v & w & [])|].
  destruct IH as [(v & w & I)|N]; [left; exists v, w; right; exact I|].
  destruct e as [n' v w|w|w|c].
  2-4: right; intros (v & w' & [E|I]); [discriminate|apply N; eauto].
  destruct (list_eq_dec ascii_dec n' (lit n)) as [->|Ne]; [left; exists v, w; left; reflexivity|].
  right; intros (v' & w' & [E|I]); [congruence|apply N; eauto].
Qed.

Lemma help_dec : mentions es "help" \/ ~ mentions es "help".
Proof. apply (mentions_dec "help" 1). in_options. Qed.
Lemma version_dec : mentions es "version" \/ ~ mentions es "version".
Proof. apply (mentions_dec "version" 1). in_options. Qed.

Lemma faultless_dec : harmless es -> faultless es r \/ ~ faultless es r.
Proof.
  intros H. destruct (occurs_exists _ _ _ _ R H) as (acc & fs & O).
  destruct (good_occurs es acc fs (reads_good _ _ _ _ R) H O) as [W _].
  destruct (all_faults acc fs r) eqn:E; [left|right]; [apply (faultless_iff es acc fs r W O); exact E|].
  intros F. apply (faultless_iff es acc fs r W O) in F. congruence.
Qed.

Lemma is_harmless x : does posix (prog :: ws) (Val x) -> harmless es.
Proof.
  intros D U. destruct (main_undefined posix prog ws es r C R U) as (n & M).
  pose proof (does_unique _ _ _ _ D (ends_does _ _ _ _ M)). discriminate.
Qed.

Lemma args_most : faultless es r -> len (given (lit "args") es) <= 255.
Proof. intros (_ & _ & _ & L & _). apply (L (lit "args") Text 255). in_options. Qed.

Theorem does_run c : does posix (prog :: ws) (Val (Run c)) ->
  faultless es r /\ configured_by es c /\ ~ mentions es "help" /\ ~ mentions es "version" /\ len (given (lit "args") es) <= 254.
Proof.
  intros D. pose proof (is_harmless _ D) as H. destruct (does_cases H) as (a & D2 & A1 & A2 & A3).
  pose proof (does_unique _ _ _ _ D D2) as <-. clear D2.
  destruct help_dec as [X|X]; [specialize (A1 X); discriminate|].
  destruct version_dec as [Y|Y]; [specialize (A2 X Y); discriminate|].
  destruct (A3 X Y) as (B1 & B2 & B3).
  destruct (faultless_dec H) as [F|F]; [|destruct (B1 F) as (errs & E & _); discriminate].
  pose proof (args_most F) as L.
  destruct (Nat.eq_dec (len (given (lit "args") es)) 255) as [E|E]; [specialize (B3 F E); discriminate|].
  destruct (B2 F) as (c' & E' & Cf); [lia|]. injection E' as <-. repeat split; auto; try lia; apply F.
Qed.

Theorem runs : faultless es r -> ~ mentions es "help" -> ~ mentions es "version" -> len (given (lit "args") es) <= 254 ->
  exists c, does posix (prog :: ws) (Val (Run c)) /\ configured_by es c.
Proof.
  intros F X Y L. destruct (does_cases (faultless_harmless _ _ F)) as (a & D & _ & _ & A).
  destruct (A X Y) as (_ & B & _). destruct (B F L) as (c & -> & Cf). eauto.
Qed.

Theorem full_args : faultless es r -> ~ mentions es "help" -> ~ mentions es "version" -> len (given (lit "args") es) = 255 ->
  does posix (prog :: ws) UB.
Proof.
  intros F X Y L. destruct (does_cases (faultless_harmless _ _ F)) as (a & D & _ & _ & A).
  destruct (A X Y) as (_ & _ & B). rewrite (B F L) in D. exact D.
Qed.

Theorem faulty : ~ faultless es r -> harmless es -> ~ mentions es "help" -> ~ mentions es "version" ->
  exists errs, does posix (prog :: ws) (Val (Errors errs)) /\ errs <> [] /\ len errs <= 10.
Proof.
  intros F H X Y. destruct (does_cases H) as (a & D & _ & _ & A).
  destruct (A X Y) as (B & _). destruct (B F) as (errs & -> & E). eauto.
Qed.

Theorem does_errors errs : does posix (prog :: ws) (Val (Errors errs)) ->
  ~ faultless es r /\ harmless es /\ ~ mentions es "help" /\ ~ mentions es "version" /\ errs <> [] /\ len errs <= 10.
Proof.
  intros D. pose proof (is_harmless _ D) as H. destruct (does_cases H) as (a & D2 & A1 & A2 & A3).
  pose proof (does_unique _ _ _ _ D D2) as <-. clear D2.
  destruct help_dec as [X|X]; [specialize (A1 X); discriminate|].
  destruct version_dec as [Y|Y]; [specialize (A2 X Y); discriminate|].
  destruct (A3 X Y) as (B1 & B2 & B3).
  destruct (faultless_dec H) as [F|F].
  - pose proof (args_most F) as L. exfalso.
    destruct (Nat.eq_dec (len (given (lit "args") es)) 255) as [E|E]; [specialize (B3 F E); discriminate|].
    destruct (B2 F) as (c' & E' & Cf); [lia|]. discriminate.
  - destruct (B1 F) as (errs' & E & E2). injection E as <-. tauto.
Qed.

Theorem does_help : harmless es -> mentions es "help" -> does posix (prog :: ws) (Val Usage).
Proof. intros H X. destruct (does_cases H) as (a & D & A & _). rewrite (A X) in D. exact D. Qed.
Theorem does_version : harmless es -> ~ mentions es "help" -> mentions es "version" -> does posix (prog :: ws) (Val Version).
Proof. intros H X Y. destruct (does_cases H) as (a & D & _ & A & _). rewrite (A X Y) in D. exact D. Qed.

Theorem does_only x : does posix (prog :: ws) (Val x) ->
  match x with
  | Usage => mentions es "help"
  | Version => ~ mentions es "help" /\ mentions es "version"
  | _ => ~ mentions es "help" /\ ~ mentions es "version"
  end.
Proof.
  intros D. pose proof (is_harmless _ D) as H. destruct (does_cases H) as (a & D2 & A1 & A2 & A3).
  pose proof (does_unique _ _ _ _ D D2) as <-. clear D2.
  destruct help_dec as [X|X]; [injection (A1 X) as ->; exact X|].
  destruct version_dec as [Y|Y]; [injection (A2 X Y) as ->; auto|].
  destruct x; auto; exfalso; destruct (A3 X Y) as (B1 & B2 & B3);
    (destruct (faultless_dec H) as [F|F]; [|destruct (B1 F) as (errs & E & _); discriminate]);
    pose proof (args_most F) as L;
    (destruct (Nat.eq_dec (len (given (lit "args") es)) 255) as [E|E]; [specialize (B3 F E); discriminate|]);
    (destruct (B2 F) as (c' & E' & Cf); [lia|discriminate]).
Qed.
End Command.

(** ** Vectors *)
Lemma meaning_texts vs xs : Forall2 (meaning Text) vs xs -> vs = map Some (texts xs).
Proof.
  intros F. induction F as [|v x vs xs M F IH]; [reflexivity|].
  destruct v as [v|], x; cbn in M; try (destruct M; fail). subst. cbn. congruence.
Qed.

Lemma run_vectors es c : configured_by es c -> len (given (lit "exe_path") es) = 1 ->
  exists xs ys, given (lit "exe_path") es = [Some (exe_path c)] /\
    given (lit "args") es = map Some xs /\ given (lit "env") es = map Some ys /\
    vector (exe_path c :: xs) (args c) /\ vector ys (env c).
Proof.
  intros (acc & Cf & M) L1. unfold configured in Cf. destruct Cf as (_ & _ & _ & _ & _ & _ & _ & Exe & _ & _ & _ & Va & Ve & _).
  assert (In (mkOpt (lit "args") Text 255) judger_options) as Ia by in_options.
  assert (In (mkOpt (lit "env") Text 255) judger_options) as Ie by in_options.
  assert (In (mkOpt (lit "exe_path") Text 1) judger_options) as Ix by in_options.
  exists (texts (taken (lit "args") acc)), (texts (taken (lit "env") acc)).
  split; [|split; [|split; [|auto]]].
  - pose proof (M _ _ _ Ix) as F. unfold text_of in Exe.
    destruct F as [|v x vs xs Mx F]; [discriminate|]. destruct v as [v|], x; cbn in Mx; try (destruct Mx; fail).
    subst. injection Exe as ->. cbn in L1. destruct vs; [reflexivity|discriminate].
  - apply meaning_texts. exact (M _ _ _ Ia).
  - apply meaning_texts. exact (M _ _ _ Ie).
Qed.

(** ** Only the events and the other words matter *)
Lemma alike_apply e e' st : alike e e' -> apply_event los EM e st = apply_event los EM e' st.
Proof.
  intros A. destruct A as [e|n w w'|n v w w' Nv]; [reflexivity|reflexivity|].
  destruct st as [t errs]. destruct v as [|x v]; [congruence|]. reflexivity.
Qed.

Lemma alike_events es es' : Forall2 alike es es' -> forall st, apply_events los EM es st = apply_events los EM es' st.
Proof.
  intros F. induction F as [|e e' es es' A F IH]; intros st; [reflexivity|]. cbn [apply_events].
  rewrite (alike_apply _ _ st A). destruct (apply_event los EM e' st); cbn [cbind]; auto.
Qed.

Definition ending (t : list entry) (errs : list perror) (r : list str) : cres action :=
  cbind (cbind (arg_parse_untagged EM (mkP t errs (mkG r 0 [] None None false))) (fun '(t, errs) =>
         Val (t, match errs with [] => arg_parse_check EM 0 t [] | _ => errs end)))
    (fun '(t, errs) =>
      if 0 <? count t I_help then Val Usage
      else if 0 <? count t I_version then Val Version
      else if 0 <? List.length errs then Val (Errors errs)
      else cbind (make_config t) (fun c => Val (Run c))).

Lemma main_function posix prog ws es r : Forall c_string ws -> reads judger_names posix ws es r ->
  does posix (prog :: ws) (cbind (apply_events los EM es (table_of [], [])) (fun '(t, errs) => ending t errs r)).
Proof.
  intros C R. rewrite <- los_options in R.
  destruct (reads_sim los posix EM los_fine ws es r R _ [] (table_of []) [] (start_Rg prog ws) (fun _ => eq_refl) C)
    as (g' & S & n & F). cbn [app] in S. exists n.
  unfold main_, arg_parse. change (arg_reset arg_table) with (table_of []). change end_max with EM.
  unfold arg_parse_tagged. change (alloc_shortoptions (table_of [])) with (lit ":").
  change (alloc_longoptions 0 (table_of [])) with los.
  rewrite start_loop, F by lia.
  destruct (apply_events los EM es (table_of [], [])) as [[t errs]|]; [|reflexivity]. cbn [cbind].
  unfold ending, arg_parse_untagged. cbn [p_get p_table p_errs g_optind g_argv skipn]. rewrite S. reflexivity.
Qed.

Theorem same_reading posix posix' prog prog' ws ws' es es' r a : Forall c_string ws -> Forall c_string ws' ->
  reads judger_names posix ws es r -> reads judger_names posix' ws' es' r -> Forall2 alike es es' ->
  (does posix (prog :: ws) a <-> does posix' (prog' :: ws') a).
Proof.
  intros C C' R R' A. pose proof (main_function posix prog ws es r C R) as D.
  pose proof (main_function posix' prog' ws' es' r C' R') as D'. rewrite (alike_events es es' A) in D.
  split; intros X.
  - rewrite (does_unique _ _ _ _ X D). exact D'.
  - rewrite (does_unique _ _ _ _ X D'). exact D.
Qed.

(** ** Names *)
Lemma value_written posix s n v ws es r : stands_for judger_names s n -> is_valued judger_names n -> no_char "="%char s ->
  reads judger_names posix ws es r ->
  reads judger_names posix (setting_word (s, v) :: ws) (Given n (Some v) (setting_word (s, v)) :: es) r.
Proof.
  intros St I Ne R. unfold setting_word. cbn [fst snd].
  change (lit "--" ++ s ++ lit "=" ++ v) with (lit "-" ++ [] ++ lit "-" ++ (s ++ lit "=" ++ v)).
  change (Given n (Some v) (lit "-" ++ [] ++ lit "-" ++ (s ++ lit "=" ++ v)) :: es) with
    (map Letter [] ++ Given n (Some v) (lit "-" ++ [] ++ lit "-" ++ s ++ lit "=" ++ v) :: es).
  apply (reads_long judger_names posix [] (s ++ lit "=" ++ v) ws _ ws es r).
  - intros [].
  - destruct s; discriminate.
  - apply (long_value_here judger_names _ _ ws s v n); [split; [exact Ne|reflexivity]|exact St|exact I].
  - exact R.
Qed.

Theorem abbreviation posix prog s n v ws es r a : stands_for judger_names s n -> is_valued judger_names n ->
  no_char "="%char s -> c_string s -> c_string v -> v <> [] -> Forall c_string ws -> reads judger_names posix ws es r ->
  (does posix (prog :: setting_word (s, v) :: ws) a <-> does posix (prog :: setting_word (n, v) :: ws) a).
Proof.
  intros St I Ne Cs Cv Nv C R. destruct (no_equal_names n true I) as (Ne2 & Cn & _).
  assert (forall x, c_string x -> c_string (setting_word (x, v))) as Cw.
  { intros x Cx. unfold setting_word, c_string, no_char in *. cbn [fst snd]. rewrite !in_app_iff.
    intros [[E|[E|[]]]|[E|[[E|[]]|E]]]; try discriminate; tauto. }
  assert (stands_for judger_names n n) as Sn.
  { split; [|left; reflexivity]. unfold names. apply in_map_iff. exists (n, true). auto. }
  eapply same_reading.
  - constructor; [apply Cw; exact Cs|exact C].
  - constructor; [apply Cw; exact Cn|exact C].
  - apply (value_written posix s n v ws es r St I Ne R).
  - apply (value_written posix n n v ws es r Sn I Ne2 R).
  - constructor; [apply alike_value; exact Nv|]. clear. induction es; constructor; [constructor|assumption].
Qed.

Lemma not_given_faulty es r e : In e es -> (forall n v w, e = Given n v w -> v = Some []) -> ~ faultless es r.
Proof. intros I N (_ & F & _). destruct (F e I) as (n & v & w & -> & Ne). apply Ne. eapply N. reflexivity. Qed.

(** getopt finds an option for a text with a value. *)
Theorem resolution s v k argv i : no_char "="%char s ->
  (parse_long_options (alloc_longoptions 0 arg_table) argv i (s ++ lit "=" ++ v) false = Val (mkRet 0 (Some v) 0 k, S i) <->
   exists n, stands_for judger_names s n /\ is_valued judger_names n /\ option_map o_name (nth_error judger_options k) = Some n) /\
  ((forall n, stands_for judger_names s n -> ~ is_valued judger_names n) ->
   parse_long_options (alloc_longoptions 0 arg_table) argv i (s ++ lit "=" ++ v) false = Val (mkRet BADCH None 0 0, S i)).
Proof.
  intros Ne. change (alloc_longoptions 0 arg_table) with los.
  assert (split_equal (s ++ lit "=" ++ v) = (s, Some v)) as Sp by (apply splits_unique; split; [exact Ne|reflexivity]).
  unfold parse_long_options. rewrite Sp.
  assert (forall o, lookup los s = Found o <-> In o los /\ stands_for judger_names s (lo_name o)) as Lk.
  { intros o. rewrite <- los_options. apply lookup_found. exact los_fine. }
  unfold lookup in Lk.
  assert (forall o, In o los -> (lo_has_arg o = 1 /\ is_valued judger_names (lo_name o) \/ lo_has_arg o = 0 /\ is_flag judger_names (lo_name o)) /\
            option_map o_name (nth_error judger_options (lo_val o)) = Some (lo_name o)) as Tab.
  { intros o H. unfold is_valued, is_flag. rewrite <- los_options. vm_compute in H.
    repeat (destruct H as [<-|H]; [split; [first [right; split; [reflexivity|]|left; split; [reflexivity|]]; vm_compute; repeat (first [left; reflexivity|right])|reflexivity]|]).
    destruct H. }
  assert (forall n, is_valued judger_names n -> is_flag judger_names n -> False) as VF.
  { intros n V F. apply valued_option in V. destruct V as (k1 & m1 & I1 & K1). apply flag_option in F. destruct F as (m2 & I2).
    destruct (option_unique _ _ _ _ _ I1 I2) as [-> _]. destruct K1; discriminate. }
  destruct (find_long s false los None false) as [[m ex] sec] eqn:Fl.
  assert (forall n, stands_for judger_names s n -> exists o, In o los /\ lo_name o = n) as Ex.
  { intros n (I & _). rewrite <- los_options in I. unfold names, options_of in I. rewrite map_map in I.
    apply in_map_iff in I. destruct I as (o & E & I). exists o. auto. }
  destruct (negb ex && sec) eqn:Es.
  - split; [|reflexivity]. split; [intros X; discriminate|].
    intros (n & St & _). destruct (Ex n St) as (o & Io & <-). assert (Several = Found o) as X by (apply Lk; auto). discriminate.
  - destruct m as [o|].
    + assert (In o los /\ stands_for judger_names s (lo_name o)) as [Io St] by (apply Lk; reflexivity).
      destruct (Tab o Io) as [[(Ha & V)|(Ha & V)] Nk]; rewrite Ha; cbn [Nat.eqb andb orb cbind].
      * split.
        -- split; [intros X; injection X as <-; eauto|]. intros (n & St2 & V2 & Nk2).
           destruct (Ex n St2) as (o2 & Io2 & <-). assert (Found o = Found o2) as X by (apply Lk; auto). injection X as <-.
           destruct (Tab o Io) as [_ T2].
           assert (k = lo_val o) as ->; [|reflexivity].
           { assert (NoDup (map o_name judger_options)) as ND.
             { vm_compute. repeat (constructor; [cbn [In]; intuition discriminate|]). constructor. }
             rewrite NoDup_nth_error in ND. apply ND.
             - rewrite map_length. apply nth_error_Some. destruct (nth_error judger_options k); discriminate.
             - rewrite !nth_error_map. congruence. }
        -- intros N. exfalso. exact (N _ St V).
      * split; [|reflexivity]. split; [intros X; discriminate|].
        intros (n & St2 & V2 & _). exfalso. destruct (Ex n St2) as (o2 & Io2 & <-).
        assert (Found o = Found o2) as X by (apply Lk; auto). injection X as <-. exact (VF _ V2 V).
    + split; [|reflexivity]. split; [intros X; discriminate|].
      intros (n & St & _). destruct (Ex n St) as (o & Io & <-). assert (None_ = Found o) as X by (apply Lk; auto). discriminate.
Qed.

Lemma other_words posix ws es r : reads judger_names posix ws es r -> forall w, In w r -> In w ws.
Proof.
  intros H. induction H as [|w ws es r Nw Px H IH|w ws Nw Px|ws|ls ws es r Ne Nd H IH|ls s ws e ws' es r Nd Ns LO H IH]; intros x Hx; auto.
  - destruct Hx as [->|Hx]; [left; reflexivity|right; auto].
  - right. exact Hx.
  - right. auto.
  - right. destruct LO; auto. right. auto.
Qed.

Lemma given_not_empty es r n : faultless es r -> ~ In (Some []) (given n es).
Proof.
  intros (_ & F & _) I. apply In_given in I. destruct I as (w & I). destruct (F _ I) as (n' & v & w' & E & Ne).
  injection E as _ <- _. congruence.
Qed.

Lemma text_not_empty es r acc n m d : faultless es r -> In (mkOpt (lit n) Text m) judger_options ->
  Forall2 (meaning Text) (given (lit n) es) (taken (lit n) acc) -> d <> Some [] -> text_of acc n d <> Some [].
Proof.
  intros F I M Nd. unfold text_of. pose proof (given_not_empty es r (lit n) F) as N.
  destruct M as [|v x vs xs Mx M]; [exact Nd|]. destruct v as [v|], x; cbn in Mx; try (destruct Mx; fail). subst.
  intros E. injection E as ->. apply N. left. reflexivity.
Qed.

Theorem strings_not_empty posix prog ws c : Forall c_string ws ->
  does posix (prog :: ws) (Val (Run c)) ->
  exe_path c <> [] /\ input_path c <> Some [] /\ output_path c <> Some [] /\ error_path c <> Some [] /\
  log_path c <> [] /\ seccomp_rule_name c <> Some [] /\ ~ In (Ptr []) (args c) /\ ~ In (Ptr []) (env c).
Proof.
  intros C D. destruct (does_reads posix prog ws _ C D) as (es & r & R & _).
  destruct (does_run posix prog ws es r C R c D) as (F & Cf & _).
  destruct (run_vectors es c Cf) as (xs & ys & G0 & G1 & G2 & V1 & V2); [apply F|].
  destruct Cf as (acc & Cf & M).
  assert (forall n m d, In (mkOpt (lit n) Text m) judger_options -> d <> Some [] -> text_of acc n d <> Some []) as T.
  { intros n m d I Nd. apply (text_not_empty es r acc n m d F I); [exact (M _ _ _ I)|exact Nd]. }
  unfold configured in Cf. destruct Cf as (_ & _ & _ & _ & _ & _ & _ & E1 & E2 & E3 & E4 & _ & _ & E5 & E6 & _).
  assert (forall ss a, vector ss a -> ~ In [] ss -> ~ In (Ptr []) a) as Vn.
  { intros ss a -> N I. apply in_app_or in I. destruct I as [I|[I|I]]; [|discriminate|apply repeat_spec in I; discriminate].
    apply in_map_iff in I. destruct I as (s & E & I). injection E as ->. exact (N I). }
  assert (exe_path c <> []) as Nx.
  { intros E. refine (T "exe_path"%string 1 None _ _ _); [in_options|discriminate|]. transitivity (Some (exe_path c)); [symmetry; exact E1|f_equal; exact E]. }
  split; [exact Nx|]. split; [rewrite E2; apply (T _ 1); [in_options|discriminate]|].
  split; [rewrite E3; apply (T _ 1); [in_options|discriminate]|]. split; [rewrite E4; apply (T _ 1); [in_options|discriminate]|].
  split; [intros E; refine (T "log_path"%string 1 (Some (lit "judger.log")) _ _ _); [in_options|discriminate|transitivity (Some (log_path c)); [symmetry; exact E5|f_equal; exact E]]|].
  split; [rewrite E6; apply (T _ 1); [in_options|discriminate]|]. split.
  - apply (Vn _ _ V1). intros [E|I]; [exact (Nx E)|]. apply (given_not_empty es r (lit "args") F). rewrite G1. apply in_map. exact I.
  - apply (Vn _ _ V2). intros I. apply (given_not_empty es r (lit "env") F). rewrite G2. apply in_map. exact I.
Qed.
