(** The text of the error report. *)
From Coq Require Import ZArith Bool List Ascii String Arith Lia NArith.
From Verif.Base Require Import CInt CStr CMem.
From Verif.Model Require Import Config ArgInt Getopt Argtable Main Dstr ArgCat Messages.
From Verif.Spec Require Import IntText CmdLine Invocation MessageSpec.
From Verif.Spec Require DstrSpec.
From Verif.Proofs Require Import DstrProofs ArgCatProofs InvocationProofs MainProofs InvocationClaims CommandClaims.
Import ListNotations.
Open Scope list_scope.
Open Scope nat_scope.

(** ** Appending only *)
Definition added (o : op) : str := match o with Cat s => s | Catc c => [c] | Catf _ s => s | _ => [] end.
Definition appender (o : op) : Prop :=
  match o with
  | Cat s => no_nul s
  | Catf n s => no_nul s /\ n < 100 /\ (len s < DstrSpec.LIMIT)%Z
  | _ => False
  end.

Lemma appenders_text os : Forall appender os -> DstrSpec.text_of os = List.concat (map added os).
Proof.
  unfold DstrSpec.text_of. intros F. rewrite <- (app_nil_l (List.concat _)). generalize (@nil ascii).
  induction F as [|o os H F IH]; intros t; cbn [fold_left map List.concat]; [rewrite app_nil_r; reflexivity|].
  rewrite IH, app_assoc. f_equal. destruct o; cbn [appender] in H; try contradiction; cbn [DstrSpec.text_after added]; auto.
  rewrite upto_id by apply H. reflexivity.
Qed.

Lemma through_dstr_appends r os s : r = Val os -> Forall appender os -> List.concat (map added os) = s ->
  (len s < DstrSpec.LIMIT)%Z -> through_dstr r = Val s.
Proof.
  intros -> F E L. unfold through_dstr. cbn [cbind].
  destruct (dstr_concatenates os) as (d & C & T & h & D & _).
  - eapply Forall_impl; [|exact F]. intros [| |n s'| | | | |] H; cbn in *; try tauto. unfold DstrSpec.LIMIT. intuition lia.
  - intros b a Eq. rewrite (appenders_text b).
    + subst. rewrite map_app, concat_app, len_app in L. pose proof (len_nonneg (List.concat (map added a))). lia.
    + subst. apply Forall_app in F. apply F.
  - rewrite C. cbn [cbind]. rewrite T. cbn [cbind]. rewrite D. cbn [cbind]. rewrite appenders_text, E; auto.
Qed.

(** ** One fault *)
Definition tame (s : str) : Prop := no_nul s /\ short s.
Definition sane (f : fault) : Prop :=
  match f with
  | UnknownOption w | MissingValue w | Stray w => tame w
  | NoSuchLetter c => c <> NUL /\ ordinary c
  | TooMany n None => exists m, In (mkOpt n Flag m) judger_options
  | TooMany n (Some v) => tame v /\ exists k m, k <> Flag /\ In (mkOpt n k m) judger_options
  | NotANumber n v | OutOfRange n v => tame v /\ exists m, In (mkOpt n Number m) judger_options
  | Required n => n = lit "exe_path"
  | MoreFaults => True
  end.

Lemma lit_no_nul s : forallb (fun c => negb (aeqb c NUL)) s = true -> no_nul s.
Proof.
  intros H I. rewrite forallb_forall in H. apply H in I. unfold aeqb in I. rewrite Ascii.eqb_refl in I. discriminate.
Qed.

Lemma name_facts n k m : In (mkOpt n k m) judger_options ->
  n <> [] /\ no_nul n /\ ~ In ","%char n /\ List.length n <= 30 /\
  placeholder n = match k with Flag => [] | Number => lit "=<n>" | Text => lit "=<str>" end.
Proof.
  intros H. cbn [judger_options In] in H.
  repeat (destruct H as [H|H]; [injection H as <- <- <-;
    split; [discriminate|split; [apply lit_no_nul; reflexivity|split;
      [let Q := fresh in intros Q; vm_compute in Q; intuition discriminate|split; [apply Nat.leb_le; reflexivity|reflexivity]]]]|]).
  destruct H.
Qed.

Lemma entry_fields i e : nth_error arg_table i = Some e -> e_short e = None /\ e_long e = Some (e_name e).
Proof. intros E. do 20 (destruct i as [|i]; [try discriminate E; injection E as <-; auto|]). destruct i; discriminate E. Qed.

Lemma fault_entry n k m : In (mkOpt n k m) judger_options ->
  exists i e, place_of n = Some i /\ nth_error arg_table i = Some e /\ e_kind e = akind_of k /\
    e_short e = None /\ e_long e = Some n /\
    datatype e = match k with Flag => None | Number => Some (lit "<n>") | Text => Some (lit "<str>") end.
Proof.
  intros H. destruct (option_entry n k m H) as (i & e & E1 & E2 & E3 & E4 & E5 & _).
  exists i, e. destruct (entry_fields i e E1) as [S L]. unfold place_of. rewrite E5.
  repeat (split; [solve [auto|congruence]|]). unfold datatype. rewrite E3. destruct k; reflexivity.
Qed.

(** What one error adds to the report. *)
Definition adds (r : cres (list op)) (s : str) : Prop :=
  exists os, r = Val os /\ Forall appender os /\ List.concat (map added os) = s.

Lemma adds_app r s os s' : adds r s -> Forall appender os -> List.concat (map added os) = s' ->
  adds (after os r) (s' ++ s).
Proof.
  intros (os' & -> & F & E) F' E'. exists (os ++ os'). split; [reflexivity|].
  split; [apply Forall_app; auto|]. rewrite map_app, concat_app, E, E'. reflexivity.
Qed.
Lemma adds_val os s : Forall appender os -> List.concat (map added os) = s -> adds (Val os) s.
Proof. intros. exists os. auto. Qed.

Ltac nul_free := repeat first
  [ apply no_nul_app; split
  | assumption
  | apply lit_no_nul; reflexivity
  | intros [?|[]]; discriminate
  | apply no_nul_cons; split
  | intros [] ].

Lemma described_text n k m e i : In (mkOpt n k m) judger_options -> nth_error arg_table i = Some e ->
  e_short e = None -> e_long e = Some n ->
  datatype e = match k with Flag => None | Number => Some (lit "<n>") | Text => Some (lit "<str>") end ->
  option_text (e_short e) (e_long e) (datatype e) = Val (described n).
Proof.
  intros H _ -> -> ->. destruct (name_facts n k m H) as (Ne & Nn & Nc & L & P). unfold described. rewrite P.
  unfold option_text, syntax. destruct k.
  - rewrite (long_flag 199 n) by (auto; lia). f_equal. rewrite app_nil_r, firstn_all2; auto.
    rewrite app_length. cbn [lit List.length list_ascii_of_string]. lia.
  - rewrite (long_option 199 n) by (auto; try lia; apply lit_no_nul; reflexivity). f_equal. rewrite firstn_all2; auto.
    rewrite !app_length. cbn [lit List.length list_ascii_of_string]. lia.
  - rewrite (long_option 199 n) by (auto; try lia; apply lit_no_nul; reflexivity). f_equal. rewrite firstn_all2; auto.
    rewrite !app_length. cbn [lit List.length list_ascii_of_string]. lia.
Qed.

Lemma described_no_nul n k m : In (mkOpt n k m) judger_options -> no_nul (described n).
Proof.
  intros H. destruct (name_facts n k m H) as (Ne & Nn & Nc & L & P). unfold described. rewrite P. destruct k; nul_free.
Qed.

Lemma print_described n k m e i suffix : In (mkOpt n k m) judger_options -> nth_error arg_table i = Some e ->
  e_short e = None -> e_long e = Some n ->
  datatype e = match k with Flag => None | Number => Some (lit "<n>") | Text => Some (lit "<str>") end ->
  no_nul (lit suffix) ->
  adds (print_option e (datatype e) suffix) (described n ++ lit suffix).
Proof.
  intros H E1 E2 E3 E4 N. unfold print_option. rewrite (described_text n k m e i H E1 E2 E3 E4). cbn [cbind].
  apply adds_val; [|cbn [map added List.concat]; rewrite app_nil_r; reflexivity].
  repeat constructor; [apply (described_no_nul n k m H)|exact N].
Qed.

Lemma schar_code c : ascii_of_N (Z.to_N (schar c mod 256)) = c.
Proof. destruct c as [[] [] [] [] [] [] [] []]; reflexivity. Qed.
Lemma schar_ordinary c : c <> NUL -> ordinary c -> (schar c < 1 \/ 5 < schar c)%Z.
Proof.
  intros N O. destruct c as [[] [] [] [] [] [] [] []]; try (right; reflexivity); try (left; reflexivity);
    exfalso; first [apply N; reflexivity|apply O; cbn; lia].
Qed.

Lemma name_colon_ok : appender name_colon.
Proof. split; [apply lit_no_nul; reflexivity|]. split; [cbn; lia|reflexivity]. Qed.

Ltac short_text := unfold len; rewrite ?app_length; cbn [er_argval str_of lit List.length list_ascii_of_string];
  unfold short in *; unfold DstrSpec.LIMIT; lia.
Ltac catf_ok := cbn [appender catf]; split; [nul_free|split; [cbn; lia|short_text]].
Ltac assoc := cbn [map added List.concat]; unfold report_line, complaint, quoted, newline; rewrite ?app_nil_r, <- ?app_assoc; try reflexivity.

Lemma end_adds code v s : (exists x, end_errorfn code v = [name_colon; x; Cat ["010"%char]] /\ appender x /\ added x = s) ->
  adds (Val (end_errorfn code v)) (lit "libjudger.so: " ++ s ++ newline).
Proof.
  intros (x & -> & A & <-). apply adds_val; [|assoc].
  constructor; [exact name_colon_ok|]. constructor; [exact A|]. constructor; [nul_free|constructor].
Qed.

Lemma fault_adds f : sane f -> adds (error_ops (coded f)) (report_line f).
Proof.
  destruct f as [w|w|c|n v|n v|n v|w|n|]; intros S; cbn [coded sane] in *.
  - destruct S as [N Sh]. apply end_adds. eexists. split; [reflexivity|]. split; [catf_ok|solve [reflexivity|unfold complaint, quoted; rewrite <- !app_assoc; reflexivity]].
  - destruct S as [N Sh]. apply end_adds. eexists. split; [reflexivity|]. split; [catf_ok|solve [reflexivity|unfold complaint, quoted; rewrite <- !app_assoc; reflexivity]].
  - destruct S as [N O]. unfold error_ops. cbn [er_parent er_code er_argval]. apply end_adds. eexists. split; [|split].
    + unfold end_errorfn. pose proof (schar_ordinary c N O) as Q.
      unfold ARG_ELIMIT, ARG_EMALLOC, ARG_ENOMATCH, ARG_EMISSARG, ARG_ELONGOPT.
      repeat match goal with |- context [(schar c =? ?k)%Z] => rewrite (proj2 (Z.eqb_neq (schar c) k)) by lia end.
      rewrite schar_code. reflexivity.
    + catf_ok.
    + reflexivity.
  - destruct v as [v|].
    + destruct S as ([N Sh] & k & m & K & I). destruct (fault_entry n k m I) as (i & e & P & E & Ek & Es & El & Ed).
      rewrite P. unfold error_ops. cbn [er_parent er_code er_argval]. rewrite E, Ek.
      destruct (name_facts n k m I) as (Ne & Nn & Nc & L & _).
      assert (adds (after [Cat (lit "excess option ")] (print_option e (Some v) (String "010" "")))
                (lit "excess option " ++ firstn 198 (lit "--" ++ n ++ lit "=" ++ v) ++ newline)) as A.
      { apply adds_app; [|repeat constructor; nul_free|reflexivity].
        unfold print_option, option_text, syntax. rewrite Es, El, (long_option 199 n) by (auto; lia). cbn [cbind].
        apply adds_val; [repeat constructor|assoc].
        - apply no_nul_firstn. nul_free.
        - nul_free. }
      assert (adds (after [name_colon] (after [Cat (lit "excess option ")] (print_option e (Some v) (String "010" ""))))
                (report_line (TooMany n (Some v)))) as B.
      { replace (report_line (TooMany n (Some v))) with
          (lit "libjudger.so: " ++ lit "excess option " ++ firstn 198 (lit "--" ++ n ++ lit "=" ++ v) ++ newline) by assoc.
        apply adds_app; [exact A|repeat constructor; apply name_colon_ok|reflexivity]. }
      destruct k; [contradiction| |]; exact B.
    + destruct S as (m & I). destruct (fault_entry n Flag m I) as (i & e & P & E & Ek & Es & El & Ed).
      rewrite P. unfold error_ops. cbn [er_parent er_code er_argval]. rewrite E, Ek.
      replace (report_line (TooMany n None)) with
        (lit "libjudger.so: extraneous option " ++ described n ++ newline).
      2:{ unfold described. rewrite (proj2 (proj2 (proj2 (proj2 (name_facts n Flag m I))))). assoc. }
      unfold akind_of, lit_errorfn. change (ARG_ERR_MAXCOUNT =? ARG_ERR_MINCOUNT)%Z with false.
      change (ARG_ERR_MAXCOUNT =? ARG_ERR_MAXCOUNT)%Z with true. cbv iota.
      apply adds_app; [apply (print_described n Flag m e i (String "010" "") I E Es El Ed); nul_free| |reflexivity].
      constructor; [split; [nul_free|split; [cbn; lia|reflexivity]]|constructor].
  - destruct S as ([N Sh] & m & I). destruct (fault_entry n Number m I) as (i & e & P & E & Ek & Es & El & Ed).
    rewrite P. unfold error_ops. cbn [er_parent er_code er_argval]. rewrite E, Ek.
    replace (report_line (NotANumber n v)) with
      (lit "libjudger.so: " ++ (lit "invalid argument """ ++ v ++ lit """ to option ") ++ described n ++ newline) by assoc.
    unfold akind_of, int_errorfn. cbn [str_of].
    change (ARG_ERR_BADINT =? ARG_ERR_MINCOUNT)%Z with false. change (ARG_ERR_BADINT =? ARG_ERR_MAXCOUNT)%Z with false.
    change (ARG_ERR_BADINT =? ARG_ERR_BADINT)%Z with true. cbv iota.
    apply adds_app; [|repeat constructor; apply name_colon_ok|reflexivity].
    apply adds_app; [apply (print_described n Number m e i (String "010" "") I E Es El Ed); nul_free| |assoc].
    constructor; [catf_ok|constructor].
  - destruct S as ([N Sh] & m & I). destruct (fault_entry n Number m I) as (i & e & P & E & Ek & Es & El & Ed).
    rewrite P. unfold error_ops. cbn [er_parent er_code er_argval]. rewrite E, Ek.
    replace (report_line (OutOfRange n v)) with
      (lit "libjudger.so: " ++ lit "integer overflow at option " ++ (described n ++ lit " ") ++
       (lit "(" ++ v ++ lit " is too large)" ++ newline)) by assoc.
    unfold akind_of, int_errorfn. cbn [str_of].
    change (ARG_ERR_OVERFLOW =? ARG_ERR_MINCOUNT)%Z with false. change (ARG_ERR_OVERFLOW =? ARG_ERR_MAXCOUNT)%Z with false.
    change (ARG_ERR_OVERFLOW =? ARG_ERR_BADINT)%Z with false. change (ARG_ERR_OVERFLOW =? ARG_ERR_OVERFLOW)%Z with true. cbv iota.
    apply adds_app; [|repeat constructor; apply name_colon_ok|reflexivity].
    apply adds_app; [|repeat constructor; nul_free|reflexivity].
    destruct (print_described n Number m e i " " I E Es El Ed) as (os & -> & F & C); [nul_free|]. cbn [cbind].
    apply adds_val; [apply Forall_app; split; [exact F|]|].
    + constructor; [|constructor]. split; [nul_free|split; [lia|short_text]].
    + rewrite map_app, concat_app, C. assoc.
  - destruct S as [N Sh]. apply end_adds. eexists. split; [reflexivity|]. split; [catf_ok|solve [reflexivity|unfold complaint, quoted; rewrite <- !app_assoc; reflexivity]].
  - subst n.
    exists [name_colon; Cat (lit "missing option "); Cat (lit "--exe_path=<str>"); Cat ["010"%char]].
    split; [vm_compute; reflexivity|]. split; [|reflexivity].
    constructor; [apply name_colon_ok|]. repeat constructor; nul_free.
  - apply end_adds. eexists. split; [reflexivity|]. split; [cbn [appender]; nul_free|reflexivity].
Qed.

(** ** The whole report *)
Lemma faults_add fs : Forall sane fs -> adds (errors_ops (map coded fs)) (List.concat (map report_line fs)).
Proof.
  induction 1 as [|f fs S F IH]; [apply adds_val; constructor|]. cbn [map errors_ops List.concat].
  destruct (fault_adds f S) as (os & -> & A & E). cbn [cbind]. apply adds_app; auto.
Qed.

Lemma line_short f : sane f -> (len (report_line f) <= 100000100)%Z.
Proof.
  intros S. unfold report_line. rewrite !len_app. change (len (lit "libjudger.so: ")) with 14%Z. change (len newline) with 1%Z.
  destruct f as [w|w|c|n v|n v|n v|w|n|]; cbn [complaint sane] in *; unfold quoted, described.
  - destruct S. rewrite !len_app. short_text.
  - destruct S. rewrite !len_app. short_text.
  - unfold len. cbn. lia.
  - destruct v as [v|].
    + rewrite len_app. unfold len. rewrite firstn_length. cbn [List.length lit list_ascii_of_string]. lia.
    + destruct S as (m & I). destruct (name_facts _ _ _ I) as (_ & _ & _ & L & _). rewrite len_app.
      unfold len. cbn [List.length lit list_ascii_of_string]. lia.
  - destruct S as ([_ Sh] & m & I). destruct (name_facts _ _ _ I) as (_ & _ & _ & L & P). rewrite P, !len_app. short_text.
  - destruct S as ([_ Sh] & m & I). destruct (name_facts _ _ _ I) as (_ & _ & _ & L & P). rewrite P, !len_app. short_text.
  - destruct S. rewrite !len_app. short_text.
  - subst. vm_compute. discriminate.
  - vm_compute. discriminate.
Qed.

Lemma report_printed fs : Forall sane fs -> List.length fs <= 10 -> print_errors (map coded fs) = Val (report fs).
Proof.
  intros F L. unfold print_errors. destruct (faults_add fs F) as (os & E & A & T).
  rewrite (through_dstr_appends _ os _ E A T).
  - cbn [cbind]. unfold report, hint. assoc.
  - assert (len (List.concat (map report_line fs)) <= 100000100 * Z.of_nat (List.length fs))%Z as B.
    { clear - F. induction F as [|f fs S F IH]; [reflexivity|]. cbn [map List.concat List.length]. rewrite len_app.
      pose proof (line_short f S). lia. }
    unfold DstrSpec.LIMIT. lia.
Qed.

(** ** Faults of a reading are sane *)
Definition tame_event (e : event) : Prop :=
  match e with
  | Given _ v w => tame w /\ match v with Some v => tame v | None => True end
  | Unknown w | NoValue w => tame w
  | Letter c => c <> NUL
  end.

Lemma tame_suffix s t : tame (s ++ t) -> tame t.
Proof.
  intros [N S]. split; [apply no_nul_app in N; apply N|]. unfold short in *. rewrite app_length in S. lia.
Qed.

Lemma long_tame os w s ws e ws' : CmdLine.long_option os w s ws e ws' -> tame w -> tame s -> Forall tame ws ->
  tame_event e /\ Forall tame ws'.
Proof.
  intros H W S F. destruct H; cbn [tame_event]; auto.
  - split; [split; [exact W|]|exact F]. destruct H as [_ ->]. apply tame_suffix in S. change (lit "=" ++ v) with (["="%char] ++ v) in S.
    apply tame_suffix in S. exact S.
  - apply Forall_cons_iff in F. tauto.
Qed.

Lemma letters_tame ls : no_nul ls -> Forall tame_event (map Letter ls).
Proof.
  intros N. apply Forall_forall. intros e I. apply in_map_iff in I. destruct I as (c & <- & I). cbn. intros ->. contradiction.
Qed.

Lemma reads_tame os posix ws es r : reads os posix ws es r -> Forall tame ws -> Forall tame_event es /\ Forall tame r.
Proof.
  induction 1 as [|w ws es r O P R IH|w ws O P|ws|ls ws es r Ne Nc R IH|ls s ws e ws' es r Nc Ne L R IH]; intros F.
  - auto.
  - apply Forall_cons_iff in F. destruct F as [W F]. destruct (IH F). auto.
  - auto.
  - apply Forall_cons_iff in F. destruct F. auto.
  - apply Forall_cons_iff in F. destruct F as [W F]. destruct (IH F). split; [|auto].
    apply Forall_app. split; [|auto]. apply letters_tame. apply tame_suffix in W. apply W.
  - apply Forall_cons_iff in F. destruct F as [W F]. pose proof W as W1. apply tame_suffix in W1.
    pose proof W1 as W2. apply tame_suffix in W2. apply tame_suffix in W2.
    destruct (long_tame _ _ _ _ _ _ L W W2 F) as [Te F']. destruct (IH F'). split; [|auto].
    apply Forall_app. split; [|auto]. apply letters_tame. destruct W1 as [N _]. apply no_nul_app in N. apply N.
Qed.

Lemma empty_sane v w : tame w -> Forall sane (empty_value v w).
Proof. intros T. destruct v as [[|]|]; cbn; auto. Qed.

Lemma one_sane acc e new fs : one acc e new fs -> good_event e -> tame_event e ->
  (forall c, e = Letter c -> ordinary c) -> Forall sane fs.
Proof.
  intros H G T O. destruct H; cbn [tame_event good_event] in *; auto.
  - constructor; [|constructor]. split; [exact T|]. apply O. reflexivity.
  - destruct T as [Tw Tv]. apply Forall_app. split; [apply empty_sane; exact Tw|]. constructor; [|constructor].
    cbn [sane]. destruct v as [v|].
    + split; [exact Tv|]. exists k, m. split; [|assumption]. intros ->.
      destruct (valued_option _ G) as (k' & m' & I & K). destruct (option_unique _ _ _ _ _ H I) as [<- _]. destruct K; discriminate.
    + destruct (flag_option _ G) as (m' & I). exists m'. exact I.
  - destruct T as [Tw Tv]. apply Forall_app. split; [apply empty_sane; exact Tw|]. constructor; [|constructor].
    cbn [sane]. eauto.
  - constructor; [|constructor]. cbn [sane]. destruct T. eauto.
  - apply empty_sane. apply T.
Qed.

Lemma occurs_sane acc es acc' fs : occurs acc es acc' fs -> Forall good_event es -> Forall tame_event es ->
  (forall c, In (Letter c) es -> ordinary c) -> Forall sane fs.
Proof.
  induction 1 as [|acc e es new fs acc' fs' O R IH]; intros G T Or; [constructor|].
  apply Forall_cons_iff in G, T. destruct G as [Ge G], T as [Te T]. apply Forall_app. split.
  - apply (one_sane _ _ _ _ O Ge Te). intros c ->. apply Or. left. reflexivity.
  - apply IH; auto. intros c I. apply Or. right. exact I.
Qed.

Lemma all_sane acc es fs r : occurs [] es acc fs -> Forall good_event es -> Forall tame_event es -> Forall tame r ->
  (forall c, In (Letter c) es -> ordinary c) -> Forall sane (all_faults acc fs r).
Proof.
  intros O G T R Or. pose proof (occurs_sane _ _ _ _ O G T Or) as S. unfold all_faults.
  assert (Forall sane (fs ++ map Stray r)) as A.
  { apply Forall_app. split; [exact S|]. apply Forall_forall. intros f I. apply in_map_iff in I. destruct I as (w & <- & I).
    rewrite Forall_forall in R. apply (R w I). }
  destruct (fs ++ map Stray r) eqn:E; [|exact A]. destruct (taken (lit "exe_path") acc); [|constructor].
  constructor; [reflexivity|constructor].
Qed.

Lemma firstn_Forall {A} (P : A -> Prop) n l : Forall P l -> Forall P (firstn n l).
Proof. intros F. apply Forall_forall. intros x I. rewrite Forall_forall in F. apply F.
  rewrite <- (firstn_skipn n l). apply in_or_app. left. exact I. Qed.

Lemma first_ten_ok fs : Forall sane fs -> Forall sane (first_ten fs) /\ List.length (first_ten fs) <= 10.
Proof.
  intros F. unfold first_ten. destruct (Nat.leb_spec (List.length fs) 10); [auto|]. split.
  - apply Forall_app. split; [apply firstn_Forall; exact F|]. repeat constructor.
  - rewrite app_length, firstn_length. cbn [List.length]. lia.
Qed.

Theorem error_report run posix prog ws es r acc fs :
  Forall c_string ws -> Forall short ws -> reads judger_names posix ws es r -> harmless es -> occurs [] es acc fs ->
  ~ mentions es "help" -> ~ mentions es "version" -> all_faults acc fs r <> [] ->
  (forall c, In (Letter c) es -> ordinary c) ->
  exists a, does posix (prog :: ws) (Val a) /\ exit_status a = 1%Z /\
    printed run a = Val (report (first_ten (all_faults acc fs r))).
Proof.
  intros C Sh R H O X Y F Or.
  destruct (main_errors posix prog ws es r acc fs C R H O X Y F) as (n & M). eexists. split; [exact (ends_does _ _ _ _ M)|].
  split; [reflexivity|]. cbn [printed].
  assert (Forall tame ws) as T.
  { apply Forall_forall. intros w I. rewrite Forall_forall in C, Sh. split; [exact (C w I)|exact (Sh w I)]. }
  destruct (reads_tame _ _ _ _ _ R T) as [Te Tr].
  destruct (first_ten_ok (all_faults acc fs r)) as [S L].
  { apply (all_sane acc es fs r O (reads_good _ _ _ _ R) Te Tr Or). }
  apply report_printed; auto.
Qed.
