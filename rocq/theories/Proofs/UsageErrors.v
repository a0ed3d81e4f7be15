(** C82: messages about errors, and the messages made of them. *)
From Coq Require Import ZArith NArith Bool List Ascii String Arith Lia.
From Verif.Base Require Import CInt CStr CMem Tm.
From Verif.Model Require Import ArgInt Argtable Dstr ArgCat Messages Wrap ArgDate ArgObject Trex Usage.
From Verif.Spec Require Import DstrSpec WrapSpec UsageSpec.
From Verif.Proofs Require Import DstrProofs ArgCatProofs MessageProofs WrapProofs WrapClaims UsageProofs.
Import ListNotations.
Open Scope list_scope.
Open Scope nat_scope.
Local Notation len := (@List.length ascii).
Local Notation bshows := ArgCatProofs.shows.
Local Notation syntax := ArgCat.syntax.

(** ** An option in a message *)
Lemma given_self n : presentable n -> presentable (given n (n_value n)).
Proof.
  intros (N1 & N2 & N3 & N4 & L). repeat split; try assumption.
  revert L. unfold gnu_column, full_syntax, option_names, option_value. cbn [given n_shorts n_longs n_value n_optional].
  rewrite !app_length. intros L. destruct (n_value n) as [v|]; [|exact L]. rewrite !app_length in *. destruct (n_optional n); [|exact L].
  rewrite !app_length in L. cbn [List.length] in L. lia.
Qed.
Lemma called_text n : presentable n ->
  option_text (m_short (header_of n)) (m_long (header_of n)) (m_data (header_of n)) = Val (called n).
Proof.
  intros P. apply given_self in P. unfold option_text, called. pose proof (full_text (lit "|") _ P) as X. cbn [given n_value n_optional] in X. apply X.
  - apply lit_no_nul. reflexivity.
  - cbn. lia.
Qed.
Lemma optionv_split so lo d sep s : arg_cat_optionv so lo (Some d) false sep s =
  cbind (arg_cat_optionv so lo None false sep s) (fun s =>
  cbind (match lo, so with Some _, _ => arg_cat (lit "=") s | None, Some _ => arg_cat (lit " ") s | None, None => Val s end) (arg_cat d)).
Proof.
  unfold arg_cat_optionv. destruct (match so with Some so => cat_shorts sep so s | None => Val s end) as [s1|]; cbn [cbind]; [|reflexivity].
  destruct (match so, lo with Some _, Some _ => arg_cat sep s1 | _, _ => Val s1 end) as [s2|]; cbn [cbind]; [|reflexivity].
  destruct (match lo with Some lo => cat_longs (S (List.length lo)) sep lo s2 | None => Val s2 end) as [s3|]; cbn [cbind]; reflexivity.
Qed.
Lemma given_none n : presentable n -> presentable (given n None).
Proof.
  intros (N1 & N2 & N3 & N4 & L). repeat split; try assumption; [discriminate|].
  revert L. unfold gnu_column, full_syntax, option_names, option_value. cbn [given n_shorts n_longs n_value n_optional].
  rewrite !app_length. cbn [List.length]. lia.
Qed.
Lemma called_with_text n v : presentable n -> no_nul v ->
  option_text (m_short (header_of n)) (m_long (header_of n)) (Some v) = Val (called_with n v).
Proof.
  intros P Nv. apply given_none in P. pose proof (full_length (lit "|") _ P ltac:(cbn; lia)) as L. pose proof P as (N1 & N2 & N3 & _).
  unfold option_text, called_with. rewrite optionv_split. cbn [header_of m_short m_long].
  assert (no_nul (lit "|")) as Nb by (apply lit_no_nul; reflexivity).
  destruct (exact_optionv 199 (given n None) (lit "|") syntax [] Nb N1 N2 N3 syntax_shows ltac:(cbn [List.length]; lia)) as (s1 & E1 & S1).
  rewrite app_nil_l in S1. cbn [given members g_shortopts g_longopts n_value n_optional n_shorts n_longs] in E1.
  cbn [members g_shortopts g_longopts]. rewrite E1. cbn [cbind].
  assert (full_syntax (lit "|") (given n (Some v)) = full_syntax (lit "|") (given n None) ++
    (match n_longs n, n_shorts n with _ :: _, _ => ["="%char] | [], _ :: _ => [" "%char] | [], [] => [] end) ++ v) as ->.
  { unfold full_syntax, option_names, option_value. cbn [given n_shorts n_longs n_value n_optional]. rewrite app_nil_r. reflexivity. }
  set (t := full_syntax (lit "|") (given n None)) in *.
  assert (forall s t', bshows 199 s (firstn 198 t') -> exists s', arg_cat v s = Val s' /\ bshows 199 s' (firstn 198 (t' ++ v))) as Last.
  { intros s t' Sh. destruct (arg_cat_shows 199 s _ v Sh Nv) as (s' & E & S' & _). exists s'. split; [exact E|].
    change (199 - 1) with 198 in S'. rewrite firstn_app_firstn in S' by lia. exact S'. }
  assert (forall sp, no_nul sp -> exists s', cbind (arg_cat sp s1) (arg_cat v) = Val s' /\ bshows 199 s' (firstn 198 (t ++ sp ++ v))) as Go.
  { intros sp Np. destruct (arg_cat_shows 199 s1 _ sp S1 Np) as (s2 & -> & S2 & _). cbn [cbind]. rewrite app_assoc. apply Last. exact S2. }
  assert (exists s', (match (match n_longs n with [] => None | l => Some (joined [","%char] l) end), (match n_shorts n with [] => None | so => Some so end) with
      | Some _, _ => cbind (arg_cat (lit "=") s1) (arg_cat v) | None, Some _ => cbind (arg_cat (lit " ") s1) (arg_cat v) | None, None => arg_cat v s1 end) = Val s' /\
      bshows 199 s' (firstn 198 (t ++ (match n_longs n, n_shorts n with _ :: _, _ => ["="%char] | [], _ :: _ => [" "%char] | [], [] => [] end) ++ v))) as (s' & E & S').
  { destruct (n_longs n) as [|l ls]; [destruct (n_shorts n) as [|c so]|].
    - rewrite app_nil_l. apply Last. rewrite firstn_all2 by lia. exact S1.
    - apply (Go (lit " ")). apply lit_no_nul. reflexivity.
    - apply (Go (lit "=")). apply lit_no_nul. reflexivity. }
  unfold buffer_text. destruct (n_longs n) as [|l ls]; [destruct (n_shorts n) as [|c so]|]; cbn [cbind] in *; rewrite E; apply (shows_text _ _ _ S').
Qed.
Lemma called_nul n : presentable n -> no_nul (called n).
Proof. intros P. apply full_nul; [apply given_self, P|apply lit_no_nul; reflexivity]. Qed.
Lemma firstn_nul k s : no_nul s -> no_nul (firstn k s).
Proof. intros N H. apply N. rewrite <- (firstn_skipn k s). apply in_or_app. left. exact H. Qed.
Lemma called_with_nul n v : presentable n -> no_nul v -> no_nul (called_with n v).
Proof.
  intros P Nv. unfold called_with. apply firstn_nul. apply given_none in P. pose proof (full_nul (lit "|") _ P ltac:(apply lit_no_nul; reflexivity)) as X.
  unfold full_syntax, option_value, option_names in *. cbn [given n_shorts n_longs n_value n_optional] in *. rewrite app_nil_r in X.
  apply no_nul_app. split; [exact X|]. apply no_nul_app. split; [|exact Nv]. destruct (n_longs n), (n_shorts n); apply lit_no_nul; reflexivity.
Qed.

(** ** Messages *)
Lemma named_appends n suffix : presentable n -> no_nul suffix ->
  appends (print_option_ds (header_of n) (m_data (header_of n)) suffix) (called n ++ suffix).
Proof.
  intros P N. unfold print_option_ds. rewrite called_text by exact P. cbn [cbind]. eexists. split; [reflexivity|]. split.
  - constructor; [apply called_nul, P|]. constructor; [exact N|constructor].
  - unfold added_by. cbn [map List.concat]. rewrite app_nil_r. reflexivity.
Qed.
Lemma named_with_appends n v suffix : presentable n -> no_nul v -> no_nul suffix ->
  appends (print_option_ds (header_of n) (Some v) suffix) (called_with n v ++ suffix).
Proof.
  intros P Nv N. unfold print_option_ds. rewrite called_with_text by assumption. cbn [cbind]. eexists. split; [reflexivity|]. split.
  - constructor; [apply called_with_nul; assumption|]. constructor; [exact N|constructor].
  - unfold added_by. cbn [map List.concat]. rewrite app_nil_r. reflexivity.
Qed.
Lemma appends_eq r t t' : appends r t -> t = t' -> appends r t'.
Proof. intros H <-. exact H. Qed.
Lemma nul_nl : no_nul [NL].
Proof. intros [E|[]]. discriminate. Qed.

Ltac plains := repeat match goal with |- Forall plain [] => constructor | |- Forall plain (_ :: _) => constructor end;
  cbn [plain colon]; try (split; [|lia]); try exact nul_nl;
  repeat (apply no_nul_app; split); try assumption; try exact nul_nl; try (apply lit_no_nul; reflexivity).
Ltac spelled := unfold added_by, in_quotes, nl; cbn [map List.concat colon]; rewrite ?app_nil_r; rewrite <- ?app_assoc; try reflexivity.

Lemma error_appends prog n x c : means n x c -> sayable prog n c ->
  appends (errorfn (x_kind x) (x_strftime x) (x_named x) prog (x_code x) (x_argval x)) (message prog n c).
Proof.
  intros M (P & F). inversion F as [|? ? Np Ft]; subst. clear F.
  assert (forall r t, appends r t -> appends (after [colon prog] r) (prog ++ lit ": " ++ t)) as Common.
  { intros r t H. eapply appends_eq; [apply appends_after; [|exact H]; plains|spelled]. }
  assert (forall o t t', plain o -> added_by [o] ++ nl = t' -> t' = t -> appends (Val [colon prog; o; Cat [NL]]) (prog ++ lit ": " ++ t)) as End.
  { intros o t t' H E <-. rewrite <- E. eexists. split; [reflexivity|]. split; [constructor; [|constructor; [exact H|]]; plains|].
    change [colon prog; o; Cat [NL]] with ([colon prog] ++ [o] ++ [Cat [NL]]). rewrite !added_app. spelled. }
  unfold message.
  destruct M as [K f v H1 H2|K f v H1 H2|f v|f v|f v|f v|f v|f v ex Hex|f v|f h v|f h v|f h v|f h v|f h v|f h c code v Hc Hm];
    cbn [x_kind x_strftime x_named x_code x_argval texts says] in *; try (inversion Ft as [|? ? Nv Ft']; subst; clear Ft).
  - assert (appends (missing_ops (header_of n)) (lit "missing option " ++ called n ++ nl)) as X.
    { eapply appends_eq; [apply appends_after; [plains|apply named_appends; [exact P|exact nul_nl]]|spelled]. }
    destruct K; try congruence; apply Common; exact X.
  - assert (appends (excess_ops (header_of n) v) (lit "excess option " ++ called_with n v ++ nl)) as X.
    { eapply appends_eq; [apply appends_after; [plains|apply named_with_appends; [exact P|exact Nv|exact nul_nl]]|spelled]. }
    destruct K; try congruence; apply Common; exact X.
  - destruct (named_appends n [NL] P nul_nl) as (os & E & Fo & A). unfold errorfn. change (1 =? ARG_ERR_MINCOUNT)%Z with true. cbv iota. rewrite E. cbn [cbind].
    eapply appends_eq; [apply appends_after; [plains|apply appends_more; [exact Fo|exact A|plains]]|]. spelled.
  - unfold errorfn. change (2 =? ARG_ERR_MINCOUNT)%Z with false. change (2 =? ARG_ERR_MAXCOUNT)%Z with true. cbv iota.
    eapply appends_eq; [apply appends_after; [plains|apply named_appends; [exact P|exact nul_nl]]|]. spelled.
  - assert (appends (invalid_ops (header_of n) v) (lit "invalid argument " ++ in_quotes v ++ lit " to option " ++ called n ++ nl)) as X.
    { eapply appends_eq; [apply appends_after; [plains|apply named_appends; [exact P|exact nul_nl]]|spelled]. }
    apply Common. exact X.
  - destruct (named_appends n (lit " ") P ltac:(apply lit_no_nul; reflexivity)) as (os & E & Fo & A).
    apply Common. change (4 =? ARG_ERR_MINCOUNT)%Z with false. change (4 =? ARG_ERR_MAXCOUNT)%Z with false. change (4 =? ARG_ERR_BADINT)%Z with false.
    change (4 =? ARG_ERR_OVERFLOW)%Z with true. cbv iota. rewrite E. cbn [cbind str_of].
    eapply appends_eq; [apply appends_after; [plains|apply appends_more; [exact Fo|exact A|plains]]|]. spelled.
  - assert (appends (invalid_ops (header_of n) v) (lit "invalid argument " ++ in_quotes v ++ lit " to option " ++ called n ++ nl)) as X.
    { eapply appends_eq; [apply appends_after; [plains|apply named_appends; [exact P|exact nul_nl]]|spelled]. }
    apply Common. exact X.
  - inversion Ft' as [|? ? Ne Ft'']; subst. apply Common.
    change (6 =? ARG_ERR_MINCOUNT)%Z with false. change (6 =? ARG_ERR_MAXCOUNT)%Z with false. change (6 =? ARG_ERR_BADDATE)%Z with true. cbv iota.
    unfold baddate_ops. match goal with |- appends (cbind ?t _) _ => replace t with (Val (mkTm 0 0 0 0 0 0 0 0 0)) by (vm_compute; reflexivity) end.
    cbn [cbind str_of]. rewrite Hex. eexists. split; [reflexivity|]. split; [plains|spelled].
  - apply Common. change (7 =? ARG_ERR_MINCOUNT)%Z with false. change (7 =? ARG_ERR_MAXCOUNT)%Z with false. change (7 =? ARG_ERR_REGNOMATCH)%Z with true. cbv iota.
    eapply appends_eq; [apply appends_after; [plains|apply named_with_appends; [exact P|exact Nv|exact nul_nl]]|spelled].
  - eapply (End (Cat (lit "too many errors to display"))); [plains|reflexivity|spelled].
  - eapply (End (Cat (lit "insufficient memory"))); [plains|reflexivity|spelled].
  - eapply (End (Catf 24 (lit "unexpected argument """ ++ v ++ lit """"))); [plains|reflexivity|spelled].
  - eapply (End (Catf 19 (lit "invalid option """ ++ v ++ lit """"))); [plains|reflexivity|spelled].
  - eapply (End (Catf 32 (lit "option """ ++ v ++ lit """ requires an argument"))); [plains|reflexivity|spelled].
  - assert ((code =? ARG_ELIMIT) = false /\ (code =? ARG_EMALLOC) = false /\ (code =? ARG_ENOMATCH) = false /\ (code =? ARG_EMISSARG) = false /\ (code =? ARG_ELONGOPT) = false)%Z as (Q1 & Q2 & Q3 & Q4 & Q5).
    { unfold ARG_ELIMIT, ARG_EMALLOC, ARG_ENOMATCH, ARG_EMISSARG, ARG_ELONGOPT. repeat split; apply Z.eqb_neq; lia. }
    unfold errorfn. rewrite Q1, Q2, Q3, Q4, Q5, Hm.
    replace (ascii_of_N (Z.to_N (Z.of_nat (nat_of_ascii c)))) with c.
    2:{ unfold nat_of_ascii. rewrite N_nat_Z, N2Z.id. symmetry. apply ascii_N_embedding. }
    eexists. split; [reflexivity|]. split; [plains|spelled].
Qed.
Lemma errors_appends prog xs cs : Forall2 (fun x nc => means (fst nc) x (snd nc) /\ sayable prog (fst nc) (snd nc)) xs cs ->
  appends (print_errors_ds xs prog) (List.concat (map (fun nc => message prog (fst nc) (snd nc)) cs)).
Proof.
  induction 1 as [|x (n & c) xs cs (M & Y) F IH]; [apply appends_nil|]. unfold print_errors_ds in *. cbn [map over List.concat fst snd].
  cbn [fst snd] in M, Y. destruct (error_appends prog n x c M Y) as (os & -> & Fo & <-). cbn [cbind]. apply appends_after; assumption.
Qed.
Lemma errors_printed prog xs cs : Forall2 (fun x nc => means (fst nc) x (snd nc) /\ sayable prog (fst nc) (snd nc)) xs cs ->
  (Z.of_nat (len (List.concat (map (fun nc => message prog (fst nc) (snd nc)) cs))) < LIMIT)%Z ->
  print_errors_of xs prog = Val (List.concat (map (fun nc => message prog (fst nc) (snd nc)) cs)).
Proof. intros F L. apply through_appends; [apply errors_appends, F|exact L]. Qed.

(** ** Messages made of these *)
Lemma program_no_nul name : str_fine name -> no_nul (program_name name).
Proof. intros H. destruct name as [[|c s]|]; try (apply lit_no_nul; reflexivity). exact (H _ eq_refl). Qed.
Lemma ask_appends name ver : str_fine name -> str_fine ver -> appends (Val (make_get_help_msg name ver)) (ask_for_help name ver).
Proof.
  intros Hn Hv. pose proof (program_no_nul name Hn) as Np. change (program_name name) with (module_name name) in Np.
  assert (no_nul (module_version ver)) as Nv by (destruct ver as [[|c s]|]; try (apply lit_no_nul; reflexivity); exact (Hv _ eq_refl)).
  unfold make_get_help_msg. eexists. split; [reflexivity|]. split; [plains|]. unfold ask_for_help. change (program_name name) with (module_name name).
  change (match ver with None | Some [] => lit "0.0.0.0" | Some v => v end) with (module_version ver). spelled.
Qed.
Lemma help_appends name cmd description xs : str_fine name -> no_nul cmd -> str_fine description -> in_table xs ->
  appends (make_help_msg name cmd description (map entry_of xs)) (help_of name cmd description xs).
Proof.
  intros Hn Nc Hd T. pose proof (program_no_nul name Hn) as Np. change (program_name name) with (module_name name) in Np.
  unfold make_help_msg, help_of. change (program_name name) with (module_name name).
  destruct (syntaxv_appends xs (Some ([NL; " "%char; NL] ++ lit "Available options:" ++ [NL])) T) as (os & -> & Fo & A).
  { intros s [= <-]. apply lit_no_nul. reflexivity. }
  destruct (glossary_appends (Some 23) xs) as (os' & -> & Fo' & A').
  { eapply Forall_impl; [|exact T]. intros x [P _]. exact P. }
  cbn [cbind]. eapply appends_eq.
  - apply appends_after; [|apply appends_val; apply Forall_app; split; [exact Fo|apply Forall_app; split; [exact Fo'|plains]]].
    apply Forall_app. split; [|plains]. destruct description as [d|]; [|constructor]. specialize (Hd d eq_refl). plains.
  - rewrite !added_app, A, A'. cbn [suffix_text]. destruct description as [d|]; spelled.
Qed.
Lemma error_help_appends name xs es cs : str_fine name -> in_table xs ->
  Forall2 (fun x nc => means (fst nc) x (snd nc) /\ sayable (program_name name) (fst nc) (snd nc)) es cs ->
  appends (make_syntax_err_msg name (map entry_of xs) es) (error_help name xs cs).
Proof.
  intros Hn T F. pose proof (program_no_nul name Hn) as Np. unfold make_syntax_err_msg, error_help.
  destruct (errors_appends _ _ _ F) as (os & E & Fo & A). change (program_name name) with (module_name name) in *. rewrite E. cbn [cbind].
  destruct (syntaxv_appends xs (Some [NL]) T) as (os' & -> & Fo' & A'); [intros s [= <-]; exact nul_nl|].
  cbn [cbind]. eapply appends_eq; [apply appends_val; apply Forall_app; split; [exact Fo|]; apply Forall_app; split; [plains|apply Forall_app; split; [exact Fo'|plains]]|].
  rewrite !added_app, A, A'. cbn [suffix_text]. spelled.
Qed.
Lemma ask_printed name ver : str_fine name -> str_fine ver -> (Z.of_nat (len (ask_for_help name ver)) < LIMIT)%Z ->
  through_dstr (Val (make_get_help_msg name ver)) = Val (ask_for_help name ver).
Proof. intros Hn Hv L. apply through_appends; [apply ask_appends; assumption|exact L]. Qed.

(** What the third of them says and returns. *)
Lemma err_help_ok name cmd help nerrors description xs es cs exitcode : str_fine name -> no_nul cmd -> str_fine description -> in_table xs ->
  Forall2 (fun x nc => means (fst nc) x (snd nc) /\ sayable (program_name name) (fst nc) (snd nc)) es cs ->
  (Z.of_nat (len (help_of name cmd description xs)) < LIMIT)%Z -> (Z.of_nat (len (error_help name xs cs)) < LIMIT)%Z ->
  exists os code exit', make_syntax_err_help_msg name cmd help nerrors description (map entry_of xs) es exitcode = Val (os, code, exit') /\
    through_dstr (Val os) = Val (if (0 <? help)%Z then help_of name cmd description xs else if (0 <? nerrors)%Z then error_help name xs cs else []) /\
    code = (if (0 <? help)%Z || (0 <? nerrors)%Z then 1 else 0)%Z /\
    exit' = (if (0 <? help)%Z then 0 else if (0 <? nerrors)%Z then 1 else exitcode)%Z.
Proof.
  intros Hn Nc Hd T F L1 L2. unfold make_syntax_err_help_msg. rewrite !Z.gtb_ltb. destruct (0 <? help)%Z.
  - pose proof (help_appends name cmd description xs Hn Nc Hd T) as X. pose proof (through_appends _ _ X L1) as Y. destruct X as (os & E & _). rewrite E in *. cbn [cbind].
    exists os, 1%Z, 0%Z. auto.
  - cbn [orb]. destruct (0 <? nerrors)%Z.
    + pose proof (error_help_appends name xs es cs Hn T F) as X. pose proof (through_appends _ _ X L2) as Y. destruct X as (os & E & _). rewrite E in *. cbn [cbind].
      exists os, 1%Z, 1%Z. auto.
    + exists [], 0%Z, exitcode. split; [reflexivity|]. split; [reflexivity|]. split; reflexivity.
Qed.
