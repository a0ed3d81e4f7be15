(** The claims about the Node binding. *)
From Coq Require Import ZArith Bool List Ascii String Arith Lia.
From Verif.Base Require Import CInt CStr CMem.
From Verif.Model Require Import Config ArgInt Argtable Main Messages NodeBinding.
From Verif.Spec Require Import IntText CmdLine Invocation NodeSpec.
From Verif.Spec Require OutputSpec MessageSpec.
From Verif.Proofs Require Import InvocationProofs MainProofs InvocationClaims CommandClaims PythonProofs PythonClaims NodeProofs.
From Verif.Proofs Require NodeOutput MessageProofs PythonOutcome LogProofs DecimalFacts.
From Coq Require DecimalString.
Import ListNotations.
Open Scope list_scope.
Open Scope nat_scope.

(** ** Calls *)
Section Call.
Variables (posix : bool) (run : config -> result) (o : string -> jsval) (p : node_call).
Hypothesis O : object_of o p.
Hypothesis E : env_with_args o.
Hypothesis P : plain_call p.

Theorem node_faithful : acceptable p -> exists cmd argv c,
  node_command o = NVal cmd /\ shell cmd = Some [argv] /\ hd_error argv = Some judger_path /\ does posix argv (Val (Run c)) /\ requests p c.
Proof.
  intros A. destruct (node_started o p O E P) as (cmd & C & S). destruct (node_valid posix p P A) as (c & D & R).
  exists cmd, (judger_path :: map word_of (k_items p)), c. auto.
Qed.
Theorem node_runs_only : forall cmd argv c,
  node_command o = NVal cmd -> shell cmd = Some [argv] -> does posix argv (Val (Run c)) -> acceptable p /\ requests p c.
Proof.
  intros cmd argv c C S D. destruct (node_started o p O E P) as (cmd' & C' & S'). rewrite C in C'. injection C' as <-.
  rewrite S in S'. injection S' as ->. exact (node_only posix p P c D).
Qed.

Theorem node_returns own : acceptable p -> nul_free own -> exists c, requests p c /\
  ((Z.of_nat (List.length (own ++ print_result (run c))) < 2 ^ 31)%Z -> forall r,
   node_run posix run own o r <-> r = Some (NodeReturns own (OutputSpec.result_object (run c)))).
Proof.
  intros A N. destruct (node_faithful A) as (cmd & argv & c & C & S & H & D & R). exists c. split; [exact R|]. intros L r. split.
  - intros [X|X|cmd' argv' a text r' C' S' H' D' T X]; [congruence|congruence|].
    assert (cmd' = cmd) as -> by congruence. assert (argv' = argv) as -> by congruence.
    pose proof (does_unique _ _ _ _ D D') as Y. injection Y as <-. injection T as <-. f_equal.
    apply (NodeOutput.node_result_clean own (run c) r' N L), X.
  - intros ->. apply (node_judged posix run own o cmd argv (Run c) (print_result (run c))); auto.
    apply (NodeOutput.node_result_clean own (run c) _ N L). reflexivity.
Qed.

(** Error reports have no brace. *)
Definition tidy (s : str) : Prop := ~ In "{"%char s.
Lemma tidy_app s t : tidy s -> tidy t -> tidy (s ++ t).
Proof. unfold tidy. rewrite in_app_iff. tauto. Qed.
Lemma tidy_lit s : forallb (fun c => negb (aeqb c "{")) s = true -> tidy s.
Proof. intros F I. rewrite forallb_forall in F. apply F in I. discriminate I. Qed.
Lemma nice_tidy s : nice s -> tidy s.
Proof. intros F I. unfold nice in F. rewrite Forall_forall in F. apply F in I. vm_compute in I. discriminate I. Qed.
Lemma tidy_firstn k s : tidy s -> tidy (firstn k s).
Proof. intros T I. apply T. rewrite <- (firstn_skipn k s). apply in_app_iff. left. exact I. Qed.

Definition tidy_fault (f : fault) : Prop := tidy (MessageSpec.complaint f).
Lemma tidy_described n : tidy n -> tidy (MessageSpec.described n).
Proof.
  intros T. unfold MessageSpec.described. apply tidy_app; [apply tidy_lit; reflexivity|]. apply tidy_app; [exact T|].
  unfold MessageSpec.placeholder. destruct (find _ _) as [x|]; [destruct (o_kind x)|]; apply tidy_lit; reflexivity.
Qed.
Lemma tidy_one acc e new fs : one acc e new fs -> (exists n v w, e = Given n (Some v) w /\ tidy n /\ tidy v /\ tidy w) ->
  Forall tidy_fault fs.
Proof.
  intros X (n & v & w & -> & Tn & Tv & Tw).
  assert (Forall tidy_fault (empty_value (Some v) w)) as Em.
  { destruct v; [|constructor]. constructor; [|constructor]. unfold tidy_fault. cbn [MessageSpec.complaint MessageSpec.quoted].
    unfold MessageSpec.quoted. repeat apply tidy_app; try exact Tw; apply tidy_lit; reflexivity. }
  inversion X; subst; try (constructor; fail); try exact Em.
  - apply Forall_app. split; [exact Em|]. constructor; [|constructor]. unfold tidy_fault, MessageSpec.complaint.
    apply tidy_app; [apply tidy_lit; reflexivity|]. apply tidy_firstn. repeat apply tidy_app; try assumption; apply tidy_lit; reflexivity.
  - apply Forall_app. split; [exact Em|]. constructor; [|constructor]. unfold tidy_fault, MessageSpec.complaint, MessageSpec.quoted.
    repeat match goal with |- tidy (MessageSpec.described _) => apply tidy_described; assumption | |- tidy (_ ++ _) => apply tidy_app end;
    try assumption; apply tidy_lit; reflexivity.
  - constructor; [|constructor]. unfold tidy_fault, MessageSpec.complaint.
    repeat match goal with |- tidy (MessageSpec.described _) => apply tidy_described; assumption | |- tidy (_ ++ _) => apply tidy_app end;
    try assumption; apply tidy_lit; reflexivity.
Qed.
Lemma tidy_occurs acc es acc' fs : occurs acc es acc' fs ->
  Forall (fun e => exists n v w, e = Given n (Some v) w /\ tidy n /\ tidy v /\ tidy w) es -> Forall tidy_fault fs.
Proof.
  intros X. induction X as [|acc e es new fs acc' fs' Y X IH]; intros F; [constructor|]. apply Forall_cons_iff in F as [A F].
  apply Forall_app. split; [exact (tidy_one _ _ _ _ Y A)|exact (IH F)].
Qed.
Lemma tidy_report fs : Forall tidy_fault fs -> tidy (MessageSpec.report fs).
Proof.
  intros F. unfold MessageSpec.report. apply tidy_app; [|apply tidy_lit; reflexivity].
  induction F as [|f fs A F IH]; [intros []|]. cbn [map List.concat]. apply tidy_app; [|exact IH].
  unfold MessageSpec.report_line. apply tidy_app; [apply tidy_lit; reflexivity|]. apply tidy_app; [exact A|apply tidy_lit; reflexivity].
Qed.
Lemma tidy_all acc fs : Forall tidy_fault fs -> Forall tidy_fault (first_ten (all_faults acc fs [])).
Proof.
  intros F.
  assert (Forall tidy_fault (all_faults acc fs [])) as A.
  { unfold all_faults. cbn [map]. rewrite app_nil_r. destruct fs; [|exact F].
    destruct (taken (lit "exe_path") acc); constructor; [|constructor]. apply tidy_lit. reflexivity. }
  unfold first_ten. destruct (List.length _ <=? 10); [exact A|]. apply Forall_app. split.
  - apply MessageProofs.firstn_Forall, A.
  - constructor; [|constructor]. apply tidy_lit. reflexivity.
Qed.

Lemma pos_long q : (Z.pos q <= 2 ^ 63)%Z -> List.length (DecimalFacts.chars (Pos.to_uint q)) <= 100.
Proof.
  intros L. destruct (le_lt_dec (List.length (DecimalFacts.chars (Pos.to_uint q))) 100) as [H|H]; [exact H|exfalso].
  pose proof (LogProofs.pos_digits q) as D.
  assert (10 ^ 20 <= 10 ^ (Z.of_nat (List.length (DecimalFacts.chars (Pos.to_uint q))) - 1))%Z as X by (apply Z.pow_le_mono_r; lia).
  change (10 ^ 20)%Z with 100000000000000000000%Z in X. lia.
Qed.
Lemma int64_length z : (- 2 ^ 63 <= z < 2 ^ 63)%Z -> (Z.of_nat (List.length (fmt_d z)) <= 1000)%Z.
Proof.
  unfold fmt_d. intros I. destruct z as [|q|q]; cbn [Z.to_int DecimalString.NilZero.string_of_int].
  - cbn. lia.
  - rewrite DecimalFacts.nilzero_uint by apply DecimalFacts.pos_to_uint_nonnil. pose proof (pos_long q). lia.
  - change (lit (String "-" (DecimalString.NilZero.string_of_uint (Pos.to_uint q))))
      with ("-"%char :: lit (DecimalString.NilZero.string_of_uint (Pos.to_uint q))).
    rewrite DecimalFacts.nilzero_uint by apply DecimalFacts.pos_to_uint_nonnil. pose proof (pos_long q). cbn [List.length]. lia.
Qed.

Lemma k_short : int64_call p -> Forall MessageSpec.short (map word_of (k_items p)).
Proof.
  intros I6. destruct P as (Ps & Pa & Pe). rewrite Forall_forall in Pa, Pe. apply Forall_forall. intros w I. apply in_map_iff in I.
  destruct I as (t & <- & I). apply k_items_in in I.
  assert (forall n v, List.length (lit n) <= 23 -> (Z.of_nat (List.length v) <= 1000)%Z -> MessageSpec.short (word_of (same n v))) as G.
  { intros n v Ln Lv. unfold MessageSpec.short, word_of, setting_word, same. cbn [fst snd i_text i_value].
    rewrite !app_length. change (List.length (lit "--")) with 2. change (List.length (lit "=")) with 1. lia. }
  assert (forall n, In n (map fst (k_ints p)) \/ In n (map fst (k_strs p)) -> List.length (lit n) <= 23) as Ln.
  { intros n [J|J]; cbn in J; repeat (destruct J as [<-|J]; [vm_compute; lia|]); destruct J. }
  assert (forall s, plain_text s -> (Z.of_nat (List.length s) <= 1000)%Z) as Lp by (intros s [_ X]; lia).
  destruct I as [n z I|n s I|s I|s I].
  - apply G; [apply Ln; left; exact (in_map fst _ _ I)|apply int64_length, (I6 n z I)].
  - apply G; [apply Ln; right; exact (in_map fst _ _ I)|apply Lp, (Ps n s I)].
  - apply G; [vm_compute; lia|apply Lp, (Pa s I)].
  - apply G; [vm_compute; lia|apply Lp, (Pe s I)].
Qed.

Lemma k_tidy : Forall (fun e => exists n v w, e = Given n (Some v) w /\ tidy n /\ tidy v /\ tidy w) (map event_of (k_items p)).
Proof.
  apply Forall_forall. intros e I. apply in_map_iff in I. destruct I as (t & <- & I).
  pose proof (plain_items p P) as F. rewrite Forall_forall in F. destruct (F t I) as [Nw _].
  exists (i_name t), (i_value t), (word_of t). split; [reflexivity|].
  assert (i_text t = i_name t) as Et by (apply k_items_in in I; destruct I; reflexivity).
  unfold word_of, setting_word in *. cbn [fst snd] in *. unfold nice in Nw. rewrite !Forall_app in Nw. destruct Nw as (_ & Nn & _ & Nv).
  rewrite <- Et. split; [apply nice_tidy, Nn|]. split; [apply nice_tidy, Nv|].
  repeat apply tidy_app; try (apply nice_tidy; assumption); apply tidy_lit; reflexivity.
Qed.

Theorem node_refused : int64_call p -> ~ acceptable p -> List.length (k_args p) <> 255 ->
  forall r, node_run posix run [] o r <-> r = Some NodeUndefined.
Proof.
  intros I6 N L. destruct (node_started o p O E P) as (cmd & C & S).
  pose proof (k_c p P) as W. pose proof (k_reads posix p) as R. pose proof (k_harmless p) as H.
  destruct (occurs_exists _ _ _ _ R H) as (acc & fs & Oc).
  destruct (good_occurs _ acc fs (reads_good _ _ _ _ R) H Oc) as [Wf _].
  assert (all_faults acc fs [] <> []) as F.
  { intros F. apply (faultless_iff _ acc fs [] Wf Oc) in F. apply k_faultless in F. destruct N. apply acceptable_iff.
    split; [exact F|]. destruct F as (_ & _ & _ & _ & F & _). lia. }
  destruct (MessageProofs.error_report run posix judger_path _ _ [] acc fs W (k_short I6) R H Oc (k_no_help p) (k_no_version p) F) as (a & D & _ & T).
  { intros c I. apply in_map_iff in I. destruct I as (t & X & _). discriminate X. }
  pose proof (tidy_report _ (tidy_all acc fs (tidy_occurs _ _ _ _ Oc k_tidy))) as Ty.
  intros r. split.
  - intros [X|X|cmd' argv' a' text r' C' S' H' D' T' X]; [congruence|reflexivity|].
    assert (cmd' = cmd) as -> by congruence. assert (argv' = judger_path :: map word_of (k_items p)) as -> by congruence.
    pose proof (does_unique _ _ _ _ D D') as Y. injection Y as <-. rewrite T in T'. injection T' as <-. f_equal.
    cbn [app] in X. apply (NodeOutput.node_no_brace _ r' Ty), X.
  - intros ->. refine (node_judged posix run [] o cmd _ a _ _ C S eq_refl D T _).
    apply (NodeOutput.node_no_brace _ NodeUndefined Ty). reflexivity.
Qed.
End Call.

(** ** Long strings *)
Lemma to_char_ptr_long s : too_long s <-> to_char_ptr s = NUndef.
Proof.
  unfold to_char_ptr.
  assert (exists t, cstr (terminated s) = Val t /\ nul_free t /\ (exists u, s = t ++ u /\ (u = [] \/ exists u', u = NUL :: u'))) as (t & Ec & Nt & u & Es & U).
  { unfold terminated, bytes. clear. induction s as [|c s (t & Ec & Nt & u & Es & U)].
    - exists []. split; [reflexivity|]. split; [intros []|]. exists []. auto.
    - cbn [map app cstr]. destruct (aeqb c NUL) eqn:Q.
      + apply aeqb_eq in Q. subst c. exists []. split; [reflexivity|]. split; [intros []|]. exists (NUL :: s). eauto.
      + rewrite Ec. exists (c :: t). split; [reflexivity|]. split.
        * intros [->|I]; [rewrite (proj2 (aeqb_eq NUL NUL) eq_refl) in Q; discriminate Q|exact (Nt I)].
        * exists u. cbn. rewrite <- Es. auto. }
  rewrite Ec. destruct (Nat.ltb_spec (List.length t) 255) as [L|L].
  - split; [|discriminate]. intros (t' & u' & Es' & Nt' & Lt'). exfalso.
    rewrite Es in Es'. assert (exists x, t' = t ++ x) as [x ->].
    { clear -Es' L Lt'. revert t' Es' Lt'. assert (List.length t <= 255) as L' by lia. clear L. revert L'.
      generalize 255. induction t as [|c t IH]; intros n L' t' Es' Lt'; [exists t'; reflexivity|].
      destruct t' as [|c' t']; [cbn in *; lia|]. cbn in Es'. injection Es' as <- Es'. destruct n; [cbn in Lt'; lia|].
      destruct (IH n ltac:(cbn in L'; lia) t' Es' ltac:(cbn in Lt'; lia)) as [x ->]. exists x. reflexivity. }
    rewrite app_length in Lt'. rewrite <- app_assoc in Es'. apply app_inv_head in Es'. subst u.
    destruct x as [|c x]; [cbn in Lt'; lia|]. destruct U as [U|[u'' U]]; [discriminate U|]. injection U as -> _.
    apply Nt', in_app_iff. right. left. reflexivity.
  - split; [reflexivity|]. intros _. exists (firstn 255 t), (skipn 255 t ++ u). rewrite app_assoc, firstn_skipn. split; [exact Es|].
    split; [intros I; apply Nt; rewrite <- (firstn_skipn 255 t), in_app_iff; left; exact I|apply firstn_length_le; exact L].
Qed.
Lemma to_char_ptr_cases s : to_char_ptr s = NUndef \/ exists t, to_char_ptr s = NVal t.
Proof. unfold to_char_ptr. destruct (cstr (terminated s)); [destruct (_ <? _)|]; eauto. Qed.

Lemma each_str_cases o l s : (forall n z, In (n, z) l -> o n = match z with Some z => JSStr z | None => JSNull end) ->
  (node_each (to_cstr (JSObj o)) (map fst l) s = NUndef /\ exists n z, In (n, Some z) l /\ too_long z) \/
  ((exists s', node_each (to_cstr (JSObj o)) (map fst l) s = NVal s') /\ forall n z, In (n, Some z) l -> ~ too_long z).
Proof.
  revert s. induction l as [|[n z] l IH]; intros s H; [right; split; [cbn; eauto|intros n z []]|].
  assert (forall n' z', In (n', z') l -> o n' = match z' with Some z => JSStr z | None => JSNull end) as H' by (intros n' z' I; apply H; right; exact I).
  cbn [map node_each fst]. unfold to_cstr at 1 3. rewrite (H n z) by (left; reflexivity). destruct z as [z|].
  - destruct (to_char_ptr_cases z) as [T|[t T]].
    + left. rewrite T. split; [reflexivity|]. exists n, z. split; [left; reflexivity|]. apply to_char_ptr_long, T.
    + rewrite T. cbn [nbind]. destruct (IH (s ++ js_option n t) H') as [[X (n' & z' & I & Lg)]|[[s' X] Y]].
      * left. split; [exact X|]. exists n', z'. split; [right; exact I|exact Lg].
      * right. split; [eauto|]. intros n' z' [Q|I]; [|exact (Y n' z' I)]. injection Q as <- <-. rewrite to_char_ptr_long, T. discriminate.
  - cbn [nbind]. destruct (IH s H') as [[X (n' & z' & I & Lg)]|[[s' X] Y]].
    * left. split; [exact X|]. exists n', z'. split; [right; exact I|exact Lg].
    * right. split; [eauto|]. intros n' z' [Q|I]; [discriminate Q|exact (Y n' z' I)].
Qed.
Lemma each_element_cases key l ss s : elements l ss ->
  (node_each (fun v => to_cstr v key) l s = NUndef /\ Exists too_long ss) \/
  ((exists s', node_each (fun v => to_cstr v key) l s = NVal s') /\ ~ Exists too_long ss).
Proof.
  intros X. revert s. induction X as [|t l ss X IH|l ss X IH]; intros s.
  - right. split; [cbn; eauto|]. intros Y. inversion Y.
  - cbn [node_each]. unfold to_cstr at 1 3. destruct (to_char_ptr_cases t) as [T|[t' T]]; rewrite T; cbn [nbind].
    + left. split; [reflexivity|]. apply Exists_cons. left. apply to_char_ptr_long, T.
    + destruct (IH (s ++ js_option key t')) as [[Y Z]|[Y Z]]; [left|right]; (split; [exact Y|]); rewrite Exists_cons; [auto|].
      intros [W|W]; [|exact (Z W)]. apply to_char_ptr_long in W. congruence.
  - cbn [node_each]. unfold to_cstr at 1 3. cbn [nbind]. apply IH.
Qed.

Theorem node_long o p : object_of o p -> env_with_args o ->
  (node_command o = NUndef <-> has_long p) /\ ((exists cmd, node_command o = NVal cmd) <-> ~ has_long p).
Proof.
  intros (Hi & Hs & Ha & He) Hea. unfold node_command, has_long.
  change node_int_vars with (map fst (k_ints p)). rewrite (each_int o _ _ Hi). cbn [nbind].
  change node_str_vars with (map fst (k_strs p)).
  match goal with |- context [node_each _ _ ?s] => destruct (each_str_cases o (k_strs p) s Hs) as [[-> X]|[[s1 ->] X]] end; cbn [nbind].
  { split; [split; [intros _; left; exact X|reflexivity]|split; [intros [c Y]; discriminate Y|intros Y; destruct Y; left; exact X]]. }
  assert (forall s, (node_args o s = NUndef /\ Exists too_long (k_args p)) \/ ((exists s', node_args o s = NVal s') /\ ~ Exists too_long (k_args p))) as Ea.
  { intros s. unfold node_args. destruct Ha as [[-> ->]|(l & -> & El)]; [|apply each_element_cases, El].
    right. split; [eauto|]. intros Y. inversion Y. }
  destruct (Ea s1) as [[-> Y]|[[s2 ->] Y]]; cbn [nbind].
  { split; [split; [intros _; right; left; exact Y|reflexivity]|split; [intros [c Z]; discriminate Z|intros Z; destruct Z; right; left; exact Y]]. }
  assert (forall s, (node_env o s = NUndef /\ Exists too_long (k_env p)) \/ ((exists s', node_env o s = NVal s') /\ ~ Exists too_long (k_env p))) as Ee.
  { intros s. unfold node_env. destruct He as [[-> ->]|(l & E1 & El)]; [right; split; [eauto|intros Z; inversion Z]|].
    rewrite E1. destruct Hea as [Hea|(l' & ->)]; [congruence|]. apply each_element_cases, El. }
  assert (~ (exists n s, In (n, Some s) (k_strs p) /\ too_long s)) as X' by (intros (n & s & I & T); exact (X n s I T)).
  destruct (Ee s2) as [[-> Z]|[[s3 ->] Z]].
  - split; [split; [intros _; right; right; exact Z|reflexivity]|split; [intros [c W]; discriminate W|intros W; destruct W; right; right; exact Z]].
  - split; [split; [discriminate|tauto]|]. split; [tauto|eauto].
Qed.

(** ** env without args *)
Theorem node_env_alone o p l : object_of o p -> o "env"%string = JSArr l -> o "args"%string = JSNull -> ~ has_long p -> node_command o = NThrows.
Proof.
  intros (Hi & Hs & Ha & He) Ee Ea N. unfold node_command.
  change node_int_vars with (map fst (k_ints p)). rewrite (each_int o _ _ Hi). cbn [nbind].
  change node_str_vars with (map fst (k_strs p)).
  match goal with |- context [node_each _ _ ?s] => destruct (each_str_cases o (k_strs p) s Hs) as [[_ X]|[[s1 ->] X]] end; cbn [nbind].
  - destruct N. left. exact X.
  - unfold node_args, node_env. rewrite Ea, Ee. reflexivity.
Qed.

(** ** Types *)
Lemma each_some {A} (f : A -> str -> nres str) l : forall s s', node_each f l s = NVal s' -> forall a, In a l -> exists t t', f a t = NVal t'.
Proof.
  induction l as [|a l IH]; intros s s' H b I; [destruct I|]. cbn [node_each] in H. destruct (f a s) as [t| |] eqn:F; try discriminate H.
  destruct I as [<-|I]; [eauto|]. exact (IH _ _ H b I).
Qed.
Lemma to_cstr_ok v key s t : to_cstr v key s = NVal t -> element_ok key v.
Proof.
  unfold to_cstr, element_ok. destruct v as [|n|x|l|get|]; try discriminate; eauto 6.
  destruct (get key) as [|n|x|l|get'|] eqn:G; try discriminate; intros _; right; right; right; exists get; eauto.
Qed.
Theorem node_types o cmd : node_command o = NVal cmd ->
  (forall n, In n node_int_vars -> o n = JSNull \/ exists z, o n = JSNum z) /\
  (forall n, In n node_str_vars -> o n = JSNull \/ exists s, o n = JSStr s) /\
  (o "args"%string = JSNull \/ exists l, o "args"%string = JSArr l /\ Forall (element_ok "args") l) /\
  (o "env"%string = JSNull \/ exists l, o "env"%string = JSArr l /\ Forall (element_ok "env") l).
Proof.
  unfold node_command. intros H.
  destruct (node_each (to_number o) node_int_vars _) as [s1| |] eqn:E1; try discriminate H. cbn [nbind] in H.
  destruct (node_each (to_cstr (JSObj o)) node_str_vars s1) as [s2| |] eqn:E2; try discriminate H. cbn [nbind] in H.
  destruct (node_args o s2) as [s3| |] eqn:E3; try discriminate H. cbn [nbind] in H.
  split; [|split; [|split]].
  - intros n I. destruct (each_some _ _ _ _ E1 n I) as (t & t' & F). unfold to_number in F. destruct (o n); try discriminate F; eauto.
  - intros n I. destruct (each_some _ _ _ _ E2 n I) as (t & t' & F). unfold to_cstr in F. destruct (o n); try discriminate F; eauto.
  - unfold node_args in E3. destruct (o "args"%string) as [| | |l| |]; try discriminate E3; [auto|]. right. exists l. split; [reflexivity|].
    apply Forall_forall. intros v I. destruct (each_some _ _ _ _ E3 v I) as (t & t' & F). exact (to_cstr_ok _ _ _ _ F).
  - unfold node_env in H.
    destruct (o "env"%string) as [| | |l| |]; [auto| | | | |]; destruct (o "args"%string); try discriminate H.
    right. exists l. split; [reflexivity|]. apply Forall_forall. intros v I. destruct (each_some _ _ _ _ H v I) as (t & t' & F). exact (to_cstr_ok _ _ _ _ F).
Qed.
(** A wrong type among the numbers is an exception. *)
Theorem node_int_type o n : In n node_int_vars -> o n <> JSNull -> (forall z, o n <> JSNum z) -> node_command o = NThrows.
Proof.
  intros I N1 N2. unfold node_command.
  assert (forall l s, In n l -> node_each (to_number o) l s = NThrows) as G.
  { induction l as [|m l IH]; intros s J; [destruct J|]. cbn [node_each]. destruct J as [->|J].
    - unfold to_number. destruct (o n) eqn:Q; try reflexivity; [congruence|destruct (N2 n0); reflexivity].
    - unfold to_number at 1. destruct (o m); cbn [nbind]; try reflexivity; apply IH, J. }
  rewrite G by exact I. reflexivity.
Qed.
(** env that is not an array is used as one. *)
Theorem node_env_cast o p : (forall n z, In (n, z) (k_ints p) -> o n = match z with Some z => JSNum z | None => JSNull end) ->
  (forall n s, In (n, s) (k_strs p) -> o n = match s with Some s => JSStr s | None => JSNull end) ->
  (exists l, o "args"%string = JSArr l /\ elements l (k_args p)) -> o "env"%string <> JSNull -> (forall l, o "env"%string <> JSArr l) ->
  node_command o = NUndef.
Proof.
  intros Hi Hs (la & Ea & El) N1 N2. unfold node_command.
  change node_int_vars with (map fst (k_ints p)). rewrite (each_int o _ _ Hi). cbn [nbind].
  change node_str_vars with (map fst (k_strs p)).
  match goal with |- context [node_each _ _ ?s] => destruct (each_str_cases o (k_strs p) s Hs) as [[-> X]|[[s1 ->] X]] end; cbn [nbind]; [reflexivity|].
  unfold node_args, node_env. rewrite Ea.
  destruct (each_element_cases "args" la (k_args p) s1 El) as [[-> Y]|[[s2 ->] Y]]; cbn [nbind]; [reflexivity|].
  destruct (o "env"%string); try reflexivity; [congruence|destruct (N2 l); reflexivity].
Qed.

(** ** Blanks and semicolons *)
Lemma two_command x s : cstring x -> cstring s ->
  node_command (two_paths x s) = NVal (judger_path ++ js_option "input_path" s ++ js_option "exe_path" x).
Proof.
  intros X S. unfold node_command, node_int_vars, node_str_vars, node_args, node_env. cbn [node_each].
  unfold to_number, to_cstr. cbn [two_paths String.eqb Ascii.eqb Bool.eqb nbind].
  rewrite (to_char_ptr_id s S), (to_char_ptr_id x X). cbn [nbind]. rewrite <- app_assoc. reflexivity.
Qed.

Lemma between_cstring c a b : Forall plain_char a -> Forall plain_char b -> c <> NUL -> List.length (between c a b) <= 254 -> cstring (between c a b).
Proof.
  intros A B N L. split; [|exact L]. unfold between. intros I. apply in_app_iff in I. destruct I as [I|I].
  - exact (nice_c a (plain_nice a A) I).
  - apply in_app_iff in I. destruct I as [[I|[]]|I]; [exact (N I)|exact (nice_c b (plain_nice b B) I)].
Qed.
Lemma shell_start w rest : nice w -> shell (judger_path ++ lit " " ++ w ++ rest) = lex rest w [judger_path].
Proof.
  intros N. unfold shell. rewrite lex_word by (apply lit_nice; reflexivity). rewrite lex_space, lex_word by exact N. reflexivity.
Qed.

Theorem node_blank a b x : plain_text x -> Forall plain_char a -> Forall plain_char b -> b <> [] ->
  List.length (between " " a b) <= 254 ->
  exists cmd, node_command (two_paths x (between " " a b)) = NVal cmd /\
    shell cmd = Some [[judger_path; lit "--input_path=" ++ a; b; lit "--exe_path=" ++ x]].
Proof.
  intros X A B Nb L. eexists. split; [apply two_command; [apply plain_cstring, X|apply between_cstring; auto; discriminate]|].
  change (js_option "input_path" (between " " a b) ++ js_option "exe_path" x) with
    (lit " " ++ (lit "--input_path=" ++ (a ++ (lit " " ++ b))) ++ lit " " ++ (lit "--exe_path=" ++ x)).
  rewrite !app_assoc. rewrite <- (app_assoc (judger_path ++ _)). rewrite <- !app_assoc. rewrite app_assoc with (l := lit "--input_path=").
  rewrite shell_start by (apply nice_app; [apply lit_nice; reflexivity|apply plain_nice, A]).
  rewrite lex_space. rewrite end_word_cons by discriminate. rewrite lex_word by (apply plain_nice, B). rewrite lex_space.
  rewrite end_word_cons by exact Nb. rewrite <- (app_nil_r (lit "--exe_path=" ++ x)) at 1.
  rewrite lex_word by (apply nice_app; [apply lit_nice; reflexivity|apply plain_nice, X]).
  cbn [lex]. rewrite end_word_cons by discriminate. reflexivity.
Qed.

Lemma finish_simple ws : simple_command ws = true -> match ws with [] => Some [] | ws => if simple_command ws then Some [ws] else None end = Some [ws].
Proof. destruct ws; [discriminate|]. intros ->. reflexivity. Qed.

Theorem node_semicolon a b x : plain_text x -> Forall plain_char a -> command_word b ->
  List.length (between ";" a b) <= 254 ->
  exists cmd, node_command (two_paths x (between ";" a b)) = NVal cmd /\
    shell cmd = Some [[judger_path; lit "--input_path=" ++ a]; [b; lit "--exe_path=" ++ x]].
Proof.
  intros X A (B & Be & Nb & Br) L. eexists. split; [apply two_command; [apply plain_cstring, X|apply between_cstring; auto; discriminate]|].
  change (js_option "input_path" (between ";" a b) ++ js_option "exe_path" x) with
    (lit " " ++ (lit "--input_path=" ++ (a ++ (lit ";" ++ b))) ++ lit " " ++ (lit "--exe_path=" ++ x)).
  rewrite !app_assoc. rewrite <- (app_assoc (judger_path ++ _)). rewrite <- !app_assoc. rewrite app_assoc with (l := lit "--input_path=").
  rewrite shell_start by (apply nice_app; [apply lit_nice; reflexivity|apply plain_nice, A]).
  set (w := lit "--input_path=" ++ a). change (lit ";" ++ b ++ lit " " ++ lit "--exe_path=" ++ x) with (";"%char :: (b ++ lit " " ++ lit "--exe_path=" ++ x)).
  cbn [lex]. change (shell_neutral ";") with false. change (aeqb ";" " " || aeqb ";" "009") with false.
  change (aeqb ";" ";" || aeqb ";" "010") with true. cbv iota. rewrite end_word_cons by discriminate.
  assert (forall l, simple_command (judger_path :: l) = true) as Es by reflexivity.
  change ([judger_path] ++ [w]) with (judger_path :: [w]). cbv iota. rewrite Es.
  assert (lex (b ++ lit " " ++ lit "--exe_path=" ++ x) [] [] = Some [[b; lit "--exe_path=" ++ x]]) as ->.
  { rewrite lex_word by (apply plain_nice, B). rewrite lex_space. cbn [app]. rewrite end_word_cons by exact Nb.
    rewrite <- (app_nil_r (lit "--exe_path=" ++ x)) at 1.
    rewrite lex_word by (apply nice_app; [apply lit_nice; reflexivity|apply plain_nice, X]).
    cbn [lex]. rewrite end_word_cons by discriminate. 
    assert (simple_command [b; lit "--exe_path=" ++ x] = true) as Sc.
    { unfold simple_command. apply andb_true_iff. split; apply negb_true_iff, not_true_iff_false; rewrite existsb_exists.
    - intros (c & I & Q). apply aeqb_eq in Q. subst c. exact (Be I).
    - intros (r & I & Q). apply str_eqb_eq in Q. exact (Br r I Q). }
    exact (finish_simple [b; lit "--exe_path=" ++ x] Sc). }
  reflexivity.
Qed.
