(** The Python binding and the types of its arguments. *)
From Coq Require Import ZArith Bool List Ascii String Arith Lia.
From Verif.Base Require Import CInt CStr.
From Verif.Model Require Import Config ArgInt Argtable Main Messages Python.
From Verif.Spec Require Import IntText CmdLine Invocation PythonSpec.
From Verif.Proofs Require Import ArgIntProofs ArgIntClaims DecimalFacts InvocationProofs MainProofs InvocationClaims CommandClaims PythonProofs PythonClaims.
Import ListNotations.
Open Scope list_scope.
Open Scope nat_scope.

Definition gen_list (vars : locals) (n : string) : list item :=
  match vars n with PList l => map (fun v => same n (format v)) l | _ => [] end.
Definition gen_int (vars : locals) (n : string) : list item :=
  match vars n with PInt z => if (z =? -1)%Z then [] else [same n (format (PInt z))] | v => [same n (format v)] end.
Definition gen_str (vars : locals) (n : string) : list item := [same n (format (vars n))].
Definition gen_rule (vars : locals) : list item :=
  match vars "seccomp_rule_name"%string with
  | PStr (c :: s) => [mkItem (lit "seccomp_rule") (lit "seccomp_rule_name") (c :: s)]
  | _ => []
  end.
Definition all_items (vars : locals) : list item :=
  flat_map (gen_list vars) list_params ++ flat_map (gen_int vars) int_params ++ flat_map (gen_str vars) str_params ++ gen_rule vars.

Lemma each_cases {A} (f : A -> option (list str)) (g : A -> list item) (Bad : A -> Prop) l :
  (forall x, In x l -> match f x with Some ws => ws = map word_of (g x) /\ ~ Bad x | None => Bad x end) ->
  match each f l with
  | Some ws => ws = map word_of (flat_map g l) /\ forall x, In x l -> ~ Bad x
  | None => exists x, In x l /\ Bad x
  end.
Proof.
  induction l as [|x l IH]; intros H; cbn [each flat_map]; [split; [reflexivity|intros x []]|].
  pose proof (H x (or_introl eq_refl)) as Hx. destruct (f x) as [ws|]; cbn [then_]; [|exists x; split; [left; reflexivity|exact Hx]].
  specialize (IH (fun y I => H y (or_intror I))). destruct (each f l) as [ws'|]; cbn [then_].
  - destruct Hx as [-> Nx], IH as [-> Nl]. split; [rewrite map_app; reflexivity|]. intros y [<-|I]; auto.
  - destruct IH as (y & I & B). exists y. split; [right; exact I|exact B].
Qed.

Lemma str_item_cases n v : match (if isinstance_str v then Some [option_ n v] else None) with
  | Some ws => ws = map word_of [same n (format v)] /\ ~ (forall s, v <> PStr s) | None => forall s, v <> PStr s end.
Proof. destruct v; cbn [isinstance_str]; try (intros s' E; discriminate E). split; [reflexivity|]. intros N. exact (N s eq_refl). Qed.

Definition bad_list (vars : locals) (n : string) : Prop :=
  (forall l, vars n <> PList l) \/ exists l v, vars n = PList l /\ In v l /\ forall s, v <> PStr s.
Lemma flat_one {A} (f : A -> item) l : flat_map (fun v => [f v]) l = map f l.
Proof. induction l; cbn; congruence. Qed.

Lemma list_var_cases vars n : match list_var vars n with Some ws => ws = map word_of (gen_list vars n) /\ ~ bad_list vars n | None => bad_list vars n end.
Proof.
  unfold list_var, gen_list, bad_list. destruct (vars n) as [| | | |l|] eqn:E; try (left; intros l' E'; discriminate E').
  pose proof (each_cases (fun item => if isinstance_str item then Some [option_ n item] else None) (fun v => [same n (format v)]) (fun v => forall s, v <> PStr s) l) as H.
  assert (forall x, In x l -> match (if isinstance_str x then Some [option_ n x] else None) with
     | Some ws => ws = map word_of [same n (format x)] /\ ~ (forall s, x <> PStr s) | None => forall s, x <> PStr s end) as H0
    by (intros x _; apply str_item_cases). specialize (H H0). rewrite flat_one in H.
  destruct (each _ l) as [ws|].
  - destruct H as [-> N]. split; [reflexivity|]. intros [B|(l' & v & B & I & C)]; [exact (B l eq_refl)|]. injection B as <-. exact (N v I C).
  - destruct H as (v & I & B). right. exists l, v. auto.
Qed.

Definition bad_int (vars : locals) (n : string) : Prop := (forall z, vars n <> PInt z) /\ (forall b, vars n <> PBool b).
Lemma int_var_cases vars n : match int_var vars n with Some ws => ws = map word_of (gen_int vars n) /\ ~ bad_int vars n | None => bad_int vars n end.
Proof.
  unfold int_var, gen_int, bad_int. destruct (vars n) as [z|b| | |l|] eqn:E; cbn [isinstance_int negb];
    try (split; intros x X; discriminate X).
  - destruct z as [|q|q]; [|destruct q|destruct q]; (split; [reflexivity|intros [B _]; exact (B _ eq_refl)]).
  - split; [reflexivity|intros [_ B]; exact (B _ eq_refl)].
Qed.

Definition bad_str (vars : locals) (n : string) : Prop := forall s, vars n <> PStr s.
Lemma str_var_cases vars n : match str_var vars n with Some ws => ws = map word_of (gen_str vars n) /\ ~ bad_str vars n | None => bad_str vars n end.
Proof. unfold str_var, gen_str, bad_str. apply str_item_cases. Qed.

Definition bad_rule (vars : locals) : Prop :=
  (forall s, vars "seccomp_rule_name"%string <> PStr s) /\ vars "seccomp_rule_name"%string <> PNone.
Lemma rule_var_cases vars : match rule_var vars with Some ws => ws = map word_of (gen_rule vars) /\ ~ bad_rule vars | None => bad_rule vars end.
Proof.
  unfold rule_var, gen_rule, bad_rule. destruct (vars "seccomp_rule_name"%string) as [z|b|[|c s]| |l|] eqn:E;
    try (split; [intros x X|intros X]; discriminate X).
  - split; [reflexivity|intros [B _]; exact (B _ eq_refl)].
  - split; [reflexivity|intros [B _]; exact (B _ eq_refl)].
  - split; [reflexivity|intros [_ B]; exact (B eq_refl)].
Qed.

Lemma proc_args_cases vars : match proc_args vars with
  | Some argv => argv = judger_path :: map word_of (all_items vars) /\ ~ wrong_type vars
  | None => wrong_type vars
  end.
Proof.
  unfold proc_args.
  pose proof (each_cases _ _ _ str_list_vars (fun x _ => list_var_cases vars x)) as H1.
  destruct (each (list_var vars) str_list_vars) as [a|]; cbn [then_].
  2:{ destruct H1 as (n & I & [B|(l & v & B & J & C)]); [exact (wrong_list vars n I B)|exact (wrong_item vars n l v I B J C)]. }
  pose proof (each_cases _ _ _ int_vars (fun x _ => int_var_cases vars x)) as H2.
  destruct (each (int_var vars) int_vars) as [b|]; cbn [then_].
  2:{ destruct H2 as (n & I & [B C]). exact (wrong_int vars n I B C). }
  pose proof (each_cases _ _ _ str_vars (fun x _ => str_var_cases vars x)) as H3.
  destruct (each (str_var vars) str_vars) as [c|]; cbn [then_].
  2:{ destruct H3 as (n & I & B). exact (wrong_str vars n I B). }
  pose proof (rule_var_cases vars) as H4. destruct (rule_var vars) as [d|]; cbn [then_].
  2:{ destruct H4 as [B C]. exact (wrong_rule vars B C). }
  destruct H1 as [-> N1], H2 as [-> N2], H3 as [-> N3], H4 as [-> N4]. split.
  - unfold all_items. rewrite !map_app. reflexivity.
  - intros [n I B|n l v I B J C|n I B C|n I B|B C].
    + apply (N1 n I). left. exact B.
    + apply (N1 n I). right. exists l, v. auto.
    + apply (N2 n I). split; assumption.
    + exact (N3 n I B).
    + apply N4. split; assumption.
Qed.

Inductive gen_item (vars : locals) : item -> Prop :=
| gen_item_list n l v : In n list_params -> vars n = PList l -> In v l -> gen_item vars (same n (format v))
| gen_item_int n : In n int_params -> vars n <> PInt (-1) -> gen_item vars (same n (format (vars n)))
| gen_item_str n : In n str_params -> gen_item vars (same n (format (vars n)))
| gen_item_rule s : vars "seccomp_rule_name"%string = PStr s -> s <> [] -> gen_item vars (mkItem (lit "seccomp_rule") (lit "seccomp_rule_name") s).

Lemma gen_int_in vars n t : In t (gen_int vars n) <-> vars n <> PInt (-1) /\ t = same n (format (vars n)).
Proof.
  unfold gen_int. destruct (vars n) as [z| | | | |] eqn:E.
  1:{ destruct (Z.eqb_spec z (-1)) as [->|N]; cbn [In]; split; [intros []|intros [N _]; congruence| |].
      - intros [<-|[]]. split; [congruence|reflexivity].
      - intros [_ ->]. left. reflexivity. }
  all: cbn [In]; split; [intros [<-|[]]; split; [discriminate|reflexivity]|intros [_ ->]; left; reflexivity].
Qed.

Lemma all_items_in vars t : In t (all_items vars) <-> gen_item vars t.
Proof.
  unfold all_items. rewrite !in_app_iff, !in_flat_map. split.
  - intros [(n & I & J)|[(n & I & J)|[(n & I & J)|J]]].
    + unfold gen_list in J. destruct (vars n) as [| | | |l|] eqn:E; try destruct J. apply in_map_iff in J. destruct J as (v & <- & J).
      exact (gen_item_list vars n l v I E J).
    + apply gen_int_in in J. destruct J as [N ->]. exact (gen_item_int vars n I N).
    + destruct J as [<-|[]]. exact (gen_item_str vars n I).
    + unfold gen_rule in J. destruct (vars "seccomp_rule_name"%string) as [| |[|c s]| | |] eqn:E; try (destruct J; fail).
      destruct J as [<-|[]]. apply gen_item_rule; [exact E|discriminate].
  - intros [n l v I E J|n I N|n I|s E N].
    + left. exists n. split; [exact I|]. unfold gen_list. rewrite E. apply in_map_iff. exists v. auto.
    + right. left. exists n. split; [exact I|]. apply gen_int_in. auto.
    + right. right. left. exists n. split; [exact I|]. left. reflexivity.
    + right. right. right. unfold gen_rule. rewrite E. destruct s; [contradiction|]. left. reflexivity.
Qed.

Lemma list_param n : In n list_params -> is_valued judger_names (lit n) /\ exists m, In (mkOpt (lit n) Text m) judger_options.
Proof. intros [<-|[<-|[]]]; (split; [in_names|exists 255; in_options]). Qed.
Lemma str_param n : In n str_params -> is_valued judger_names (lit n) /\ exists m, In (mkOpt (lit n) Text m) judger_options.
Proof. unfold str_params. cbn [In]. intros I. repeat (destruct I as [<-|I]; [split; [in_names|exists 1; in_options]|]). destruct I. Qed.
Lemma int_param n : In n int_params -> is_valued judger_names (lit n) /\ In (mkOpt (lit n) Number 1) judger_options.
Proof. unfold int_params. cbn [In]. intros I. repeat (destruct I as [<-|I]; [split; [in_names|in_options]|]). destruct I. Qed.

Lemma all_proper vars : Forall proper (all_items vars).
Proof.
  apply Forall_forall. intros t I. apply all_items_in in I. destruct I as [n l v I E J|n I N|n I|s E N].
  - apply same_proper, list_param, I.
  - apply same_proper, int_param, I.
  - apply same_proper, str_param, I.
  - split; [exact rule_stands|]. split; [in_names|]. split; [vm_compute; intuition discriminate|].
    split; [discriminate|]. vm_compute. intuition discriminate.
Qed.

Lemma all_no_flag vars n m : In (mkOpt (lit n) Flag m) judger_options -> ~ mentions (map event_of (all_items vars)) n.
Proof.
  intros F. apply no_flags. intros t I E. apply all_items_in in I. destruct I as [n' l v I _ J|n' I N|n' I|s _ N]; cbn [i_name same] in E.
  - destruct (list_param n' I) as (_ & m' & X). rewrite E in X. destruct (option_unique _ _ _ _ _ F X). discriminate.
  - pose proof (proj2 (int_param n' I)) as X. rewrite E in X. destruct (option_unique _ _ _ _ _ F X). discriminate.
  - destruct (str_param n' I) as (_ & m' & X). rewrite E in X. destruct (option_unique _ _ _ _ _ F X). discriminate.
  - assert (In (mkOpt (lit "seccomp_rule_name") Text 1) judger_options) as X by in_options. rewrite E in X. destruct (option_unique _ _ _ _ _ F X). discriminate.
Qed.

Lemma bool_text b : (forall z, ~ int_text (format (PBool b)) z) /\ ~ negated_min (format (PBool b)).
Proof. apply scan_bad. destruct b; reflexivity. Qed.

Lemma all_harmless vars : ~ wrong_type vars -> harmless (map event_of (all_items vars)).
Proof.
  intros W (es1 & n & v & w & es2 & acc & fs & m & E & _ & I & _ & N).
  assert (In (Given n (Some v) w) (map event_of (all_items vars))) as J by (rewrite E; apply in_or_app; right; left; reflexivity).
  apply in_map_iff in J. destruct J as (t & Et & J). injection Et as En Ev _. apply all_items_in in J.
  destruct J as [n' l v' J _ K|n' J Nz|n' J|s Er Ns]; cbn [same i_name i_value] in En, Ev; subst.
  - destruct (list_param n' J) as (_ & m' & X). destruct (option_unique _ _ _ _ _ I X). discriminate.
  - destruct (vars n') as [z|b| | | |] eqn:E'; [exact (fmt_d_not_negated z N)|exact (proj2 (bool_text b) N)|..];
      apply W; apply (wrong_int vars n' J); rewrite E'; discriminate.
  - destruct (str_param n' J) as (_ & m' & X). destruct (option_unique _ _ _ _ _ I X). discriminate.
  - assert (In (mkOpt (lit "seccomp_rule_name") Text 1) judger_options) as X by in_options. destruct (option_unique _ _ _ _ _ I X). discriminate.
Qed.

Lemma c_string_dec s : c_string s \/ ~ c_string s.
Proof. unfold c_string, no_char. destruct (in_dec Ascii.ascii_dec "000"%char s); [right|left]; tauto. Qed.

Theorem not_started vars : command vars = None <-> wrong_type vars \/ holds_nul vars.
Proof.
  pose proof (proc_args_cases vars) as H. unfold command. destruct (proc_args vars) as [argv|]; cbn [then_]; [|split; auto].
  destruct H as [-> N]. cbn [existsb]. change (has_nul judger_path) with false. cbn [orb].
  assert (holds_nul vars <-> exists t, In t (all_items vars) /\ ~ c_string (i_value t)) as E.
  { split.
    - intros [n l s I E J C|n s I E C].
      + exists (same n s). split; [|exact C]. apply all_items_in. exact (gen_item_list vars n l (PStr s) I E J).
      + destruct I as [<-|I].
        * exists (mkItem (lit "seccomp_rule") (lit "seccomp_rule_name") s). split; [|exact C]. apply all_items_in.
          apply gen_item_rule; [exact E|]. intros ->. apply C. intros [].
        * exists (same n s). split; [|exact C]. apply all_items_in. pose proof (gen_item_str vars n I) as G. rewrite E in G. exact G.
    - intros (t & I & C). apply all_items_in in I. destruct I as [n l v I E J|n I Nz|n I|s E Ns]; cbn [same i_value] in C.
      + destruct v as [| |s| | |]; try (destruct (N (wrong_item vars n l _ I E J ltac:(discriminate)))). exact (nul_item vars n l s I E J C).
      + destruct (vars n) as [z|b| | | |] eqn:E; [destruct (C (fmt_d_c z))|destruct C; destruct b; vm_compute; intuition discriminate|..];
          destruct N; apply (wrong_int vars n I); rewrite E; discriminate.
      + destruct (vars n) as [| |s| | |] eqn:E; try (destruct N; apply (wrong_str vars n I); rewrite E; discriminate).
        exact (nul_str vars n s (or_intror I) E C).
      + exact (nul_str vars _ s (or_introl eq_refl) E C). }
  rewrite E. destruct (existsb has_nul (map word_of (all_items vars))) eqn:X.
  - split; [intros _; right|reflexivity].
    apply existsb_exists in X. destruct X as (w & I & X). apply in_map_iff in I. destruct I as (t & <- & I). exists t. split; [exact I|].
    pose proof (all_proper vars) as F. rewrite Forall_forall in F. destruct (F t I) as (_ & _ & _ & _ & C). rewrite <- (word_c t C).
    intros Cw. assert (existsb has_nul [word_of t] = false) as Y by (apply existsb_nul; constructor; [exact Cw|constructor]).
    cbn [existsb] in Y. rewrite X in Y. discriminate.
  - split; [discriminate|]. intros [W|(t & I & C)]; [contradiction|]. apply existsb_nul in X.
    destruct (C (proj1 (words_c _ (all_proper vars)) X t I)).
Qed.

Lemma started_shape vars argv : command vars = Some argv ->
  argv = judger_path :: map word_of (all_items vars) /\ ~ wrong_type vars /\ Forall c_string (map word_of (all_items vars)).
Proof.
  intros E. pose proof (proc_args_cases vars) as H. unfold command in E. destruct (proc_args vars) as [av|]; [|discriminate].
  cbn [then_] in E. destruct H as [-> N]. cbn [existsb] in E. change (has_nul judger_path) with false in E. cbn [orb] in E.
  destruct (existsb has_nul _) eqn:X; [discriminate|]. injection E as <-. apply existsb_nul in X. auto.
Qed.

Theorem bool_errors posix vars n b argv : In n int_params -> vars n = PBool b -> command vars = Some argv ->
  exists errs, does posix argv (Val (Errors errs)) /\ errs <> [] /\ List.length errs <= 10.
Proof.
  intros I B E. destruct (started_shape vars argv E) as (-> & W & C).
  apply (faulty posix judger_path _ (map event_of (all_items vars)) [] C (items_read posix _ (all_proper vars))).
  - intros (_ & _ & F & _). destruct (int_param n I) as [_ O].
    destruct (F (lit n) 1 (format (PBool b)) O) as (z & T & _).
    + rewrite given_items, In_some.
      assert (In (same n (format (PBool b))) (all_items vars)) as J.
      { apply all_items_in. pose proof (gen_item_int vars n I) as G. rewrite B in G. apply G. discriminate. }
      revert J. generalize (all_items vars). clear. induction l as [|t l IH]; intros J; [destruct J|]. cbn [values].
      destruct J as [->|J].
      * cbn [same i_name i_value]. rewrite str_eqb_refl. left. reflexivity.
      * destruct (str_eqb (i_name t) (lit n)); [right|]; apply IH, J.
    + exact (proj1 (bool_text b) z T).
  - apply all_harmless, W.
  - apply (all_no_flag vars "help" 1). in_options.
  - apply (all_no_flag vars "version" 1). in_options.
Qed.
