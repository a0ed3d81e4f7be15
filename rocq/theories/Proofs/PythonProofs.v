(** The Python binding passes the parameters on. *)
From Coq Require Import ZArith Bool List Ascii String Arith Lia.
From Verif.Base Require Import CInt CStr.
From Verif.Model Require Import Config ArgInt Argtable Main Messages Python.
From Verif.Spec Require Import IntText CmdLine Invocation PythonSpec.
From Verif.Proofs Require Import ArgIntProofs ArgIntClaims DecimalFacts InvocationProofs MainProofs InvocationClaims CommandClaims.
Import ListNotations.
Open Scope list_scope.
Open Scope nat_scope.

(** ** Settings: the text of the option, its name, the value *)
Record item := mkItem { i_text : str; i_name : str; i_value : str }.
Definition word_of (t : item) : str := setting_word (i_text t, i_value t).
Definition event_of (t : item) : event := Given (i_name t) (Some (i_value t)) (word_of t).
Definition proper (t : item) : Prop :=
  stands_for judger_names (i_text t) (i_name t) /\ is_valued judger_names (i_name t) /\
  no_char "="%char (i_text t) /\ i_text t <> [] /\ c_string (i_text t).

Lemma items_read posix ts : Forall proper ts -> reads judger_names posix (map word_of ts) (map event_of ts) [].
Proof.
  induction ts as [|t ts IH]; intros F; [constructor|]. apply Forall_cons_iff in F. destruct F as [(St & V & Ne & Nn & _) F].
  cbn [map]. unfold event_of at 1, word_of, setting_word. cbn [fst snd].
  change (lit "--" ++ i_text t ++ lit "=" ++ i_value t) with (lit "-" ++ [] ++ lit "-" ++ (i_text t ++ lit "=" ++ i_value t)).
  match goal with |- reads _ _ _ (?e :: ?es) _ => change (e :: es) with (map Letter [] ++ e :: es) end.
  apply (reads_long judger_names posix [] (i_text t ++ lit "=" ++ i_value t) (map word_of ts) _ (map word_of ts)).
  - intros [].
  - destruct (i_text t); [congruence|discriminate].
  - apply (long_value_here judger_names _ _ _ (i_text t) (i_value t) (i_name t)); [split; [exact Ne|reflexivity]|exact St|exact V].
  - exact (IH F).
Qed.

Lemma items_c ts : Forall proper ts -> (forall t, In t ts -> c_string (i_value t)) -> Forall c_string (map word_of ts).
Proof.
  intros F H. apply Forall_forall. intros w I. apply in_map_iff in I. destruct I as (t & <- & I).
  rewrite Forall_forall in F. destruct (F t I) as (_ & _ & _ & _ & C). specialize (H t I).
  unfold word_of, setting_word, c_string, no_char in *. cbn [fst snd]. rewrite !in_app_iff. cbn. intuition discriminate.
Qed.

Fixpoint values (n : str) (ts : list item) : list str :=
  match ts with
  | [] => []
  | t :: ts => if str_eqb (i_name t) n then i_value t :: values n ts else values n ts
  end.

Lemma given_items n ts : given n (map event_of ts) = map Some (values n ts).
Proof. induction ts as [|t ts IH]; [reflexivity|]. cbn [map event_of given values]. destruct (str_eqb (i_name t) n); cbn [map]; congruence. Qed.

Lemma values_app n ts us : values n (ts ++ us) = values n ts ++ values n us.
Proof. induction ts as [|t ts IH]; [reflexivity|]. cbn. destruct (str_eqb (i_name t) n); cbn; congruence. Qed.
Lemma values_map n t m (l : list str) : values n (map (mkItem t m) l) = if str_eqb m n then l else [].
Proof. induction l as [|v l IH]; cbn; [destruct (str_eqb m n); reflexivity|]. rewrite IH. destruct (str_eqb m n); reflexivity. Qed.
Lemma values_one n t m v : values n [mkItem t m v] = if str_eqb m n then [v] else [].
Proof. reflexivity. Qed.
Lemma values_cond n (b : bool) t m v : values n (if b then [] else [mkItem t m v]) = if str_eqb m n then if b then [] else [v] else [].
Proof. destruct b; cbn; destruct (str_eqb m n); reflexivity. Qed.

Lemma no_flags ts n : (forall t, In t ts -> i_name t <> lit n) -> ~ mentions (map event_of ts) n.
Proof.
  intros H (v & w & I). apply in_map_iff in I. destruct I as (t & E & I). injection E as E _ _. exact (H t I E).
Qed.

(** ** The words of a call *)
Definition same (n : string) (v : str) : item := mkItem (lit n) (lit n) v.
Definition int_items (p : py_call) : list item :=
  flat_map (fun nz : string * Z => if (snd nz =? -1)%Z then [] else [same (fst nz) (fmt_d (snd nz))]) (ints_of p).
Definition str_items (p : py_call) : list item := map (fun ns : string * str => same (fst ns) (snd ns)) (strs_of p).
Definition rule_items (p : py_call) : list item :=
  match y_seccomp_rule_name p with
  | Some (c :: s) => [mkItem (lit "seccomp_rule") (lit "seccomp_rule_name") (c :: s)]
  | _ => []
  end.
Definition items (p : py_call) : list item :=
  map (same "args") (y_args p) ++ map (same "env") (y_env p) ++ int_items p ++ str_items p ++ rule_items p.

Definition judger_path : str := lit "/usr/lib/judger/libjudger.so".

Lemma each_strs var l : each (fun item => if isinstance_str item then Some [option_ var item] else None) (map PStr l) =
  Some (map word_of (map (same var) l)).
Proof. induction l as [|s l IH]; [reflexivity|]. cbn [map each isinstance_str then_]. rewrite IH. reflexivity. Qed.

Lemma each_ints vars l : (forall n z, In (n, z) l -> vars n = PInt z) ->
  each (int_var vars) (map fst l) =
  Some (map word_of (flat_map (fun nz : string * Z => if (snd nz =? -1)%Z then [] else [same (fst nz) (fmt_d (snd nz))]) l)).
Proof.
  induction l as [|[n z] l IH]; intros H; [reflexivity|]. cbn [map each fst flat_map snd].
  assert (int_var vars n = Some (map word_of (if (z =? -1)%Z then [] else [same n (fmt_d z)]))) as ->.
  { unfold int_var. rewrite (H n z) by (left; reflexivity). cbn [isinstance_int negb].
    destruct z as [|q|q]; [reflexivity|reflexivity|]. destruct q; reflexivity. }
  cbn [then_]. rewrite IH by (intros n' z' I; apply H; right; exact I). cbn [then_]. rewrite map_app. reflexivity.
Qed.

Lemma each_texts vars l : (forall n s, In (n, s) l -> vars n = PStr s) ->
  each (str_var vars) (map fst l) = Some (map word_of (map (fun ns : string * str => same (fst ns) (snd ns)) l)).
Proof.
  induction l as [|[n s] l IH]; intros H; [reflexivity|]. cbn [map each fst snd].
  assert (str_var vars n = Some [word_of (same n s)]) as ->.
  { unfold str_var. rewrite (H n s) by (left; reflexivity). reflexivity. }
  cbn [then_]. rewrite IH by (intros n' z' I; apply H; right; exact I). reflexivity.
Qed.

Lemma proc_args_items vars p : passes vars p -> proc_args vars = Some (judger_path :: map word_of (items p)).
Proof.
  intros (Hi & Hs & Ha & He & Hr). unfold proc_args.
  assert (each (list_var vars) str_list_vars = Some (map word_of (map (same "args") (y_args p) ++ map (same "env") (y_env p)))) as ->.
  { unfold str_list_vars. cbn [each]. unfold list_var. rewrite Ha, He, !each_strs. cbn [then_]. rewrite app_nil_r, map_app. reflexivity. }
  cbn [then_]. change int_vars with (map fst (ints_of p)). rewrite (each_ints vars _ Hi). cbn [then_].
  change str_vars with (map fst (strs_of p)). rewrite (each_texts vars _ Hs). cbn [then_].
  assert (rule_var vars = Some (map word_of (rule_items p))) as ->.
  { unfold rule_var, rule_items. rewrite Hr. destruct (y_seccomp_rule_name p) as [[|c s]|]; reflexivity. }
  cbn [then_]. unfold items, int_items, str_items. rewrite !map_app, <- !app_assoc. reflexivity.
Qed.

Lemma same_proper n v : is_valued judger_names (lit n) -> proper (same n v).
Proof.
  intros V. destruct (no_equal_names (lit n) true V) as (Ne & C & Nn).
  split; [split; [unfold names; apply in_map_iff; exists (lit n, true); auto|left; reflexivity]|].
  split; [exact V|]. auto.
Qed.

Ltac in_names := vm_compute; intuition fail.
Lemma valued_args : is_valued judger_names (lit "args"). Proof. in_names. Qed.
Lemma valued_env : is_valued judger_names (lit "env"). Proof. in_names. Qed.
Lemma int_valued p n z : In (n, z) (ints_of p) -> is_valued judger_names (lit n) /\ In (mkOpt (lit n) Number 1) judger_options.
Proof.
  intros I. unfold ints_of in I. cbn [In] in I.
  repeat (destruct I as [I|I]; [injection I as <- _; split; [in_names|cbn [judger_options In]; unfold opt_; tauto]|]). destruct I.
Qed.
Lemma str_valued p n z : In (n, z) (strs_of p) -> is_valued judger_names (lit n) /\ In (mkOpt (lit n) Text 1) judger_options.
Proof.
  intros I. unfold strs_of in I. cbn [In] in I.
  repeat (destruct I as [I|I]; [injection I as <- _; split; [in_names|cbn [judger_options In]; unfold opt_; tauto]|]). destruct I.
Qed.

Lemma rule_stands : stands_for judger_names (lit "seccomp_rule") (lit "seccomp_rule_name").
Proof.
  split; [in_names|]. right. split; [vm_compute; intuition discriminate|]. split; [exists (lit "_name"); reflexivity|].
  intros n' I [r' P]. cbn in I.
  repeat (destruct I as [<-|I]; [first [reflexivity|vm_compute in P; discriminate P]|]). destruct I.
Qed.

Inductive item_of (p : py_call) : item -> Prop :=
| item_arg s : In s (y_args p) -> item_of p (same "args" s)
| item_env s : In s (y_env p) -> item_of p (same "env" s)
| item_int n z : In (n, z) (ints_of p) -> z <> (-1)%Z -> item_of p (same n (fmt_d z))
| item_str n s : In (n, s) (strs_of p) -> item_of p (same n s)
| item_rule s : y_seccomp_rule_name p = Some s -> s <> [] -> item_of p (mkItem (lit "seccomp_rule") (lit "seccomp_rule_name") s).

Lemma items_in p t : In t (items p) <-> item_of p t.
Proof.
  unfold items. rewrite !in_app_iff, !in_map_iff. unfold int_items. rewrite in_flat_map. unfold str_items. rewrite in_map_iff. split.
  - intros [(s & <- & I)|[(s & <- & I)|[([n z] & I & J)|[([n s] & <- & I)|I]]]].
    + constructor; exact I.
    + constructor; exact I.
    + cbn [fst snd] in J. destruct (Z.eqb_spec z (-1)) as [->|N]; [destruct J|]. destruct J as [<-|[]]. constructor; assumption.
    + constructor; exact I.
    + unfold rule_items in I. destruct (y_seccomp_rule_name p) as [[|c s]|] eqn:E; [destruct I| |destruct I].
      destruct I as [<-|[]]. constructor; [exact E|discriminate].
  - intros [s I|s I|n z I N|n s I|s E N].
    + left. eauto.
    + right. left. eauto.
    + right. right. left. exists (n, z). split; [exact I|]. cbn [fst snd]. destruct (Z.eqb_spec z (-1)); [contradiction|]. left. reflexivity.
    + right. right. right. left. exists (n, s). auto.
    + right. right. right. right. unfold rule_items. rewrite E. destruct s; [contradiction|]. left. reflexivity.
Qed.

Lemma items_proper p : Forall proper (items p).
Proof.
  apply Forall_forall. intros t I. apply items_in in I. destruct I as [s I|s I|n z I N|n s I|s E N].
  - apply same_proper, valued_args.
  - apply same_proper, valued_env.
  - apply same_proper. apply (int_valued p n z I).
  - apply same_proper. apply (str_valued p n s I).
  - split; [exact rule_stands|]. split; [in_names|]. split; [vm_compute; intuition discriminate|].
    split; [discriminate|]. vm_compute. intuition discriminate.
Qed.

Lemma items_no_flag p n m : In (mkOpt (lit n) Flag m) judger_options -> ~ mentions (map event_of (items p)) n.
Proof.
  intros F. apply no_flags. intros t I E. apply items_in in I. destruct I as [s I|s I|n' z I N|n' s I|s Er N]; cbn [i_name same] in E.
  - assert (In (mkOpt (lit "args") Text 255) judger_options) as X by in_options. rewrite E in X. destruct (option_unique _ _ _ _ _ F X). discriminate.
  - assert (In (mkOpt (lit "env") Text 255) judger_options) as X by in_options. rewrite E in X. destruct (option_unique _ _ _ _ _ F X). discriminate.
  - pose proof (proj2 (int_valued p n' z I)) as X. rewrite E in X. destruct (option_unique _ _ _ _ _ F X). discriminate.
  - pose proof (proj2 (str_valued p n' s I)) as X. rewrite E in X. destruct (option_unique _ _ _ _ _ F X). discriminate.
  - assert (In (mkOpt (lit "seccomp_rule_name") Text 1) judger_options) as X by in_options. rewrite E in X. destruct (option_unique _ _ _ _ _ F X). discriminate.
Qed.

(** ** The values per option *)
Lemma if_same {A} (b : bool) (x : A) : (if b then x else x) = x. Proof. destruct b; reflexivity. Qed.
Ltac eqs := repeat match goal with |- context [str_eqb (lit ?a) (lit ?b)] =>
  let r := eval vm_compute in (str_eqb (lit a) (lit b)) in change (str_eqb (lit a) (lit b)) with r end.
Ltac compute_values := unfold items, int_items, str_items, ints_of, strs_of, same; cbn [flat_map map fst snd];
  rewrite !values_app, !values_map, ?values_cond; rewrite <- ?app_assoc.

Lemma values_str_list n (l : list (string * str)) :
  values n (map (fun ns : string * str => same (fst ns) (snd ns)) l) = flat_map (fun ns => if str_eqb (lit (fst ns)) n then [snd ns] else []) l.
Proof. induction l as [|[a b] l IH]; [reflexivity|]. cbn [map flat_map fst snd]. cbn [values same i_name i_value]. rewrite IH. destruct (str_eqb (lit a) n); reflexivity. Qed.
Lemma values_int_list n (l : list (string * Z)) :
  values n (flat_map (fun nz : string * Z => if (snd nz =? -1)%Z then [] else [same (fst nz) (fmt_d (snd nz))]) l) =
  flat_map (fun nz => if str_eqb (lit (fst nz)) n then if (snd nz =? -1)%Z then [] else [fmt_d (snd nz)] else []) l.
Proof.
  induction l as [|[a b] l IH]; [reflexivity|]. cbn [flat_map fst snd]. rewrite values_app, IH. unfold same. rewrite values_cond. reflexivity.
Qed.
Lemma values_rule n p : values n (rule_items p) =
  if str_eqb (lit "seccomp_rule_name") n then match y_seccomp_rule_name p with Some (c :: s) => [c :: s] | _ => [] end else [].
Proof. unfold rule_items. destruct (y_seccomp_rule_name p) as [[|c s]|]; cbn [values i_name i_value]; destruct (str_eqb (lit "seccomp_rule_name") n); reflexivity. Qed.

Lemma values_items n p : values n (items p) =
  (if str_eqb (lit "args") n then y_args p else []) ++ (if str_eqb (lit "env") n then y_env p else []) ++
  flat_map (fun nz => if str_eqb (lit (fst nz)) n then if (snd nz =? -1)%Z then [] else [fmt_d (snd nz)] else []) (ints_of p) ++
  flat_map (fun ns => if str_eqb (lit (fst ns)) n then [snd ns] else []) (strs_of p) ++
  (if str_eqb (lit "seccomp_rule_name") n then match y_seccomp_rule_name p with Some (c :: s) => [c :: s] | _ => [] end else []).
Proof.
  unfold items. rewrite !values_app. unfold int_items, str_items. rewrite values_int_list, values_str_list, values_rule.
  unfold same. rewrite !values_map. reflexivity.
Qed.

Ltac values_are := rewrite values_items; unfold ints_of, strs_of; cbn [flat_map fst snd]; eqs; cbv iota; cbn [app]; rewrite ?app_nil_r; try reflexivity.
Lemma values_args p : values (lit "args") (items p) = y_args p. Proof. values_are. Qed.
Lemma values_env p : values (lit "env") (items p) = y_env p. Proof. values_are. Qed.
Lemma values_int p n z : In (n, z) (ints_of p) -> values (lit n) (items p) = if (z =? -1)%Z then [] else [fmt_d z].
Proof.
  intros I. unfold ints_of in I. cbn [In] in I. repeat (destruct I as [I|I]; [injection I as <- <-; values_are|]). destruct I.
Qed.
Lemma values_str p n s : In (n, s) (strs_of p) -> values (lit n) (items p) = [s].
Proof.
  intros I. unfold strs_of in I. cbn [In] in I. repeat (destruct I as [I|I]; [injection I as <- <-; values_are|]). destruct I.
Qed.
Lemma values_rule_name p : values (lit "seccomp_rule_name") (items p) = match y_seccomp_rule_name p with Some (c :: s) => [c :: s] | _ => [] end.
Proof. values_are. Qed.
Lemma values_flag p n m : In (mkOpt (lit n) Flag m) judger_options -> values (lit n) (items p) = [].
Proof.
  intros F. pose proof (items_no_flag p n m F) as N.
  destruct (values (lit n) (items p)) as [|v l] eqn:E; [reflexivity|]. exfalso.
  assert (forall ts v, In v (values (lit n) ts) -> exists t, In t ts /\ i_name t = lit n) as H.
  { clear. induction ts as [|t ts IH]; intros v I; [destruct I|]. cbn in I. destruct (str_eqb (i_name t) (lit n)) eqn:E.
    - apply str_eqb_eq in E. exists t. split; [left; reflexivity|exact E].
    - destruct (IH v I) as (t' & I' & E'). exists t'. split; [right; exact I'|exact E']. }
  destruct (H (items p) v) as (t & I & Et); [rewrite E; left; reflexivity|].
  apply N. exists (Some (i_value t)), (word_of t). rewrite <- Et. apply in_map_iff. exists t. auto.
Qed.

(** ** Numbers in decimal *)
Lemma fmt_d_int z : is_int z -> int_text (fmt_d z) z.
Proof. intros _. apply plain_is_int. exact (decimal_plain z). Qed.
Lemma fmt_d_only z v : int_text (fmt_d z) v -> is_int v -> v = z.
Proof.
  intros T R. pose proof (proj2 (scan_stored _ _) (conj T R)) as S. destruct (plain_scan _ _ (decimal_plain z)) as [A B].
  change (decimal z) with (fmt_d z) in *.
  assert (is_int z \/ ~ is_int z) as [D|D] by (unfold is_int; lia).
  - rewrite (A D) in S. congruence.
  - rewrite (B D) in S. congruence.
Qed.
Lemma fmt_d_not_negated z : ~ negated_min (fmt_d z).
Proof. exact (plain_not_negated _ _ (decimal_plain z)). Qed.
Lemma fmt_d_nonempty z : fmt_d z <> [].
Proof. destruct (decimal_signed z) as (sg & s & ds & v & E & _ & N & _). change (fmt_d z) with (decimal z). rewrite E. destruct N; destruct sg; discriminate || (destruct s0; discriminate). Qed.
Lemma fmt_d_c z : c_string (fmt_d z).
Proof.
  destruct (decimal_signed z) as (sg & s & ds & v & E & S & N & _). change (fmt_d z) with (decimal z). rewrite E. unfold c_string, no_char.
  rewrite in_app_iff. intros [I|I].
  - destruct S as [[-> _]|[-> _]]; [destruct I|destruct I as [I|[]]; discriminate I].
  - clear E. induction N as [c d D|t w c d N IH D].
    + destruct I as [->|[]]. apply digit_of_complete in D; [|unfold base_ok; auto]. vm_compute in D. discriminate.
    + apply in_app_iff in I. destruct I as [I|[->|[]]]; [exact (IH I)|].
      apply digit_of_complete in D; [|unfold base_ok; auto]. vm_compute in D. discriminate.
Qed.
