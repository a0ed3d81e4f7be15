(** The Node binding: the command line. *)
From Coq Require Import ZArith Bool List Ascii String Arith Lia.
From Verif.Base Require Import CInt CStr CMem.
From Verif.Model Require Import Config ArgInt Argtable Main Messages NodeBinding.
From Verif.Spec Require Import IntText CmdLine Invocation NodeSpec.
From Verif.Proofs Require Import ArgIntProofs ArgIntClaims DecimalFacts InvocationProofs MainProofs InvocationClaims CommandClaims PythonProofs PythonClaims.
Import ListNotations.
Open Scope list_scope.
Open Scope nat_scope.

(** ** The words *)
Definition k_int_items (p : node_call) : list item :=
  flat_map (fun nz : string * option Z => match snd nz with Some z => [same (fst nz) (fmt_d z)] | None => [] end) (k_ints p).
Definition k_str_items (p : node_call) : list item :=
  flat_map (fun ns : string * option str => match snd ns with Some s => [same (fst ns) s] | None => [] end) (k_strs p).
Definition k_items (p : node_call) : list item :=
  k_int_items p ++ k_str_items p ++ map (same "args") (k_args p) ++ map (same "env") (k_env p).

Definition spaced (ts : list item) : str := List.concat (map (fun t => lit " " ++ word_of t) ts).
Lemma spaced_app a b : spaced (a ++ b) = spaced a ++ spaced b.
Proof. unfold spaced. rewrite map_app, concat_app. reflexivity. Qed.
Lemma js_option_word key v : js_option key v = lit " " ++ word_of (same key v).
Proof. reflexivity. Qed.
Lemma spaced_one key v : spaced [same key v] = js_option key v.
Proof. unfold spaced. cbn [map List.concat]. rewrite app_nil_r. reflexivity. Qed.

Definition cstring (s : str) : Prop := c_string s /\ List.length s <= 254.
Lemma cstr_whole s : c_string s -> cstr (terminated s) = Val s.
Proof.
  unfold terminated, bytes. induction s as [|c s IH]; intros C; [reflexivity|]. cbn [map app cstr].
  destruct (aeqb c NUL) eqn:E; [apply aeqb_eq in E; subst; destruct C; left; reflexivity|].
  rewrite IH by (intros I; apply C; right; exact I). reflexivity.
Qed.
Lemma to_char_ptr_id s : cstring s -> to_char_ptr s = NVal s.
Proof.
  intros [C L]. unfold to_char_ptr. rewrite (cstr_whole s C).
  destruct (Nat.ltb_spec (List.length s) 255); [reflexivity|lia].
Qed.

Lemma each_int o l s : (forall n z, In (n, z) l -> o n = match z with Some z => JSNum z | None => JSNull end) ->
  node_each (to_number o) (map fst l) s =
  NVal (s ++ spaced (flat_map (fun nz : string * option Z => match snd nz with Some z => [same (fst nz) (fmt_d z)] | None => [] end) l)).
Proof.
  revert s. induction l as [|[n z] l IH]; intros s H; [cbn; rewrite app_nil_r; reflexivity|].
  cbn [map node_each fst snd flat_map]. unfold to_number at 1. rewrite (H n z) by (left; reflexivity).
  destruct z as [z|]; cbn [nbind]; rewrite IH by (intros n' z' I; apply H; right; exact I); [|reflexivity].
  rewrite spaced_app, spaced_one, app_assoc. reflexivity.
Qed.

Lemma each_str o l s : (forall n z, In (n, z) l -> o n = match z with Some z => JSStr z | None => JSNull end) ->
  (forall n z, In (n, Some z) l -> cstring z) ->
  node_each (to_cstr (JSObj o)) (map fst l) s =
  NVal (s ++ spaced (flat_map (fun ns : string * option str => match snd ns with Some s => [same (fst ns) s] | None => [] end) l)).
Proof.
  revert s. induction l as [|[n z] l IH]; intros s H C; [cbn; rewrite app_nil_r; reflexivity|].
  assert (forall n' z', In (n', z') l -> o n' = match z' with Some z => JSStr z | None => JSNull end) as H' by (intros n' z' I; apply H; right; exact I).
  assert (forall n' z', In (n', Some z') l -> cstring z') as C' by (intros n' z' I; apply (C n'); right; exact I).
  cbn [map node_each fst snd flat_map]. unfold to_cstr at 1. rewrite (H n z) by (left; reflexivity).
  destruct z as [z|].
  - rewrite (to_char_ptr_id z) by (apply (C n); left; reflexivity). cbn [nbind]. rewrite IH by assumption.
    rewrite spaced_app, spaced_one, app_assoc. reflexivity.
  - cbn [nbind]. rewrite IH by assumption. reflexivity.
Qed.

Lemma each_element key l ss s : elements l ss -> Forall cstring ss ->
  node_each (fun v => to_cstr v key) l s = NVal (s ++ spaced (map (same key) ss)).
Proof.
  intros E. revert s. induction E as [|t l ss E IH|l ss E IH]; intros s F.
  - cbn. rewrite app_nil_r. reflexivity.
  - apply Forall_cons_iff in F as [C F]. cbn [node_each]. unfold to_cstr at 1. rewrite (to_char_ptr_id t C). cbn [nbind].
    rewrite IH by exact F. cbn [map]. change (same key t :: map (same key) ss) with ([same key t] ++ map (same key) ss).
    rewrite spaced_app, spaced_one, app_assoc. reflexivity.
  - cbn [node_each]. unfold to_cstr at 1. cbn [nbind]. apply IH, F.
Qed.

Definition cstrings (p : node_call) : Prop :=
  (forall n s, In (n, Some s) (k_strs p) -> cstring s) /\ Forall cstring (k_args p) /\ Forall cstring (k_env p).

Lemma command_of o p : object_of o p -> env_with_args o -> cstrings p -> node_command o = NVal (judger_path ++ spaced (k_items p)).
Proof.
  intros (Hi & Hs & Ha & He) Hea (Cs & Ca & Ce). unfold node_command.
  change node_int_vars with (map fst (k_ints p)). rewrite (each_int o _ _ Hi). cbn [nbind].
  change node_str_vars with (map fst (k_strs p)). rewrite (each_str o _ _ Hs Cs). cbn [nbind].
  assert (forall s, node_args o s = NVal (s ++ spaced (map (same "args") (k_args p)))) as Ea.
  { intros s. unfold node_args. destruct Ha as [[-> ->]|(l & -> & E)]; [cbn; rewrite app_nil_r; reflexivity|]. apply each_element; assumption. }
  rewrite Ea. cbn [nbind].
  assert (forall s, node_env o s = NVal (s ++ spaced (map (same "env") (k_env p)))) as Ee.
  { intros s. unfold node_env. destruct He as [[-> ->]|(l & E1 & E)]; [cbn; rewrite app_nil_r; reflexivity|].
    rewrite E1. destruct Hea as [Hea|(l' & ->)]; [congruence|]. apply each_element; assumption. }
  rewrite Ee. unfold k_items. fold (k_int_items p) (k_str_items p). rewrite !spaced_app, <- !app_assoc. reflexivity.
Qed.

(** ** The shell *)
Lemma shell_neutral_iff c : shell_neutral c = true <-> plain_char c.
Proof.
  unfold shell_neutral, plain_char. cbv zeta. rewrite !orb_true_iff, !andb_true_iff, !Nat.leb_le, existsb_exists.
  assert ((exists x, In x (lit "_-./=:,+@%") /\ aeqb c x = true) <-> In c (lit "_-./=:,+@%")) as ->.
  { split; [intros (x & I & E); apply aeqb_eq in E; subst; exact I|]. intros I. exists c. split; [exact I|apply aeqb_eq; reflexivity]. }
  tauto.
Qed.

Definition nice (s : str) : Prop := Forall (fun c => shell_neutral c = true) s.
Lemma lex_word s rest word words : nice s -> lex (s ++ rest) word words = lex rest (word ++ s) words.
Proof.
  intros F. revert word. induction F as [|c s H F IH]; intros word; [rewrite app_nil_r; reflexivity|].
  cbn [app lex]. rewrite H, IH, <- app_assoc. reflexivity.
Qed.
Lemma lex_space rest word words : lex (lit " " ++ rest) word words = lex rest [] (end_word word words).
Proof. reflexivity. Qed.
Lemma end_word_cons w ws : w <> [] -> end_word w ws = ws ++ [w].
Proof. destruct w; [congruence|reflexivity]. Qed.

Lemma lex_words ts w words : w <> [] -> Forall (fun t => nice (word_of t) /\ word_of t <> []) ts ->
  lex (spaced ts) w words = match words ++ [w] ++ map word_of ts with [] => Some [] | ws => if simple_command ws then Some [ws] else None end.
Proof.
  intros N F. revert w words N. induction F as [|t ts [Nt Ne] F IH]; intros w words N.
  - cbn [spaced map List.concat lex]. rewrite end_word_cons by exact N. cbn [map app]. reflexivity.
  - change (spaced (t :: ts)) with (((lit " " ++ word_of t) ++ spaced ts)). rewrite <- app_assoc, lex_space, lex_word by exact Nt.
    cbn [app]. rewrite IH by exact Ne. rewrite end_word_cons by exact N. cbn [map app]. rewrite <- app_assoc. reflexivity.
Qed.

Lemma lit_nice s : forallb shell_neutral (lit s) = true -> nice (lit s).
Proof. intros H. apply Forall_forall. intros c I. rewrite forallb_forall in H. exact (H c I). Qed.

Lemma shell_words ts : Forall (fun t => nice (word_of t) /\ word_of t <> []) ts ->
  shell (judger_path ++ spaced ts) = Some [judger_path :: map word_of ts].
Proof.
  intros F. unfold shell. rewrite lex_word by (apply lit_nice; reflexivity). cbn [app].
  rewrite lex_words; [|discriminate|exact F]. cbn [app].
  assert (forall l, simple_command (judger_path :: l) = true) as E by reflexivity.
  change judger_path with (lit "/usr/lib/judger/libjudger.so") in *. cbv [lit] in *. cbn [list_ascii_of_string] in *. rewrite E. reflexivity.
Qed.

(** ** Items *)
Inductive k_item (p : node_call) : item -> Prop :=
| k_item_int n z : In (n, Some z) (k_ints p) -> k_item p (same n (fmt_d z))
| k_item_str n s : In (n, Some s) (k_strs p) -> k_item p (same n s)
| k_item_arg s : In s (k_args p) -> k_item p (same "args" s)
| k_item_env s : In s (k_env p) -> k_item p (same "env" s).
Lemma k_items_in p t : In t (k_items p) <-> k_item p t.
Proof.
  unfold k_items, k_int_items, k_str_items. rewrite !in_app_iff, !in_flat_map, !in_map_iff. split.
  - intros [([n [z|]] & I & J)|[([n [z|]] & I & J)|[(s & <- & I)|(s & <- & I)]]]; cbn [fst snd In] in *.
    + destruct J as [<-|[]]. apply k_item_int, I.
    + destruct J.
    + destruct J as [<-|[]]. apply k_item_str, I.
    + destruct J.
    + apply k_item_arg, I.
    + apply k_item_env, I.
  - intros [n z I|n s I|s I|s I].
    + left. exists (n, Some z). split; [exact I|left; reflexivity].
    + right. left. exists (n, Some s). split; [exact I|left; reflexivity].
    + right. right. left. eauto.
    + right. right. right. eauto.
Qed.

Lemma k_int_valued p n z : In (n, z) (k_ints p) -> is_valued judger_names (lit n) /\ In (mkOpt (lit n) Number 1) judger_options.
Proof.
  intros I. unfold k_ints in I. cbn [In] in I.
  repeat (destruct I as [I|I]; [injection I as <- _; split; [in_names|cbn [judger_options In]; unfold opt_; tauto]|]). destruct I.
Qed.
Lemma k_str_valued p n z : In (n, z) (k_strs p) -> is_valued judger_names (lit n) /\ In (mkOpt (lit n) Text 1) judger_options.
Proof.
  intros I. unfold k_strs in I. cbn [In] in I.
  repeat (destruct I as [I|I]; [injection I as <- _; split; [in_names|cbn [judger_options In]; unfold opt_; tauto]|]). destruct I.
Qed.
Lemma k_proper p : Forall proper (k_items p).
Proof.
  apply Forall_forall. intros t I. apply k_items_in in I. destruct I as [n z I|n s I|s I|s I].
  - apply same_proper. apply (k_int_valued p n _ I).
  - apply same_proper. apply (k_str_valued p n _ I).
  - apply same_proper, valued_args.
  - apply same_proper, valued_env.
Qed.

Lemma k_kind p t : k_item p t -> exists k m, In (mkOpt (i_name t) k m) judger_options /\ k <> Flag /\ (k = Number -> exists z, i_value t = fmt_d z).
Proof.
  intros [n z I|n s I|s I|s I].
  - exists Number, 1. split; [apply (k_int_valued p n _ I)|]. split; [discriminate|]. intros _. exists z. reflexivity.
  - exists Text, 1. split; [apply (k_str_valued p n _ I)|]. split; discriminate.
  - exists Text, 255. split; [cbn [same i_name]; in_options|]. split; discriminate.
  - exists Text, 255. split; [cbn [same i_name]; in_options|]. split; discriminate.
Qed.
Lemma k_no_flag p n m : In (mkOpt (lit n) Flag m) judger_options -> ~ mentions (map event_of (k_items p)) n.
Proof.
  intros F. apply no_flags. intros t I E. apply k_items_in, k_kind in I. destruct I as (k & m' & I & N & _). rewrite E in I.
  destruct (option_unique _ _ _ _ _ F I). congruence.
Qed.
Lemma k_harmless p : harmless (map event_of (k_items p)).
Proof.
  intros (es1 & n & v & w & es2 & acc & fs & m & E & _ & I & _ & N).
  assert (In (Given n (Some v) w) (map event_of (k_items p))) as J by (rewrite E; apply in_or_app; right; left; reflexivity).
  apply in_map_iff in J. destruct J as (t & Et & J). injection Et as En Ev _. apply k_items_in, k_kind in J.
  destruct J as (k & m' & J & _ & V). rewrite En in J. destruct (option_unique _ _ _ _ _ I J) as [<- _].
  destruct (V eq_refl) as [z Z]. rewrite <- Ev, Z in N. exact (fmt_d_not_negated z N).
Qed.

(** ** Values *)
Definition one_of {A} (x : option A) : list A := match x with Some a => [a] | None => [] end.
Lemma values_k_int n (l : list (string * option Z)) :
  values n (flat_map (fun nz : string * option Z => match snd nz with Some z => [same (fst nz) (fmt_d z)] | None => [] end) l) =
  flat_map (fun nz => if str_eqb (lit (fst nz)) n then map fmt_d (one_of (snd nz)) else []) l.
Proof.
  induction l as [|[a [b|]] l IH]; [reflexivity| |]; cbn [flat_map fst snd one_of map]; rewrite values_app, IH.
  - cbn [values same i_name i_value]. destruct (str_eqb (lit a) n); reflexivity.
  - destruct (str_eqb (lit a) n); reflexivity.
Qed.
Lemma values_k_str n (l : list (string * option str)) :
  values n (flat_map (fun ns : string * option str => match snd ns with Some z => [same (fst ns) z] | None => [] end) l) =
  flat_map (fun ns => if str_eqb (lit (fst ns)) n then one_of (snd ns) else []) l.
Proof.
  induction l as [|[a [b|]] l IH]; [reflexivity| |]; cbn [flat_map fst snd one_of map]; rewrite values_app, IH.
  - cbn [values same i_name i_value]. destruct (str_eqb (lit a) n); reflexivity.
  - destruct (str_eqb (lit a) n); reflexivity.
Qed.
Lemma values_k n p : values n (k_items p) =
  flat_map (fun nz => if str_eqb (lit (fst nz)) n then map fmt_d (one_of (snd nz)) else []) (k_ints p) ++
  flat_map (fun ns => if str_eqb (lit (fst ns)) n then one_of (snd ns) else []) (k_strs p) ++
  (if str_eqb (lit "args") n then k_args p else []) ++ (if str_eqb (lit "env") n then k_env p else []).
Proof.
  unfold k_items, k_int_items, k_str_items. rewrite !values_app, values_k_int, values_k_str. unfold same. rewrite !values_map. reflexivity.
Qed.
Ltac k_values := rewrite values_k; unfold k_ints, k_strs; cbn [flat_map fst snd]; eqs; cbv iota; cbn [app]; rewrite ?app_nil_r; try reflexivity.
Lemma k_values_args p : values (lit "args") (k_items p) = k_args p. Proof. k_values. Qed.
Lemma k_values_env p : values (lit "env") (k_items p) = k_env p. Proof. k_values. Qed.
Lemma k_values_int p n z : In (n, z) (k_ints p) -> values (lit n) (k_items p) = map fmt_d (one_of z).
Proof. intros I. unfold k_ints in I. cbn [In] in I. repeat (destruct I as [I|I]; [injection I as <- <-; k_values|]). destruct I. Qed.
Lemma k_values_str p n z : In (n, z) (k_strs p) -> values (lit n) (k_items p) = one_of z.
Proof. intros I. unfold k_strs in I. cbn [In] in I. repeat (destruct I as [I|I]; [injection I as <- <-; k_values|]). destruct I. Qed.
Lemma k_values_flag p n m : In (mkOpt (lit n) Flag m) judger_options -> values (lit n) (k_items p) = [].
Proof.
  intros F. pose proof (k_no_flag p n m F) as N.
  destruct (values (lit n) (k_items p)) as [|v l] eqn:E; [reflexivity|]. exfalso.
  assert (forall ts v, In v (values (lit n) ts) -> exists t, In t ts /\ i_name t = lit n) as H.
  { clear. induction ts as [|t ts IH]; intros v I; [destruct I|]. cbn in I. destruct (str_eqb (i_name t) (lit n)) eqn:E.
    - apply str_eqb_eq in E. exists t. split; [left; reflexivity|exact E].
    - destruct (IH v I) as (t' & I' & E'). exists t'. split; [right; exact I'|exact E']. }
  destruct (H (k_items p) v) as (t & I & Et); [rewrite E; left; reflexivity|].
  apply N. exists (Some (i_value t)), (word_of t). rewrite <- Et. apply in_map_iff. exists t. auto.
Qed.
Lemma one_of_length {A} (x : option A) : List.length (one_of x) <= 1. Proof. destruct x; cbn; lia. Qed.

Lemma k_most p n k m : In (mkOpt n k m) judger_options -> n <> lit "args" -> n <> lit "env" ->
  List.length (values n (k_items p)) <= 1 /\ m = 1.
Proof.
  intros I Na Ne. cbn [judger_options In] in I. unfold opt_ in I.
  repeat (destruct I as [I|I]; [pose proof (f_equal o_name I) as E1; pose proof (f_equal o_most I) as E2; cbn [o_name o_most] in E1, E2;
    clear I; first [exfalso; apply Na; symmetry; exact E1|exfalso; apply Ne; symmetry; exact E1|rewrite <- E1, <- E2; clear; split; [|reflexivity]]|]);
    [..|destruct I].
  1-2: match goal with |- context [values (lit ?n)] => rewrite (k_values_flag p n 1) by in_options end; cbn; lia.
  all: first [
    solve [erewrite k_values_int; [rewrite map_length; apply one_of_length|unfold k_ints; cbn [In]; repeat (try (left; reflexivity); right)]]|
    solve [erewrite k_values_str; [apply one_of_length|unfold k_strs; cbn [In]; repeat (try (left; reflexivity); right)]]].
Qed.

(** ** Faults *)
Definition k_sound (p : node_call) : Prop :=
  (forall n z, In (n, Some z) (k_ints p) -> is_int z) /\
  (forall n s, In (n, Some s) (k_strs p) -> s <> []) /\
  Forall (fun s => s <> []) (k_args p) /\ Forall (fun s => s <> []) (k_env p) /\
  List.length (k_args p) <= 255 /\ List.length (k_env p) <= 255 /\ k_exe_path p <> None.

Lemma k_numbers p n m : In (mkOpt n Number m) judger_options -> exists n' z, n = lit n' /\ In (n', z) (k_ints p).
Proof.
  intros I.
  assert (In n (map (fun x => lit (fst x)) (k_ints p))) as H.
  { cbn [judger_options In] in I. unfold opt_ in I.
    repeat (destruct I as [I|I]; [try discriminate I; apply (f_equal o_name) in I; cbn [o_name] in I; rewrite <- I; unfold k_ints; cbn [map fst In]; tauto|]).
    destruct I. }
  apply in_map_iff in H. destruct H as ([n' z] & <- & K). exists n', z. auto.
Qed.

Lemma k_given n p : given n (map event_of (k_items p)) = map Some (values n (k_items p)).
Proof. apply given_items. Qed.

Lemma k_faultless p : faultless (map event_of (k_items p)) [] <-> k_sound p.
Proof.
  split.
  - intros (_ & F2 & F3 & F4 & F5).
    assert (forall t, In t (k_items p) -> i_value t <> []) as Ne.
    { intros t I E. destruct (F2 (event_of t)) as (n & v & w & Ev & N); [apply in_map, I|]. unfold event_of in Ev. rewrite E in Ev. injection Ev as _ Ev _. rewrite <- Ev in N. apply N. reflexivity. }
    split; [|split; [|split; [|split; [|split; [|split]]]]].
    + intros n z I. destruct (k_int_valued p n _ I) as [_ O].
      destruct (F3 (lit n) 1 (fmt_d z) O) as (v & T & R).
      * rewrite k_given, In_some, (k_values_int p n _ I). left. reflexivity.
      * rewrite <- (fmt_d_only z v T R). exact R.
    + intros n s I. apply (Ne (same n s)). apply k_items_in, k_item_str, I.
    + apply Forall_forall. intros s I. apply (Ne (same "args" s)). apply k_items_in, k_item_arg, I.
    + apply Forall_forall. intros s I. apply (Ne (same "env" s)). apply k_items_in, k_item_env, I.
    + specialize (F4 (lit "args") Text 255 ltac:(in_options)). rewrite k_given, map_length, k_values_args in F4. exact F4.
    + specialize (F4 (lit "env") Text 255 ltac:(in_options)). rewrite k_given, map_length, k_values_env in F4. exact F4.
    + intros E. rewrite k_given, map_length, (k_values_str p "exe_path" (k_exe_path p)) in F5 by (cbn; tauto). rewrite E in F5. discriminate F5.
  - intros (Hi & Hs & Ha & He & La & Le & Hx). rewrite Forall_forall in Ha, He. split; [reflexivity|].
    split; [|split; [|split]].
    + intros e I. apply in_map_iff in I. destruct I as (t & <- & I). eexists _, _, _. split; [reflexivity|].
      intros E. injection E as E. apply k_items_in in I. destruct I as [n z I|n s I|s I|s I]; cbn [same i_value] in E.
      * exact (fmt_d_nonempty z E).
      * exact (Hs n s I E).
      * exact (Ha s I E).
      * exact (He s I E).
    + intros n m v I J. rewrite k_given, In_some in J. destruct (k_numbers p n m I) as (n' & z & -> & K).
      rewrite (k_values_int p n' z K) in J. destruct z as [z|]; [|destruct J]. destruct J as [<-|[]].
      exists z. split; [apply fmt_d_int|]; exact (Hi n' z K).
    + intros n k m I. rewrite k_given, map_length.
      destruct (list_eq_dec Ascii.ascii_dec n (lit "args")) as [->|Na].
      { assert (In (mkOpt (lit "args") Text 255) judger_options) as X by in_options. destruct (option_unique _ _ _ _ _ I X) as [_ ->]. rewrite k_values_args. exact La. }
      destruct (list_eq_dec Ascii.ascii_dec n (lit "env")) as [->|Nv].
      { assert (In (mkOpt (lit "env") Text 255) judger_options) as X by in_options. destruct (option_unique _ _ _ _ _ I X) as [_ ->]. rewrite k_values_env. exact Le. }
      destruct (k_most p n k m I Na Nv) as [L ->]. exact L.
    + rewrite k_given, map_length, (k_values_str p "exe_path" (k_exe_path p)) by (cbn; tauto). destruct (k_exe_path p); [reflexivity|congruence].
Qed.

(** ** The configuration *)
Lemma taken_number_of acc n z : Forall2 (meaning Number) (map Some (map fmt_d (one_of z))) (taken (lit n) acc) ->
  forall d, number_of acc n d = or_else z d.
Proof.
  intros F d. unfold number_of. destruct z as [z|]; cbn [map one_of] in F; [|inversion F; reflexivity].
  inversion F as [|v x vs xs M F' Ev Ex]; subst. destruct x; cbn in M; try contradiction. destruct M as [T R]. exact (fmt_d_only z _ T R).
Qed.
Lemma taken_text_of acc n z : Forall2 (meaning Text) (map Some (one_of z)) (taken (lit n) acc) ->
  forall d, text_of acc n d = match z with Some s => Some s | None => d end.
Proof. intros F d. destruct z as [s|]; [exact (taken_text acc n s F d)|exact (taken_none acc n F d)]. Qed.

Lemma k_asked p c : configured_by (map event_of (k_items p)) c -> k_exe_path p <> None -> requests p c.
Proof.
  intros (acc & Cf & M) X. unfold configured in Cf.
  destruct Cf as (E1 & E2 & E3 & E4 & E5 & E6 & E7 & E8 & E9 & E10 & E11 & E12 & E13 & E14 & E15 & E16 & E17).
  assert (forall n z, In (n, z) (k_ints p) -> forall d, number_of acc n d = or_else z d) as Nu.
  { intros n z I. apply taken_number_of. rewrite <- (k_values_int p n z I), <- k_given. apply (M (lit n) Number 1). apply (k_int_valued p n z I). }
  assert (forall n s, In (n, s) (k_strs p) -> forall d, text_of acc n d = match s with Some s => Some s | None => d end) as Te.
  { intros n s I. apply taken_text_of. rewrite <- (k_values_str p n s I), <- k_given. apply (M (lit n) Text 1). apply (k_str_valued p n s I). }
  assert (texts (taken (lit "args") acc) = k_args p) as Ta.
  { apply taken_texts. rewrite <- k_values_args, <- k_given. apply (M (lit "args") Text 255). in_options. }
  assert (texts (taken (lit "env") acc) = k_env p) as Tv.
  { apply taken_texts. rewrite <- k_values_env, <- k_given. apply (M (lit "env") Text 255). in_options. }
  rewrite (Nu "max_cpu_time"%string (k_max_cpu_time p)) in E1 by (cbn; tauto).
  rewrite (Nu "max_real_time"%string (k_max_real_time p)) in E2 by (cbn; tauto).
  rewrite (Nu "max_memory"%string (k_max_memory p)) in E3 by (cbn; tauto).
  rewrite (Nu "max_stack"%string (k_max_stack p)) in E4 by (cbn; tauto).
  rewrite (Nu "max_process_number"%string (k_max_process_number p)) in E5 by (cbn; tauto).
  rewrite (Nu "max_output_size"%string (k_max_output_size p)) in E6 by (cbn; tauto).
  rewrite (Nu "memory_limit_check_only"%string (k_memory_limit_check_only p)) in E7 by (cbn; tauto).
  rewrite (Nu "uid"%string (k_uid p)) in E16 by (cbn; tauto).
  rewrite (Nu "gid"%string (k_gid p)) in E17 by (cbn; tauto).
  rewrite (Te "exe_path"%string (k_exe_path p)) in E8 by (cbn; tauto).
  rewrite (Te "input_path"%string (k_input_path p)) in E9 by (cbn; tauto).
  rewrite (Te "output_path"%string (k_output_path p)) in E10 by (cbn; tauto).
  rewrite (Te "error_path"%string (k_error_path p)) in E11 by (cbn; tauto).
  rewrite (Te "log_path"%string (k_log_path p)) in E14 by (cbn; tauto).
  rewrite (Te "seccomp_rule_name"%string (k_seccomp_rule_name p)) in E15 by (cbn; tauto).
  rewrite Ta in E12. rewrite Tv in E13.
  unfold requests.
  repeat split; try assumption.
  - destruct (k_exe_path p); [exact E8|congruence].
  - destruct (k_input_path p); exact E9.
  - destruct (k_output_path p); exact E10.
  - destruct (k_error_path p); exact E11.
  - destruct (k_log_path p); injection E14 as ->; reflexivity.
  - destruct (k_seccomp_rule_name p); exact E15.
Qed.

(** ** Plain calls *)
Lemma plain_nice s : Forall plain_char s -> nice s.
Proof. intros F. eapply Forall_impl; [|exact F]. intros c. apply shell_neutral_iff. Qed.
Lemma nice_app s t : nice s -> nice t -> nice (s ++ t).
Proof. intros A B. apply Forall_app. auto. Qed.
Lemma nice_c s : nice s -> c_string s.
Proof. intros F I. unfold nice in F. rewrite Forall_forall in F. apply F in I. vm_compute in I. discriminate I. Qed.
Lemma fmt_d_nice z : nice (fmt_d z).
Proof.
  destruct (decimal_signed z) as (sg & s & ds & v & E & S & N & _). change (fmt_d z) with (decimal z). rewrite E.
  apply nice_app.
  - destruct S as [[-> _]|[-> _]]; [constructor|]. constructor; [reflexivity|constructor].
  - assert (forall c d, digit 10 c d -> shell_neutral c = true) as Dg.
    { intros c d D. apply digit_of_complete in D; [|unfold base_ok; auto].
      destruct c as [[] [] [] [] [] [] [] []]; vm_compute in D |- *; first [reflexivity|discriminate D]. }
    clear E. induction N as [c d D|t w c d N IH D].
    + constructor; [exact (Dg c d D)|constructor].
    + apply nice_app; [exact IH|]. constructor; [exact (Dg c d D)|constructor].
Qed.
Lemma item_nice n v : nice (lit n) -> nice v -> nice (word_of (same n v)) /\ word_of (same n v) <> [].
Proof.
  intros A B. split; [|discriminate]. unfold word_of, setting_word, same. cbn [fst snd i_text i_value].
  repeat apply nice_app; [apply lit_nice; reflexivity|exact A|apply lit_nice; reflexivity|exact B].
Qed.
Lemma names_nice p n : In n (map fst (k_ints p)) \/ In n (map fst (k_strs p)) -> nice (lit n).
Proof.
  intros [I|I]; cbn in I; repeat (destruct I as [<-|I]; [apply lit_nice; reflexivity|]); destruct I.
Qed.
Lemma plain_items p : plain_call p -> Forall (fun t => nice (word_of t) /\ word_of t <> []) (k_items p).
Proof.
  intros (Ps & Pa & Pe). rewrite Forall_forall in Pa, Pe. apply Forall_forall. intros t I. apply k_items_in in I.
  destruct I as [n z I|n s I|s I|s I]; apply item_nice.
  - apply (names_nice p). left. apply (in_map fst) in I. exact I.
  - apply fmt_d_nice.
  - apply (names_nice p). right. apply (in_map fst) in I. exact I.
  - apply plain_nice. apply (Ps n s I).
  - apply lit_nice. reflexivity.
  - apply plain_nice. apply (Pa s I).
  - apply lit_nice. reflexivity.
  - apply plain_nice. apply (Pe s I).
Qed.
Lemma plain_cstring s : plain_text s -> cstring s.
Proof. intros [F L]. split; [apply nice_c, plain_nice, F|exact L]. Qed.
Lemma plain_cstrings p : plain_call p -> cstrings p.
Proof.
  intros (Ps & Pa & Pe). split; [intros n s I; apply plain_cstring, (Ps n s I)|].
  split; [eapply Forall_impl; [|exact Pa]|eapply Forall_impl; [|exact Pe]]; apply plain_cstring.
Qed.

Section Call.
Variables (posix : bool) (o : string -> jsval) (p : node_call).
Hypothesis O : object_of o p.
Hypothesis E : env_with_args o.
Hypothesis P : plain_call p.
Let ws := map word_of (k_items p).
Let es := map event_of (k_items p).

Lemma node_started : exists cmd, node_command o = NVal cmd /\ shell cmd = Some [judger_path :: ws].
Proof.
  exists (judger_path ++ spaced (k_items p)). split; [exact (command_of o p O E (plain_cstrings p P))|].
  apply shell_words, plain_items, P.
Qed.
Lemma k_reads : reads judger_names posix ws es [].
Proof. apply items_read, k_proper. Qed.
Lemma k_c : Forall c_string ws.
Proof.
  apply Forall_forall. intros w I. apply in_map_iff in I. destruct I as (t & <- & I).
  pose proof (plain_items p P) as F. rewrite Forall_forall in F. apply nice_c, (F t I).
Qed.
Lemma k_no_help : ~ mentions es "help".
Proof. apply (k_no_flag p "help" 1). in_options. Qed.
Lemma k_no_version : ~ mentions es "version".
Proof. apply (k_no_flag p "version" 1). in_options. Qed.
Lemma k_args_count : List.length (given (lit "args") es) = List.length (k_args p).
Proof. unfold es. rewrite k_given, map_length, k_values_args. reflexivity. Qed.

Lemma acceptable_iff : acceptable p <-> k_sound p /\ List.length (k_args p) <= 254.
Proof.
  unfold acceptable, k_sound. split.
  - intros (A & B & C & D & F & G & H). split; [|exact F]. repeat (split; [first [assumption|lia]|]). exact H.
  - intros ((A & B & C & D & F & G & H) & L). repeat (split; [first [assumption|lia]|]). exact H.
Qed.

Theorem node_valid : acceptable p -> exists c, does posix (judger_path :: ws) (Val (Run c)) /\ requests p c.
Proof.
  intros V. apply acceptable_iff in V. destruct V as (S & L).
  destruct (runs posix judger_path ws es [] k_c k_reads) as (c & D & Cf).
  - apply k_faultless, S.
  - exact k_no_help.
  - exact k_no_version.
  - rewrite k_args_count. exact L.
  - exists c. split; [exact D|apply k_asked; [exact Cf|apply S]].
Qed.
Theorem node_only c : does posix (judger_path :: ws) (Val (Run c)) -> acceptable p /\ requests p c.
Proof.
  intros D. destruct (does_run posix judger_path ws es [] k_c k_reads c D) as (F & Cf & _ & _ & L).
  apply k_faultless in F. rewrite k_args_count in L. split; [apply acceptable_iff; auto|apply k_asked; [exact Cf|apply F]].
Qed.
Theorem node_unacceptable : ~ acceptable p ->
  (exists errs, does posix (judger_path :: ws) (Val (Errors errs)) /\ errs <> [] /\ List.length errs <= 10) \/
  (List.length (k_args p) = 255 /\ does posix (judger_path :: ws) UB).
Proof.
  intros N. destruct (faultless_dec posix ws es [] k_reads (k_harmless p)) as [F|F].
  - right. pose proof (proj1 (k_faultless p) F) as S.
    assert (List.length (k_args p) = 255) as L.
    { destruct (le_lt_dec (List.length (k_args p)) 254) as [Le|Gt].
      - destruct N. apply acceptable_iff. auto.
      - destruct S as (_ & _ & _ & _ & S & _). lia. }
    split; [exact L|]. apply (full_args posix judger_path ws es [] k_c k_reads F k_no_help k_no_version). rewrite k_args_count. exact L.
  - left. apply (faulty posix judger_path ws es [] k_c k_reads F (k_harmless p) k_no_help k_no_version).
Qed.
End Call.
