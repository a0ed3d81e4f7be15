(** Proofs about Model/Seccomp.v. *)
From Coq Require Import ZArith Bool List String Lia.
From Verif.Base Require Import CInt CStr.
From Verif.Model Require Import Config Seccomp.
From Verif.Spec Require Import Syscalls.
Import ListNotations.
Open Scope list_scope.
Open Scope Z_scope.

Lemma find_app {A} (f : A -> bool) l1 l2 :
  find f (l1 ++ l2) = match find f l1 with Some x => Some x | None => find f l2 end.
Proof. induction l1 as [|x l1 IH]; simpl; [reflexivity|]. destruct (f x); [reflexivity|apply IH]. Qed.

Lemma find_plain act names sc :
  find (rule_matches sc) (map (fun n => mkRule act n []) names)
  = if existsb (String.eqb (sc_name sc)) names then Some (mkRule act (sc_name sc) []) else None.
Proof.
  induction names as [|n names IH]; simpl; [reflexivity|].
  unfold rule_matches at 1. cbn [r_name r_cmps forallb]. rewrite andb_true_r.
  destruct (String.eqb (sc_name sc) n) eqn:E; simpl.
  - apply String.eqb_eq in E. rewrite E. reflexivity.
  - apply IH.
Qed.

Lemma existsb_In s names : existsb (String.eqb s) names = true <-> In s names.
Proof.
  rewrite existsb_exists. split.
  - intros (x & H & E). apply String.eqb_eq in E. subst; assumption.
  - intros H. exists s. split; [assumption|apply String.eqb_refl].
Qed.

Lemma existsb_not_In s names : existsb (String.eqb s) names = false <-> ~ In s names.
Proof.
  rewrite <- existsb_In. destruct (existsb (String.eqb s) names); split; intro H; try discriminate;
    try reflexivity; try (intro; discriminate). exfalso; apply H; reflexivity.
Qed.

(** Bit masks. *)
Lemma land3 z : Z.land z 3 = z mod 4.
Proof. change 3 with (Z.ones 2). rewrite Z.land_ones by lia. reflexivity. Qed.

Lemma land_bit z n : 0 <= n -> (Z.land z (2 ^ n) =? 2 ^ n) = Z.testbit z n.
Proof.
  intros Hn. destruct (Z.testbit z n) eqn:E.
  - apply Z.eqb_eq. apply Z.bits_inj'. intros m Hm. rewrite Z.land_spec.
    rewrite Z.pow2_bits_eqb by lia. destruct (Z.eqb_spec n m) as [<-|N]; [rewrite E; reflexivity|apply andb_false_r].
  - apply Z.eqb_neq. intros H.
    assert (Z.testbit (Z.land z (2 ^ n)) n = Z.testbit (2 ^ n) n) as X by (rewrite H; reflexivity).
    rewrite Z.land_spec, Z.pow2_bits_true, E in X by lia. discriminate.
Qed.

Lemma wr_bits z :
  (Z.land z O_WRONLY =? O_WRONLY) = Z.testbit z 0 /\ (Z.land z O_RDWR =? O_RDWR) = Z.testbit z 1.
Proof. split. apply (land_bit z 0); lia. apply (land_bit z 1); lia. Qed.

Lemma write_bits_iff z : write_bits z <-> (Z.testbit z 0 = true \/ Z.testbit z 1 = true).
Proof.
  unfold write_bits, access_mode.
  assert (z mod 4 = Z.b2z (Z.testbit z 0) + 2 * Z.b2z (Z.testbit z 1)) as ->.
  { rewrite (Z.testbit_spec' z 0), (Z.testbit_spec' z 1) by lia.
    change (2 ^ 0) with 1. change (2 ^ 1) with 2. rewrite Z.div_1_r.
    change 4 with (2 * 2). rewrite (Z.rem_mul_r z 2 2) by lia. reflexivity. }
  destruct (Z.testbit z 0), (Z.testbit z 1); simpl; intuition lia.
Qed.

(** Loading is all or nothing. *)
Lemma add_rules_spec ok todo : forall n done rs m,
  add_rules ok n done todo = Some (rs, m) ->
  rs = done ++ todo /\ m = (n + List.length todo)%nat /\
  (forall i, (n <= i < n + List.length todo)%nat -> ok i = true).
Proof.
  induction todo as [|r todo IH]; intros n done rs m H; simpl in *.
  - injection H as <- <-. rewrite app_nil_r. repeat split; [lia|]. intros; lia.
  - destruct (ok n) eqn:E; [|discriminate]. apply IH in H. destruct H as (-> & -> & H).
    rewrite <- app_assoc. repeat split; [lia|]. intros i Hi.
    destruct (Nat.eq_dec i n) as [->|N]; [assumption|]. apply H. lia.
Qed.

Lemma load_filter_some ok d rules f :
  load_filter ok d rules = Some f ->
  f = mkFilter d rules /\ (forall i, (i <= S (List.length rules))%nat -> ok i = true).
Proof.
  unfold load_filter. destruct (ok 0%nat) eqn:E0; [|discriminate]. cbn [negb].
  destruct (add_rules ok 1 [] rules) as [[rs n]|] eqn:E; [|discriminate].
  apply add_rules_spec in E. destruct E as (-> & -> & H).
  destruct (ok (1 + List.length rules)%nat) eqn:E2; [|discriminate].
  intros X; injection X as <-. split; [reflexivity|]. intros i Hi.
  destruct i as [|i]; [assumption|].
  destruct (Nat.eq_dec i (List.length rules)) as [->|N]; [assumption|]. apply H. lia.
Qed.

Lemma add_rules_ok ok todo : forall n done,
  (forall i, (n <= i)%nat -> ok i = true) ->
  add_rules ok n done todo = Some (done ++ todo, (n + List.length todo)%nat).
Proof.
  induction todo as [|r todo IH]; intros n done H; simpl.
  - rewrite app_nil_r. f_equal. f_equal. lia.
  - rewrite (H n) by lia. rewrite IH by (intros; apply H; lia).
    rewrite <- app_assoc. f_equal. f_equal. lia.
Qed.

Lemma load_filter_ok ok d rules :
  (forall i, ok i = true) -> load_filter ok d rules = Some (mkFilter d rules).
Proof.
  intros H. unfold load_filter. rewrite (H 0%nat). cbn [negb].
  rewrite add_rules_ok by (intros; apply H). rewrite H. reflexivity.
Qed.

(** A failing call at any position below the number of rules + 2 prevents loading. *)
Lemma load_filter_fail ok d rules i :
  (i <= S (List.length rules))%nat -> ok i = false -> load_filter ok d rules = None.
Proof.
  intros Hi Hf. destruct (load_filter ok d rules) as [f|] eqn:E; [|reflexivity].
  apply load_filter_some in E. destruct E as [_ H]. rewrite (H i Hi) in Hf. discriminate.
Qed.

Definition c_cpp_f (exe_ptr : Z) (w : bool) : filter := mkFilter ActKill (c_cpp_rules exe_ptr w).
Definition general_f (known : bool) (exe_ptr : Z) : filter :=
  mkFilter ActAllow
    (map (fun n => kill_ n []) (general_blacklist known) ++
     [mkRule (ActErrno EACCES) "socket" []] ++
     [kill_ "execve" [CmpNe 0 exe_ptr]] ++ no_write_open).
Definition golang_f (known : bool) : filter :=
  mkFilter ActAllow (map (fun n => kill_ n []) (golang_blacklist known) ++ no_write_open).
Definition node_f (known : bool) : filter :=
  mkFilter ActAllow (map (fun n => kill_ n []) (node_blacklist known)).

Lemma harmless_whitelist s : In s harmless <-> In s c_cpp_whitelist.
Proof.
  split; intros H.
  - assert (forallb (fun x => existsb (String.eqb x) c_cpp_whitelist) harmless = true) as A by reflexivity.
    rewrite forallb_forall in A. apply existsb_In, A, H.
  - assert (forallb (fun x => existsb (String.eqb x) harmless) c_cpp_whitelist = true) as A by reflexivity.
    rewrite forallb_forall in A. apply existsb_In, A, H.
Qed.

Ltac eqb_cases :=
  repeat match goal with
  | |- context [String.eqb ?a ?b] => destruct (String.eqb_spec a b)
  end.

Lemma c_cpp_allow_iff p sc :
  filter_action (c_cpp_f p false) sc = ActAllow <-> c_cpp_permits p sc.
Proof.
  unfold c_cpp_permits, filter_action, c_cpp_f. cbn [f_rules f_default].
  destruct (sc_native sc); cbn [negb]; [|split; [discriminate|intros [H _]; discriminate]].
  unfold c_cpp_rules. rewrite find_app.
  change (map (fun n => allow n []) c_cpp_whitelist) with (map (fun n => mkRule ActAllow n []) c_cpp_whitelist).
  rewrite find_plain. rewrite harmless_whitelist, <- existsb_In.
  destruct (existsb (String.eqb (sc_name sc)) c_cpp_whitelist) eqn:E.
  { cbn. intuition. }
  unfold open_flags. unfold allow. cbn [app find]. unfold rule_matches. cbn [r_name r_cmps forallb cmp_holds].
  rewrite !andb_true_r. change (Z.lor O_WRONLY O_RDWR) with 3. rewrite !land3.
  destruct (String.eqb_spec (sc_name sc) "execve") as [E1|E1]; cbn [andb].
  { rewrite E1. cbn. destruct (Z.eqb_spec (sc_arg sc 0) p) as [->|N]; cbn.
    - intuition.
    - split; [discriminate|]. intros [_ [H|[[_ H]|(fl & H & _)]]]; [discriminate|contradiction|discriminate]. }
  destruct (String.eqb_spec (sc_name sc) "open") as [E2|E2]; cbn [andb].
  { rewrite E2. cbn. unfold read_only, access_mode. destruct (Z.eqb_spec (sc_arg sc 1 mod 4) 0) as [X|X]; cbn.
    - split; [|reflexivity]. intros _. split; [reflexivity|]. right; right. exists (sc_arg sc 1). split; [reflexivity|assumption].
    - split; [discriminate|]. intros [_ [H|[[H _]|(fl & H & Hr)]]]; try discriminate.
      injection H as <-. contradiction. }
  destruct (String.eqb_spec (sc_name sc) "openat") as [E3|E3]; cbn [andb].
  { rewrite E3. cbn. unfold read_only, access_mode. destruct (Z.eqb_spec (sc_arg sc 2 mod 4) 0) as [X|X]; cbn.
    - split; [|reflexivity]. intros _. split; [reflexivity|]. right; right. exists (sc_arg sc 2). split; [reflexivity|assumption].
    - split; [discriminate|]. intros [_ [H|[[H _]|(fl & H & Hr)]]]; try discriminate.
      injection H as <-. contradiction. }
  split; [discriminate|]. intros [_ [H|[[H _]|(fl & H & Hr)]]]; try discriminate; congruence.
Qed.

Lemma c_cpp_two_valued p w sc :
  filter_action (c_cpp_f p w) sc = ActAllow \/ filter_action (c_cpp_f p w) sc = ActKill.
Proof.
  unfold filter_action. destruct (sc_native sc); cbn [negb]; [|right; reflexivity].
  destruct (find (rule_matches sc) (f_rules (c_cpp_f p w))) as [r|] eqn:E; [|right; reflexivity].
  left. apply find_some in E. destruct E as [Hin _].
  assert (forall r, In r (c_cpp_rules p w) -> r_act r = ActAllow) as A.
  { intros r' H. unfold c_cpp_rules in H. rewrite !in_app_iff, in_map_iff in H.
    destruct H as [(n & <- & _)|[H|H]]; [reflexivity| |].
    - destruct H as [<-|[]]; reflexivity.
    - destruct w; cbn in H; intuition (subst; reflexivity). }
  apply A. exact Hin.
Qed.

Lemma c_cpp_file_io_allow_iff p sc :
  filter_action (c_cpp_f p true) sc = ActAllow <-> c_cpp_file_io_permits p sc.
Proof.
  unfold c_cpp_file_io_permits, filter_action, c_cpp_f. cbn [f_rules f_default].
  destruct (sc_native sc); cbn [negb]; [|split; [discriminate|intros [H _]; discriminate]].
  unfold c_cpp_rules. rewrite find_app.
  change (map (fun n => allow n []) c_cpp_whitelist) with (map (fun n => mkRule ActAllow n []) c_cpp_whitelist).
  rewrite find_plain. rewrite harmless_whitelist, <- existsb_In.
  destruct (existsb (String.eqb (sc_name sc)) c_cpp_whitelist) eqn:E.
  { cbn. intuition. }
  unfold allow. cbn [app find In]. unfold rule_matches. cbn [r_name r_cmps forallb cmp_holds].
  rewrite !andb_true_r.
  destruct (String.eqb_spec (sc_name sc) "execve") as [E1|E1]; cbn [andb].
  { rewrite E1. cbn. destruct (Z.eqb_spec (sc_arg sc 0) p) as [->|N]; cbn.
    - intuition.
    - split; [discriminate|]. intuition (try discriminate; try contradiction). }
  destruct (String.eqb_spec (sc_name sc) "open") as [E2|E2]; cbn [andb].
  { rewrite E2. cbn. intuition. }
  destruct (String.eqb_spec (sc_name sc) "openat") as [E3|E3]; cbn [andb].
  { rewrite E3. cbn. intuition. }
  destruct (String.eqb_spec (sc_name sc) "dup") as [E4|E4]; cbn [andb].
  { rewrite E4. cbn. intuition. }
  destruct (String.eqb_spec (sc_name sc) "dup2") as [E5|E5]; cbn [andb].
  { rewrite E5. cbn. intuition. }
  destruct (String.eqb_spec (sc_name sc) "dup3") as [E6|E6]; cbn [andb].
  { rewrite E6. cbn. intuition. }
  split; [discriminate|]. intuition (try discriminate; congruence).
Qed.

Lemma blacklist_In pre known s :
  existsb (String.eqb s) (pre ++ execveat_if known) = true <->
  In s pre \/ (known = true /\ s = "execveat"%string).
Proof.
  rewrite existsb_In, in_app_iff. unfold execveat_if. destruct known; cbn; intuition congruence.
Qed.

Lemma no_write_open_find sc :
  find (rule_matches sc) no_write_open = None <->
  ~ (exists fl, open_flags sc = Some fl /\ write_bits fl).
Proof.
  unfold no_write_open, open_flags, kill_. cbn [find]. unfold rule_matches.
  cbn [r_name r_cmps forallb cmp_holds]. rewrite !andb_true_r.
  destruct (wr_bits (sc_arg sc 1)) as [-> ->]. destruct (wr_bits (sc_arg sc 2)) as [-> ->].
  destruct (String.eqb_spec (sc_name sc) "open") as [E2|E2]; cbn [andb].
  - assert (String.eqb (sc_name sc) "openat" = false) as -> by (rewrite E2; reflexivity). cbn [andb].
    split.
    + intros H (fl & Hf & Hw). injection Hf as <-. apply write_bits_iff in Hw.
      destruct (Z.testbit (sc_arg sc 1) 0), (Z.testbit (sc_arg sc 1) 1); destruct Hw; discriminate.
    + intros H. destruct (Z.testbit (sc_arg sc 1) 0) eqn:B0.
      { exfalso. apply H. eexists. split; [reflexivity|]. apply write_bits_iff. left; assumption. }
      destruct (Z.testbit (sc_arg sc 1) 1) eqn:B1; [|reflexivity].
      exfalso. apply H. eexists. split; [reflexivity|]. apply write_bits_iff. right; assumption.
  - destruct (String.eqb_spec (sc_name sc) "openat") as [E3|E3]; cbn [andb].
    + split.
      * intros H (fl & Hf & Hw). injection Hf as <-. apply write_bits_iff in Hw.
        destruct (Z.testbit (sc_arg sc 2) 0), (Z.testbit (sc_arg sc 2) 1); destruct Hw; discriminate.
      * intros H. destruct (Z.testbit (sc_arg sc 2) 0) eqn:B0.
        { exfalso. apply H. eexists. split; [reflexivity|]. apply write_bits_iff. left; assumption. }
        destruct (Z.testbit (sc_arg sc 2) 1) eqn:B1; [|reflexivity].
        exfalso. apply H. eexists. split; [reflexivity|]. apply write_bits_iff. right; assumption.
    + split; [|reflexivity]. intros _ (fl & H & _). discriminate.
Qed.

Lemma no_write_open_act sc r : find (rule_matches sc) no_write_open = Some r -> r_act r = ActKill.
Proof.
  intros H. apply find_some in H. destruct H as [H _]. cbn in H. intuition (subst; reflexivity).
Qed.

Lemma find_dec sc : {find (rule_matches sc) no_write_open = None} + {exists r, find (rule_matches sc) no_write_open = Some r}.
Proof. destruct (find (rule_matches sc) no_write_open) as [r|]; [right; exists r; reflexivity|left; reflexivity]. Qed.

Lemma write_open_dec sc :
  (exists fl, open_flags sc = Some fl /\ write_bits fl) \/ ~ (exists fl, open_flags sc = Some fl /\ write_bits fl).
Proof.
  destruct (find_dec sc) as [H|[r H]].
  - right. apply no_write_open_find. assumption.
  - left. destruct (open_flags sc) as [fl|] eqn:E.
    + exists fl. split; [reflexivity|]. unfold write_bits. intros X.
      assert (find (rule_matches sc) no_write_open = None) as Y; [|congruence].
      apply no_write_open_find. intros (fl' & H1 & H2). rewrite E in H1. injection H1 as <-. contradiction.
    + exfalso. assert (find (rule_matches sc) no_write_open = None) as Y; [|congruence].
      apply no_write_open_find. intros (fl' & H1 & H2). congruence.
Qed.

Lemma find_general_tail p sc :
  find (rule_matches sc)
    ([mkRule (ActErrno EACCES) "socket" []] ++ [kill_ "execve" [CmpNe 0 p]] ++ no_write_open)
  = if String.eqb (sc_name sc) "socket" then Some (mkRule (ActErrno EACCES) "socket" [])
    else if String.eqb (sc_name sc) "execve" && negb (sc_arg sc 0 =? p)
    then Some (kill_ "execve" [CmpNe 0 p])
    else find (rule_matches sc) no_write_open.
Proof.
  cbn [app]. cbn [find]. unfold rule_matches at 1. cbn [r_name r_cmps forallb]. rewrite andb_true_r.
  destruct (String.eqb (sc_name sc) "socket"); [reflexivity|].
  unfold rule_matches at 1. unfold kill_ at 1 2. cbn [r_name r_cmps forallb cmp_holds]. rewrite andb_true_r.
  reflexivity.
Qed.

Lemma general_action known p sc :
  (filter_action (general_f known p) sc = ActKill <-> general_kills known p sc) /\
  (filter_action (general_f known p) sc = ActErrno 13 <-> sc_native sc = true /\ sc_name sc = "socket"%string) /\
  (filter_action (general_f known p) sc = ActAllow <->
     ~ general_kills known p sc /\ sc_name sc <> "socket"%string).
Proof.
  unfold general_kills, filter_action, general_f, is_execveat. cbn [f_rules f_default].
  destruct (sc_native sc); cbn [negb].
  2:{ split; [split; [intros _; left; reflexivity|reflexivity]|].
      split; [split; [discriminate|intros [X _]; discriminate]|].
      split; [discriminate|]. intros [H _]. exfalso. apply H. left; reflexivity. }
  rewrite find_app.
  change (map (fun n => kill_ n []) (general_blacklist known))
    with (map (fun n => mkRule ActKill n []) (general_blacklist known)).
  rewrite find_plain. unfold general_blacklist.
  destruct (existsb (String.eqb (sc_name sc)) (["clone"; "fork"; "vfork"; "kill"] ++ execveat_if known)%list) eqn:E.
  { apply blacklist_In in E. cbn [r_act].
    split; [split; [intros _; tauto|reflexivity]|].
    split.
    - split; [discriminate|]. intros [_ Hs]. rewrite Hs in E. cbn in E. intuition discriminate.
    - split; [discriminate|]. intros [H _]. exfalso. apply H. tauto. }
  assert (~ (In (sc_name sc) ["clone"; "fork"; "vfork"; "kill"]%string \/ (known = true /\ sc_name sc = "execveat"%string))) as NB.
  { intros X. apply blacklist_In in X. congruence. }
  rewrite find_general_tail.
  destruct (String.eqb_spec (sc_name sc) "socket") as [Es|Es].
  { cbn [r_act]. unfold open_flags. rewrite Es in *. cbn. unfold EACCES.
    split; [split; [discriminate|]|].
    - intros [H|[H|[H|[[H _]|(fl & H & _)]]]]; cbn in H; intuition discriminate.
    - split; [intuition|]. split; [discriminate|]. intros [_ H]. exfalso. apply H. reflexivity. }
  destruct (String.eqb_spec (sc_name sc) "execve") as [Ee|Ee]; cbn [andb].
  { assert (find (rule_matches sc) no_write_open = None) as Hn.
    { apply no_write_open_find. unfold open_flags. rewrite Ee. cbn. intros (fl & H & _). discriminate. }
    destruct (Z.eqb_spec (sc_arg sc 0) p) as [Ep|Ep]; cbn [negb].
    - rewrite Hn. unfold open_flags. rewrite Ee in *. cbn [String.eqb Ascii.eqb Bool.eqb].
      split; [split; [discriminate|]|].
      + intros [H|[H|[H|[[_ H]|(fl & H & _)]]]]; try discriminate; try contradiction; cbn in H; intuition discriminate.
      + split; [split; [discriminate|intros [_ H]; discriminate]|]. split; [|reflexivity].
        intros _. split; [|discriminate].
        intros [H|[H|[H|[[_ H]|(fl & H & _)]]]]; try discriminate; try contradiction; cbn in H; intuition discriminate.
    - unfold kill_. cbn [r_act]. split; [tauto|]. split; [split; [discriminate|tauto]|].
      split; [discriminate|tauto]. }
  destruct (find (rule_matches sc) no_write_open) as [r|] eqn:Ef.
  - rewrite (no_write_open_act _ _ Ef).
    assert (exists fl, open_flags sc = Some fl /\ write_bits fl) as W.
    { destruct (write_open_dec sc) as [W|W]; [assumption|]. apply no_write_open_find in W. congruence. }
    split; [tauto|]. split; [split; [discriminate|tauto]|]. split; [discriminate|tauto].
  - apply no_write_open_find in Ef. split; [split; [discriminate|]|].
    + intros [H|[H|[H|[[H _]|H]]]]; try discriminate; try contradiction; exfalso; apply NB; tauto.
    + split; [split; [discriminate|tauto]|]. split; [|reflexivity]. intros _. split; [|assumption].
      intros [H|[H|[H|[[H _]|H]]]]; try discriminate; try contradiction; apply NB; tauto.
Qed.

Lemma golang_action known sc :
  (filter_action (golang_f known) sc = ActKill <-> golang_kills known sc) /\
  (filter_action (golang_f known) sc = ActAllow <-> ~ golang_kills known sc).
Proof.
  unfold golang_kills, filter_action, golang_f, is_execveat. cbn [f_rules f_default].
  destruct (sc_native sc); cbn [negb].
  2:{ split; [split; [intros _; left; reflexivity|reflexivity]|].
      split; [discriminate|]. intros H. exfalso. apply H. left; reflexivity. }
  rewrite find_app.
  change (map (fun n => kill_ n []) (golang_blacklist known))
    with (map (fun n => mkRule ActKill n []) (golang_blacklist known)).
  rewrite find_plain. unfold golang_blacklist.
  destruct (existsb (String.eqb (sc_name sc)) (["socket"; "fork"; "vfork"; "kill"] ++ execveat_if known)%list) eqn:E.
  { apply blacklist_In in E. cbn [r_act]. split; [tauto|]. split; [discriminate|tauto]. }
  assert (~ (In (sc_name sc) ["socket"; "fork"; "vfork"; "kill"]%string \/ (known = true /\ sc_name sc = "execveat"%string))) as NB.
  { intros X. apply blacklist_In in X. congruence. }
  destruct (find (rule_matches sc) no_write_open) as [r|] eqn:Ef.
  - rewrite (no_write_open_act _ _ Ef).
    assert (exists fl, open_flags sc = Some fl /\ write_bits fl) as W.
    { destruct (write_open_dec sc) as [W|W]; [assumption|]. apply no_write_open_find in W. congruence. }
    split; [tauto|]. split; [discriminate|tauto].
  - apply no_write_open_find in Ef. split; [split; [discriminate|]|].
    + intros [H|[H|[H|H]]]; try discriminate; try contradiction; exfalso; apply NB; tauto.
    + split; [|reflexivity]. intros _ [H|[H|[H|H]]]; try discriminate; try contradiction; apply NB; tauto.
Qed.

Lemma node_action known sc :
  (filter_action (node_f known) sc = ActKill <-> node_kills known sc) /\
  (filter_action (node_f known) sc = ActAllow <-> ~ node_kills known sc).
Proof.
  unfold node_kills, filter_action, node_f, is_execveat. cbn [f_rules f_default].
  destruct (sc_native sc); cbn [negb].
  2:{ split; [split; [intros _; left; reflexivity|reflexivity]|].
      split; [discriminate|]. intros H. exfalso. apply H. left; reflexivity. }
  change (map (fun n => kill_ n []) (node_blacklist known))
    with (map (fun n => mkRule ActKill n []) (node_blacklist known)).
  rewrite find_plain. unfold node_blacklist.
  destruct (existsb (String.eqb (sc_name sc)) (["socket"; "fork"; "vfork"; "kill"] ++ execveat_if known)%list) eqn:E.
  { apply blacklist_In in E. cbn [r_act]. split; [tauto|]. split; [discriminate|tauto]. }
  assert (~ (In (sc_name sc) ["socket"; "fork"; "vfork"; "kill"]%string \/ (known = true /\ sc_name sc = "execveat"%string))) as NB.
  { intros X. apply blacklist_In in X. congruence. }
  split; [split; [discriminate|]|].
  - intros [H|[H|H]]; try discriminate; exfalso; apply NB; tauto.
  - split; [|reflexivity]. intros _ [H|[H|H]]; try discriminate; apply NB; tauto.
Qed.
