(** What is reported of programs that break their rule. *)
From Coq Require Import ZArith Bool List String Lia.
From Verif.Base Require Import CInt CStr.
From Verif.Model Require Import Config Runner Seccomp Child Program.
From Verif.Spec Require Import Syscalls Verdict RunSpec SandboxSpec ContainSpec ReportSpec.
From Verif.Proofs Require Import RunnerProofs RunnerClaims SeccompProofs ChildClaims ProgramProofs.
Import ListNotations.
Open Scope list_scope.
Open Scope Z_scope.

(** The processes are those of the start, with their filters; those with one thread have one. *)
Definition tame (w0 w : world) : Prop :=
  forall q Q, w q = Some (inl Q) ->
  exists Q0, w0 q = Some (inl Q0) /\ p_filters Q = p_filters Q0 /\ (p_threads Q0 = 1%nat -> p_threads Q = 1%nat).

Definition known_event (w0 : world) (e : event) : Prop :=
  forall q sc, e = Calls q sc ->
    In (sc_name sc) modelled \/ exists Q, w0 q = Some (inl Q) /\ filters_action (p_filters Q) sc <> ActAllow.

Lemma clone_not_modelled : ~ In "clone"%string modelled.
Proof. intros H. apply existsb_In in H. vm_compute in H. discriminate. Qed.

Lemma allowed_known w0 w q Q sc : tame w0 w -> known_event w0 (Calls q sc) -> w q = Some (inl Q) ->
  filters_action (p_filters Q) sc = ActAllow -> In (sc_name sc) modelled.
Proof.
  intros T K Hq Ha. destruct (K q sc eq_refl) as [M|(Q0 & H0 & N)]; [exact M|].
  destruct (T q Q Hq) as (Q0' & H0' & F & _). assert (Q0' = Q0) as -> by congruence. rewrite F in Ha. contradiction.
Qed.

Lemma tame_put w0 w q s : tame w0 w ->
  (forall Q, s = inl Q -> exists Q0, w0 q = Some (inl Q0) /\ p_filters Q = p_filters Q0 /\ (p_threads Q0 = 1%nat -> p_threads Q = 1%nat)) ->
  tame w0 (put w q s).
Proof.
  intros T H x X Hx. unfold put in Hx. destruct (Nat.eqb_spec x q) as [->|N].
  - apply H. congruence.
  - apply T, Hx.
Qed.

Lemma tame_step w0 w e w' : tame w0 w -> known_event w0 e -> step w e w' -> tame w0 w'.
Proof.
  intros T K St. destruct St as [q Q sc w' Hq Ha Ex|q Q sc er Hq Ha|q Q sc Hq Ha|q Q sig Hq].
  - pose proof (allowed_known w0 w q Q sc T K Hq Ha) as M. destruct (T q Q Hq) as (Q0 & H0 & F & Th).
    destruct Ex as [|flags path id n Hn Hf|old new d Hn Hf|n Hn|x X r soft hard Hn Hr Hx HX Hm Hs Hh
                     |fds c Hn Hf Hc|c Hn Hi|Hn|Hn|w1 Hn]; try exact T; try contradiction;
      try (apply tame_put; [exact T|]; intros Y E; injection E as <-; exists Q0; cbn; auto; fail).
    + apply tame_put; [exact T|]. intros Y E; injection E as <-. exact (T x X HX).
    + apply tame_put; [exact T|]. discriminate.
    + exfalso. rewrite Hn in M. exact (clone_not_modelled M).
  - exact T.
  - apply tame_put; [exact T|]. intros Y E. destruct (T q Q Hq) as (Q0 & H0 & F & Th). exists Q0.
    unfold killed_thread in E. destruct (Nat.leb (p_threads Q) 1) eqn:L; [discriminate|]. injection E as <-. cbn.
    split; [exact H0|]. split; [exact F|]. intros One. rewrite (Th One) in L. discriminate.
  - apply tame_put; [exact T|]. discriminate.
Qed.

(** A process that is over stays so, and does nothing. *)
Lemma over_step w0 w e w' p x : tame w0 w -> known_event w0 e -> step w e w' -> w p = Some (inr x) ->
  w' p = Some (inr x) /\ of_proc p e = false.
Proof.
  intros T K St H. destruct St as [q Q sc w' Hq Ha Ex|q Q sc er Hq Ha|q Q sc Hq Ha|q Q sig Hq]; cbn [of_proc];
    (assert (q <> p) as N by congruence); (split; [|apply Nat.eqb_neq; exact N]).
  - pose proof (allowed_known w0 w q Q sc T K Hq Ha) as M.
    destruct Ex as [|flags path id n Hn Hf|old new d Hn Hf|n Hn|y X r soft hard Hn Hr Hx HX Hm Hs Hh
                     |fds c Hn Hf Hc|c Hn Hi|Hn|Hn|w1 Hn]; try exact H; try contradiction;
      unfold put; match goal with |- (if Nat.eqb p ?z then _ else _) = _ => destruct (Nat.eqb_spec p z); [congruence|exact H] end.
  - exact H.
  - unfold put. destruct (Nat.eqb_spec p q); [congruence|exact H].
  - unfold put. destruct (Nat.eqb_spec p q); [congruence|exact H].
Qed.

Lemma over_runs w0 w evs w' p x : tame w0 w -> (forall e, In e evs -> known_event w0 e) -> runs w evs w' -> w p = Some (inr x) ->
  w' p = Some (inr x) /\ existsb (of_proc p) evs = false.
Proof.
  intros T K R. revert T K. induction R as [w|w e w1 evs w2 St R IH]; intros T K H; [split; [exact H|reflexivity]|].
  destruct (over_step w0 w e w1 p x T (K e (or_introl eq_refl)) St H) as (H1 & O).
  destruct (IH (tame_step w0 w e w1 T (K e (or_introl eq_refl)) St) (fun e I => K e (or_intror I)) H1) as (H2 & O2).
  split; [exact H2|]. cbn. rewrite O, O2. reflexivity.
Qed.

(** The last event of [p] is the one that ends it; before it nothing of that kind happens. *)
Definition by_event (P0 : proc) (p : nat) (e : event) (x : ending) : Prop :=
  (exists sc, e = Calls p sc /\ filters_action (p_filters P0) sc = ActAllow /\ sc_name sc = "exit_group"%string /\
     x = Program.Exited (sc_arg sc 0 mod 256)) \/
  (exists sc, e = Calls p sc /\ filters_action (p_filters P0) sc = ActKill /\ x = Signaled 31) \/
  (exists sig, e = Hit p sig /\ x = Signaled sig).
Definition harmless_event (P0 : proc) (p : nat) (e : event) : Prop :=
  (forall sc, e = Calls p sc -> filters_action (p_filters P0) sc <> ActKill) /\ forall sig, e <> Hit p sig.

Lemma alive_step w0 w e w' p P P0 : tame w0 w -> known_event w0 e -> step w e w' -> w0 p = Some (inl P0) -> p_threads P0 = 1%nat ->
  w p = Some (inl P) ->
  (exists P', w' p = Some (inl P') /\ harmless_event P0 p e) \/ (exists x, w' p = Some (inr x) /\ by_event P0 p e x).
Proof.
  intros T K St H0 One Hp. destruct (T p P Hp) as (P0' & H0' & F & Th). assert (P0' = P0) as -> by congruence. specialize (Th One).
  destruct St as [q Q sc w' Hq Ha Ex|q Q sc er Hq Ha|q Q sc Hq Ha|q Q sig Hq].
  - pose proof (allowed_known w0 w q Q sc T K Hq Ha) as M.
    assert (harmless_event P0 p (Calls q sc)) as Hm0.
    { split; [|discriminate]. intros sc' E. injection E as -> <-. assert (Q = P) as -> by congruence. rewrite <- F, Ha. discriminate. }
    destruct Ex as [|flags path id n Hn Hf|old new d Hn Hf|n Hn|y X r soft hard Hn Hr Hx HX Hm Hs Hh
                     |fds c Hn Hf Hc|c Hn Hi|Hn|Hn|w1 Hn]; try contradiction;
      try (left; eexists; split; [eassumption|exact Hm0]; fail);
      try (left; unfold put; match goal with |- context [Nat.eqb p ?z] => destruct (Nat.eqb p z) end;
           eexists; (split; [first [reflexivity|eassumption]|exact Hm0]); fail).
    unfold put. destruct (Nat.eqb_spec p q) as [->|N].
    + right. eexists. split; [reflexivity|]. left. exists sc. assert (Q = P) as -> by congruence. rewrite <- F. auto.
    + left. eexists. split; [eassumption|exact Hm0].
  - left. exists P. split; [exact Hp|]. split; [|discriminate]. intros sc' E. injection E as -> <-.
    assert (Q = P) as -> by congruence. rewrite <- F, Ha. discriminate.
  - unfold put. destruct (Nat.eqb_spec p q) as [->|N].
    + right. assert (Q = P) as -> by congruence. unfold killed_thread. rewrite Th. cbn. eexists. split; [reflexivity|].
      right; left. exists sc. rewrite <- F. auto.
    + left. exists P. split; [exact Hp|]. split; [|discriminate]. intros sc' E. congruence.
  - unfold put. destruct (Nat.eqb_spec p q) as [->|N].
    + right. eexists. split; [reflexivity|]. right; right. exists sig. auto.
    + left. exists P. split; [exact Hp|]. split; [discriminate|]. intros s E. congruence.
Qed.

Lemma life w0 w evs w' p P P0 : tame w0 w -> (forall e, In e evs -> known_event w0 e) -> runs w evs w' ->
  w0 p = Some (inl P0) -> p_threads P0 = 1%nat -> w p = Some (inl P) ->
  ((exists P', w' p = Some (inl P')) /\ (forall e, In e evs -> harmless_event P0 p e)) \/
  (exists l e l' x, evs = l ++ e :: l' /\ w' p = Some (inr x) /\ by_event P0 p e x /\
     (forall d, In d l -> harmless_event P0 p d) /\ existsb (of_proc p) l' = false).
Proof.
  intros T K R H0 One. revert P T K. induction R as [w|w e w1 evs w2 St R IH]; intros P T K Hp.
  - left. split; [eauto|]. intros e [].
  - pose proof (tame_step w0 w e w1 T (K e (or_introl eq_refl)) St) as T1.
    destruct (alive_step w0 w e w1 p P P0 T (K e (or_introl eq_refl)) St H0 One Hp) as [(P1 & H1 & Hm)|(x & H1 & By)].
    + destruct (IH P1 T1 (fun e I => K e (or_intror I)) H1) as [(A & B)|(l & d & l' & x & E & Hx & By & Hl & Hl')].
      * left. split; [exact A|]. intros d [<-|I]; [exact Hm|apply B, I].
      * right. exists (e :: l), d, l', x. split; [rewrite E; reflexivity|]. split; [exact Hx|]. split; [exact By|].
        split; [|exact Hl']. intros y [<-|I]; [exact Hm|apply Hl, I].
    + destruct (over_runs w0 w1 evs w2 p x T1 (fun e I => K e (or_intror I)) R H1) as (H2 & O).
      right. exists [], e, evs, x. split; [reflexivity|]. split; [exact H2|]. split; [exact By|]. split; [intros d []|exact O].
Qed.

Lemma known_events w evs : known_calls w evs -> forall e, In e evs -> known_event w e.
Proof. intros K e I q sc ->. exact (K q sc I). Qed.
Lemma tame_start w : tame w w.
Proof. intros q Q H. exists Q. auto. Qed.

Lemma not_of_proc p evs e : existsb (of_proc p) evs = false -> In e evs -> of_proc p e = false.
Proof.
  intros E I. destruct (of_proc p e) eqn:O; [|reflexivity]. assert (existsb (of_proc p) evs = true) as X by (apply existsb_exists; eauto). congruence.
Qed.

(** A forbidden call at any place of the history is the end. *)
Lemma killed_for_it w evs w' p P0 sc : known_calls w evs -> runs w evs w' -> w p = Some (inl P0) -> p_threads P0 = 1%nat ->
  In (Calls p sc) evs -> filters_action (p_filters P0) sc = ActKill -> w' p = Some (inr (Signaled 31)).
Proof.
  intros K R H0 One I Ki.
  destruct (life w w evs w' p P0 P0 (tame_start w) (known_events w evs K) R H0 One H0) as [(_ & B)|(l & e & l' & x & E & Hx & By & Hl & Hl')].
  - destruct (B _ I) as (C & _). destruct (C sc eq_refl Ki).
  - rewrite E in I. apply in_app_iff in I. destruct I as [I|[I|I]].
    + destruct (Hl _ I) as (C & _). destruct (C sc eq_refl Ki).
    + subst e. destruct By as [(s & Es & Al & _)|[(s & Es & _ & ->)|(s & Es & _)]]; [congruence|exact Hx|discriminate].
    + pose proof (not_of_proc p l' _ Hl' I) as O. cbn in O. rewrite Nat.eqb_refl in O. discriminate.
Qed.

(** An exit is the program's own doing. *)
Lemma exited_by_itself w evs w' p P0 n : known_calls w evs -> runs w evs w' -> w p = Some (inl P0) -> p_threads P0 = 1%nat ->
  w' p = Some (inr (Program.Exited n)) ->
  (forall sc, In (Calls p sc) evs -> filters_action (p_filters P0) sc <> ActKill) /\
  (forall sig, ~ In (Hit p sig) evs) /\
  exists l sc l', evs = l ++ Calls p sc :: l' /\ sc_name sc = "exit_group"%string /\ n = sc_arg sc 0 mod 256 /\ existsb (of_proc p) l' = false.
Proof.
  intros K R H0 One Hn.
  destruct (life w w evs w' p P0 P0 (tame_start w) (known_events w evs K) R H0 One H0) as [((P' & A) & _)|(l & e & l' & x & E & Hx & By & Hl & Hl')].
  - congruence.
  - assert (x = Program.Exited n) as -> by congruence.
    destruct By as [(s & -> & Al & Nm & Ex)|[(s & _ & _ & Y)|(s & _ & Y)]]; try discriminate. injection Ex as ->.
    split; [|split].
    + intros sc I Ki. rewrite E in I. apply in_app_iff in I. destruct I as [I|[I|I]].
      * destruct (Hl _ I) as (C & _). destruct (C sc eq_refl Ki).
      * congruence.
      * pose proof (not_of_proc p l' _ Hl' I) as O. cbn in O. rewrite Nat.eqb_refl in O. discriminate.
    + intros sig I. rewrite E in I. apply in_app_iff in I. destruct I as [I|[I|I]].
      * destruct (Hl _ I) as (_ & C). destruct (C sig eq_refl).
      * discriminate.
      * pose proof (not_of_proc p l' _ Hl' I) as O. cbn in O. rewrite Nat.eqb_refl in O. discriminate.
    + exists l, s, l'. auto.
Qed.

Lemma signalled_why w evs w' p P0 sig : known_calls w evs -> runs w evs w' -> w p = Some (inl P0) -> p_threads P0 = 1%nat ->
  w' p = Some (inr (Signaled sig)) ->
  (sig = 31 /\ exists sc, In (Calls p sc) evs /\ filters_action (p_filters P0) sc = ActKill) \/ In (Hit p sig) evs.
Proof.
  intros K R H0 One Hn.
  destruct (life w w evs w' p P0 P0 (tame_start w) (known_events w evs K) R H0 One H0) as [((P' & A) & _)|(l & e & l' & x & E & Hx & By & Hl & Hl')].
  - congruence.
  - assert (x = Signaled sig) as -> by congruence.
    destruct By as [(s & _ & _ & _ & Y)|[(s & -> & Ki & Y)|(s & -> & Y)]]; [discriminate| |]; injection Y as ->.
    + left. split; [reflexivity|]. exists s. split; [|exact Ki]. rewrite E. apply in_or_app. right; left; reflexivity.
    + right. rewrite E. apply in_or_app. right; left; reflexivity.
Qed.

(** ** The rules *)
Lemma against_kills c ptr P sc : ContainSpec.judged c ptr P ->
  (against false c ptr sc -> filters_action (p_filters P) sc = ActKill) /\
  (seccomp_rule_name c <> None -> filters_action (p_filters P) sc = ActKill -> against true c ptr sc).
Proof.
  intros (env & log & k0 & path & a & v & k & R & U & L & E & -> & ->). cbn [p_filters program_of].
  split.
  - intros [(N & A)|[(N & A)|[(N & A)|[(N & A)|(N & A)]]]].
    + apply (c24_c_cpp _ _ _ _ _ _ _ _ R E N), A.
    + apply (c24_c_cpp_file_io _ _ _ _ _ _ _ _ R E N), A.
    + apply (c26_general _ _ _ _ _ _ _ _ R E N). unfold general_kills, is_execveat in *. intuition discriminate.
    + apply (c27_golang _ _ _ _ _ _ _ _ R E N). unfold golang_kills, is_execveat in *. intuition discriminate.
    + apply (c27_node _ _ _ _ _ _ _ _ R E N). unfold node_kills, is_execveat in *. intuition discriminate.
  - destruct (seccomp_rule_name c) as [nm|] eqn:N; [intros _|intros X; destruct (X eq_refl)]. intros Ki. unfold against. rewrite N.
    destruct (exec_profile _ _ _ _ _ _ _ _ _ R E N) as (f & _ & Pr).
    inversion Pr; subst.
    + left. split; [reflexivity|]. apply (c24_c_cpp _ _ _ _ _ _ _ _ R E N), Ki.
    + right; left. split; [reflexivity|]. apply (c24_c_cpp_file_io _ _ _ _ _ _ _ _ R E N), Ki.
    + do 2 right; left. split; [reflexivity|]. apply (c26_general _ _ _ _ _ _ _ _ R E N) in Ki. unfold general_kills, is_execveat in *. intuition.
    + do 3 right; left. split; [reflexivity|]. apply (c27_golang _ _ _ _ _ _ _ _ R E N) in Ki. unfold golang_kills, is_execveat in *. intuition.
    + do 4 right. split; [reflexivity|]. apply (c27_node _ _ _ _ _ _ _ _ R E N) in Ki. unfold node_kills, is_execveat in *. intuition.
Qed.

Lemma judged_one c ptr P : ContainSpec.judged c ptr P -> p_threads P = 1%nat.
Proof. intros (env & log & k0 & path & a & v & k & _ & _ & _ & _ & _ & ->). reflexivity. Qed.

(** ** The result *)
Lemma reported_table c x r : reported c x r -> exists core,
  error r = 0 /\
  verdict_table (max_cpu_time c) (max_real_time c) (max_memory c) (seen x core) (cpu_time r) (real_time r) (memory r) (verdict r) /\
  match x with Program.Exited n => signal r = 0 /\ exit_code r = n | Signaled s => signal r = s /\ exit_code r = 0 end.
Proof.
  intros (e & core & ru & ef & J & Ru). exists core.
  destruct (c01_verdict_table c e (seen x core) ru J) as (r1 & ef1 & R1 & E1 & T1).
  destruct (c04_signal_exit_code c e (seen x core) ru J) as (r2 & ef2 & R2 & S2).
  rewrite Ru in R1, R2. injection R1 as <- _. injection R2 as <- _. split; [exact E1|]. split; [exact T1|].
  destruct x; exact S2.
Qed.

Theorem c104_forbidden c ptr P0 w evs w' p sc : ContainSpec.judged c ptr P0 -> w p = Some (inl P0) -> known_calls w evs ->
  runs w evs w' -> In (Calls p sc) evs -> against false c ptr sc ->
  w' p = Some (inr (Signaled 31)) /\
  forall r, reported c (Signaled 31) r ->
    error r = 0 /\ signal r = 31 /\ exit_code r = 0 /\ In (verdict r) [1; 2; 3; 4] /\ (verdict r = 4 <-> ~ over_a_limit c r).
Proof.
  intros J H0 K R I A. split.
  - apply (killed_for_it w evs w' p P0 sc K R H0 (judged_one c ptr P0 J) I). apply (against_kills c ptr P0 sc J), A.
  - intros r Re. destruct (reported_table c _ r Re) as (core & E & T & S1 & S2). split; [exact E|]. split; [exact S1|]. split; [exact S2|].
    cbn [seen verdict_table] in T. unfold failed in T. unfold over_a_limit. cbn [In].
    destruct T as [(X & V)|[(X & Y & V)|[(X & Y & Z & V)|[(X & Y & Z & W & V)|(X & Y & Z & W & V)]]]]; rewrite V.
    + intuition lia.
    + intuition lia.
    + intuition lia.
    + intuition lia.
    + exfalso. apply W. discriminate.
Qed.

Theorem c104_success c ptr P0 w evs w' p x r : ContainSpec.judged c ptr P0 -> w p = Some (inl P0) -> known_calls w evs ->
  runs w evs w' -> w' p = Some (inr x) -> reported c x r -> verdict r = 0 ->
  (forall sc, In (Calls p sc) evs -> ~ against false c ptr sc) /\
  (forall sig, ~ In (Hit p sig) evs) /\
  (exists l sc l', evs = l ++ Calls p sc :: l' /\ sc_name sc = "exit_group"%string /\ sc_arg sc 0 mod 256 = 0 /\
     existsb (of_proc p) l' = false) /\
  ~ over_a_limit c r.
Proof.
  intros J H0 K R Hx Re V0. destruct (reported_table c x r Re) as (core & E & T & S).
  assert (x = Program.Exited 0 /\ ~ over_a_limit c r) as (-> & Lim).
  { rewrite V0 in T. unfold over_a_limit. destruct x as [n|s].
    - cbn in T. unfold failed in T.
      destruct T as [(X & V)|[(X & Y & V)|[(X & Y & Z & V)|[(X & Y & Z & W & V)|(X & Y & Z & W & V)]]]]; try discriminate.
      destruct (Z.eq_dec n 0) as [->|N]; [split; [reflexivity|tauto]|]. exfalso. apply W. intros Q. injection Q as Q. contradiction.
    - exfalso. destruct Re as (e & core' & ru & ef & Jd & Ru).
      destruct (c01_verdict_table c e _ ru Jd) as (r1 & ef1 & R1 & E1 & T1).
      rewrite Ru in R1. injection R1 as <- _. rewrite V0 in T1. destruct Jd as (_ & _ & _ & _ & _ & Wf & _).
      apply (table_success _ _ _ _ _ _ _ Wf) in T1. destruct T1 as (T1 & _). discriminate. }
  destruct (exited_by_itself w evs w' p P0 0 K R H0 (judged_one c ptr P0 J) Hx) as (A & B & l & sc & l' & E1 & E2 & E3 & E4).
  split; [|split; [exact B|split; [|exact Lim]]].
  - intros s I Ag. apply (A s I). apply (against_kills c ptr P0 s J), Ag.
  - exists l, sc, l'. auto.
Qed.

Theorem c104_signal c ptr P0 w evs w' p x r : ContainSpec.judged c ptr P0 -> seccomp_rule_name c <> None ->
  w p = Some (inl P0) -> known_calls w evs ->
  runs w evs w' -> w' p = Some (inr x) -> reported c x r -> signal r <> 0 ->
  (signal r = 31 /\ exists sc, In (Calls p sc) evs /\ against true c ptr sc) \/ In (Hit p (signal r)) evs.
Proof.
  intros J N H0 K R Hx Re Sg. destruct (reported_table c x r Re) as (core & E & T & S). destruct x as [n|s].
  - destruct S as (S & _). contradiction.
  - destruct S as (S & _). rewrite S in *.
    destruct (signalled_why w evs w' p P0 s K R H0 (judged_one c ptr P0 J) Hx) as [(-> & sc & I & Ki)|H].
    + left. split; [reflexivity|]. exists sc. split; [exact I|]. apply (against_kills c ptr P0 sc J); assumption.
    + right. exact H.
Qed.

(** Under c_cpp and c_cpp_file_io all calls are of the kind known here. *)
Lemma known_runs w0 w evs w' : (forall p s, w0 p = Some s -> exists P, s = inl P /\ confined P) -> inv w0 w -> runs w evs w' -> known_calls w0 evs.
Proof.
  intros C I R. revert I. induction R as [w|w e w1 evs w2 St R IH]; intros I q sc H; [destruct H|].
  destruct H as [->|H]; [|exact (IH (step_inv w0 w e w1 C I St) q sc H)].
  assert (exists Q, w q = Some (inl Q)) as (Q & Hq) by (inversion St; eauto).
  pose proof (I q) as Iq. rewrite Hq in Iq. destruct Iq as (Q0 & H0 & Ok). destruct (C q _ H0) as (Q0' & X & Cf). injection X as <-.
  destruct (filters_action (p_filters Q0) sc) eqn:F.
  - left. exact (allowed_modelled Q0 sc Cf F).
  - right. exists Q0. split; [exact H0|]. congruence.
  - right. exists Q0. split; [exact H0|]. congruence.
Qed.

Theorem c104_known w evs w' : all_started w -> runs w evs w' -> known_calls w evs.
Proof.
  intros A R. assert (forall p s, w p = Some s -> exists P, s = inl P /\ confined P) as C by (intros; eapply started_confined; eassumption).
  exact (known_runs w w evs w' C (inv_start w C) R).
Qed.
