(** The log determines what was logged. *)
From Coq Require Import ZArith NArith Bool List Ascii String Lia.
From Verif.Base Require Import CInt CStr Tm.
From Verif.Model Require Import Messages Logger Stamp.
From Verif.Spec Require Import IntText LogSpec StampSpec.
From Verif.Spec Require DstrSpec.
From Verif.Proofs Require Import StampProofs LogProofs LogSchedules.
From Verif.Proofs Require PythonProofs PythonOutcome.
Import ListNotations.
Open Scope list_scope.
Open Scope Z_scope.

Lemma split_at (c : ascii) a b a' b' : ~ In c a -> ~ In c a' -> a ++ c :: b = a' ++ c :: b' -> a = a' /\ b = b'.
Proof.
  revert a'. induction a as [|x a IH]; intros [|y a'] A A' E; cbn in E.
  - injection E as ->. split; reflexivity.
  - injection E as -> _. exfalso. apply A'. left. reflexivity.
  - injection E as -> _. exfalso. apply A. left. reflexivity.
  - injection E as -> E. destruct (IH a') as [-> ->]; [intro; apply A; right; assumption|intro; apply A'; right; assumption|exact E|].
    split; reflexivity.
Qed.

Lemma same_length_app {A} (a b c d : list A) : List.length a = List.length c -> a ++ b = c ++ d -> a = c /\ b = d.
Proof.
  revert c. induction a as [|x a IH]; intros [|y c] L E; cbn in L; try discriminate; [split; [reflexivity|exact E]|].
  cbn in E. injection E as -> E. destruct (IH c) as [-> ->]; [lia|exact E|split; reflexivity].
Qed.

Lemma decimal_once a b : is_int a -> decimal a = decimal b -> a = b.
Proof.
  intros A E. apply (PythonProofs.fmt_d_only b a); [|exact A]. change (fmt_d b) with (decimal b). rewrite <- E. exact (PythonProofs.fmt_d_int a A).
Qed.

Lemma decimal_without c n : ~ (48 <= code c <= 57)%N -> c <> "-"%char -> ~ In c (decimal n).
Proof.
  intros C M I. assert (X : forall d, In c (DecimalFacts.chars d) -> False).
  { intros d J. assert (D := DecimalFacts.chars_vals d). clear I. induction D as [|x v xs vs D _ IH]; [destruct J|].
    destruct J as [->|J]; [|exact (IH J)]. apply C. destruct D as [B D].
    assert (V : v = 0 \/ v = 1 \/ v = 2 \/ v = 3 \/ v = 4 \/ v = 5 \/ v = 6 \/ v = 7 \/ v = 8 \/ v = 9) by lia.
    destruct V as [V|[V|[V|[V|[V|[V|[V|[V|[V|V]]]]]]]]]; subst v; vm_compute in D; destruct D as [D|D]; injection D as <-; vm_compute; split; discriminate. }
  unfold decimal in I. destruct n as [|p|p]; cbn [Z.to_int DecimalString.NilZero.string_of_int] in I.
  - destruct I as [<-|[]]. apply C. vm_compute. split; discriminate.
  - rewrite DecimalFacts.nilzero_uint in I by apply DecimalFacts.pos_to_uint_nonnil. exact (X _ I).
  - rewrite DecimalFacts.lit_cons in I. destruct I as [<-|I]; [apply M; reflexivity|].
    rewrite DecimalFacts.nilzero_uint in I by apply DecimalFacts.pos_to_uint_nonnil. exact (X _ I).
Qed.

(** ** One line *)
Lemma line_split d1 s1 l1 t1 r1 d2 s2 l2 t2 r2 :
  List.length d1 = List.length d2 -> ~ In ":"%char s1 -> ~ In ":"%char s2 -> is_int l1 -> ~ In "010"%char t1 -> ~ In "010"%char t2 ->
  log_line (lit "FATAL") d1 s1 l1 t1 ++ r1 = log_line (lit "FATAL") d2 s2 l2 t2 ++ r2 ->
  d1 = d2 /\ s1 = s2 /\ l1 = l2 /\ t1 = t2 /\ r1 = r2.
Proof.
  intros L S1 S2 I T1 T2 E. unfold log_line in E. rewrite <- !app_assoc in E. do 2 apply app_inv_head in E.
  apply same_length_app in E; [|exact L]. destruct E as [-> E]. apply app_inv_head in E.
  cbn [lit list_ascii_of_string app] in E. apply split_at in E; [|assumption..]. destruct E as [-> E].
  apply split_at in E; [|apply decimal_without; [vm_compute; intros [A B]; apply B; reflexivity|discriminate]..]. destruct E as [E1 E].
  apply decimal_once in E1; [|exact I]. subst l2. apply split_at in E; [|assumption..]. destruct E as [-> ->].
  repeat split.
Qed.

(** ** The codes *)
Lemma code_chars code : In code logged_codes -> ~ In "010"%char (lit code) /\ ~ In ";"%char (lit code) /\ no_nul (lit code).
Proof.
  intro I. assert (G : forallb (fun c => forallb (fun x => negb (aeqb x "010") && negb (aeqb x ";") && negb (aeqb x NUL)) (lit c)) logged_codes = true) by reflexivity.
  rewrite forallb_forall in G. apply G in I. rewrite forallb_forall in I.
  repeat split; intro J; apply I in J; rewrite !andb_true_iff, !negb_true_iff, !aeqb_neq in J; intuition congruence.
Qed.
Lemma code_not_system code r : In code logged_codes -> lit code <> lit "System errno: " ++ r.
Proof.
  intros I E. assert (G : forallb (fun c => negb (prefixb (lit "System errno: ") (lit c))) logged_codes = true) by reflexivity.
  rewrite forallb_forall in G. apply G in I. apply negb_true_iff in I.
  rewrite (proj2 (prefixb_spec _ _)) in I; [discriminate|]. exists r. exact E.
Qed.
Lemma lit_once a b : lit a = lit b -> a = b.
Proof.
  intro E. apply (f_equal string_of_list_ascii) in E. unfold lit in E. rewrite !string_of_list_ascii_of_string in E. exact E.
Qed.
Lemma internal_once r1 c1 r2 c2 : ~ In ";"%char c1 -> ~ In ";"%char c2 ->
  r1 ++ lit "; Internal errno: " ++ c1 = r2 ++ lit "; Internal errno: " ++ c2 -> r1 = r2 /\ c1 = c2.
Proof.
  intros C1 C2 E. apply (f_equal (@rev ascii)) in E. rewrite !rev_app_distr in E. rewrite <- !app_assoc in E.
  change (rev (lit "; Internal errno: ")) with (rev (lit " Internal errno: ") ++ [";"%char]) in E.
  rewrite <- !app_assoc in E. cbn [app] in E. rewrite !(app_assoc (rev _) (rev (lit " Internal errno: "))) in E.
  assert (N : forall c, ~ In ";"%char c -> ~ In ";"%char (rev c ++ rev (lit " Internal errno: "))).
  { intros c C J. apply in_app_iff in J. destruct J as [J|J]; [apply C; apply in_rev; exact J|]. vm_compute in J. intuition discriminate. }
  apply split_at in E; [|apply N; assumption..]. destruct E as [E1 E2]. apply app_inv_tail in E1.
  apply (f_equal (@rev ascii)) in E1, E2. rewrite !rev_involutive in E1, E2. split; assumption.
Qed.

(** ** The file *)
Definition place (f : failure) : str * Z * Z :=
  match f with RunFails s l t _ => (s, l, t) | ChildFails s l t _ _ => (s, l, t) end.
Definition message (f : failure) : str :=
  match f with
  | RunFails _ _ _ c => lit "Error: " ++ lit c
  | ChildFails _ _ _ r c => lit "Error: System errno: " ++ r ++ lit "; Internal errno: " ++ lit c
  end.

Lemma message_once zone f g : possible zone f -> possible zone g -> message f = message g ->
  match f, g with
  | RunFails _ _ _ c1, RunFails _ _ _ c2 => c1 = c2
  | ChildFails _ _ _ r1 c1, ChildFails _ _ _ r2 c2 => r1 = r2 /\ c1 = c2
  | _, _ => False
  end.
Proof.
  destruct f as [s1 l1 t1 c1|s1 l1 t1 r1 c1], g as [s2 l2 t2 c2|s2 l2 t2 r2 c2]; cbn [possible message]; intros P Q E.
  - apply app_inv_head in E. apply lit_once, E.
  - change (lit "Error: System errno: ") with (lit "Error: " ++ lit "System errno: ") in E. rewrite <- app_assoc in E. apply app_inv_head in E.
    exact (code_not_system _ _ (proj2 (proj2 (proj2 P))) E).
  - change (lit "Error: System errno: ") with (lit "Error: " ++ lit "System errno: ") in E. rewrite <- app_assoc in E. apply app_inv_head in E.
    symmetry in E. exact (code_not_system _ _ (proj2 (proj2 (proj2 Q))) E).
  - apply app_inv_head in E. apply internal_once in E; [|apply code_chars; tauto..]. destruct E as [-> E].
    split; [reflexivity|]. apply lit_once, E.
Qed.

Lemma possible_parts zone f : possible zone f ->
  let '(s, l, t) := place f in name_ok s /\ is_int l /\ our_times (local zone t) /\ ~ In "010"%char (message f) /\ no_nul (message f).
Proof.
  destruct f as [s l t c|s l t r c]; cbn [possible place message].
  - intros (A & B & C & D). destruct (code_chars c D) as (X & _ & Y). do 3 (split; [assumption|]).
    split; intro J; apply in_app_iff in J; destruct J as [J|J]; try (exact (X J)); try (exact (Y J)); try contradiction; vm_compute in J; intuition discriminate.
  - intros (A & B & C & R & R0 & D). destruct (code_chars c D) as (X & _ & Y). do 3 (split; [assumption|]).
    split; intro J; rewrite !in_app_iff in J; destruct J as [J|[J|[J|J]]]; try (exact (X J)); try (exact (Y J)); try contradiction; vm_compute in J; intuition discriminate.
Qed.

Lemma stamp_no_nul l : our_times l -> no_nul (stamp_of l).
Proof.
  intros T I. destruct (stamp_shape l T) as [_ F]. rewrite Forall_forall in F. apply F in I. destruct I as [I|[I|I]]; [|discriminate..].
  vm_compute in I. destruct I as [I _]. apply I. reflexivity.
Qed.

Definition line_of (zone : Z -> Z) (f : failure) : str :=
  let '(s, n, t) := place f in log_line (lit "FATAL") (stamp_of (local zone t)) s n (message f).

Lemma failure_asks zone f : possible zone f -> asks_line (failure_call zone f) (line_of zone f).
Proof.
  intros P. pose proof (possible_parts zone f P) as Q. unfold line_of.
  destruct f as [s n t c|s n t r c]; cbn [place failure_call message] in *; destruct Q as ((_ & _ & S) & I & T & _ & N);
    rewrite date_text by exact T; rewrite <- (DstrProofs.upto_id _ N);
    apply (asks_line_intro 0); try assumption; try constructor; try (apply stamp_no_nul; exact T); rewrite (proj1 (stamp_shape _ T)); lia.
Qed.

Lemma failure_line zone f l : possible zone f -> asks_line (failure_call zone f) l -> l = line_of zone f.
Proof. intros P A. exact (asks_line_fun _ _ _ A (failure_asks zone f P)). Qed.

Lemma log_readback zone fs s : log_of zone fs s -> Forall (possible zone) fs -> forall gs, log_of zone gs s -> Forall (possible zone) gs ->
  Forall2 (looks_like zone) fs gs.
Proof.
  induction 1 as [|f fs l rest A L IH]; intros P gs G Q.
  - inversion G as [|g gs' l rest A L E1 E2]; subst; [constructor|]. exfalso. inversion Q as [|? ? Q1 Q2]; subst.
    apply failure_line in A; [|exact Q1]. subst l. unfold line_of in E2. destruct (place g) as [[] ?]. discriminate.
  - inversion P as [|? ? P1 P2]; subst. apply failure_line in A; [|exact P1].
    inversion G as [E1 E2|g gs' l' rest' A' L' E1 E2]; subst gs.
    + exfalso. subst l. unfold line_of in E2. destruct (place f) as [[] ?]. discriminate.
    + apply Forall_inv in Q as Q1. apply Forall_inv_tail in Q as Q2. apply failure_line in A'; [|exact Q1]. subst l l'.
      pose proof (possible_parts zone f P1) as F. pose proof (possible_parts zone g Q1) as F'. unfold line_of in E2.
      destruct (place f) as [[s1 n1] t1] eqn:Ef, (place g) as [[s2 n2] t2] eqn:Eg.
      destruct F as ((C & _) & I & T & M & _), F' as ((C' & _) & I' & T' & M' & _).
      symmetry in E2. apply line_split in E2; try assumption.
      2: { rewrite !(fun l H => proj1 (stamp_shape l H)) by assumption. reflexivity. }
      destruct E2 as (E & Es & En & Em & Er). subst rest'. apply stamp_once in E; [|assumption..].
      constructor; [|apply IH; assumption].
      apply (message_once zone f g P1 Q1) in Em.
      destruct f, g; cbn [place] in Ef, Eg; injection Ef as -> -> ->; injection Eg as -> -> ->; cbn [looks_like]; intuition congruence.
Qed.

Lemma log_of_lines zone fs : forall lines, Forall2 asks_line (map (failure_call zone) fs) lines -> log_of zone fs (List.concat lines).
Proof.
  induction fs as [|f fs IH]; intros lines F; inversion F; subst; cbn; [constructor|]. constructor; [assumption|]. apply IH. assumption.
Qed.

Lemma log_of_exists zone fs : Forall (possible zone) fs -> exists s, log_of zone fs s.
Proof.
  induction 1 as [|f fs P _ [s IH]]; [exists []; constructor|]. exists (line_of zone f ++ s). constructor; [|exact IH]. apply failure_asks, P.
Qed.

(** ** Judgers at work *)
Lemma granted_started tr : forall cur c, In c (granted cur tr) -> In c (started tr) \/ exists p, cur p = Some c.
Proof.
  induction tr as [|e tr IH]; intros cur c I; [destruct I|].
  destruct e; cbn [granted started] in *; try (exact (IH _ _ I)).
  - destruct (IH _ _ I) as [J|[q J]]; [left; right; exact J|]. cbn in J. destruct (Nat.eqb q p); [injection J as ->; left; left; reflexivity|].
    right. exists q. exact J.
  - destruct (cur p) as [c'|] eqn:C; [|exact (IH _ _ I)]. destruct I as [->|I]; [right; exists p; exact C|exact (IH _ _ I)].
Qed.

Lemma failure_short zone f : possible zone f -> brief f -> short_line (failure_call zone f).
Proof.
  intros P B. destruct f as [s n t c|s n t r c]; cbn [possible brief failure_call] in *.
  - destruct P as ((_ & _ & S) & I & T & C). rewrite date_text by exact T. apply run_call; try assumption; [apply stamp_no_nul; exact T|].
    rewrite (proj1 (stamp_shape _ T)). lia.
  - destruct P as ((_ & _ & S) & I & T & _ & _ & C). rewrite date_text by exact T. apply child_call; try tauto; [apply stamp_no_nul; exact T|].
    rewrite (proj1 (stamp_shape _ T)). lia.
Qed.

Lemma as_failures zone (cs : list call) : (forall c, In c cs -> exists f, possible zone f /\ brief f /\ c = failure_call zone f) ->
  exists fs, cs = map (failure_call zone) fs /\ Forall (possible zone) fs.
Proof.
  induction cs as [|c cs IH]; intro H; [exists []; split; [reflexivity|constructor]|].
  destruct (H c (or_introl eq_refl)) as (f & P & _ & ->). destruct IH as (fs & -> & F); [intros d D; apply H; right; exact D|].
  exists (f :: fs). split; [reflexivity|]. constructor; assumption.
Qed.

Lemma judgers_log ofd zone tr s : (forall p q, ofd p = ofd q -> p = q) -> exec ofd (quiet []) tr s -> (forall e, In e tr -> ~ trouble e) ->
  (forall c, In c (started tr) -> exists f, possible zone f /\ brief f /\ c = failure_call zone f) -> at_rest s ->
  exists fs, granted (fun _ => None) tr = map (failure_call zone) fs /\ Forall (possible zone) fs /\ log_of zone fs (l_file s).
Proof.
  intros O E T H R. destruct (as_failures zone (granted (fun _ => None) tr)) as (fs & G & P).
  { intros c I. apply granted_started in I. destruct I as [I|[p I]]; [apply H; exact I|discriminate]. }
  exists fs. split; [exact G|]. split; [exact P|].
  destruct (whole_lines ofd O [] tr s E T) as (lines & F & _ & Q).
  { intros c I. destruct (H c I) as (f & P' & B & ->). apply failure_short; assumption. }
  destruct (Q R) as [-> _]. cbn [app]. apply log_of_lines. rewrite <- G. exact F.
Qed.

(** ** Samples and limits *)
Lemma stamps_sorted zone t1 t2 a b : our_times (local zone t1) -> our_times (local zone t2) -> log_date zone t1 = Some a -> log_date zone t2 = Some b ->
  (sorts_before a b <-> local zone t1 < local zone t2) /\ (a = b <-> local zone t1 = local zone t2).
Proof.
  intros T1 T2 A B. rewrite date_text in A, B by assumption. injection A as <-. injection B as <-. split; [apply stamp_order; assumption|].
  split; [apply stamp_once; assumption|intros ->; reflexivity].
Qed.

Lemma stamps_fixed zone t1 t2 a b : zone t1 = zone t2 -> our_times (local zone t1) -> our_times (local zone t2) ->
  log_date zone t1 = Some a -> log_date zone t2 = Some b -> (sorts_before a b <-> t1 < t2) /\ (a = b <-> t1 = t2).
Proof.
  intros Z T1 T2 A B. destruct (stamps_sorted zone t1 t2 a b T1 T2 A B) as [X Y]. rewrite X, Y. unfold local. rewrite Z. split; lia.
Qed.

Definition autumn (t : Z) : Z := if t <? 1792890000 then 7200 else 3600.
Lemma clocks_back : exists t1 t2 a b, t1 < t2 /\ our_times (local autumn t1) /\ our_times (local autumn t2) /\
  log_date autumn t1 = Some a /\ log_date autumn t2 = Some b /\ sorts_before b a.
Proof.
  exists 1792889999, 1792890000. do 2 eexists. split; [lia|]. assert (A : our_times (local autumn 1792889999)) by (split; vm_compute; congruence).
  assert (B : our_times (local autumn 1792890000)) by (split; vm_compute; congruence).
  split; [exact A|]. split; [exact B|]. rewrite !date_text by assumption. split; [reflexivity|]. split; [reflexivity|].
  apply stamp_order; [exact B|exact A|]. reflexivity.
Qed.

Lemma far_away : exists now, now < 2 ^ 63 /\ forall s source line code,
  log_data s (failure_call (fun _ => 0) (RunFails source line now code)) = UB.
Proof.
  exists (2 ^ 62). split; [reflexivity|]. intros. unfold failure_call, log_data, error_exit_call.
  replace (log_date (fun _ => 0) (2 ^ 62)) with (@None str) by (vm_compute; reflexivity). reflexivity.
Qed.

Lemma colon_confuses zone now : our_times (local zone now) -> exists f source line reason code l,
  possible zone f /\ asks_line (failure_call zone f) l /\ no_nul source /\ is_int line /\ In code logged_codes /\ ~ In "010"%char reason /\ no_nul reason /\
  asks_line (failure_call zone (ChildFails source line now reason code)) l /\ ~ looks_like zone f (ChildFails source line now reason code).
Proof.
  intro T. exists (ChildFails (lit "a") 1 now (lit "x:2]Error: System errno: y") "EXECVE_FAILED").
  exists (lit "a:1]Error: System errno: x"), 2, (lit "y"), "EXECVE_FAILED"%string.
  exists (log_line (lit "FATAL") (stamp_of (local zone now)) (lit "a") 1
    (lit "Error: System errno: x:2]Error: System errno: y; Internal errno: EXECVE_FAILED")).
  assert (P : possible zone (ChildFails (lit "a") 1 now (lit "x:2]Error: System errno: y") "EXECVE_FAILED")).
  { cbn [possible]. assert (N : forall c s, forallb (fun x => negb (aeqb x c)) s = true -> ~ In c s).
    { intros c s F I. rewrite forallb_forall in F. apply F in I. apply negb_true_iff, aeqb_neq in I. congruence. }
    split; [split; [|split]; apply N; reflexivity|]. split; [split; vm_compute; congruence|]. split; [exact T|].
    split; [apply N; reflexivity|]. split; [apply N; reflexivity|]. do 9 right. left. reflexivity. }
  assert (N : forall c s, forallb (fun x => negb (aeqb x c)) s = true -> ~ In c s).
  { intros c s F I. rewrite forallb_forall in F. apply F in I. apply negb_true_iff, aeqb_neq in I. congruence. }
  split; [exact P|]. split; [exact (failure_asks zone _ P)|].
  split; [apply N; reflexivity|]. split; [split; vm_compute; congruence|]. split; [do 9 right; left; reflexivity|].
  split; [apply N; reflexivity|]. split; [apply N; reflexivity|]. split.
  - cbn [failure_call]. rewrite date_text by exact T. pose proof (stamp_no_nul _ T) as D. pose proof (proj1 (stamp_shape _ T)) as L.
    generalize dependent (stamp_of (local zone now)). intros d D L.
    change (log_line (lit "FATAL") d (lit "a") 1 (lit "Error: System errno: x:2]Error: System errno: y; Internal errno: EXECVE_FAILED"))
      with (log_line (lit "FATAL") d (lit "a:1]Error: System errno: x") 2
        (DstrSpec.upto_nul (lit "Error: System errno: " ++ lit "y" ++ lit "; Internal errno: " ++ lit "EXECVE_FAILED"))).
    apply (asks_line_intro 0); [constructor|split; vm_compute; congruence|apply N; reflexivity|exact D|lia].
  - intros (E & _). discriminate.
Qed.
