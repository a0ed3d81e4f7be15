(** The Node binding: decoding the output. *)
From Coq Require Import ZArith Bool List Ascii String Arith Lia.
From Verif.Base Require Import CInt CStr CMem.
From Verif.Model Require Import Config Argtable Main Messages NodeBinding.
From Verif.Spec Require Import Json OutputSpec.
From Verif.Proofs Require Import JsonProofs OutputProofs.
From Verif.Spec Require Import NodeSpec.
From Verif.Proofs Require PythonProofs NodeProofs.
Import ListNotations.
Open Scope list_scope.
Open Scope nat_scope.

Lemma nul_free_app s t : nul_free (s ++ t) <-> nul_free s /\ nul_free t.
Proof. unfold nul_free. rewrite in_app_iff. tauto. Qed.

Lemma upto_nul_id s : nul_free s -> upto_nul s = s.
Proof.
  induction s as [|c s IH]; intros N; [reflexivity|]. cbn [upto_nul].
  destruct (aeqb c NUL) eqn:E; [apply aeqb_eq in E; destruct N; left; exact E|].
  rewrite IH; [reflexivity|]. intros I. apply N. right. exact I.
Qed.
Lemma upto_nul_stop s t : nul_free s -> upto_nul (s ++ NUL :: t) = s.
Proof.
  induction s as [|c s IH]; intros N; [reflexivity|]. cbn [upto_nul app].
  destruct (aeqb c NUL) eqn:E; [apply aeqb_eq in E; destruct N; left; exact E|].
  rewrite IH; [reflexivity|]. intros I. apply N. right. exact I.
Qed.

Lemma collect_clean s : forall room cur, nul_free cur -> nul_free s -> collect room cur s = cur ++ s.
Proof.
  induction s as [|c s IH]; intros room cur C N; cbn [collect]; [rewrite app_nil_r; apply upto_nul_id, C|].
  assert (nul_free (cur ++ [c])) as C'.
  { apply nul_free_app. split; [exact C|]. intros [->|[]]. apply N. left. reflexivity. }
  assert (nul_free s) as N' by (intros I; apply N; right; exact I).
  destruct (aeqb c LF || (room <=? 1)).
  - rewrite (upto_nul_id _ C'), IH by (auto; intros []). rewrite <- app_assoc. reflexivity.
  - rewrite IH by assumption. rewrite <- app_assoc. reflexivity.
Qed.
(** What is read of the lines [a] does not depend on what follows them. *)
Lemma collect_lines a s : forall room cur, collect room cur (a ++ LF :: s) = collect room cur (a ++ [LF]) ++ collect 254 [] s.
Proof.
  induction a as [|c a IH]; intros room cur; cbn [collect app].
  - change (aeqb LF LF) with true. cbn [orb]. cbn [upto_nul]. rewrite app_nil_r. reflexivity.
  - destruct (aeqb c LF || (room <=? 1)); rewrite IH; [rewrite app_assoc|]; reflexivity.
Qed.
(** A short line whose text ends at a NUL. *)
Lemma collect_short b s : forall room cur, ~ In LF b -> List.length b < room ->
  collect room cur (b ++ LF :: s) = upto_nul (cur ++ b ++ [LF]) ++ collect 254 [] s.
Proof.
  induction b as [|c b IH]; intros room cur N L; cbn [collect app List.length] in *.
  - change (aeqb LF LF) with true. reflexivity.
  - destruct (aeqb c LF) eqn:E; [apply aeqb_eq in E; destruct N; left; auto|]. cbn [orb].
    destruct (Nat.leb_spec room 1); [lia|]. rewrite IH by (try lia; intros I; apply N; right; exact I).
    rewrite <- app_assoc. reflexivity.
Qed.

(** ** The last brace *)
Lemma last_brace_found x t k : ~ In "{"%char t -> k <= List.length t ->
  last_brace (x ++ "{"%char :: t) (List.length x + S k) = Z.of_nat (List.length x).
Proof.
  intros N. induction k as [|k IH]; intros L.
  - rewrite Nat.add_1_r. cbn [last_brace]. rewrite nth_error_app2, Nat.sub_diag by lia. reflexivity.
  - rewrite Nat.add_succ_r. cbn [last_brace]. rewrite nth_error_app2 by lia.
    replace (List.length x + S k - List.length x) with (S k) by lia. cbn [nth_error].
    destruct (nth_error t k) as [c|] eqn:E; [|apply IH; lia].
    destruct (aeqb c "{") eqn:Ec; [apply aeqb_eq in Ec; subst; destruct N; exact (nth_error_In _ _ E)|apply IH; lia].
Qed.
Lemma last_brace_none pr n : ~ In "{"%char pr -> last_brace pr n = (-1)%Z.
Proof.
  intros N. induction n as [|n IH]; [reflexivity|]. cbn [last_brace].
  destruct (nth_error pr n) as [c|] eqn:E; [|exact IH].
  destruct (aeqb c "{") eqn:Ec; [apply aeqb_eq in Ec; subst; destruct N; exact (nth_error_In _ _ E)|exact IH].
Qed.

Lemma split_found out x t : node_reads out = x ++ "{"%char :: t -> ~ In "{"%char t ->
  (Z.of_nat (List.length (x ++ "{"%char :: t)) < 2 ^ 31)%Z -> node_split out = Val (x, "{"%char :: t).
Proof.
  intros R N L. unfold node_split. rewrite R.
  rewrite cast_int_id by (unfold INT_MIN, INT_MAX; cbn in L; lia).
  destruct (Z.leb_spec (Z.of_nat (List.length (x ++ "{"%char :: t))) 0) as [H|H].
  { rewrite app_length in H. cbn [List.length] in H. lia. }
  rewrite Nat2Z.id, app_length. cbn [List.length]. rewrite last_brace_found by (try exact N; lia).
  destruct (Z.ltb_spec (Z.of_nat (List.length x)) 0); [lia|]. rewrite Nat2Z.id.
  rewrite firstn_app, firstn_all, Nat.sub_diag, skipn_app, skipn_all, Nat.sub_diag. cbn [firstn skipn app]. rewrite app_nil_r. reflexivity.
Qed.
Lemma split_none out : ~ In "{"%char (node_reads out) -> node_split out = UB.
Proof.
  intros N. unfold node_split. rewrite last_brace_none by exact N. destruct (_ <=? 0)%Z; reflexivity.
Qed.

Lemma reads_sub out c : In c (node_reads out) -> In c out.
Proof.
  assert (forall s c, In c (upto_nul s) -> In c s) as U.
  { induction s as [|a s IH]; intros d I; [destruct I|]. cbn [upto_nul] in I. destruct (aeqb a NUL); [destruct I|].
    destruct I as [->|I]; [left; reflexivity|right; auto]. }
  assert (forall s room cur, In c (collect room cur s) -> In c cur \/ In c s) as G.
  { induction s as [|a s IH]; intros room cur I; cbn [collect] in I; [left; apply U, I|].
    destruct (aeqb a LF || (room <=? 1)).
    - apply in_app_iff in I. destruct I as [I|I].
      + apply U, in_app_iff in I. destruct I as [I|[->|[]]]; [left; exact I|right; left; reflexivity].
      + apply IH in I. destruct I as [[]|I]. right. right. exact I.
    - apply IH in I. destruct I as [I|I]; [|right; right; exact I].
      apply in_app_iff in I. destruct I as [I|[->|[]]]; [left; exact I|right; left; reflexivity]. }
  intros I. apply G in I. destruct I as [[]|I]. exact I.
Qed.

(** ** The report *)
Definition quiet (s : str) : Prop := Forall (fun c => c <> "{"%char /\ c <> NUL) s.
Lemma quiet_lit s : forallb (fun c => negb (aeqb c "{") && negb (aeqb c NUL)) s = true -> quiet s.
Proof.
  intros F. apply Forall_forall. intros c I. rewrite forallb_forall in F. apply F, andb_true_iff in I. destruct I as [A B].
  apply negb_true_iff in A, B. split; intros ->; [change (aeqb "{" "{") with true in A|change (aeqb NUL NUL) with true in B]; congruence.
Qed.
Lemma quiet_app s t : quiet s -> quiet t -> quiet (s ++ t).
Proof. intros A B. apply Forall_app. auto. Qed.
Lemma fmt_d_quiet z : quiet (fmt_d z).
Proof. eapply Forall_impl; [|exact (NodeProofs.fmt_d_nice z)]. intros c H. split; intros ->; vm_compute in H; discriminate H. Qed.
Lemma quiet_brace s : quiet s -> ~ In "{"%char s.
Proof. intros Q I. unfold quiet in Q. rewrite Forall_forall in Q. apply (proj1 (Q _ I)). reflexivity. Qed.
Lemma quiet_nul s : quiet s -> nul_free s.
Proof. intros Q I. unfold quiet in Q. rewrite Forall_forall in Q. apply (proj2 (Q _ I)). reflexivity. Qed.

Lemma report_quiet r : exists t, print_result r = "{"%char :: LF :: t /\ quiet t.
Proof.
  eexists. split; [unfold print_result; reflexivity|].
  change (quiet (json_field "cpu_time" (cpu_time r) ++ (lit "," ++ [LF]) ++ json_field "real_time" (real_time r) ++ (lit "," ++ [LF]) ++
    json_field "memory" (memory r) ++ (lit "," ++ [LF]) ++ json_field "signal" (signal r) ++ (lit "," ++ [LF]) ++
    json_field "exit_code" (exit_code r) ++ (lit "," ++ [LF]) ++ json_field "error" (error r) ++ (lit "," ++ [LF]) ++
    json_field "result" (verdict r) ++ [LF] ++ lit "}")).
  unfold json_field. repeat apply quiet_app; try apply fmt_d_quiet; apply quiet_lit; reflexivity.
Qed.

Lemma decodes_split out shown text v : node_split out = Val (shown, text) -> json_text false text v ->
  forall o, node_decodes out o <-> o = NodeReturns shown v.
Proof.
  intros E J o. split.
  - intros [s t w E' J'|s t E' N|E'].
    + rewrite E in E'. injection E' as <- <-. rewrite (json_unique false text _ _ J J'). reflexivity.
    + rewrite E in E'. injection E' as <- <-. destruct (N v J).
    + congruence.
  - intros ->. econstructor; eassumption.
Qed.
Lemma decodes_none out : node_split out = UB -> forall o, node_decodes out o <-> o = NodeUndefined.
Proof. intros E o. split; [intros [s t w E' J|s t E' N|E']; congruence|intros ->; constructor; exact E]. Qed.

Lemma reads_lines a s : lines a -> node_reads (a ++ s) = node_reads a ++ node_reads s.
Proof.
  intros [->|[a' ->]]; [reflexivity|]. unfold node_reads. rewrite <- app_assoc. cbn [app]. apply collect_lines.
Qed.
Lemma reads_clean s : nul_free s -> node_reads s = s.
Proof. intros N. unfold node_reads. rewrite collect_clean by (auto; intros []). reflexivity. Qed.

Theorem node_result a b r o : lines a -> nul_free b ->
  (Z.of_nat (List.length (node_reads a ++ b ++ print_result r)) < 2 ^ 31)%Z ->
  node_decodes ((a ++ b) ++ print_result r) o <-> o = NodeReturns (node_reads a ++ b) (result_object r).
Proof.
  intros La N L. destruct (report_quiet r) as (t & E & Q).
  apply (decodes_split _ _ (print_result r)); [|apply result_text].
  rewrite E. apply split_found.
  - rewrite <- app_assoc, reads_lines by exact La. rewrite <- app_assoc. f_equal. apply reads_clean.
    apply nul_free_app. split; [exact N|]. intros [H|[H|H]]; [discriminate H|discriminate H|]. exact (quiet_nul t Q H).
  - intros [H|H]; [discriminate H|]. exact (quiet_brace t Q H).
  - rewrite <- app_assoc. rewrite E in L. exact L.
Qed.
Theorem node_result_clean own r o : nul_free own -> (Z.of_nat (List.length (own ++ print_result r)) < 2 ^ 31)%Z ->
  node_decodes (own ++ print_result r) o <-> o = NodeReturns own (result_object r).
Proof.
  intros N L. exact (node_result [] own r o (or_introl eq_refl) N L).
Qed.

Theorem node_no_brace out o : ~ In "{"%char out -> node_decodes out o <-> o = NodeUndefined.
Proof. intros N. apply decodes_none, split_none. intros I. apply N, reads_sub, I. Qed.

(** ** A NUL in the last line *)
Lemma reads_nul a b c r t : lines a -> nul_free b -> ~ In LF (b ++ NUL :: c) -> List.length (b ++ NUL :: c) < 253 ->
  print_result r = "{"%char :: LF :: t -> quiet t ->
  node_reads ((a ++ b ++ NUL :: c) ++ print_result r) = node_reads a ++ b ++ t.
Proof.
  intros La N F L E Q. rewrite <- app_assoc, reads_lines by exact La. f_equal. rewrite E.
  replace ((b ++ NUL :: c) ++ "{"%char :: LF :: t) with (((b ++ NUL :: c) ++ ["{"%char]) ++ LF :: t) by (rewrite <- !app_assoc; reflexivity).
  unfold node_reads. rewrite collect_short.
  - cbn [app]. replace (((b ++ NUL :: c) ++ ["{"%char]) ++ [LF]) with (b ++ NUL :: (c ++ ["{"%char; LF])) by (rewrite <- !app_assoc; reflexivity).
    rewrite (upto_nul_stop b _ N). f_equal. apply (reads_clean t (quiet_nul t Q)).
  - intros I. apply in_app_iff in I. destruct I as [I|[I|[]]]; [exact (F I)|discriminate I].
  - rewrite app_length. cbn [List.length] in *. lia.
Qed.
Theorem node_nul_lost a b c r o : lines a -> nul_free b -> ~ In LF (b ++ NUL :: c) -> List.length (b ++ NUL :: c) < 253 ->
  ~ In "{"%char (a ++ b) -> node_decodes ((a ++ b ++ NUL :: c) ++ print_result r) o <-> o = NodeUndefined.
Proof.
  intros La N F L B. destruct (report_quiet r) as (t & E & Q). apply decodes_none, split_none.
  rewrite (reads_nul a b c r t La N F L E Q). intros I. apply in_app_iff in I. destruct I as [I|I].
  - apply B, in_app_iff. left. apply reads_sub, I.
  - apply in_app_iff in I. destruct I as [I|I]; [apply B, in_app_iff; right; exact I|exact (quiet_brace t Q I)].
Qed.

Theorem node_forged k z r o :
  forallb (fun c => (32 <=? nat_of_ascii c) && negb (aeqb c """") && negb (aeqb c "\")) (lit k) = true -> ~ In "{"%char (lit k) ->
  (Z.of_nat (List.length (forged k z ++ print_result r)) < 2 ^ 31)%Z ->
  node_decodes (forged k z ++ print_result r) o <->
  o = NodeReturns [] (match result_object r with JObject l => JObject (field k z :: l) | v => v end).
Proof.
  intros K B L. destruct (report_quiet r) as (t & E & Q).
  set (a := lit "{" ++ [LF] ++ json_field k z ++ (lit "," ++ [LF])).
  assert (forged k z = a ++ [] ++ NUL :: []) as Ef by (unfold forged, a; rewrite <- !app_assoc; reflexivity).
  assert (lines a) as La by (right; exists (lit "{" ++ [LF] ++ json_field k z ++ lit ","); unfold a; rewrite <- !app_assoc; reflexivity).
  assert (nul_free a) as Na.
  { unfold a, json_field. repeat (apply nul_free_app; split); try (apply (quiet_nul _ (fmt_d_quiet z)));
      try (intros I; cbn in I; repeat (destruct I as [I|I]; [discriminate I|]); destruct I).
    intros I. rewrite forallb_forall in K. apply K in I. vm_compute in I. discriminate I. }
  assert (node_reads (forged k z ++ print_result r) = "{"%char :: ([LF] ++ json_field k z ++ (lit "," ++ [LF])) ++ t) as R.
  { rewrite Ef, (reads_nul a [] [] r t La); [|intros []|intros [I|[]]; discriminate I|cbn; lia|exact E|exact Q].
    rewrite (reads_clean a Na). cbn [app]. unfold a. rewrite <- !app_assoc. reflexivity. }
  apply (decodes_split _ _ ("{"%char :: ([LF] ++ json_field k z ++ (lit "," ++ [LF])) ++ t)).
  - apply (split_found _ []); [exact R| |].
    + unfold json_field. rewrite <- !app_assoc. intros I. repeat (apply in_app_iff in I; destruct I as [I|I]);
        try (cbn in I; repeat (destruct I as [I|I]; [discriminate I|]); destruct I); try exact (B I);
        try exact (quiet_brace _ (fmt_d_quiet z) I); exact (quiet_brace t Q I).
    + eapply Z.le_lt_trans; [|exact L]. rewrite E. unfold forged. rewrite !app_length. cbn [app List.length]. rewrite !app_length. cbn [List.length]. lia.
  - exists [], ("{"%char :: ([LF] ++ json_field k z ++ (lit "," ++ [LF])) ++ t), []. rewrite app_nil_r.
    split; [reflexivity|]. split; [constructor|]. split; [|constructor].
    assert (exists m, t = m ++ lit "}" /\ members false ([LF] ++ m) (match result_object r with JObject l => l | _ => [] end)) as (m & Et & M).
    { assert (print_result r = "{"%char :: LF :: t) as E' by exact E. revert E'. unfold print_result. cbv zeta.
      match goal with |- (lit "{" ++ [LF] ++ ?a ++ ?b ++ ?c ++ ?d ++ ?e ++ ?f ++ ?g ++ ?h ++ ?i ++ ?j ++ ?k ++ ?l ++ ?m ++ ?n ++ lit "}" = _) -> _ =>
        exists (a ++ b ++ c ++ d ++ e ++ f ++ g ++ h ++ i ++ j ++ k ++ l ++ m ++ n); pose (zz := a) end.
      clear zz. change (lit "{") with ["{"%char] in E'. cbn [app] in E'. injection E' as E'. split; [rewrite <- E', <- !app_assoc; reflexivity|].
      unfold result_object. do 6 (apply line_more; [reflexivity|]). apply line_last. reflexivity. }
    cbn [result_object] in *. rewrite Et.
    change ("{"%char :: ([LF] ++ json_field k z ++ lit "," ++ [LF]) ++ m ++ lit "}") with
      (lit "{" ++ (([LF] ++ json_field k z ++ lit "," ++ [LF]) ++ m ++ lit "}")).
    replace (([LF] ++ json_field k z ++ lit "," ++ [LF]) ++ m ++ lit "}") with
      (([LF] ++ json_field k z ++ (lit "," ++ [LF]) ++ m) ++ lit "}") by (rewrite <- !app_assoc; reflexivity).
    apply value_object. apply line_more; [exact K|exact M].
Qed.
