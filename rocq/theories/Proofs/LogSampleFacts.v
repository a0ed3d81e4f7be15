(** The sample histories are executions. *)
From Coq Require Import ZArith NArith Bool List Ascii String Arith Lia.
From Verif.Base Require Import CInt CStr CMem.
From Verif.Model Require Import Logger.
From Verif.Spec Require Import IntText LogSpec LogSamples.
From Verif.Proofs Require Import LogProofs LogSchedules.
Import ListNotations.
Open Scope list_scope.
Open Scope nat_scope.

Section Run.
Variable ofd : nat -> nat.

(** An executable version of [step], without closing. *)
Definition run_step (s : lstate) (e : event) : option lstate :=
  match e with
  | Start p c =>
      match l_pc s p, log_data (l_buf s p) c with
      | Idle, Val (data, buf) => Some (mkL (set (l_pc s) p (Locking data)) (set (l_buf s) p buf) (l_lock s) (l_file s))
      | _, _ => None
      end
  | Locked p =>
      match l_pc s p with
      | Locking data =>
          if match l_lock s with None => true | Some o => o =? ofd p end
          then Some (mkL (set (l_pc s) p (Writing 0 data)) (l_buf s) (Some (ofd p)) (l_file s)) else None
      | _ => None
      end
  | LockFails p =>
      match l_pc s p with
      | Locking data => Some (mkL (set (l_pc s) p Idle) (l_buf s) (l_lock s) (l_file s))
      | _ => None
      end
  | Byte p =>
      match l_pc s p with
      | Writing n (b :: rest) => Some (mkL (set (l_pc s) p (Writing (S n) rest)) (l_buf s) (l_lock s) (l_file s ++ [b]))
      | _ => None
      end
  | Wrote p =>
      match l_pc s p with
      | Writing n [] => Some (mkL (set (l_pc s) p Unlocking) (l_buf s) (l_lock s) (l_file s))
      | _ => None
      end
  | WriteFails p =>
      match l_pc s p with
      | Writing 0 _ => Some (mkL (set (l_pc s) p Idle) (l_buf s) (l_lock s) (l_file s))
      | _ => None
      end
  | Unlocked p =>
      match l_pc s p with
      | Unlocking => Some (mkL (set (l_pc s) p Idle) (l_buf s)
          (match l_lock s with Some o => if o =? ofd p then None else Some o | None => None end) (l_file s))
      | _ => None
      end
  | _ => None
  end.

Lemma run_step_ok s e s' : run_step s e = Some s' -> step ofd s e (Val s').
Proof.
  intros H. destruct e as [p c|p|p|p|p|p|p|p|p|o]; cbn in H; try discriminate H.
  - destruct (l_pc s p) eqn:P; try discriminate H. destruct (log_data (l_buf s p) c) as [[data buf]|] eqn:D; try discriminate H.
    injection H as <-. econstructor; eassumption.
  - destruct (l_pc s p) eqn:P; try discriminate H.
    destruct (l_lock s) as [o|] eqn:L.
    + destruct (o =? ofd p) eqn:X; try discriminate H. apply Nat.eqb_eq in X. injection H as <-. subst.
      econstructor; [eassumption|]. right. exact L.
    + injection H as <-. econstructor; [eassumption|]. left. exact L.
  - destruct (l_pc s p) eqn:P; try discriminate H. injection H as <-. econstructor; eassumption.
  - destruct (l_pc s p) as [| |n [|b rest]| |] eqn:P; try discriminate H. injection H as <-. econstructor; eassumption.
  - destruct (l_pc s p) as [| |n [|b rest]| |] eqn:P; try discriminate H. injection H as <-. econstructor; eassumption.
  - destruct (l_pc s p) as [| |[|n] rest| |] eqn:P; try discriminate H. injection H as <-. econstructor; eassumption.
  - destruct (l_pc s p) eqn:P; try discriminate H. injection H as <-. econstructor; eassumption.
Qed.

Fixpoint run_all (s : lstate) (tr : list event) : option lstate :=
  match tr with [] => Some s | e :: tr => match run_step s e with Some s => run_all s tr | None => None end end.

Lemma run_all_ok tr s s' : run_all s tr = Some s' -> exec ofd s tr s'.
Proof.
  revert s. induction tr as [|e tr IH]; cbn; intros s H.
  - injection H as <-. constructor.
  - destruct (run_step s e) as [s1|] eqn:E; [|discriminate]. econstructor; [apply run_step_ok, E|apply IH, H].
Qed.

(** Only the processes 0 and 1 appear. *)
Definition two (e : event) : bool :=
  match e with
  | Start p _ | Locked p | LockFails p | Byte p | Wrote p | WriteFails p | Unlocked p => p <? 2
  | _ => false
  end.

Lemma two_only tr s s' : run_all s tr = Some s' -> forallb two tr = true -> forall p, 2 <= p -> l_pc s' p = l_pc s p.
Proof.
  revert s. induction tr as [|e tr IH]; cbn; intros s H F p L; [injection H as <-; reflexivity|].
  apply andb_prop in F as [F1 F2]. destruct (run_step s e) as [s1|] eqn:E; [|discriminate].
  rewrite (IH s1 H F2 p L). apply run_step_ok in E.
  destruct e; cbn [two] in F1; try discriminate F1; apply Nat.ltb_lt in F1; inversion E; subst; cbn [l_pc];
    apply set_neq; lia.
Qed.
End Run.

Definition ends_well (ofd : nat -> nat) (f0 : str) (tr : list event) (file : str) (lock : option nat) : bool :=
  match run_all ofd (quiet f0) tr with
  | Some s => str_eqb (l_file s) file && match l_lock s, lock with None, None => true | Some a, Some b => a =? b | _, _ => false end
      && match l_pc s 0 with Idle => true | _ => false end && match l_pc s 1 with Idle => true | _ => false end && forallb two tr
  | None => false
  end.

Lemma ends_well_ok ofd f0 tr file lock : ends_well ofd f0 tr file lock = true ->
  exists s, exec ofd (quiet f0) tr s /\ l_file s = file /\ l_lock s = lock /\ at_rest s.
Proof.
  unfold ends_well. destruct (run_all ofd (quiet f0) tr) as [s|] eqn:E; [|discriminate]. intros H.
  apply andb_prop in H as [H T]. apply andb_prop in H as [H P1]. apply andb_prop in H as [H P0]. apply andb_prop in H as [F L].
  exists s. split; [apply run_all_ok, E|]. split; [apply str_eqb_eq, F|]. split.
  - destruct (l_lock s), lock; try discriminate L; [|reflexivity]. apply Nat.eqb_eq in L. subst. reflexivity.
  - intros [|[|p]].
    + destruct (l_pc s 0); try discriminate P0. left. reflexivity.
    + destruct (l_pc s 1); try discriminate P1. left. reflexivity.
    + rewrite (two_only ofd _ _ _ E T); [|lia]. left. reflexivity.
Qed.

Lemma history_runs : exists s, exec (fun p => p) (quiet []) history s /\
  l_file s = lit line_a ++ nl ++ lit line_b ++ nl /\ l_lock s = None /\ at_rest s.
Proof. apply ends_well_ok. vm_compute. reflexivity. Qed.

Lemma failing_runs : exists s, exec (fun p => p) (quiet []) failing_history s /\ l_file s = [] /\ l_lock s = Some 0 /\ at_rest s.
Proof. apply ends_well_ok. vm_compute. reflexivity. Qed.

Lemma shared_runs : exists s, exec (fun _ => 0) (quiet []) shared_history s /\
  l_file s = lit "FF" ++ tl (lit line_a) ++ nl ++ tl (lit line_b) ++ nl /\ l_lock s = None /\ at_rest s.
Proof. apply ends_well_ok. vm_compute. reflexivity. Qed.

Lemma sample_short c : c = call_a \/ c = call_b -> short_line c.
Proof.
  intros [->| ->].
  - apply run_call; try (apply lit_no_nul; reflexivity); [split; discriminate|discriminate|cbn; lia|cbn; auto].
  - apply child_call; try (apply lit_no_nul; reflexivity); [split; discriminate|discriminate|cbn; lia|cbn; lia|cbn; auto 20].
Qed.

Lemma fatal_line source line text date l : asks_line (mkCall 0 source line text (Some date)) l -> exists r, l = lit "FATAL" ++ r.
Proof.
  intros A. inversion A as [lv note source' line' text' date' Lv Li Ns Nd Ld Ec El]; subst. inversion Lv; subst.
  unfold log_line. eexists. reflexivity.
Qed.

(** No concatenation of the two lines, in whatever order, begins with FF. *)
Lemma not_lines g lines r : (forall c, In c g -> c = call_a \/ c = call_b) -> Forall2 asks_line g lines ->
  lit "FF" ++ r <> List.concat lines.
Proof.
  intros G F E. destruct F as [|c l g lines A F]; [discriminate E|].
  assert (exists x, l = lit "FATAL" ++ x) as [x ->].
  { destruct (G c) as [->| ->]; [left; reflexivity| |]; eapply fatal_line; exact A. }
  cbn in E. discriminate E.
Qed.

Lemma shared_breaks : exists tr s, exec (fun _ => 0) (quiet []) tr s /\ (forall e, In e tr -> ~ trouble e) /\
  (forall c, In c (started tr) -> short_line c) /\ at_rest s /\
  forall g lines, (forall c, In c g -> In c (started tr)) -> Forall2 asks_line g lines -> l_file s <> List.concat lines.
Proof.
  destruct shared_runs as (s & E & F & L & R). exists shared_history, s. split; [exact E|].
  assert (forall c, In c (started shared_history) -> c = call_a \/ c = call_b) as St.
  { intros c. change (started shared_history) with [call_a; call_b]. intros [<-|[<-|[]]]; auto. }
  split; [|split; [intros c I; apply sample_short, St, I|split; [exact R|]]].
  - intros e I. assert (forallb (fun e => match e with Short _ | WriteFails _ | Killed _ => false | _ => true end) shared_history = true) as T
      by reflexivity.
    rewrite forallb_forall in T. apply T in I. destruct e; try discriminate I; intros [].
  - intros g lines G A. rewrite F. apply (not_lines g); [intros c I; apply St, G, I|exact A].
Qed.

Lemma history_granted : granted (fun _ => None) history = [call_a; call_b].
Proof. reflexivity. Qed.
Lemma history_calm e : In e history -> ~ trouble e.
Proof.
  intros I. assert (forallb (fun e => match e with Short _ | WriteFails _ | Killed _ => false | _ => true end) history = true) as T
    by reflexivity.
  rewrite forallb_forall in T. apply T in I. destruct e; try discriminate I; intros [].
Qed.
Lemma history_short c : In c (started history) -> short_line c.
Proof. change (started history) with [call_a; call_b]. intros [<-|[<-|[]]]; apply sample_short; auto. Qed.

Lemma long_line n : asks_line (long_call n)
  (log_line (lit "INFO") sample_date (lit "x.c") 7 (DstrSpec.upto_nul (repeat "a"%char (N.to_nat n)))).
Proof.
  constructor; try (apply lit_no_nul; reflexivity); [constructor|split; discriminate|cbn; lia].
Qed.

Lemma upto_as n : DstrSpec.upto_nul (repeat "a"%char n) = repeat "a"%char n.
Proof.
  apply DstrProofs.upto_id. intros I. apply repeat_spec in I. discriminate I.
Qed.

Lemma long_length n : N.of_nat (List.length (log_line (lit "INFO") sample_date (lit "x.c") 7
  (DstrSpec.upto_nul (repeat "a"%char (N.to_nat n))))) = (n + 35)%N.
Proof.
  rewrite upto_as. unfold log_line. rewrite !app_length, repeat_length.
  change (List.length (lit "INFO")) with 4. change (List.length (lit " [")) with 2. change (List.length sample_date) with 19.
  change (List.length (lit "] [")) with 3. change (List.length (lit "x.c")) with 3. change (List.length (lit ":")) with 1.
  change (List.length (decimal 7)) with 1. change (List.length (lit "]")) with 1. cbn [List.length]. lia.
Qed.

Lemma over_read : exists c l, asks_line c l /\ log_data fresh_buffers c = UB.
Proof.
  exists (long_call 8158). eexists. split; [apply long_line|].
  destruct (data_cases fresh_buffers _ _ fresh_sized (long_line 8158)) as (s' & _ & _ & _ & D). apply D.
  rewrite long_length. reflexivity.
Qed.

Lemma write_calls s c l : sized s -> asks_line c l -> (N.of_nat (List.length l) < 8192)%N ->
  exists s', sized s' /\ log_write true true true s c = Val ([LFlockEx; LWrite l; LFlockUn], s').
Proof.
  intros Z A L. destruct (data_line s c l Z A L) as (s' & Z' & E). exists s'. split; [exact Z'|].
  unfold log_write. cbn [negb]. rewrite E. reflexivity.
Qed.

Lemma failures_reported opened locks writes s c l : sized s -> asks_line c l -> (N.of_nat (List.length l) < 8192)%N ->
  opened && locks && writes = false ->
  exists calls s' t, log_write opened locks writes s c = Val (calls, s') /\ In (LStderr t) calls /\ t <> [].
Proof.
  intros Z A L F. destruct (data_line s c l Z A L) as (s' & Z' & E). unfold log_write. rewrite E. cbn [cbind].
  destruct opened; cbn [negb].
  - destruct locks; [destruct writes; [discriminate F|]|]; eexists _, _, _; (split; [reflexivity|]); (split; [cbn; auto|]); discriminate.
  - eexists _, _, _. split; [reflexivity|]. split; [left; reflexivity|discriminate].
Qed.
