(** Process tables: reading, writing, counting; histories from their end. *)
From Coq Require Import ZArith Bool List Arith Lia.
From Verif.Base Require Import CInt CStr.
From Verif.Model Require Import Config Runner Processes.
From Verif.Spec Require Import ProcSpec.
Import ListNotations.
Open Scope Z_scope.

Lemma get_lt : forall w p r, get w p = Some r -> (p < List.length w)%nat.
Proof.
  intros w p r H. unfold get in H. apply nth_error_Some. intro N. rewrite N in H. discriminate.
Qed.
Lemma put_length : forall w p r, List.length (put w p r) = List.length w.
Proof. induction w as [|a w IH]; intros [|p] r; cbn; auto. Qed.
Lemma get_put_same : forall w p r, (p < List.length w)%nat -> get (put w p r) p = r.
Proof.
  induction w as [|a w IH]; intros [|p] r L; cbn in L; try lia.
  - destruct r; reflexivity.
  - apply (IH p r). lia.
Qed.
Lemma get_put_other : forall w p q r, p <> q -> get (put w p r) q = get w q.
Proof.
  induction w as [|a w IH]; intros [|p] [|q] r N; try reflexivity; try congruence.
  apply (IH p q r). congruence.
Qed.
Lemma get_put : forall w p q r, (p < List.length w)%nat ->
  get (put w p r) q = if Nat.eqb q p then r else get w q.
Proof.
  intros w p q r L. destruct (Nat.eqb_spec q p) as [->|N].
  - apply get_put_same, L.
  - apply get_put_other. congruence.
Qed.
Lemma get_app : forall w r q,
  get (w ++ [Some r]) q = if Nat.eqb q (List.length w) then Some r else get w q.
Proof.
  intros w r q. unfold get. destruct (Nat.eqb_spec q (List.length w)) as [->|N].
  - rewrite nth_error_app2 by lia. rewrite Nat.sub_diag. reflexivity.
  - destruct (Nat.lt_ge_cases q (List.length w)) as [L|L].
    + rewrite nth_error_app1 by exact L. reflexivity.
    + rewrite nth_error_app2 by exact L.
      rewrite (proj2 (nth_error_None w q)) by exact L.
      destruct (q - List.length w)%nat as [|k] eqn:E; [lia|]. cbn. destruct k; reflexivity.
Qed.
Lemma get_adopted : forall w p q, get (map (adopted p) w) q =
  match get w q with Some r => adopted p (Some r) | None => None end.
Proof.
  intros w p q. unfold get. rewrite nth_error_map. destruct (nth_error w q) as [[r|]|]; cbn [option_map]; try reflexivity.
  cbn. destruct (r_parent r) as [|p'|]; try reflexivity. destruct (Nat.eqb p' p); reflexivity.
Qed.
Lemma get_none_ge : forall w p, (List.length w <= p)%nat -> get w p = None.
Proof. intros w p L. unfold get. rewrite (proj2 (nth_error_None w p)) by exact L. reflexivity. Qed.

Lemma history_app : forall evs w es, history w (evs ++ es) =
  match history w evs with Some w' => history w' es | None => None end.
Proof.
  induction evs as [|e evs IH]; intros w es; cbn; [reflexivity|].
  destruct (step w e) as [w'|]; [apply IH | reflexivity].
Qed.
Lemma history_snoc : forall evs e w w', history w (evs ++ [e]) = Some w' ->
  exists v, history w evs = Some v /\ step v e = Some w'.
Proof.
  intros evs e w w' H. rewrite history_app in H. destruct (history w evs) as [v|]; [|discriminate].
  exists v. split; [reflexivity|]. cbn in H. destruct (step v e) as [v'|]; congruence.
Qed.
Lemma family_snoc : forall x evs e, family x (evs ++ [e]) = grow (family x evs) e.
Proof. intros. unfold family. rewrite fold_left_app. reflexivity. Qed.
Lemma spent_snoc : forall evs fam e, spent fam (evs ++ [e]) =
  spent fam evs + match e with Runs p t => if In_ p (fold_left grow evs fam) then t else 0 | _ => 0 end.
Proof.
  induction evs as [|a evs IH]; intros fam e.
  - cbn [app spent fold_left]. lia.
  - cbn [app spent fold_left]. rewrite IH. lia.
Qed.
Lemma largest_nonneg : forall evs fam, 0 <= largest fam evs.
Proof. induction evs as [|e evs IH]; intros fam; cbn [largest]; [lia|]. specialize (IH (grow fam e)). lia. Qed.
Lemma largest_snoc : forall evs fam e, largest fam (evs ++ [e]) =
  Z.max (largest fam evs) (match e with
                       | Starts p _ m | Holds p m => if In_ p (fold_left grow evs fam) then m else 0
                       | _ => 0
                       end).
Proof.
  induction evs as [|a evs IH]; intros fam e.
  - cbn [app largest fold_left]. apply Z.max_comm.
  - cbn [app largest fold_left]. rewrite IH. apply Z.max_assoc.
Qed.
Lemma In__spec : forall p l, In_ p l = true <-> In p l.
Proof.
  intros p l. unfold In_. rewrite existsb_exists. split.
  - intros (q & Q & E). apply Nat.eqb_eq in E. subst q. exact Q.
  - intro H. exists p. split; [exact H | apply Nat.eqb_refl].
Qed.
Lemma In__false : forall p l, In_ p l = false <-> ~ In p l.
Proof. intros p l. rewrite <- In__spec. destruct (In_ p l); split; intro H; congruence. Qed.

Lemma keeps_reflect : forall u, reflect (u = keep_user) (keeps_user u).
Proof.
  intro u. unfold keeps_user, Child.id_given. rewrite negb_involutive. change (cast_u32 (-1)) with keep_user.
  destruct (Z.eqb_spec u keep_user); constructor; assumption.
Qed.

(** ** What a step does to each process *)
(** The record a step leaves at q. *)
Definition stepped (w : machine) (e : event) (w' : machine) : Prop :=
  match e with
  | Starts x c m => x = List.length w /\ config_invalid c = false /\ 0 <= m /\
      List.length w' = S (List.length w) /\
      (forall q, get w' q = if Nat.eqb q x then Some (forked_by_judger c m) else get w q)
  | Limits p => exists r, get w p = Some r /\ at_stage New r = true /\ w' = put w p (Some (limited r))
  | Drops p fl => exists r, get w p = Some r /\ at_stage Limited r = true /\
      (if keeps_user (uid (r_conf r)) then fl = false
       else note_allowed fl (r_user (dropped fl r)) (count (r_user (dropped fl r)) w') (r_limit r) = true) /\
      w' = put w p (Some (dropped fl r))
  | Execs p => exists r, get w p = Some r /\ at_stage Dropped r = true /\ exec_refused r w = false /\
      w' = put w p (Some (executed r))
  | Refused p st => exists r, get w p = Some r /\ at_stage Dropped r = true /\ exec_refused r w = true /\
      error_exit_status (r_conf r) st = true /\ w' = put w p (Some (ended st r))
  | Forks p q call => exists r, get w p = Some r /\ at_stage Prog r = true /\ q = List.length w /\
      fork_allowed r w = true /\ List.length w' = S (List.length w) /\ w' = w ++ [Some (copy_of p r)] /\
      (forall q', get w' q' = if Nat.eqb q' q then Some (copy_of p r) else get w q')
  | Lowers p n => exists r, get w p = Some r /\ at_stage Prog r = true /\ may_lower n (r_limit r) = true /\
      w' = put w p (Some (lowered n r))
  | Runs p t => exists r, get w p = Some r /\ alive r = true /\ 0 <= t /\ w' = put w p (Some (ran t r))
  | Holds p m => exists r, get w p = Some r /\ alive r = true /\ 0 <= m /\ w' = put w p (Some (holding m r))
  | Ends p st => exists r, get w p = Some r /\ alive r = true /\ List.length w' = List.length w /\
      w' = put (map (adopted p) w) p (Some (ended st r)) /\
      (forall q, get w' q = if Nat.eqb q p then Some (ended st r) else
                            match get w q with Some s => adopted p (Some s) | None => None end)
  | Waits p q => exists r s, get w p = Some r /\ get w q = Some s /\ p <> q /\ r_parent s = Proc p /\
      alive r = true /\ alive s = false /\ List.length w' = List.length w /\ w' = put (put w q None) p (Some (waited s r)) /\
      (forall k, get w' k = if Nat.eqb k p then Some (waited s r) else if Nat.eqb k q then None else get w k)
  | Vanishes q => exists s p, get w q = Some s /\ r_parent s = Proc p /\ alive s = false /\ w' = put w q None
  | InitReaps q => exists s, get w q = Some s /\ r_parent s = Init /\ alive s = false /\ w' = put w q None
  | JudgeReaps q => exists s, get w q = Some s /\ r_parent s = Judge /\ alive s = false /\ w' = put w q None
  end.

Ltac guards H := unfold guard in H;
  match type of H with (if ?b then _ else _) = Some _ => destruct b eqn:?G; [|discriminate H] end;
  injection H as H.

Lemma step_stepped : forall w e w', step w e = Some w' -> stepped w e w'.
Proof.
  intros w e w' H. destruct e; cbn [step] in H; cbn [stepped];
    repeat match type of H with
           | match get ?w ?p with _ => _ end = _ =>
               let G := fresh "Get" in destruct (get w p) eqn:G; [|discriminate H]
           | match r_parent ?s with _ => _ end = _ =>
               let G := fresh "Par" in destruct (r_parent s) eqn:G; try discriminate H
           end; cbv zeta in H; guards H; rewrite ?andb_true_iff, ?negb_true_iff in G;
    repeat match goal with K : _ /\ _ |- _ => destruct K end;
    repeat match goal with K : Nat.eqb _ _ = true |- _ => apply Nat.eqb_eq in K
                         | K : (0 <=? _) = true |- _ => apply Z.leb_le in K end; subst.
  - repeat split; auto. rewrite app_length. cbn. lia. intro q. apply get_app.
  - eauto.
  - eexists. split; [reflexivity|]. split; [assumption|]. split; [|reflexivity].
    destruct (keeps_user (uid (r_conf p0))); [apply negb_true_iff; assumption | assumption].
  - eauto 10.
  - eauto 10.
  - eexists. repeat split; eauto. rewrite app_length. cbn. lia. intro q'. apply get_app.
  - eauto 10.
  - eauto 10.
  - eauto 10.
  - eexists. repeat split; eauto. rewrite put_length. apply map_length.
    intro q. rewrite get_put by (rewrite map_length; apply get_lt in Get; exact Get).
    rewrite get_adopted. reflexivity.
  - assert (N : p <> q) by (intros ->; rewrite Get in Get0; injection Get0 as <-; congruence).
    eexists. eexists. repeat split; eauto. rewrite !put_length. reflexivity.
    intro k. rewrite get_put by (rewrite put_length; apply get_lt in Get; exact Get).
    rewrite get_put by (apply get_lt in Get0; exact Get0). reflexivity.
  - eauto 10.
  - eauto 10.
  - eauto 10.
Qed.
