(** C73 from HashTableProofs. *)
From Coq Require Import ZArith Bool List Ascii String Arith Lia Permutation.
From Verif.Base Require Import CInt CStr CMem.
From Verif.Model Require Import ArgMemory HashTable.
From Verif.Spec Require Import CommandSpec.
From Verif.Proofs Require Import HashTableProofs.
Import ListNotations.
Open Scope Z_scope.

Lemma served_reg P loadlimit ok (qs : list (request P)) r h : Forall fits qs -> served loadlimit ok qs = MVal (r, h) -> reg P r h (current qs).
Proof.
  intros F E. destruct (served_ok P loadlimit ok qs F) as [(E' & _)|(r' & h' & E' & R)]; rewrite E in E'; [discriminate E'|]. injection E' as <- <-. exact R.
Qed.
Lemma c73_lookup : forall P loadlimit ok (qs : list (request P)), Forall fits qs ->
  (served loadlimit ok qs = MPanic /\ exists n, ok n = false) \/
  (exists r h, served loadlimit ok qs = MVal (r, h) /\
     forall name, match current qs name with
                  | Some (proc, description) =>
                      (exists i, cmd_info P name r = Val (Some i) /\ is_command i name (proc, description)) /\
                      cmd_dispatch P name r = MVal proc
                  | None => cmd_info P name r = Val None /\ cmd_dispatch P name r = MPanic
                  end).
Proof.
  intros P loadlimit ok qs F. destruct (served_ok P loadlimit ok qs F) as [H|(r & h & E & R)]; [left; exact H|right]. exists r, h. split; [exact E|].
  intros name. destruct (info_ok P name r h _ R) as (i & Ei & I). unfold cmd_dispatch. rewrite Ei. cbn [lift mbind]. destruct (current qs name) as [(p, d)|].
  - destruct I as (v & -> & C). split; [exists v; auto|]. destruct C as (_ & -> & _). reflexivity.
  - subst i. auto.
Qed.
Lemma c73_listing : forall P loadlimit ok (qs : list (request P)) r h, Forall fits qs -> served loadlimit ok qs = MVal (r, h) ->
  Z.of_nat (List.length qs) < 4294967296 ->
  exists names, NoDup names /\ (forall n, In n names <-> current qs n <> None) /\
    cmd_count P r = Val (Z.of_nat (List.length names)) /\
    exists cs, Permutation (map fst cs) names /\
      (forall fuel, (List.length names < fuel)%nat -> cmd_list P fuel r = Some (Val cs)) /\
      forall n i, In (n, i) cs -> exists x, current qs n = Some x /\ is_command i n x.
Proof. intros P loadlimit ok qs r h F E B. exact (list_ok P r h qs (served_reg P loadlimit ok qs r h F E) B). Qed.
Lemma c73_search : forall P loadlimit ok (qs : list (request P)) r h, Forall fits qs -> served loadlimit ok qs = MVal (r, h) ->
  exists t, r = Some t /\ forall name,
    match current qs name with
    | Some x => exists i v, itr_search (info P) hash_key equal_keys name t = Val (Some i) /\
                  itr_key (info P) t i = Val name /\ itr_value (info P) t i = Val v /\ is_command v name x
    | None => itr_search (info P) hash_key equal_keys name t = Val None
    end.
Proof.
  intros P loadlimit ok qs r h F E. pose proof (served_reg P loadlimit ok qs r h F E) as R. destruct R as (t & -> & R). exists t. split; [reflexivity|]. intros name.
  destruct (found_ok P name (Some t) h (current qs) (ex_intro _ t (conj eq_refl R))) as (t' & i & Et & S & I). injection Et as <-.
  destruct (current qs name) as [x|].
  - destruct I as (j & v & -> & K & V & C). exists j, v. auto.
  - subst i. exact S.
Qed.
Lemma c73_sweep : forall P loadlimit ok (qs : list (request P)) r h keep, Forall fits qs -> served loadlimit ok qs = MVal (r, h) ->
  Z.of_nat (List.length qs) < 4294967296 ->
  exists r' h', (forall fuel, (List.length qs < fuel)%nat -> swept keep fuel r h = Some (MVal (r', h'))) /\
    (forall name, match (if keep name then current qs name else None) with
                  | Some x => exists i, cmd_info P name r' = Val (Some i) /\ is_command i name x
                  | None => cmd_info P name r' = Val None
                  end) /\
    exists h2, cmd_uninit P r' h' = MVal h2 /\ h_live h2 = [].
Proof.
  intros P loadlimit ok qs r h keep F E B. destruct (swept_ok P keep r h qs (served_reg P loadlimit ok qs r h F E) B) as (r' & h' & S & R).
  exists r', h'. split; [exact S|]. split.
  - intros name. destruct (info_ok P name r' h' _ R) as (i & Ei & I). cbv beta in I. destruct (if keep name then current qs name else None) as [x|].
    + destruct I as (v & -> & C). exists v. auto.
    + subst i. exact Ei.
  - exact (uninit_ok P r' h' _ R).
Qed.
Lemma c73_memory : forall P loadlimit ok (qs : list (request P)) r h, Forall fits qs -> served loadlimit ok qs = MVal (r, h) ->
  exists h', cmd_uninit P r h = MVal h' /\ h_live h' = [].
Proof. intros P loadlimit ok qs r h F E. exact (uninit_ok P r h _ (served_reg P loadlimit ok qs r h F E)). Qed.
Lemma c73_uninitialised : forall P loadlimit ok name proc h,
  cmd_info P name None = UB /\ cmd_count P None = UB /\ cmd_register P loadlimit ok [] proc [] None h = MUB.
Proof. intros. split; [reflexivity|]. split; reflexivity. Qed.

Definition sample_requests : list (request nat) :=
  [Register (lit "a") 1%nat (lit "first"); Register (lit "b") 2%nat (lit "second"); Unregister (lit "a"); Register (lit "b") 4%nat (lit "third")].
Lemma no_nulb s : forallb (fun c => negb (aeqb c NUL)) s = true -> no_nul s.
Proof. intros H J. rewrite forallb_forall in H. specialize (H NUL J). rewrite aeqb_refl in H. discriminate H. Qed.
Lemma sample_fits : Forall fits sample_requests.
Proof. repeat constructor; try (apply no_nulb; reflexivity); try (cbn; lia). Qed.
Lemma sample_served : exists t i, served (fun _ => 1) (fun _ => true) sample_requests = MVal (Some t, mkHeap [11; 10; 9; 7; 0]%nat 12) /\
  cmd_info nat (lit "b") (Some t) = Val (Some i) /\ ci_proc i = 4%nat /\ cmd_info nat (lit "a") (Some t) = Val None.
Proof. eexists _, _. split; [vm_compute; reflexivity|]. split; [vm_compute; reflexivity|]. split; vm_compute; reflexivity. Qed.
Lemma sample_failure : served (fun _ => 1) (fun n => negb (n =? 7)%nat) sample_requests = MPanic.
Proof. vm_compute. reflexivity. Qed.
