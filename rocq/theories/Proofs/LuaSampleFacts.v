From Coq Require Import ZArith List Ascii String Bool Lia.
From Verif.Base Require Import CInt CStr.
From Verif.Model Require Import Config LuaBinding.
From Verif.Spec Require Import IntText LuaSpec LuaSamples.
From Verif.Proofs Require Import LuaProofs.
Import ListNotations.
Open Scope list_scope.
Open Scope Z_scope.

Definition key_text (v : lval) : str := match v with LString s => s | _ => [] end.
Fixpoint fresh (l : list str) : bool := match l with [] => true | x :: l => negb (existsb (str_eqb x) l) && fresh l end.
Lemma fresh_NoDup l : fresh l = true -> NoDup l.
Proof.
  induction l as [|x l IH]; intros H; [constructor|]. apply andb_true_iff in H as [A B]. constructor; [|auto].
  intros I. apply negb_true_iff in A. assert (existsb (str_eqb x) l = true) as X; [|congruence].
  apply existsb_exists. exists x. split; [exact I|apply str_eqb_eq; reflexivity].
Qed.

Lemma sample_is_table : is_table lua_sample.
Proof. unfold is_table. apply (NoDup_map_inv key_text). apply fresh_NoDup. vm_compute. reflexivity. Qed.

Lemma sample_describes : describes lua_sample lua_sample_params.
Proof.
  assert (forall l name v, (exists i, nth_error l i = Some (LString (lit name), v)) -> has l name v) as N.
  { intros l name v [i E]. exact (nth_error_In _ _ E). }
  constructor.
  - apply N. exists 0%nat. reflexivity.
  - apply N. exists 1%nat. reflexivity.
  - apply N. exists 2%nat. reflexivity.
  - apply N. exists 3%nat. reflexivity.
  - apply N. exists 4%nat. reflexivity.
  - apply N. exists 5%nat. reflexivity.
  - apply N. exists 6%nat. reflexivity.
  - apply N. exists 7%nat. reflexivity.
  - apply N. exists 8%nat. reflexivity.
  - apply N. exists 9%nat. reflexivity.
  - left. intros v H. unfold has in H.
    assert (existsb (fun e => str_eqb (key_text (fst e)) (lit "seccomp_rule_name")) lua_sample = true) as X.
    { apply existsb_exists. exists (LString (lit "seccomp_rule_name"), v). split; [exact H|apply str_eqb_eq; reflexivity]. }
    vm_compute in X. discriminate X.
  - exists [(LNumber 1, lua_key "hello"); (LNumber 2, lua_key "world")]. split; [apply N; exists 10%nat; reflexivity|].
    split; [|cbn; lia]. constructor; [exists 1; reflexivity|]. constructor; [exists 2; reflexivity|constructor].
  - exists []. split; [apply N; exists 11%nat; reflexivity|]. split; [constructor|cbn; lia].
  - apply N. exists 12%nat. reflexivity.
  - apply N. exists 13%nat. reflexivity.
Qed.

Lemma sample_modest : modest lua_sample_params.
Proof.
  assert (forall s, forallb (fun c => negb (aeqb c NUL)) (lit s) = true -> no_nul (lit s)) as G.
  { intros s H I. rewrite forallb_forall in H. apply H in I. rewrite (proj2 (aeqb_eq NUL NUL) eq_refl) in I. discriminate I. }
  constructor; cbn [lua_sample_params lp_cpu lp_real lp_memory lp_processes lp_output lp_exe lp_input lp_out lp_err lp_log lp_rule lp_args lp_env lp_uid lp_gid].
  - unfold is_int. lia.
  - lia.
  - lia.
  - repeat (split; [apply G; reflexivity|]). apply G. reflexivity.
  - discriminate.
  - split; [|constructor]. constructor; [apply G; reflexivity|]. constructor; [apply G; reflexivity|constructor].
Qed.
