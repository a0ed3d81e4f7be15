(** C102: the rights are those of the configured user and group. *)
From Coq Require Import ZArith Bool List Ascii String Arith Lia.
From Verif.Base Require Import CInt CStr.
From Verif.Model Require Import Config Runner Seccomp Child Names Reading Starting.
From Verif.Spec Require Import RunSpec SandboxSpec NamesSpec StartingSpec.
From Verif.Proofs Require Import ChildClaims StartingProofs.
Import ListNotations.
Open Scope list_scope.
Open Scope Z_scope.

(** ** The same groups *)
Section Groups.
Variables u u' : who.
Hypothesis Hu : w_uid u = w_uid u'.
Hypothesis Hg : forall g, existsb (Z.eqb g) (w_gids u) = existsb (Z.eqb g) (w_gids u').
Hypothesis Hc : w_cwd u = w_cwd u'.

Lemma may_same b n : may b u n = may b u' n.
Proof. unfold may. rewrite Hu, Hg. reflexivity. Qed.
Lemma walk_same F follow links : forall d l, walk links F u follow d l = walk links F u' follow d l.
Proof.
  induction links as [|k IHk]; intros d l; revert d; induction l as [|x rest IH]; intro d; try reflexivity;
    cbn [walk]; (destruct (nth_error F d) as [n|]; [|reflexivity]); destruct (n_kind n); try reflexivity;
    rewrite may_same; (destruct (negb (may 0 u' n)); [reflexivity|]);
    (destruct (str_eqb x (lit ".")); [apply IH|]); (destruct (str_eqb x (lit "..")); [apply IH|]);
    (destruct (entry x _) as [i|]; [|reflexivity]); (destruct (nth_error F i) as [m|]; [|reflexivity]);
    destruct (n_kind m); try (destruct rest; [reflexivity|apply IH]);
    (destruct (match rest with [] => negb follow | _ => false end); [reflexivity|]); try reflexivity; apply IHk.
Qed.
Lemma locate_same F p follow : locate u F p follow = locate u' F p follow.
Proof. unfold locate, origin_of. rewrite Hc. apply walk_same. Qed.
Lemma executable_same F busy p : executable u F busy p = executable u' F busy p.
Proof.
  unfold executable. rewrite locate_same. assert (forall n, may_exec u n = may_exec u' n) as E by (intro n; unfold may_exec; rewrite Hu, may_same; reflexivity).
  destruct (locate u' F p true) as [i|d x i|d x|]; try reflexivity; destruct (nth_error F i) as [n|]; try reflexivity; destruct (n_kind n); try reflexivity; rewrite E; reflexivity.
Qed.
Lemma starts_same F busy depth : forall p argv, starts depth u F busy p argv = starts depth u' F busy p argv.
Proof.
  induction depth as [|k IH]; intros p argv; cbn [starts]; rewrite executable_same; (destruct (executable u' F busy p) as [[i data]|]; [|reflexivity]);
    (destruct (is_elf data); [reflexivity|]); (destruct (interpreter data) as [[name arg]|]; [|reflexivity]); [reflexivity|apply IH].
Qed.
End Groups.

Lemma judged_as_user env log c k0 path a v k cwd :
  ready c k0 -> euid (k_cred k0) = 0 -> child_process env log c k0 = CExec path a v k -> uid c <> keep_id -> gid c <> keep_id ->
  path = exe_path c /\ a = args c /\ forall F busy argv j argv',
  start (person k cwd) F busy path argv = Some (j, argv') <->
  exists n, (n <= 5)%nat /\ stands_for (mkWho (uid c) [gid c] cwd) F busy n (exe_path c) argv j argv'.
Proof.
  intros R Eu E U Gi. destruct (c13_complete_sandbox _ _ _ _ _ _ _ _ R E) as (-> & -> & _). split; [reflexivity|]. split; [reflexivity|].
  destruct (c20_privileges _ _ _ _ _ _ _ _ R Eu E) as ((Dg & Du) & _). destruct (Dg Gi) as (_ & Eg & _ & Gs). destruct (Du U) as (_ & Ee & _).
  intros F busy argv j argv'. unfold start.
  rewrite (starts_same (person k cwd) (mkWho (uid c) [gid c] cwd)); [apply starts_spec| | |reflexivity].
  - exact Ee.
  - intro g. unfold person. cbn [w_gids]. rewrite Eg, Gs. cbn [existsb]. destruct (g =? gid c); reflexivity.
Qed.
