(** The samples meet the hypotheses. *)
From Coq Require Import ZArith Bool List Ascii String Arith Lia.
From Verif.Base Require Import CInt CStr.
From Verif.Model Require Import ArgInt Permute Getopt Argtable AnyTable.
From Verif.Spec Require Import IntText CmdLine AnyLine AnySpec AnyTableSpec Writing PlainSpec AnySamples.
From Verif.Proofs Require Import ArgIntClaims AnyLong AnyTableProofs AnyTotal.
Import ListNotations.
Open Scope list_scope.
Open Scope nat_scope.

Definition lacks (c : ascii) (s : str) : bool := forallb (fun x => negb (aeqb x c)) s.
Lemma lacks_not_in c s : lacks c s = true -> ~ In c s.
Proof. intros H I. unfold lacks in H. rewrite forallb_forall in H. apply H in I. rewrite (proj2 (aeqb_eq c c) eq_refl) in I. discriminate I. Qed.

Lemma fine_by_computing os :
  forallb (fun o => forallb (fun c => lacks c ["000"; "-"; ":"; ";"; "?"; "255"]%char) (o_letters o) &&
                    forallb (fun n => match n with [] => false | _ => true end && lacks ","%char n && lacks "000"%char n) (o_names o)) os = true ->
  fine_options os.
Proof.
  intros H. rewrite forallb_forall in H. apply Forall_forall. intros o I. apply H in I. apply andb_prop in I. destruct I as (L & N).
  rewrite forallb_forall in L, N. split; apply Forall_forall.
  - intros c Ic. apply L in Ic. exact (lacks_not_in _ _ Ic).
  - intros n In_. apply N in In_. apply andb_prop in In_. destruct In_ as (X & Z0). apply andb_prop in X. destruct X as (X & Y).
    split; [destruct n; [discriminate X|discriminate]|]. split; [exact (lacks_not_in _ _ Y)|exact (lacks_not_in _ _ Z0)].
Qed.
Lemma fine1 : fine_options os1.
Proof. apply fine_by_computing. vm_compute. reflexivity. Qed.
Lemma plain1 : fine_options (map as_option ps1).
Proof. apply fine_by_computing. vm_compute. reflexivity. Qed.

Lemma c_words ws : forallb (forallb (fun c => negb (aeqb c "000"%char))) ws = true -> Forall c_string ws.
Proof.
  intros H. rewrite forallb_forall in H. apply Forall_forall. intros w I. apply H in I. rewrite forallb_forall in I.
  intros J. apply I in J. discriminate J.
Qed.
Lemma strings1 : Forall c_string words1 /\ Forall c_string words2 /\ Forall c_string words3.
Proof. repeat split; apply c_words; reflexivity. Qed.

(** What the model does with the first two. *)
Lemma run1 m : any_parse _ (declared os1 bs1) 9 (20 + m) false (lit "prog" :: words1) objs1 =
  Some (Val ([[None; None]; [Some (lit "3"); None]; [Some (lit "x"); Some (lit "y")]; []; [Some (lit "file"); Some (lit "-z")]], [])).
Proof. vm_compute. reflexivity. Qed.
Lemma run2 m : any_parse _ (declared os1 bs1) 9 (20 + m) false (lit "prog" :: words2) objs1 =
  Some (Val ([[None]; []; [Some []]; []; [Some (lit "a"); Some (lit "b")]],
    [mkErr None (schar "q"%char) None; mkErr None ARG_EMISSARG (Some (lit "--o=")); mkErr None ARG_EMISSARG (Some (lit "-o"));
     mkErr (Some 4) 7 (Some (lit "c"))])).
Proof. vm_compute. reflexivity. Qed.

Lemma v_means : letter_means os1 "v"%char 0.
Proof. split; [eexists; split; [reflexivity|cbn; auto]|intros; lia]. Qed.
Lemma v_takes : option_takes os1 0 Nothing.
Proof. eexists. split; reflexivity. Qed.
Lemma stuck3 : gets_stuck os1 false words3.
Proof.
  apply stuck_other; [intros (c & r & E); discriminate E|reflexivity|].
  apply (stuck_here os1 false (lit "vv-")); [discriminate|].
  apply (dash_flag os1 "v"%char (lit "v-") 0 v_means v_takes). apply (dash_flag os1 "v"%char (lit "-") 0 v_means v_takes). constructor.
Qed.

Lemma name_first k n : (exists o, nth_error (map as_option ps1) k = Some o /\ In n (o_names o)) ->
  (forall j, j < k -> match nth_error (map as_option ps1) j with Some o => ~ In n (o_names o) | None => True end) ->
  n <> [] -> no_char "="%char n -> name_of (map as_option ps1) k n.
Proof.
  intros H F N Q. split; [exact N|]. split; [exact Q|]. split; [exact H|]. intros j (o & E & I).
  destruct (le_lt_dec k j); [assumption|]. specialize (F j l). rewrite E in F. contradiction.
Qed.

Ltac names := apply name_first; [eexists; split; [reflexivity|cbn; auto]|
  intros [|j] Lj; [first [exfalso; lia|vm_compute; intuition discriminate]|exfalso; lia]|discriminate|vm_compute; intuition discriminate].
Ltac other_takes := intros (o & E & T); injection E as <-; discriminate T.
Ltac takes := eexists; split; reflexivity.

Lemma items1_fine : Forall (item_fine (map as_option ps1)) items1.
Proof.
  unfold items1. repeat apply Forall_cons; [..|apply Forall_nil]; cbn [item_fine allowed not_empty].
  - intros (c & r & E). discriminate E.
  - split; [|exact Logic.I]. split; [discriminate|]. repeat constructor; cbn [fst snd].
    + eexists; split; [reflexivity|cbn; auto].
    + intros; lia.
    + takes.
    + eexists; split; [reflexivity|cbn; auto].
    + intros; lia.
    + takes.
  - split; [|discriminate]. split; [names|other_takes].
  - intros (c & r & E). discriminate E.
  - split; [|exact Logic.I]. split; [|takes]. split; [eexists; split; [reflexivity|cbn; auto]|].
    intros [|j] (o & E & X); [injection E as <-; vm_compute in X; intuition discriminate|lia].
  - split; [|exact Logic.I]. split; [names|other_takes].
  - split; [|exact Logic.I]. split; [|split; [other_takes|discriminate]]. split; [eexists; split; [reflexivity|cbn; auto]|].
    intros j (o & E & X). do 3 (destruct j as [|j]; [injection E as <-; vm_compute in X; intuition discriminate|]). lia.
Qed.

Lemma items1_in_order : in_order ps1 (flat_map item_gives items1 ++ dealt 0 ps1 (flat_map item_args items1)) kept1.
Proof.
  split.
  - cbn. repeat (constructor; [eexists; split; [reflexivity|]|]); try constructor; try constructor; try (unfold is_int; lia).
    + exists (lit "0x10"), 16%Z, [], 1%Z, []. split; [reflexivity|]. split; [|split; [constructor|split; [constructor|reflexivity]]].
      apply (plain_radix [] [] 1 (lit "0x") 16 (lit "10") 16); [constructor|constructor|constructor|].
      apply (numeral_more 16 (lit "1") 1 "0" 0); [constructor|]; (split; [lia|left; reflexivity]).
    + exists (lit "-7"), (-7)%Z, [], 1%Z, []. split; [reflexivity|]. split; [|split; [constructor|split; [constructor|reflexivity]]].
      apply (plain_dec [] (lit "-") (-1) (lit "7") 7); [constructor|constructor|]. constructor. split; [lia|left; reflexivity].
  - intros k p E. do 5 (destruct k as [|k]; [injection E as <-; vm_compute; lia|]). destruct k; discriminate E.
Qed.

Lemma outcome1 : outcome (list (option str)) os1 bs1 9 false words1 objs1
  (Val ([[None; None]; [Some (lit "3"); None]; [Some (lit "x"); Some (lit "y")]; []; [Some (lit "file"); Some (lit "-z")]], [])).
Proof.
  destruct (outcome_exists os1 fine1 (list (option str)) bs1 eq_refl 9 false words1 objs1 eq_refl) as [(out & O)|St].
  - destruct (any_parse_outcome (list (option str)) os1 bs1 9 false fine1 eq_refl ltac:(lia) (lit "prog") words1 objs1 out eq_refl (proj1 strings1) O) as (n & R).
    specialize (R (20 + n) ltac:(lia)). rewrite run1 in R. destruct out as [[o errs]|]; [|discriminate R].
    injection R as <- E. destruct errs; [exact O|discriminate E].
  - exfalso. pose proof (any_parse_stuck (list (option str)) os1 bs1 9 false fine1 eq_refl ltac:(lia) (lit "prog") words1 objs1 (proj1 strings1) St) as N.
    pose proof (run1 0) as R. apply (N _ _ R).
Qed.
