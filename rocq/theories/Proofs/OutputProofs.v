(** The printed result as JSON. *)
From Coq Require Import ZArith Bool List Ascii String Arith Lia Decimal DecimalString DecimalZ.
From Coq Require DecimalFacts.
From Verif.Base Require Import CInt CStr.
From Verif.Model Require Import Config Messages.
From Verif.Spec Require IntText MessageSpec.
From Verif.Spec Require Import Json OutputSpec.
From Verif.Proofs Require DecimalFacts.
From Verif.Proofs Require Import JsonProofs.
Import ListNotations.
Open Scope list_scope.
Open Scope nat_scope.

Lemma pos_uint_head p u : Pos.to_uint p <> D0 u.
Proof.
  intros E. pose proof (to_of (Decimal.Pos (Pos.to_uint p))) as T.
  assert (Z.of_int (Decimal.Pos (Pos.to_uint p)) = Z.pos p) as V by exact (of_to (Z.pos p)).
  rewrite V in T. cbn [Z.to_int norm] in T. injection T as T. rewrite E in T, V. symmetry in T. unfold unorm in T.
  destruct (nzhead (D0 u)) eqn:N; try discriminate T.
  - injection T as T. subst. discriminate V.
  - apply (Coq.Numbers.DecimalFacts.nzhead_nonzero _ _ N).
Qed.

Lemma chars_head p : int_part (DecimalFacts.chars (Pos.to_uint p)) (Z.pos p).
Proof.
  assert (IntText.numeral 10 (DecimalFacts.chars (Pos.to_uint p)) (Z.pos p)) as N.
  { pose proof (DecimalFacts.uint_numeral (Pos.to_uint p) (DecimalFacts.pos_to_uint_nonnil p)) as X.
    assert (Z.of_int (Decimal.Pos (Pos.to_uint p)) = Z.pos p) as V by exact (of_to (Z.pos p)). cbn [Z.of_int] in V.
    rewrite V in X. exact X. }
  pose proof (pos_uint_head p) as H. pose proof (DecimalFacts.pos_to_uint_nonnil p) as Nn.
  destruct (Pos.to_uint p) as [|u|u|u|u|u|u|u|u|u|u]; try contradiction; [exfalso; apply (H u); reflexivity|..];
    cbn [DecimalFacts.chars NilEmpty.string_of_uint lit list_ascii_of_string] in *;
    (apply int_digits; [unfold dig; cbn; lia|discriminate|exact N]).
Qed.

Lemma fmt_d_number n : number (fmt_d n) (JInt n).
Proof.
  unfold fmt_d. destruct n as [|p|p]; cbn [Z.to_int NilZero.string_of_int].
  - apply num_int. constructor.
  - rewrite DecimalFacts.nilzero_uint by apply DecimalFacts.pos_to_uint_nonnil. apply num_int, chars_head.
  - change (lit (String "-" (NilZero.string_of_uint (Pos.to_uint p))))
      with (lit "-" ++ lit (NilZero.string_of_uint (Pos.to_uint p))).
    rewrite DecimalFacts.nilzero_uint by apply DecimalFacts.pos_to_uint_nonnil.
    apply (num_neg _ (Z.pos p)), chars_head.
Qed.

Lemma key_string k : forallb (fun c => (32 <=? nat_of_ascii c) && negb (aeqb c """") && negb (aeqb c "\")) (lit k) = true ->
  quoted_string (lit """" ++ lit k ++ lit """") (plain k).
Proof.
  intros F. exists (lit k). split; [reflexivity|]. unfold plain. induction (lit k) as [|c s IH]; [constructor|].
  cbn [forallb] in F. apply andb_prop in F. destruct F as [F G]. apply andb_prop in F. destruct F as [F Q]. apply andb_prop in F.
  destruct F as [F P]. cbn [map]. constructor; [apply Nat.leb_le; exact F| | |auto].
  - intros ->. discriminate.
  - intros ->. discriminate.
Qed.

Lemma blankb_c c : blankb c = true -> In c [" "; "009"; "010"; "013"]%char.
Proof. destruct c as [[] [] [] [] [] [] [] []]; cbn; intros H; try discriminate H; auto. Qed.
Lemma blank_of s : forallb blankb s = true -> blank s.
Proof. intros F. apply Forall_forall. intros c I. rewrite forallb_forall in F. apply blankb_c, F, I. Qed.
Lemma nl_blank : blank ["010"%char]. Proof. apply blank_of. reflexivity. Qed.
Lemma nlindent_blank : blank ("010"%char :: lit "    "). Proof. apply blank_of. reflexivity. Qed.
Lemma space_blank : blank (lit " "). Proof. apply blank_of. reflexivity. Qed.

(** A line of the object, and what follows it. *)
Lemma line_last py k z : forallb (fun c => (32 <=? nat_of_ascii c) && negb (aeqb c """") && negb (aeqb c "\")) (lit k) = true ->
  members py (["010"%char] ++ json_field k z ++ ["010"%char]) [field k z].
Proof.
  intros F.
  replace (["010"%char] ++ json_field k z ++ ["010"%char]) with
    (("010"%char :: lit "    ") ++ (lit """" ++ lit k ++ lit """") ++ [] ++ lit ":" ++ lit " " ++ fmt_d z ++ ["010"%char])
    by (unfold json_field; rewrite <- !app_assoc; reflexivity).
  apply members_one; [exact nlindent_blank|apply key_string; exact F|constructor|exact space_blank| |exact nl_blank].
  apply value_number, fmt_d_number.
Qed.
Lemma line_more py k z s l : forallb (fun c => (32 <=? nat_of_ascii c) && negb (aeqb c """") && negb (aeqb c "\")) (lit k) = true ->
  members py (["010"%char] ++ s) l -> members py (["010"%char] ++ json_field k z ++ (lit "," ++ ["010"%char]) ++ s) (field k z :: l).
Proof.
  intros F M.
  replace (["010"%char] ++ json_field k z ++ (lit "," ++ ["010"%char]) ++ s) with
    (("010"%char :: lit "    ") ++ (lit """" ++ lit k ++ lit """") ++ [] ++ lit ":" ++ lit " " ++ fmt_d z ++ [] ++ lit "," ++ (["010"%char] ++ s))
    by (unfold json_field; rewrite <- !app_assoc; reflexivity).
  apply members_more; [exact nlindent_blank|apply key_string; exact F|constructor|exact space_blank| |constructor|exact M].
  apply value_number, fmt_d_number.
Qed.

Lemma result_value py r : value py (print_result r) (result_object r).
Proof.
  unfold print_result, result_object. cbv zeta.
  match goal with |- value _ (lit "{" ++ ["010"%char] ++ ?a ++ ?b ++ ?c ++ ?d ++ ?e ++ ?f ++ ?g ++ ?h ++ ?i ++ ?j ++ ?k ++ ?l ++ ?m ++ ?n ++ lit "}") _ =>
    replace (lit "{" ++ ["010"%char] ++ a ++ b ++ c ++ d ++ e ++ f ++ g ++ h ++ i ++ j ++ k ++ l ++ m ++ n ++ lit "}") with
      (lit "{" ++ (["010"%char] ++ a ++ b ++ c ++ d ++ e ++ f ++ g ++ h ++ i ++ j ++ k ++ l ++ m ++ n) ++ lit "}")
      by (rewrite <- !app_assoc; reflexivity) end.
  apply value_object.
  do 6 (apply line_more; [reflexivity|]). apply line_last. reflexivity.
Qed.

Lemma result_text py r : json_text py (print_result r) (result_object r).
Proof. exists [], (print_result r), []. rewrite app_nil_r.
  split; [reflexivity|]. split; [constructor|]. split; [apply result_value|constructor]. Qed.

(** ** Output of the program in front of it *)
Lemma result_tail r : exists t, print_result r = "{"%char :: "010"%char :: t.
Proof. eexists. reflexivity. Qed.

(** A value is expected on the empty stack only at the beginning. *)
Definition young (x : state) : Prop :=
  match x with (Expect _, []) | (Colon, []) => False | _ => True end.
Ltac conds S := repeat match type of S with
  | (if ?b then _ else _) = _ => destruct b; [first [discriminate S|injection S as <-]|]
  end.
Lemma step_young x c y : step x c = Some y -> young x -> young y.
Proof.
  intros S Y. destruct x as [m st].
  destruct m as [cl|cl|acc e| |acc|v]; cbn [step] in S; unfold close_string, after_value in S.
  - destruct (blankb c); [injection S as <-; exact Y|].
    do 4 (match type of S with (if ?b then _ else _) = _ => destruct b; [injection S as <-; exact I|] end).
    destruct (cl && aeqb c "]"); [|discriminate S].
    destruct st as [|[[|]|d|d k] st]; try discriminate S. injection S as <-. exact I.
  - do 2 (match type of S with (if ?b then _ else _) = _ => destruct b; [injection S as <-; exact I|] end).
    destruct (cl && aeqb c "}"); [|discriminate S].
    destruct st as [|[d|[|]|d k] st]; try discriminate S. injection S as <-. exact I.
  - destruct e.
    + destruct (aeqb c """"); [destruct st as [|[d|d|d k] st]; injection S as <-; exact I|].
      destruct (aeqb c "\"); [injection S as <-; exact I|]. destruct (_ <? _); [discriminate S|injection S as <-; exact I].
    + destruct (aeqb c "u"); [injection S as <-; exact I|]. destruct (find _ _) as [[]|]; [injection S as <-; exact I|discriminate S].
    + destruct (hexval c); [|discriminate S]. destruct (_ =? _); injection S as <-; exact I.
  - destruct (blankb c); [injection S as <-; exact Y|]. destruct (aeqb c ":"); [|discriminate S]. injection S as <-. exact Y.
  - destruct (atomb c); [injection S as <-; exact I|]. destruct (blankb c); [injection S as <-; exact I|].
    destruct st as [|[d|d|d k] st]; try discriminate S; repeat (destruct (aeqb c _); [injection S as <-; exact I|]); discriminate S.
  - destruct (blankb c); [injection S as <-; exact I|].
    destruct st as [|[d|d|d k] st]; try discriminate S; repeat (destruct (aeqb c _); [injection S as <-; exact I|]); discriminate S.
Qed.
Lemma run_young s : forall x y, run x s = Some y -> young x -> young y.
Proof.
  induction s as [|c s IH]; intros x y R Y; [injection R as <-; exact Y|]. cbn [run] in R.
  destruct (step x c) as [z|] eqn:S; [|discriminate R]. exact (IH z y R (step_young x c z S Y)).
Qed.

Lemma start_blank s y : run start s = Some y -> blank s \/ young y.
Proof.
  unfold start. induction s as [|c s IH]; intros R; [left; constructor|].
  cbn [run] in R. destruct (step (Expect false, []) c) as [z|] eqn:S; [|discriminate R].
  cbn [step] in S. destruct (blankb c) eqn:B.
  - injection S as <-. destruct (IH R) as [W|Y]; [left; constructor; [apply blankb_c; exact B|exact W]|right; exact Y].
  - right. apply (run_young s z y R). clear R.
    do 4 (match type of S with (if ?b then _ else _) = _ => destruct b; [injection S as <-; exact I|] end). discriminate S.
Qed.

(** From a young state the object does not lead to the end of the text. *)
Lemma object_young x r : young x -> finish (run x (print_result r)) = None.
Proof.
  intros Y. destruct x as [m st]. destruct (result_tail r) as (t & E).
  destruct m as [cl|cl|acc e| |acc|v].
  - destruct st as [|f st]; [destruct Y|].
    destruct (proj1 (grammar false) _ _ (result_value false r) cl (f :: st)) as [[Q|(a & Q & _)]|(l0 & ms & st' & X & _)].
    + rewrite Q. reflexivity.
    + rewrite Q. reflexivity.
    + discriminate X.
  - rewrite E. cbn. rewrite andb_false_r. reflexivity.
  - rewrite E. destruct e as [| |h]; cbn; [reflexivity..|]. reflexivity.
  - rewrite E. reflexivity.
  - rewrite E. cbn. destruct st as [|[d|d|d k] st]; reflexivity.
  - rewrite E. cbn. destruct st as [|[d|d|d k] st]; reflexivity.
Qed.

Theorem only_blank_before py s r v : json_text py (s ++ print_result r) v -> blank s /\ v = result_object r.
Proof.
  intros T. apply json_read in T. rewrite run_app in T.
  destruct (run start s) as [y|] eqn:R; [|discriminate T].
  destruct (start_blank s y R) as [B|Y]; [|rewrite (object_young y r Y) in T; discriminate T].
  split; [exact B|]. unfold start in *. rewrite (blank_expect s false [] B) in R. injection R as <-.
  pose proof (json_read py _ _ (result_text py r)) as Q. unfold start in Q. rewrite Q in T. injection T as <-. reflexivity.
Qed.

(** No other output of the judger is JSON. *)
Lemma report_not_json py fs s v : fs <> [] -> ~ json_text py (MessageSpec.report fs ++ s) v.
Proof.
  intros N T. destruct fs as [|f fs]; [contradiction|]. apply json_read in T.
  unfold MessageSpec.report, MessageSpec.report_line in T. cbn [map List.concat] in T.
  rewrite <- !app_assoc in T. rewrite run_app in T.
  change (run start (lit "libjudger.so: ")) with (@None state) in T. discriminate T.
Qed.
Lemma usage_not_json py s v : ~ json_text py (lit "Usage: " ++ s) v.
Proof. intros T. apply json_read in T. rewrite run_app in T. change (run start (lit "Usage: ")) with (@None state) in T. discriminate T. Qed.
Lemma version_not_json py s v : ~ json_text py (lit "Version: " ++ s) v.
Proof. intros T. apply json_read in T. rewrite run_app in T. change (run start (lit "Version: ")) with (@None state) in T. discriminate T. Qed.
