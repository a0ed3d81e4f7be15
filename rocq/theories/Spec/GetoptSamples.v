(** A caller and command lines for the theorems of Props/P35_Getopt.v. *)
From Coq Require Import ZArith Bool List Ascii String Arith Lia.
From Verif.Base Require Import CInt CStr.
From Verif.Model Require Import Getopt GetoptFull.
From Verif.Spec Require Import CmdLine GetoptSpec GetoptAnswer.
Import ListNotations.
Open Scope list_scope.
Open Scope nat_scope.

(** -a, -o VALUE, -m[VALUE], -W NAME; --verbose sets a variable, --value takes one, --via returns a code. *)
Definition letters : list (ascii * takes) := [("a", Nothing); ("o", Value); ("m", MaybeValue); ("W", LongName)]%char.
Definition long_names : list name :=
  [mkName (lit "verbose") Nothing (Some 3) 7; mkName (lit "value") Value None 300; mkName (lit "via") MaybeValue None 301].
Definition tool : request := mkRequest letters (Some long_names) Collect false false.
Definition only_tool : request := mkRequest letters (Some long_names) Collect true false.
Definition plain : request := mkRequest [("a", Nothing); ("o", Value)]%char None Stop false true.

Definition line : list str := [lit "-ao"; lit "x"; lit "file"; lit "--val=9"; lit "--v"; lit "-q"; lit "-Wverbose"; lit "--"; lit "-a"].

Lemma tool_string : option_string tool = lit "ao:m::W;".
Proof. reflexivity. Qed.
Lemma fine_letters q : q_names q <> None -> Forall (fine_letter q) letters.
Proof. intros N. repeat constructor; cbn; intuition discriminate. Qed.
Lemma fine_names : Forall fine_name long_names.
Proof. repeat constructor; cbn; try discriminate; try (intros H; vm_compute in H; intuition discriminate). Qed.
Lemma tool_fine : fine tool.
Proof. split; [apply fine_letters; discriminate|]. intros ns E. injection E as <-. exact fine_names. Qed.
Lemma only_fine : fine only_tool.
Proof. split; [apply fine_letters; discriminate|]. intros ns E. injection E as <-. exact fine_names. Qed.
Lemma plain_fine : fine plain.
Proof. split; [|intros ns E; discriminate]. repeat constructor; cbn; intuition discriminate. Qed.

Lemma tool_asked : asked true false tool (getopt_long true false (lit "ao:m::W;") (map as_long long_names)).
Proof. exists []. split; [left; split; reflexivity|reflexivity]. Qed.
Lemma only_asked : asked true false only_tool (getopt_long_only true false (lit "ao:m::W;") (map as_long long_names)).
Proof. exists []. split; [left; split; reflexivity|reflexivity]. Qed.
Lemma plain_asked : asked true false plain (getopt true false (lit ":ao:")).
Proof. exists []. split; [reflexivity|]. split; [left; split; reflexivity|reflexivity]. Qed.

(** What the line says. *)
Definition line_events : list event :=
  [Letter "a"%char None; Letter "o"%char (Some (lit "x")); Name 1 (Some (lit "9")); Ambiguous (lit "--") (lit "v"); NoLetter "q"%char; Name 0 None].

Lemma name_at k n : nth_error long_names k = Some n -> is_name tool k n.
Proof. intros E. exact E. Qed.
Lemma not_exact s : ~ In s (map m_text long_names) -> forall j, ~ exactly tool s j.
Proof. intros N j (n & E & <-). apply N. apply in_map. exact (nth_error_In _ _ E). Qed.
Lemma starts_which s j : starts tool false s j -> exists n, nth_error long_names j = Some n /\ exists r, m_text n = s ++ r.
Proof. intros ((n & E & P) & _). exists n. split; [exact E|]. destruct P as (r & P). exists r. exact P. Qed.
Lemma starts_at s j n r : nth_error long_names j = Some n -> m_text n = s ++ r -> starts tool false s j.
Proof. intros E P. split; [exists n; split; [exact E|exists r; exact P]|]. intros (X & _). discriminate. Qed.

Lemma val_stands : stands_for tool false (lit "val") 1.
Proof.
  right. split; [apply not_exact; cbn; intuition discriminate|]. split; [apply (starts_at _ _ (mkName (lit "value") Value None 300) (lit "ue")); reflexivity|].
  intros j H. apply starts_which in H. destruct H as (n & E & r & P). destruct j as [|[|[|j]]]; cbn in E; [injection E as <-; discriminate P|left; reflexivity|injection E as <-; discriminate P|destruct j; discriminate E].
Qed.
Lemma v_several : stands_for_several tool false (lit "v").
Proof.
  split; [apply not_exact; cbn; intuition discriminate|]. exists 0. split; [apply (starts_at _ _ (mkName (lit "verbose") Nothing (Some 3) 7) (lit "erbose")); reflexivity|].
  split; [intros; lia|]. exists 1. split; [apply (starts_at _ _ (mkName (lit "value") Value None 300) (lit "alue")); reflexivity|]. split; [discriminate|].
  intros (_ & n & m & E1 & E2 & T & _). injection E1 as <-. injection E2 as <-. discriminate T.
Qed.
Lemma verbose_stands : stands_for tool false (lit "verbose") 0.
Proof. left. split; [eexists; split; reflexivity|]. intros; lia. Qed.
Lemma letter_at before c t after : known tool = before ++ (c, t) :: after -> ~ In c (map fst before) -> letter_is tool c t.
Proof. intros E N. exists before, after. auto. Qed.
Lemma as_letter c p : c <> "-"%char -> tried_as_letter tool c p.
Proof. intros N. split; [exact N|]. right. left. reflexivity. Qed.

Lemma no_equal s : ~ In "="%char s -> splits s s None.
Proof. intros N. split; [|rewrite app_nil_r; reflexivity]. intros H. apply N. exact H. Qed.

Lemma line_reads : reads tool line line_events [lit "file"; lit "-a"].
Proof.
  exists (Before [lit "file"] [lit "--"; lit "-a"]). split; [|exact (done_dashes tool [lit "file"] [lit "-a"])].
  unfold line, line_events.
  eapply calls_one.
  { apply (call_option tool [] (lit "ao")); [discriminate|discriminate|]. apply (call_flag tool [] (lit "-ao") "a"%char (lit "o")).
    - apply as_letter; discriminate.
    - apply (letter_at [] "a"%char Nothing (tl (known tool))); [reflexivity|intros []]. }
  eapply calls_one.
  { apply (call_next tool [] (lit "-ao") "o"%char (lit "x")).
    - apply as_letter; discriminate.
    - apply (letter_at [("a"%char, Nothing)] "o"%char Value (tl (tl (known tool)))); [reflexivity|cbn; intuition discriminate]. }
  eapply calls_one.
  { apply call_collect; [reflexivity|intros (c & r & E); discriminate E|].
    apply (call_option tool _ (lit "-val=9")); [discriminate|discriminate|]. apply (call_name tool _ (lit "--val=9") (lit "val=9")); [discriminate|discriminate|].
    apply (name_here tool _ _ _ _ (lit "val") (lit "9") 1 Value); [split; [unfold no_char; cbn; intuition discriminate|reflexivity]|exact val_stands|eexists; split; reflexivity|discriminate]. }
  eapply calls_one.
  { apply (call_option tool _ (lit "-v")); [discriminate|discriminate|]. apply (call_name tool _ (lit "--v") (lit "v")); [discriminate|discriminate|].
    apply (name_several tool _ _ _ _ (lit "v") None); [apply no_equal; cbn; intuition discriminate|exact v_several]. }
  eapply calls_one.
  { apply (call_option tool _ (lit "q")); [discriminate|discriminate|]. apply (call_no_letter tool _ (lit "-q") "q"%char []).
    - apply as_letter; discriminate.
    - intros (t & b & a & E & _). assert (In ("q"%char, t) (known tool)) as X by (rewrite E; apply in_or_app; right; left; reflexivity). cbn in X. intuition discriminate. }
  eapply calls_one; [|apply calls_none].
  apply (call_option tool _ (lit "Wverbose")); [discriminate|discriminate|]. apply (call_long tool _ (lit "-Wverbose") "W"%char (lit "verbose")).
  - apply as_letter; discriminate.
  - apply (letter_at [("a", Nothing); ("o", Value); ("m", MaybeValue)]%char "W"%char LongName [(";"%char, Nothing)]); [reflexivity|cbn; intuition discriminate].
  - discriminate.
  - apply (name_alone tool _ _ _ _ 0 Nothing); [apply no_equal; cbn; intuition discriminate|exact verbose_stands|eexists; split; reflexivity|discriminate].
Qed.

(** A group of letters that ends with a dash. *)
Lemma dash_circles : circles tool [lit "-a-"].
Proof.
  exists [], (Before [] [lit "-a-"]), [Letter "a"%char None; Malformed]. split; [apply calls_none|]. split; [|discriminate].
  eapply calls_one.
  { apply (call_option tool [] (lit "a-")); [discriminate|discriminate|]. apply (call_flag tool [] (lit "-a-") "a"%char (lit "-")).
    - apply as_letter; discriminate.
    - apply (letter_at [] "a"%char Nothing (tl (known tool))); [reflexivity|intros []]. }
  eapply calls_one; [|apply calls_none]. apply (call_malformed tool [] (lit "-a-")). discriminate.
Qed.
