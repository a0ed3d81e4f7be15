(** Where arg_rex does not do what regular expressions mean. *)
From Coq Require Import ZArith NArith Bool List Ascii String Lia.
From Verif.Base Require Import CInt CStr CMem.
From Verif.Model Require Import Trex.
From Verif.Spec Require Import RegexSpec.
From Verif.Proofs Require Import TrexCompile TrexClaims.
Import ListNotations.
Open Scope list_scope.
Open Scope nat_scope.

Lemma few_digits pat : forallb (fun d => negb (digit d)) pat = true ->
  forall a ds b, pat = a ++ ds ++ b -> Forall (fun d => digit d = true) ds -> List.length ds <= 4.
Proof.
  intros H a [|d ds] b E F; [cbn; lia|]. exfalso. inversion F as [|? ? F1 _]; subst. rewrite !forallb_app in H.
  cbn [forallb] in H. rewrite F1 in H. rewrite andb_false_r in H. discriminate H.
Qed.
Ltac no_such := let i := fresh in intro i; cbn in i; repeat (destruct i as [i|i]; [discriminate i|]); destruct i.
Ltac plain_char := apply w_plain; [split; discriminate|no_such].
Ltac fine := split; [no_such|split; [reflexivity|split; [right; cbn; lia|apply few_digits; reflexivity]]].
Ltac always := match goal with |- exists fuel0, forall fuel, _ -> match_text ?ns ?ic ?t _ = _ =>
  exists 60; let f := fresh in let L := fresh in intros f L; rewrite (match_text_mono ns ic t 60 f L) by (vm_compute; discriminate); vm_compute; reflexivity end.

Lemma greedy_gives_nothing_back : exists pat ns x r text, acceptable pat /\ writes pat r /\ tame false r /\ stays r /\
  compile pat = PVal ns x /\ matches false text r /\ exists fuel0, forall fuel, fuel0 <= fuel -> match_text ns false text fuel = MRet false.
Proof.
  exists (lit "a*a"). eexists _, _. exists (Seq (Rep (Char "a") 0 None) (Char "a")), (lit "aaa").
  split; [fine|]. split; [apply w_list; apply (w_more_rep _ (lit "a") _ (lit "*")); [plain_char|apply count_any|apply w_last; plain_char]|].
  split; [repeat split|]. split; [repeat split; discriminate|]. split; [vm_compute; reflexivity|]. split; [|always].
  exists 2. split.
  - exists 2. split; [discriminate|]. split; [exact Logic.I|]. exists 1. split; [split; [reflexivity|]; exists "a"%char; split; [reflexivity|left; reflexivity]|].
    exists 2. split; [split; [reflexivity|]; exists "a"%char; split; [reflexivity|left; reflexivity]|reflexivity].
  - split; [reflexivity|]. exists "a"%char. split; [reflexivity|left; reflexivity].
Qed.
Lemma first_way_only : exists pat ns x r text, acceptable pat /\ writes pat r /\ tame false r /\ stays r /\
  compile pat = PVal ns x /\ matches false text r /\ exists fuel0, forall fuel, fuel0 <= fuel -> match_text ns false text fuel = MRet false.
Proof.
  exists (lit "a|ab"). eexists _, _. exists (Or (Char "a") (Seq (Char "a") (Char "b"))), (lit "ab").
  split; [fine|]. split.
  { apply (w_or _ (lit "a") _ (lit "ab")); [apply w_last; plain_char|]. apply w_list. apply (w_more _ (lit "a") _ (lit "b")); [plain_char|apply w_last; plain_char]. }
  split; [repeat split|]. split; [repeat split; discriminate|]. split; [vm_compute; reflexivity|]. split; [|always].
  right. exists 1. split; (split; [reflexivity|]; eexists; split; [reflexivity|left; reflexivity]).
Qed.
Lemma any_takes_the_end : exists pat ns x r text, acceptable pat /\ writes pat r /\ tame false r /\
  compile pat = PVal ns x /\ matches false text r /\ exists fuel0, forall fuel, fuel0 <= fuel -> match_text ns false text fuel = MRet false.
Proof.
  exists (lit ".*"). eexists _, _. exists (Rep Any 0 None), [].
  split; [fine|]. split; [apply w_list; apply (w_last_rep _ (lit ".") _ (lit "*")); [apply w_any|apply count_any]|].
  split; [repeat split|]. split; [vm_compute; reflexivity|]. split; [|always].
  exists 0. split; [discriminate|]. split; [exact Logic.I|reflexivity].
Qed.
Lemma any_reads_behind : exists pat ns x r text, acceptable pat /\ writes pat r /\ tame false r /\
  compile pat = PVal ns x /\ exists fuel0, forall fuel, fuel0 <= fuel -> match_text ns false text fuel = MUB.
Proof.
  exists (lit "a.b"). eexists _, _. exists (Seq (Char "a") (Seq Any (Char "b"))), (lit "a").
  split; [fine|]. split.
  { apply w_list. apply (w_more _ (lit "a") _ (lit ".b")); [plain_char|]. apply (w_more _ (lit ".") _ (lit "b")); [apply w_any|apply w_last; plain_char]. }
  split; [repeat split|]. split; [vm_compute; reflexivity|always].
Qed.
Lemma words_misjudged : exists pat ns x r text, acceptable pat /\ writes pat r /\
  compile pat = PVal ns x /\ ~ matches false text r /\ exists fuel0, forall fuel, fuel0 <= fuel -> match_text ns false text fuel = MRet true.
Proof.
  exists (lit "a\bb c"). eexists _, _. exists (Seq (Char "a") (Seq (Word true) (Seq (Char "b") (Seq (Char " ") (Char "c"))))), (lit "ab c").
  split; [fine|]. split.
  { apply w_list. apply (w_more _ (lit "a") _ (lit "\bb c")); [plain_char|]. apply (w_more _ (lit "\b") _ (lit "b c")); [apply w_word|].
    apply (w_more _ (lit "b") _ (lit " c")); [plain_char|]. apply (w_more _ (lit " ") _ (lit "c")); [plain_char|apply w_last; plain_char]. }
  split; [vm_compute; reflexivity|]. split; [|always].
  intros (k & (-> & _) & k' & (-> & B) & _). discriminate B.
Qed.
Lemma cases_in_ranges : exists pat ns x r text, acceptable pat /\ writes pat r /\ stays r /\
  compile pat = PVal ns x /\ ~ matches true text r /\ exists fuel0, forall fuel, fuel0 <= fuel -> match_text ns true text fuel = MRet true.
Proof.
  exists (lit "[a-~]"). eexists _, _. exists (Set_ false [From_to "a" "~"]), (lit "[").
  split; [fine|]. split.
  { apply w_list, w_last. apply (w_set _ (lit "a-~")); [discriminate|discriminate|]. apply (members_range _ (lit "a") _ (lit "~") _ []);
    [apply member_plain; [split; discriminate|no_such|discriminate]|apply limit_plain; [split; discriminate|discriminate]|apply members_none]. }
  split; [split; [reflexivity|repeat constructor]|]. split; [vm_compute; reflexivity|]. split; [|always].
  intros (_ & c & E & H). injection E as <-. apply Exists_exists in H. destruct H as (it & [<-|[]] & d & [Hd|(_ & Hd)] & Hr).
  - subst d. vm_compute in Hr. destruct Hr as [Hr _]. apply Hr. reflexivity.
  - revert Hd Hr. destruct d as [[] [] [] [] [] [] [] []]; vm_compute; intros Hd [Hr Hr']; try discriminate Hd; try (apply Hr; reflexivity); try (apply Hr'; reflexivity).
Qed.
Lemma counts_wrap : exists pat ns x r text, no_nul pat /\ writes pat r /\ stays r /\
  compile pat = PVal ns x /\ ~ matches false text r /\ exists fuel0, forall fuel, fuel0 <= fuel -> match_text ns false text fuel = MRet true.
Proof.
  exists (lit "a{65536}"). eexists _, _. exists (Rep (Char "a") (value (lit "65536")) (Some (value (lit "65536")))), [].
  split; [no_such|]. split.
  { apply w_list. apply (w_last_rep _ (lit "a") _ (lit "{" ++ lit "65536" ++ lit "}")); [plain_char|]. apply count_exact. split; [discriminate|repeat constructor]. }
  split; [discriminate|]. split; [vm_compute; reflexivity|]. split; [|always].
  intros (n & H & _ & R). destruct n as [|n]; [vm_compute in H; apply H; reflexivity|]. destruct R as (k & (_ & c & E & _) & _). discriminate E.
Qed.
(** A range is compared by the numbers of its nodes before their characters. *)
Definition letters (n : nat) : str := repeat "a"%char n.
Lemma long_rejected : exists pat r, no_nul pat /\ List.length pat <= 64 /\ writes pat r /\ compile pat = PErr.
Proof.
  exists (letters 58 ++ lit "[0-9]").
  assert (W : forall n, exists r, written Chain (behind false) (letters n ++ lit "[0-9]") r).
  { induction n as [|n (r & IH)].
    - exists (Set_ false [From_to "0" "9"]). apply w_last. apply (w_set _ (lit "0-9")); [discriminate|discriminate|]. apply (members_range _ (lit "0") _ (lit "9") _ []);
      [apply member_plain; [split; discriminate|no_such|discriminate]|apply limit_plain; [split; discriminate|discriminate]|apply members_none].
    - exists (Seq (Char "a") r). apply (w_more _ (lit "a") _ (letters n ++ lit "[0-9]")); [plain_char|exact IH]. }
  destruct (W 57) as (r & Hr). exists (Seq (Char "a") r). split; [no_such|]. split; [cbn; lia|]. split; [|vm_compute; reflexivity].
  apply w_list. apply (w_more _ (lit "a") _ (letters 57 ++ lit "[0-9]")); [plain_char|exact Hr].
Qed.
(** Patterns that are not according to the grammar. *)
Lemma bad_pattern_null pat icase maxcount count sval text fuel : compile pat = PErr -> (count < maxcount)%Z ->
  rex_scan fuel pat icase maxcount count sval (Some text) = MUB.
Proof. intros H L. unfold rex_scan. rewrite H. destruct (Z.eqb_spec count maxcount); [lia|reflexivity]. Qed.
