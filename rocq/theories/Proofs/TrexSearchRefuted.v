(** Searching and sub-expressions: what does not hold. *)
From Coq Require Import ZArith NArith Bool List Ascii String Lia.
From Verif.Base Require Import CInt CStr CMem.
From Verif.Model Require Import ArgInt Trex TrexSearch.
From Verif.Spec Require Import RegexSpec SearchSpec.
From Verif.Proofs Require Import TrexRefuted TrexSearchClaims.
Import ListNotations.
Open Scope list_scope.
Open Scope nat_scope.

Lemma more_match ns icase tid text F st r : trex_match ns icase tid text F st = MRet r -> forall fuel, F <= fuel -> trex_match ns icase tid text fuel st = MRet r.
Proof. intros E fuel L. rewrite (trex_match_le ns icase tid text F fuel L st); [exact E|]. rewrite E. discriminate. Qed.
Lemma more_search ns icase tid text F st r : trex_search ns icase tid text F st = MRet r -> forall fuel, F <= fuel -> trex_search ns icase tid text fuel st = MRet r.
Proof. intros E fuel L. rewrite (search_le ns icase tid text F fuel L st); [exact E|]. rewrite E. discriminate. Qed.
Lemma more_range ns icase tid text b e F st r : trex_searchrange ns icase tid text b e F st = MRet r ->
  forall fuel, F <= fuel -> trex_searchrange ns icase tid text b e fuel st = MRet r.
Proof. intros E fuel L. rewrite (range_le ns icase tid text b e F fuel L st); [exact E|]. rewrite E. discriminate. Qed.

(** "x*$": what is at the end of the text is not found. *)
Definition x_end : rx := Seq (Rep (Char "x") 0 None) Stop.
Lemma x_end_written : writes (lit "x*$") x_end.
Proof.
  unfold writes, x_end. apply w_list. change (lit "x*$") with (lit "x" ++ lit "*" ++ lit "$"). apply w_more_rep; [|apply count_any|apply w_last; apply w_stop].
  apply w_plain; [split; discriminate|cbn; intuition discriminate].
Qed.
Lemma end_not_found : exists pat ns x r text, no_nul pat /\ compile pat = PVal ns x /\ writes pat r /\ tame false r /\ stays r /\ text <> [] /\
  lang false text r (List.length text) (List.length text) /\
  exists tid fuel0 st', forall fuel, fuel0 <= fuel -> trex_search ns false tid text fuel (fresh_subs x) = MRet (None, st').
Proof.
  eexists (lit "x*$"), _, _, x_end, (lit "ab"). split; [|split; [vm_compute; reflexivity|split; [exact x_end_written|]]].
  - intro I0. cbn in I0. repeat (destruct I0 as [I0|I0]; [discriminate I0|]). destruct I0.
  - split; [split; [|exact Logic.I]; split; [exact Logic.I|split; [reflexivity|exact Logic.I]]|]. split; [split; [discriminate|exact Logic.I]|]. split; [discriminate|]. split.
    + exists 2. split; [|split; reflexivity]. exists 0. split; [lia|]. split; [exact Logic.I|reflexivity].
    + exists 1, 40. eexists. apply more_search. vm_compute. reflexivity.
Qed.
(** The empty text has no characters to begin at. *)
Definition x_any : rx := Rep (Char "x") 0 None.
Lemma x_any_written : writes (lit "x*") x_any.
Proof.
  unfold writes, x_any. apply w_list. change (lit "x*") with (lit "x" ++ lit "*"). apply w_last_rep; [|apply count_any].
  apply w_plain; [split; discriminate|cbn; intuition discriminate].
Qed.
Lemma empty_not_found : exists pat ns x r, no_nul pat /\ compile pat = PVal ns x /\ writes pat r /\ matches false [] r /\
  exists tid fuel0 st', (forall fuel, fuel0 <= fuel -> trex_match ns false tid [] fuel (fresh_subs x) = MRet (true, st')) /\
    forall fuel, fuel0 <= fuel -> trex_search ns false tid [] fuel (fresh_subs x) = MRet (None, fresh_subs x).
Proof.
  eexists (lit "x*"), _, _, x_any. split; [|split; [vm_compute; reflexivity|split; [exact x_any_written|]]].
  - intro I0. cbn in I0. repeat (destruct I0 as [I0|I0]; [discriminate I0|]). destruct I0.
  - split; [exists 0; split; [lia|]; split; [exact Logic.I|reflexivity]|].
    exists 1, 40. eexists. split; [apply more_match; vm_compute; reflexivity|]. apply more_search. vm_compute. reflexivity.
Qed.
(** What is found in a part of the text may reach behind it. *)
Lemma range_left : exists pat ns x text b e, no_nul pat /\ compile pat = PVal ns x /\ b < e < List.length text /\
  exists tid fuel0 e' st', e < e' /\ forall fuel, fuel0 <= fuel -> trex_searchrange ns false tid text b e fuel (fresh_subs x) = MRet (Some (b, e'), st').
Proof.
  eexists (lit "abc"), _, _, (lit "abcd"), 0, 2. split; [|split; [vm_compute; reflexivity|split; [cbn; lia|]]].
  - intro I0. cbn in I0. repeat (destruct I0 as [I0|I0]; [discriminate I0|]). destruct I0.
  - exists 1, 40, 3. eexists. split; [lia|]. apply more_range. vm_compute. reflexivity.
Qed.
(** "a(.)$|a": a sub-expression takes the terminator of the text. *)
Lemma terminator_taken : exists pat ns x text n, no_nul pat /\ compile pat = PVal ns x /\
  exists tid fuel0 st', (forall fuel, fuel0 <= fuel -> trex_match ns false tid text fuel (fresh_subs x) = MRet (true, st')) /\
    exists b len, trex_getsubexp x st' n = MRet (Some (Some (tid, b), Z.of_nat len)) /\ List.length text < b + len.
Proof.
  eexists (lit "a(.)$|a"), _, _, (lit "a"), 1%Z. split; [|split; [vm_compute; reflexivity|]].
  - intro I0. cbn in I0. repeat (destruct I0 as [I0|I0]; [discriminate I0|]). destruct I0.
  - exists 1, 40. eexists. split; [apply more_match; vm_compute; reflexivity|]. exists 1, 1. split; [reflexivity|cbn; lia].
Qed.
(** "b|(a)": after "a" and then "b", the sub-expression is still in the first text. *)
Lemma old_text : exists pat ns x text1 text2 n, no_nul pat /\ compile pat = PVal ns x /\
  exists t1 t2 fuel0 st1 st2 b len, t1 <> t2 /\
    (forall fuel, fuel0 <= fuel -> trex_match ns false t1 text1 fuel (fresh_subs x) = MRet (true, st1) /\ trex_match ns false t2 text2 fuel st1 = MRet (true, st2)) /\
    trex_getsubexp x st2 n = MRet (Some (Some (t1, b), len)).
Proof.
  eexists (lit "b|(a)"), _, _, (lit "a"), (lit "b"), 1%Z. split; [|split; [vm_compute; reflexivity|]].
  - intro I0. cbn in I0. repeat (destruct I0 as [I0|I0]; [discriminate I0|]). destruct I0.
  - exists 1, 2, 40, (mkSubs 2 [(Some (1, 0), 1%Z); (Some (1, 0), 1%Z)]), (mkSubs 1 [(Some (2, 0), 1%Z); (Some (1, 0), 1%Z)]), 0, 1%Z. split; [discriminate|]. split.
    + intros fuel L. split; [revert L; apply more_match|revert L; apply more_match]; vm_compute; reflexivity.
    + vm_compute. reflexivity.
Qed.
(** "a{2}(.)" on "aab": the sub-expression is said to have taken the second "a". *)
Lemma wrong_part : exists pat ns x text, pat = lit "a{2}(.)" /\ text = lit "aab" /\ compile pat = PVal ns x /\
  exists tid fuel0 st', (forall fuel, fuel0 <= fuel -> trex_match ns false tid text fuel (fresh_subs x) = MRet (true, st')) /\
    trex_getsubexp x st' 1 = MRet (Some (Some (tid, 1), 1%Z)).
Proof.
  eexists _, _, _, _. split; [reflexivity|]. split; [reflexivity|]. split; [vm_compute; reflexivity|]. exists 1, 40. eexists.
  split; [apply more_match; vm_compute; reflexivity|]. vm_compute. reflexivity.
Qed.
