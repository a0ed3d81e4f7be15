(** C95: searching for a regular expression, and the parts of a text that sub-expressions have taken: trex_match,
    trex_search, trex_searchrange, trex_getsubexp.  The code is in Model/TrexSearch.v; what an expression means is in
    Spec/RegexSpec.v and Spec/SearchSpec.v.  A compiled pattern keeps one place for each sub-expression ([s_at]); the
    theorems are about whatever earlier calls have left there. *)
From Coq Require Import ZArith NArith Bool List Ascii String Lia.
From Verif.Base Require Import CInt CStr CMem.
From Verif.Model Require Import ArgInt Trex TrexSearch.
From Verif.Spec Require Import RegexSpec SearchSpec.
From Verif.Proofs Require Import TrexSearchClaims TrexSearchRefuted.
Import ListNotations.
Open Scope list_scope.
Open Scope nat_scope.

(** Keeping the places changes nothing in what is matched: everything that C75 says of [match_text] holds of trex_match. *)
Theorem C95_match : forall pat ns x icase tid text fuel st,
  compile pat = PVal ns x -> List.length (s_at st) = Z.to_nat (trex_getsubexpcount x) ->
  outcome (trex_match ns icase tid text fuel st) = match_text ns icase text fuel.
Proof. exact match_same. Qed.
Print Assumptions C95_match.

(** Searching ends, and what is returned does not depend on the fuel. *)
Theorem C95_search_ends : forall pat ns x icase tid text st,
  no_nul pat -> compile pat = PVal ns x -> List.length (s_at st) = Z.to_nat (trex_getsubexpcount x) ->
  exists out fuel0, out <> MOut /\ forall fuel, fuel0 <= fuel -> trex_search ns icase tid text fuel st = out.
Proof. exact search_ends_claim. Qed.
Print Assumptions C95_search_ends.
(** It reads nothing outside the text if the expression cannot take the end of it for a character. *)
Theorem C95_search_in_bounds : forall pat ns x r icase tid text st,
  no_nul pat -> compile pat = PVal ns x -> writes pat r -> stays r -> List.length (s_at st) = Z.to_nat (trex_getsubexpcount x) ->
  exists o st' fuel0, forall fuel, fuel0 <= fuel -> trex_search ns icase tid text fuel st = MRet (o, st').
Proof. exact search_safe_claim. Qed.
Print Assumptions C95_search_in_bounds.
(** What is found is an instance. *)
Theorem C95_search_sound : forall pat ns x r icase tid text st fuel b e st',
  no_nul pat -> compile pat = PVal ns x -> writes pat r -> tame icase r -> List.length (s_at st) = Z.to_nat (trex_getsubexpcount x) -> 2 <= fuel ->
  trex_search ns icase tid text fuel st = MRet (Some (b, e), st') ->
  (e <= List.length text -> lang icase text r b e) /\ (stays r -> e <= List.length text).
Proof. exact search_sound_claim. Qed.
Print Assumptions C95_search_sound.
(** An expression without repetitions and alternatives: the first instance is found, and something is found if there is one. *)
Theorem C95_search_plain : forall pat ns x r icase tid text st,
  no_nul pat -> compile pat = PVal ns x -> writes pat r -> tame icase r -> stays r -> plain r -> List.length (s_at st) = Z.to_nat (trex_getsubexpcount x) ->
  exists o st' fuel0, (forall fuel, fuel0 <= fuel -> trex_search ns icase tid text fuel st = MRet (o, st')) /\
    match o with Some (b, e) => first_instance icase text r b e | None => no_instance icase text r end.
Proof. exact search_plain_claim. Qed.
Print Assumptions C95_search_plain.
(** A text that matches is found as a whole. *)
Theorem C95_match_found : forall pat ns x icase tid text st fuel st1,
  no_nul pat -> compile pat = PVal ns x -> List.length (s_at st) = Z.to_nat (trex_getsubexpcount x) -> 2 <= fuel -> text <> [] ->
  trex_match ns icase tid text fuel st = MRet (true, st1) ->
  exists st', trex_search ns icase tid text fuel st = MRet (Some (0, List.length text), st').
Proof. exact match_found_claim. Qed.
Print Assumptions C95_match_found.

(** There is a place for each sub-expression, and asking for any of them is safe. *)
Theorem C95_getsubexp : forall pat ns x st n,
  compile pat = PVal ns x -> List.length (s_at st) = Z.to_nat (trex_getsubexpcount x) ->
  (1 <= trex_getsubexpcount x <= INT_MAX)%Z /\
  exists o, trex_getsubexp x st n = MRet o /\ (o = None <-> (n < 0 \/ trex_getsubexpcount x <= n)%Z) /\
    forall p, o = Some p -> nth_error (s_at st) (Z.to_nat n) = Some p.
Proof. exact getsub_ok. Qed.
Print Assumptions C95_getsubexp.
Theorem C95_getsubexp_first : forall x, List.length (s_at (fresh_subs x)) = Z.to_nat (trex_getsubexpcount x).
Proof. exact fresh_fits. Qed.
Print Assumptions C95_getsubexp_first.
(** After a call each place is what it was before, or none, or lies in the text of this call (with its terminator).
    The first one is the whole of what was matched or found. *)
Theorem C95_places_match : forall pat ns x icase tid text fuel st okay st',
  compile pat = PVal ns x -> List.length (s_at st) = Z.to_nat (trex_getsubexpcount x) ->
  (Z.of_nat (List.length text) < INT_MAX)%Z -> trex_match ns icase tid text fuel st = MRet (okay, st') ->
  List.length (s_at st') = Z.to_nat (trex_getsubexpcount x) /\
  (forall k p, nth_error (s_at st') k = Some p -> nth_error (s_at st) k = Some p \/ no_place p \/ part_of tid text p) /\
  (okay = true -> trex_getsubexp x st' 0 = MRet (Some (Some (tid, 0), Z.of_nat (List.length text)))).
Proof. exact places_match. Qed.
Print Assumptions C95_places_match.
Theorem C95_places_search : forall pat ns x icase tid text fuel st o st',
  no_nul pat -> compile pat = PVal ns x -> List.length (s_at st) = Z.to_nat (trex_getsubexpcount x) ->
  (Z.of_nat (List.length text) < INT_MAX)%Z -> 2 <= fuel -> trex_search ns icase tid text fuel st = MRet (o, st') ->
  List.length (s_at st') = Z.to_nat (trex_getsubexpcount x) /\
  (forall k p, nth_error (s_at st') k = Some p -> nth_error (s_at st) k = Some p \/ no_place p \/ part_of tid text p) /\
  (forall b e, o = Some (b, e) -> b < List.length text /\ b <= e <= S (List.length text) /\
    trex_getsubexp x st' 0 = MRet (Some (Some (tid, b), Z.of_nat (e - b)))).
Proof. exact places_search. Qed.
Print Assumptions C95_places_search.

(** ** Samples *)
(** "(\d)-(\d)" in "no 1, 2-3": found from 6 to 9, the digits at 6 and 8. *)
Definition pair_pattern : str := lit "(\d)-(\d)".
Definition pair_ : rx := Seq (Kind "d") (Seq (Char "-") (Kind "d")).
Lemma pair_written : writes pair_pattern pair_.
Proof.
  unfold writes, pair_pattern, pair_. apply w_list. change (lit "(\d)-(\d)") with ((lit "(" ++ lit "\d" ++ lit ")") ++ lit "-" ++ (lit "(" ++ lit "\d" ++ lit ")")).
  apply w_more; [apply w_group; apply w_list; apply w_last; apply w_kind; cbn; tauto|]. apply w_more.
  - apply w_plain; [split; discriminate|cbn; intuition discriminate].
  - apply w_last. apply w_group. apply w_list. apply w_last. apply w_kind. cbn. tauto.
Qed.
Example C95_sample : exists ns x st', no_nul pair_pattern /\ compile pair_pattern = PVal ns x /\ writes pair_pattern pair_ /\
  tame false pair_ /\ stays pair_ /\ plain pair_ /\ trex_getsubexpcount x = 3%Z /\
  trex_search ns false 1 (lit "no 1, 2-3") 40 (fresh_subs x) = MRet (Some (6, 9), st') /\
  map (trex_getsubexp x st') [0; 1; 2; 3]%Z = [MRet (Some (Some (1, 6), 3%Z)); MRet (Some (Some (1, 6), 1%Z)); MRet (Some (Some (1, 8), 1%Z)); MRet None].
Proof.
  eexists _, _, _. split; [intro I0; cbn in I0; repeat (destruct I0 as [I0|I0]; [discriminate I0|]); destruct I0|].
  split; [vm_compute; reflexivity|]. split; [exact pair_written|]. split; [repeat split|]. split; [split; [reflexivity|split; [discriminate|reflexivity]]|].
  split; [repeat split|]. split; [reflexivity|]. split; vm_compute; reflexivity.
Qed.

(** ** What does not hold *)
(** An instance that begins at the end of the text is not found ("x*$" in "ab") ... *)
Theorem C95_search_end_refuted : exists pat ns x r text, no_nul pat /\ compile pat = PVal ns x /\ writes pat r /\ tame false r /\ stays r /\ text <> [] /\
  lang false text r (List.length text) (List.length text) /\
  exists tid fuel0 st', forall fuel, fuel0 <= fuel -> trex_search ns false tid text fuel (fresh_subs x) = MRet (None, st').
Proof. exact end_not_found. Qed.
Print Assumptions C95_search_end_refuted.
(** ... nor is anything in the empty text, even if it matches ("x*"). *)
Theorem C95_search_empty_refuted : exists pat ns x r, no_nul pat /\ compile pat = PVal ns x /\ writes pat r /\ matches false [] r /\
  exists tid fuel0 st', (forall fuel, fuel0 <= fuel -> trex_match ns false tid [] fuel (fresh_subs x) = MRet (true, st')) /\
    forall fuel, fuel0 <= fuel -> trex_search ns false tid [] fuel (fresh_subs x) = MRet (None, fresh_subs x).
Proof. exact empty_not_found. Qed.
Print Assumptions C95_search_empty_refuted.
(** What is found in a part of a text may reach behind that part ("abc" in the first two characters of "abcd"). *)
Theorem C95_range_refuted : exists pat ns x text b e, no_nul pat /\ compile pat = PVal ns x /\ b < e < List.length text /\
  exists tid fuel0 e' st', e < e' /\ forall fuel, fuel0 <= fuel -> trex_searchrange ns false tid text b e fuel (fresh_subs x) = MRet (Some (b, e'), st').
Proof. exact range_left. Qed.
Print Assumptions C95_range_refuted.
(** A sub-expression may be given the terminator of a text that matches ("a(.)$|a" and "a"). *)
Theorem C95_places_inside_refuted : exists pat ns x text n, no_nul pat /\ compile pat = PVal ns x /\
  exists tid fuel0 st', (forall fuel, fuel0 <= fuel -> trex_match ns false tid text fuel (fresh_subs x) = MRet (true, st')) /\
    exists b len, trex_getsubexp x st' n = MRet (Some (Some (tid, b), Z.of_nat len)) /\ List.length text < b + len.
Proof. exact terminator_taken. Qed.
Print Assumptions C95_places_inside_refuted.
(** Places are not forgotten: after a second text has matched, one may still point into the first ("b|(a)"; "a", then "b"). *)
Theorem C95_places_forgotten_refuted : exists pat ns x text1 text2 n, no_nul pat /\ compile pat = PVal ns x /\
  exists t1 t2 fuel0 st1 st2 b len, t1 <> t2 /\
    (forall fuel, fuel0 <= fuel -> trex_match ns false t1 text1 fuel (fresh_subs x) = MRet (true, st1) /\ trex_match ns false t2 text2 fuel st1 = MRet (true, st2)) /\
    trex_getsubexp x st2 n = MRet (Some (Some (t1, b), len)).
Proof. exact old_text. Qed.
Print Assumptions C95_places_forgotten_refuted.
(** And a place may be another part than the one that its sub-expression matched: for "a{2}(.)" and "aab" it is the second "a". *)
Theorem C95_places_right_refuted : exists pat ns x text, pat = lit "a{2}(.)" /\ text = lit "aab" /\ compile pat = PVal ns x /\
  exists tid fuel0 st', (forall fuel, fuel0 <= fuel -> trex_match ns false tid text fuel (fresh_subs x) = MRet (true, st')) /\
    trex_getsubexp x st' 1 = MRet (Some (Some (tid, 1), 1%Z)).
Proof. exact wrong_part. Qed.
Print Assumptions C95_places_right_refuted.
