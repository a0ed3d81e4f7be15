(** C75: regular expressions on the command line (arg_rex).  The code is in Model/Trex.v ([MUB]: undefined
    behaviour, [MOut]: more rounds than [fuel]); what an expression means and how it is written is in
    Spec/RegexSpec.v. *)
From Coq Require Import ZArith NArith Bool List Ascii String Lia.
From Verif.Base Require Import CInt CStr CMem.
From Verif.Model Require Import ArgInt Trex.
From Verif.Spec Require Import RegexSpec.
From Verif.Proofs Require Import TrexCompile TrexClaims TrexRefuted.
Import ListNotations.
Open Scope list_scope.
Open Scope nat_scope.

(** A value is stored only if the whole of it is an instance of the expression that the pattern writes;
    otherwise nothing changes.  Simple expressions take every instance. *)
Theorem C75_scan : forall pat r icase maxcount count sval text,
  acceptable pat -> writes pat r -> tame icase r -> stays r ->
  (0 <= count < maxcount)%Z -> (count < Z.of_nat (List.length sval))%Z ->
  exists ok sval' fuel0, (forall fuel, fuel0 <= fuel ->
      rex_scan fuel pat icase maxcount count sval (Some text) =
      MRet (if ok : bool then (0, count + 1, sval')%Z else (ARG_ERR_REGNOMATCH, count, sval))) /\
    stored sval (Z.to_nat count) text sval' /\
    (ok = true -> matches icase text r) /\
    (simple r -> (Z.of_nat (List.length text) < 65535)%Z -> matches icase text r -> ok = true).
Proof. exact scan_outcome. Qed.
Print Assumptions C75_scan.

(** Compiling ends; what it accepts is written according to the grammar, and for one expression only. *)
Theorem C75_compile_ends : forall pat, compile pat <> POut.
Proof. exact compile_ends. Qed.
Print Assumptions C75_compile_ends.
Theorem C75_compiled_is_written : forall pat ns x, no_nul pat -> compile pat = PVal ns x ->
  exists r, writes pat r /\ forall r', writes pat r' -> r' = r.
Proof. exact compiled_unique. Qed.
Print Assumptions C75_compiled_is_written.
(** And patterns according to the grammar are accepted. *)
Theorem C75_written_compiles : forall pat r, acceptable pat -> writes pat r -> exists ns x, compile pat = PVal ns x.
Proof. exact accepted. Qed.
Print Assumptions C75_written_compiles.

(** Matching ends, for every pattern that compiles and every text. *)
Theorem C75_match_ends : forall pat ns x icase text, no_nul pat -> compile pat = PVal ns x ->
  exists out fuel0, out <> MOut /\ forall fuel, fuel0 <= fuel -> match_text ns icase text fuel = out.
Proof. exact match_ends. Qed.
Print Assumptions C75_match_ends.
(** What matches is an instance. *)
Theorem C75_match_sound : forall pat ns x r icase text fuel, no_nul pat -> compile pat = PVal ns x -> writes pat r -> tame icase r ->
  match_text ns icase text fuel = MRet true -> matches icase text r.
Proof. exact match_sound. Qed.
Print Assumptions C75_match_sound.
(** An expression that cannot take the end of the text for a character never reads behind it. *)
Theorem C75_match_in_bounds : forall pat ns x r icase text, no_nul pat -> compile pat = PVal ns x -> writes pat r -> stays r ->
  exists b fuel0, forall fuel, fuel0 <= fuel -> match_text ns icase text fuel = MRet b.
Proof. exact match_safe. Qed.
Print Assumptions C75_match_in_bounds.
(** Simple expressions match all their instances. *)
Theorem C75_match_complete : forall pat ns x r icase text, no_nul pat -> compile pat = PVal ns x -> writes pat r -> tame icase r -> simple r ->
  (Z.of_nat (List.length text) < 65535)%Z -> matches icase text r ->
  exists fuel0, forall fuel, fuel0 <= fuel -> match_text ns icase text fuel = MRet true.
Proof. exact match_exact. Qed.
Print Assumptions C75_match_complete.

(** Without a value, or with too many, nothing is compiled or matched. *)
Theorem C75_scan_without_matching : forall fuel pat icase maxcount count sval text,
  rex_scan fuel pat icase maxcount maxcount sval text = MRet (ARG_ERR_MAXCOUNT, maxcount, sval) /\
  ((count < maxcount)%Z -> rex_scan fuel pat icase maxcount count sval None = MRet (0, count + 1, sval)%Z).
Proof. exact scan_without_matching. Qed.
Print Assumptions C75_scan_without_matching.

(** ** Samples *)
(** "^[A-Z_]\w*$": identifiers. *)
Definition ident : rx := Seq Start (Seq (Set_ false [From_to "A" "Z"; One "_"]) (Seq (Rep (Kind "w") 0 None) Stop)).
Definition ident_pattern : str := lit "^[A-Z_]\w*$".
Lemma ident_written : writes ident_pattern ident.
Proof.
  unfold writes, ident_pattern, ident. change (lit "^[A-Z_]\w*$") with (lit "^" ++ (lit "[" ++ (lit "A" ++ lit "-" ++ lit "Z" ++ lit "_" ++ []) ++ lit "]") ++ lit "\w" ++ lit "*" ++ lit "$").
  apply w_start. apply w_more.
  - apply w_set; [discriminate|discriminate|]. apply members_range.
    + apply member_plain; [split; discriminate|cbn; intuition discriminate|discriminate].
    + apply limit_plain; [split; discriminate|discriminate].
    + apply members_one; [|apply members_none]. apply member_plain; [split; discriminate|cbn; intuition discriminate|discriminate].
  - apply w_more_rep; [apply w_kind; cbn; tauto|apply count_any|]. apply w_last. apply w_stop.
Qed.
Example C75_sample : acceptable ident_pattern /\ writes ident_pattern ident /\ tame true ident /\ stays ident /\ simple ident /\
  rex_scan 40 ident_pattern true 3 1 [lit "x"; []; []] (Some (lit "Max_1")) = MRet (0, 2, [lit "x"; lit "Max_1"; []])%Z /\
  rex_scan 40 ident_pattern true 3 1 [lit "x"; []; []] (Some (lit "max-1")) = MRet (ARG_ERR_REGNOMATCH, 1, [lit "x"; []; []])%Z /\
  rex_scan 40 ident_pattern false 3 1 [lit "x"; []; []] (Some (lit "max_1")) = MRet (ARG_ERR_REGNOMATCH, 1, [lit "x"; []; []])%Z.
Proof.
  split; [|split; [exact ident_written|split; [|split; [|split; [|repeat split; vm_compute; reflexivity]]]]].
  - split; [intro I0; cbn in I0; repeat (destruct I0 as [I0|I0]; [discriminate I0|]); destruct I0|]. split; [reflexivity|]. split; [right; cbn; lia|].
    intros a ds b E F. destruct ds as [|d ds]; [cbn; lia|]. exfalso. inversion F as [|? ? F1 _]; subst. 
    assert (I0 : In d ident_pattern) by (rewrite E; apply in_or_app; right; left; reflexivity).
    cbn in I0. repeat (destruct I0 as [<-|I0]; [discriminate F1|]). destruct I0.
  - split; [exact Logic.I|]. split; [|split; [|exact Logic.I]].
    + repeat constructor; vm_compute; intuition discriminate.
    + split; [exact Logic.I|split; [reflexivity|exact Logic.I]].
  - split; [exact Logic.I|]. split; [|split; [reflexivity|exact Logic.I]]. split; [reflexivity|].
    repeat constructor; discriminate.
  - apply simple_seq; [exact Logic.I|]. apply simple_seq; [exact Logic.I|]. apply simple_rep_stop; [exact Logic.I|reflexivity].
Qed.
Print Assumptions C75_sample.
(** "a(b|c)*[^x-z\d]{2,3}" *)
Example C75_sample_general : exists ns x, compile (lit "a(b|c)*[^x-z\d]{2,3}") = PVal ns x /\
  match_text ns false (lit "abccq") 60 = MRet true /\ match_text ns false (lit "abccx") 60 = MRet false.
Proof. eexists _, _. split; [vm_compute; reflexivity|]. split; vm_compute; reflexivity. Qed.
Print Assumptions C75_sample_general.

(** ** What does not hold *)
(** A repetition takes as much as it can and gives nothing back: "a*a" does not match "aaa". *)
Theorem C75_match_complete_general_refuted : exists pat ns x r text, acceptable pat /\ writes pat r /\ tame false r /\ stays r /\
  compile pat = PVal ns x /\ matches false text r /\ exists fuel0, forall fuel, fuel0 <= fuel -> match_text ns false text fuel = MRet false.
Proof. exact greedy_gives_nothing_back. Qed.
Print Assumptions C75_match_complete_general_refuted.
(** '.' takes the end of the text for a character: ".*" does not match "" ... *)
Theorem C75_match_complete_any_refuted : exists pat ns x r text, acceptable pat /\ writes pat r /\ tame false r /\
  compile pat = PVal ns x /\ matches false text r /\ exists fuel0, forall fuel, fuel0 <= fuel -> match_text ns false text fuel = MRet false.
Proof. exact any_takes_the_end. Qed.
Print Assumptions C75_match_complete_any_refuted.
(** ... and "a.b" reads behind the end of "a". *)
Theorem C75_match_in_bounds_any_refuted : exists pat ns x r text, acceptable pat /\ writes pat r /\ tame false r /\
  compile pat = PVal ns x /\ exists fuel0, forall fuel, fuel0 <= fuel -> match_text ns false text fuel = MUB.
Proof. exact any_reads_behind. Qed.
Print Assumptions C75_match_in_bounds_any_refuted.
(** Word boundaries, ranges without regard to case and large counts let in what is no instance. *)
Theorem C75_match_sound_word_refuted : exists pat ns x r text, acceptable pat /\ writes pat r /\
  compile pat = PVal ns x /\ ~ matches false text r /\ exists fuel0, forall fuel, fuel0 <= fuel -> match_text ns false text fuel = MRet true.
Proof. exact words_misjudged. Qed.
Print Assumptions C75_match_sound_word_refuted.
Theorem C75_match_sound_range_refuted : exists pat ns x r text, acceptable pat /\ writes pat r /\ stays r /\
  compile pat = PVal ns x /\ ~ matches true text r /\ exists fuel0, forall fuel, fuel0 <= fuel -> match_text ns true text fuel = MRet true.
Proof. exact cases_in_ranges. Qed.
Print Assumptions C75_match_sound_range_refuted.
Theorem C75_match_sound_count_refuted : exists pat ns x r text, no_nul pat /\ writes pat r /\ stays r /\
  compile pat = PVal ns x /\ ~ matches false text r /\ exists fuel0, forall fuel, fuel0 <= fuel -> match_text ns false text fuel = MRet true.
Proof. exact counts_wrap. Qed.
Print Assumptions C75_match_sound_count_refuted.
(** Longer patterns with a range are refused although they are according to the grammar. *)
Theorem C75_written_compiles_long_refuted : exists pat r, no_nul pat /\ List.length pat <= 64 /\ writes pat r /\ compile pat = PErr.
Proof. exact long_rejected. Qed.
Print Assumptions C75_written_compiles_long_refuted.
(** A pattern that is refused is not reported: a null pointer is followed. *)
Theorem C75_scan_bad_pattern_refuted : (forall pat icase maxcount count sval text fuel, compile pat = PErr -> (count < maxcount)%Z ->
    rex_scan fuel pat icase maxcount count sval (Some text) = MUB) /\
  compile (lit "(a") = PErr /\ compile (lit "a)b") = PErr.
Proof. exact (conj bad_pattern_null (conj eq_refl eq_refl)). Qed.
Print Assumptions C75_scan_bad_pattern_refuted.
(** The empty pattern, and one that ends in a backslash, are read past their ends. *)
Theorem C75_compile_in_bounds_refuted : compile [] = PUB /\ compile (lit "a\") = PUB.
Proof. exact (conj eq_refl eq_refl). Qed.
Print Assumptions C75_compile_in_bounds_refuted.
