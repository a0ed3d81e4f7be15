(** C84, C85: the option parser on any table.  The code is in Model/AnyTable.v; what a
    command line means is in Spec/AnyLine.v, what it does to the objects of a table is
    in Spec/AnySpec.v ([outcome]), how tables are declared in Spec/AnyTableSpec.v. *)
From Coq Require Import ZArith Bool List Ascii String Arith.
From Verif.Base Require Import CInt CStr.
From Verif.Model Require Import Argtable AnyTable.
From Verif.Spec Require Import CmdLine AnyLine AnySpec AnyTableSpec Writing PlainSpec AnySamples.
From Verif.Proofs Require Import AnyTableProofs AnyTotal WritingProofs PlainProofs AnySampleFacts.
Import ListNotations.
Open Scope list_scope.
Open Scope nat_scope.

(** ** C84: objects and errors *)
(** Whatever the objects are: parsing leaves the objects and the errors of the
    outcome, or has undefined behaviour where an object has. *)
Theorem C84_outcome : forall St os (bs : list (behaviour St)) max posix, fine_options os ->
  List.length bs = List.length os -> 1 <= max -> forall prog words objs out,
  List.length objs = List.length os -> Forall c_string words ->
  outcome St os bs max posix words objs out ->
  returns (fun fuel => any_parse St (declared os bs) max fuel posix (prog :: words) objs) (left_by out).
Proof. exact any_parse_outcome. Qed.
Print Assumptions C84_outcome.
(** Without any word, not even the program's name: the objects start over. *)
Theorem C84_empty : forall St os (bs : list (behaviour St)) max posix, List.length bs = List.length os ->
  1 <= max -> forall fuel objs, List.length objs = List.length os ->
  any_parse St (declared os bs) max fuel posix [] objs =
  Some (left_by (Val (restarted St bs objs, kept max (complaints St 0 bs (restarted St bs objs))))).
Proof. exact any_parse_empty. Qed.
Print Assumptions C84_empty.
(** Every command line has exactly one outcome, except those of [C84_stuck]. *)
Theorem C84_total : forall St os (bs : list (behaviour St)), fine_options os -> List.length bs = List.length os ->
  forall max posix words objs, List.length objs = List.length os ->
  (exists out, outcome St os bs max posix words objs out) \/ gets_stuck os posix words.
Proof. intros St os bs F. exact (outcome_exists os F St bs). Qed.
Print Assumptions C84_total.
Theorem C84_unique : forall St os (bs : list (behaviour St)), fine_options os ->
  forall max posix words objs out out', outcome St os bs max posix words objs out ->
  outcome St os bs max posix words objs out' -> out = out'.
Proof. intros St os bs F. exact (outcome_unique os F St bs). Qed.
Print Assumptions C84_unique.
(** A word -abc- of switches that ends in a dash: arg_parse does not return. *)
Theorem C84_stuck : forall St os (bs : list (behaviour St)) max posix, fine_options os ->
  List.length bs = List.length os -> 1 <= max -> forall prog words objs, Forall c_string words -> gets_stuck os posix words ->
  never_returns (fun fuel => any_parse St (declared os bs) max fuel posix (prog :: words) objs).
Proof. exact any_parse_stuck. Qed.
Print Assumptions C84_stuck.
(** The tables of Model/Argtable.v, which the judger uses, are such tables. *)
Theorem C84_plain : forall ps max posix prog words out, fine_options (map as_option ps) -> 1 <= max ->
  Forall c_string words ->
  outcome (list aval) (map as_option ps) (map acts ps) max posix words (map (fun _ => []) ps) out ->
  returns (fun fuel => arg_parse fuel posix max (prog :: words) (map as_entry ps)) (left_by (tabled ps out)).
Proof. exact plain_outcome. Qed.
Print Assumptions C84_plain.

Example sample_any : fine_options os1 /\ Forall c_string words1 /\ gets_stuck os1 false words3 /\
  outcome (list (option str)) os1 bs1 9 false words1 objs1
    (Val ([[None; None]; [Some (lit "3"); None]; [Some (lit "x"); Some (lit "y")]; []; [Some (lit "file"); Some (lit "-z")]], [])).
Proof. exact (conj fine1 (conj (proj1 strings1) (conj stuck3 outcome1))). Qed.
Example sample_any_errors : any_parse _ (declared os1 bs1) 9 20 false (lit "prog" :: words2) objs1 =
  Some (Val ([[None]; []; [Some []]; []; [Some (lit "a"); Some (lit "b")]],
    [mkErr None 113 None; mkErr None ARG_EMISSARG (Some (lit "--o=")); mkErr None ARG_EMISSARG (Some (lit "-o"));
     mkErr (Some 4) 7 (Some (lit "c"))])).
Proof. exact (run2 0). Qed.

(** ** C85: what is written is read *)
(** Settings and other words in any order. *)
Theorem C85_read : forall os, fine_options os -> forall items, Forall (item_allowed os) items ->
  reads os false (flat_map item_words items) (flat_map item_events items) (flat_map item_args items).
Proof. exact items_read. Qed.
Print Assumptions C85_read.
(** Settings, then anything that is read somehow: the end, two dashes and any words. *)
Theorem C85_settings : forall os, fine_options os -> forall posix ss ws es r, Forall (allowed os) ss ->
  reads os posix ws es r -> reads os posix (flat_map write ss ++ ws) (flat_map said ss ++ es) r.
Proof. exact settings_reads. Qed.
Print Assumptions C85_settings.
(** A table of switches, integers and texts afterwards holds what was written, and
    there are no errors, if everything is as often as expected. *)
Theorem C85_delivered : forall ps max prog items kept, fine_options (map as_option ps) -> 1 <= max ->
  Forall c_string (flat_map item_words items) -> Forall (item_fine (map as_option ps)) items ->
  let others := flat_map item_args items in
  let xs := flat_map item_gives items ++ dealt 0 ps others in
  List.length (dealt 0 ps others) = List.length others -> in_order ps xs kept ->
  returns (fun fuel => arg_parse fuel false max (prog :: flat_map item_words items) (map as_entry ps)) (Val (filled 0 ps xs kept, [])).
Proof. exact items_delivered. Qed.
Print Assumptions C85_delivered.
(** With POSIXLY_CORRECT or without: after two dashes nothing is an option. *)
Theorem C85_dashes : forall ps max posix prog ss rest kept, fine_options (map as_option ps) -> 1 <= max ->
  Forall c_string (flat_map write ss) -> Forall c_string rest -> Forall (fun s => allowed (map as_option ps) s /\ not_empty s) ss ->
  let xs := flat_map gives ss ++ dealt 0 ps rest in
  List.length (dealt 0 ps rest) = List.length rest -> in_order ps xs kept ->
  returns (fun fuel => arg_parse fuel posix max (prog :: flat_map write ss ++ lit "--" :: rest) (map as_entry ps)) (Val (filled 0 ps xs kept, [])).
Proof. exact settings_delivered. Qed.
Print Assumptions C85_dashes.

Example sample_written : fine_options (map as_option ps1) /\ Forall (item_fine (map as_option ps1)) items1 /\
  in_order ps1 (flat_map item_gives items1 ++ dealt 0 ps1 (flat_map item_args items1)) kept1 /\
  flat_map item_words items1 = map lit ["first"; "-vw"; "--count=0x10"; "second"; "-n"; "-7"; "--verbose"; "-oout"]%string /\
  arg_parse 20 false 9 (lit "prog" :: flat_map item_words items1) (map as_entry ps1) =
    Some (Val (filled 0 ps1 (flat_map item_gives items1 ++ dealt 0 ps1 (flat_map item_args items1)) kept1, [])).
Proof. exact (conj plain1 (conj items1_fine (conj items1_in_order (conj eq_refl eq_refl)))). Qed.
