(** What is written is read. *)
From Coq Require Import ZArith Bool List Ascii String Arith Lia.
From Verif.Base Require Import CInt CStr.
From Verif.Spec Require Import CmdLine AnyLine AnySpec Writing.
From Verif.Proofs Require Import AnyLong AnyTotal.
Import ListNotations.
Open Scope list_scope.
Open Scope nat_scope.

Section Writing.
Variable os : list opt.
Hypothesis FO : fine_options os.

Lemma name_means_it k n : name_of os k n -> name_means os n k.
Proof. intros (_ & _ & H & M). left. auto. Qed.

Lemma valid_takes k : (exists o, nth_error os k = Some o) -> exists t, option_takes os k t.
Proof. intros (o & E). exists (o_takes o). exists o. auto. Qed.
Lemma name_takes k n : name_of os k n -> exists t, option_takes os k t.
Proof. intros (_ & _ & (o & E & _) & _). apply valid_takes. eauto. Qed.
Lemma letter_takes k c : letter_means os c k -> exists t, option_takes os k t.
Proof. intros ((o & E & _) & _). apply valid_takes. eauto. Qed.

Lemma flags_inside w ks : Forall (fun kc => letter_means os (snd kc) (fst kc) /\ option_takes os (fst kc) Nothing) ks ->
  forall ws, inside os w (map snd ks) ws (map (fun kc => Short (fst kc) None) ks) ws.
Proof.
  intros F ws. induction F as [|[k c] ks (L & T) F IH]; cbn [map fst snd] in *; [constructor|].
  apply inside_flag; assumption.
Qed.

(** One setting: its first word, and the words after it. *)
Lemma setting_inside s ws : allowed os s ->
  exists p ws0, write s ++ ws = ("-"%char :: p) :: ws0 /\ p <> [] /\ p <> lit "-" /\
                inside os ("-"%char :: p) p ws0 (said s) ws.
Proof.
  intros A. destruct s as [k n|k n v|k n v|ks|k c v|k c v]; cbn [allowed write said] in *.
  - destruct A as (Nm & Nt). exists ("-"%char :: n), ws. pose proof Nm as (Ne & Nq & _). split; [reflexivity|].
    split; [discriminate|]. split; [intros E; injection E as ->; congruence|].
    apply inside_long; [exact Ne|]. destruct (name_takes k n Nm) as (t & Ht).
    apply (long_alone os _ n ws k t); auto.
    + split; [exact Nq|]. rewrite app_nil_r. reflexivity.
    + apply name_means_it. exact Nm.
    + intros ->. auto.
  - destruct A as (Nm & Nt). exists ("-"%char :: n ++ lit "=" ++ v), ws. pose proof Nm as (Ne & Nq & _). split; [reflexivity|].
    split; [discriminate|]. split; [intros E; injection E as E; destruct n; discriminate|].
    apply inside_long; [destruct n; discriminate|]. destruct (name_takes k n Nm) as (t & Ht).
    apply (long_here os _ (n ++ lit "=" ++ v) ws n v k t); auto.
    + split; [exact Nq|]. reflexivity.
    + apply name_means_it. exact Nm.
    + intros ->. auto.
  - destruct A as (Nm & Ht). exists ("-"%char :: n), (v :: ws). pose proof Nm as (Ne & Nq & _). split; [reflexivity|].
    split; [discriminate|]. split; [intros E; injection E as ->; congruence|].
    apply inside_long; [exact Ne|]. apply (long_next os _ n v ws k); auto.
    + split; [exact Nq|]. rewrite app_nil_r. reflexivity.
    + apply name_means_it. exact Nm.
  - destruct A as (Ne & F). exists (map snd ks), ws. split; [reflexivity|].
    split; [destruct ks; [congruence|discriminate]|]. split; [|apply flags_inside; exact F].
    destruct F as [|[k c] ks (L & T) F]; [congruence|]. cbn [map snd fst] in *. intros E. injection E as -> _.
    exact (any_letter_dash os FO k L).
  - destruct A as (L & Nt & Nv). exists (c :: v), ws. split; [reflexivity|]. split; [discriminate|].
    split; [intros E; injection E as _ E; congruence|]. destruct (letter_takes k c L) as (t & Ht).
    apply (inside_value os _ c v ws k t); auto. intros ->. auto.
  - destruct A as (L & Ht). exists [c], (v :: ws). split; [reflexivity|]. split; [discriminate|].
    split; [|apply inside_next; assumption]. intros E. injection E as ->. exact (any_letter_dash os FO k L).
Qed.

Lemma setting_reads posix s ws es r : allowed os s -> reads os posix ws es r ->
  reads os posix (write s ++ ws) (said s ++ es) r.
Proof.
  intros A H. destruct (setting_inside s ws A) as (p & ws0 & -> & N1 & N2 & Hin).
  apply (reads_word os posix p ws0 (said s) ws es r); assumption.
Qed.

Theorem settings_reads posix ss ws es r : Forall (allowed os) ss -> reads os posix ws es r ->
  reads os posix (flat_map write ss ++ ws) (flat_map said ss ++ es) r.
Proof.
  intros F H. induction F as [|s ss A F IH]; [exact H|]. cbn [flat_map]. rewrite <- !app_assoc.
  apply setting_reads; assumption.
Qed.

Lemma args_read posix args : Forall (fun w => ~ option_word w) args -> reads os posix args [] args.
Proof.
  intros F. destruct posix.
  - destruct F as [|w args Nw F]; [constructor|]. apply reads_posix_stop; auto.
  - induction F as [|w args Nw F IH]; [constructor|]. apply reads_other; auto.
Qed.

Theorem items_read is_ : Forall (item_allowed os) is_ ->
  reads os false (flat_map item_words is_) (flat_map item_events is_) (flat_map item_args is_).
Proof.
  intros F. induction F as [|i is_ A F IH]; [constructor|]. destruct i as [s|w]; cbn [flat_map item_words item_events item_args app] in *.
  - apply setting_reads; assumption.
  - apply reads_other; auto.
Qed.
End Writing.
