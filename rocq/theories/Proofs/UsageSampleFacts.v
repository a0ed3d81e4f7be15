(** The samples of C81, C82 and C83 meet the hypotheses; where things fall short. *)
From Coq Require Import ZArith Bool List Ascii String Arith Lia.
From Verif.Base Require Import CInt CStr Tm.
From Verif.Model Require Import ArgInt Argtable Dstr Messages Wrap ArgDate ArgObject Trex Usage.
From Verif.Spec Require Import DstrSpec WrapSpec UsageSpec UsageSamples DoubleSpec.
From Verif.Proofs Require Import UsageProofs UsageErrors DoubleProofs.
Import ListNotations.
Open Scope list_scope.
Open Scope nat_scope.

Definition nuls (s : str) : bool := existsb (fun c => aeqb c NUL) s.
Lemma nuls_no s : nuls s = false -> no_nul s.
Proof.
  intros E H. unfold nuls in E. assert (existsb (fun c => aeqb c NUL) s = true) as X; [|congruence].
  apply existsb_exists. exists NUL. split; [exact H|reflexivity].
Qed.
Definition presentableb (n : named) : bool :=
  negb (nuls (n_shorts n)) && forallb (fun l => negb (match l with [] => true | _ => false end) && negb (nuls l) && negb (existsb (fun c => aeqb c ",") l)) (n_longs n) &&
  negb (match n_value n with Some v => nuls v | None => false end) && negb (match n_help n with Some v => nuls v | None => false end) &&
  (List.length (gnu_column n) <=? 198).
Lemma presentable_yes n : presentableb n = true -> presentable n.
Proof.
  unfold presentableb. rewrite !andb_true_iff, !negb_true_iff. intros ((((H1 & H2) & H3) & H4) & H5). repeat split.
  - apply nuls_no, H1.
  - apply Forall_forall. intros l I. rewrite forallb_forall in H2. specialize (H2 l I). rewrite !andb_true_iff, !negb_true_iff in H2. destruct H2 as ((A & B) & C).
    split; [destruct l; [discriminate|discriminate]|]. split; [apply nuls_no, B|]. intros J. assert (existsb (fun c => aeqb c ",") l = true) as X; [|congruence].
    apply existsb_exists. exists ","%char. split; [exact J|reflexivity].
  - intros v E. rewrite E in H3. apply nuls_no, H3.
  - intros v E. rewrite E in H4. apply nuls_no, H4.
  - apply Nat.leb_le, H5.
Qed.
Lemma sample_in_table : in_table sample_table.
Proof. repeat constructor; cbn; try (apply nuls_no; reflexivity); try (unfold INT_MAX; lia); try (apply presentable_yes; vm_compute; reflexivity).
  all: try (intros ? [= <-]; apply nuls_no; reflexivity); try (apply Nat.leb_le; vm_compute; reflexivity); try discriminate; try (intros [E|[]]; discriminate). all: try (intros E; repeat (destruct E as [E|E]; [discriminate|]); exact E). Qed.
Lemma sample_means : Forall2 (fun x nc => means (fst nc) x (snd nc) /\ sayable (lit "p") (fst nc) (snd nc)) sample_errors sample_complaints.
Proof.
  assert (forall n c, presentableb n = true -> forallb (fun s => negb (nuls s)) (lit "p" :: texts c) = true -> sayable (lit "p") n c) as X.
  { intros n c H1 H2. split; [apply presentable_yes, H1|]. apply Forall_forall. intros s I. rewrite forallb_forall in H2. apply nuls_no, negb_true_iff, H2, I. }
  unfold sample_errors, sample_complaints. repeat (apply Forall2_cons; [split; [|apply X; reflexivity]|]); [..|constructor]; cbn [fst snd];
    constructor; try discriminate; try reflexivity; lia.
Qed.
Lemma sample_usage_shown : usage_line sample_table = lit " -x[v] [-l [<n>]] [-l [<n>]] --on=%Y-%m-%d [--on=%Y-%m-%d] <file> <file> [<file>]...".
Proof. vm_compute. reflexivity. Qed.
Lemma sample_verbose_shown : verbose_line sample_table =
  lit " [-v|-w|--verbose|--loud]... -x [-l|--level=[<n>]] [-l|--level=[<n>]] --on=%Y-%m-%d [--on=%Y-%m-%d] <file> <file> [<file>]...".
Proof. vm_compute. reflexivity. Qed.
Lemma sample_errors_shown : List.concat (map (fun nc => message (lit "p") (fst nc) (snd nc)) sample_complaints) =
  lit "p: missing option -x" ++ nl ++ nl ++
  lit "p: integer overflow at option -l|--level=<n> (99999999999 is too large)" ++ nl ++
  lit "p: excess option -l|--level=7" ++ nl ++
  lit "p: illegal timestamp format ""never""" ++ nl ++ lit "correct format is ""1900-01-00""" ++ nl ++
  lit "p: missing option <file>" ++ nl ++
  lit "p: invalid option ""-" ++ ["195"%char] ++ lit """" ++ nl ++
  lit "p: invalid option ""--what""" ++ nl.
Proof. vm_compute. reflexivity. Qed.
Lemma sample_limit : (Z.of_nat (List.length (usage_line sample_table)) < LIMIT)%Z /\
  (Z.of_nat (List.length (List.concat (map (fun nc => message (lit "p") (fst nc) (snd nc)) sample_complaints))) < LIMIT)%Z.
Proof. split; vm_compute; reflexivity. Qed.

Lemma overflow_reached : let x := mkE opt_level true (-1) INT_MAX in print_syntax (map entry_of [x]) None = UB /\ print_syntaxv (map entry_of [x]) None = UB.
Proof. split; vm_compute; reflexivity. Qed.
Lemma switch_counts_lost : exists line, print_syntax (map entry_of [mkE opt_x false 1 1]) None = Val line /\ print_syntax (map entry_of [mkE opt_x false 3 7]) None = Val line.
Proof. exists (lit " -x"). split; vm_compute; reflexivity. Qed.
Lemma long_syntax_cut : let n := {| n_shorts := []; n_longs := [repeat "a"%char 300]; n_value := Some (lit "<n>"); n_optional := false; n_help := None |} in
  exists line, print_syntaxv (map entry_of [mkE n true 1 1]) None = Val line /\ List.length line = 199%nat.
Proof. exists (lit " --" ++ repeat "a"%char 196). split; vm_compute; reflexivity. Qed.
Lemma date_example : sample_strftime (mkTm 59 59 23 31 11 99 5 364 0) = Some (lit "1999-12-31") /\
  print_errors_of [mkX KDate sample_strftime (header_of opt_date) 6 (Some (lit "never"))] (lit "p") =
  Val (lit "p: illegal timestamp format ""never""" ++ nl ++ lit "correct format is ""1900-01-00""" ++ nl).
Proof. split; vm_compute; reflexivity. Qed.
Lemma date_unbounded e prog v f : f (mkTm 0 0 0 0 0 0 0 0 0) = None -> print_errors_of [mkX KDate f e 6 (Some v)] prog = UB.
Proof.
  intros H. unfold print_errors_of, print_errors_ds. cbn [over x_kind x_strftime x_named x_code x_argval].
  assert (errorfn KDate f e prog 6 (Some v) = UB) as ->; [|reflexivity].
  unfold errorfn. change (6 =? ARG_ERR_MINCOUNT)%Z with false. change (6 =? ARG_ERR_MAXCOUNT)%Z with false. change (6 =? ARG_ERR_BADDATE)%Z with true. cbv iota.
  unfold baddate_ops. match goal with |- after _ (cbind ?t _) = _ => replace t with (Val (mkTm 0 0 0 0 0 0 0 0 0)) by (vm_compute; reflexivity) end.
  cbn [cbind]. rewrite H. reflexivity.
Qed.

Lemma empty_accepted strtod maxcount count dval : snd (strtod []) = 0%nat -> (0 <= count < maxcount)%Z -> (maxcount <= INT_MAX)%Z -> Z.of_nat (List.length dval) = maxcount ->
  exists dval', dbl_scan strtod maxcount count dval (Some []) = Val (0, count + 1, dval')%Z.
Proof.
  intros E H1 H2 H3. pose proof (scan_one strtod (Z.to_nat count) maxcount dval (Some [])) as X. rewrite Z2Nat.id in X by lia. eexists. rewrite X; [|cbn; split; [rewrite E; lia|intros []]|lia|exact H3].
  cbn [acceptable]. rewrite E. cbn [Nat.eqb List.length]. f_equal. f_equal. f_equal. lia.
Qed.
Lemma sample_words_fine : Forall (in_bounds sample_strtod) sample_words.
Proof. repeat constructor; try (apply nuls_no; reflexivity); vm_compute; lia. Qed.
Lemma sample_scanned : scan_words sample_strtod 3 0 [7; 8; 9]%Z sample_words = Val ([0; 5; 0; 5; 0; 2], 3, [15; 8; 25])%Z.
Proof. vm_compute. reflexivity. Qed.

(** In the form of the claims. *)
Lemma overflow_somewhere : exists x, presentable (x_option x) /\ x_most x = INT_MAX /\ x_least x = (-1)%Z /\
  print_syntax (map entry_of [x]) None = UB /\ print_syntaxv (map entry_of [x]) None = UB.
Proof.
  exists (mkE opt_level true (-1) INT_MAX). split; [apply presentable_yes; vm_compute; reflexivity|]. split; [reflexivity|]. split; [reflexivity|]. exact overflow_reached.
Qed.
Lemma switch_counts_somewhere : exists n line, presentable n /\
  print_syntax (map entry_of [mkE n false 1 1]) None = Val line /\ print_syntax (map entry_of [mkE n false 3 7]) None = Val line.
Proof.
  destruct switch_counts_lost as (line & H). exists opt_x, line. split; [apply presentable_yes; vm_compute; reflexivity|exact H].
Qed.
Lemma cut_somewhere : exists n line, List.length (full_syntax (lit "|") n) = 306%nat /\
  print_syntaxv (map entry_of [mkE n true 1 1]) None = Val line /\ List.length line = 199%nat.
Proof. destruct long_syntax_cut as (line & H). eexists _, line. split; [|exact H]. vm_compute. reflexivity. Qed.
Lemma date_example_somewhere : exists strftime n, presentable n /\
  strftime (mkTm 59 59 23 31 11 99 5 364 0) = Some (lit "1999-12-31") /\
  print_errors_of [mkX KDate strftime (header_of n) 6 (Some (lit "never"))] (lit "p") =
  Val (lit "p: illegal timestamp format ""never""" ++ nl ++ lit "correct format is ""1900-01-00""" ++ nl).
Proof. exists sample_strftime, opt_date. split; [apply presentable_yes; vm_compute; reflexivity|exact date_example]. Qed.
