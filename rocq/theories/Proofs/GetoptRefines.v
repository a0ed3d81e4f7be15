(** Model/Getopt.v is Model/GetoptFull.v for the option strings and tables of arg_parse. *)
From Coq Require Import ZArith Bool List Ascii String Arith Lia.
From Verif.Base Require Import CInt CStr.
From Verif.Model Require Import Permute Getopt GetoptFull.
From Verif.Spec Require Import GetoptAnswer.
From Verif.Proofs Require Import GetoptSteps.
Import ListNotations.
Open Scope list_scope.
Open Scope nat_scope.

Section Refines.
Variables (opterr posix : bool).
Variable options : str.
Hypothesis Colon : colon_first options = true.
Hypothesis NoSemi : ~ In ";"%char options.

Lemma of_nat_eqb a b : (Z.of_nat a =? Z.of_nat b)%Z = (a =? b).
Proof. destruct (Nat.eqb_spec a b) as [->|N]; [apply Z.eqb_refl|]. apply Z.eqb_neq. lia. Qed.

Lemma find_refines name short : forall los i m m' second, option_map (fun x => snd x) m = option_map parser_long m' ->
  let '(a, e, s) := find_name false short name i (map parser_long los) m second in
  let '(a', e', s') := find_long name short los m' second in option_map (fun x => snd x) a = option_map parser_long a' /\ e = e' /\ s = s'.
Proof.
  induction los as [|o los IH]; intros i m m' second Em; cbn [map find_name find_long]; [auto|].
  change (l_name (parser_long o)) with (lo_name o).
  destruct (negb (prefixb name (lo_name o))); [apply IH; exact Em|].
  destruct (List.length (lo_name o) =? List.length name); [auto|].
  destruct (short && (List.length name =? 1)); [apply IH; exact Em|].
  destruct m as [[j o']|], m' as [o2|]; try discriminate; [|apply IH; reflexivity].
  cbn in Em. injection Em as ->. cbn [parser_long l_has_arg l_flag l_val same_flag Nat.eqb negb]. rewrite !of_nat_eqb, !orb_false_r. apply IH. reflexivity.
Qed.

Lemma said_nothing text : print_error opterr options text = None.
Proof. unfold print_error. rewrite Colon. cbn [negb]. rewrite andb_false_r. reflexivity. Qed.
Lemma badarg_is : badarg options = BADARG.
Proof. unfold badarg. rewrite Colon. reflexivity. Qed.

Lemma long_refines los dash short argv optind place :
  cbind (parse_long opterr false options (map parser_long los) dash short argv optind place) (fun '(r, i) => Val (as_parser r, i)) =
  parse_long_options los argv optind place short.
Proof.
  unfold parse_long, parse_long_options. destruct (split_equal place) as [name eq].
  pose proof (find_refines name short los 0 None None false eq_refl) as F.
  destruct (find_name false short name 0 (map parser_long los) None false) as [[a e] s]. destruct (find_long name short los None false) as [[a' e'] s'].
  destruct F as (Ea & -> & ->). rewrite !said_nothing, badarg_is. destruct (negb e' && s'); [reflexivity|].
  destruct a as [[i o]|], a' as [o'|]; try discriminate; [|destruct short; [reflexivity|rewrite ?said_nothing; reflexivity]].
  cbn in Ea. injection Ea as ->. unfold parser_long. cbn [l_has_arg l_flag l_val].
  assert (forall b, (Z.of_nat (lo_has_arg o') =? Z.of_nat b)%Z = (lo_has_arg o' =? b)) as Eh by (intros; apply of_nat_eqb).
  pose proof (Eh 0) as E0. pose proof (Eh 1) as E1. pose proof (Eh 2) as E2. cbn [Z.of_nat Pos.of_succ_nat Pos.succ] in E0, E1, E2. rewrite E0, E1, E2.
  destruct (lo_has_arg o' =? 0); cbn [andb].
  - destruct eq as [v|]; [rewrite ?said_nothing; reflexivity|].
    destruct (lo_has_arg o' =? 1); cbn [orb].
    + destruct (argv_at argv (S optind)) as [[w|]|]; cbn [cbind andb]; unfold as_parser; cbn; rewrite ?Nat2Z.id; reflexivity.
    + destruct (lo_has_arg o' =? 2); cbn [cbind]; unfold as_parser; cbn; rewrite ?Nat2Z.id; reflexivity.
  - destruct (lo_has_arg o' =? 1); cbn [orb].
    + destruct eq as [v|]; [cbn [cbind andb]; unfold as_parser; cbn; rewrite ?Nat2Z.id; reflexivity|].
      destruct (argv_at argv (S optind)) as [[w|]|]; cbn [cbind andb]; unfold as_parser; cbn; rewrite ?Nat2Z.id; reflexivity.
    + destruct (lo_has_arg o' =? 2); [destruct eq|]; cbn [cbind]; unfold as_parser; cbn; rewrite ?Nat2Z.id; reflexivity.
Qed.

Lemma long_value los dash argv optind place r i :
  parse_long opterr false options (map parser_long los) dash false argv optind place = Val (r, i) -> r_value r <> DONE.
Proof.
  unfold parse_long. destruct (split_equal place) as [name eq].
  pose proof (find_refines name false los 0 None None false eq_refl) as F.
  destruct (find_name false false name 0 (map parser_long los) None false) as [[a e] s]. destruct (find_long name false los None false) as [[a' e'] s'].
  destruct F as (Ea & -> & ->). rewrite badarg_is. destruct (negb e' && s'); [intros E; injection E as <- _; discriminate|].
  destruct a as [[j o]|], a' as [o'|]; try discriminate; [|intros E; injection E as <- _; discriminate].
  cbn in Ea. injection Ea as ->. unfold parser_long. cbn [l_has_arg l_flag l_val]. intros E.
  repeat match type of E with
  | Val _ = Val _ => injection E as <- _; discriminate
  | (if ?b then _ else _) = _ => destruct b
  | cbind ?y _ = Val _ => destruct y as [[? ?]|]; [cbn [cbind] in E|discriminate]
  end.
Qed.

Lemma strchr_in : forall s c c1 oli, strchr s c = Some (c1 :: oli) -> forall x, In x oli -> In x s.
Proof.
  induction s as [|y s IH]; intros c c1 oli E x H; [discriminate|]. cbn in E. destruct (aeqb y c); [injection E as _ <-; right; exact H|].
  right. exact (IH _ _ _ E x H).
Qed.

Definition map_out (x : cres (out * gopt)) : cres (gret * gopt) := cbind x (fun '(r, g) => Val (as_parser r, g)).

Lemma letter_refines los g : map_out (parse_letter opterr posix false options (Some los) g) = short_option options g.
Proof.
  unfold parse_letter, short_option. destruct (g_place g) as [|c p]; [reflexivity|].
  rewrite !said_nothing, badarg_is.
  assert (match strchr options c with Some (_ :: oli) => ~ In ";"%char oli | _ => True end) as Ns.
  { destruct (strchr options c) as [[|c1 oli]|] eqn:E; auto. intros H. apply NoSemi. exact (strchr_in _ _ _ _ E _ H). }
  destruct (strchr options c) as [[|c1 oli]|] eqn:Es.
  - destruct (aeqb c ":" || (aeqb c "-" && negb match p with [] => true | _ => false end)) eqn:Eb; [|destruct (aeqb c "-" && match p with [] => true | _ => false end); reflexivity].
    destruct (aeqb c "-"), p; reflexivity.
  - destruct (aeqb c ":" || (aeqb c "-" && negb match p with [] => true | _ => false end)) eqn:Eb.
    + replace (aeqb c "-" && match p with [] => true | _ => false end) with false; [destruct p; reflexivity|].
      apply orb_true_iff in Eb. destruct Eb as [Eb|Eb]; [apply aeqb_eq in Eb; subst c; reflexivity|]. apply andb_true_iff in Eb. destruct Eb as (-> & Eb). destruct p; [discriminate|reflexivity].
    + assert (aeqb c "W" && match oli with c0 :: _ => aeqb c0 ";" | [] => false end = false) as ->.
      { apply andb_false_iff. right. destruct oli as [|c2 oli]; [reflexivity|]. apply aeqb_neq. intros ->. apply Ns. left. reflexivity. }
      destruct oli as [|c2 oli]; [reflexivity|]. destruct (negb (aeqb c2 ":")); [reflexivity|]. destruct p; [|reflexivity]. cbn [negb].
      destruct (match oli with c' :: _ => negb (aeqb c' ":") | [] => true end); [|reflexivity]. destruct (nth_error _ _); reflexivity.
  - destruct (aeqb c ":" || (aeqb c "-" && negb match p with [] => true | _ => false end)) eqn:Eb; [|destruct (aeqb c "-" && match p with [] => true | _ => false end); reflexivity].
    destruct (aeqb c "-"), p; reflexivity.
Qed.

Theorem refines los g :
  Getopt.getopt_long posix options los g = map_out (GetoptFull.getopt_long opterr posix options (map parser_long los) g).
Proof.
  unfold GetoptFull.getopt_long, getopt_internal, Getopt.getopt_long, map_out.
  assert (forall c, In c ["+"; "-"]%char -> match options with x :: _ => aeqb x c | [] => false end = false) as Hd.
  { intros c H. destruct options as [|x o]; [reflexivity|]. cbn in Colon. apply aeqb_eq in Colon. subst x. apply aeqb_neq. intros <-. cbn in H. intuition discriminate. }
  rewrite !Hd by (cbn; auto). cbn [negb andb orb]. rewrite orb_false_r.
  replace (if posix then false else true) with (negb posix) by (destruct posix; reflexivity).
  set (g1 := if g_reset _ then _ else _). rewrite find_any_plain. destruct (find_option (List.length (g_argv g1)) (negb posix) g1) as [[g2|g2]|]; [reflexivity| |reflexivity].
  cbn [cbind as_found]. unfold at_option. destruct (nth_error (g_argv g2) (g_optind g2)) as [w|]; [|reflexivity].
  rewrite <- (letter_refines (map parser_long los)). unfold map_out.
  destruct (g_place g2) as [|c rest] eqn:P; [cbn [andb]; rewrite andb_false_r; reflexivity|].
  destruct (List.length (c :: rest) =? List.length w); [reflexivity|]. cbn [negb andb].
  destruct (aeqb c "-"); [|reflexivity]. cbn [tl]. destruct rest as [|r0 rest]; [rewrite badarg_is; reflexivity|].
  rewrite <- (long_refines los (lit "--") false). destruct (parse_long _ _ _ _ _ _ _ _ _) as [[r i]|] eqn:E; [|reflexivity]. cbn [cbind].
  rewrite (proj2 (Z.eqb_neq _ _) (long_value _ _ _ _ _ _ _ E)). reflexivity.
Qed.
End Refines.
