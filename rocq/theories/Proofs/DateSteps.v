(** arg_strptime, one conversion after the other. *)
From Coq Require Import ZArith NArith Bool List Ascii String Lia.
From Verif.Base Require Import CInt CStr CMem Tm.
From Verif.Model Require Import ArgInt ArgDate.
From Verif.Spec Require Import DateSpec.
From Verif.Proofs Require Import DateRead.
Import ListNotations.
Open Scope list_scope.
Open Scope Z_scope.

Definition then_ (r : dres (option (str * tm))) (k : str -> tm -> dres (option (str * tm))) : dres (option (str * tm)) :=
  dbind r (fun o => match o with None => DRet None | Some (bp, t) => k bp t end).
(** The conversions that call arg_strptime again. *)
Definition inner : list (ascii * string) :=
  [("c"%char, "%x %X"); ("D"%char, "%m/%d/%y"); ("R"%char, "%H:%M"); ("r"%char, "%I:%M:%S %p"); ("T"%char, "%H:%M:%S");
   ("X"%char, "%H:%M:%S"); ("x"%char, "%m/%d/%y")]%string.
Definition done (fuel : nat) (c : ascii) (ps : list part) (bp : str) (t : tm) : dres (option (str * tm)) :=
  match lookup c inner with Some f => strptime fuel bp (lit f) t false | None => DRet (read_parts ps bp t) end.
Definition splits (c : ascii) (sp : bool) : bool := aeqb c "y" || sp.
Definition alt_of (m : option ascii) : str := match m with None => [] | Some m => [m] end.

Lemma lookup_in {A} c (l : list (ascii * A)) a : lookup c l = Some a -> In (c, a) l.
Proof.
  induction l as [|[d b] l IH]; [discriminate|]. cbn [lookup]. destruct (aeqb c d) eqn:E; [|right; auto].
  apply aeqb_eq in E as ->. intros X. injection X as ->. left. reflexivity.
Qed.
Lemma lookup_none {A} c (l : list (ascii * A)) d : lookup c l = None -> In d (map fst l) -> aeqb c d = false.
Proof.
  induction l as [|[e b] l IH]; [intros _ []|]. cbn [lookup map fst In]. destruct (aeqb c e) eqn:E; [discriminate|].
  intros H [<-|I0]; [exact E|auto].
Qed.
Lemma step_space fuel bp fmt t sp c : isspace c = true -> strptime (S fuel) bp (c :: fmt) t sp = strptime fuel (skip_space bp) fmt t sp.
Proof. intros H. cbn [strptime]. rewrite H. reflexivity. Qed.
Lemma cur_same c bp : c <> NUL -> (if aeqb c (cur bp) then true else false) = match bp with d :: _ => aeqb c d | [] => false end.
Proof. intros H. destruct bp as [|d bp]; cbn [cur]; [|destruct (aeqb c d); reflexivity]. destruct (aeqb c NUL) eqn:E; [|reflexivity]. apply aeqb_eq in E. contradiction. Qed.
Lemma step_same fuel bp fmt t sp c : isspace c = false -> c <> "%"%char -> c <> NUL ->
  strptime (S fuel) bp (c :: fmt) t sp = then_ (DRet (read_part (Same c) bp t)) (fun bp t => strptime fuel bp fmt t sp).
Proof.
  intros H H1 H2. cbn [strptime]. rewrite H. assert (aeqb c "%" = false) as -> by (apply aeqb_neq; exact H1). cbn [negb]. cbv zeta.
  assert (Q := cur_same c bp H2). destruct bp as [|d bp].
  - cbn [cur] in *. destruct (aeqb c NUL); [discriminate|]. reflexivity.
  - cbn [cur read_part then_ dbind]. destruct (aeqb c d); reflexivity.
Qed.
Ltac number_ := unfold by_num; rewrite num_val by lia; cbn [dlift dbind];
  match goal with |- context [num ?a ?b ?c] => destruct (num a b c) as [[? ?]|] end; cbn [dbind]; try reflexivity.
Lemma step_conv fuel bp fmt t sp m c ps : conversion m c = Some ps -> In m [None; Some "E"%char; Some "O"%char] ->
  ~ In Century ps -> (c = "y"%char -> sp = false) -> INT_MIN <= tm_hour t ->
  strptime (S fuel) bp ("%"%char :: alt_of m ++ c :: fmt) t sp = then_ (done fuel c ps bp t) (fun bp t => strptime fuel bp fmt t (splits c sp)).
Proof.
  intros H Hm Hc Hy Hh. unfold conversion in H. destruct (lookup c conversions) as [[al qs]|] eqn:E; [|discriminate]. apply lookup_in in E.
  assert (qs = ps /\ match m with None => True | Some m => existsb (aeqb m) al = true end) as [-> Ha].
  { destruct m as [m|]; [destruct (existsb (aeqb m) al); [|discriminate]|]; injection H; auto. }
  clear H. unfold done, splits.
  repeat (destruct E as [E|E]; [injection E as <- <- <-;
    destruct Hm as [<-|[<-|[<-|[]]]]; try discriminate Ha; try (exfalso; apply Hc; left; reflexivity);
    cbn [strptime alt_of app]; cbn -[strptime conv_num find_name strcaseeq skip_space int_op skipn num Z.add Z.sub Z.leb Z.ltb];
    try reflexivity; try (unfold by_num; rewrite num_val by lia; cbn [dlift dbind];
      match goal with |- context [num ?a ?b ?c] => destruct (num a b c) as [[? ?]|] end; cbn [dbind obind]; reflexivity)|]); try destruct E.
  1-3: destruct bp as [|d bp]; [reflexivity|]; destruct d as [[] [] [] [] [] [] [] []]; reflexivity.
  1-5: unfold by_name; destruct (find_name _ _ 0 bp) as [[? ?]|]; reflexivity.
  - change (lit "AM") with am in *. destruct (Z.ltb_spec 11 (tm_hour t)); destruct (strcaseeq ["A"%char; "M"%char] bp); try reflexivity;
    destruct (strcaseeq ["P"%char; "M"%char] bp); try reflexivity.
    rewrite in_int_op by (change INT_MAX with 2147483647; lia). reflexivity.
  - rewrite (Hy eq_refl). unfold by_num. rewrite num_val by lia. cbn [dlift dbind]. destruct (num 0 99 bp) as [[v rest]|]; cbn [dbind obind]; [|reflexivity].
    destruct (v <=? 68); reflexivity.
  - rewrite (Hy eq_refl). unfold by_num. rewrite num_val by lia. cbn [dlift dbind]. destruct (num 0 99 bp) as [[v rest]|]; cbn [dbind obind]; [|reflexivity].
    destruct (v <=? 68); reflexivity.
  - rewrite (Hy eq_refl). unfold by_num. rewrite num_val by lia. cbn [dlift dbind]. destruct (num 0 99 bp) as [[v rest]|]; cbn [dbind obind]; [|reflexivity].
    destruct (v <=? 68); reflexivity.
Qed.
Lemma step_none fuel bp fmt t sp m c : conversion m c = None -> In m [None; Some "E"%char; Some "O"%char] ->
  (m = None -> c <> "E"%char /\ c <> "O"%char) ->
  strptime (S fuel) bp ("%"%char :: alt_of m ++ c :: fmt) t sp = DRet None.
Proof.
  intros H Hm Hn. unfold conversion in H. destruct (lookup c conversions) as [[al qs]|] eqn:E.
  - destruct m as [m|]; [|discriminate]. destruct (existsb (aeqb m) al) eqn:Ha; [discriminate|]. apply lookup_in in E.
    repeat (destruct E as [E|E]; [injection E as <- <- <-;
      destruct Hm as [Hm|[Hm|[Hm|[]]]]; try discriminate Hm; injection Hm as <-; try discriminate Ha; reflexivity|]); destruct E.
  - assert (L := fun d => lookup_none c conversions d E). cbn [map fst In conversions] in L. clear E H.
    cbn [strptime]. change (isspace "%") with false. change (aeqb "%" "%") with true. cbn [negb]. cbv iota zeta.
    assert (X : match modifiers 0 (alt_of m ++ c :: fmt) with None => True | Some (_, c', _) => c' = c end).
    { destruct Hm as [<-|[<-|[<-|[]]]]; cbn [alt_of app modifiers].
      - destruct (Hn eq_refl) as [H1 H2]. rewrite (proj2 (aeqb_neq _ _) H1), (proj2 (aeqb_neq _ _) H2). reflexivity.
      - change (aeqb "E" "E") with true. change (legal_alt 0 0) with true. cbv iota. change (legal_alt (Z.lor 0 ALT_E) 0) with false. cbv iota. destruct (aeqb c "E"), (aeqb c "O"); auto.
      - change (aeqb "O" "E") with false. change (aeqb "O" "O") with true. change (legal_alt 0 0) with true. cbv iota. change (legal_alt (Z.lor 0 ALT_O) 0) with false. cbv iota. destruct (aeqb c "E"), (aeqb c "O"); auto. }
    destruct (modifiers 0 (alt_of m ++ c :: fmt)) as [[[alt c'] fmt']|]; [|reflexivity]. subst c'.
    repeat (match goal with |- context [aeqb c ?d] => rewrite (L d) by tauto end; cbn [orb andb]). reflexivity.
Qed.
