(** arg_strptime ends, whatever the format, and a bad format never reads. *)
From Coq Require Import ZArith NArith Bool List Ascii String Lia.
From Verif.Base Require Import CInt CStr CMem Tm.
From Verif.Model Require Import ArgInt ArgDate.
From Verif.Spec Require Import DateSpec.
From Verif.Proofs Require Import DateRead DateSteps DateMain.
Import ListNotations.
Open Scope list_scope.
Open Scope Z_scope.

Definition small (t : tm) : Prop := -20000 <= tm_year t <= 20099.
Lemma part_small p bp t bp' t' : read_part p bp t = Some (bp', t') -> small t -> small t'.
Proof.
  unfold small. intros E H. destruct p; cbn [read_part] in E;
    try (unfold by_num in E; match type of E with context [num ?a ?b ?c] => destruct (num a b c) as [[v r]|] eqn:N end; [|discriminate E]; injection E as <- <-;
         first [exact H|cbn; apply num_range in N; [|lia]; try (destruct (v <=? 68)); lia]);
    try (unfold by_name in E; destruct (find_name _ _ _ _) as [[? ?]|]; [|discriminate E]; injection E as <- <-; exact H).
  - injection E as <- <-. exact H.
  - destruct bp as [|d bp]; [discriminate E|]. destruct (aeqb c d); [|discriminate E]. injection E as <- <-. exact H.
  - discriminate E.
  - destruct (11 <? tm_hour t); [discriminate E|]. destruct (strcaseeq am bp); [injection E as <- <-; exact H|]. destruct (strcaseeq pm_ bp); [|discriminate E].
    injection E as <- <-. exact H.
Qed.
Lemma parts_small ps : forall bp t bp' t', read_parts ps bp t = Some (bp', t') -> small t -> small t'.
Proof.
  induction ps as [|p ps IH]; intros bp t bp' t' E H; cbn [read_parts] in E; [injection E as <- <-; exact H|].
  destruct (read_part p bp t) as [[b1 t1]|] eqn:E1; [|discriminate]. exact (IH _ _ _ _ E (part_small _ _ _ _ _ E1 H)).
Qed.
Lemma y_small m ps bp t bp' t' : conversion m "y"%char = Some ps -> read_parts ps bp t = Some (bp', t') -> small t'.
Proof.
  intros H E. assert (ps = [YearOf100]) as ->. { unfold conversion in H. cbn in H. destruct m as [m|]; [destruct (aeqb m "E" || _); [|discriminate]|]; injection H as <-; reflexivity. }
  cbn [read_parts read_part] in E. unfold by_num in E. destruct (num 0 99 bp) as [[v r]|] eqn:N; [|discriminate E]. cbn [obind] in E.
  apply num_range in N; [|lia]. injection E as <- <-. unfold small. cbn. destruct (v <=? 68); lia.
Qed.
(** One conversion, whatever stands before it. *)
Lemma step_any n m c fmt ps bp t sp : conversion m c = Some ps -> In m [None; Some "E"%char; Some "O"%char] -> (12 <= n)%nat ->
  hok t -> (sp = true -> small t) ->
  exists o sp', strptime (S n) bp ("%"%char :: alt_of m ++ c :: fmt) t sp = then_ (DRet o) (fun bp t => strptime n bp fmt t sp') /\
    forall bp' t', o = Some (bp', t') -> hok t' /\ (sp' = true -> small t').
Proof.
  intros H Hm Hn Ht Hs. destruct (aeqb c "C") eqn:C.
  { apply aeqb_eq in C as ->. assert (Ha : m = None \/ m = Some "E"%char).
    { destruct Hm as [<-|[<-|[<-|[]]]]; [auto|auto|discriminate H]. }
    assert (X : exists k, (forall v, 0 <= v <= 99 -> exists t1, k v = DRet t1 /\ hok t1 /\ small t1) /\
      strptime (S n) bp ("%"%char :: alt_of m ++ "C"%char :: fmt) t sp =
        match num 0 99 bp with None => DRet None | Some (v, bp') => dbind (k v) (fun t1 => strptime n bp' fmt t1 true) end).
    { exists (fun i => dlift (cbind (int_op (i * 100)) (fun h =>
                              if sp then cbind (int_op (Z.rem (tm_year t) 100 + h)) (fun y => Val (set_year y t))
                              else Val (set_year h t)))). split.
      - intros v Hv. rewrite in_int_op by (change INT_MIN with (-2147483648); change INT_MAX with 2147483647; lia). cbn [cbind]. destruct sp.
        + assert (Q := Hs eq_refl). unfold small in Q. assert (R : -100 < Z.rem (tm_year t) 100 < 100) by (assert (W := Z.rem_bound_abs (tm_year t) 100); lia).
          rewrite in_int_op by (change INT_MIN with (-2147483648); change INT_MAX with 2147483647; lia). cbn [cbind dlift].
          eexists. split; [reflexivity|]. split; [exact Ht|]. unfold small. cbn. lia.
        + eexists. split; [reflexivity|]. split; [exact Ht|]. unfold small. cbn. lia.
      - destruct Ha as [-> | ->]; cbn [strptime alt_of app]; cbn -[strptime conv_num int_op num Z.add Z.sub Z.mul Z.rem];
        rewrite num_val by lia; cbn [dlift dbind]; destruct (num 0 99 bp) as [[v r]|]; reflexivity. }
    destruct X as (k & K & ->). destruct (num 0 99 bp) as [[v r]|] eqn:N.
    - apply num_range in N; [|lia]. destruct (K v N) as (t1 & -> & H1 & H2). exists (Some (r, t1)), true. split; [reflexivity|].
      intros bp' t' E. injection E as <- <-. auto.
    - exists None, true. split; [reflexivity|]. discriminate. }
  assert (Nc : ~ In Century ps).
  { assert (D : c <> "C"%char) by (apply aeqb_neq; exact C). unfold conversion in H. destruct (lookup c conversions) as [[al qs]|] eqn:E; [|discriminate]. apply lookup_in in E.
    assert (qs = ps) as -> by (destruct m as [m|]; [destruct (existsb (aeqb m) al); [|discriminate]|]; injection H; auto).
    clear -E D. repeat (destruct E as [E|E]; [injection E as <- <- <-; first [contradiction|no_century]|]). destruct E. }
  destruct (aeqb c "y" && sp) eqn:Y.
  { apply andb_true_iff in Y as [Y ->]. apply aeqb_eq in Y as ->. specialize (Hs eq_refl). unfold small in Hs.
    assert (X : strptime (S n) bp ("%"%char :: alt_of m ++ "y"%char :: fmt) t true =
      match num 0 99 bp with None => DRet None | Some (v, bp') => dbind (dlift (cbind (int_op (Z.quot (tm_year t) 100 * 100 + v)) (fun y => Val (set_year y t)))) (fun t1 => strptime n bp' fmt t1 true) end).
    { destruct Hm as [<-|[<-|[<-|[]]]]; cbn [strptime alt_of app]; cbn -[strptime conv_num int_op num Z.add Z.sub Z.mul Z.quot];
      rewrite num_val by lia; cbn [dlift dbind]; destruct (num 0 99 bp) as [[v r]|]; reflexivity. }
    rewrite X. clear X. destruct (num 0 99 bp) as [[v r]|] eqn:N.
    - apply num_range in N; [|lia]. assert (R : -20000 <= Z.quot (tm_year t) 100 * 100 <= 20000).
      { assert (Q := Z.quot_rem' (tm_year t) 100). assert (W1 := Z.rem_bound_abs (tm_year t) 100). assert (W2 := Z.rem_bound_pos (tm_year t) 100).
        assert (-201 < Z.quot (tm_year t) 100 < 201) by lia. lia. }
      rewrite in_int_op by (change INT_MIN with (-2147483648); change INT_MAX with 2147483647; lia). cbn [cbind dlift dbind].
      exists (Some (r, set_year (Z.quot (tm_year t) 100 * 100 + v) t)), true. split; [reflexivity|]. intros bp' t' E. injection E as <- <-. split; [exact Ht|]. intros _. unfold small. cbn. lia.
    - exists None, true. split; [reflexivity|]. discriminate. }
  assert (Hy : c = "y"%char -> sp = false) by (intros ->; exact Y).
  exists (read_parts ps bp t), (splits c sp). split.
  - rewrite (step_conv _ _ _ _ _ _ _ _ H Hm Nc Hy Ht). unfold done. destruct (lookup c inner) as [f|] eqn:E; [|reflexivity].
    replace n with (12 + (n - 12))%nat at 1 by lia. rewrite (inner_good _ _ _ _ _ H E bp t Ht). reflexivity.
  - intros bp' t' E. split; [exact (parts_hok _ _ _ _ _ E Ht)|]. unfold splits. destruct (aeqb c "y") eqn:Y'.
    + apply aeqb_eq in Y' as ->. intros _. exact (y_small _ _ _ _ _ _ H E).
    + cbn [orb]. intros Q. exact (parts_small _ _ _ _ _ E (Hs Q)).
Qed.
Definition ends_well (fmt : str) (r : dres (option (str * tm))) : Prop :=
  exists o, r = DRet o /\ (parts_of fmt = None -> o = None).
Lemma then_well o k fmt fmt' : (parts_of fmt = None -> parts_of fmt' = None) -> (forall bp t, o = Some (bp, t) -> ends_well fmt' (k bp t)) -> ends_well fmt (then_ (DRet o) k).
Proof.
  intros P H. destruct o as [[bp t]|]; cbn [then_ dbind]; [|exists None; auto].
  destruct (H bp t eq_refl) as (o & E & Q). exists o. auto.
Qed.
Lemma strptime_ends : forall k fmt, (List.length fmt <= k)%nat -> no_nul fmt -> forall bp t sp n, hok t -> (sp = true -> small t) ->
  (List.length fmt + 13 <= n)%nat -> ends_well fmt (strptime n bp fmt t sp).
Proof.
  induction k as [|k IH]; intros fmt L Hn bp t sp n Ht Hs Ln.
  { destruct fmt; [|cbn in L; lia]. destruct n as [|n]; [cbn in Ln; lia|]. eexists. split; [reflexivity|]. discriminate. }
  destruct n as [|n]; [lia|]. destruct fmt as [|c fmt]; [eexists; split; [reflexivity|]; discriminate|]. cbn [List.length] in *.
  assert (Hn1 : no_nul fmt) by (intros I0; apply Hn; right; exact I0).
  assert (Hc1 : c <> NUL) by (intros ->; apply Hn; left; reflexivity).
  destruct (isspace c) eqn:Sp.
  { rewrite step_space by exact Sp. destruct (IH fmt ltac:(lia) Hn1 (skip_space bp) t sp n Ht Hs ltac:(lia)) as (o & E & Q). exists o. split; [exact E|].
    cbn [parts_of]. rewrite Sp. destruct (parts_of fmt); [discriminate|auto]. }
  destruct (aeqb c "%") eqn:P.
  2: { rewrite step_same; [|exact Sp|apply aeqb_neq; exact P|exact Hc1]. apply (then_well _ _ _ fmt).
    - cbn [parts_of]. rewrite Sp, P. destruct (parts_of fmt); [discriminate|auto].
    - intros bp' t' E. cbn [read_part] in E. destruct bp as [|d bp]; [discriminate|]. destruct (aeqb c d); [|discriminate]. injection E as <- <-. apply (IH fmt); auto; lia. }
  apply aeqb_eq in P as ->. destruct fmt as [|d fmt]; [exists None; split; [destruct n; [lia|]; reflexivity|auto]|]. cbn [List.length] in *.
  assert (Hn2 : no_nul fmt) by (intros I0; apply Hn1; right; exact I0).
  assert (G : forall m e fmt', In m [None; Some "E"%char; Some "O"%char] -> (m = None -> e <> "E"%char /\ e <> "O"%char) -> d :: fmt = alt_of m ++ e :: fmt' ->
    no_nul fmt' -> parts_of ("%"%char :: d :: fmt) = behind (conversion m e) (parts_of fmt') -> ends_well ("%"%char :: d :: fmt) (strptime (S n) bp ("%"%char :: d :: fmt) t sp)).
  { intros m e fmt' Hm Hme E Hn' PP. assert (Lf : (List.length fmt' <= List.length fmt)%nat). { apply (f_equal (@List.length ascii)) in E. rewrite app_length in E. cbn [List.length] in E. lia. }
    rewrite E at 2. destruct (conversion m e) as [ps|] eqn:C.
    - destruct (step_any n m e fmt' ps bp t sp C Hm ltac:(lia) Ht Hs) as (o & sp' & -> & Q). apply (then_well _ _ _ fmt').
      + rewrite PP. destruct (parts_of fmt'); [discriminate|auto].
      + intros bp' t' Eo. destruct (Q bp' t' Eo) as [Q1 Q2]. apply (IH fmt'); auto; lia.
    - rewrite step_none by assumption. exists None. auto. }
  destruct (aeqb d "E" || aeqb d "O") eqn:D.
  - destruct fmt as [|e fmt].
    + exists None. split; [|auto]. apply orb_true_iff in D as [D|D]; apply aeqb_eq in D as ->; reflexivity.
    + apply (G (Some d) e fmt); [apply orb_true_iff in D as [D|D]; apply aeqb_eq in D as ->; cbn; tauto|discriminate|reflexivity|intros I0; apply Hn2; right; exact I0|].
      cbn [parts_of]. rewrite D. reflexivity.
  - apply (G None d fmt); [left; reflexivity|intros _|reflexivity|exact Hn2|].
    + apply orb_false_iff in D as [D1 D2]. split; apply aeqb_neq; assumption.
    + cbn [parts_of]. rewrite D. reflexivity.
Qed.
