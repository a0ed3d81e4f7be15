(** parse_long_options and the specification of long options. *)
From Coq Require Import ZArith Bool List Ascii String Arith Lia.
From Verif.Base Require Import CInt CStr.
From Verif.Model Require Import Permute Getopt.
From Verif.Spec Require Import CmdLine.
Import ListNotations.
Open Scope list_scope.
Open Scope nat_scope.

Definition los_ok (los : list lopt) : Prop :=
  NoDup (map lo_name los) /\ NoDup (map lo_val los) /\
  forall o, In o los -> lo_has_arg o = 0 \/ lo_has_arg o = 1.

Definition options_of (los : list lopt) : options :=
  map (fun o => (lo_name o, lo_has_arg o =? 1)) los.

Lemma prefixb_iff p s : prefixb p s = true <-> prefix_of p s.
Proof.
  unfold prefix_of. revert s. induction p as [|c p IH]; intros s; cbn.
  - split; [intros _; exists s; reflexivity|reflexivity].
  - destruct s as [|x s].
    + split; [discriminate|]. intros (r & E). discriminate E.
    + rewrite andb_true_iff, aeqb_eq, IH. split.
      * intros [-> (r & ->)]. exists r. reflexivity.
      * intros (r & E). injection E as -> ->. split; [reflexivity|exists r; reflexivity].
Qed.

Lemma prefix_same_length p s : prefix_of p s -> List.length s = List.length p -> s = p.
Proof.
  intros (r & ->) H. rewrite app_length in H. destruct r; [apply app_nil_r|cbn in H; lia].
Qed.

(** ** The loop over the options *)
Definition cands (name : str) (los : list lopt) : list lopt := filter (fun o => prefixb name (lo_name o)) los.

Lemma find_long_exact name los : forall m second o,
  NoDup (map lo_name los) -> In o los -> lo_name o = name ->
  exists sec, find_long name false los m second = (Some o, true, sec).
Proof.
  induction los as [|x los IH]; intros m second o ND I E; [destruct I|].
  cbn [find_long andb]. cbn [map] in ND. apply NoDup_cons_iff in ND. destruct ND as [NI ND].
  destruct I as [->|I].
  - assert (prefixb name (lo_name o) = true) as -> by (apply prefixb_iff; exists []; rewrite app_nil_r; exact E).
    cbn [negb]. rewrite E, Nat.eqb_refl. exists second. reflexivity.
  - destruct (prefixb name (lo_name x)) eqn:P; cbn [negb]; [|apply IH; assumption].
    destruct (Nat.eqb_spec (List.length (lo_name x)) (List.length name)) as [L|L].
    + exfalso. apply prefixb_iff in P. apply prefix_same_length in P; [|exact L].
      apply NI. rewrite P, <- E. apply in_map. exact I.
    + destruct m; apply IH; assumption.
Qed.

Lemma find_long_partial name los : forall m second,
  NoDup (map lo_val (match m with Some o => o :: los | None => los end)) -> ~ In name (map lo_name los) ->
  find_long name false los m second =
  (match m with Some o => Some o | None => hd_error (cands name los) end, false,
   second || match m with
             | Some _ => match cands name los with [] => false | _ => true end
             | None => match cands name los with [] | [_] => false | _ => true end
             end).
Proof.
  induction los as [|x los IH]; intros m second ND NI; cbn [find_long cands filter].
  - destruct m; cbn; rewrite orb_false_r; reflexivity.
  - cbn [map In] in NI. cbn [andb].
    destruct (prefixb name (lo_name x)) eqn:P; cbn [negb].
    2:{ rewrite IH; [reflexivity| |tauto]. destruct m as [o|]; cbn [map] in *.
        - inversion ND as [|? ? H1 H2]; subst. inversion H2; subst. constructor; [cbn in H1; tauto|assumption].
        - inversion ND; assumption. }
    destruct (Nat.eqb_spec (List.length (lo_name x)) (List.length name)) as [L|L].
    { exfalso. apply prefixb_iff in P. apply prefix_same_length in P; [|exact L]. tauto. }
    fold (cands name los). destruct m as [o|]; cbn [map] in ND.
    + inversion ND as [|? ? H1 H2]; subst.
      assert (negb (lo_val x =? lo_val o) = true) as ->.
      { apply negb_true_iff, Nat.eqb_neq. intros E. apply H1. left. exact E. }
      rewrite IH; [rewrite !orb_true_r; reflexivity| |tauto].
      inversion H2; subst. cbn [map]. constructor; [cbn in H1; tauto|assumption].
    + rewrite IH; [|exact ND|tauto]. cbn [hd_error]. destruct (cands name los); reflexivity.
Qed.

(** Which option a text stands for, computed. *)
Inductive lookup_result : Type := Found (o : lopt) | Several | None_.

Definition lookup (los : list lopt) (name : str) : lookup_result :=
  let '(m, exact, second) := find_long name false los None false in
  if negb exact && second then Several else match m with Some o => Found o | None => None_ end.

Lemma lookup_found los name o : los_ok los ->
  lookup los name = Found o <-> In o los /\ stands_for (options_of los) name (lo_name o).
Proof.
  intros (ND & NV & _).
  assert (names (options_of los) = map lo_name los) as En.
  { unfold names, options_of. rewrite map_map. reflexivity. }
  unfold stands_for. rewrite En. unfold lookup.
  destruct (in_dec (list_eq_dec ascii_dec) name (map lo_name los)) as [I|NI].
  - apply in_map_iff in I. destruct I as (o' & E & I).
    destruct (find_long_exact name los None false o' ND I E) as (sec & ->). cbn [negb andb].
    split.
    + intros H. injection H as <-. split; [exact I|]. split; [apply in_map; exact I|]. left. symmetry. exact E.
    + intros (Io & In_ & [H|(H & _)]).
      * f_equal. rewrite <- E in H. clear - ND I Io H.
        induction los as [|x los IH]; [destruct I|]. cbn [map] in ND. inversion ND as [|? ? N1 N2]; subst.
        destruct I as [->|I], Io as [->|Io]; auto.
        -- exfalso. apply N1. rewrite H. apply in_map. exact Io.
        -- exfalso. apply N1. rewrite <- H. apply in_map. exact I.
      * exfalso. apply H. rewrite <- E. apply in_map. exact I.
  - rewrite find_long_partial by assumption. cbn [negb andb orb].
    assert (forall x, In x (cands name los) <-> In x los /\ prefix_of name (lo_name x)) as Ic.
    { intros x. unfold cands. rewrite filter_In, prefixb_iff. tauto. }
    destruct (cands name los) as [|x [|y l]] eqn:C; cbn [hd_error].
    + split; [discriminate|]. intros (Io & _ & [->|(_ & P & _)]).
      * exfalso. apply NI. apply in_map. exact Io.
      * assert (In o []) as X by (apply Ic; auto). destruct X.
    + split.
      * intros H. injection H as ->. assert (In o los /\ prefix_of name (lo_name o)) as (Io & P) by (apply Ic; left; reflexivity).
        split; [exact Io|]. split; [apply in_map; exact Io|]. right. split; [exact NI|]. split; [exact P|].
        intros n' In' P'. apply in_map_iff in In'. destruct In' as (o' & <- & Io').
        assert (In o' [o]) as X by (apply Ic; auto). destruct X as [->|[]]. reflexivity.
      * intros (Io & _ & [->|(_ & P & _)]); [exfalso; apply NI; apply in_map; exact Io|].
        assert (In o [x]) as X by (apply Ic; auto). destruct X as [->|[]]. reflexivity.
    + split; [discriminate|]. intros (Io & _ & [->|(_ & P & U)]); [exfalso; apply NI; apply in_map; exact Io|].
      exfalso.
      assert (lo_name x = lo_name o) as Ex.
      { apply U; [apply in_map; apply (Ic x); left; reflexivity|apply (Ic x); left; reflexivity]. }
      assert (lo_name y = lo_name o) as Ey.
      { apply U; [apply in_map; apply (Ic y); right; left; reflexivity|apply (Ic y); right; left; reflexivity]. }
      assert (NoDup (map lo_name (cands name los))) as NC.
      { clear - ND. induction los as [|z los IH]; [constructor|]. cbn [map] in ND. inversion ND; subst.
        cbn. destruct (prefixb name (lo_name z)); [|auto]. cbn [map]. constructor; [|auto].
        intros H. apply H1. apply in_map_iff in H. destruct H as (w & <- & W).
        apply filter_In in W. apply in_map. tauto. }
      rewrite C in NC. cbn [map] in NC. inversion NC as [|? ? N1 N2]; subst. apply N1. left. congruence.
Qed.

Lemma lookup_none los name : los_ok los ->
  (forall o, lookup los name <> Found o) -> forall n, ~ stands_for (options_of los) name n.
Proof.
  intros OK H n S. pose proof S as (I & _). unfold names, options_of in I. rewrite map_map in I.
  apply in_map_iff in I. destruct I as (o & E & I). cbn in E. subst n.
  apply (H o). apply lookup_found; auto.
Qed.

Lemma stands_unique los name n n' : los_ok los ->
  stands_for (options_of los) name n -> stands_for (options_of los) name n' -> n = n'.
Proof.
  intros _ (I & [->|(N & P & U)]) (I' & [E|(N' & P' & U')]).
  - exact E.
  - contradiction.
  - subst. contradiction.
  - apply U'; assumption.
Qed.

(** ** name=value *)
Lemma split_equal_splits s : splits s (fst (split_equal s)) (snd (split_equal s)).
Proof.
  unfold splits, no_char. induction s as [|c s [IH1 IH2]]; cbn.
  - split; [intros []|reflexivity].
  - destruct (aeqb c "="%char) eqn:E.
    + apply aeqb_eq in E. subst. cbn. split; [intros []|reflexivity].
    + apply aeqb_neq in E. destruct (split_equal s) as [a b]. cbn in *. split.
      * intros [->|I]; tauto.
      * f_equal. exact IH2.
Qed.

Lemma splits_unique s a v : splits s a v -> split_equal s = (a, v).
Proof.
  unfold splits, no_char. intros [N ->].
  assert (forall t, (exists w, t = match v with Some v => lit "=" ++ v | None => [] end /\ w = t) ->
          split_equal (a ++ t) = (a, v)) as H; [|apply H; eauto].
  intros t (_ & Et & _). induction a as [|c a IH]; cbn [app split_equal].
  - subst t. destruct v; reflexivity.
  - destruct (aeqb c "="%char) eqn:E.
    + apply aeqb_eq in E. subst. exfalso. apply N. left. reflexivity.
    + rewrite IH; [reflexivity|]. intros I. apply N. right. exact I.
Qed.

(** ** parse_long_options *)
(** What the call returns for an event, with the words it used up. *)
Definition long_return (los : list lopt) (e : event) (r : gret) : Prop :=
  match e with
  | Given n v _ => exists o, In o los /\ lo_name o = n /\ r = mkRet 0 v 0 (lo_val o) /\
                    (v = None <-> lo_has_arg o = 0)
  | Unknown _ => r = mkRet BADCH None 0 0
  | NoValue _ => r = mkRet BADARG None 0 0
  | Letter _ => False
  end.

Definition event_last (e : event) (w : str) : Prop :=
  match e with Given _ _ l => l = w | Unknown x => x = w | NoValue x => x = w | Letter _ => False end.

Lemma nth_error_mid {A} (a : list A) x b : nth_error (a ++ x :: b) (List.length a) = Some x.
Proof. rewrite nth_error_app2 by lia. rewrite Nat.sub_diag. reflexivity. Qed.

Lemma parse_long los pre w s ws : los_ok los ->
  exists e ws' r k,
    parse_long_options los (pre ++ w :: ws) (List.length pre) s false = Val (r, List.length pre + k) /\
    long_option (options_of los) w s ws e ws' /\ long_return los e r /\
    ((k = 1 /\ ws' = ws /\ event_last e w) \/
     (k = 2 /\ exists v, ws = v :: ws' /\ event_last e v)).
Proof.
  intros OK. unfold parse_long_options.
  pose proof (split_equal_splits s) as Sp. destruct (split_equal s) as [a v] eqn:Es. cbn [fst snd] in Sp.
  pose proof (lookup_found los a) as LF. pose proof (lookup_none los a OK) as LN.
  unfold lookup in LF, LN. destruct (find_long a false los None false) as [[m exact] second].
  destruct (negb exact && second) eqn:Amb.
  { exists (Unknown w), ws, (mkRet BADCH None 0 0), 1.
    split; [f_equal; f_equal; lia|]. split; [apply (long_unknown _ _ _ _ a v Sp); apply LN; discriminate|].
    split; [reflexivity|]. left. cbn. auto. }
  destruct m as [o|].
  2:{ exists (Unknown w), ws, (mkRet BADCH None 0 0), 1.
      split; [f_equal; f_equal; lia|]. split; [apply (long_unknown _ _ _ _ a v Sp); apply LN; discriminate|].
      split; [reflexivity|]. left. cbn. auto. }
  destruct (proj1 (LF o OK) eq_refl) as (Io & St).
  assert (forall b, (lo_has_arg o =? 1) = b -> In (lo_name o, b) (options_of los)) as Ib.
  { intros b <-. unfold options_of. apply (in_map (fun o => (lo_name o, lo_has_arg o =? 1)) los o Io). }
  destruct (proj2 (proj2 OK) o Io) as [H|H]; rewrite H; cbn [Nat.eqb andb orb].
  - assert (is_flag (options_of los) (lo_name o)) as Fl by (apply Ib; rewrite H; reflexivity).
    destruct v as [v|].
    + exists (Unknown w), ws, (mkRet BADCH None 0 0), 1. split; [f_equal; f_equal; lia|].
      split; [exact (long_flag_value _ _ _ _ a v _ Sp St Fl)|]. split; [reflexivity|]. left. cbn. auto.
    + assert (a = s) as -> by (destruct Sp as [_ E]; rewrite app_nil_r in E; auto).
      exists (Given (lo_name o) None w), ws, (mkRet 0 None 0 (lo_val o)), 1.
      cbn [cbind]. split; [f_equal; f_equal; lia|].
      split; [exact (long_flag _ _ _ _ _ Sp St Fl)|]. split; [|left; cbn; auto].
      exists o. cbn. intuition.
  - assert (is_valued (options_of los) (lo_name o)) as Va by (apply Ib; rewrite H; reflexivity).
    destruct v as [v|].
    + exists (Given (lo_name o) (Some v) w), ws, (mkRet 0 (Some v) 0 (lo_val o)), 1.
      cbn [cbind]. split; [f_equal; f_equal; lia|].
      split; [exact (long_value_here _ _ _ _ a v _ Sp St Va)|]. split; [|left; cbn; auto].
      exists o. cbn. intuition; congruence.
    + assert (a = s) as -> by (destruct Sp as [_ E]; rewrite app_nil_r in E; auto).
      unfold argv_at. destruct ws as [|v ws].
      * assert (nth_error (pre ++ [w]) (S (List.length pre)) = None) as ->.
        { apply nth_error_None. rewrite app_length. cbn. lia. }
        rewrite app_length. cbn [List.length]. replace (S (List.length pre) =? List.length pre + 1) with true by (symmetry; apply Nat.eqb_eq; lia).
        cbn [cbind].
        exists (NoValue w), [], (mkRet BADARG None 0 0), 1. split; [f_equal; f_equal; lia|].
        split; [exact (long_value_missing _ _ _ _ Sp St Va)|]. split; [reflexivity|]. left. cbn. auto.
      * assert (nth_error (pre ++ w :: v :: ws) (S (List.length pre)) = Some v) as ->.
        { replace (pre ++ w :: v :: ws) with ((pre ++ [w]) ++ v :: ws) by (rewrite <- app_assoc; reflexivity).
          replace (S (List.length pre)) with (List.length (pre ++ [w])) by (rewrite app_length; cbn; lia).
          apply nth_error_mid. }
        cbn [cbind].
        exists (Given (lo_name o) (Some v) v), ws, (mkRet 0 (Some v) 0 (lo_val o)), 2.
        split; [f_equal; f_equal; lia|].
        split; [exact (long_value_next _ _ _ _ _ _ Sp St Va)|]. split.
        -- exists o. cbn. intuition; congruence.
        -- right. split; [reflexivity|]. exists v. cbn. auto.
Qed.

(** A long option is one event. *)
Lemma long_option_unique los w s ws e ws' e2 ws2 : los_ok los ->
  long_option (options_of los) w s ws e ws' -> long_option (options_of los) w s ws e2 ws2 -> e = e2 /\ ws' = ws2.
Proof.
  intros OK H H2.
  assert (forall n, is_flag (options_of los) n -> is_valued (options_of los) n -> False) as FV.
  { intros n F V. unfold is_flag, is_valued, options_of in *. apply in_map_iff in F, V.
    destruct F as (o & E & I), V as (o' & E' & I'). injection E as En Eb. injection E' as En' Eb'.
    assert (o = o') as <-; [|congruence].
    destruct OK as (ND & _). rewrite <- En in En'. clear - ND I I' En'.
    induction los as [|x los IH]; [destruct I|]. cbn [map] in ND. inversion ND as [|? ? N1 N2]; subst.
    destruct I as [->|I], I' as [->|I']; auto.
    - exfalso. apply N1. rewrite <- En'. apply in_map. exact I'.
    - exfalso. apply N1. rewrite En'. apply in_map. exact I. }
  inversion H; subst; inversion H2; subst; clear H H2;
    repeat match goal with
    | H : splits _ _ _ |- _ => apply splits_unique in H
    end;
    repeat match goal with
    | H : split_equal ?s = _, H' : split_equal ?s = _ |- _ => rewrite H in H'; injection H' as; subst
    end; try discriminate; auto;
    repeat match goal with
    | A : stands_for _ ?x ?n, B : stands_for _ ?x ?n' |- _ =>
        pose proof (stands_unique los x n n' OK A B); subst; clear B
    end; try (split; reflexivity);
    try (exfalso; eapply FV; eassumption);
    try (exfalso; match goal with H : forall n, ~ _ |- _ => eapply H; eassumption end).
Qed.
