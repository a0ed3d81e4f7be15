(** parse_long_options for options with several names and optional values. *)
From Coq Require Import ZArith Bool List Ascii String Arith Lia Sorted.
From Verif.Base Require Import CInt CStr.
From Verif.Model Require Import Permute Getopt.
From Verif.Spec Require Import CmdLine AnyLine AnySpec.
From Verif.Proofs Require Import GetoptLong ParseSim.
Import ListNotations.
Open Scope list_scope.
Open Scope nat_scope.

Definition has_arg_of (t : takes) : nat := match t with Nothing => 0 | Value => 1 | MaybeValue => 2 end.

(** The options as getopt gets them. *)
Fixpoint los_of (i : nat) (os : list opt) : list lopt :=
  match os with
  | [] => []
  | o :: os => map (fun n => mkLopt n (has_arg_of (o_takes o)) i) (o_names o) ++ los_of (S i) os
  end.

Lemma in_los_of os : forall i o, In o (los_of i os) <->
  exists k p, nth_error os k = Some p /\ In (lo_name o) (o_names p) /\ lo_has_arg o = has_arg_of (o_takes p) /\ lo_val o = i + k.
Proof.
  induction os as [|q os IH]; intros i o; cbn [los_of].
  - split; [intros []|]. intros (k & p & E & _). destruct k; discriminate.
  - rewrite in_app_iff, in_map_iff, IH. split.
    + intros [(n & <- & I)|(k & p & E & I & H & V)].
      * exists 0, q. cbn. repeat split; auto.
      * exists (S k), p. cbn [nth_error]. repeat split; auto. lia.
    + intros (k & p & E & I & H & V). destruct k as [|k]; cbn [nth_error] in E.
      * injection E as ->. left. exists (lo_name o). split; [|exact I]. destruct o; cbn in *. subst. f_equal. lia.
      * right. exists k, p. repeat split; auto. lia.
Qed.

Definition vle (a b : lopt) : Prop := lo_val a <= lo_val b.
Lemma los_sorted os : forall i, StronglySorted vle (los_of i os).
Proof.
  induction os as [|q os IH]; intros i; cbn [los_of]; [constructor|].
  assert (forall x, In x (los_of (S i) os) -> i <= lo_val x) as Hx.
  { intros x I. apply in_los_of in I. destruct I as (k & p & _ & _ & _ & ->). lia. }
  induction (o_names q) as [|n ns IHn]; cbn [map app]; [apply IH|].
  constructor; [exact IHn|]. apply Forall_forall. intros x I. apply in_app_iff in I. unfold vle. cbn.
  destruct I as [I|I]; [apply in_map_iff in I; destruct I as (m & <- & _); cbn; lia|auto].
Qed.

Lemma find_min (p : lopt -> bool) l o : StronglySorted vle l -> find p l = Some o ->
  forall o', In o' l -> p o' = true -> lo_val o <= lo_val o'.
Proof.
  intros H. induction H as [|x l H IH F]; intros E o' I P; [destruct I|]. cbn [find] in E.
  destruct (p x) eqn:Px.
  - injection E as <-. destruct I as [->|I]; [lia|]. rewrite Forall_forall in F. apply (F o' I).
  - destruct I as [->|I]; [congruence|]. auto.
Qed.

Lemma find_long_first name los : forall m second o,
  find (fun x => str_eqb (lo_name x) name) los = Some o ->
  exists sec, find_long name false los m second = (Some o, true, sec).
Proof.
  induction los as [|x los IH]; intros m second o E; [discriminate|]. cbn [find] in E. cbn [find_long andb].
  destruct (str_eqb (lo_name x) name) eqn:Ex.
  - injection E as ->. apply str_eqb_eq in Ex.
    assert (prefixb name (lo_name o) = true) as -> by (apply prefixb_iff; exists []; rewrite app_nil_r; exact Ex).
    cbn [negb]. rewrite Ex, Nat.eqb_refl. exists second. reflexivity.
  - destruct (prefixb name (lo_name x)) eqn:P; cbn [negb]; [|apply IH; exact E].
    destruct (Nat.eqb_spec (List.length (lo_name x)) (List.length name)) as [L|L].
    + exfalso. apply prefixb_iff in P. apply prefix_same_length in P; [|exact L].
      rewrite P, str_eqb_refl in Ex. discriminate.
    + destruct m; apply IH; exact E.
Qed.

Definition differs (o x : lopt) : bool :=
  negb (lo_has_arg x =? lo_has_arg o) || negb (lo_val x =? lo_val o).

Lemma find_long_part name los : forall m second,
  find (fun x => str_eqb (lo_name x) name) los = None ->
  find_long name false los m second =
  match (match m with Some o => Some o | None => hd_error (cands name los) end) with
  | Some o => (Some o, false, second || existsb (differs o) (match m with Some _ => cands name los | None => tl (cands name los) end))
  | None => (None, false, second)
  end.
Proof.
  induction los as [|x los IH]; intros m second E; cbn [find_long].
  - destruct m; cbn; rewrite ?orb_false_r; reflexivity.
  - cbn [find] in E. destruct (str_eqb (lo_name x) name) eqn:Ex; [discriminate|]. cbn [cands filter andb].
    destruct (prefixb name (lo_name x)) eqn:P; cbn [negb].
    2:{ apply IH. exact E. }
    destruct (Nat.eqb_spec (List.length (lo_name x)) (List.length name)) as [L|L].
    { exfalso. apply prefixb_iff in P. apply prefix_same_length in P; [|exact L].
      rewrite P, str_eqb_refl in Ex. discriminate. }
    fold (cands name los). destruct m as [o|].
    + rewrite IH by exact E. cbn [existsb]. unfold differs. rewrite !orb_assoc. reflexivity.
    + rewrite IH by exact E. cbn [hd_error tl]. reflexivity.
Qed.

Section One.
Variable os : list opt.
Let los := los_of 0 os.

Lemma has_name_los k n : has_name os k n <-> exists o, In o los /\ lo_name o = n /\ lo_val o = k.
Proof.
  unfold has_name, los. split.
  - intros (p & E & I). exists (mkLopt n (has_arg_of (o_takes p)) k). split; [|auto].
    apply in_los_of. exists k, p. cbn. auto.
  - intros (o & I & <- & <-). apply in_los_of in I. destruct I as (k & p & E & I & _ & V). cbn in V. subst k. eauto.
Qed.

Lemma same_option x y : In x los -> In y los -> lo_val x = lo_val y -> lo_has_arg x = lo_has_arg y.
Proof.
  unfold los. intros I J E. apply in_los_of in I, J.
  destruct I as (k & p & E1 & _ & -> & V1), J as (k2 & p2 & E2 & _ & -> & V2).
  assert (k = k2) as <- by lia. congruence.
Qed.

Lemma lookup_means name o : lookup los name = Found o -> In o los /\ name_means os name (lo_val o).
Proof.
  unfold lookup. destruct (find (fun x => str_eqb (lo_name x) name) los) as [x|] eqn:Ef.
  - destruct (find_long_first name los None false x Ef) as (sec & ->). cbn [negb andb]. intros H. injection H as <-.
    pose proof (find_some _ _ Ef) as (I & En). apply str_eqb_eq in En. split; [exact I|]. left. split.
    + apply has_name_los. eauto.
    + intros j Hj. apply has_name_los in Hj. destruct Hj as (o' & I' & E' & <-).
      apply (find_min _ los x (los_sorted os 0) Ef o' I'). apply str_eqb_eq. exact E'.
  - rewrite (find_long_part name los None false Ef).
    destruct (cands name los) as [|x l] eqn:C; cbn [hd_error tl]; [discriminate|]. cbn [negb andb orb].
    destruct (existsb (differs x) l) eqn:D; [discriminate|]. intros H. injection H as <-.
    assert (forall y, In y (x :: l) <-> In y los /\ prefix_of name (lo_name y)) as Ic.
    { intros y. rewrite <- C. unfold cands. rewrite filter_In, prefixb_iff. tauto. }
    destruct (proj1 (Ic x) (or_introl eq_refl)) as [Ix Px]. split; [exact Ix|]. right. split; [|split].
    + intros j Hj. apply has_name_los in Hj. destruct Hj as (o' & I' & E' & _).
      pose proof (find_none _ _ Ef o' I') as N. cbn in N. rewrite E', str_eqb_refl in N. discriminate.
    + exists (lo_name x). split; [apply has_name_los; eauto|exact Px].
    + intros j n Hj Pn. apply has_name_los in Hj. destruct Hj as (o' & I' & <- & <-).
      destruct (proj2 (Ic o') (conj I' Pn)) as [->|Il]; [reflexivity|].
      assert (differs x o' = false) as Dx.
      { destruct (differs x o') eqn:Dd; [|reflexivity]. rewrite <- D. symmetry. apply existsb_exists. eauto. }
      unfold differs in Dx. apply orb_false_iff in Dx. destruct Dx as [_ Dx].
      apply negb_false_iff, Nat.eqb_eq in Dx. exact Dx.
Qed.

Lemma lookup_nothing name : (forall o, lookup los name <> Found o) -> forall k, ~ name_means os name k.
Proof.
  unfold lookup. intros H k M. destruct (find (fun x => str_eqb (lo_name x) name) los) as [x|] eqn:Ef.
  - destruct (find_long_first name los None false x Ef) as (sec & E). rewrite E in H. cbn in H. apply (H x eq_refl).
  - rewrite (find_long_part name los None false Ef) in H.
    assert (forall j, ~ has_name os j name) as Nn.
    { intros j Hj. apply has_name_los in Hj. destruct Hj as (o' & I' & E' & _).
      pose proof (find_none _ _ Ef o' I') as N. cbn in N. rewrite E', str_eqb_refl in N. discriminate. }
    destruct M as [(Hk & _)|(_ & (n & Hk & Pn) & U)]; [exact (Nn k Hk)|].
    assert (forall y, In y (cands name los) <-> In y los /\ prefix_of name (lo_name y)) as Ic.
    { intros y. unfold cands. rewrite filter_In, prefixb_iff. tauto. }
    apply has_name_los in Hk. destruct Hk as (o & I & <- & <-).
    destruct (cands name los) as [|x l] eqn:C; cbn [hd_error tl] in H.
    + destruct (proj2 (Ic o) (conj I Pn)).
    + cbn [negb andb orb] in H. destruct (existsb (differs x) l) eqn:D; [|exact (H x eq_refl)].
      apply existsb_exists in D. destruct D as (y & Iy & D).
      destruct (proj1 (Ic x) (or_introl eq_refl)) as [Ix Px], (proj1 (Ic y) (or_intror Iy)) as [Iy' Py].
      assert (lo_val x = lo_val o) as E1 by (apply (U _ (lo_name x)); [apply has_name_los; eauto|exact Px]).
      assert (lo_val y = lo_val o) as E2 by (apply (U _ (lo_name y)); [apply has_name_los; eauto|exact Py]).
      unfold differs in D. rewrite (same_option y x Iy' Ix) in D by congruence.
      rewrite E1, E2, !Nat.eqb_refl in D. discriminate.
Qed.

Lemma means_unique s k j : name_means os s k -> name_means os s j -> k = j.
Proof.
  intros [(H1 & M1)|(N1 & (n & H1 & P1) & U1)] [(H2 & M2)|(N2 & (n2 & H2 & P2) & U2)].
  - specialize (M1 _ H2). specialize (M2 _ H1). lia.
  - destruct (N2 _ H1).
  - destruct (N1 _ H2).
  - apply (U2 k n); assumption.
Qed.
Lemma letter_unique c k j : letter_means os c k -> letter_means os c j -> k = j.
Proof. intros (H1 & M1) (H2 & M2). specialize (M1 _ H2). specialize (M2 _ H1). lia. Qed.
Lemma takes_unique k t u : option_takes os k t -> option_takes os k u -> t = u.
Proof. intros (o & E & <-) (o2 & E2 & <-). congruence. Qed.

(** What the call returns for an event. *)
Definition any_return (e : event) (r : gret) : Prop :=
  match e with
  | Long k v _ => r = mkRet 0 v 0 k
  | Unknown _ => r = mkRet BADCH None 0 0
  | NoValue _ => r = mkRet BADARG None 0 0
  | _ => False
  end.
Definition any_last (e : event) (w : str) : Prop :=
  match e with Long _ _ l => l = w | Unknown x => x = w | NoValue x => x = w | _ => False end.

Lemma any_parse_long pre w s ws :
  exists e ws' r k,
    parse_long_options los (pre ++ w :: ws) (List.length pre) s false = Val (r, List.length pre + k) /\
    long_option os w s ws e ws' /\ any_return e r /\
    ((k = 1 /\ ws' = ws /\ any_last e w) \/
     (k = 2 /\ exists v, ws = v :: ws' /\ any_last e v)).
Proof.
  unfold parse_long_options.
  pose proof (split_equal_splits s) as Sp. destruct (split_equal s) as [a v] eqn:Es. cbn [fst snd] in Sp.
  pose proof (lookup_means a) as LF. pose proof (lookup_nothing a) as LN.
  unfold lookup in LF, LN. destruct (find_long a false los None false) as [[m exact] second].
  destruct (negb exact && second) eqn:Amb.
  { exists (Unknown w), ws, (mkRet BADCH None 0 0), 1.
    split; [f_equal; f_equal; lia|]. split; [apply (long_unknown _ _ _ _ a v Sp); apply LN; discriminate|].
    split; [reflexivity|]. left. cbn. auto. }
  destruct m as [o|].
  2:{ exists (Unknown w), ws, (mkRet BADCH None 0 0), 1.
      split; [f_equal; f_equal; lia|]. split; [apply (long_unknown _ _ _ _ a v Sp); apply LN; discriminate|].
      split; [reflexivity|]. left. cbn. auto. }
  destruct (LF o eq_refl) as (Io & St).
  assert (exists t, option_takes os (lo_val o) t /\ lo_has_arg o = has_arg_of t) as (t & Ht & Ha).
  { unfold los in Io. apply in_los_of in Io. destruct Io as (k & p & E & _ & Eh & V). cbn in V. subst k.
    exists (o_takes p). split; [exists p; auto|exact Eh]. }
  rewrite Ha. assert (v = None -> a = s) as As.
  { intros ->. destruct Sp as [_ E]. rewrite app_nil_r in E. auto. }
  destruct v as [v|].
  - destruct t; cbn [has_arg_of Nat.eqb andb orb cbind].
    + exists (Unknown w), ws, (mkRet BADCH None 0 0), 1. split; [f_equal; f_equal; lia|].
      split; [exact (long_refused _ _ _ _ a v _ Sp St Ht)|]. split; [reflexivity|]. left. cbn. auto.
    + exists (Long (lo_val o) (Some v) w), ws, (mkRet 0 (Some v) 0 (lo_val o)), 1. split; [f_equal; f_equal; lia|].
      split; [apply (long_here _ _ _ _ a v _ _ Sp St Ht); discriminate|]. split; [reflexivity|]. left. cbn. auto.
    + exists (Long (lo_val o) (Some v) w), ws, (mkRet 0 (Some v) 0 (lo_val o)), 1. split; [f_equal; f_equal; lia|].
      split; [apply (long_here _ _ _ _ a v _ _ Sp St Ht); discriminate|]. split; [reflexivity|]. left. cbn. auto.
  - rewrite (As eq_refl) in *.
    destruct t; cbn [has_arg_of Nat.eqb andb orb cbind].
    + exists (Long (lo_val o) None w), ws, (mkRet 0 None 0 (lo_val o)), 1. split; [f_equal; f_equal; lia|].
      split; [apply (long_alone _ _ _ _ _ _ Sp St Ht); discriminate|]. split; [reflexivity|]. left. cbn. auto.
    + unfold argv_at. destruct ws as [|v ws].
      * assert (nth_error (pre ++ [w]) (S (List.length pre)) = None) as ->.
        { apply nth_error_None. rewrite app_length. cbn. lia. }
        rewrite app_length. cbn [List.length]. replace (S (List.length pre) =? List.length pre + 1) with true by (symmetry; apply Nat.eqb_eq; lia).
        cbn [cbind].
        exists (NoValue w), [], (mkRet BADARG None 0 0), 1. split; [f_equal; f_equal; lia|].
        split; [exact (long_missing _ _ _ _ Sp St Ht)|]. split; [reflexivity|]. left. cbn. auto.
      * assert (nth_error (pre ++ w :: v :: ws) (S (List.length pre)) = Some v) as ->.
        { replace (pre ++ w :: v :: ws) with ((pre ++ [w]) ++ v :: ws) by (rewrite <- app_assoc; reflexivity).
          replace (S (List.length pre)) with (List.length (pre ++ [w])) by (rewrite app_length; cbn; lia).
          apply nth_error_mid. }
        cbn [cbind].
        exists (Long (lo_val o) (Some v) v), ws, (mkRet 0 (Some v) 0 (lo_val o)), 2.
        split; [f_equal; f_equal; lia|].
        split; [exact (long_next _ _ _ _ _ _ Sp St Ht)|]. split; [reflexivity|].
        right. split; [reflexivity|]. exists v. cbn. auto.
    + exists (Long (lo_val o) None w), ws, (mkRet 0 None 0 (lo_val o)), 1. split; [f_equal; f_equal; lia|].
      split; [apply (long_alone _ _ _ _ _ _ Sp St Ht); discriminate|]. split; [reflexivity|]. left. cbn. auto.
Qed.

Lemma any_long_unique w s ws e ws' e2 ws2 :
  long_option os w s ws e ws' -> long_option os w s ws e2 ws2 -> e = e2 /\ ws' = ws2.
Proof.
  intros H H2.
  inversion H; subst; inversion H2; subst; clear H H2;
    repeat match goal with
    | H : splits _ _ _ |- _ => apply splits_unique in H
    end;
    repeat match goal with
    | H : split_equal ?s = _, H' : split_equal ?s = _ |- _ => rewrite H in H'; injection H' as; subst
    end; try discriminate; auto;
    repeat match goal with
    | A : name_means _ ?x ?n, B : name_means _ ?x ?n' |- _ =>
        pose proof (means_unique x n n' A B); subst; clear B
    end; try (split; reflexivity);
    repeat match goal with
    | A : option_takes _ ?k ?t, B : option_takes _ ?k ?u |- _ =>
        pose proof (takes_unique k t u A B); subst; clear B
    end; try congruence;
    try (exfalso; match goal with H : forall n, ~ _ |- _ => eapply H; eassumption end).
Qed.
End One.
