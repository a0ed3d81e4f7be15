(** arg_strptime reads what its format says. *)
From Coq Require Import ZArith NArith Bool List Ascii String Lia.
From Verif.Base Require Import CInt CStr CMem Tm.
From Verif.Model Require Import ArgInt ArgDate.
From Verif.Spec Require Import DateSpec.
From Verif.Proofs Require Import DateRead DateSteps.
Import ListNotations.
Open Scope list_scope.
Open Scope Z_scope.

Definition hok (t : tm) : Prop := INT_MIN <= tm_hour t.
Lemma num_range lo hi bp v rest : 0 < hi <= 9999 -> num lo hi bp = Some (v, rest) -> lo <= v <= hi.
Proof. intros H E. apply num_spec in E; [|exact H]. destruct E as (ds & _ & _ & _ & _ & R & _). exact R. Qed.
Lemma part_hok p bp t bp' t' : read_part p bp t = Some (bp', t') -> hok t -> hok t'.
Proof.
  unfold hok. change INT_MIN with (-2147483648). intros E H. destruct p; cbn [read_part] in E;
    try (unfold by_num in E; match type of E with context [num ?a ?b ?c] => destruct (num a b c) as [[v r]|] eqn:N end; [|discriminate E]; injection E as <- <-;
         first [exact H|cbn; apply num_range in N; [|lia]; try (destruct (v =? 12)); lia]);
    try (unfold by_name in E; destruct (find_name _ _ _ _) as [[? ?]|]; [|discriminate E]; injection E as <- <-; exact H).
  - injection E as <- <-. exact H.
  - destruct bp as [|d bp]; [discriminate E|]. destruct (aeqb c d); [|discriminate E]. injection E as <- <-. exact H.
  - discriminate E.
  - destruct (11 <? tm_hour t); [discriminate E|]. destruct (strcaseeq am bp); [injection E as <- <-; exact H|]. destruct (strcaseeq pm_ bp); [|discriminate E].
    injection E as <- <-. cbn. lia.
Qed.
Lemma parts_hok ps : forall bp t bp' t', read_parts ps bp t = Some (bp', t') -> hok t -> hok t'.
Proof.
  induction ps as [|p ps IH]; intros bp t bp' t' E H; cbn [read_parts] in E; [injection E as <- <-; exact H|].
  destruct (read_part p bp t) as [[b1 t1]|] eqn:E1; [|discriminate]. exact (IH _ _ _ _ E (part_hok _ _ _ _ _ E1 H)).
Qed.
Lemma then_ret ps qs bp t k : hok t -> (forall bp t, hok t -> k bp t = DRet (read_parts qs bp t)) ->
  then_ (DRet (read_parts ps bp t)) k = DRet (read_parts (ps ++ qs) bp t).
Proof.
  intros H K. unfold then_. cbn [dbind]. rewrite read_app. destruct (read_parts ps bp t) as [[b1 t1]|] eqn:E; [|reflexivity].
  cbn [obind]. apply K. exact (parts_hok _ _ _ _ _ E H).
Qed.
Definition good (fuel : nat) (fmt : str) (sp : bool) (ps : list part) : Prop :=
  forall bp t, hok t -> strptime fuel bp fmt t sp = DRet (read_parts ps bp t).
Lemma good_nil fuel sp : good (S fuel) [] sp [].
Proof. intros bp t _. reflexivity. Qed.
Lemma good_space fuel c fmt sp ps : isspace c = true -> good fuel fmt sp ps -> good (S fuel) (c :: fmt) sp (Space :: ps).
Proof. intros H K bp t Ht. rewrite (step_space _ _ _ _ _ _ H). apply K. exact Ht. Qed.
Lemma good_same fuel c fmt sp ps : isspace c = false -> c <> "%"%char -> c <> NUL -> good fuel fmt sp ps -> good (S fuel) (c :: fmt) sp (Same c :: ps).
Proof.
  intros H H1 H2 K bp t Ht. rewrite (step_same _ _ _ _ _ _ H H1 H2).
  replace (read_part (Same c) bp t) with (read_parts [Same c] bp t) by (cbn [read_parts]; destruct (read_part (Same c) bp t) as [[? ?]|]; reflexivity).
  rewrite (then_ret _ ps); [reflexivity|exact Ht|exact K].
Qed.
Lemma good_conv fuel m c fmt sp ps qs : conversion m c = Some ps -> In m [None; Some "E"%char; Some "O"%char] ->
  ~ In Century ps -> (c = "y"%char -> sp = false) ->
  (forall f, lookup c inner = Some f -> good fuel (lit f) false ps) -> good fuel fmt (splits c sp) qs ->
  good (S fuel) ("%"%char :: alt_of m ++ c :: fmt) sp (ps ++ qs).
Proof.
  intros H Hm Hc Hy Hi K bp t Ht. rewrite (step_conv _ _ _ _ _ _ _ _ H Hm Hc Hy Ht). unfold done. destruct (lookup c inner) as [f|] eqn:E.
  - rewrite (Hi f eq_refl bp t Ht). apply then_ret; assumption.
  - apply then_ret; assumption.
Qed.

Ltac no_century := let i := fresh in intro i; cbn in i; intuition discriminate.
Ltac conv_ c p := match goal with |- good (S ?f) (_ :: _ :: ?r) ?sp (_ :: ?ps) => refine (good_conv f None c r sp [p] ps eq_refl (or_introl eq_refl) _ _ _ _);
  [no_century|first [reflexivity|discriminate]|discriminate|change (splits _ _) with false] end.
Ltac same_ := apply good_same; [reflexivity|discriminate|discriminate|].
Ltac prep := cbn [Nat.add]; match goal with |- good ?n (lit ?s) ?sp ?ps =>
  let x := eval vm_compute in (lit s) in let y := eval vm_compute in ps in change (good n x sp y) end.
Lemma date_good fuel : good (9 + fuel) (lit "%m/%d/%y") false date_parts.
Proof.
  prep. conv_ "m"%char Month. same_. conv_ "d"%char Day. same_.
  refine (good_conv _ None "y"%char [] false [YearOf100] [] eq_refl (or_introl eq_refl) _ _ _ _); [no_century|reflexivity|discriminate|apply good_nil].
Qed.
Lemma time_good fuel : good (9 + fuel) (lit "%H:%M:%S") false time_parts.
Proof. prep. conv_ "H"%char Hour. same_. conv_ "M"%char Minute. same_. conv_ "S"%char Second. apply good_nil. Qed.
Lemma short_good fuel : good (9 + fuel) (lit "%H:%M") false [Hour; Same ":"; Minute].
Proof. prep. conv_ "H"%char Hour. same_. conv_ "M"%char Minute. apply good_nil. Qed.
Lemma twelve_good fuel : good (9 + fuel) (lit "%I:%M:%S %p") false [Hour12; Same ":"; Minute; Same ":"; Second; Space; Half].
Proof.
  prep. conv_ "I"%char Hour12. same_. conv_ "M"%char Minute. same_. conv_ "S"%char Second. apply good_space; [reflexivity|]. conv_ "p"%char Half. apply good_nil.
Qed.
Lemma both_good fuel : good (12 + fuel) (lit "%x %X") false (date_parts ++ [Space] ++ time_parts).
Proof.
  refine (good_conv (11 + fuel) None "x"%char (lit " %X") false date_parts _ eq_refl (or_introl eq_refl) _ _ _ _);
    [no_century|discriminate|intros f E; injection E as <-; exact (date_good (2 + fuel))|].
  apply good_space; [reflexivity|].
  refine (good_conv (9 + fuel) None "X"%char [] false time_parts [] eq_refl (or_introl eq_refl) _ _ _ _);
    [no_century|discriminate|intros f E; injection E as <-; exact (time_good fuel)|apply good_nil].
Qed.
Lemma inner_good fuel m c f ps : conversion m c = Some ps -> lookup c inner = Some f -> good (12 + fuel) (lit f) false ps.
Proof.
  intros H E. apply lookup_in in E.
  assert (Q : conversion None c = Some ps). { unfold conversion in *. destruct (lookup c conversions) as [[al qs]|]; [|discriminate]. destruct m; [destruct (existsb _ al); [|discriminate]|]; exact H. }
  clear H. repeat (destruct E as [E|E]; [injection E as <- <-; vm_compute in Q; injection Q as <-;
    first [exact (both_good fuel)|exact (date_good (3 + fuel))|exact (time_good (3 + fuel))|exact (short_good (3 + fuel))|exact (twelve_good (3 + fuel))]|]). destruct E.
Qed.

(** ** Formats *)
Definition years (ps : list part) : nat := List.length (filter is_year100 ps).
Lemma years_app a b : years (a ++ b) = (years a + years b)%nat.
Proof. unfold years. rewrite filter_app, app_length. reflexivity. Qed.
Definition room (sp : bool) : nat := if sp then 0 else 1.
Definition reads_as (fuel : nat) (fmt : str) (sp : bool) (o : option (list part)) : Prop :=
  match o with
  | Some ps => ~ In Century ps -> (years ps <= room sp)%nat -> good fuel fmt sp ps
  | None => True
  end.
Lemma behind_some a o ps : behind (Some a) o = Some ps -> exists b, o = Some b /\ ps = a ++ b.
Proof. destruct o as [b|]; [|discriminate]. intros E. injection E as <-. eauto. Qed.
Lemma y_years m ps : conversion m "y"%char = Some ps -> years ps = 1%nat.
Proof. unfold conversion. cbn. destruct m as [m|]; [destruct (aeqb m "E" || _); [|discriminate]|]; intros E; injection E as <-; reflexivity. Qed.
Lemma conv_good n m c fmt sp ps qs : conversion m c = Some ps -> In m [None; Some "E"%char; Some "O"%char] ->
  ~ In Century (ps ++ qs) -> (years (ps ++ qs) <= room sp)%nat -> (12 <= n)%nat ->
  (~ In Century qs -> (years qs <= room (splits c sp))%nat -> good n fmt (splits c sp) qs) ->
  good (S n) ("%"%char :: alt_of m ++ c :: fmt) sp (ps ++ qs).
Proof.
  intros E Hm Hc Hy Hn K. rewrite years_app in Hy. destruct (aeqb c "y") eqn:Y.
  - apply aeqb_eq in Y as ->. assert (Q := y_years _ _ E). destruct sp; [cbn in Hy; lia|]. cbn [room] in Hy.
    apply good_conv; [exact E|exact Hm|intro I0; apply Hc; apply in_or_app; auto|auto| |].
    + intros f F. replace n with (12 + (n - 12))%nat by lia. exact (inner_good _ _ _ _ _ E F).
    + apply K; [intro I0; apply Hc; apply in_or_app; auto|cbn; lia].
  - unfold splits in *. rewrite Y in *. cbn [orb] in *. apply good_conv; [exact E|exact Hm|intro I0; apply Hc; apply in_or_app; auto| | |].
    + intros ->. discriminate Y.
    + intros f F. replace n with (12 + (n - 12))%nat by lia. exact (inner_good _ _ _ _ _ E F).
    + unfold splits. rewrite Y. apply K; [intro I0; apply Hc; apply in_or_app; auto|lia].
Qed.
Lemma format_good : forall k fmt, (List.length fmt <= k)%nat -> no_nul fmt -> forall sp ps, parts_of fmt = Some ps ->
  ~ In Century ps -> (years ps <= room sp)%nat -> forall n, (List.length fmt + 13 <= n)%nat -> good n fmt sp ps.
Proof.
  induction k as [|k IH]; intros fmt L Hn sp ps E Hc Hy n Ln.
  { destruct fmt; [|cbn in L; lia]. injection E as <-. destruct n as [|n]; [cbn in Ln; lia|]. apply good_nil. }
  destruct n as [|n]; [lia|]. destruct fmt as [|c fmt]; [injection E as <-; apply good_nil|]. cbn [List.length] in *.
  assert (Hn1 : no_nul fmt) by (intros I0; apply Hn; right; exact I0).
  assert (Hc1 : c <> NUL) by (intros ->; apply Hn; left; reflexivity).
  cbn [parts_of] in E. destruct (isspace c) eqn:Sp.
  { apply behind_some in E as (qs & E & ->). apply good_space; [exact Sp|]. apply (IH fmt); [lia|exact Hn1|exact E| | |lia].
    - intro I0. apply Hc. right. exact I0.
    - exact Hy. }
  destruct (aeqb c "%") eqn:P.
  2: { apply behind_some in E as (qs & E & ->). apply good_same; [exact Sp|apply aeqb_neq; exact P|exact Hc1|]. apply (IH fmt); [lia|exact Hn1|exact E| | |lia].
    - intro I0. apply Hc. right. exact I0.
    - exact Hy. }
  apply aeqb_eq in P as ->. destruct fmt as [|d fmt]; [discriminate|]. cbn [List.length] in *.
  assert (Hn2 : no_nul fmt) by (intros I0; apply Hn1; right; exact I0).
  destruct (aeqb d "E" || aeqb d "O") eqn:D.
  - destruct fmt as [|e fmt]; [discriminate|]. cbn [List.length] in *.
    assert (Hn3 : no_nul fmt) by (intros I0; apply Hn2; right; exact I0).
    destruct (conversion (Some d) e) as [a|] eqn:C; [|destruct (parts_of fmt); discriminate]. apply behind_some in E as (qs & E & ->).
    change ("%"%char :: d :: e :: fmt) with ("%"%char :: alt_of (Some d) ++ e :: fmt).
    apply conv_good; [exact C| |exact Hc|exact Hy|lia|].
    + apply orb_true_iff in D as [D|D]; apply aeqb_eq in D as ->; cbn; tauto.
    + intros H1 H2. apply (IH fmt); auto; lia.
  - destruct (conversion None d) as [a|] eqn:C; [|destruct (parts_of fmt); discriminate]. apply behind_some in E as (qs & E & ->).
    change ("%"%char :: d :: fmt) with ("%"%char :: alt_of None ++ d :: fmt).
    apply conv_good; [exact C|left; reflexivity|exact Hc|exact Hy|lia|]. intros H1 H2. apply (IH fmt); auto; lia.
Qed.
