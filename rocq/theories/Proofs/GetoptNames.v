(** The letters and names that getopt finds are those of Spec/GetoptSpec.v. *)
From Coq Require Import ZArith Bool List Ascii String Arith Lia.
From Verif.Base Require Import CInt CStr.
From Verif.Model Require Import Permute Getopt GetoptFull.
From Verif.Spec Require Import CmdLine GetoptSpec GetoptAnswer.
From Verif.Proofs Require Import GetoptLong.
Import ListNotations.
Open Scope list_scope.
Open Scope nat_scope.

Notation len := List.length.

(** ** Letters *)
Definition known_of (l : list (ascii * takes)) : list (ascii * takes) :=
  flat_map (fun l => match snd l with LongName => [l; (";"%char, Nothing)] | _ => [l] end) l.
Definition is_in (l : list (ascii * takes)) (c : ascii) (t : takes) : Prop :=
  exists before after, known_of l = before ++ (c, t) :: after /\ ~ In c (map fst before).
Definition okhd (s : str) : Prop := match s with [] => True | x :: _ => x <> ":"%char /\ x <> ";"%char end.
Definition tail_of (t : takes) : str := match t with Nothing => [] | Value => lit ":" | MaybeValue => lit "::" | LongName => lit ";" end.

Lemma first_unique (l : list (ascii * takes)) c t u b1 a1 b2 a2 :
  l = b1 ++ (c, t) :: a1 -> ~ In c (map fst b1) -> l = b2 ++ (c, u) :: a2 -> ~ In c (map fst b2) -> t = u.
Proof.
  revert b2 l. induction b1 as [|x b1 IH]; intros [|y b2] l E1 N1 E2 N2; rewrite E1 in E2; cbn in E2.
  - congruence.
  - injection E2 as <- _. exfalso. apply N2. left. reflexivity.
  - injection E2 as -> _. exfalso. apply N1. left. reflexivity.
  - injection E2 as -> E2. refine (IH b2 _ eq_refl _ E2 _).
    + intros H. apply N1. right. exact H.
    + intros H. apply N2. right. exact H.
Qed.
Lemma letter_unique q c t u : letter_is q c t -> letter_is q c u -> t = u.
Proof. intros (b1 & a1 & E1 & N1) (b2 & a2 & E2 & N2). exact (first_unique _ _ _ _ _ _ _ _ E1 N1 E2 N2). Qed.

Lemma strchr_tail t r c : c <> ":"%char -> (t = LongName -> c <> ";"%char) -> strchr (tail_of t ++ r) c = strchr r c.
Proof.
  intros N1 N2. assert (aeqb ":" c = false) as E1 by (apply aeqb_neq; congruence).
  destruct t; cbn [tail_of]; try reflexivity; change (lit ":") with [":"%char]; change (lit "::") with [":"; ":"]%char; change (lit ";") with [";"%char];
    cbn [app strchr]; rewrite ?E1; try reflexivity.
  replace (aeqb ";" c) with false; [reflexivity|]. symmetry. apply aeqb_neq. intros <-. exact (N2 eq_refl eq_refl).
Qed.

Lemma is_in_later c0 t0 l c t : c <> c0 -> (t0 = LongName -> c <> ";"%char) -> is_in l c t -> is_in ((c0, t0) :: l) c t.
Proof.
  intros N1 N2 (b & a & E & N). unfold is_in. cbn [known_of flat_map snd]. fold (known_of l). rewrite E.
  destruct t0; [exists ((c0, Nothing) :: b), a|exists ((c0, Value) :: b), a|exists ((c0, MaybeValue) :: b), a|
    exists ((c0, LongName) :: (";"%char, Nothing) :: b), a];
    (split; [reflexivity|]); cbn [map fst In]; intros H; repeat (destruct H as [H|H]; [congruence||exact (N2 eq_refl (eq_sym H))|]); exact (N H).
Qed.
Lemma is_in_before c0 t0 l c t : c <> c0 -> (t0 = LongName -> c <> ";"%char) -> is_in ((c0, t0) :: l) c t -> is_in l c t.
Proof.
  intros N1 N2 (b & a & E & N). unfold is_in. cbn [known_of flat_map snd] in E. fold (known_of l) in E.
  destruct b as [|x b]; [destruct t0; cbn in E; congruence|].
  destruct t0; cbn [app] in E; try (injection E as <- E; exists b, a; split; [exact E|]; intros H; apply N; right; exact H).
  injection E as <- E. destruct b as [|y b]; [cbn in E; injection E as E _ _; exfalso; exact (N2 eq_refl (eq_sym E))|].
  cbn in E. injection E as <- E. exists b, a. split; [exact E|]. intros H. apply N. right. right. exact H.
Qed.

Lemma texts_hd q l tail : Forall (fine_letter q) l -> okhd tail -> okhd (flat_map letter_text l ++ tail).
Proof.
  intros F H. destruct F as [|[c t] l (Fc & _) _]; [exact H|]. cbn. cbn in Fc. split; intros ->; apply Fc; tauto.
Qed.

Lemma strchr_texts q c : c <> ":"%char -> forall l, Forall (fine_letter q) l ->
  (exists t rest, is_in l c t /\ strchr (flat_map letter_text l) c = Some (c :: tail_of t ++ rest) /\ okhd rest) \/
  ((forall t, ~ is_in l c t) /\ strchr (flat_map letter_text l) c = None).
Proof.
  intros Nc l F. induction F as [|[c0 t0] l (Fc & Ft) F IH].
  - right. split; [intros t (b & a & E & _); destruct b; discriminate E|reflexivity].
  - assert (okhd (flat_map letter_text l)) as Hd by (rewrite <- (app_nil_r (flat_map letter_text l)); apply (texts_hd q); [exact F|exact Logic.I]).
    cbn [flat_map]. change (letter_text (c0, t0)) with (c0 :: tail_of t0). cbn [app strchr].
    destruct (aeqb c0 c) eqn:E0.
    { apply aeqb_eq in E0. subst c0. left. exists t0, (flat_map letter_text l). split; [|split; [reflexivity|exact Hd]].
      unfold is_in. destruct t0; cbn [known_of flat_map snd]; exists []; eexists; (split; [reflexivity|intros []]). }
    apply aeqb_neq in E0. destruct (ascii_dec c ";"%char) as [Ec|Nsc].
    + destruct t0.
      4:{ subst c. left. exists Nothing, (flat_map letter_text l). split; [|split; [reflexivity|exact Hd]].
          exists [(c0, LongName)]. eexists. split; [reflexivity|]. cbn. intros [H|[]]. congruence. }
      all: rewrite strchr_tail by (auto; discriminate);
           (destruct IH as [(t & rest & Hi & Hs & Hr)|(Hn & Hs)]; [left; exists t, rest; split; [apply is_in_later; [congruence|discriminate|exact Hi]|auto]|right; split;
             [intros t Hi; apply (Hn t); apply is_in_before in Hi; [exact Hi|congruence|discriminate]|exact Hs]]).
    + rewrite strchr_tail by auto.
      destruct IH as [(t & rest & Hi & Hs & Hr)|(Hn & Hs)]; [left|right].
      * exists t, rest. split; [apply is_in_later; [congruence|auto|exact Hi]|auto].
      * split; [|exact Hs]. intros t Hi. apply (Hn t). apply is_in_before in Hi; [exact Hi|congruence|auto].
Qed.

(** A letter and the option string. *)
Lemma letter_case q c : fine q -> c <> ":"%char ->
  (exists t rest, letter_is q c t /\ strchr (option_string q) c = Some (c :: tail_of t ++ rest) /\ okhd rest) \/
  (~ letter_known q c /\ strchr (option_string q) c = None).
Proof.
  intros (F & _) Nc. assert (strchr (option_string q) c = strchr (flat_map letter_text (q_letters q)) c) as ->.
  { unfold option_string. destruct (q_colon q); [|reflexivity]. change (lit ":") with [":"%char]. cbn [app strchr].
    replace (aeqb ":" c) with false; [reflexivity|]. symmetry. apply aeqb_neq. congruence. }
  destruct (strchr_texts q c Nc _ F) as [(t & rest & Hi & Hs & Hr)|(Hn & Hs)]; [left|right].
  - exists t, rest. auto.
  - split; [|exact Hs]. intros (t & Hi). exact (Hn t Hi).
Qed.
Lemma known_letters q c t : In (c, t) (known q) -> In (c, t) (q_letters q) \/ (c = ";"%char /\ t = Nothing).
Proof.
  unfold known. intros H. apply in_flat_map in H. destruct H as ([c0 t0] & H1 & H2). destruct t0; cbn in H2;
    repeat (destruct H2 as [H2|H2]; [injection H2 as <- <-; auto|]); destruct H2.
Qed.
Lemma letter_in q c t : letter_is q c t -> In (c, t) (q_letters q) \/ (c = ";"%char /\ t = Nothing).
Proof. intros (b & a & E & _). apply known_letters. rewrite E. apply in_or_app. right. left. reflexivity. Qed.
Lemma letter_fine q c t : fine q -> letter_is q c t -> ~ In c ["000"; "+"; "-"; ":"; "255"]%char /\ (t = LongName -> c = "W"%char /\ q_names q <> None).
Proof.
  intros (F & _) H. rewrite Forall_forall in F. destruct (letter_in _ _ _ H) as [I1|(-> & ->)].
  - destruct (F _ I1) as (A & B). cbn in A, B. split; [cbn; tauto|exact B].
  - split; [cbn; intuition discriminate|discriminate].
Qed.

(** ** Names *)
Definition differ (longonly : bool) (o o' : long) : bool :=
  longonly || negb (l_has_arg o =? l_has_arg o')%Z || negb (same_flag (l_flag o) (l_flag o')) || negb (l_val o =? l_val o')%Z.
Definition cand (short : bool) (name : str) (o : long) : bool := prefixb name (l_name o) && negb (short && (len name =? 1)).

Lemma find_exact lo short name o los1 los2 : Forall (fun o => l_name o <> name) los1 -> l_name o = name -> forall i m second,
  exists second', find_name lo short name i (los1 ++ o :: los2) m second = (Some (i + len los1, o), true, second').
Proof.
  intros F Eo. assert (prefixb name name = true) as Pr by (apply prefixb_iff; exists []; rewrite app_nil_r; reflexivity).
  induction F as [|x los1 Nx F IH]; intros i m second.
  - exists second. cbn [app find_name]. rewrite Eo, Pr, Nat.eqb_refl. cbn [negb len]. rewrite Nat.add_0_r. reflexivity.
  - cbn [app find_name]. replace (i + len (x :: los1)) with (S i + len los1) by (cbn; lia).
    destruct (prefixb name (l_name x)) eqn:Px; cbn [negb]; [|apply IH].
    destruct (len (l_name x) =? len name) eqn:El.
    + exfalso. apply Nx. apply prefix_same_length; [apply prefixb_iff; exact Px|apply Nat.eqb_eq; exact El].
    + destruct (short && (len name =? 1)); [apply IH|]. destruct m as [[j o']|]; apply IH.
Qed.

Lemma not_same_length name x : l_name x <> name -> prefixb name (l_name x) = true -> (len (l_name x) =? len name) = false.
Proof.
  intros N P. apply Nat.eqb_neq. intros E. apply N. apply prefix_same_length; [apply prefixb_iff; exact P|exact E].
Qed.

Lemma find_more lo short name j o' los : Forall (fun o => l_name o <> name) los -> forall i second,
  find_name lo short name i los (Some (j, o')) second =
  (Some (j, o'), false, second || existsb (fun o => cand short name o && differ lo o o') los).
Proof.
  intros F. induction F as [|x los Nx F IH]; intros i second; [cbn; rewrite orb_false_r; reflexivity|].
  cbn [find_name existsb]. unfold cand at 1. destruct (prefixb name (l_name x)) eqn:Px; cbn [negb andb]; [|apply IH].
  rewrite (not_same_length _ _ Nx Px). destruct (short && (len name =? 1)); cbn [negb andb]; [apply IH|].
  rewrite IH. f_equal. unfold differ at 2. rewrite !orb_assoc. reflexivity.
Qed.

Lemma find_none lo short name los : Forall (fun o => l_name o <> name) los -> Forall (fun o => cand short name o = false) los -> forall i,
  find_name lo short name i los None false = (None, false, false).
Proof.
  intros F C. revert F. induction C as [|x los Cx C IH]; intros F i; [reflexivity|]. inversion F as [|? ? Nx F']; subst. cbn [find_name].
  unfold cand in Cx. destruct (prefixb name (l_name x)) eqn:Px; cbn [negb]; [|apply IH; exact F'].
  rewrite (not_same_length _ _ Nx Px). cbn [andb] in Cx. destruct (short && (len name =? 1)); [apply IH; exact F'|discriminate Cx].
Qed.

Lemma find_first lo short name o los1 los2 : Forall (fun o => l_name o <> name) (los1 ++ o :: los2) ->
  Forall (fun o => cand short name o = false) los1 -> cand short name o = true -> forall i,
  find_name lo short name i (los1 ++ o :: los2) None false =
  (Some (i + len los1, o), false, existsb (fun x => cand short name x && differ lo x o) los2).
Proof.
  intros F C Co. revert F. induction C as [|x los1 Cx C IH]; intros F i.
  - cbn [app find_name] in *. inversion F as [|? ? No F']; subst. unfold cand in Co. apply andb_prop in Co. destruct Co as (Po & Sh).
    rewrite Po, (not_same_length _ _ No Po). apply negb_true_iff in Sh. rewrite Sh. cbn [negb len]. rewrite Nat.add_0_r.
    rewrite find_more by exact F'. reflexivity.
  - cbn [app find_name]. inversion F as [|? ? Nx F']; subst. replace (i + len (x :: los1)) with (S i + len los1) by (cbn; lia).
    unfold cand in Cx. destruct (prefixb name (l_name x)) eqn:Px; cbn [negb]; [|apply IH; exact F'].
    rewrite (not_same_length _ _ Nx Px). cbn [andb] in Cx. destruct (short && (len name =? 1)); [apply IH; exact F'|discriminate Cx].
Qed.

Section Names.
Variable q : request.
Variable ns : list name.
Hypothesis Qn : q_names q = Some ns.
Hypothesis Fn : Forall fine_name ns.

Lemma is_name_iff k n : is_name q k n <-> nth_error ns k = Some n.
Proof. unfold is_name, names. rewrite Qn. reflexivity. Qed.
Lemma exactly_iff s k : exactly q s k <-> exists n, nth_error ns k = Some n /\ m_text n = s.
Proof. unfold exactly. split; intros (n & E & T); exists n; (split; [apply is_name_iff; exact E|exact T]). Qed.
Lemma starts_iff short s k : starts q short s k <-> exists n, nth_error ns k = Some n /\ cand short s (as_long n) = true.
Proof.
  unfold starts, cand. split.
  - intros ((n & E & P) & N). exists n. split; [apply is_name_iff; exact E|]. apply andb_true_intro. split; [apply prefixb_iff; exact P|].
    destruct short; [|reflexivity]. cbn [andb]. destruct (len s =? 1) eqn:El; [|reflexivity]. exfalso. apply N. split; [reflexivity|apply Nat.eqb_eq; exact El].
  - intros (n & E & C). apply andb_prop in C. destruct C as (P & S). split; [exists n; split; [apply is_name_iff; exact E|apply prefixb_iff; exact P]|].
    intros (-> & L). rewrite L in S. discriminate S.
Qed.
Lemma same_flag_eq a b : same_flag a b = true <-> a = b.
Proof. destruct a, b; cbn; try rewrite Nat.eqb_eq; split; congruence. Qed.
Lemma alike_iff j k n m : nth_error ns j = Some n -> nth_error ns k = Some m -> (alike q j k <-> differ (q_only q) (as_long n) (as_long m) = false).
Proof.
  intros Ej Ek. rewrite Forall_forall in Fn. pose proof (Fn n (nth_error_In _ _ Ej)) as (_ & T1 & _). pose proof (Fn m (nth_error_In _ _ Ek)) as (_ & T2 & _).
  unfold differ. rewrite !orb_false_iff, !negb_false_iff, same_flag_eq, !Z.eqb_eq. split.
  - intros (A & n' & m' & B & C & E1 & E2 & E3). apply is_name_iff in B. apply is_name_iff in C. assert (n' = n) by congruence. assert (m' = m) by congruence. subst n' m'.
    unfold as_long. cbn. rewrite E1, E2, E3. auto.
  - unfold as_long. cbn. intros (((A & B) & C) & D). split; [exact A|]. exists n, m. split; [apply is_name_iff; exact Ej|]. split; [apply is_name_iff; exact Ek|].
    split; [|auto]. destruct (m_takes n), (m_takes m); congruence.
Qed.

Lemma first_split (P : name -> bool) : (exists l1 n l2, ns = l1 ++ n :: l2 /\ Forall (fun x => P x = false) l1 /\ P n = true) \/ Forall (fun x => P x = false) ns.
Proof.
  clear. induction ns as [|x l IH]; [right; constructor|]. destruct (P x) eqn:E.
  - left. exists [], x, l. auto.
  - destruct IH as [(l1 & n & l2 & -> & F & Pn)|F]; [left; exists (x :: l1), n, l2; auto|right; constructor; assumption].
Qed.
Lemma split_index {A} (l1 : list A) n l2 j x : nth_error (l1 ++ n :: l2) j = Some x ->
  (j < len l1 /\ In x l1) \/ (j = len l1 /\ x = n) \/ (len l1 < j /\ In x l2).
Proof.
  intros E. destruct (Nat.lt_trichotomy j (len l1)) as [L|[L|L]].
  - left. split; [exact L|]. rewrite nth_error_app1 in E by exact L. exact (nth_error_In _ _ E).
  - right. left. split; [exact L|]. rewrite nth_error_app2 in E by lia. rewrite L, Nat.sub_diag in E. cbn in E. congruence.
  - right. right. split; [exact L|]. rewrite nth_error_app2 in E by lia. destruct (j - len l1) as [|d] eqn:D; [lia|]. cbn in E. exact (nth_error_In _ _ E).
Qed.

Definition textb (s : str) (n : name) : bool := str_eqb (m_text n) s.
Lemma textb_eq s n : textb s n = true <-> m_text n = s.
Proof. unfold textb. apply str_eqb_eq. Qed.

(** What the search of the code finds. *)
Lemma name_case short s :
  (exists k n ex sec, stands_for q short s k /\ nth_error ns k = Some n /\
     find_name (q_only q) short s 0 (map as_long ns) None false = (Some (k, as_long n), ex, sec) /\ negb ex && sec = false) \/
  (stands_for_several q short s /\ exists m, find_name (q_only q) short s 0 (map as_long ns) None false = (m, false, true)) \/
  (stands_for_none q short s /\ find_name (q_only q) short s 0 (map as_long ns) None false = (None, false, false)).
Proof.
  destruct (first_split (textb s)) as [(l1 & n & l2 & E & F & T)|F].
  - left. apply textb_eq in T. destruct (find_exact (q_only q) short s (as_long n) (map as_long l1) (map as_long l2)) with (i := 0) (m := @None (nat * long)) (second := false) as (sec & Ef).
    + rewrite Forall_map. eapply Forall_impl; [|exact F]. intros x Hx Ex. cbn in Ex. apply textb_eq in Ex. congruence.
    + exact T.
    + exists (len l1), n, true, sec. split; [|split; [|split; [|reflexivity]]].
      * left. split; [apply exactly_iff; exists n; split; [rewrite E, nth_error_app2, Nat.sub_diag by lia; reflexivity|exact T]|].
        intros j Hj. apply exactly_iff in Hj. destruct Hj as (x & Ex & Tx). rewrite E in Ex. destruct (split_index _ _ _ _ _ Ex) as [(_ & Ix)|[(-> & _)|(L & _)]]; [|lia|lia].
        rewrite Forall_forall in F. pose proof (F x Ix) as Fx. apply textb_eq in Tx. congruence.
      * rewrite E, nth_error_app2, Nat.sub_diag by lia. reflexivity.
      * rewrite E, map_app. cbn [map]. rewrite Ef, map_length. reflexivity.
  - assert (forall j, ~ exactly q s j) as Nex.
    { intros j Hj. apply exactly_iff in Hj. destruct Hj as (x & Ex & Tx). rewrite Forall_forall in F. pose proof (F x (nth_error_In _ _ Ex)) as Fx. apply textb_eq in Tx. congruence. }
    assert (Forall (fun o => l_name o <> s) (map as_long ns)) as Fl.
    { rewrite Forall_map. eapply Forall_impl; [|exact F]. intros x Hx Ex. cbn in Ex. apply textb_eq in Ex. congruence. }
    destruct (first_split (fun n => cand short s (as_long n))) as [(l1 & n & l2 & E & Fc & C)|Fc].
    + assert (find_name (q_only q) short s 0 (map as_long ns) None false =
        (Some (len l1, as_long n), false, existsb (fun x => cand short s x && differ (q_only q) x (as_long n)) (map as_long l2))) as Ef.
      { rewrite E, map_app in Fl |- *. cbn [map] in *. rewrite find_first; [rewrite map_length; reflexivity|exact Fl|rewrite Forall_map; exact Fc|exact C]. }
      assert (nth_error ns (len l1) = Some n) as En by (rewrite E, nth_error_app2, Nat.sub_diag by lia; reflexivity).
      assert (starts q short s (len l1)) as Hs by (apply starts_iff; exists n; split; assumption).
      assert (forall j, starts q short s j -> len l1 <= j) as Mn.
      { intros j Hj. apply starts_iff in Hj. destruct Hj as (x & Ex & Cx). rewrite E in Ex. destruct (split_index _ _ _ _ _ Ex) as [(_ & Ix)|[(-> & _)|(L & _)]]; [|lia|lia].
        rewrite Forall_forall in Fc. pose proof (Fc x Ix). congruence. }
      destruct (existsb (fun x => cand short s x && differ (q_only q) x (as_long n)) (map as_long l2)) eqn:Ex.
      * right. left. split; [|eexists; exact Ef]. split; [exact Nex|]. exists (len l1). split; [exact Hs|]. split; [exact Mn|].
        apply existsb_exists in Ex. destruct Ex as (o & Io & Co). apply in_map_iff in Io. destruct Io as (x & <- & Ix). apply andb_prop in Co. destruct Co as (Cx & Dx).
        destruct (In_nth_error _ _ Ix) as (d & Ed). assert (nth_error ns (len l1 + S d) = Some x) as Ejx.
        { rewrite E, nth_error_app2 by lia. replace (len l1 + S d - len l1) with (S d) by lia. exact Ed. }
        exists (len l1 + S d). split; [apply starts_iff; exists x; auto|]. split; [lia|]. rewrite (alike_iff _ _ _ _ Ejx En). rewrite Dx. discriminate.
      * left. exists (len l1), n, false, false. split; [|split; [exact En|split; [exact Ef|reflexivity]]].
        right. split; [exact Nex|]. split; [exact Hs|]. intros j Hj. pose proof (Mn j Hj) as Lj. destruct (Nat.eq_dec j (len l1)) as [->|Nj]; [left; reflexivity|right].
        split; [lia|]. apply starts_iff in Hj. destruct Hj as (x & Ejx & Cx). rewrite (alike_iff _ _ _ _ Ejx En).
        destruct (differ (q_only q) (as_long x) (as_long n)) eqn:Dx; [|reflexivity]. exfalso. rewrite <- not_true_iff_false in Ex. apply Ex. apply existsb_exists.
        exists (as_long x). split; [|rewrite Cx, Dx; reflexivity]. apply in_map. rewrite E in Ejx. destruct (split_index _ _ _ _ _ Ejx) as [(L & _)|[(-> & _)|(_ & Ix)]]; [lia|lia|exact Ix].
    + right. right. split; [|apply find_none; [exact Fl|rewrite Forall_map; exact Fc]]. intros j. split; [apply Nex|]. intros Hj. apply starts_iff in Hj. destruct Hj as (x & Ex & Cx).
      rewrite Forall_forall in Fc. pose proof (Fc x (nth_error_In _ _ Ex)). cbn in *. congruence.
Qed.
End Names.

(** The three cases exclude each other. *)
Lemma stands_unique q short s j k : stands_for q short s j -> stands_for q short s k -> j = k.
Proof.
  intros [(A & B)|(A & B & C)] [(A' & B')|(A' & B' & C')].
  - pose proof (B k A'). pose proof (B' j A). lia.
  - destruct (A' _ A).
  - destruct (A _ A').
  - destruct (C k B') as [->|(L & _)]; [reflexivity|]. destruct (C' j B) as [->|(L' & _)]; [reflexivity|lia].
Qed.
Lemma stands_not_several q short s k : stands_for q short s k -> ~ stands_for_several q short s.
Proof.
  intros [(A & _)|(_ & B & C)] (N & m & Hm & Mn & j & Hj & Nj & Na); [exact (N _ A)|].
  destruct (C m Hm) as [->|(L & _)]; [|pose proof (Mn k B); lia]. destruct (C j Hj) as [->|(_ & Al)]; [exact (Nj eq_refl)|exact (Na Al)].
Qed.
Lemma stands_not_none q short s k : stands_for q short s k -> ~ stands_for_none q short s.
Proof. intros [(A & _)|(_ & B & _)] N; destruct (N k); auto. Qed.
Lemma several_not_none q short s : stands_for_several q short s -> ~ stands_for_none q short s.
Proof. intros (_ & k & A & _) N. destruct (N k); auto. Qed.
