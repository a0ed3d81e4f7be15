(** Which nodes stand for which expression, and what matching them means. *)
From Coq Require Import ZArith NArith Bool List Ascii String Lia.
From Verif.Base Require Import CInt CStr CMem.
From Verif.Model Require Import Trex.
From Verif.Spec Require Import RegexSpec.
From Verif.Proofs Require Import TrexChars.
Import ListNotations.
Open Scope list_scope.
Open Scope nat_scope.

Definition zn (i : nat) : Z := Z.of_nat i.
Definition nd (ns : list node) (i : nat) (n : node) : Prop := nth_error ns i = Some n.
Definition item_is (n : node) (it : item) : Prop :=
  match it with
  | One c => n_type n = sgn c
  | From_to a b => n_type n = OP_RANGE /\ n_left n = sgn a /\ n_right n = sgn b
  | OfKind k => n_type n = OP_CCLASS /\ n_left n = sgn k
  end.
(** From the node [p] on, the nodes [js] follow and stand for [its]. *)
Inductive seg (ns : list node) : nat -> list nat -> list item -> Prop :=
  | seg_nil p n : nd ns p n -> n_next n = (-1)%Z -> seg ns p [] []
  | seg_cons p n j m js it its : nd ns p n -> n_next n = zn j -> p < j -> nd ns j m -> item_is m it ->
      seg ns j js its -> seg ns p (j :: js) (it :: its).
(** The repetition stored in a node. *)
Definition counts (right : Z) (min : N) (max : option N) : Prop :=
  minimum right = (Z.of_N min mod 65536)%Z /\
  maximum right = match max with Some m => (Z.of_N m mod 65536)%Z | None => 65535%Z end.
(** [rep ns ch lo hi i r]: the nodes from [lo] up to [hi] stand for [r], beginning with [i]; alone, whatever
    node is said to come next, or ([ch]) with those that come next. *)
Inductive rep (ns : list node) : bool -> nat -> nat -> nat -> rx -> Prop :=
  | r_char (lo : nat) n c : nd ns lo n -> n_type n = sgn c -> rep ns false lo (S lo) lo (Char c)
  | r_kind lo n k : nd ns lo n -> n_type n = OP_CCLASS -> n_left n = sgn k -> rep ns false lo (S lo) lo (Kind k)
  | r_any lo n : nd ns lo n -> n_type n = OP_DOT -> rep ns false lo (S lo) lo Any
  | r_stop lo n : nd ns lo n -> n_type n = OP_EOL -> rep ns false lo (S lo) lo Stop
  | r_start lo n : nd ns lo n -> n_type n = OP_BOL -> rep ns false lo (S lo) lo Start
  | r_word lo n (b : bool) : nd ns lo n -> n_type n = OP_WB -> n_left n = sgn (if b then "b" else "B")%char ->
      rep ns false lo (S lo) lo (Word b)
  | r_set (lo hi : nat) n (out : bool) j m js it its : nd ns lo n -> n_type n = (if out then OP_NCLASS else OP_CLASS) -> n_left n = zn j ->
      lo < j -> Forall (fun k => k < hi) (j :: js) -> nd ns j m -> item_is m it -> seg ns j js its ->
      rep ns false lo hi lo (Set_ out (it :: its))
  | r_group lo hi n l r : nd ns lo n -> n_type n = OP_EXPR \/ n_type n = OP_NOCAPEXPR -> n_left n = zn l ->
      rep ns true (S lo) hi l r -> rep ns false lo hi lo r
  | r_or (lo mid hi : nat) n l q a b : nd ns mid n -> n_type n = OP_OR -> n_left n = zn l -> n_right n = zn q ->
      rep ns true lo mid l a -> rep ns true (S mid) hi q b -> rep ns false lo hi mid (Or a b)
  | r_rep lo hi n l m a min max : nd ns hi n -> n_type n = OP_GREEDY -> n_left n = zn l -> counts (n_right n) min max ->
      nd ns l m -> n_next m = (-1)%Z -> rep ns false lo hi l a -> rep ns false lo (S hi) hi (Rep a min max)
  | r_last lo hi i n r : rep ns false lo hi i r -> nd ns i n -> n_next n = (-1)%Z -> rep ns true lo hi i r
  | r_more lo mid hi i n j a b : rep ns false lo mid i a -> nd ns i n -> n_next n = zn j -> rep ns true mid hi j b ->
      rep ns true lo hi i (Seq a b).

Lemma get_nd ns i n : nd ns i n -> get ns (zn i) = Val n.
Proof.
  unfold nd, get, zn. intros H. destruct (Z.ltb_spec (Z.of_nat i) 0); [lia|]. rewrite Nat2Z.id, H. reflexivity.
Qed.
Lemma nd_lt ns i n : nd ns i n -> i < List.length ns.
Proof. intros H. apply nth_error_Some. unfold nd in H. congruence. Qed.
Lemma zn_nonneg i : (zn i =? -1)%Z = false.
Proof. unfold zn. apply Z.eqb_neq. lia. Qed.
Lemma seg_bound ns p js its : seg ns p js its -> p < List.length ns /\ Forall (fun k => p < k) js.
Proof.
  induction 1 as [p n Hn _|p n j m js it its Hn Hx Hj Hm Hi Hs [IH1 IH2]].
  - split; [exact (nd_lt _ _ _ Hn)|constructor].
  - split; [exact (nd_lt _ _ _ Hn)|]. constructor; [lia|]. eapply Forall_impl; [|exact IH2]. intros k Hk. cbv beta in *. lia.
Qed.
Lemma rep_bounds ns ch lo hi i r : rep ns ch lo hi i r -> lo <= i < hi.
Proof.
  induction 1; try lia. inversion H3; subst. lia.
Qed.

(** A property of nodes on an interval survives changes elsewhere. *)
Definition agree (ns ns' : list node) (lo hi : nat) : Prop := forall k, lo <= k < hi -> nth_error ns' k = nth_error ns k.
Definition agree_but (ns ns' : list node) (lo hi i : nat) : Prop :=
  (forall k, lo <= k < hi -> k <> i -> nth_error ns' k = nth_error ns k) /\
  (forall n, nth_error ns i = Some n -> exists n', nth_error ns' i = Some n' /\ n_type n' = n_type n /\ n_left n' = n_left n /\ n_right n' = n_right n).
Lemma agree_sub ns ns' lo hi lo' hi' : agree ns ns' lo hi -> lo <= lo' -> hi' <= hi -> agree ns ns' lo' hi'.
Proof. intros H A B k Hk. apply H. lia. Qed.
Lemma agree_agree_but ns ns' lo hi i : agree ns ns' lo hi -> lo <= i < hi -> agree_but ns ns' lo hi i.
Proof.
  intros H Hi. split.
  - intros k Hk _. apply H. exact Hk.
  - intros n Hn. exists n. rewrite (H i Hi), Hn. auto.
Qed.
Lemma seg_agree ns ns' p js its hi : seg ns p js its -> p < hi -> Forall (fun k => k < hi) js -> agree ns ns' p hi -> seg ns' p js its.
Proof.
  induction 1 as [p n Hn Hx|p n j m js it its Hn Hx Hj Hm Hi Hs IH]; intros Hp Hjs A.
  - apply (seg_nil _ _ n); [|exact Hx]. unfold nd. rewrite A by lia. exact Hn.
  - inversion Hjs; subst. apply (seg_cons _ _ n j m); auto.
    + unfold nd. rewrite A by lia. exact Hn.
    + unfold nd. rewrite A by lia. exact Hm.
    + apply IH; auto. eapply agree_sub; [exact A|lia|lia].
Qed.
Lemma rep_agree ns ns' ch lo hi i r : rep ns ch lo hi i r ->
  (if ch then agree ns ns' lo hi else agree_but ns ns' lo hi i) -> rep ns' ch lo hi i r.
Proof.
  induction 1 as [lo n c Hn Ht|lo n k Hn Ht Hl|lo n Hn Ht|lo n Hn Ht|lo n Hn Ht|lo n b Hn Ht Hl
    |lo hi n out j m js it its Hn Ht Hl Hj Hb Hm Hi Hs|lo hi n l r Hn Ht Hl Hr IH
    |lo mid hi n l q a b Hn Ht Hl Hq Ha IHa Hb IHb|lo hi n l m a min max Hn Ht Hl Hc Hm0 Hx0 Ha IHa
    |lo hi i n r Hr IH Hn Hx|lo mid hi i n j a b Ha IHa Hn Hx Hb IHb]; cbv iota; intros A.
  - destruct (proj2 A n Hn) as (n' & H1 & H2 & H3 & H4). apply (r_char _ _ n'); [exact H1|congruence].
  - destruct (proj2 A n Hn) as (n' & H1 & H2 & H3 & H4). apply (r_kind _ _ n'); [exact H1|congruence|congruence].
  - destruct (proj2 A n Hn) as (n' & H1 & H2 & H3 & H4). apply (r_any _ _ n'); [exact H1|congruence].
  - destruct (proj2 A n Hn) as (n' & H1 & H2 & H3 & H4). apply (r_stop _ _ n'); [exact H1|congruence].
  - destruct (proj2 A n Hn) as (n' & H1 & H2 & H3 & H4). apply (r_start _ _ n'); [exact H1|congruence].
  - destruct (proj2 A n Hn) as (n' & H1 & H2 & H3 & H4). apply (r_word _ _ n'); [exact H1|congruence|congruence].
  - destruct (proj2 A n Hn) as (n' & H1 & H2 & H3 & H4). inversion Hb; subst.
    apply (r_set _ _ _ n' out j m js); try assumption; try congruence.
    + unfold nd. rewrite (proj1 A); [exact Hm|lia|lia].
    + eapply seg_agree; [exact Hs| |eassumption|]; [assumption|]. intros k Hk. apply (proj1 A); lia.
  - destruct (proj2 A n Hn) as (n' & H1 & H2 & H3 & H4). apply (r_group _ _ _ n' l).
    + exact H1.
    + rewrite H2. exact Ht.
    + congruence.
    + apply IH. intros k Hk. apply (proj1 A); lia.
  - destruct (proj2 A n Hn) as (n' & H1 & H2 & H3 & H4). pose proof (rep_bounds _ _ _ _ _ _ Ha). pose proof (rep_bounds _ _ _ _ _ _ Hb).
    apply (r_or _ _ _ _ n' l q); try congruence; try exact H1.
    + apply IHa. intros k Hk. apply (proj1 A); lia.
    + apply IHb. intros k Hk. apply (proj1 A); lia.
  - destruct (proj2 A n Hn) as (n' & H1 & H2 & H3 & H4). pose proof (rep_bounds _ _ _ _ _ _ Ha).
    apply (r_rep _ _ _ n' l m); try congruence; try exact H1.
    { unfold nd. rewrite (proj1 A); [exact Hm0|lia|lia]. }
    apply IHa. apply agree_agree_but; [|lia]. intros k Hk. apply (proj1 A); lia.
  - pose proof (rep_bounds _ _ _ _ _ _ Hr). apply (r_last _ _ _ _ n).
    + apply IH. apply agree_agree_but; [exact A|lia].
    + unfold nd. rewrite A by lia. exact Hn.
    + exact Hx.
  - pose proof (rep_bounds _ _ _ _ _ _ Ha). pose proof (rep_bounds _ _ _ _ _ _ Hb). apply (r_more _ _ mid _ _ n j).
    + apply IHa. apply agree_agree_but; [|lia]. eapply agree_sub; [exact A|lia|lia].
    + unfold nd. rewrite A by lia. exact Hn.
    + exact Hx.
    + apply IHb. eapply agree_sub; [exact A|lia|lia].
Qed.

(** ** What matching returns is right *)
Section sound.
Variables (ns : list node) (icase : bool) (text : str).
Let len := List.length text.

Lemma in_item_spec n it c : item_is n it -> range_ok icase it -> in_item icase c n = true <-> has icase it c.
Proof.
  unfold in_item. destruct it as [d|a b|k]; cbn [item_is range_ok].
  - intros -> _. pose proof (sgn_range d). unfold OP_RANGE, OP_CCLASS. destruct (Z.eqb_spec (sgn d) 264); [lia|].
    destruct (Z.eqb_spec (sgn d) 262); [lia|]. cbn [has]. apply same_char_spec.
  - intros (-> & -> & ->) H. change (OP_RANGE =? OP_RANGE)%Z with true. cbv iota. exact (range_spec icase c a b H).
  - intros (-> & ->) _. change (OP_CCLASS =? OP_RANGE)%Z with false. change (OP_CCLASS =? OP_CCLASS)%Z with true. cbv iota.
    rewrite matchcclass_spec. cbn [has]. tauto.
Qed.
Lemma matchclass_spec fuel j m js it its c b : nd ns j m -> item_is m it -> seg ns j js its ->
  Forall (range_ok icase) (it :: its) -> matchclass fuel ns icase (zn j) c = MRet b ->
  b = true <-> Exists (fun it => has icase it c) (it :: its).
Proof.
  revert j m js it its. induction fuel as [|fuel IH]; intros j m js it its Hm Hi Hs Hr; cbn [matchclass]; [discriminate|].
  rewrite (get_nd _ _ _ Hm). cbn [mlift mbind]. inversion Hr as [|? ? R1 R2]; subst.
  destruct (in_item icase c m) eqn:E.
  - intros [= <-]. split; [|reflexivity]. intros _. left. apply (in_item_spec m it c Hi R1). exact E.
  - assert (N : ~ has icase it c). { intros F. apply (in_item_spec m it c Hi R1) in F. congruence. }
    inversion Hs as [p n Hn Hx|p n j' m' js' it' its' Hn Hx Hj Hm' Hi' Hs']; subst.
    + assert (n = m) as -> by (unfold nd in *; congruence). rewrite Hx. change (-1 =? -1)%Z with true. cbv iota. intros [= <-].
      split; [discriminate|]. intros F. inversion F as [? ? F1|? ? F1]; subst; [contradiction|inversion F1].
    + assert (n = m) as -> by (unfold nd in *; congruence). rewrite Hx, zn_nonneg. intros H.
      apply (IH _ _ _ _ _ Hm' Hi' Hs' R2) in H. rewrite H. split; [apply Exists_cons_tl|].
      intros F. inversion F as [? ? F1|? ? F1]; subst; [contradiction|exact F1].
Qed.

Definition ok (r : rx) (s s' : nat) : Prop := s <= s' /\ (s' <= len -> lang icase text r s s').
Lemma char_at s c : char_ text s = MRet c -> s < len -> nth_error text s = Some c.
Proof.
  unfold char_, load, terminated, bytes. unfold len. intros H L.
  rewrite nth_error_app1 in H by (rewrite map_length; exact L).
  destruct (nth_error text s) eqn:E.
  - rewrite (map_nth_error Some _ _ E) in H. injection H as ->. reflexivity.
  - apply nth_error_None in E. unfold str in *. lia.
Qed.
Lemma mbind_ret {A B} (m : mat A) (k : A -> mat B) b : mbind m k = MRet b -> exists a, m = MRet a /\ k a = MRet b.
Proof. destruct m; cbn; intros H; try discriminate. eauto. Qed.
Lemma one_some b s s' : one b s = Some s' -> b = true /\ s' = S s.
Proof. unfold one. destruct b; [|discriminate]. intros [= <-]. auto. Qed.

Lemma times_snoc (R : nat -> nat -> Prop) n i k j : times R n i k -> R k j -> times R (S n) i j.
Proof.
  revert i. induction n as [|n IH]; intros i; cbn [times].
  - intros -> H. exists j. auto.
  - intros (k' & H1 & H2) H. exists k'. split; [exact H1|]. exact (IH _ H2 H).
Qed.

(** The loop of a repetition: from [s0], [n] instances lead to [good]. *)
Lemma greedy_sound (m : Z -> nat -> Z -> mat (option nat)) (a : rx) left s0 k stop_ next p0 p1 s n good n' :
  (forall s next s', m left s next = MRet (Some s') -> ok a s s') ->
  (0 <= n)%Z -> s0 <= s -> (s <= len -> times (lang icase text a) (Z.to_nat n) s0 s) ->
  greedy_loop ns text m k left stop_ next p0 p1 s s n = MRet (good, n') ->
  (0 <= n')%Z /\ s0 <= good /\ (good <= len -> times (lang icase text a) (Z.to_nat n') s0 good).
Proof.
  intros Hm. revert s n. induction k as [|k IH]; intros s n Hn Hs Ht; cbn [greedy_loop]; [discriminate|].
  destruct ((n =? 65535)%Z || (n <? p1)%Z).
  2:{ intros [= <- <-]. auto. }
  intros H. apply mbind_ret in H. destruct H as (r & Hr & H). destruct r as [s'|].
  2:{ injection H as <- <-. auto. }
  apply Hm in Hr. destruct Hr as [L1 L2]. apply mbind_ret in H. destruct H as (stops & _ & H).
  assert (T : s' <= len -> times (lang icase text a) (Z.to_nat (n + 1)) s0 s').
  { intros L. replace (Z.to_nat (n + 1)) with (S (Z.to_nat n)) by lia. eapply times_snoc; [apply Ht; lia|apply L2; exact L]. }
  destruct stops.
  - injection H as <- <-. split; [lia|]. split; [lia|exact T].
  - destruct (List.length text <=? s').
    + injection H as <- <-. split; [lia|]. split; [lia|exact T].
    + apply (IH s' (n + 1)%Z); [lia|lia|exact T|exact H].
Qed.

Lemma type_char c : let t := sgn c in
  (t =? OP_GREEDY)%Z = false /\ (t =? OP_OR)%Z = false /\ (t =? OP_EXPR)%Z = false /\ (t =? OP_NOCAPEXPR)%Z = false /\
  (t =? OP_WB)%Z = false /\ (t =? OP_BOL)%Z = false /\ (t =? OP_EOL)%Z = false /\ (t =? OP_DOT)%Z = false /\
  (t =? OP_NCLASS)%Z = false /\ (t =? OP_CLASS)%Z = false /\ (t =? OP_CCLASS)%Z = false.
Proof.
  cbv zeta. pose proof (sgn_range c). unfold OP_GREEDY, OP_OR, OP_EXPR, OP_NOCAPEXPR, OP_WB, OP_BOL, OP_EOL, OP_DOT, OP_NCLASS, OP_CLASS, OP_CCLASS.
  repeat split; apply Z.eqb_neq; lia.
Qed.
Lemma matchnode_char F i n s next c : nd ns i n -> n_type n = sgn c ->
  matchnode ns icase text (S F) (zn i) s next = mbind (char_ text s) (fun d => MRet (one (same_char icase d (sgn c)) s)).
Proof.
  intros Hn Ht. cbn [matchnode]. rewrite (get_nd _ _ _ Hn). cbn [mlift mbind]. rewrite Ht.
  destruct (type_char c) as (-> & -> & -> & -> & -> & -> & -> & -> & -> & -> & ->). cbn [orb]. reflexivity.
Qed.
Lemma matchnode_kind F i n s next k : nd ns i n -> n_type n = OP_CCLASS -> n_left n = sgn k ->
  matchnode ns icase text (S F) (zn i) s next = mbind (char_ text s) (fun d => MRet (one (kind k d) s)).
Proof.
  intros Hn Ht Hl. cbn [matchnode]. rewrite (get_nd _ _ _ Hn). cbn [mlift mbind]. rewrite Ht, Hl. cbn -[matchcclass].
  destruct (char_ text s); cbn -[matchcclass]; try reflexivity. rewrite matchcclass_spec. reflexivity.
Qed.
Lemma matchnode_any F i n s next : nd ns i n -> n_type n = OP_DOT ->
  matchnode ns icase text (S F) (zn i) s next = if len <? s then MUB else MRet (Some (S s)).
Proof. intros Hn Ht. cbn [matchnode]. rewrite (get_nd _ _ _ Hn). cbn [mlift mbind]. rewrite Ht. reflexivity. Qed.
Lemma matchnode_stop F i n s next : nd ns i n -> n_type n = OP_EOL ->
  matchnode ns icase text (S F) (zn i) s next = MRet (if s =? len then Some s else None).
Proof. intros Hn Ht. cbn [matchnode]. rewrite (get_nd _ _ _ Hn). cbn [mlift mbind]. rewrite Ht. reflexivity. Qed.
Lemma matchnode_start F i n s next : nd ns i n -> n_type n = OP_BOL ->
  matchnode ns icase text (S F) (zn i) s next = MRet (if s =? 0 then Some s else None).
Proof. intros Hn Ht. cbn [matchnode]. rewrite (get_nd _ _ _ Hn). cbn [mlift mbind]. rewrite Ht. reflexivity. Qed.
Lemma matchnode_set F i n s next (out : bool) : nd ns i n -> n_type n = (if out then OP_NCLASS else OP_CLASS) ->
  matchnode ns icase text (S F) (zn i) s next =
  mbind (char_ text s) (fun c => mbind (matchclass F ns icase (n_left n) c) (fun b => MRet (one (xorb out b) s))).
Proof.
  intros Hn Ht. cbn [matchnode]. rewrite (get_nd _ _ _ Hn). cbn [mlift mbind]. rewrite Ht.
  destruct (char_ text s) as [c| |]; cbn [mbind].
  - destruct out; cbn -[matchclass]; destruct (matchclass F ns icase (n_left n) c) as [[]| |]; reflexivity.
  - destruct out; reflexivity.
  - destruct out; reflexivity.
Qed.
Lemma matchnode_group F i n s next : nd ns i n -> n_type n = OP_EXPR \/ n_type n = OP_NOCAPEXPR ->
  matchnode ns icase text (S F) (zn i) s next = chain_loop ns (matchnode ns icase text F) F true (n_left n) s next.
Proof. intros Hn [Ht|Ht]; cbn [matchnode]; rewrite (get_nd _ _ _ Hn); cbn [mlift mbind]; rewrite Ht; reflexivity. Qed.
Lemma matchnode_or F i n s next : nd ns i n -> n_type n = OP_OR ->
  matchnode ns icase text (S F) (zn i) s next =
  mbind (chain_loop ns (matchnode ns icase text F) F false (n_left n) s (-1)) (fun r =>
    match r with Some s' => MRet (Some s') | None => chain_loop ns (matchnode ns icase text F) F false (n_right n) s (-1) end).
Proof. intros Hn Ht; cbn [matchnode]; rewrite (get_nd _ _ _ Hn); cbn [mlift mbind]; rewrite Ht; reflexivity. Qed.
Lemma matchnode_rep F i n s next : nd ns i n -> n_type n = OP_GREEDY ->
  matchnode ns icase text (S F) (zn i) s next =
  mbind (greedy_loop ns text (matchnode ns icase text F) F (n_left n) (if (n_next n =? -1)%Z then next else n_next n) next
           (minimum (n_right n)) (maximum (n_right n)) s s 0)
        (fun r => MRet (if enough (minimum (n_right n)) (maximum (n_right n)) (snd r) then Some (fst r) else None)).
Proof. intros Hn Ht; cbn [matchnode]; rewrite (get_nd _ _ _ Hn); cbn [mlift mbind]; rewrite Ht; reflexivity. Qed.

Lemma enough_spec p0 p1 n : enough p0 p1 n = true -> (p0 <= n)%Z /\ (p1 = 65535 \/ n <= p1)%Z.
Proof.
  unfold enough. rewrite !orb_true_iff, !andb_true_iff, !Z.eqb_eq, !Z.leb_le. lia.
Qed.

Lemma rep_sound ch lo hi i r : rep ns ch lo hi i r -> tame icase r ->
  forall F k inner s next s',
  (if ch then chain_loop ns (matchnode ns icase text F) k inner (zn i) s next else matchnode ns icase text F (zn i) s next) = MRet (Some s') ->
  ok r s s'.
Proof.
  induction 1 as [lo n c Hn Ht|lo n k Hn Ht Hl|lo n Hn Ht|lo n Hn Ht|lo n Hn Ht|lo n b Hn Ht Hl
    |lo hi n out j m js it its Hn Ht Hl Hj Hb Hm Hi Hs|lo hi n l r Hn Ht Hl Hr IH
    |lo mid hi n l q a b Hn Ht Hl Hq Ha IHa Hb IHb|lo hi n l m a min max Hn Ht Hl Hc Hm0 Hx0 Ha IHa
    |lo hi i n r Hr IH Hn Hx|lo mid hi i n j a b Ha IHa Hn Hx Hb IHb]; intros T F k' inner s next s'; try (destruct F as [|F]; [discriminate|]).
  - rewrite (matchnode_char _ _ _ _ _ _ Hn Ht). intros H. apply mbind_ret in H. destruct H as (d & Hd & H). injection H as H.
    apply one_some in H. destruct H as [E ->]. split; [lia|]. intros L. cbn [lang]. split; [reflexivity|]. exists d.
    split; [apply char_at; [exact Hd|lia]|]. apply same_char_spec. exact E.
  - rewrite (matchnode_kind _ _ _ _ _ _ Hn Ht Hl). intros H. apply mbind_ret in H. destruct H as (d & Hd & H). injection H as H.
    apply one_some in H. destruct H as [E ->]. split; [lia|]. intros L. cbn [lang]. split; [reflexivity|]. exists d.
    split; [apply char_at; [exact Hd|lia]|]. exact E.
  - rewrite (matchnode_any _ _ _ _ _ Hn Ht). destruct (len <? s); [discriminate|]. intros [= <-]. split; [lia|]. intros L. cbn [lang].
    split; [reflexivity|]. destruct (nth_error text s) eqn:E; [eauto|]. apply nth_error_None in E. fold len in E. lia.
  - rewrite (matchnode_stop _ _ _ _ _ Hn Ht). destruct (Nat.eqb_spec s len); [|discriminate]. intros [= <-]. split; [lia|]. intros _. cbn [lang]. auto.
  - rewrite (matchnode_start _ _ _ _ _ Hn Ht). destruct (Nat.eqb_spec s 0); [|discriminate]. intros [= <-]. split; [lia|]. intros _. cbn [lang]. auto.
  - destruct T.
  - rewrite (matchnode_set _ _ _ _ _ _ Hn Ht). intros H. apply mbind_ret in H. destruct H as (c & Hd & H).
    apply mbind_ret in H. destruct H as (b & Hb1 & H). injection H as H. apply one_some in H. destruct H as [E ->].
    rewrite Hl in Hb1. cbn [tame] in T. apply (matchclass_spec _ _ _ _ _ _ _ _ Hm Hi Hs T) in Hb1.
    split; [lia|]. intros L. cbn [lang]. split; [reflexivity|]. exists c.
    split; [apply char_at; [exact Hd|lia]|]. destruct out, b; try discriminate E.
    + intros X. apply Hb1 in X. discriminate.
    + apply Hb1. reflexivity.
  - rewrite (matchnode_group _ _ _ _ _ Hn Ht), Hl. intros H. exact (IH T _ _ _ _ _ _ H).
  - rewrite (matchnode_or _ _ _ _ _ Hn Ht), Hl, Hq. intros H. apply mbind_ret in H. destruct H as (o & Ho & H). destruct T as [Ta Tb].
    destruct o as [s1|].
    + injection H as <-. destruct (IHa Ta _ _ _ _ _ _ Ho) as [L1 L2]. split; [exact L1|]. intros L. left. exact (L2 L).
    + destruct (IHb Tb _ _ _ _ _ _ H) as [L1 L2]. split; [exact L1|]. intros L. right. exact (L2 L).
  - rewrite (matchnode_rep _ _ _ _ _ Hn Ht), Hl. intros H. apply mbind_ret in H. destruct H as ([good c] & Hg & H).
    destruct T as (Ta & Tmin & Tmax). cbn [fst snd] in H.
    destruct (enough (minimum (n_right n)) (maximum (n_right n)) c) eqn:E; [|discriminate]. injection H as <-.
    apply (greedy_sound _ a _ s) in Hg; [|intros s1 nx s2 H1; exact (IHa Ta _ 0 true _ _ _ H1)|lia|lia|intros _; reflexivity].
    destruct Hg as (N0 & L1 & L2). split; [exact L1|]. intros L. cbn [lang]. exists (Z.to_nat c).
    apply enough_spec in E. destruct Hc as [C1 C2]. rewrite C1, C2 in E. rewrite (Z.mod_small (Z.of_N min)) in E by lia.
    split; [lia|]. split; [|exact (L2 L)]. destruct max as [mx|]; [|exact Logic.I].
    rewrite Z.mod_small in E by lia. lia.
  - destruct k' as [|k']; cbn [chain_loop]; [discriminate|]. rewrite (get_nd _ _ _ Hn). cbn [mlift mbind].
    intros H. apply mbind_ret in H. destruct H as (o & Ho & H). destruct o as [s1|]; [|discriminate].
    rewrite Hx in H. change (-1 =? -1)%Z with true in H. cbv iota in H. injection H as <-. exact (IH T _ 0 true _ _ _ Ho).
  - destruct k' as [|k']; cbn [chain_loop]; [discriminate|]. rewrite (get_nd _ _ _ Hn). cbn [mlift mbind].
    intros H. apply mbind_ret in H. destruct H as (o & Ho & H). destruct o as [s1|]; [|discriminate].
    rewrite Hx, zn_nonneg in H. destruct T as [Ta Tb].
    destruct (IHa Ta _ 0 true _ _ _ Ho) as [L1 L2]. destruct (IHb Tb _ _ _ _ _ _ H) as [L3 L4].
    split; [lia|]. intros L. cbn [lang]. exists s1. split; [apply L2; lia|apply L4; exact L].
Qed.
End sound.
