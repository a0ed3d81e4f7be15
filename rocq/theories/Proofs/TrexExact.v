(** Simple expressions match whenever they should. *)
From Coq Require Import ZArith NArith Bool List Ascii String Lia.
From Verif.Base Require Import CInt CStr CMem.
From Verif.Model Require Import Trex.
From Verif.Spec Require Import RegexSpec.
From Verif.Proofs Require Import TrexChars TrexRep TrexTotal.
Import ListNotations.
Open Scope list_scope.
Open Scope nat_scope.

Section exact.
Variables (ns : list node) (icase : bool) (text : str).
Let len := List.length text.
Let run (ch : bool) (F k : nat) (inner : bool) (i : nat) (s : nat) (next : Z) : mat (option nat) :=
  if ch then chain_loop ns (matchnode ns icase text F) k inner (zn i) s next else matchnode ns icase text F (zn i) s next.

Lemma char_val s c : nth_error text s = Some c -> char_ text s = MRet c.
Proof.
  intros E. unfold char_, load, terminated, bytes. rewrite nth_error_app1.
  - rewrite (map_nth_error Some _ _ E). reflexivity.
  - rewrite map_length. apply nth_error_Some. congruence.
Qed.
Lemma char_end : char_ text len = MRet NUL.
Proof.
  unfold char_, load, terminated, bytes. rewrite nth_error_app2 by (rewrite map_length; apply le_n). rewrite map_length, Nat.sub_diag. reflexivity.
Qed.
Lemma mbind_out {A B} (m : mat A) (k : A -> mat B) : mbind m k <> MOut -> m <> MOut.
Proof. destruct m; cbn; congruence. Qed.
Lemma matchclass_val fuel j m js it its c : nd ns j m -> item_is m it -> seg ns j js its -> Forall (range_ok icase) (it :: its) ->
  matchclass fuel ns icase (zn j) c <> MOut ->
  exists b, matchclass fuel ns icase (zn j) c = MRet b /\ (b = true <-> Exists (fun it => has icase it c) (it :: its)).
Proof.
  intros Hm Hi Hs R H. destruct (matchclass fuel ns icase (zn j) c) as [b| |] eqn:E; [|exfalso|contradiction].
  - exists b. split; [reflexivity|]. eapply matchclass_spec; eassumption.
  - clear H R. revert j m js it its Hm Hi Hs E. induction fuel as [|fuel IH]; intros j m js it its Hm Hi Hs; cbn [matchclass]; [discriminate|].
    rewrite (get_nd _ _ _ Hm). cbn [mlift mbind]. destruct (in_item icase c m); [discriminate|].
    inversion Hs as [p n Hn Hx|p n j' m' js' it' its' Hn Hx Hj Hm' Hi' Hs']; subst.
    + assert (n = m) as -> by (unfold nd in *; congruence). rewrite Hx. discriminate.
    + assert (n = m) as -> by (unfold nd in *; congruence). rewrite Hx, zn_nonneg. exact (IH _ _ _ _ _ Hm' Hi' Hs').
Qed.

Lemma plain_complete ch lo hi i r : rep ns ch lo hi i r -> plain r -> tame icase r -> forall F k inner s next s',
  lang icase text r s s' -> run ch F k inner i s next <> MOut -> run ch F k inner i s next = MRet (Some s').
Proof.
  unfold run. induction 1 as [lo n c Hn Ht|lo n k Hn Ht Hl|lo n Hn Ht|lo n Hn Ht|lo n Hn Ht|lo n b Hn Ht Hl
    |lo hi n out j m js it its Hn Ht Hl Hj Hb Hm Hi Hs|lo hi n l r Hn Ht Hl Hr IH
    |lo mid hi n l q a b Hn Ht Hl Hq Ha IHa Hb IHb|lo hi n l m a min max Hn Ht Hl Hc Hm0 Hx0 Ha IHa
    |lo hi i n r Hr IH Hn Hx|lo mid hi i n j a b Ha IHa Hn Hx Hb IHb]; intros P T F k' inner s next s' Hl' H; try (destruct F as [|F]; [contradiction|]); try (destruct P; fail).
  - rewrite (matchnode_char _ _ _ _ _ _ _ _ _ Hn Ht) in *. destruct Hl' as (-> & d & E & Sm). rewrite (char_val _ _ E) in *. cbn [mbind].
    rewrite (proj2 (same_char_spec icase d c) Sm). reflexivity.
  - rewrite (matchnode_kind _ _ _ _ _ _ _ _ _ Hn Ht Hl) in *. destruct Hl' as (-> & d & E & Sm). rewrite (char_val _ _ E) in *. cbn [mbind].
    rewrite Sm. reflexivity.
  - rewrite (matchnode_any _ _ _ _ _ _ _ _ Hn Ht) in *. destruct Hl' as (-> & d & E). assert (s < len) by (apply nth_error_Some; congruence).
    unfold len in *. destruct (Nat.ltb_spec (List.length text) s); [lia|reflexivity].
  - rewrite (matchnode_stop _ _ _ _ _ _ _ _ Hn Ht) in *. destruct Hl' as (-> & ->). rewrite Nat.eqb_refl. reflexivity.
  - rewrite (matchnode_start _ _ _ _ _ _ _ _ Hn Ht) in *. destruct Hl' as (-> & ->). reflexivity.
  - rewrite (matchnode_set _ _ _ _ _ _ _ _ _ Hn Ht) in *. destruct Hl' as (-> & d & E & Sm). rewrite (char_val _ _ E) in *. cbn [mbind] in *.
    rewrite Hl in *. destruct (matchclass_val _ _ _ _ _ _ d Hm Hi Hs T (mbind_out _ _ H)) as (b & Eb & Hb1). rewrite Eb. cbn [mbind].
    assert (xorb out b = true) as ->; [|reflexivity].
    destruct out, b; cbn; try reflexivity; exfalso.
    + apply Sm. apply Hb1. reflexivity.
    + apply Hb1 in Sm. discriminate.
  - rewrite (matchnode_group _ _ _ _ _ _ _ _ Hn Ht), Hl in *. exact (IH P T F F true s next s' Hl' H).
  - destruct k' as [|k']; [contradiction|]. cbn [chain_loop] in *. rewrite (get_nd _ _ _ Hn) in *. cbn [mlift mbind] in *.
    assert (E := IH P T F 0 true s _ s' Hl' (mbind_out _ _ H)). rewrite E. cbn [mbind]. rewrite Hx. reflexivity.
  - destruct k' as [|k']; [contradiction|]. cbn [chain_loop] in *. rewrite (get_nd _ _ _ Hn) in *. cbn [mlift mbind] in *.
    destruct P as [Pa Pb]. destruct T as [Ta Tb]. destruct Hl' as (x & La & Lb).
    assert (E := IHa Pa Ta F 0 true s _ x La (mbind_out _ _ H)). rewrite E in *. cbn [mbind] in *. rewrite Hx, zn_nonneg in *.
    exact (IHb Pb Tb F k' inner x next s' Lb H).
Qed.
(** A single character, and the end of the text. *)
Lemma single_match ch lo hi i r : rep ns ch lo hi i r -> single r -> stays r -> tame icase r -> forall F k inner s next,
  s <= len -> run ch F k inner i s next <> MOut ->
  exists o, run ch F k inner i s next = MRet o /\ (forall s', o = Some s' <-> lang icase text r s s').
Proof.
  intros H1 H2 H3 H4 F k inner s next L H. destruct (Nat.eq_dec s len) as [->|D].
  - exists None. split.
    + revert F k inner next H2 H3 H H4. unfold run. induction H1 as [lo n c Hn Ht|lo n k Hn Ht Hl|lo n Hn Ht|lo n Hn Ht|lo n Hn Ht|lo n b Hn Ht Hl
    |lo hi n out j m js it its Hn Ht Hl Hj Hb Hm Hi Hs|lo hi n l r Hn Ht Hl Hr IH
    |lo mid hi n l q a b Hn Ht Hl Hq Ha IHa Hb IHb|lo hi n l m a min max Hn Ht Hl Hc Hm0 Hx0 Ha IHa
    |lo hi i n r Hr IH Hn Hx|lo mid hi i n j a b Ha IHa Hn Hx Hb IHb]; intros F k' inner next H2 H3 H H4; try (destruct F as [|F]; [contradiction|]); try (destruct H2; fail).
      * rewrite (matchnode_char _ _ _ _ _ _ _ _ _ Hn Ht) in *. rewrite char_end. cbn [mbind]. rewrite (same_nul ns icase text c H3). reflexivity.
      * rewrite (matchnode_kind _ _ _ _ _ _ _ _ _ Hn Ht Hl) in *. rewrite char_end. cbn [mbind]. rewrite H3. reflexivity.
      * rewrite (matchnode_set _ _ _ _ _ _ _ _ _ Hn Ht) in *. rewrite char_end in *. cbn [mbind] in *. destruct H3 as [-> H3].
        rewrite Hl in *. destruct (matchclass_val _ _ _ _ _ _ NUL Hm Hi Hs H4 (mbind_out _ _ H)) as (b & Eb & Hb1). rewrite Eb. cbn [mbind xorb].
        assert (b = false) as ->; [|reflexivity]. destruct b; [|reflexivity]. exfalso.
        assert (X := proj1 Hb1 eq_refl). clear -X H3 H4 Hi Hs Hm text. apply Exists_exists in X. destruct X as (x & I0 & X).
        rewrite Forall_forall in H3. cbn [tame] in H4. rewrite Forall_forall in H4. specialize (H3 _ I0). specialize (H4 _ I0).
        assert (exists nn, item_is nn x) as (nn & Hnn).
        { destruct x as [d|a b|k]; [exists (mkN (sgn d) 0 0 0)|exists (mkN OP_RANGE (sgn a) (sgn b) 0)|exists (mkN OP_CCLASS (sgn k) 0 0)]; cbn; auto. }
        apply (in_item_spec icase text nn x NUL Hnn H4) in X. rewrite (in_item_nul ns icase text nn x Hnn H3) in X. discriminate.
      * rewrite (matchnode_group _ _ _ _ _ _ _ _ Hn Ht), Hl in *. exact (IH F F true next H2 H3 H H4).
      * destruct k' as [|k']; [contradiction|]. cbn [chain_loop] in *. rewrite (get_nd _ _ _ Hn) in *. cbn [mlift mbind] in *.
        assert (E := IH F 0 true _ H2 H3 (mbind_out _ _ H) H4). rewrite E. reflexivity.
    + intros s'. split; [discriminate|]. intros X. exfalso. assert (Y : nth_error text len = None) by (apply nth_error_None; apply le_n).
      destruct r; try destruct H2; cbn [lang] in X; destruct X as (_ & c0 & X & _); congruence.
  - destruct (nth_error text s) as [d|] eqn:E; [|apply nth_error_None in E; unfold len, str in *; lia].
    assert (exists o, run ch F k inner i s next = MRet o) as (o & Eo).
    { destruct (run ch F k inner i s next) as [o| |] eqn:X; [eauto|exfalso|contradiction]. clear H D.
      revert F k inner next H2 H3 H4 X. unfold run. induction H1 as [lo n c Hn Ht|lo n k Hn Ht Hl|lo n Hn Ht|lo n Hn Ht|lo n Hn Ht|lo n b Hn Ht Hl
    |lo hi n out j m js it its Hn Ht Hl Hj Hb Hm Hi Hs|lo hi n l r Hn Ht Hl Hr IH
    |lo mid hi n l q a b Hn Ht Hl Hq Ha IHa Hb IHb|lo hi n l m a min max Hn Ht Hl Hc Hm0 Hx0 Ha IHa
    |lo hi i n r Hr IH Hn Hx|lo mid hi i n j a b Ha IHa Hn Hx Hb IHb]; intros F k' inner next H2 H3 H4 X; try (destruct F as [|F]; [discriminate|]); try (destruct H2; fail).
      * rewrite (matchnode_char _ _ _ _ _ _ _ _ _ Hn Ht), (char_val _ _ E) in X. discriminate.
      * rewrite (matchnode_kind _ _ _ _ _ _ _ _ _ Hn Ht Hl), (char_val _ _ E) in X. discriminate.
      * rewrite (matchnode_set _ _ _ _ _ _ _ _ _ Hn Ht), (char_val _ _ E) in X. cbn [mbind] in X. rewrite Hl in X.
        assert (Y : matchclass F ns icase (zn j) d <> MOut) by (intros Y; rewrite Y in X; discriminate).
        destruct (matchclass_val _ _ _ _ _ _ d Hm Hi Hs H4 Y) as (b & Eb & _). rewrite Eb in X. discriminate.
      * rewrite (matchnode_group _ _ _ _ _ _ _ _ Hn Ht), Hl in X. exact (IH F F true next H2 H3 H4 X).
      * destruct k' as [|k']; [discriminate|]. cbn [chain_loop] in X. rewrite (get_nd _ _ _ Hn) in X. cbn [mlift mbind] in X. rewrite Hx in X.
        destruct (matchnode ns icase text F (zn i) s _) as [[s1|]| |] eqn:Y in X; try discriminate. exact (IH F 0 true _ H2 H3 H4 Y). }
    exists o. split; [exact Eo|]. intros s'. split.
    + intros ->. unfold run in Eo. destruct (rep_sound _ _ _ _ _ _ _ _ H1 H4 _ _ _ _ _ _ Eo) as [X1 X2].
      assert (s' = S s) as ->; [|apply X2; unfold len in *; lia].
      destruct (Nat.le_gt_cases s' len) as [Y|Y].
      * specialize (X2 Y). destruct r; try destruct H2; cbn [lang] in X2; exact (proj1 X2).
      * exfalso. revert Eo Y.
        assert (Z0 : forall ch lo hi i r, rep ns ch lo hi i r -> single r -> forall F k inner next s', run ch F k inner i s next = MRet (Some s') -> s' = S s).
        { clear. unfold run. induction 1 as [lo n c Hn Ht|lo n k Hn Ht Hl|lo n Hn Ht|lo n Hn Ht|lo n Hn Ht|lo n b Hn Ht Hl
    |lo hi n out j m js it its Hn Ht Hl Hj Hb Hm Hi Hs|lo hi n l r Hn Ht Hl Hr IH
    |lo mid hi n l q a b Hn Ht Hl Hq Ha IHa Hb IHb|lo hi n l m a min max Hn Ht Hl Hc Hm0 Hx0 Ha IHa
    |lo hi i n r Hr IH Hn Hx|lo mid hi i n j a b Ha IHa Hn Hx Hb IHb]; intros H2 F k' inner next s' X; try (destruct F as [|F]; [discriminate|]); try (destruct H2; fail).
          - rewrite (matchnode_char _ _ _ _ _ _ _ _ _ Hn Ht) in X. apply mbind_ret in X. destruct X as (? & _ & X). injection X as X. exact (proj2 (one_some _ _ _ X)).
          - rewrite (matchnode_kind _ _ _ _ _ _ _ _ _ Hn Ht Hl) in X. apply mbind_ret in X. destruct X as (? & _ & X). injection X as X. exact (proj2 (one_some _ _ _ X)).
          - rewrite (matchnode_set _ _ _ _ _ _ _ _ _ Hn Ht) in X. apply mbind_ret in X. destruct X as (? & _ & X). apply mbind_ret in X. destruct X as (? & _ & X). injection X as X. exact (proj2 (one_some _ _ _ X)).
          - rewrite (matchnode_group _ _ _ _ _ _ _ _ Hn Ht), Hl in X. exact (IH H2 F F true next s' X).
          - destruct k' as [|k']; [discriminate|]. cbn [chain_loop] in X. rewrite (get_nd _ _ _ Hn) in X. cbn [mlift mbind] in X. rewrite Hx in X.
            destruct (matchnode ns icase text F (zn i) s _) as [[s1|]| |] eqn:Y in X; try discriminate. injection X as <-. exact (IH H2 F 0 true _ _ Y). }
        intros Eo Y. rewrite (Z0 _ _ _ _ _ H1 H2 _ _ _ _ _ Eo) in Y. assert (s < len) by (apply nth_error_Some; congruence). lia.
    + intros X. assert (P : plain r) by (destruct r; try destruct H2; exact Logic.I).
      rewrite (plain_complete _ _ _ _ _ H1 P H4 F k inner s next s' X H) in Eo. congruence.
Qed.
Lemma stop_match ch lo hi i r : rep ns ch lo hi i r -> r = Stop -> forall F k inner s next, run ch F k inner i s next <> MOut ->
  run ch F k inner i s next = MRet (if s =? len then Some s else None).
Proof.
  unfold run. induction 1 as [lo n c Hn Ht|lo n k Hn Ht Hl|lo n Hn Ht|lo n Hn Ht|lo n Hn Ht|lo n b Hn Ht Hl
    |lo hi n out j m js it its Hn Ht Hl Hj Hb Hm Hi Hs|lo hi n l r Hn Ht Hl Hr IH
    |lo mid hi n l q a b Hn Ht Hl Hq Ha IHa Hb IHb|lo hi n l m a min max Hn Ht Hl Hc Hm0 Hx0 Ha IHa
    |lo hi i n r Hr IH Hn Hx|lo mid hi i n j a b Ha IHa Hn Hx Hb IHb]; intros Er F k' inner s next H; try discriminate; try (destruct F as [|F]; [contradiction|]).
  - rewrite (matchnode_stop _ _ _ _ _ _ _ _ Hn Ht) in *. reflexivity.
  - rewrite (matchnode_group _ _ _ _ _ _ _ _ Hn Ht), Hl in *. exact (IH Er F F true s next H).
  - destruct k' as [|k']; [contradiction|]. cbn [chain_loop] in *. rewrite (get_nd _ _ _ Hn) in *. cbn [mlift mbind] in *.
    assert (E := IH Er F 0 true s _ (mbind_out _ _ H)). rewrite E. cbn [mbind]. destruct (s =? len); [rewrite Hx|]; reflexivity.
Qed.

(** What may come behind a repetition: nothing, or the end of the text. *)
Definition quiet (next : Z) : Prop := next = (-1)%Z \/ exists j lo hi, next = zn j /\ rep ns true lo hi j Stop.
Lemma quiet_head j lo hi : rep ns true lo hi j Stop -> exists g, nd ns j g /\ n_next g = (-1)%Z /\ (n_type g =? OP_GREEDY)%Z = false /\ rep ns false lo hi j Stop.
Proof.
  intros H. inversion H as [| | | | | | | | | |lo0 hi0 i n r Hr Hn Hx|]; subst. exists n. split; [exact Hn|]. split; [exact Hx|]. split; [|exact Hr].
  inversion Hr as [| | |lo0 m Hm Ht| | | |lo0 hi0 m l r Hm Ht Hl _| | | |]; subst; assert (m = n) as -> by (unfold nd in *; congruence).
  - rewrite Ht. reflexivity.
  - destruct Ht as [Ht|Ht]; rewrite Ht; reflexivity.
Qed.
Lemma follow_quiet next stop_ : quiet next -> quiet stop_ -> stop_ <> (-1)%Z -> exists g gn, get ns stop_ = Val g /\ (n_type g =? OP_GREEDY)%Z = false /\
  (if negb (n_next g =? -1)%Z then MRet (n_next g) else if (next =? -1)%Z then MRet (-1)%Z else mbind (mlift (get ns next)) (fun nn => MRet (n_next nn))) = MRet gn.
Proof.
  intros Hq [->|(j & lo & hi & -> & R)] D; [contradiction|]. destruct (quiet_head _ _ _ R) as (g & Hg & Hx & Ht & _).
  exists g. rewrite (get_nd _ _ _ Hg), Hx. change (negb (-1 =? -1)%Z) with false. cbv iota.
  destruct Hq as [->|(j' & lo' & hi' & -> & R')].
  - exists (-1)%Z. auto.
  - destruct (quiet_head _ _ _ R') as (g' & Hg' & _). rewrite zn_nonneg, (get_nd _ _ _ Hg'). cbn [mlift mbind]. exists (n_next g'). auto.
Qed.
Lemma greedy_complete F (a : rx) left lo hi i : left = zn i -> rep ns false lo hi i a -> single a -> stays a -> tame icase a ->
  forall stop_ next p0 p1, quiet next -> quiet stop_ -> forall k j s n, times (lang icase text a) j s len -> s <= len -> (0 <= n)%Z ->
  (n + Z.of_nat j < 65535)%Z -> (p1 = 65535 \/ n + Z.of_nat j <= p1)%Z ->
  greedy_loop ns text (matchnode ns icase text F) k left stop_ next p0 p1 s s n <> MOut ->
  greedy_loop ns text (matchnode ns icase text F) k left stop_ next p0 p1 s s n = MRet (len, n + Z.of_nat j)%Z.
Proof.
  intros -> R S1 S2 T stop_ next p0 p1 Qn Qs. induction k as [|k IH]; intros j s n Ht L N0 B P H; [contradiction|]. cbn [greedy_loop] in *.
  destruct j as [|j].
  - cbn [times] in Ht. subst s. replace (n + Z.of_nat 0)%Z with n by lia. destruct ((n =? 65535)%Z || (n <? p1)%Z); [|reflexivity].
    destruct (single_match _ _ _ _ _ R S1 S2 T F 0 true len stop_ (le_n _) (mbind_out _ _ H)) as (o & Eo & Ho). unfold run in Eo. cbv iota in Eo. rewrite Eo. cbn [mbind].
    destruct o as [s'|]; [|reflexivity]. exfalso. assert (X := proj1 (Ho s') eq_refl).
    assert (Y : nth_error text len = None) by (apply nth_error_None; apply le_n).
    destruct a; try destruct S1; cbn [lang] in X; destruct X as (_ & c0 & X & _); congruence.
  - cbn [times] in Ht. destruct Ht as (s1 & Hl & Ht).
    assert (Ec : ((n =? 65535)%Z || (n <? p1)%Z) = true) by (rewrite orb_true_iff, Z.ltb_lt; right; lia). rewrite Ec in *.
    assert (s1 = S s /\ s < len) as [-> Ls].
    { assert (X : s1 = S s /\ exists c, nth_error text s = Some c).
      { destruct a; try destruct S1; cbn [lang] in Hl; destruct Hl as (E & c0 & X & _); eauto. }
      destruct X as [X (c0 & X2)]. split; [exact X|]. apply nth_error_Some. congruence. }
    assert (Es := plain_complete _ _ _ _ _ R ltac:(destruct a; try destruct S1; exact Logic.I) T F 0 true s stop_ (S s) Hl (mbind_out _ _ H)).
    unfold run in Es. cbv iota in Es. rewrite Es in *. cbn [mbind] in *.
    assert (Est : exists b, (if (stop_ =? -1)%Z then MRet false
               else mbind (mlift (get ns stop_)) (fun g =>
                    if negb (n_type g =? OP_GREEDY)%Z || negb (minimum (n_right g) =? 0)%Z then
                      mbind
                        (if negb (n_next g =? -1)%Z then MRet (n_next g)
                         else if (next =? -1)%Z then MRet (-1)%Z
                         else mbind (mlift (get ns next)) (fun nn => MRet (n_next nn))) (fun gnext =>
                      mbind (matchnode ns icase text F stop_ (S s) gnext) (fun stop =>
                      MRet (match stop with Some _ => enough p0 p1 (n + 1) | None => false end)))
                    else MRet false)) = MRet b /\ (b = true -> S s = len)).
    { destruct (Z.eqb_spec stop_ (-1)) as [E|D]; [exists false; split; [reflexivity|discriminate]|].
      destruct (follow_quiet _ _ Qn Qs D) as (g & gn & Eg & Hg & Ef). assert (X := mbind_out _ _ H).
      rewrite Eg in *. cbn [mlift mbind] in *. rewrite Hg in *. cbn [negb orb] in *. cbv iota in *. rewrite Ef in *. cbn [mbind] in *.
      destruct Qs as [->|(j0 & lo0 & hi0 & -> & R0)]; [contradiction|]. destruct (quiet_head _ _ _ R0) as (_ & _ & _ & _ & R1).
      assert (E1 := stop_match _ _ _ _ _ R1 eq_refl F 0 true (S s) gn (mbind_out _ _ X)). unfold run in E1. cbv iota in E1. rewrite E1. cbn [mbind]. fold len.
      destruct (Nat.eqb_spec (S s) len) as [E2|E2]; eexists; (split; [reflexivity|]); intros X0; first [assumption|discriminate X0]. }
    destruct Est as (b & Est & Hb). rewrite Est in *. cbn [mbind] in *. 
    assert (End_ : S s = len -> j = 0).
    { intros E. destruct j as [|j]; [reflexivity|]. exfalso. cbn [times] in Ht. destruct Ht as (s2 & X & _).
      assert (Y : nth_error text (S s) = None) by (apply nth_error_None; fold len; lia).
      destruct a; try destruct S1; cbn [lang] in X; destruct X as (_ & c0 & X & _); congruence. }
    destruct b.
    + specialize (Hb eq_refl). specialize (End_ Hb). subst j. rewrite Hb. reflexivity.
    + fold len in H |- *. destruct (Nat.leb_spec len (S s)) as [X|X].
      * assert (E : S s = len) by lia. specialize (End_ E). subst j. rewrite E. reflexivity.
      * replace (n + Z.of_nat (S j))%Z with (n + 1 + Z.of_nat j)%Z by lia. apply IH; try assumption; lia.
Qed.
Hypothesis Hlen : (Z.of_nat len < 65535)%Z.
Lemma times_length a j s : single a -> times (lang icase text a) j s len -> s + j = len.
Proof.
  intros S1. revert s. induction j as [|j IH]; intros s; cbn [times]; [lia|]. intros (k & Hl & Ht). specialize (IH _ Ht).
  assert (k = S s) by (destruct a; try destruct S1; cbn [lang] in Hl; exact (proj1 Hl)). lia.
Qed.
Lemma simple_complete ch lo hi i r : rep ns ch lo hi i r -> simple r -> tame icase r -> forall F k inner s next,
  lang icase text r s len -> quiet next -> (ch = false -> forall n, nd ns i n -> quiet (n_next n)) ->
  run ch F k inner i s next <> MOut -> run ch F k inner i s next = MRet (Some len).
Proof.
  intros R. induction R as [lo n c Hn Ht|lo n k Hn Ht Hl|lo n Hn Ht|lo n Hn Ht|lo n Hn Ht|lo n b Hn Ht Hl
    |lo hi n out j m js it its Hn Ht Hl Hj Hb Hm Hi Hs|lo hi n l r Hn Ht Hl Hr IH
    |lo mid hi n l q a b Hn Ht Hl Hq Ha IHa Hb IHb|lo hi n l m a min max Hn Ht Hl Hc Hm0 Hx0 Ha IHa
    |lo hi i n r Hr IH Hn Hx|lo mid hi i n j a b Ha IHa Hn Hx Hb IHb]; intros Sm T F k' inner s next Hl' Qn Qx H.
  - assert (R : rep ns false lo (S lo) lo (Char c)) by (econstructor; eassumption). exact (plain_complete _ _ _ _ _ R Logic.I T _ _ _ _ _ _ Hl' H).
  - assert (R : rep ns false lo (S lo) lo (Kind k)) by (eapply r_kind; eassumption). exact (plain_complete _ _ _ _ _ R Logic.I T _ _ _ _ _ _ Hl' H).
  - assert (R : rep ns false lo (S lo) lo Any) by (eapply r_any; eassumption). exact (plain_complete _ _ _ _ _ R Logic.I T _ _ _ _ _ _ Hl' H).
  - assert (R : rep ns false lo (S lo) lo Stop) by (eapply r_stop; eassumption). exact (plain_complete _ _ _ _ _ R Logic.I T _ _ _ _ _ _ Hl' H).
  - assert (R : rep ns false lo (S lo) lo Start) by (eapply r_start; eassumption). exact (plain_complete _ _ _ _ _ R Logic.I T _ _ _ _ _ _ Hl' H).
  - destruct T.
  - assert (R : rep ns false lo hi lo (Set_ out (it :: its))) by (eapply r_set; eassumption). exact (plain_complete _ _ _ _ _ R Logic.I T _ _ _ _ _ _ Hl' H).
  - cbn [run] in *. unfold run in *. destruct F as [|F]; [contradiction|].
    rewrite (matchnode_group _ _ _ _ _ _ _ _ Hn Ht), Hl in *. exact (IH Sm T F F true s next Hl' Qn ltac:(discriminate) H).
  - inversion Sm as [r P| | |]; subst. destruct P.
  - unfold run in *. destruct F as [|F]; [contradiction|]. inversion Sm as [r P|a0 mn mx Sa St| |]; subst; [destruct P|].
    rewrite (matchnode_rep _ _ _ _ _ _ _ _ Hn Ht), Hl in *. destruct Hl' as (c & C1 & C2 & C3). destruct T as (Ta & T1 & T2).
    pose proof (times_length _ _ _ Sa C3). destruct Hc as [E1 E2].
    assert (P1 : minimum (n_right n) = Z.of_N min) by (rewrite E1; apply Z.mod_small; lia).
    assert (P2 : maximum (n_right n) = match max with Some m => Z.of_N m | None => 65535%Z end)
      by (rewrite E2; destruct max; [apply Z.mod_small; lia|reflexivity]).
    assert (G := greedy_complete F a (zn l) lo hi l eq_refl Ha Sa St Ta (if (n_next n =? -1)%Z then next else n_next n) next (minimum (n_right n)) (maximum (n_right n)) Qn).
    assert (Qs : quiet (if (n_next n =? -1)%Z then next else n_next n)) by (destruct (n_next n =? -1)%Z; [exact Qn|exact (Qx eq_refl n Hn)]).
    specialize (G Qs F c s 0%Z C3 ltac:(lia) ltac:(lia) ltac:(lia)).
    rewrite G; [|rewrite P2; destruct max; [right; lia|left; reflexivity]|exact (mbind_out _ _ H)].
    cbn [mbind fst snd]. assert (enough (minimum (n_right n)) (maximum (n_right n)) (0 + Z.of_nat c) = true) as ->; [|reflexivity].
    rewrite P1, P2. unfold enough. rewrite !orb_true_iff, !andb_true_iff, !Z.eqb_eq, !Z.leb_le. destruct max; [right; lia|left; right; lia].
  - unfold run in *. destruct k' as [|k']; [contradiction|]. cbn [chain_loop] in *. rewrite (get_nd _ _ _ Hn) in *. cbn [mlift mbind] in *.
    assert (Q1 : quiet (if inner then if (n_next n =? -1)%Z then next else n_next n else (-1)%Z)).
    { rewrite Hx. destruct inner; [exact Qn|left; reflexivity]. }
    assert (Q2 : false = false -> forall n0, nd ns i n0 -> quiet (n_next n0)).
    { intros _ n0 H0. assert (n0 = n) as -> by (unfold nd in *; congruence). left. exact Hx. }
    assert (E := IH Sm T F 0 true s _ Hl' Q1 Q2 (mbind_out _ _ H)). rewrite E. cbn [mbind]. rewrite Hx. reflexivity.
  - unfold run in *. destruct k' as [|k']; [contradiction|]. cbn [chain_loop] in *. rewrite (get_nd _ _ _ Hn) in *. cbn [mlift mbind] in *.
    rewrite Hx, zn_nonneg in *. destruct T as [Ta Tb]. destruct Hl' as (x & La & Lb).
    assert (Pl : plain a -> simple b -> mbind (matchnode ns icase text F (zn i) s (if inner then zn j else (-1)%Z))
         (fun r => match r with Some s0 => chain_loop ns (matchnode ns icase text F) k' inner (zn j) s0 next | None => MRet None end) = MRet (Some len)).
    { intros P1 P2. assert (E := plain_complete _ _ _ _ _ Ha P1 Ta F 0 true s _ x La (mbind_out _ _ H)). unfold run in E. cbv iota in E. rewrite E in *. cbn [mbind] in *.
      exact (IHb P2 Tb F k' inner x next Lb Qn ltac:(discriminate) H). }
    inversion Sm as [r P|a0 mn mx Sa St|a0 mn mx Sa St|a0 b0 P1 P2]; subst.
    + destruct P as [P1 P2]. apply Pl; [exact P1|apply simple_plain; exact P2].
    + destruct Lb as (-> & Ex). 
      assert (Q1 : quiet (if inner then zn j else (-1)%Z)) by (destruct inner; [right; eexists _, _, _; eauto|left; reflexivity]).
      assert (Q2 : false = false -> forall n0, nd ns i n0 -> quiet (n_next n0)).
      { intros _ n0 H0. assert (n0 = n) as -> by (unfold nd in *; congruence). right. rewrite Hx. eexists _, _, _; eauto. }
      assert (E := IHa (simple_rep _ _ _ Sa St) Ta F 0 true s _ La Q1 Q2 (mbind_out _ _ H)). rewrite E in *. cbn [mbind] in *.
      assert (E2 := stop_match _ _ _ _ _ Hb eq_refl F k' inner len next H). unfold run in E2. cbv iota in E2. rewrite E2. rewrite Nat.eqb_refl. reflexivity.
    + exact (Pl P1 P2).
Qed.
End exact.
