(** Matching with the positions of sub-expressions is matching, and what it does with them. *)
From Coq Require Import ZArith NArith Bool List Ascii String Lia.
From Verif.Base Require Import CInt CStr CMem.
From Verif.Model Require Import ArgInt Trex TrexSearch.
From Verif.Proofs Require Import TrexGroups.
Import ListNotations.
Open Scope list_scope.
Open Scope nat_scope.

Lemma length_put l i p : List.length (put l i p) = List.length l.
Proof. revert i. induction l as [|q l IH]; intros [|i]; cbn; auto. Qed.
Lemma nth_put l i p j : nth_error (put l i p) j = if (j =? i) && (i <? List.length l) then Some p else nth_error l j.
Proof.
  revert i j. induction l as [|q l IH]; intros [|i] [|j]; cbn -[Nat.ltb]; auto.
  - rewrite andb_false_r. reflexivity.
  - rewrite IH. reflexivity.
Qed.

Section subs.
Variables (ns : list node) (icase : bool) (tid : nat) (text : str) (nsub : Z).
Hypothesis Hnum : numbered ns nsub.
Hypothesis Hmax : (nsub <= INT_MAX)%Z.
Local Notation len := (List.length text).

Definition ok (st : subs) : Prop := List.length (s_at st) = Z.to_nat nsub /\ (0 <= s_cur st)%Z.
(** A place that this text gave: none, or a part of the text with its terminator. *)
Definition given (lo : nat) (p : place) : Prop :=
  p = nowhere \/ exists b e, lo <= b <= e /\ e <= S len /\ p = (Some (tid, b), cast_int (Z.of_nat e - Z.of_nat b)).
Definition step (lo : nat) (st st' : subs) : Prop :=
  ok st' /\ (s_cur st <= s_cur st')%Z /\
  (forall k, (Z.of_nat k < s_cur st)%Z -> nth_error (s_at st') k = nth_error (s_at st) k) /\
  (forall k p, nth_error (s_at st') k = Some p -> nth_error (s_at st) k = Some p \/ given lo p).
Lemma given_le lo lo' p : given lo' p -> lo <= lo' -> given lo p.
Proof. intros [->|(b & e & H1 & H2 & H3)] L; [left; reflexivity|]. right. exists b, e. repeat split; try assumption; lia. Qed.
Lemma step_refl lo st : ok st -> step lo st st.
Proof. intros H. split; [exact H|]. split; [lia|]. auto. Qed.
Lemma step_trans lo lo' a b c : step lo a b -> step lo' b c -> lo <= lo' -> step lo a c.
Proof.
  intros (O1 & L1 & K1 & G1) (O2 & L2 & K2 & G2) L. split; [exact O2|]. split; [lia|]. split.
  - intros k Hk. rewrite K2 by lia. apply K1. exact Hk.
  - intros k p Hp. destruct (G2 k p Hp) as [H|H]; [apply G1; exact H|]. right. exact (given_le _ _ _ H L).
Qed.

(** [c] does what [m] does. *)
Definition sim {A} (s : nat) (P : A -> Prop) (m : mat A) (c : sm A) : Prop := forall st, ok st ->
  match m with MRet a => exists st', c st = MRet (a, st') /\ step s st st' /\ P a | MUB => c st = MUB | MOut => c st = MOut end.
Lemma sim_ret {A} s (P : A -> Prop) a : P a -> sim s P (MRet a) (sret a).
Proof. intros H st O. exists st. split; [reflexivity|]. split; [apply step_refl; exact O|exact H]. Qed.
Lemma sim_lift {A} s (P : A -> Prop) m : (forall a, m = MRet a -> P a) -> sim s P m (slift m).
Proof.
  intros H st O. unfold slift. destruct m as [a| |]; cbn [mbind]; auto. exists st. split; [reflexivity|]. split; [apply step_refl; exact O|auto].
Qed.
Lemma sim_bind {A B} s (Q : A -> Prop) (P : B -> Prop) m c k l :
  sim s Q m c -> (forall a, Q a -> exists s', s <= s' /\ sim s' P (k a) (l a)) -> sim s P (mbind m k) (sbind c l).
Proof.
  intros H1 H2 st O. specialize (H1 st O). unfold sbind. destruct m as [a| |]; cbn [mbind]; [|rewrite H1; reflexivity|rewrite H1; reflexivity].
  destruct H1 as (st1 & E1 & S1 & Qa). rewrite E1. destruct (H2 a Qa) as (s' & L & H3). specialize (H3 st1 (proj1 S1)).
  destruct (k a) as [b| |]; [|exact H3|exact H3]. destruct H3 as (st2 & E2 & S2 & Pb). exists st2. split; [exact E2|]. split; [|exact Pb].
  exact (step_trans _ _ _ _ _ S1 S2 L).
Qed.
Lemma sim_bind0 {A B} s (Q : A -> Prop) (P : B -> Prop) m c k l :
  sim s Q m c -> (forall a, Q a -> sim s P (k a) (l a)) -> sim s P (mbind m k) (sbind c l).
Proof. intros H1 H2. eapply sim_bind; [exact H1|]. intros a Ha. exists s. split; [apply le_n|exact (H2 a Ha)]. Qed.
Lemma sim_out {A} s (P : A -> Prop) : sim s P MOut sout.
Proof. intros st O. reflexivity. Qed.

(** A position that follows [s]. *)
Definition pos (s : nat) (o : option nat) : Prop := forall s', o = Some s' -> s <= s' <= S len.
Definition simm (m : Z -> nat -> Z -> mat (option nat)) (c : Z -> nat -> Z -> sm (option nat)) : Prop :=
  forall i s next, s <= S len -> sim s (pos s) (m i s next) (c i s next).

Lemma sim_chain m c : simm m c -> forall k inner i s next, s <= S len ->
  sim s (pos s) (chain_loop ns m k inner i s next) (s_chain ns c k inner i s next).
Proof.
  intros Hm. induction k as [|k IH]; intros inner i s next L; [apply sim_out|]. cbn [chain_loop s_chain].
  eapply sim_bind0; [apply sim_lift with (P := fun _ => True); auto|]. intros n _.
  eapply sim_bind; [apply Hm; exact L|]. intros [s'|] Ps.
  - destruct (Ps s' eq_refl) as [L1 L2]. exists s'. split; [exact L1|]. destruct (n_next n =? -1)%Z.
    + apply sim_ret. intros s2 [= <-]. lia.
    + specialize (IH inner (n_next n) s' next L2). intros st O. specialize (IH st O). destruct (chain_loop _ _ _ _ _ _ _); auto.
      destruct IH as (st' & E & S' & P'). exists st'. split; [exact E|]. split; [exact S'|]. intros s2 E2. specialize (P' s2 E2). lia.
  - exists s. split; [apply le_n|]. apply sim_ret. discriminate.
Qed.
Definition pos2 (s : nat) (r : nat * Z) : Prop := s <= fst r <= S len.
Lemma sim_greedy m c : simm m c -> forall k left stop_ next p0 p1 s0 s n, s0 <= s -> s <= S len ->
  sim s (pos2 s0) (greedy_loop ns text m k left stop_ next p0 p1 s s n) (s_greedy ns len c k left stop_ next p0 p1 s s n).
Proof.
  intros Hm. induction k as [|k IH]; intros left stop_ next p0 p1 s0 s n L0 L; [apply sim_out|]. cbn [greedy_loop s_greedy].
  destruct (_ || _); [|apply sim_ret; split; cbn; lia]. eapply sim_bind; [apply Hm; exact L|]. intros [s'|] Ps.
  2:{ exists s. split; [apply le_n|]. apply sim_ret. split; cbn; lia. }
  destruct (Ps s' eq_refl) as [L1 L2]. exists s'. split; [exact L1|]. cbv zeta. eapply sim_bind0 with (Q := fun _ => True).
  - destruct (stop_ =? -1)%Z; [apply sim_ret; exact Logic.I|].
    eapply sim_bind0; [apply sim_lift with (P := fun _ => True); auto|]. intros g _.
    destruct (_ || _); [|apply sim_ret; exact Logic.I].
    eapply sim_bind0 with (Q := fun _ => True).
    + destruct (negb _); [apply sim_ret; exact Logic.I|]. destruct (next =? -1)%Z; [apply sim_ret; exact Logic.I|].
      eapply sim_bind0; [apply sim_lift with (P := fun _ => True); auto|]. intros nn _. apply sim_ret; exact Logic.I.
    + intros gn _. eapply sim_bind0; [apply Hm; exact L2|]. intros o _. apply sim_ret. exact Logic.I.
  - intros stops _. destruct stops; [apply sim_ret; split; cbn; lia|]. destruct (len <=? s'); [apply sim_ret; split; cbn; lia|].
    apply IH; lia.
Qed.

Lemma ok_put st c cap p : ok st -> (0 <= c)%Z -> ok (mkSubs c (put (s_at st) cap p)).
Proof. intros [O1 O2] L. split; cbn; [rewrite length_put; exact O1|exact L]. Qed.
(** A sub-expression: opened, matched, closed. *)
Definition taken (s : nat) (o : option nat) : place :=
  match o with Some e => (Some (tid, s), cast_int (Z.of_nat e - Z.of_nat s)) | None => nowhere end.
Lemma sub_place i n s (m : mat (option nat)) (c : sm (option nat)) : nth_error ns i = Some n -> s <= S len -> sim s (pos s) m c ->
  forall st, ok st -> match m with
  | MRet o => exists st', sbind (open_sub tid n s) (fun cap => sbind c (fun r => sbind (close_sub tid cap r) (fun _ => sret r))) st = MRet (o, st') /\
      step s st st' /\ pos s o /\
      (n_type n = OP_EXPR -> n_right n = s_cur st -> nth_error (s_at st') (Z.to_nat (s_cur st)) = Some (taken s o))
  | MUB => sbind (open_sub tid n s) (fun cap => sbind c (fun r => sbind (close_sub tid cap r) (fun _ => sret r))) st = MUB
  | MOut => sbind (open_sub tid n s) (fun cap => sbind c (fun r => sbind (close_sub tid cap r) (fun _ => sret r))) st = MOut
  end.
Proof.
  intros Hn L H st O.
  assert (Eo : forall st, ok st -> (open_sub tid n s st = MRet (None, st) /\ ~ (n_type n = OP_EXPR /\ n_right n = s_cur st) \/
    exists q, nth_error (s_at st) (Z.to_nat (s_cur st)) = Some q /\ (s_cur st < nsub)%Z /\
      open_sub tid n s st = MRet (Some (s_cur st), mkSubs (s_cur st + 1) (put (s_at st) (Z.to_nat (s_cur st)) (Some (tid, s), snd q))))).
  { clear st O. intros st [O1 O2]. unfold open_sub, cur_sub, sbind, sret.
    destruct ((n_type n =? OP_EXPR)%Z && (n_right n =? s_cur st)%Z) eqn:E; [|left; split; [reflexivity|]; intros [X1 X2]; rewrite X1, X2, !Z.eqb_refl in E; discriminate]. right.
    apply andb_true_iff in E. destruct E as [E1 E2]. apply Z.eqb_eq in E1, E2. assert (R := Hnum _ _ Hn E1).
    destruct (nth_error (s_at st) (Z.to_nat (s_cur st))) as [q|] eqn:Eq; [|apply nth_error_None in Eq; lia].
    exists q. split; [reflexivity|]. split; [lia|]. unfold get_sub, set_sub. destruct (Z.ltb_spec (s_cur st) 0); [lia|]. rewrite Eq. cbn [s_at]. rewrite Eq. unfold int_op.
    assert (in_int (s_cur st + 1) = true) as ->; [|reflexivity]. unfold in_int. unfold INT_MIN, INT_MAX in *. apply andb_true_iff. split; apply Z.leb_le; lia. }
  unfold sbind. destruct (Eo st O) as [[E NE]|(q & Eq & R & E)]; rewrite E; cbv beta iota.
  { specialize (H st O). destruct m as [o| |]; [|rewrite H; reflexivity|rewrite H; reflexivity].
    destruct H as (st' & E' & S' & P'). rewrite E'. exists st'. repeat (split; [auto; fail|]). intros X1 X2. destruct (NE (conj X1 X2)). }
  clear Eo E. set (cp := s_cur st) in *. destruct O as [O1 O2]. fold cp in O2. assert (Lc : Z.to_nat cp < List.length (s_at st)) by lia.
  set (st1 := mkSubs (cp + 1) (put (s_at st) (Z.to_nat cp) (Some (tid, s), snd q))).
  assert (O' : ok st1) by (apply ok_put; [split; assumption|lia]).
  specialize (H st1 O'). destruct m as [o| |]; [|rewrite H; reflexivity|rewrite H; reflexivity].
  destruct H as (st2 & E2' & (O3 & L3 & K3 & G3) & P3). rewrite E2'. cbv beta iota.
  assert (Ec : nth_error (s_at st2) (Z.to_nat cp) = Some (Some (tid, s), snd q)).
  { rewrite K3 by (cbn; lia). cbn [st1 s_at]. rewrite nth_put, Nat.eqb_refl, (proj2 (Nat.ltb_lt _ _) Lc). reflexivity. }
  assert (Lc2 : Z.to_nat cp < List.length (s_at st2)) by (apply nth_error_Some; congruence).
  assert (F : forall p, given s p -> exists st', set_sub cp p st2 = MRet (tt, st') /\ step s st st' /\ nth_error (s_at st') (Z.to_nat cp) = Some p).
  { intros p Hp. unfold set_sub. destruct (Z.ltb_spec cp 0); [lia|]. rewrite Ec. eexists. split; [reflexivity|]. split.
    2:{ cbn [s_at]. rewrite nth_put, Nat.eqb_refl, (proj2 (Nat.ltb_lt _ _) Lc2). reflexivity. }
    split; [apply ok_put; [exact O3|]; destruct O3; assumption|]. split; [cbn in *; fold cp; lia|]. cbn [s_at]. split.
    - intros k Hk. fold cp in Hk. rewrite nth_put. destruct (Nat.eqb_spec k (Z.to_nat cp)); [lia|]. cbn [andb].
      rewrite K3 by (cbn; lia). cbn [st1 s_at]. rewrite nth_put. destruct (Nat.eqb_spec k (Z.to_nat cp)); [lia|reflexivity].
    - intros k p' Hp'. rewrite nth_put in Hp'. destruct (Nat.eqb_spec k (Z.to_nat cp)) as [->|D].
      + rewrite (proj2 (Nat.ltb_lt _ _) Lc2) in Hp'. cbn in Hp'. injection Hp' as <-. right. exact Hp.
      + cbn [andb] in Hp'. destruct (G3 k p' Hp') as [G|G]; [|right; exact G]. cbn [st1 s_at] in G. rewrite nth_put in G.
        destruct (Nat.eqb_spec k (Z.to_nat cp)); [contradiction|]. left. exact G. }
  unfold close_sub. destruct o as [e|].
  - unfold sbind, get_sub. destruct (Z.ltb_spec cp 0); [lia|]. rewrite Ec. cbn [fst]. rewrite Nat.eqb_refl.
    destruct (F (Some (tid, s), cast_int (Z.of_nat e - Z.of_nat s))) as (st' & -> & S' & N').
    { right. exists s, e. specialize (P3 e eq_refl). repeat split; lia. }
    exists st'. split; [reflexivity|]. split; [exact S'|]. split; [exact P3|]. intros _ _. exact N'.
  - destruct (F nowhere) as (st' & -> & S' & N'); [left; reflexivity|]. exists st'. split; [reflexivity|]. split; [exact S'|]. split; [exact P3|]. intros _ _. exact N'.
Qed.
Lemma sim_sub i n s (m : mat (option nat)) (c : sm (option nat)) : nth_error ns i = Some n -> s <= S len -> sim s (pos s) m c ->
  sim s (pos s) m (sbind (open_sub tid n s) (fun cap => sbind c (fun r => sbind (close_sub tid cap r) (fun _ => sret r)))).
Proof.
  intros Hn L H st O. pose proof (sub_place i n s m c Hn L H st O) as X. destruct m as [o| |]; auto. destruct X as (st' & E & S' & P' & _). exists st'. auto.
Qed.
Lemma get_nth i n : get ns i = Val n -> nth_error ns (Z.to_nat i) = Some n.
Proof. unfold get. destruct (i <? 0)%Z; [discriminate|]. destruct (nth_error ns (Z.to_nat i)); [congruence|discriminate]. Qed.
Lemma char_le s c : char_ text s = MRet c -> s <= len.
Proof.
  unfold char_, load. destruct (nth_error (terminated text) s) as [[d|]|] eqn:E; try discriminate. intros _.
  assert (X : s < List.length (terminated text)) by (apply nth_error_Some; congruence). unfold terminated, bytes in X. rewrite app_length, map_length in X. cbn in X. lia.
Qed.
Lemma pos_one b s c : char_ text s = MRet c -> pos s (one b s).
Proof. intros H s' E. apply char_le in H. destruct b; [|discriminate]. injection E as <-. lia. Qed.
Lemma sim_matchnode fuel : simm (matchnode ns icase text fuel) (s_matchnode ns icase tid text 0 len fuel).
Proof.
  induction fuel as [|fuel IH]; intros i s next L; [apply sim_out|]. cbn [matchnode s_matchnode].
  eapply sim_bind0 with (Q := fun n => nth_error ns (Z.to_nat i) = Some n).
  { apply sim_lift. intros n Hn. destruct (get ns i) as [n'|] eqn:E; [|discriminate]. injection Hn as <-. exact (get_nth _ _ E). }
  intros n Hn. cbv zeta. destruct (n_type n =? OP_GREEDY)%Z.
  { eapply sim_bind0; [apply sim_greedy with (s0 := s); [exact IH|lia|exact L]|]. intros r Hr. apply sim_ret. intros s' E. destruct (enough _ _ _); [|discriminate]. injection E as <-. exact Hr. }
  destruct (n_type n =? OP_OR)%Z.
  { eapply sim_bind0; [apply sim_chain; [exact IH|exact L]|]. intros [s'|] Hr; [apply sim_ret; exact Hr|apply sim_chain; [exact IH|exact L]]. }
  destruct (_ || _).
  { apply (sim_sub (Z.to_nat i) n s); [exact Hn|exact L|]. apply sim_chain; [exact IH|exact L]. }
  destruct (n_type n =? OP_WB)%Z.
  { apply sim_lift. intros o H. intros s' ->. revert H. repeat match goal with |- context [mbind ?m _] => destruct m; cbn [mbind]; try discriminate end.
    destruct (Bool.eqb _ _); [|discriminate]. intros [= <-]. lia. }
  destruct (n_type n =? OP_BOL)%Z; [apply sim_ret; intros s' E; destruct (s =? 0); [|discriminate]; injection E as <-; lia|].
  destruct (n_type n =? OP_EOL)%Z; [apply sim_ret; intros s' E; destruct (s =? len); [|discriminate]; injection E as <-; lia|].
  destruct (n_type n =? OP_DOT)%Z.
  { apply sim_lift. intros o H. destruct (Nat.ltb_spec len s); [discriminate|]. injection H as <-. intros s' [= <-]. lia. }
  destruct (_ || _).
  { apply sim_lift. intros o H. destruct (char_ text s) as [c| |] eqn:Ec; try discriminate. cbn [mbind] in H.
    destruct (matchclass _ _ _ _ _) as [b| |]; try discriminate. injection H as <-. exact (pos_one _ _ _ Ec). }
  apply sim_lift. intros o H. destruct (char_ text s) as [c| |] eqn:Ec; try discriminate. cbn [mbind] in H.
  destruct (n_type n =? OP_CCLASS)%Z; injection H as <-; exact (pos_one _ _ _ Ec).
Qed.
Lemma lift_ret {A B} (a : A) (k : A -> sm B) st : sbind (slift (MRet a)) k st = k a st.
Proof. reflexivity. Qed.
(** The first node: the whole of what is matched. *)
Lemma first_node fuel s n st : nth_error ns 0 = Some n -> n_type n = OP_EXPR -> n_right n = 0%Z -> s <= S len -> ok st ->
  match matchnode ns icase text fuel 0 s (-1) with
  | MRet o => exists st', s_matchnode ns icase tid text 0 len fuel 0 s (-1) (mkSubs 0 (s_at st)) = MRet (o, st') /\
      step s (mkSubs 0 (s_at st)) st' /\ pos s o /\ nth_error (s_at st') 0 = Some (taken s o)
  | MUB => s_matchnode ns icase tid text 0 len fuel 0 s (-1) (mkSubs 0 (s_at st)) = MUB
  | MOut => s_matchnode ns icase tid text 0 len fuel 0 s (-1) (mkSubs 0 (s_at st)) = MOut
  end.
Proof.
  intros Hn Ht Hr L [O1 _]. destruct fuel as [|fuel]; [reflexivity|]. cbn [matchnode s_matchnode].
  assert (G : get ns 0 = Val n). { unfold get. change (Z.to_nat 0) with 0. rewrite Hn. reflexivity. }
  rewrite G. cbn [mlift mbind]. rewrite !lift_ret. cbv zeta. rewrite Ht.
  change (OP_EXPR =? OP_GREEDY)%Z with false. change (OP_EXPR =? OP_OR)%Z with false. change ((OP_EXPR =? OP_EXPR) || (OP_EXPR =? OP_NOCAPEXPR))%Z%bool with true. cbv iota.
  pose proof (sub_place 0 n s _ _ Hn L (sim_chain _ _ (sim_matchnode fuel) fuel true (n_left n) s (-1)%Z L) (mkSubs 0 (s_at st))) as X.
  cbv zeta in X. assert (O' : ok (mkSubs 0 (s_at st))) by (split; [exact O1|cbn; lia]). specialize (X O').
  destruct (chain_loop ns (matchnode ns icase text fuel) fuel true (n_left n) s (-1)) as [o| |]; [|exact X|exact X].
  destruct X as (st' & E & S' & P' & N'). exists st'. split; [exact E|]. split; [exact S'|]. split; [exact P'|]. exact (N' Ht Hr).
Qed.
End subs.
