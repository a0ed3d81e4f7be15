(** Searching, and the positions of sub-expressions. *)
From Coq Require Import ZArith NArith Bool List Ascii String Lia.
From Verif.Base Require Import CInt CStr CMem.
From Verif.Model Require Import ArgInt Trex TrexSearch.
From Verif.Spec Require Import RegexSpec SearchSpec.
From Verif.Proofs Require Import TrexChars TrexRep TrexTotal TrexCompile TrexExact TrexClaims TrexGroups TrexSubs.
Import ListNotations.
Open Scope list_scope.
Open Scope nat_scope.

(** ** More fuel changes nothing *)
Section mono.
Variables (ns : list node) (icase : bool) (tid : nat) (text : str) (bol eol : nat).
Definition le_s {A} (c c' : sm A) : Prop := forall st, c st <> MOut -> c' st = c st.
Lemma le_refl {A} (c : sm A) : le_s c c.
Proof. intros st _. reflexivity. Qed.
Lemma le_bind {A B} (c c' : sm A) (k k' : A -> sm B) : le_s c c' -> (forall a, le_s (k a) (k' a)) -> le_s (sbind c k) (sbind c' k').
Proof.
  intros H1 H2 st H. unfold sbind in *. destruct (c st) as [[a st1]| |] eqn:E.
  - rewrite H1, E by congruence. apply H2. exact H.
  - rewrite H1, E by congruence. reflexivity.
  - contradiction.
Qed.
Lemma le_out {A} (c : sm A) : le_s sout c.
Proof. intros st H. contradiction. Qed.
Definition le_sm (c c' : Z -> nat -> Z -> sm (option nat)) : Prop := forall i s next, le_s (c i s next) (c' i s next).
Ltac mono1 := first [ apply le_refl | apply le_bind; [|intros] | match goal with |- le_s (if ?b then _ else _) _ => destruct b | |- le_s (match ?o with Some _ => _ | None => _ end) _ => destruct o end ].
Lemma chain_le c c' : le_sm c c' -> forall k k' inner i s next, k <= k' -> le_s (s_chain ns c k inner i s next) (s_chain ns c' k' inner i s next).
Proof.
  intros Hc. induction k as [|k IH]; intros k' inner i s next L; [apply le_out|]. destruct k' as [|k']; [lia|]. cbn [s_chain].
  repeat (mono1 || apply Hc). apply IH. lia.
Qed.
Lemma greedy_le c c' : le_sm c c' -> forall k k' left stop_ next p0 p1 s good n, k <= k' ->
  le_s (s_greedy ns eol c k left stop_ next p0 p1 s good n) (s_greedy ns eol c' k' left stop_ next p0 p1 s good n).
Proof.
  intros Hc. induction k as [|k IH]; intros k' left stop_ next p0 p1 s good n L; [apply le_out|]. destruct k' as [|k']; [lia|]. cbn [s_greedy]. cbv zeta.
  repeat (mono1 || apply Hc). apply IH. lia.
Qed.
Lemma matchnode_le F : forall F', F <= F' -> le_sm (s_matchnode ns icase tid text bol eol F) (s_matchnode ns icase tid text bol eol F').
Proof.
  induction F as [|F IH]; intros F' L i s next; [apply le_out|]. destruct F' as [|F']; [lia|]. cbn [s_matchnode]. assert (Hm := IH F' ltac:(lia)).
  apply le_bind; [apply le_refl|]. intros n. cbv zeta.
  destruct (n_type n =? OP_GREEDY)%Z; [apply le_bind; [apply greedy_le; [exact Hm|lia]|intros; apply le_refl]|].
  destruct (n_type n =? OP_OR)%Z.
  { apply le_bind; [apply chain_le; [exact Hm|lia]|]. intros [s'|]; [apply le_refl|apply chain_le; [exact Hm|lia]]. }
  destruct (_ || _); [apply le_bind; [apply le_refl|]; intros; apply le_bind; [apply chain_le; [exact Hm|lia]|]; intros; apply le_refl|].
  destruct (n_type n =? OP_WB)%Z; [apply le_refl|]. destruct (n_type n =? OP_BOL)%Z; [apply le_refl|]. destruct (n_type n =? OP_EOL)%Z; [apply le_refl|].
  destruct (n_type n =? OP_DOT)%Z; [apply le_refl|]. destruct (_ || _); [|apply le_refl].
  intros st H. unfold slift in *. destruct (char_ text s) as [c| |]; cbn [mbind] in *; auto.
  rewrite (matchclass_mono ns icase F F' (n_left n) c ltac:(lia)); [reflexivity|]. intros E. rewrite E in H. apply H. reflexivity.
Qed.
Lemma search_at_le F F' k : F <= F' -> forall k' node cur, k <= k' -> le_s (search_at ns icase tid text bol eol F k node cur) (search_at ns icase tid text bol eol F' k' node cur).
Proof.
  intros L. induction k as [|k IH]; intros k' node cur Lk; [apply le_out|]. destruct k' as [|k']; [lia|]. cbn [search_at].
  repeat (mono1 || apply matchnode_le || apply IH); lia.
Qed.
Lemma search_loop_le F F' k : F <= F' -> forall k' node b e, k <= k' -> le_s (search_loop ns icase tid text bol eol F k node b e) (search_loop ns icase tid text bol eol F' k' node b e).
Proof.
  intros L. induction k as [|k IH]; intros k' node b e Lk; [apply le_out|]. destruct k' as [|k']; [lia|]. cbn [search_loop].
  apply le_bind; [apply search_at_le; lia|]. intros [[c|] nd]; cbn [fst snd]; [apply le_refl|]. destruct (S b =? e); [apply le_refl|apply IH; lia].
Qed.
End mono.
Lemma trex_match_le ns icase tid text F F' : F <= F' -> le_s (trex_match ns icase tid text F) (trex_match ns icase tid text F').
Proof. intros L. unfold trex_match. apply le_bind; [apply le_refl|]. intros. apply le_bind; [apply matchnode_le; exact L|]. intros. apply le_refl. Qed.
Lemma range_le ns icase tid text b e F F' : F <= F' -> le_s (trex_searchrange ns icase tid text b e F) (trex_searchrange ns icase tid text b e F').
Proof. intros L. unfold trex_searchrange. destruct (e <=? b); [apply le_refl|]. apply search_loop_le; exact L. Qed.
Lemma search_le ns icase tid text F F' : F <= F' -> le_s (trex_search ns icase tid text F) (trex_search ns icase tid text F').
Proof. apply range_le. Qed.

(** ** A compiled pattern *)
Section compiled.
Variables (pat : str) (ns : list node) (x : trex) (r : rx) (icase : bool) (tid : nat) (text : str).
Hypothesis Hp : no_nul pat.
Hypothesis Hc : compile pat = PVal ns x.
Hypothesis Hw : writes pat r.
Local Notation len := (List.length text).
Definition fits (st : subs) : Prop := List.length (s_at st) = Z.to_nat (x_nsub x).
Definition changed (st st' : subs) : Prop := fits st' /\
  forall k p, nth_error (s_at st') k = Some p -> nth_error (s_at st) k = Some p \/ given tid text 0 p.

Lemma first_run fuel s st : s <= S len -> fits st ->
  match matchnode ns icase text fuel 0 s (-1) with
  | MRet o => exists st', s_matchnode ns icase tid text 0 len fuel 0 s (-1) (mkSubs 0 (s_at st)) = MRet (o, st') /\
      changed st st' /\ pos text s o /\ nth_error (s_at st') 0 = Some (taken tid s o)
  | MUB => s_matchnode ns icase tid text 0 len fuel 0 s (-1) (mkSubs 0 (s_at st)) = MUB
  | MOut => s_matchnode ns icase tid text 0 len fuel 0 s (-1) (mkSubs 0 (s_at st)) = MOut
  end.
Proof.
  intros L F. destruct (compile_numbered _ _ _ Hc) as (A & B & n & Hn & Ht & Hr).
  assert (X := first_node ns icase tid text (x_nsub x) A ltac:(lia) fuel s n (mkSubs 0 (s_at st)) Hn Ht Hr L).
  specialize (X (conj F (Z.le_refl 0))). cbn [s_at] in X.
  destruct (matchnode ns icase text fuel 0 s (-1)) as [o| |]; [|exact X|exact X]. destruct X as (st' & E & (O' & _ & _ & G) & P & N').
  exists st'. split; [exact E|]. split; [|split; [exact P|exact N']]. split; [exact (proj1 O')|]. intros k p Hk. destruct (G k p Hk) as [Y|Y]; [left; exact Y|].
  right. exact (given_le _ _ 0 _ _ Y ltac:(lia)).
Qed.
Lemma changed_trans a b c : changed a b -> changed b c -> changed a c.
Proof. intros [_ G1] [F2 G2]. split; [exact F2|]. intros k p H. destruct (G2 k p H) as [Y|Y]; [apply G1; exact Y|right; exact Y]. Qed.

(** *** Matching *)
Lemma match_run fuel st : fits st ->
  outcome (trex_match ns icase tid text fuel st) = match_text ns icase text fuel /\
  forall okay st', trex_match ns icase tid text fuel st = MRet (okay, st') -> changed st st' /\
    (okay = true -> nth_error (s_at st') 0 = Some (taken tid 0 (Some len))).
Proof.
  intros F. pose proof (first_run fuel 0 st ltac:(lia) F) as X. unfold trex_match, match_text, sbind, set_cur, outcome.
  destruct (matchnode ns icase text fuel 0 0 (-1)) as [o| |].
  - destruct X as (st' & E & C & P & N'). rewrite E. cbn [mbind sret fst]. split; [reflexivity|]. intros okay st2 [= <- <-]. split; [exact C|].
    destruct o as [s|]; [|discriminate]. intros H. apply Nat.eqb_eq in H. subst s. exact N'.
  - rewrite X. split; [reflexivity|discriminate].
  - rewrite X. split; [reflexivity|discriminate].
Qed.

(** *** Searching *)
Fixpoint plain_search (fuel k b : nat) : mat (option (nat * nat)) :=
  match k with
  | O => MOut
  | S k => mbind (matchnode ns icase text fuel 0 b (-1)) (fun o =>
      match o with Some c => MRet (Some (b, c)) | None => if S b =? len then MRet None else plain_search fuel k (S b) end)
  end.
Definition found (o : option (nat * nat)) : place := match o with Some (b, c) => taken tid b (Some c) | None => nowhere end.
Lemma at_run fuel k s st : s <= S len -> fits st -> 2 <= k ->
  match matchnode ns icase text fuel 0 s (-1) with
  | MRet o => exists st', search_at ns icase tid text 0 len fuel k 0 s st = MRet ((o, match o with Some _ => -1 | None => 0 end)%Z, st') /\
      changed st st' /\ nth_error (s_at st') 0 = Some (taken tid s o)
  | MUB => search_at ns icase tid text 0 len fuel k 0 s st = MUB
  | MOut => search_at ns icase tid text 0 len fuel k 0 s st = MOut
  end.
Proof.
  intros L F Hk. destruct k as [|[|k]]; [lia|lia|]. cbn [search_at]. change (0 =? -1)%Z with false. cbv iota.
  assert (U : forall B (k : option nat -> sm B), sbind (set_cur 0) (fun _ => sbind (s_matchnode ns icase tid text 0 len fuel 0 s (-1)) k) st =
    match s_matchnode ns icase tid text 0 len fuel 0 s (-1) (mkSubs 0 (s_at st)) with MRet (o, st1) => k o st1 | MUB => MUB | MOut => MOut end) by reflexivity.
  rewrite !U. clear U.
  pose proof (first_run fuel s st L F) as X. destruct (matchnode ns icase text fuel 0 s (-1)) as [o| |]; [|rewrite X; reflexivity|rewrite X; reflexivity].
  destruct X as (st' & E & C & P & N'). rewrite E. destruct o as [c|]; [|exists st'; split; [reflexivity|auto]].
  destruct (compiled_rep _ _ _ _ Hp Hc Hw) as (_ & n & Hn & Hx). assert (G := get_nd _ _ _ Hn). unfold zn in G. cbn [Z.of_nat] in G. rewrite G.
  exists st'. split; [|auto]. cbn [mlift]. rewrite lift_ret, Hx. reflexivity.
Qed.
Lemma loop_run fuel k : 2 <= fuel -> forall b st, b < len -> fits st ->
  outcome (search_loop ns icase tid text 0 len fuel k 0 b len st) = plain_search fuel k b /\
  forall o st', search_loop ns icase tid text 0 len fuel k 0 b len st = MRet (o, st') -> changed st st' /\ nth_error (s_at st') 0 = Some (found o).
Proof.
  intros Hf. induction k as [|k IH]; intros b st Lb F; [split; [reflexivity|discriminate]|]. cbn [search_loop plain_search]. unfold sbind.
  pose proof (at_run fuel fuel b st ltac:(lia) F Hf) as X. destruct (matchnode ns icase text fuel 0 b (-1)) as [o| |]; cbn [mbind].
  2:{ rewrite X. split; [reflexivity|discriminate]. }
  2:{ rewrite X. split; [reflexivity|discriminate]. }
  destruct X as (st1 & E & C & N'). rewrite E. cbn [fst snd]. destruct o as [c|].
  - split; [reflexivity|]. intros o st' [= <- <-]. split; [exact C|exact N'].
  - destruct (Nat.eqb_spec (S b) len) as [D|D].
    + split; [reflexivity|]. intros o st' [= <- <-]. split; [exact C|exact N'].
    + destruct (IH (S b) st1 ltac:(lia) (proj1 C)) as [I1 I2]. split; [exact I1|]. intros o st' H. destruct (I2 o st' H) as [C2 N2].
      split; [exact (changed_trans _ _ _ C C2)|exact N2].
Qed.
Lemma search_run fuel st : 2 <= fuel -> fits st -> 0 < len ->
  outcome (trex_search ns icase tid text fuel st) = plain_search fuel fuel 0 /\
  forall o st', trex_search ns icase tid text fuel st = MRet (o, st') -> changed st st' /\ nth_error (s_at st') 0 = Some (found o).
Proof.
  intros Hf F L. unfold trex_search, trex_searchrange. destruct (Nat.leb_spec len 0); [lia|]. apply loop_run; assumption.
Qed.
Lemma search_empty fuel st : len = 0 -> trex_search ns icase tid text fuel st = MRet (None, st).
Proof. intros E. unfold trex_search, trex_searchrange. rewrite E. reflexivity. Qed.

(** What the search finds, by position. *)
Lemma plain_search_some fuel k b b1 e1 : plain_search fuel k b = MRet (Some (b1, e1)) -> b < len ->
  b <= b1 < len /\ matchnode ns icase text fuel 0 b1 (-1) = MRet (Some e1) /\ forall b', b <= b' < b1 -> matchnode ns icase text fuel 0 b' (-1) = MRet None.
Proof.
  revert b. induction k as [|k IH]; intros b; cbn [plain_search]; [discriminate|]. destruct (matchnode ns icase text fuel 0 b (-1)) as [[c|]| |] eqn:E; cbn [mbind]; try discriminate.
  - intros [= <- <-] L. split; [lia|]. split; [exact E|]. intros b' H. lia.
  - destruct (Nat.eqb_spec (S b) len); [discriminate|]. intros H L. destruct (IH _ H ltac:(lia)) as (A & B & C). split; [lia|]. split; [exact B|].
    intros b' Hb. destruct (Nat.eq_dec b' b) as [->|D]; [exact E|apply C; lia].
Qed.
Lemma plain_search_none fuel k b : plain_search fuel k b = MRet None -> b < len -> forall b', b <= b' < len -> matchnode ns icase text fuel 0 b' (-1) = MRet None.
Proof.
  revert b. induction k as [|k IH]; intros b; cbn [plain_search]; [discriminate|]. destruct (matchnode ns icase text fuel 0 b (-1)) as [[c|]| |] eqn:E; cbn [mbind]; try discriminate.
  destruct (Nat.eqb_spec (S b) len) as [D|D].
  - intros _ L b' H. assert (b' = b) as -> by lia. exact E.
  - intros H L b' Hb. destruct (Nat.eq_dec b' b) as [->|D']; [exact E|apply (IH _ H); lia].
Qed.
Lemma good_at sf fuel s : (sf = true -> stays r) -> enough_fuel ns <= fuel -> good text sf s (matchnode ns icase text fuel 0 s (-1)).
Proof.
  intros Hs HF. destruct (compiled_rep _ _ _ _ Hp Hc Hw) as (R & n & Hn & Hx).
  apply (all_total ns icase text sf (meas ns 0 (List.length ns)) 0 (List.length ns) 0 r n); try assumption.
  - apply le_n.
  - apply le_n.
  - left. split; [exact Hx|]. left. reflexivity.
Qed.
Lemma plain_search_ends fuel k b : enough_fuel ns <= fuel -> len - b <= k -> b < len -> plain_search fuel k b <> MOut.
Proof.
  intros HF. revert b. induction k as [|k IH]; intros b Hk L; [lia|]. cbn [plain_search]. destruct (good_at false fuel b ltac:(discriminate) HF) as [G _].
  destruct (matchnode ns icase text fuel 0 b (-1)) as [[c|]| |]; cbn [mbind]; try discriminate; [|contradiction]. destruct (Nat.eqb_spec (S b) len); [discriminate|]. apply IH; lia.
Qed.
Lemma plain_search_safe fuel k b : stays r -> enough_fuel ns <= fuel -> len - b <= k -> b < len -> exists o, plain_search fuel k b = MRet o.
Proof.
  intros Hs HF. revert b. induction k as [|k IH]; intros b Hk L; [lia|]. cbn [plain_search]. destruct (good_at true fuel b (fun _ => Hs) HF) as [G1 G2].
  destruct (G2 eq_refl ltac:(lia)) as [G3 _].
  destruct (matchnode ns icase text fuel 0 b (-1)) as [[c|]| |]; cbn [mbind]; try contradiction; [eauto|]. destruct (Nat.eqb_spec (S b) len); [eauto|]. apply IH; lia.
Qed.
Definition search_fuel : nat := 2 + enough_fuel ns + len.
Lemma search_ends st : fits st ->
  exists out, out <> MOut /\ forall fuel, search_fuel <= fuel -> trex_search ns icase tid text fuel st = out.
Proof.
  intros F. assert (X : trex_search ns icase tid text search_fuel st <> MOut).
  { destruct (Nat.eq_dec len 0) as [E|E]; [rewrite search_empty by exact E; discriminate|].
    destruct (search_run search_fuel st) as [A _]; [unfold search_fuel; lia|exact F|lia|]. intros Y. rewrite Y in A.
    cbn [outcome mbind] in A. symmetry in A. revert A. apply plain_search_ends; unfold search_fuel; lia. }
  eexists. split; [exact X|]. intros fuel L. apply search_le; [exact L|exact X].
Qed.
Lemma search_safe st : fits st -> stays r -> exists o st', forall fuel, search_fuel <= fuel -> trex_search ns icase tid text fuel st = MRet (o, st').
Proof.
  intros F Hs. destruct (search_ends st F) as (out & Ho & H). specialize (H search_fuel (le_n _)) as H0.
  assert (exists o st', out = MRet (o, st')) as (o & st' & ->).
  { destruct (Nat.eq_dec len 0) as [E|E]; [rewrite search_empty in H0 by exact E; eauto|].
    destruct (search_run search_fuel st) as [A _]; [unfold search_fuel; lia|exact F|lia|].
    destruct (plain_search_safe search_fuel search_fuel 0 Hs) as (o & Eo); [unfold search_fuel; lia|unfold search_fuel; lia|lia|].
    rewrite H0, Eo in A. destruct out as [[o' st']| |]; cbn [outcome mbind fst] in A; try discriminate. eauto. }
  eauto.
Qed.
Lemma search_sound fuel st b e st' : fits st -> tame icase r -> 2 <= fuel -> trex_search ns icase tid text fuel st = MRet (Some (b, e), st') ->
  b < len /\ b <= e <= S len /\ (e <= len -> lang icase text r b e) /\ (stays r -> e <= len).
Proof.
  intros F T Hf H. destruct (Nat.eq_dec len 0) as [E|E]; [rewrite search_empty in H by exact E; discriminate|].
  destruct (search_run fuel st Hf F ltac:(lia)) as [A _]. rewrite H in A. cbn [outcome mbind fst] in A. symmetry in A.
  destruct (plain_search_some _ _ _ _ _ A ltac:(lia)) as (B & C & _). split; [lia|].
  pose proof (first_run fuel b st ltac:(lia) F) as X. rewrite C in X. destruct X as (s2 & _ & _ & P & _). specialize (P e eq_refl). split; [exact P|].
  destruct (compiled_rep _ _ _ _ Hp Hc Hw) as (R & _). split.
  - destruct (rep_sound _ _ _ _ _ _ _ _ R T fuel 0 true b (-1)%Z e C) as [_ Y]. exact Y.
  - intros Hs. destruct (good_at true (fuel + enough_fuel ns) b (fun _ => Hs) ltac:(lia)) as [_ G]. destruct (G eq_refl ltac:(lia)) as [_ G2]. apply G2.
    rewrite (matchnode_mono ns icase text fuel (fuel + enough_fuel ns)); [exact C|lia|]. rewrite C. discriminate.
Qed.
(** Plain expressions: exactly the first instance. *)
Lemma plain_fun i j j' a : plain a -> lang icase text a i j -> lang icase text a i j' -> j = j'.
Proof.
  revert i j j'. induction a; cbn [plain lang]; intros i j j' P H1 H2; try contradiction; try (destruct H1, H2; congruence).
  destruct P as [P1 P2]. destruct H1 as (k & A1 & B1), H2 as (k' & A2 & B2). assert (k = k') as <- by (eapply IHa1; eassumption). eapply IHa2; eassumption.
Qed.
Lemma search_plain st : fits st -> tame icase r -> stays r -> plain r ->
  exists o st', (forall fuel, search_fuel <= fuel -> trex_search ns icase tid text fuel st = MRet (o, st')) /\
    match o with Some (b, e) => first_instance icase text r b e | None => no_instance icase text r end.
Proof.
  intros F T Hs P. destruct (search_safe st F Hs) as (o & st' & H). exists o, st'. split; [exact H|]. specialize (H search_fuel (le_n _)).
  destruct (Nat.eq_dec len 0) as [E|E].
  { rewrite search_empty in H by exact E. injection H as <- <-. intros b e L. lia. }
  destruct (search_run search_fuel st) as [A _]; [unfold search_fuel; lia|exact F|lia|]. rewrite H in A. cbn [outcome mbind fst] in A. symmetry in A.
  destruct (compiled_rep _ _ _ _ Hp Hc Hw) as (R & _).
  assert (Full : forall b e, lang icase text r b e -> matchnode ns icase text search_fuel 0 b (-1) = MRet (Some e)).
  { intros b e L. apply (plain_complete ns icase text false _ _ _ _ R P T search_fuel 0 true b (-1)%Z e L).
    destruct (good_at false search_fuel b ltac:(discriminate)) as [G _]; [unfold search_fuel; lia|exact G]. }
  destruct o as [[b e]|].
  - destruct (search_sound search_fuel st b e st' F T ltac:(unfold search_fuel; lia) H) as (L1 & L2 & L3 & L4). specialize (L3 (L4 Hs)).
    destruct (plain_search_some _ _ _ _ _ A ltac:(lia)) as (_ & _ & C). split; [exact L3|]. split.
    + intros b' e' Hb Hl. specialize (C b' ltac:(lia)). rewrite (Full _ _ Hl) in C. discriminate.
    + intros e' Hl. exact (plain_fun _ _ _ _ P Hl L3).
  - intros b e L Hl. pose proof (plain_search_none _ _ _ A ltac:(lia) b ltac:(lia)) as C. rewrite (Full _ _ Hl) in C. discriminate.
Qed.
(** What matches is found. *)
Lemma match_found fuel st st1 : fits st -> 2 <= fuel -> 0 < len -> trex_match ns icase tid text fuel st = MRet (true, st1) ->
  exists st', trex_search ns icase tid text fuel st = MRet (Some (0, len), st').
Proof.
  intros F Hf L H. destruct (match_run fuel st F) as [A _]. rewrite H in A. cbn [outcome mbind fst] in A. symmetry in A. unfold match_text in A.
  destruct (matchnode ns icase text fuel 0 0 (-1)) as [[s|]| |] eqn:E; cbn [mbind] in A; try discriminate. injection A as A. apply Nat.eqb_eq in A. subst s.
  destruct (search_run fuel st Hf F L) as [B _]. destruct fuel as [|fuel]; [lia|]. cbn [plain_search] in B. rewrite E in B. cbn [mbind] in B.
  destruct (trex_search ns icase tid text (S fuel) st) as [[o st']| |]; cbn in B; try discriminate. injection B as ->. eauto.
Qed.
Lemma given_part p : (Z.of_nat len < INT_MAX)%Z -> given tid text 0 p -> no_place p \/ part_of tid text p.
Proof.
  intros L [->|(b & e & H1 & H2 & ->)]; [left; reflexivity|]. right. exists b, (e - b). rewrite cast_int_id; [|unfold INT_MIN, INT_MAX in *; lia].
  split; [f_equal; lia|lia].
Qed.
End compiled.

(** ** The claims *)
Lemma place_whole tid b e n (text : str) : (Z.of_nat (List.length text) < INT_MAX)%Z -> b <= e -> e <= S (List.length text) -> n = Z.of_nat (e - b) ->
  taken tid b (Some e) = (Some (tid, b), n).
Proof. intros L L1 L2 ->. cbn [taken]. rewrite cast_int_id; [|unfold INT_MIN, INT_MAX in *; lia]. f_equal. lia. Qed.
Lemma get_first x st p : (1 <= x_nsub x)%Z -> nth_error (s_at st) 0 = Some p -> trex_getsubexp x st 0 = MRet (Some p).
Proof.
  intros L E. unfold trex_getsubexp, get_sub. change (0 <? 0)%Z with false. destruct (Z.leb_spec (x_nsub x) 0); [lia|]. cbn [orb].
  change (Z.to_nat 0) with 0. rewrite E. reflexivity.
Qed.
Lemma match_same pat ns x icase tid text fuel st : compile pat = PVal ns x -> List.length (s_at st) = Z.to_nat (trex_getsubexpcount x) ->
  outcome (trex_match ns icase tid text fuel st) = match_text ns icase text fuel.
Proof. intros Hc F. exact (proj1 (match_run pat ns x icase tid text Hc fuel st F)). Qed.
Lemma places_match pat ns x icase tid text fuel st okay st' : compile pat = PVal ns x -> List.length (s_at st) = Z.to_nat (trex_getsubexpcount x) ->
  (Z.of_nat (List.length text) < INT_MAX)%Z -> trex_match ns icase tid text fuel st = MRet (okay, st') ->
  List.length (s_at st') = Z.to_nat (trex_getsubexpcount x) /\
  (forall k p, nth_error (s_at st') k = Some p -> nth_error (s_at st) k = Some p \/ no_place p \/ part_of tid text p) /\
  (okay = true -> trex_getsubexp x st' 0 = MRet (Some (Some (tid, 0), Z.of_nat (List.length text)))).
Proof.
  intros Hc F L H. destruct (match_run pat ns x icase tid text Hc fuel st F) as [_ M]. destruct (M _ _ H) as [[F' G] W].
  destruct (compile_numbered _ _ _ Hc) as (_ & B & _). split; [exact F'|]. split.
  - intros k p Hk. destruct (G k p Hk) as [Y|Y]; [left; exact Y|right; exact (given_part tid text p L Y)].
  - intros ->. apply get_first; [lia|]. rewrite (W eq_refl). f_equal. apply place_whole with (text := text); [exact L|lia|lia|]. f_equal. lia.
Qed.
Lemma places_search pat ns x icase tid text fuel st o st' : no_nul pat -> compile pat = PVal ns x -> List.length (s_at st) = Z.to_nat (trex_getsubexpcount x) ->
  (Z.of_nat (List.length text) < INT_MAX)%Z -> 2 <= fuel -> trex_search ns icase tid text fuel st = MRet (o, st') ->
  List.length (s_at st') = Z.to_nat (trex_getsubexpcount x) /\
  (forall k p, nth_error (s_at st') k = Some p -> nth_error (s_at st) k = Some p \/ no_place p \/ part_of tid text p) /\
  (forall b e, o = Some (b, e) -> b < List.length text /\ b <= e <= S (List.length text) /\
    trex_getsubexp x st' 0 = MRet (Some (Some (tid, b), Z.of_nat (e - b)))).
Proof.
  intros Hp Hc F L Hf H. destruct (compiled_unique _ _ _ Hp Hc) as (r & W & _). destruct (Nat.eq_dec (List.length text) 0) as [E|E].
  { rewrite (search_empty ns icase tid text) in H by exact E. injection H as <- <-. split; [exact F|]. split; [auto|discriminate]. }
  destruct (search_run pat ns x r icase tid text Hp Hc W fuel st Hf F ltac:(lia)) as [A M]. destruct (M _ _ H) as [[F' G] N'].
  destruct (compile_numbered _ _ _ Hc) as (_ & B & _). split; [exact F'|]. split.
  - intros k p Hk. destruct (G k p Hk) as [Y|Y]; [left; exact Y|right; exact (given_part tid text p L Y)].
  - intros b e ->. rewrite H in A. cbn [outcome mbind fst] in A. symmetry in A. destruct (plain_search_some ns icase text _ _ _ _ _ A ltac:(lia)) as (Q1 & Q2 & _).
    pose proof (first_run pat ns x icase tid text Hc fuel b st ltac:(lia) F) as X. rewrite Q2 in X. destruct X as (s2 & _ & _ & P & _). specialize (P e eq_refl).
    split; [lia|]. split; [exact P|]. apply get_first; [lia|]. rewrite N'. cbn [found]. f_equal. apply place_whole with (text := text); [exact L|lia|lia|reflexivity].
Qed.
Lemma getsub_ok pat ns x st n : compile pat = PVal ns x -> List.length (s_at st) = Z.to_nat (trex_getsubexpcount x) ->
  (1 <= trex_getsubexpcount x <= INT_MAX)%Z /\
  exists o, trex_getsubexp x st n = MRet o /\ (o = None <-> (n < 0 \/ trex_getsubexpcount x <= n)%Z) /\
    forall p, o = Some p -> nth_error (s_at st) (Z.to_nat n) = Some p.
Proof.
  intros Hc F. destruct (compile_numbered _ _ _ Hc) as (_ & B & _). unfold trex_getsubexpcount in *. split; [exact B|]. unfold trex_getsubexp, get_sub.
  destruct (Z.ltb_spec n 0) as [L1|L1]; cbn [orb].
  { exists None. split; [reflexivity|]. split; [split; auto|discriminate]. }
  destruct (Z.leb_spec (x_nsub x) n) as [L2|L2].
  { exists None. split; [reflexivity|]. split; [split; auto|discriminate]. }
  destruct (nth_error (s_at st) (Z.to_nat n)) as [p|] eqn:E; [|apply nth_error_None in E; lia].
  exists (Some p). split; [reflexivity|]. split; [split; [discriminate|lia]|auto].
Qed.
Lemma fresh_fits x : List.length (s_at (fresh_subs x)) = Z.to_nat (trex_getsubexpcount x).
Proof. apply repeat_length. Qed.
Lemma search_ends_claim pat ns x icase tid text st : no_nul pat -> compile pat = PVal ns x -> List.length (s_at st) = Z.to_nat (trex_getsubexpcount x) ->
  exists out fuel0, out <> MOut /\ forall fuel, fuel0 <= fuel -> trex_search ns icase tid text fuel st = out.
Proof.
  intros Hp Hc F. destruct (compiled_unique _ _ _ Hp Hc) as (r & W & _). destruct (search_ends pat ns x r icase tid text Hp Hc W st F) as (out & A & B). eauto.
Qed.
Lemma search_sound_claim pat ns x r icase tid text st fuel b e st' : no_nul pat -> compile pat = PVal ns x -> writes pat r -> tame icase r ->
  List.length (s_at st) = Z.to_nat (trex_getsubexpcount x) -> 2 <= fuel -> trex_search ns icase tid text fuel st = MRet (Some (b, e), st') ->
  (e <= List.length text -> lang icase text r b e) /\ (stays r -> e <= List.length text).
Proof. intros Hp Hc W T F Hf H. exact (proj2 (proj2 (search_sound pat ns x r icase tid text Hp Hc W fuel st b e st' F T Hf H))). Qed.
Lemma search_safe_claim pat ns x r icase tid text st : no_nul pat -> compile pat = PVal ns x -> writes pat r -> stays r ->
  List.length (s_at st) = Z.to_nat (trex_getsubexpcount x) ->
  exists o st' fuel0, forall fuel, fuel0 <= fuel -> trex_search ns icase tid text fuel st = MRet (o, st').
Proof. intros Hp Hc W S F. destruct (search_safe pat ns x r icase tid text Hp Hc W st F S) as (o & st' & H). eauto. Qed.
Lemma search_plain_claim pat ns x r icase tid text st : no_nul pat -> compile pat = PVal ns x -> writes pat r -> tame icase r -> stays r -> plain r ->
  List.length (s_at st) = Z.to_nat (trex_getsubexpcount x) ->
  exists o st' fuel0, (forall fuel, fuel0 <= fuel -> trex_search ns icase tid text fuel st = MRet (o, st')) /\
    match o with Some (b, e) => first_instance icase text r b e | None => no_instance icase text r end.
Proof. intros Hp Hc W T S P F. destruct (search_plain pat ns x r icase tid text Hp Hc W st F T S P) as (o & st' & H & X). eauto 6. Qed.
Lemma match_found_claim pat ns x icase tid text st fuel st1 : no_nul pat -> compile pat = PVal ns x ->
  List.length (s_at st) = Z.to_nat (trex_getsubexpcount x) -> 2 <= fuel -> text <> [] -> trex_match ns icase tid text fuel st = MRet (true, st1) ->
  exists st', trex_search ns icase tid text fuel st = MRet (Some (0, List.length text), st').
Proof.
  intros Hp Hc F Hf D H. destruct (compiled_unique _ _ _ Hp Hc) as (r & W & _). apply (match_found pat ns x r icase tid text Hp Hc W fuel st st1 F Hf); [|exact H].
  destruct text; [contradiction|cbn; lia].
Qed.
