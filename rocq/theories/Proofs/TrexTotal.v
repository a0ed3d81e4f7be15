(** Matching ends, and stays within the text if nothing in the expression takes its end for a character. *)
From Coq Require Import ZArith NArith Bool List Ascii String Lia.
From Verif.Base Require Import CInt CStr CMem.
From Verif.Model Require Import Trex.
From Verif.Spec Require Import RegexSpec.
From Verif.Proofs Require Import TrexChars TrexRep.
Import ListNotations.
Open Scope list_scope.
Open Scope nat_scope.

Section total.
Variables (ns : list node) (icase : bool) (text : str) (sf : bool).
Let len := List.length text.
Let N := List.length ns.
Definition safe (r : rx) : Prop := sf = true -> stays r.
Definition good (s : nat) (o : mat (option nat)) : Prop :=
  o <> MOut /\ (sf = true -> s <= len -> o <> MUB /\ forall s', o = MRet (Some s') -> s' <= len).
Definition valid (hi : nat) (next : Z) : Prop :=
  next = (-1)%Z \/ exists j lo' hi' r', next = zn j /\ hi <= lo' /\ hi' <= N /\ rep ns true lo' hi' j r' /\ safe r'.

Lemma char_total s : char_ text s <> MOut /\ (s <= len -> exists c, char_ text s = MRet c /\ (s = len -> c = NUL)).
Proof.
  unfold char_, load. split; [destruct (nth_error (terminated text) s) as [[c|]|]; discriminate|].
  unfold terminated, bytes, len. intros L. destruct (Nat.eq_dec s (List.length text)) as [->|D].
  - rewrite nth_error_app2 by (rewrite map_length; reflexivity). rewrite map_length, Nat.sub_diag. exists NUL. split; reflexivity.
  - rewrite nth_error_app1 by (rewrite map_length; unfold str in *; lia).
    destruct (nth_error text s) as [c|] eqn:E.
    + rewrite (map_nth_error Some _ _ E). exists c. split; [reflexivity|]. intros ->. contradiction.
    + apply nth_error_None in E. unfold str in *. lia.
Qed.
Lemma good_one s (f : ascii -> bool) : (sf = true -> f NUL = false) -> good s (mbind (char_ text s) (fun c => MRet (one (f c) s))).
Proof.
  intros Hf. destruct (char_total s) as [H1 H2]. split.
  - destruct (char_ text s); cbn; [discriminate|discriminate|contradiction].
  - intros Sf L. destruct (H2 L) as (c & -> & E). cbn [mbind]. split; [discriminate|]. intros s' [= H]. apply one_some in H.
    destruct H as [H ->]. destruct (Nat.eq_dec s len) as [D|D]; [|lia]. rewrite (E D), (Hf Sf) in H. discriminate.
Qed.
Lemma upper_pos z : (1 <= z -> 1 <= toupper_z z /\ 1 <= tolower_z z)%Z.
Proof. unfold toupper_z, tolower_z. intros H. cases_leb; cbn [andb]; lia. Qed.
Lemma same_nul c : c <> NUL -> same_char icase NUL (sgn c) = false.
Proof.
  intros D. destruct (same_char icase NUL (sgn c)) eqn:E; [|reflexivity]. exfalso. apply D. apply same_char_spec in E.
  unfold same in E. destruct E as [E|[_ E]]; [congruence|].
  apply code_inj. apply N2Z.inj. assert (X : Z.of_N (code (toupper NUL)) = Z.of_N (code (toupper c))) by (rewrite E; reflexivity).
  rewrite !toupper_code in X. revert X. change (Z.of_N (code NUL)) with 0%Z. unfold toupper_z. pose proof (N2Z.is_nonneg (code c)). cases_leb; cbn [andb]; lia.
Qed.
Lemma in_item_nul n it : item_is n it -> stays_item it -> in_item icase NUL n = false.
Proof.
  unfold in_item. destruct it as [d|a b|k]; cbn [item_is stays_item].
  - intros -> H. pose proof (sgn_range d). unfold OP_RANGE, OP_CCLASS. destruct (Z.eqb_spec (sgn d) 264); [lia|].
    destruct (Z.eqb_spec (sgn d) 262); [lia|]. apply same_nul. exact H.
  - intros (-> & -> & ->) H. change (OP_RANGE =? OP_RANGE)%Z with true. cbv iota. change (sgn NUL) with 0%Z.
    rewrite (sgn_ascii a) by lia. destruct (upper_pos (Z.of_N (code a))); [lia|].
    destruct icase.
    + rewrite (proj2 (Z.leb_gt _ 0)) by lia. rewrite (proj2 (Z.leb_gt (tolower_z _) 0)) by lia. reflexivity.
    + rewrite (proj2 (Z.leb_gt _ 0)) by lia. reflexivity.
  - intros (-> & ->) H. change (OP_CCLASS =? OP_RANGE)%Z with false. change (OP_CCLASS =? OP_CCLASS)%Z with true. cbv iota.
    rewrite matchcclass_spec. exact H.
Qed.
Lemma matchclass_total fuel j m js it its c : nd ns j m -> item_is m it -> seg ns j js its -> S N <= fuel + j ->
  exists b, matchclass fuel ns icase (zn j) c = MRet b /\ (Forall stays_item (it :: its) -> c = NUL -> b = false).
Proof.
  revert j m js it its. induction fuel as [|fuel IH]; intros j m js it its Hm Hi Hs L.
  - pose proof (nd_lt _ _ _ Hm). fold N in H. lia.
  - cbn [matchclass]. rewrite (get_nd _ _ _ Hm). cbn [mlift mbind]. destruct (in_item icase c m) eqn:E.
    + exists true. split; [reflexivity|]. intros F ->. inversion F; subst. rewrite (in_item_nul m it Hi) in E by assumption. discriminate.
    + inversion Hs as [p n Hn Hx|p n j' m' js' it' its' Hn Hx Hj Hm' Hi' Hs']; subst.
      * assert (n = m) as -> by (unfold nd in *; congruence). rewrite Hx. exists false. split; reflexivity.
      * assert (n = m) as -> by (unfold nd in *; congruence). rewrite Hx, zn_nonneg.
        destruct (IH _ _ _ _ _ Hm' Hi' Hs') as (b & Eb & Hb); [lia|]. exists b. split; [exact Eb|]. intros F Ec.
        inversion F; subst. apply Hb; [assumption|reflexivity].
Qed.

(** The stops of a repetition. *)
Definition follow (stop_ next : Z) (g : node) : mat Z :=
  if negb (n_next g =? -1)%Z then MRet (n_next g)
  else if (next =? -1)%Z then MRet (-1)%Z else mbind (mlift (get ns next)) (fun nn => MRet (n_next nn)).
Definition stops_fine (m : Z -> nat -> Z -> mat (option nat)) (stop_ next : Z) : Prop :=
  stop_ = (-1)%Z \/ exists g gn, get ns stop_ = Val g /\ follow stop_ next g = MRet gn /\ forall s, good s (m stop_ s gn).
Definition good2 (s : nat) (o : mat (nat * Z)) : Prop :=
  o <> MOut /\ (sf = true -> s <= len -> o <> MUB /\ forall g c, o = MRet (g, c) -> g <= len).
Lemma greedy_total m k left stop_ next p0 p1 s n :
  (forall s, good s (m left s stop_)) -> stops_fine m stop_ next -> (0 <= n <= 65536)%Z -> (p1 <= 65535)%Z -> (65537 - n < Z.of_nat k)%Z ->
  good2 s (greedy_loop ns text m k left stop_ next p0 p1 s s n).
Proof.
  intros Hm Hst. revert s n. induction k as [|k IH]; intros s n Hn Hp Hk; [lia|]. cbn [greedy_loop].
  destruct (orb (n =? 65535)%Z (n <? p1)%Z) eqn:Ec.
  2:{ split; [discriminate|]. intros _ L. split; [discriminate|]. intros g c [= <- <-]. exact L. }
  assert (n <= 65535)%Z. { apply orb_true_iff in Ec. rewrite Z.eqb_eq, Z.ltb_lt in Ec. lia. }
  destruct (Hm s) as [G1 G2]. destruct (m left s stop_) as [[s'|]| |] eqn:Em; cbn [mbind].
  2:{ split; [discriminate|]. intros _ L. split; [discriminate|]. intros g c [= <- <-]. exact L. }
  2:{ split; [discriminate|]. intros Sf L. destruct (G2 Sf L) as [X _]. contradiction. }
  2:{ contradiction. }
  assert (Hs' : sf = true -> s <= len -> s' <= len). { intros Sf L. destruct (G2 Sf L) as [_ X]. apply X. reflexivity. }
  assert (Y : forall stops : bool, good2 s (if stops then MRet (s', (n + 1)%Z)
      else if List.length text <=? s' then MRet (s', (n + 1)%Z) else greedy_loop ns text m k left stop_ next p0 p1 s' s' (n + 1))).
  { intros stops. assert (Z0 : good2 s (MRet (s', (n + 1)%Z))).
    { split; [discriminate|]. intros Sf L. split; [discriminate|]. intros g c [= <- <-]. exact (Hs' Sf L). }
    destruct stops; [exact Z0|]. destruct (List.length text <=? s'); [exact Z0|].
    destruct (IH s' (n + 1)%Z) as [I1 I2]; [lia|lia|lia|]. split; [exact I1|]. intros Sf L. apply (I2 Sf). exact (Hs' Sf L). }
  destruct (stop_ =? -1)%Z eqn:Es; [cbn [mbind]; apply (Y false)|].
  destruct Hst as [->|(g & gn & Eg & Ef & Hg)]; [discriminate|]. rewrite Eg. cbn [mlift mbind].
  destruct (negb (n_type g =? OP_GREEDY)%Z || negb (minimum (n_right g) =? 0)%Z); [|cbn [mbind]; apply (Y false)].
  unfold follow in Ef. rewrite Ef. cbn [mbind]. destruct (Hg s') as [G3 G4].
  destruct (m stop_ s' gn) as [o| |]; cbn [mbind]; [apply Y| |contradiction].
  split; [discriminate|]. intros Sf L. destruct (G4 Sf (Hs' Sf L)) as [X _]. contradiction.
Qed.

Definition meas (lo hi : nat) : nat := (N - lo) * S N + (hi - lo).
Lemma meas_lo lo hi lo' hi' : lo < lo' -> lo' <= N -> hi' <= N -> meas lo' hi' < meas lo hi.
Proof.
  intros A B C. unfold meas. assert (E : (N - lo') * S N + S N <= (N - lo) * S N).
  { replace ((N - lo') * S N + S N) with (S (N - lo') * S N) by (cbn [Nat.mul]; lia). apply Nat.mul_le_mono_r. lia. }
  lia.
Qed.
Definition K : nat := N + Z.to_nat 65540.

(** What is passed on as the next node. *)
Definition linked (hi : nat) (n : node) (next : Z) : Prop :=
  n_next n = (-1)%Z /\ valid hi next \/ valid hi (n_next n) /\ (next = n_next n \/ next = (-1)%Z).
Definition elem_total (M : nat) : Prop := forall lo hi i r n0, meas lo hi <= M -> hi <= N -> rep ns false lo hi i r -> safe r -> nd ns i n0 ->
  forall F next, M + K <= F -> linked hi n0 next -> forall s, good s (matchnode ns icase text F (zn i) s next).
Lemma valid_later hi hi' next : valid hi next -> hi' <= hi -> valid hi' next.
Proof. intros [->|(j & lo' & h & r' & A & B & C)] L; [left; reflexivity|]. right. exists j, lo', h, r'. split; [exact A|]. split; [lia|exact C]. Qed.
(** A chain, given its elements. *)
Lemma chain_total M : elem_total M -> forall lo hi i r, rep ns true lo hi i r -> meas lo hi <= M -> hi <= N -> safe r ->
  forall F k inner next, M + K <= F -> hi - lo < k -> valid hi next -> forall s, good s (chain_loop ns (matchnode ns icase text F) k inner (zn i) s next).
Proof.
  intros HE lo hi i r H. remember true as ch eqn:Ech. revert Ech.
  induction H as [| | | | | | | | | |lo hi i n r Hr _ Hn Hx|lo mid hi i n j a b Ha _ Hn Hx Hb IHb]; intros Ech; try discriminate;
    intros Hm Hhi Hs F k inner next HF Hk Hv s; (destruct k as [|k]; [lia|]); cbn [chain_loop]; rewrite (get_nd _ _ _ Hn); cbn [mlift mbind]; rewrite Hx.
  - change (-1 =? -1)%Z with true. cbv iota.
    assert (V : linked hi n (if inner then next else (-1)%Z)) by (left; split; [exact Hx|destruct inner; [exact Hv|left; reflexivity]]).
    destruct (HE lo hi i r n Hm Hhi Hr Hs Hn F _ HF V s) as [G1 G2].
    destruct (matchnode ns icase text F (zn i) s (if inner then next else (-1)%Z)) as [[s'|]| |]; cbn [mbind]; split; auto; try discriminate.
  - rewrite zn_nonneg. pose proof (rep_bounds _ _ _ _ _ _ Ha) as B1. pose proof (rep_bounds _ _ _ _ _ _ Hb) as B2.
    assert (V : linked mid n (if inner then zn j else (-1)%Z)).
    { right. rewrite Hx. split; [|destruct inner; auto]. right. exists j, mid, hi, b. split; [reflexivity|]. split; [lia|]. split; [exact Hhi|]. split; [exact Hb|].
      intros Sf. exact (proj2 (Hs Sf)). }
    destruct (HE lo mid i a n) with (F := F) (next := if inner then zn j else (-1)%Z) (s := s) as [G1 G2].
    + unfold meas in *. lia.
    + lia.
    + exact Ha.
    + intros Sf. exact (proj1 (Hs Sf)).
    + exact Hn.
    + exact HF.
    + exact V.
    + destruct (matchnode ns icase text F (zn i) s (if inner then zn j else (-1)%Z)) as [[s'|]| |] eqn:E; cbn [mbind].
      2-4: split; auto; discriminate.
      destruct (IHb eq_refl) with (F := F) (k := k) (inner := inner) (next := next) (s := s') as [I1 I2].
      * assert (meas mid hi < meas lo hi) by (apply meas_lo; lia). lia.
      * exact Hhi.
      * intros Sf. exact (proj2 (Hs Sf)).
      * exact HF.
      * lia.
      * exact Hv.
      * split; [exact I1|]. intros Sf L. apply (I2 Sf). destruct (G2 Sf L) as [_ X]. apply X. reflexivity.
Qed.
Lemma head_of lo hi j r : rep ns true lo hi j r -> safe r -> hi <= N ->
  exists g mid a, nd ns j g /\ lo < mid /\ mid <= hi /\ rep ns false lo mid j a /\ safe a /\ valid mid (n_next g).
Proof.
  intros H Hs Hhi. inversion H as [| | | | | | | | | |lo0 hi0 i n r0 Hr Hn Hx|lo0 mid hi0 i n j0 a b Ha Hn Hx Hb]; subst.
  - pose proof (rep_bounds _ _ _ _ _ _ Hr). exists n, hi, r. repeat split; auto; try lia. left. exact Hx.
  - pose proof (rep_bounds _ _ _ _ _ _ Ha). pose proof (rep_bounds _ _ _ _ _ _ Hb).
    exists n, mid, a. split; [exact Hn|]. split; [lia|]. split; [lia|]. split; [exact Ha|]. split; [intros Sf; exact (proj1 (Hs Sf))|].
    right. exists j0, mid, hi, b. rewrite Hx. split; [reflexivity|]. split; [lia|]. split; [exact Hhi|]. split; [exact Hb|].
    intros Sf; exact (proj2 (Hs Sf)).
Qed.
Lemma land_max z : (0 <= Z.land z 65535 <= 65535)%Z.
Proof. change 65535%Z with (Z.ones 16). rewrite Z.land_ones by lia. pose proof (Z.mod_pos_bound z (2 ^ 16)). change (Z.ones 16) with 65535%Z. lia. Qed.

Lemma all_total M : elem_total M.
Proof.
  induction M as [M IHM] using lt_wf_ind. intros lo hi i r n0 Hm Hhi H Hs Hn0 F next HF Hlk s.
  destruct F as [|F]; [unfold K in HF; lia|].
  inversion H as [lo0 n c Hn Ht|lo0 n k Hn Ht Hl|lo0 n Hn Ht|lo0 n Hn Ht|lo0 n Hn Ht|lo0 n b Hn Ht Hl
    |lo0 hi0 n out j m js it its Hn Ht Hl Hj Hb Hm' Hi Hs'|lo0 hi0 n l r0 Hn Ht Hl Hr
    |lo0 mid hi0 n l q a b Hn Ht Hl Hq Ha Hb|lo0 hi0 n l m a min max Hn Ht Hl Hc Hm0 Hx0 Ha| |]; subst.
  - rewrite (matchnode_char _ _ _ _ _ _ _ _ _ Hn Ht). apply (good_one s (fun d => same_char icase d (sgn c))). intros Sf. apply same_nul. exact (Hs Sf).
  - rewrite (matchnode_kind _ _ _ _ _ _ _ _ _ Hn Ht Hl). apply (good_one s (kind k)). intros Sf. exact (Hs Sf).
  - rewrite (matchnode_any _ _ _ _ _ _ _ _ Hn Ht). split; [destruct (_ <? s); discriminate|]. intros Sf. destruct (Hs Sf).
  - rewrite (matchnode_stop _ _ _ _ _ _ _ _ Hn Ht). split; [discriminate|]. intros Sf L. split; [discriminate|].
    intros s' [= E]. destruct (s =? List.length text); [|discriminate]. injection E as <-. exact L.
  - rewrite (matchnode_start _ _ _ _ _ _ _ _ Hn Ht). split; [discriminate|]. intros Sf L. split; [discriminate|].
    intros s' [= E]. destruct (s =? 0); [|discriminate]. injection E as <-. exact L.
  - split; [|intros Sf; destruct (Hs Sf)]. cbn [matchnode]. rewrite (get_nd _ _ _ Hn). cbn [mlift mbind]. rewrite Ht. cbn -[char_ isspace].
    assert (X : forall p, char_ text p <> MOut) by (intros p; apply char_total).
    destruct (char_ text s) as [c| |] eqn:E; cbn -[char_ isspace]; [|discriminate|exfalso; exact (X _ E)].
    destruct ((s =? 0) && negb (isspace c)); cbn -[char_ isspace]; [discriminate|].
    destruct (s =? List.length text); cbn -[char_ isspace].
    + destruct (s =? 0); cbn -[char_ isspace]; [discriminate|].
      destruct (char_ text (s - 1)) as [d| |] eqn:E1; cbn -[char_ isspace]; [|discriminate|exfalso; exact (X _ E1)].
      destruct (negb (isspace d)); cbn -[char_ isspace]; [discriminate|].
      destruct (char_ text (s + 1)) as [e| |] eqn:E2; cbn -[char_ isspace]; [discriminate|discriminate|exfalso; exact (X _ E2)].
    + destruct (char_ text (s + 1)) as [e| |] eqn:E2; cbn -[char_ isspace]; [discriminate|discriminate|exfalso; exact (X _ E2)].
  - rewrite (matchnode_set _ _ _ _ _ _ _ _ _ Hn Ht), Hl. destruct (char_total s) as [H1 H2].
    assert (X : forall c, exists b, matchclass F ns icase (zn j) c = MRet b /\ (Forall stays_item (it :: its) -> c = NUL -> b = false)).
    { intros c. apply (matchclass_total F j m js it its c Hm' Hi Hs'). unfold K in HF. lia. }
    split.
    + destruct (char_ text s) as [c| |]; cbn [mbind]; [|discriminate|contradiction]. destruct (X c) as (b & -> & _). discriminate.
    + intros Sf L. destruct (H2 L) as (c & -> & E). cbn [mbind]. destruct (X c) as (b & -> & Hb0). cbn [mbind]. split; [discriminate|].
      intros s' [= E1]. apply one_some in E1. destruct E1 as [E1 ->]. destruct (Hs Sf) as [-> Hst].
      destruct (Nat.eq_dec s len) as [D|D]; [|lia]. rewrite (Hb0 Hst (E D)) in E1. discriminate.
  - rewrite (matchnode_group _ _ _ _ _ _ _ _ Hn Ht), Hl. pose proof (rep_bounds _ _ _ _ _ _ Hr). pose proof (nd_lt _ _ _ Hn) as Hlt. fold N in Hlt.
    assert (meas (S i) hi < meas i hi) by (apply meas_lo; lia).
    apply (chain_total (meas (S i) hi)) with (lo := S i) (hi := hi) (r := r); try assumption; try lia.
    + apply IHM. lia.
    + unfold K in *. lia.
    + destruct Hlk as [[_ Hv]|[Hv [->| ->]]]; [exact Hv|exact Hv|left; reflexivity].
  - rewrite (matchnode_or _ _ _ _ _ _ _ _ Hn Ht), Hl, Hq. pose proof (rep_bounds _ _ _ _ _ _ Ha). pose proof (rep_bounds _ _ _ _ _ _ Hb).
    assert (M1 : meas lo i < meas lo hi) by (unfold meas; lia). assert (M2 : meas (S i) hi < meas lo hi) by (apply meas_lo; lia).
    assert (Ga : good s (chain_loop ns (matchnode ns icase text F) F false (zn l) s (-1))).
    { apply (chain_total (meas lo i)) with (lo := lo) (hi := i) (r := a); try assumption; try lia.
      - apply IHM. lia.
      - intros Sf. exact (proj1 (Hs Sf)).
      - unfold K in *. lia.
      - left. reflexivity. }
    assert (Gb : good s (chain_loop ns (matchnode ns icase text F) F false (zn q) s (-1))).
    { apply (chain_total (meas (S i) hi)) with (lo := S i) (hi := hi) (r := b); try assumption; try lia.
      - apply IHM. lia.
      - intros Sf. exact (proj2 (Hs Sf)).
      - unfold K in *. lia.
      - left. reflexivity. }
    destruct Ga as [G1 G2].
    destruct (chain_loop ns (matchnode ns icase text F) F false (zn l) s (-1)) as [[s'|]| |]; cbn [mbind]; [|exact Gb| |contradiction].
    + split; [discriminate|exact G2].
    + split; [discriminate|]. intros Sf L. destruct (G2 Sf L) as [X _]. contradiction.
  - rewrite (matchnode_rep _ _ _ _ _ _ _ _ Hn Ht), Hl. pose proof (rep_bounds _ _ _ _ _ _ Ha).
    assert (n0 = n) as -> by (unfold nd in *; congruence).
    set (stop_ := if (n_next n =? -1)%Z then next else n_next n).
    assert (Vst : valid (S i) stop_ /\ (next = stop_ \/ next = (-1)%Z)).
    { unfold stop_. destruct Hlk as [[E Hv]|[Hv E]].
      - rewrite E. change (-1 =? -1)%Z with true. cbv iota. auto.
      - destruct (Z.eqb_spec (n_next n) (-1)) as [E1|E1]; [|auto]. split; [|auto]. destruct E as [->| ->]; [exact Hv|left; reflexivity]. }
    destruct Vst as [Vst Enext].
    assert (M1 : meas lo i < meas lo (S i)) by (unfold meas; lia).
    assert (G : good2 s (greedy_loop ns text (matchnode ns icase text F) F (zn l) stop_ next (minimum (n_right n)) (maximum (n_right n)) s s 0)).
    { apply greedy_total.
      - intros s1. apply (IHM (meas lo i)) with (lo := lo) (hi := i) (r := a) (n0 := m); try assumption; try lia.
        left. split; [exact Hx0|]. eapply valid_later; [exact Vst|lia].
      - destruct Vst as [E|(j & lo' & hi' & r' & Ej & Llo & Lhi & Hr & Hsr)]; [left; exact E|].
        destruct (head_of _ _ _ _ Hr Hsr Lhi) as (g & mid & b & Hg & L1 & L2 & Hb & Hsb & Vg).
        right. exists g, (n_next g). split; [rewrite Ej; apply get_nd; exact Hg|]. split.
        + unfold follow. destruct (Z.eqb_spec (n_next g) (-1)) as [Eg|Eg]; cbn [negb]; [|reflexivity].
          destruct Enext as [En|En]; rewrite En.
          * rewrite Ej, zn_nonneg, (get_nd _ _ _ Hg). reflexivity.
          * rewrite Eg. reflexivity.
        + intros s1. rewrite Ej. assert (meas lo' mid < meas lo (S i)) by (apply meas_lo; lia).
          apply (IHM (meas lo' mid)) with (lo := lo') (hi := mid) (r := b) (n0 := g); try assumption; try lia.
          right. split; [exact Vg|left; reflexivity].
      - lia.
      - unfold maximum. apply land_max.
      - unfold K in HF. lia. }
    destruct G as [G1 G2].
    destruct (greedy_loop ns text (matchnode ns icase text F) F (zn l) stop_ next (minimum (n_right n)) (maximum (n_right n)) s s 0) as [[g c]| |];
      cbn [mbind fst snd]; [| |contradiction].
    + split; [discriminate|]. intros Sf L. split; [discriminate|]. intros s' [= E].
      destruct (enough _ _ _); [|discriminate]. injection E as <-. destruct (G2 Sf L) as [_ X]. exact (X _ _ eq_refl).
    + split; [discriminate|]. intros Sf L. destruct (G2 Sf L) as [X _]. contradiction.
Qed.
End total.
