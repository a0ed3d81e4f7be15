(** What arg_rex promises, from the parts. *)
From Coq Require Import ZArith NArith Bool List Ascii String Lia.
From Verif.Base Require Import CInt CStr CMem.
From Verif.Model Require Import ArgInt Trex.
From Verif.Spec Require Import RegexSpec.
From Verif.Proofs Require Import TrexChars TrexRep TrexTotal TrexParse RegexUnique TrexCompile TrexForward TrexExact.
Import ListNotations.
Open Scope list_scope.
Open Scope nat_scope.

(** ** More fuel changes nothing *)
Section mono.
Variables (ns : list node) (icase : bool) (text : str).
Lemma mbind_mono {A B} (m m' : mat A) (k k' : A -> mat B) :
  (m <> MOut -> m' = m) -> (forall a, k a <> MOut -> k' a = k a) -> mbind m k <> MOut -> mbind m' k' = mbind m k.
Proof. intros Hm Hk H. destruct m as [a| |]; cbn [mbind] in *; rewrite Hm by congruence; cbn [mbind]; [apply Hk; exact H|reflexivity|contradiction]. Qed.
Definition le_m (m m' : Z -> nat -> Z -> mat (option nat)) : Prop := forall i s next, m i s next <> MOut -> m' i s next = m i s next.
Lemma chain_mono m m' : le_m m m' -> forall k k' inner i s next, k <= k' ->
  chain_loop ns m k inner i s next <> MOut -> chain_loop ns m' k' inner i s next = chain_loop ns m k inner i s next.
Proof.
  intros Hm. induction k as [|k IH]; intros k' inner i s next L H; [contradiction|]. destruct k' as [|k']; [lia|]. cbn [chain_loop] in *.
  apply mbind_mono; [auto| |exact H]. intros n. apply mbind_mono; [apply Hm|]. intros [s'|]; [|reflexivity].
  destruct (n_next n =? -1)%Z; [reflexivity|]. apply IH. lia.
Qed.
Lemma greedy_mono m m' : le_m m m' -> forall k k' left stop_ next p0 p1 s good n, k <= k' ->
  greedy_loop ns text m k left stop_ next p0 p1 s good n <> MOut ->
  greedy_loop ns text m' k' left stop_ next p0 p1 s good n = greedy_loop ns text m k left stop_ next p0 p1 s good n.
Proof.
  intros Hm. induction k as [|k IH]; intros k' left stop_ next p0 p1 s good n L H; [contradiction|]. destruct k' as [|k']; [lia|]. cbn [greedy_loop] in *.
  destruct (_ || _); [|reflexivity]. apply mbind_mono; [apply Hm| |exact H]. intros [s'|]; [|reflexivity]. cbv zeta. apply mbind_mono.
  - destruct (stop_ =? -1)%Z; [reflexivity|]. apply mbind_mono; [auto|]. intros g. destruct (_ || _); [|reflexivity].
    apply mbind_mono; [auto|]. intros gn. apply mbind_mono; [apply Hm|]. reflexivity.
  - intros [|]; [reflexivity|]. destruct (_ <=? s'); [reflexivity|]. apply IH. lia.
Qed.
Lemma matchclass_mono k : forall k' i c, k <= k' -> matchclass k ns icase i c <> MOut -> matchclass k' ns icase i c = matchclass k ns icase i c.
Proof.
  induction k as [|k IH]; intros k' i c L H; [contradiction|]. destruct k' as [|k']; [lia|]. cbn [matchclass] in *.
  apply mbind_mono; [auto| |exact H]. intros n. destruct (in_item icase c n); [reflexivity|]. destruct (n_next n =? -1)%Z; [reflexivity|]. apply IH. lia.
Qed.
Lemma matchnode_mono F : forall F', F <= F' -> le_m (matchnode ns icase text F) (matchnode ns icase text F').
Proof.
  induction F as [|F IH]; intros F' L i s next H; [contradiction|]. destruct F' as [|F']; [lia|]. cbn [matchnode] in *.
  assert (Hm := IH F' ltac:(lia)). apply mbind_mono; [auto| |exact H]. intros n. cbv zeta.
  destruct (n_type n =? OP_GREEDY)%Z.
  { apply mbind_mono; [apply greedy_mono; [exact Hm|lia]|reflexivity]. }
  destruct (n_type n =? OP_OR)%Z.
  { apply mbind_mono; [apply chain_mono; [exact Hm|lia]|]. intros [s'|]; [reflexivity|]. apply chain_mono; [exact Hm|lia]. }
  destruct (_ || _); [apply chain_mono; [exact Hm|lia]|].
  destruct (n_type n =? OP_WB)%Z; [reflexivity|]. destruct (n_type n =? OP_BOL)%Z; [reflexivity|]. destruct (n_type n =? OP_EOL)%Z; [reflexivity|].
  destruct (n_type n =? OP_DOT)%Z; [reflexivity|]. destruct (_ || _); [|reflexivity].
  apply mbind_mono; [auto|]. intros c. apply mbind_mono; [apply matchclass_mono; lia|reflexivity].
Qed.
Lemma match_text_mono F F' : F <= F' -> match_text ns icase text F <> MOut -> match_text ns icase text F' = match_text ns icase text F.
Proof. intros L. unfold match_text. apply mbind_mono; [apply matchnode_mono; exact L|reflexivity]. Qed.
End mono.

(** ** The claims *)
Lemma compiled_unique pat ns x : no_nul pat -> compile pat = PVal ns x -> exists r, writes pat r /\ forall r', writes pat r' -> r' = r.
Proof.
  intros Hp H. destruct (compile_inv _ _ _ Hp H) as (r & n & W & _). exists r. split; [exact W|]. intros r' W'. exact (writes_unique _ _ _ W' W).
Qed.
Lemma compiled_rep pat ns x r : no_nul pat -> compile pat = PVal ns x -> writes pat r ->
  rep ns false 0 (List.length ns) 0 r /\ exists n, nd ns 0 n /\ n_next n = (-1)%Z.
Proof.
  intros Hp H W. destruct (compile_inv _ _ _ Hp H) as (r' & n & W' & R & Hn & Hx). rewrite (writes_unique _ _ _ W W'). split; [exact R|]. eauto.
Qed.
Definition enough_fuel (ns : list node) : nat := meas ns 0 (List.length ns) + K ns.
Lemma match_good pat ns x r icase text sf fuel : no_nul pat -> compile pat = PVal ns x -> writes pat r -> (sf = true -> stays r) ->
  enough_fuel ns <= fuel -> good text sf 0 (matchnode ns icase text fuel 0 0 (-1)).
Proof.
  intros Hp H W Hs HF. destruct (compiled_rep _ _ _ _ Hp H W) as (R & n & Hn & Hx).
  apply (all_total ns icase text sf (meas ns 0 (List.length ns)) 0 (List.length ns) 0 r n); try assumption.
  - apply le_n.
  - apply le_n.
  - left. split; [exact Hx|]. left. reflexivity.
Qed.
(** The outcome of matching: it exists and does not depend on the fuel. *)
Lemma match_ends pat ns x icase text : no_nul pat -> compile pat = PVal ns x ->
  exists out fuel0, out <> MOut /\ forall fuel, fuel0 <= fuel -> match_text ns icase text fuel = out.
Proof.
  intros Hp H. destruct (compiled_unique _ _ _ Hp H) as (r & W & _).
  assert (G : match_text ns icase text (enough_fuel ns) <> MOut).
  { destruct (match_good _ _ _ _ icase text false _ Hp H W ltac:(discriminate) (le_n _)) as [G _]. unfold match_text.
    destruct (matchnode ns icase text (enough_fuel ns) 0 0 (-1)); cbn; [discriminate|discriminate|contradiction]. }
  exists (match_text ns icase text (enough_fuel ns)), (enough_fuel ns). split; [exact G|]. intros fuel L. apply match_text_mono; assumption.
Qed.
Lemma match_sound pat ns x r icase text fuel : no_nul pat -> compile pat = PVal ns x -> writes pat r -> tame icase r ->
  match_text ns icase text fuel = MRet true -> matches icase text r.
Proof.
  intros Hp H W T E. destruct (compiled_rep _ _ _ _ Hp H W) as (R & _). unfold match_text in E. apply mbind_ret in E. destruct E as ([s|] & E & E2); [|discriminate].
  injection E2 as E2. apply Nat.eqb_eq in E2. subst s. destruct (rep_sound _ _ _ _ _ _ _ _ R T fuel 0 true 0 (-1)%Z (List.length text) E) as [_ X]. apply X. lia.
Qed.
Lemma match_safe pat ns x r icase text : no_nul pat -> compile pat = PVal ns x -> writes pat r -> stays r ->
  exists b fuel0, forall fuel, fuel0 <= fuel -> match_text ns icase text fuel = MRet b.
Proof.
  intros Hp H W Hs. destruct (match_good _ _ _ _ icase text true _ Hp H W (fun _ => Hs) (le_n _)) as [G1 G2]. destruct (G2 eq_refl ltac:(lia)) as [G3 _].
  assert (exists b, match_text ns icase text (enough_fuel ns) = MRet b) as (b & Eb).
  { unfold match_text. destruct (matchnode ns icase text (enough_fuel ns) 0 0 (-1)) as [o| |]; [cbn; eauto|contradiction|contradiction]. }
  exists b, (enough_fuel ns). intros fuel L. rewrite <- Eb. apply match_text_mono; [exact L|]. rewrite Eb. discriminate.
Qed.
Lemma match_exact pat ns x r icase text : no_nul pat -> compile pat = PVal ns x -> writes pat r -> tame icase r -> simple r ->
  (Z.of_nat (List.length text) < 65535)%Z -> matches icase text r ->
  exists fuel0, forall fuel, fuel0 <= fuel -> match_text ns icase text fuel = MRet true.
Proof.
  intros Hp H W T Sm Hl M. destruct (compiled_rep _ _ _ _ Hp H W) as (R & n & Hn & Hx).
  exists (enough_fuel ns). intros fuel L. destruct (match_good _ _ _ _ icase text false _ Hp H W ltac:(discriminate) L) as [G _].
  unfold match_text. assert (E : matchnode ns icase text fuel 0 0 (-1) = MRet (Some (List.length text))).
  { apply (simple_complete ns icase text Hl _ _ _ _ _ R Sm T fuel 0 true 0 (-1)%Z M (or_introl eq_refl)); [|exact G].
    intros _ n' Hn'. assert (n' = n) as -> by (unfold nd in *; congruence). left. exact Hx. }
  rewrite E. cbn [mbind]. rewrite Nat.eqb_refl. reflexivity.
Qed.
Lemma accepted pat r : acceptable pat -> writes pat r -> exists ns x, compile pat = PVal ns x.
Proof. intros (A & B & C & D) W. exact (forward_compile pat A ltac:(lia) C D r W). Qed.

Lemma stored_put (vals : list str) at_ v : at_ < List.length vals -> stored vals at_ v (firstn at_ vals ++ [v] ++ skipn (S at_) vals).
Proof.
  revert at_. induction vals as [|w vals IH]; intros at_ L; cbn [List.length] in L; [lia|]. destruct at_ as [|at_].
  - cbn. split; [reflexivity|]. split; [reflexivity|]. intros [|k] D; [contradiction|reflexivity].
  - destruct (IH at_ ltac:(lia)) as (A & B & C). cbn [firstn skipn app]. split; [cbn; rewrite <- A; reflexivity|]. split; [exact B|].
    intros [|k] D; [reflexivity|]. cbn. apply C. congruence.
Qed.
Lemma scan_outcome pat r icase maxcount count sval text : acceptable pat -> writes pat r -> tame icase r -> stays r ->
  (0 <= count < maxcount)%Z -> (count < Z.of_nat (List.length sval))%Z ->
  exists ok sval' fuel0, (forall fuel, fuel0 <= fuel ->
      rex_scan fuel pat icase maxcount count sval (Some text) =
      MRet (if ok : bool then (0, count + 1, sval')%Z else (ARG_ERR_REGNOMATCH, count, sval))) /\
    stored sval (Z.to_nat count) text sval' /\
    (ok = true -> matches icase text r) /\
    (simple r -> (Z.of_nat (List.length text) < 65535)%Z -> matches icase text r -> ok = true).
Proof.
  intros A W T St Hc Hs. destruct (accepted _ _ A W) as (ns & x & E). assert (Hp := proj1 A).
  destruct (match_safe _ _ _ _ icase text Hp E W St) as (b & f0 & Hb).
  exists b, (firstn (Z.to_nat count) sval ++ [text] ++ skipn (S (Z.to_nat count)) sval), f0. split; [|split; [|split]].
  - intros fuel L. unfold rex_scan. rewrite (proj2 (Z.eqb_neq _ _)) by lia. rewrite E, (Hb fuel L). cbn [mbind]. destruct b; reflexivity.
  - apply stored_put. lia.
  - intros ->. exact (match_sound _ _ _ _ _ _ _ Hp E W T (Hb f0 (le_n _))).
  - intros Sm Hl M. destruct (match_exact _ _ _ _ _ _ Hp E W T Sm Hl M) as (f1 & Hf). specialize (Hf (f0 + f1) ltac:(lia)).
    rewrite (Hb (f0 + f1) ltac:(lia)) in Hf. congruence.
Qed.

Lemma scan_without_matching fuel pat icase maxcount count sval text :
  rex_scan fuel pat icase maxcount maxcount sval text = MRet (ARG_ERR_MAXCOUNT, maxcount, sval) /\
  ((count < maxcount)%Z -> rex_scan fuel pat icase maxcount count sval None = MRet (0, count + 1, sval)%Z).
Proof. unfold rex_scan. rewrite Z.eqb_refl. split; [reflexivity|]. intros L. destruct (Z.eqb_spec count maxcount); [lia|reflexivity]. Qed.
