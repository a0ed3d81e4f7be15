(** Every command line is read to its end, or reading comes back to where it was. *)
From Coq Require Import ZArith Bool List Ascii String Arith Lia.
From Verif.Base Require Import CInt CStr.
From Verif.Model Require Import Permute Getopt GetoptFull.
From Verif.Spec Require Import CmdLine GetoptSpec GetoptAnswer.
From Verif.Proofs Require Import PermuteProofs GetoptLong GetoptProofs GetoptNames GetoptSteps GetoptCalls.
Import ListNotations.
Open Scope list_scope.
Open Scope nat_scope.

Lemma split_total s : exists a v, splits s a v.
Proof. exists (fst (split_equal s)), (snd (split_equal s)). apply split_equal_splits. Qed.
Lemma split_none s a : splits s a None -> a = s.
Proof. intros (_ & E). rewrite app_nil_r in E. symmetry. exact E. Qed.

Section Total.
Variable q : request.
Hypothesis FQ : fine q.

Lemma name_total ns short dash s ws : q_names q = Some ns ->
  (exists e ws', by_name q short dash s ws e ws') \/ (short = true /\ exists a v, splits s a v /\ stands_for_none q true a).
Proof.
  intros Qn. assert (Forall fine_name ns) as Fn by (destruct FQ as (_ & F); exact (F ns Qn)).
  destruct (split_total s) as (a & v & Sp).
  destruct (name_case q ns Qn Fn short a) as [(k & n & ex & sec & St & En & _)|[(Sv & _)|(Sn & _)]].
  - left. assert (name_takes q k (m_takes n)) as Tk by (exists n; split; [unfold is_name, names; rewrite Qn; exact En|reflexivity]).
    assert (m_takes n <> LongName) as Nl by (rewrite Forall_forall in Fn; apply (Fn n (nth_error_In _ _ En))).
    destruct v as [v|].
    + destruct (m_takes n) eqn:T; try congruence.
      * exists (Refuses k dash a), ws. apply (name_refuses _ _ _ _ _ _ _ _ Sp St Tk).
      * exists (Name k (Some v)), ws. apply (name_here _ _ _ _ _ _ _ _ _ Sp St Tk). discriminate.
      * exists (Name k (Some v)), ws. apply (name_here _ _ _ _ _ _ _ _ _ Sp St Tk). discriminate.
    + pose proof (split_none _ _ Sp) as ->. destruct (m_takes n) eqn:T; try congruence.
      * exists (Name k None), ws. apply (name_alone _ _ _ _ _ _ _ Sp St Tk). discriminate.
      * destruct ws as [|w ws]; [exists (NameLacks k dash s), []; apply (name_lacks _ _ _ _ _ Sp St Tk)|].
        exists (Name k (Some w)), ws. apply (name_next _ _ _ _ _ _ _ Sp St Tk).
      * exists (Name k None), ws. apply (name_alone _ _ _ _ _ _ _ Sp St Tk). discriminate.
  - left. exists (Ambiguous dash a), ws. apply (name_several _ _ _ _ _ _ _ Sp Sv).
  - destruct short; [right; split; [reflexivity|exists a, v; auto]|]. left. exists (NoName dash s), ws. apply (name_none _ _ _ _ _ _ _ Sp Sn eq_refl).
Qed.

Lemma known_or c : (exists t, letter_is q c t) \/ ~ letter_known q c.
Proof.
  destruct (ascii_dec c ":"%char) as [->|N].
  - right. intros (t & Lt). destruct (letter_fine q _ t FQ Lt) as (Fc & _). apply Fc. cbn. tauto.
  - destruct (letter_case q c FQ N) as [(t & _ & Lt & _)|(Nk & _)]; [left; exists t; exact Lt|right; exact Nk].
Qed.

Definition goes_on (x : position) : Prop := (exists e y, call q x e y) \/ exists r, done q x r.

Lemma letter_total others w c p ws : tried_as_letter q c p -> goes_on (Within others w (c :: p) ws).
Proof.
  intros T. left. destruct (known_or c) as [(t & Lt)|Nk]; [|eexists; eexists; apply call_no_letter; assumption].
  destruct t.
  - eexists. eexists. apply call_flag; assumption.
  - destruct p as [|c1 p]; [|eexists; eexists; apply (call_value _ _ _ _ _ _ _ T Lt); [auto|discriminate]].
    destruct ws as [|v ws]; eexists; eexists; [apply (call_lacks _ _ _ _ _ T Lt); auto|apply (call_next _ _ _ _ _ _ T Lt)].
  - destruct p as [|c1 p]; [|eexists; eexists; apply (call_value _ _ _ _ _ _ _ T Lt); [auto|discriminate]].
    eexists. eexists. apply (call_omitted _ _ _ _ _ T Lt).
  - destruct (letter_fine q c _ FQ Lt) as (_ & Fl). destruct (Fl eq_refl) as (_ & Qn). destruct (q_names q) as [ns|] eqn:Q; [|congruence].
    destruct p as [|c1 p].
    + destruct ws as [|v ws]; [eexists; eexists; apply (call_lacks _ _ _ _ _ T Lt); auto|].
      destruct (name_total ns false (lit "-W ") v ws Q) as [(e & ws' & B)|(X & _)]; [|discriminate].
      eexists. eexists. apply (call_long_next _ _ _ _ _ _ _ _ T Lt B).
    + destruct (name_total ns false (lit "-W ") (c1 :: p) ws Q) as [(e & ws' & B)|(X & _)]; [|discriminate].
      eexists. eexists. eapply call_long; [exact T|exact Lt|discriminate|exact B].
Qed.

Lemma within_total others w p ws : p <> [] -> goes_on (Within others w p ws).
Proof.
  intros Np. destruct p as [|c p]; [congruence|]. destruct (ascii_dec c "-"%char) as [->|Nd].
  - destruct (q_names q) as [ns|] eqn:Q.
    + destruct p as [|c1 p]; [left; eexists; eexists; apply call_malformed; congruence|].
      destruct (name_total ns false (lit "--") (c1 :: p) ws Q) as [(e & ws' & B)|(X & _)]; [|discriminate].
      left. eexists. eexists. eapply call_name; [congruence|discriminate|exact B].
    + destruct p as [|c1 p]; [right; eexists; apply done_dash; exact Q|]. left. eexists. eexists. apply call_dash; [exact Q|discriminate].
  - destruct (q_names q) as [ns|] eqn:Q; [|apply letter_total; split; auto].
    destruct (q_only q) eqn:Qo; [|apply letter_total; split; auto].
    assert (exists short, short = true <-> letter_known q c) as (short & Sh).
    { destruct (known_or c) as [K|K]; [exists true; split; auto|exists false; split; [discriminate|intros; contradiction]]. }
    destruct (name_total ns short (lit "-") (c :: p) ws Q) as [(e & ws' & B)|(Ss & a & v & Sp & Sn)].
    + left. eexists. eexists. eapply (call_only q others w c p ws short e ws'); auto; congruence.
    + apply letter_total. split; [exact Nd|]. right. right. split; [apply Sh; exact Ss|]. exists a, v. auto.
Qed.

Lemma before_total ws : forall others, (q_style q <> Collect -> others = []) -> goes_on (Before others ws).
Proof.
  induction ws as [|w ws IH]; intros others Ho; [right; eexists; apply done_end|].
  destruct (option_wordb w) eqn:Ow.
  - apply option_wordb_iff in Ow. destruct Ow as (c & p & ->). destruct (ascii_dec c "-"%char) as [->|N].
    + destruct p as [|c1 p]; [right; eexists; apply (done_dashes q others ws)|].
      destruct (within_total others ("-"%char :: "-"%char :: c1 :: p) ("-"%char :: c1 :: p) ws) as [(e & y & H)|(r & H)]; [discriminate| |inversion H].
      left. exists e, y. apply call_option; [discriminate|discriminate|exact H].
    + destruct (within_total others ("-"%char :: c :: p) (c :: p) ws) as [(e & y & H)|(r & H)]; [discriminate| |].
      * left. exists e, y. apply call_option; [discriminate|change (lit "-") with ["-"%char]; congruence|exact H].
      * exfalso. change (lit "-") with ["-"%char] in H. inversion H. congruence.
  - assert (~ option_word w) as Nw by (rewrite <- option_wordb_iff, Ow; discriminate). destruct (q_style q) eqn:St.
    + destruct (IH (others ++ [w])) as [(e & y & H)|(r & H)]; [congruence| |].
      * left. exists e, y. apply call_collect; auto.
      * right. exists r. apply done_collect; auto.
    + rewrite (Ho ltac:(discriminate)). right. eexists. apply done_stop; auto.
    + rewrite (Ho ltac:(discriminate)). left. eexists. eexists. apply call_word; auto.
Qed.

(** ** How much is left *)
Definition left_of (ws : list str) : nat := fold_right (fun w n => S (len w) + n) 0 ws.
Definition mu (x : position) : nat := match x with Before _ ws => left_of ws | Within _ _ p ws => len p + left_of ws end.

Lemma name_left short dash s ws e ws' : by_name q short dash s ws e ws' -> left_of ws' <= left_of ws.
Proof. intros B. inversion B; subst; cbn [left_of fold_right]; try fold (left_of ws'); lia. Qed.
Lemma behind_left others w p ws : mu (behind others w p ws) = len p + left_of ws.
Proof. destruct p; reflexivity. Qed.
Lemma call_left x e y : call q x e y -> mu y < mu x \/ e = Malformed.
Proof.
  induction 1 as [others w ws e x St Nw _ IH|w ws St Nw|others p ws e x N1 N2 _ IH|others w s ws e ws' Qn Ns B|others w c p ws short e ws' Qn Qo Nd Sh B
    |others w ws Qn|others w c p ws T Nk|others w p ws Qn Np|others w c p ws T Lt|others w c p ws t T Lt Ht Np|others w c v ws T Lt
    |others w c t T Lt Ht|others w c ws T Lt|others w c p ws e ws' T Lt Np B|others w c v ws e ws' T Lt B];
    rewrite ?behind_left; cbn [mu left_of fold_right len] in *; fold left_of; try (pose proof (name_left _ _ _ _ _ _ B)); auto; try (left; unfold left_of in *; lia).
  - destruct IH as [IH|IH]; [left; unfold left_of in *; lia|auto].
  - destruct IH as [IH|IH]; [left; unfold left_of in *; lia|auto].
Qed.

(** ** Where reading can stand *)
Definition fits (x : position) : Prop :=
  match x with
  | Before others _ => q_style q <> Collect -> others = []
  | Within others w p ws =>
      (q_style q <> Collect -> others = []) /\ p <> [] /\
      exists p0, w = "-"%char :: p0 /\ p0 <> lit "-" /\ (p = p0 \/ exists es, es <> [] /\ calls q (Before others (w :: ws)) es (Within others w p ws))
  end.

Lemma calls_app x es y es' z : calls q x es y -> calls q y es' z -> calls q x (es ++ es') z.
Proof. intros H. revert es' z. induction H as [|x e y es z C H IH]; intros es' z' H'; [exact H'|]. cbn. eapply calls_one; [exact C|]. apply IH. exact H'. Qed.

Lemma behind_fits others w c p ws e : fits (Within others w (c :: p) ws) -> call q (Within others w (c :: p) ws) e (behind others w p ws) -> fits (behind others w p ws).
Proof.
  intros (Ho & _ & p0 & Ew & N0 & H) C. destruct p as [|c1 p]; [exact Ho|]. cbn [behind fits] in *. split; [exact Ho|]. split; [discriminate|].
  exists p0. split; [exact Ew|]. split; [exact N0|]. right. destruct H as [H|(es & Ne & H)].
  - exists [e]. split; [discriminate|]. eapply calls_one; [|apply calls_none]. rewrite Ew, <- H in *. apply call_option; [discriminate|exact N0|exact C].
  - exists (es ++ [e]). split; [destruct es; discriminate|]. apply (calls_app _ _ _ _ _ H). eapply calls_one; [exact C|apply calls_none].
Qed.

Lemma call_fits x e y : call q x e y -> fits x -> fits y.
Proof.
  induction 1 as [others w ws e x St Nw _ IH|w ws St Nw|others p ws e x N1 N2 _ IH|others w s ws e ws' Qn Ns B|others w c p ws short e ws' Qn Qo Nd Sh B
    |others w ws Qn|others w c p ws T Nk|others w p ws Qn Np|others w c p ws T Lt|others w c p ws t T Lt Ht Np|others w c v ws T Lt
    |others w c t T Lt Ht|others w c ws T Lt|others w c p ws e ws' T Lt Np B|others w c v ws e ws' T Lt B]; intros F; try exact (proj1 F).
  - apply IH. cbn. congruence.
  - exact F.
  - apply IH. cbn. split; [exact F|]. split; [exact N1|]. exists p. auto.
  - eapply behind_fits; [exact F|]; apply call_no_letter; assumption.
  - eapply behind_fits; [exact F|]; apply call_dash; assumption.
  - eapply behind_fits; [exact F|]; apply call_flag; assumption.
Qed.

Lemma malformed_circle x y : call q x Malformed y -> fits x -> q_names q <> None /\ exists es, es <> [] /\ calls q y es y.
Proof.
  intros C. remember Malformed as e eqn:Ee. revert Ee.
  induction C as [others w ws e x St Nw _ IH|w ws St Nw|others p ws e x N1 N2 _ IH|others w s ws e ws' Qn Ns B|others w c p ws short e ws' Qn Qo Nd Sh B
    |others w ws Qn|others w c p ws T Nk|others w p ws Qn Np|others w c p ws T Lt|others w c p ws t T Lt Ht Np|others w c v ws T Lt
    |others w c t T Lt Ht|others w c ws T Lt|others w c p ws e ws' T Lt Np B|others w c v ws e ws' T Lt B]; intros Ee F; try discriminate; try (subst e; inversion B; fail).
  - apply (IH Ee). cbn. congruence.
  - apply (IH Ee). cbn. split; [exact F|]. split; [exact N1|]. exists p. auto.
  - split; [exact Qn|]. destruct F as (_ & _ & p0 & Ew & N0 & [H|(es & Ne & H)]); [congruence|].
    exists (es ++ [Malformed]). split; [destruct es; discriminate|]. apply (calls_app _ _ _ _ _ H). eapply calls_one; [apply call_malformed; exact Qn|apply calls_none].
Qed.

Lemma fits_total x : fits x -> goes_on x.
Proof. destruct x as [others ws|others w p ws]; intros F; [apply before_total; exact F|apply within_total; apply F]. Qed.

Lemma total n : forall x, mu x <= n -> fits x ->
  (exists es y r, calls q x es y /\ done q y r) \/
  (q_names q <> None /\ exists es y es', calls q x es y /\ calls q y es' y /\ es' <> []).
Proof.
  induction n as [|n IH]; intros x L F; (destruct (fits_total x F) as [(e & y & C)|(r & D)]; [|left; exists [], x, r; split; [apply calls_none|exact D]]).
  - destruct (call_left _ _ _ C) as [X | ->]; [lia|]. right. destruct (malformed_circle _ _ C F) as (Qn & es & Ne & H). split; [exact Qn|]. exists [Malformed], y, es.
    split; [eapply calls_one; [exact C|apply calls_none]|auto].
  - destruct (call_left _ _ _ C) as [X | ->].
    + destruct (IH y ltac:(lia) (call_fits _ _ _ C F)) as [(es & z & r & H & D)|(Qn & es & z & es' & H & H' & Ne)].
      * left. exists (e :: es), z, r. split; [eapply calls_one; eassumption|exact D].
      * right. split; [exact Qn|]. exists (e :: es), z, es'. split; [eapply calls_one; eassumption|auto].
    + right. destruct (malformed_circle _ _ C F) as (Qn & es & Ne & H). split; [exact Qn|]. exists [Malformed], y, es. split; [eapply calls_one; [exact C|apply calls_none]|auto].
Qed.

Theorem reads_or_circles ws : (exists es r, reads q ws es r) \/ (q_names q <> None /\ circles q ws).
Proof.
  destruct (total (mu (Before [] ws)) (Before [] ws) (le_n _)) as [(es & y & r & H & D)|(Qn & es & y & es' & H)]; [cbn; auto| |].
  - left. exists es, r, y. auto.
  - right. split; [exact Qn|]. exists es, y, es'. exact H.
Qed.
End Total.

(** ** The caller *)
Section Caller.
Variables (opterr posix : bool) (q : request).
Hypothesis FQ : fine q.
Variable get : gopt -> cres (out * gopt).
Hypothesis AQ : asked opterr posix q get.
Local Notation answer_ := (answer opterr posix q).

Lemma calls_step x es y : calls q x es y -> forall g, R x g ->
  exists g', R y g' /\ (forall fuel, until_done get (len es + fuel) g = option_map (fun z => cbind z (fun '(rs, g2) => Val (map answer_ es ++ rs, g2))) (until_done get fuel g')) /\
  forall fuel, fuel <= len es -> until_done get fuel g = None.
Proof.
  induction 1 as [x|x e y es z C H IH]; intros g Rx.
  - exists g. split; [exact Rx|]. split; [|intros fuel L; replace fuel with 0 by (cbn in L; lia); reflexivity].
    intros fuel. cbn [len Nat.add map app]. destruct (until_done get fuel g) as [[[rs g2]|]|]; reflexivity.
  - destruct (call_step opterr posix q FQ _ _ _ C g Rx) as (g1 & E & R1 & D). destruct (IH g1 R1) as (g' & R' & U & N). exists g'. split; [exact R'|].
    apply Z.eqb_neq in D. split.
    + intros fuel. cbn [len Nat.add until_done]. rewrite (asked_core opterr posix q FQ get AQ), E, D, U.
      destruct (until_done get fuel g') as [[[rs g2]|]|]; reflexivity.
    + intros [|fuel] L; [reflexivity|]. cbn [until_done]. rewrite (asked_core opterr posix q FQ get AQ), E, D, N by (cbn in L; lia). reflexivity.
Qed.

Lemma start prog ws : R (Before [] ws) (fresh (prog :: ws)).
Proof.
  left. split; [reflexivity|]. split; [discriminate|]. split; [discriminate|]. exists [prog], []. split; [reflexivity|]. split; [reflexivity|]. left. auto.
Qed.

Lemma reads_end prog ws es r : reads q ws es r ->
  exists g, until_done get (S (len es)) (fresh (prog :: ws)) = Some (Val (map answer_ es, g)) /\ skipn (g_optind g) (g_argv g) = r.
Proof.
  intros (x & H & D). destruct (calls_step _ _ _ H _ (start prog ws)) as (g' & Rx & U & _).
  destruct (done_step opterr posix q FQ _ _ D g' Rx) as (g & E & Sk). exists g. split; [|exact Sk].
  replace (S (len es)) with (len es + 1) by lia. rewrite U. cbn [until_done]. rewrite (asked_core opterr posix q FQ get AQ), E. cbn. rewrite app_nil_r. reflexivity.
Qed.

Lemma circles_never prog ws : circles q ws -> forall fuel, until_done get fuel (fresh (prog :: ws)) = None.
Proof.
  intros (es & x & es' & H & H' & Ne). destruct (calls_step _ _ _ H _ (start prog ws)) as (g1 & Rx & U & N).
  assert (forall n fuel g, fuel <= n -> R x g -> until_done get fuel g = None) as Circ.
  { induction n as [|n IH]; intros fuel g L Rg0; [replace fuel with 0 by lia; reflexivity|].
    destruct (calls_step _ _ _ H' _ Rg0) as (g2 & R2 & U2 & N2). destruct (le_lt_dec fuel (len es')) as [Le|Lt]; [apply N2; exact Le|].
    replace fuel with (len es' + (fuel - len es')) by lia. rewrite U2, (IH (fuel - len es') g2); [reflexivity| |exact R2].
    destruct es'; [congruence|]. cbn [len] in *. lia. }
  intros fuel. destruct (le_lt_dec fuel (len es)) as [Le|Lt]; [apply N; exact Le|].
  replace fuel with (len es + (fuel - len es)) by lia. rewrite U, (Circ _ _ _ (le_n _) Rx). reflexivity.
Qed.
End Caller.

Lemma until_more get : forall f1 f2 g x, f1 <= f2 -> until_done get f1 g = Some x -> until_done get f2 g = Some x.
Proof.
  induction f1 as [|f1 IH]; intros f2 g x L E; [discriminate|]. destruct f2 as [|f2]; [lia|]. cbn [until_done] in *.
  destruct (get g) as [[r g']|]; [|exact E]. destruct (r_value r =? DONE)%Z; [exact E|].
  destruct (until_done get f1 g') as [y|] eqn:Ey; [|discriminate]. rewrite (IH f2 g' y) by (lia || exact Ey). exact E.
Qed.
Lemma until_unique get f1 f2 g x y : until_done get f1 g = Some x -> until_done get f2 g = Some y -> x = y.
Proof.
  intros E1 E2. destruct (le_lt_dec f1 f2) as [L|L].
  - rewrite (until_more _ _ _ _ _ L E1) in E2. congruence.
  - rewrite (until_more get f2 f1 g y ltac:(lia) E2) in E1. congruence.
Qed.
