(** What the theorems of Props/P35_Getopt.v say about callers. *)
From Coq Require Import ZArith Bool List Ascii String Arith Lia.
From Verif.Base Require Import CInt CStr.
From Verif.Model Require Import Permute Getopt GetoptFull.
From Verif.Spec Require Import CmdLine GetoptSpec GetoptAnswer.
From Verif.Proofs Require Import GetoptLong GetoptProofs GetoptNames GetoptSteps GetoptCalls GetoptTotal.
Import ListNotations.
Open Scope list_scope.
Open Scope nat_scope.

Section Caller.
Variables (opterr posix : bool) (q : request).
Hypothesis FQ : fine q.
Variable get : gopt -> cres (out * gopt).
Hypothesis AQ : asked opterr posix q get.

Lemma reads_ends prog ws es r : reads q ws es r -> exists argv', ends_with get (prog :: ws) (map (answer opterr posix q) es) r argv'.
Proof.
  intros H. destruct (reads_end opterr posix q FQ get AQ prog ws es r H) as (g & U & Sk). exists (g_argv g), (S (len es)), g. auto.
Qed.
Lemma ends_reads prog ws rs r argv' : ends_with get (prog :: ws) rs r argv' -> exists es, reads q ws es r /\ rs = map (answer opterr posix q) es.
Proof.
  intros (fuel & g & U & Ea & Sk). destruct (reads_or_circles q FQ ws) as [(es & r' & H)|(_ & H)].
  - destruct (reads_end opterr posix q FQ get AQ prog ws es r' H) as (g' & U' & Sk'). pose proof (until_unique _ _ _ _ _ _ U U') as E. injection E as -> ->.
    exists es. split; [|reflexivity]. rewrite <- Sk, <- Ea, Sk'. exact H.
  - rewrite (circles_never opterr posix q FQ get AQ prog ws H) in U. discriminate.
Qed.
Lemma never_ub prog ws fuel : until_done get fuel (fresh (prog :: ws)) <> Some UB.
Proof.
  intros U. destruct (reads_or_circles q FQ ws) as [(es & r' & H)|(_ & H)].
  - destruct (reads_end opterr posix q FQ get AQ prog ws es r' H) as (g' & U' & _). pose proof (until_unique _ _ _ _ _ _ U U'). discriminate.
  - rewrite (circles_never opterr posix q FQ get AQ prog ws H) in U. discriminate.
Qed.
End Caller.

(** ** When reading does not end *)
Section Dash.
Variable q : request.
Hypothesis FQ : fine q.
Definition bad (w : str) : Prop := exists c p, c <> "-"%char /\ w = "-"%char :: c :: p ++ lit "-".
Definition good (ws : list str) : Prop := forall w, In w ws -> ~ bad w.
Definition clear (x : position) : Prop :=
  match x with
  | Before _ ws => good ws
  | Within _ w p ws => good (w :: ws) /\ p <> [] /\ exists pre, w = "-"%char :: pre ++ p /\ (q_names q <> None -> match pre with [] => p <> lit "-" | c :: _ => c <> "-"%char end)
  end.
Lemma name_clear short dash s ws e ws' : by_name q short dash s ws e ws' -> good ws -> good ws'.
Proof. intros B G. inversion B; subst; auto; intros x Hx; apply G; right; exact Hx. Qed.
Lemma good_tl w ws : good (w :: ws) -> good ws.
Proof. intros G x H. apply G. right. exact H. Qed.
Lemma behind_clear others w c p ws : clear (Within others w (c :: p) ws) -> (q_names q <> None -> c <> "-"%char) -> clear (behind others w p ws).
Proof.
  intros (G & _ & pre & Ew & H) Nc. destruct p as [|c1 p]; [exact (good_tl _ _ G)|]. split; [exact G|]. split; [discriminate|].
  exists (pre ++ [c]). rewrite Ew, <- app_assoc. split; [reflexivity|]. intros Qn. specialize (H Qn). destruct pre; cbn; [apply Nc; exact Qn|exact H].
Qed.
Lemma call_clear x e y : call q x e y -> clear x -> e <> Malformed /\ clear y.
Proof.
  induction 1 as [others w ws e x St Nw _ IH|w ws St Nw|others p ws e x N1 N2 _ IH|others w s ws e ws' Qn Ns B|others w c p ws short e ws' Qn Qo Nd Sh B
    |others w ws Qn|others w c p ws T Nk|others w p ws Qn Np|others w c p ws T Lt|others w c p ws t T Lt Ht Np|others w c v ws T Lt
    |others w c t T Lt Ht|others w c ws T Lt|others w c p ws e ws' T Lt Np B|others w c v ws e ws' T Lt B]; intros K.
  - apply IH. exact (good_tl _ _ K).
  - split; [discriminate|exact (good_tl _ _ K)].
  - apply IH. split; [exact K|]. split; [exact N1|]. exists []. split; [reflexivity|]. intros _. exact N2.
  - split; [inversion B; discriminate|]. apply (name_clear _ _ _ _ _ _ B). exact (good_tl _ _ (proj1 K)).
  - split; [inversion B; discriminate|]. apply (name_clear _ _ _ _ _ _ B). exact (good_tl _ _ (proj1 K)).
  - exfalso. destruct K as (G & _ & pre & Ew & H). specialize (H Qn). destruct pre as [|c pre]; [apply H; reflexivity|].
    apply (G w); [left; reflexivity|]. exists c, pre. split; [exact H|exact Ew].
  - split; [discriminate|]. apply (behind_clear _ _ _ _ _ K). intros _. apply T.
  - split; [discriminate|]. apply (behind_clear _ _ _ _ _ K). intros X. congruence.
  - split; [discriminate|]. apply (behind_clear _ _ _ _ _ K). intros _. apply T.
  - split; [discriminate|]. exact (good_tl _ _ (proj1 K)).
  - split; [discriminate|]. exact (good_tl _ _ (good_tl _ _ (proj1 K))).
  - split; [discriminate|]. intros x [].
  - split; [discriminate|]. exact (good_tl _ _ (proj1 K)).
  - split; [inversion B; discriminate|]. apply (name_clear _ _ _ _ _ _ B). exact (good_tl _ _ (proj1 K)).
  - split; [inversion B; discriminate|]. apply (name_clear _ _ _ _ _ _ B). exact (good_tl _ _ (good_tl _ _ (proj1 K))).
Qed.
Lemma clear_ends n : forall x, mu x <= n -> fits q x -> clear x -> exists es y r, calls q x es y /\ done q y r.
Proof.
  induction n as [|n IH]; intros x L F K; (destruct (fits_total q FQ x F) as [(e & y & C)|(r & D)]; [|exists [], x, r; split; [apply calls_none|exact D]]);
    destruct (call_clear _ _ _ C K) as (Ne & Ky); (destruct (call_left _ _ _ _ C) as [X|X]; [|congruence]); [lia|].
  destruct (IH y ltac:(lia) (call_fits q _ _ _ C F) Ky) as (es & z & r & H & D). exists (e :: es), z, r. split; [eapply calls_one; eassumption|exact D].
Qed.
Lemma good_reads ws : good ws -> exists es r, reads q ws es r.
Proof.
  intros G. destruct (clear_ends _ (Before [] ws) (le_n _)) as (es & y & r & H & D); [cbn; auto|exact G|]. exists es, r, y. auto.
Qed.
End Dash.
