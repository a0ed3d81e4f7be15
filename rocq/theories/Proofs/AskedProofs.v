(** Output, its limit and the result. *)
From Coq Require Import ZArith Bool List String Lia.
From Verif.Base Require Import CInt CStr.
From Verif.Model Require Import Config Runner Seccomp Child Program Files.
From Verif.Spec Require Import Verdict RunSpec SandboxSpec ContainSpec FilesSpec ReportSpec AskedSpec.
From Verif.Proofs Require Import RunnerClaims ChildClaims ProgramProofs FilesProofs ReportProofs.
Import ListNotations.
Open Scope list_scope.
Open Scope Z_scope.

Section Output.
Variable file_of : str -> nat.
Variable xfsz : nat -> bool.
Notation fstep := (Files.fstep file_of xfsz).
Notation fruns := (Files.fruns file_of xfsz).

Lemma fruns_split w D a : forall b w' D', fruns w D (a ++ b) w' D' -> exists w1 D1, fruns w D a w1 D1 /\ fruns w1 D1 b w' D'.
Proof.
  intros b. induction b as [|d b IH] using rev_ind; intros w' D' R.
  - rewrite app_nil_r in R. exists w', D'. split; [exact R|constructor].
  - rewrite app_assoc in R. inversion R as [X|ds w1 D1 d' w2 D2 R1 St X].
    + symmetry in X. apply app_eq_nil in X. destruct X as [_ X]. discriminate.
    + subst. apply app_inj_tail in X. destruct X as [-> ->]. destruct (IH _ _ R1) as (w3 & D3 & A & B).
      exists w3, D3. split; [exact A|]. econstructor; eassumption.
Qed.

Lemma fruns_one w D d w' D' : fruns w D [d] w' D' -> fstep w D d w' D'.
Proof.
  intros R. inversion R as [X|ds w1 D1 d' w2 D2 R1 St X]. subst.
  destruct ds as [|e ds]; [|destruct ds; discriminate]. injection X as ->. inversion R1 as [Y|ds' w3 D3 d' w4 D4 R2 St2 Y].
  - subst. exact St.
  - destruct ds'; discriminate.
Qed.

Lemma asked_app i a b : asked_through i (a ++ b) = asked_through i a ++ asked_through i b.
Proof.
  induction a as [|d a IH]; [reflexivity|]. cbn. destruct (d_wrote d) as [[[o x] t]|]; [|exact IH].
  rewrite IH, app_assoc. reflexivity.
Qed.

Lemma inv_tame w0 w : inv w0 w -> tame w0 w.
Proof.
  intros I q Q H. pose proof (I q) as Iq. rewrite H in Iq. destruct Iq as (P0 & H0 & (T & _ & F & _) & _). exists P0. auto.
Qed.

Section Started.
Variable (env : child_env) (log : option stream) (c : config) (k0 : kstate) (path : str) (a v : list cell) (k : kstate).
Hypothesis R : ready c k0.
Hypothesis E : child_process env log c k0 = CExec path a v k.
Variable (n : nat) (q : str) (w : world) (p : nat) (o : ofile) (D : disk).
Hypothesis Hn : (n = 1%nat /\ output_path c = Some q) \/ (n = 2%nat /\ error_path c = Some q).
Hypothesis Nh : not_held file_of k0 (file_of q).
Hypothesis Wt : well_told file_of (output_path c) (error_path c).
Hypothesis Wp : w p = Some (inl (program_of k)).
Hypothesis Do : descriptor k n = Some o.
Hypothesis A : all_started w.
Hypothesis El : nobody_else file_of w p (of_id o) (file_of q).
Hypothesis Li : max_output_size c <> -1.

Lemma Al : all_running w.
Proof. intros r s H. destruct (A r s H) as (P & -> & _). eauto. Qed.

Lemma facts : of_path o = q /\ only_through file_of w o (disk_after file_of k D).
Proof. exact (stream_facts file_of env log c k0 path a v k R E n q w p o D Hn Nh Wt Wp Do Al El). Qed.

Lemma conf : forall r s, w r = Some s -> exists P, s = inl P /\ confined P.
Proof. intros r s. apply started_confined, A. Qed.

Lemma limit_kept w1 P : inv w w1 -> w1 p = Some (inl P) -> fst (p_rlim P RFsize) <= max_output_size c /\ fst (p_rlim P RFsize) <> RLIM_INFINITY.
Proof.
  intros I H. pose proof (I p) as Ip. rewrite H in Ip. destruct Ip as (P0 & H0 & (_ & _ & _ & O) & _).
  assert (P0 = program_of k) as -> by congruence. specialize (O RFsize).
  destruct (c15_limits _ _ _ _ _ _ _ _ R E RFsize) as [H1 H2]. cbn -[RLIM_INFINITY] in O. rewrite H1 in O. cbn [wanted_limit] in *.
  destruct (Z.eqb_spec (max_output_size c) (-1)) as [X|X]; [contradiction|]. specialize (H2 _ eq_refl).
  unfold RLIM_INFINITY. cbn in O. lia.
Qed.

Lemma inv_fruns ds w1 D1 : fruns w (disk_after file_of k D) ds w1 D1 -> inv w w1.
Proof.
  intros Rn. destruct (fruns_runs file_of xfsz _ _ _ _ _ Rn) as (evs & Rs).
  exact (runs_inv w w evs w1 conf (inv_start w conf) Rs).
Qed.

(** A write through the description is one of the program, at the end of what has been written. *)
Lemma write_step ds w1 D1 d w2 D2 o' asked taken : fruns w (disk_after file_of k D) ds w1 D1 -> streams_only ds ->
  fstep w1 D1 d w2 D2 -> d_wrote d = Some (o', asked, taken) -> of_id o' = of_id o ->
  let len := Z.of_nat (List.length (bytes_through (of_id o) ds)) in
  (exists left, asked = taken ++ left /\
     ((w2 = w1 /\ (asked <> [] -> len < max_output_size c /\ len + Z.of_nat (List.length taken) <= max_output_size c)) \/
      (asked <> [] /\ taken = [] /\ w2 = if xfsz p then put w1 p (inr (Signaled 25)) else w1))) /\
  (asked <> [] -> max_output_size c <= len -> w2 = if xfsz p then put w1 p (inr (Signaled 25)) else w1).
Proof.
  intros Rn So St Wr Ei len. destruct facts as (Pq & On). pose proof On as (_ & Mo & _ & _ & Same & _).
  destruct (captured file_of xfsz w o _ ds w1 D1 On So Rn) as (Lo & _ & Po). pose proof (inv_fruns ds w1 D1 Rn) as I.
  assert (forall r P sc, w1 r = Some (inl P) -> target P sc = Some o' -> r = p /\ o' = o) as Who.
  { intros r P sc Hr T. destruct (lone_at _ _ _ _ Lo Hr) as (P0 & Ew & F). unfold target in T. destruct (sc_arg sc 0 <? 0); [discriminate|].
    destruct (F _ _ T) as (m & Fm). split; [|exact (Same r P0 m o' Ew Fm Ei)].
    destruct (Nat.eq_dec r p) as [X|X]; [exact X|exfalso]. destruct (El r P0 m o' Ew X Fm) as [Y _]. exact (Y Ei). }
  destruct St as [r P sc o1 pos asked1 fits taken1 rest H1 H2 H3 H4 H5 H6 H7|r P sc o1 pos asked1 H1 H2 H3 H4 H5 H6|r P sc H1 H2 H3
    |r P sc o1 pos H1 H2 H3 H4|r P sc o1 pos H1 H2 H3 H4 H5|r P sc flags pth id m trunc H1 H2 H3 H4 H5|r P sc w' H1 H2 H3 H4 H5|r P sc w' D' H1 H2 H3|r P sc w' H1 H2 H3|r sig w' H1];
    cbn [d_wrote] in Wr; try discriminate Wr; injection Wr as -> -> Wr.
  - subst taken1. destruct (Who r P sc H1 H4) as (-> & ->). unfold writes_at in H5. rewrite Mo in H5.
    destruct (limit_kept w1 P I H1) as (Le & Ni). unfold fitting in H6.
    destruct asked as [|x l].
    + injection H6 as <-. symmetry in H7. apply app_eq_nil in H7. destruct H7 as [-> ->].
      split; [|intros X; destruct (X eq_refl)]. exists []. split; [reflexivity|]. left. split; [reflexivity|]. intros X; destruct (X eq_refl).
    + destruct (Z.eqb_spec (fst (p_rlim P RFsize)) RLIM_INFINITY); [contradiction|].
      destruct (Z.leb_spec (fst (p_rlim P RFsize)) (Z.of_nat pos)) as [|Lt]; [discriminate H6|]. injection H6 as Ef.
      assert (Z.of_nat pos = len) as Pl by (unfold len; congruence).
      split; [|intros _ X; lia].
      exists (rest ++ skipn (Z.to_nat (fst (p_rlim P RFsize)) - pos) (x :: l)). split.
      * rewrite app_assoc, <- H7, <- Ef. symmetry. apply firstn_skipn.
      * left. split; [reflexivity|]. intros _. split; [lia|].
        assert (List.length (taken ++ rest) <= Z.to_nat (fst (p_rlim P RFsize)) - pos)%nat as X by (rewrite <- H7, <- Ef; apply firstn_le_length).
        rewrite app_length in X. lia.
  - subst taken. destruct (Who r P sc H1 H4) as (-> & ->).
    assert (asked <> []) as Na by (intros ->; discriminate H6).
    split; [|intros _ _; reflexivity]. exists asked. split; [reflexivity|]. right. auto.
Qed.

(** Everything asked for is in the file, except what is beyond the limit. *)
Theorem c105_prefix ds w' D' : fruns w (disk_after file_of k D) ds w' D' -> streams_only ds ->
  never_short (max_output_size c) (of_id o) ds ->
  exists lost, asked_through (of_id o) ds = d_data D' (file_of q) ++ lost /\
    size_of D' (file_of q) <= Z.max 0 (max_output_size c) /\ (lost <> [] -> max_output_size c <= size_of D' (file_of q)).
Proof.
  intros Rn So Ns. destruct facts as (Pq & On).
  destruct (captured file_of xfsz w o _ ds w' D' On So Rn) as (_ & Da & _). rewrite Pq in Da. unfold size_of. rewrite Da. clear Da.
  induction Rn as [|ds w1 D1 d w2 D2 Rn IH St].
  { exists []. cbn. split; [reflexivity|]. split; [lia|]. intros X; destruct (X eq_refl). }
  assert (streams_only ds) as So1. { intros d' r sc H. apply So. apply in_app_iff. left. exact H. }
  destruct IH as (lost & I1 & I2 & I3). { exact So1. }
  { intros b d' af o' x t Eq. apply (Ns b d' (af ++ [d])). rewrite Eq, <- app_assoc. reflexivity. }
  rewrite asked_app, bytes_app. cbn [asked_through bytes_through].
  destruct (d_wrote d) as [[[o' asked] taken]|] eqn:Wr.
  2:{ rewrite !app_nil_r. exists lost. auto. }
  destruct (Nat.eqb_spec (of_id o') (of_id o)) as [Ei|Ni].
  2:{ cbn [app]. rewrite !app_nil_r. exists lost. auto. }
  rewrite !app_nil_r.
  destruct (write_step ds w1 D1 d w2 D2 o' asked taken Rn So1 St Wr Ei) as ((left & Ea & Cs) & _).
  pose proof (Ns ds d [] o' asked taken eq_refl Wr Ei) as Full.
  rewrite app_length.
  destruct Cs as [(_ & Lt)|(Na & -> & _)].
  - destruct asked as [|x l].
    + symmetry in Ea. apply app_eq_nil in Ea. destruct Ea as [-> ->]. exists lost. rewrite !app_nil_r. cbn [List.length]. rewrite Nat.add_0_r. auto.
    + destruct (Lt ltac:(discriminate)) as (L1 & L2).
      destruct lost as [|y lost]; [|exfalso; specialize (I3 ltac:(discriminate)); lia].
      exists left. rewrite I1, app_nil_r, Ea, app_assoc. split; [reflexivity|]. split; [lia|].
      intros Nl. destruct Full as [F|F]; [|lia]. exfalso. rewrite Ea in F. apply Nl.
      assert (List.length taken = List.length (taken ++ left)) as X by (rewrite <- F; reflexivity). rewrite app_length in X.
      destruct left; [reflexivity|cbn in X; lia].
  - exists (lost ++ asked). cbn [app List.length] in *. rewrite app_nil_r, Nat.add_0_r, I1, app_assoc. split; [reflexivity|]. split; [exact I2|].
    intros _. destruct Full as [F|F]; [congruence|lia].
Qed.

(** Who asks for more at the limit is ended, and so reported. *)
Theorem c105_over ds w' D' before d after o' asked taken : fruns w (disk_after file_of k D) ds w' D' -> streams_only ds -> xfsz p = true ->
  ds = before ++ d :: after -> d_wrote d = Some (o', asked, taken) -> of_id o' = of_id o -> asked <> [] ->
  max_output_size c <= Z.of_nat (List.length (bytes_through (of_id o) before)) ->
  w' p = Some (inr (Signaled 25)) /\
  forall r, reported c (Signaled 25) r ->
    error r = 0 /\ signal r = 25 /\ exit_code r = 0 /\ In (verdict r) [1; 2; 3; 4] /\ (verdict r = 4 <-> ~ over_a_limit c r).
Proof.
  intros Rn So Xf -> Wr Ei Na Le. split.
  - destruct (fruns_split _ _ before (d :: after) _ _ Rn) as (w1 & D1 & R1 & R2).
    destruct (fruns_split w1 D1 [d] after _ _ R2) as (w2 & D2 & R3 & R4). apply fruns_one in R3.
    assert (streams_only before) as So1. { intros d' r sc H. apply So. apply in_app_iff. left. exact H. }
    destruct (write_step before w1 D1 d w2 D2 o' asked taken R1 So1 R3 Wr Ei) as (_ & Ov). specialize (Ov Na Le). rewrite Xf in Ov.
    assert (w2 p = Some (inr (Signaled 25))) as H2 by (subst w2; unfold put; rewrite Nat.eqb_refl; reflexivity).
    assert (inv w w2) as I2. { apply (inv_fruns (before ++ [d]) w2 D2). econstructor; eassumption. }
    destruct (fruns_runs file_of xfsz _ _ _ _ _ R4) as (evs & Rs).
    pose proof (known_runs w w2 evs w' conf I2 Rs) as Kn.
    apply (over_runs w w2 evs w' p (Signaled 25) (inv_tame w w2 I2) (known_events w evs Kn) Rs H2).
  - intros r Re. destruct (reported_table c _ r Re) as (core & Er & T & S1 & S2). split; [exact Er|]. split; [exact S1|]. split; [exact S2|].
    cbn [seen verdict_table] in T. unfold failed in T. unfold over_a_limit. cbn [In].
    destruct T as [(X & V)|[(X & Y & V)|[(X & Y & Z & V)|[(X & Y & Z & W & V)|(X & Y & Z & W & V)]]]]; rewrite V; try (intuition lia).
    exfalso. apply W. discriminate.
Qed.

Lemma asked_in i ds : asked_through i ds <> [] -> exists before d after o' asked taken,
  ds = before ++ d :: after /\ d_wrote d = Some (o', asked, taken) /\ of_id o' = i /\ asked <> [].
Proof.
  induction ds as [|d ds IH]; intros H; [destruct (H eq_refl)|]. cbn in H.
  destruct (d_wrote d) as [[[o' asked] taken]|] eqn:Wr.
  - destruct (Nat.eqb_spec (of_id o') i) as [Ei|Ni].
    + destruct asked as [|x l].
      * destruct (IH H) as (b & d' & af & o2 & x & t & -> & K). exists (d :: b), d', af, o2, x, t. split; [reflexivity|exact K].
      * exists [], d, ds, o', (x :: l), taken. split; [reflexivity|]. split; [exact Wr|]. split; [exact Ei|discriminate].
    + destruct (IH H) as (b & d' & af & o2 & x & t & -> & K). exists (d :: b), d', af, o2, x, t. split; [reflexivity|exact K].
  - destruct (IH H) as (b & d' & af & o2 & x & t & -> & K). exists (d :: b), d', af, o2, x, t. split; [reflexivity|exact K].
Qed.

(** After a success only the last write can have been cut. *)
Theorem c105_success ds w' D' x r before d after o' asked taken : fruns w (disk_after file_of k D) ds w' D' -> streams_only ds ->
  never_short (max_output_size c) (of_id o) ds -> xfsz p = true ->
  w' p = Some (inr x) -> reported c x r -> verdict r = 0 ->
  ds = before ++ d :: after -> d_wrote d = Some (o', asked, taken) -> of_id o' = of_id o -> taken <> asked ->
  asked_through (of_id o) after = [].
Proof.
  intros Rn So Ns Xf Hx Re V Eq Wr Ei Nt.
  destruct (Ns before d after o' asked taken Eq Wr Ei) as [F|F]; [contradiction|].
  destruct (asked_through (of_id o) after) as [|y l] eqn:As; [reflexivity|exfalso].
  destruct (asked_in (of_id o) after) as (b & d2 & af & o2 & x2 & t2 & -> & W2 & E2 & N2); [congruence|].
  assert (ds = (before ++ d :: b) ++ d2 :: af) as Eq2 by (rewrite Eq, <- app_assoc; reflexivity).
  destruct (c105_over ds w' D' (before ++ d :: b) d2 af o2 x2 t2 Rn So Xf Eq2 W2 E2 N2) as (H25 & Rp).
  { rewrite bytes_app. cbn [bytes_through]. rewrite Wr, Ei, Nat.eqb_refl, !app_length. lia. }
  assert (x = Signaled 25) as -> by congruence. destruct (Rp r Re) as (_ & _ & _ & Iv & _). rewrite V in Iv. cbn in Iv. intuition discriminate.
Qed.
End Started.
End Output.

(** ** The theorems, with the hypotheses in one *)
Section Closed.
Variables (file_of : str -> nat) (xfsz : nat -> bool).
Variable (env : child_env) (log : option stream) (c : config) (k0 : kstate) (path : str) (a v : list cell) (k : kstate).
Hypothesis R : ready c k0.
Hypothesis E : child_process env log c k0 = CExec path a v k.

Lemma limit_positive : max_output_size c <> -1 -> 1 <= max_output_size c.
Proof. destruct R as (_ & (_ & _ & _ & _ & [L|L] & _) & _); [contradiction|auto]. Qed.

Theorem output_prefix w p n q o D ds w' D' : writes_to file_of c k0 k w p n q o ->
  fruns file_of xfsz w (disk_after file_of k D) ds w' D' -> streams_only ds -> never_short (max_output_size c) (of_id o) ds ->
  size_of D' (file_of q) <= max_output_size c /\
  exists lost, asked_through (of_id o) ds = d_data D' (file_of q) ++ lost /\ (lost <> [] -> size_of D' (file_of q) = max_output_size c).
Proof.
  intros (H1 & H2 & H3 & H4 & H5 & H6 & H7 & H8) Rn So Ns. pose proof (limit_positive H8).
  destruct (c105_prefix file_of xfsz env log c k0 path a v k R E n q w p o D H1 H2 H3 H4 H5 H6 H7 H8 ds w' D' Rn So Ns) as (lost & L1 & L2 & L3).
  split; [lia|]. exists lost. split; [exact L1|]. intros N. specialize (L3 N). lia.
Qed.

Theorem output_over w p n q o D ds w' D' before d after o' asked taken : writes_to file_of c k0 k w p n q o ->
  fruns file_of xfsz w (disk_after file_of k D) ds w' D' -> streams_only ds -> xfsz p = true ->
  ds = before ++ d :: after -> d_wrote d = Some (o', asked, taken) -> of_id o' = of_id o -> asked <> [] ->
  max_output_size c <= Z.of_nat (List.length (bytes_through (of_id o) before)) ->
  w' p = Some (inr (Signaled 25)) /\
  forall r, reported c (Signaled 25) r ->
    error r = 0 /\ signal r = 25 /\ exit_code r = 0 /\ In (verdict r) [1; 2; 3; 4] /\ (verdict r = 4 <-> ~ over_a_limit c r).
Proof.
  intros (H1 & H2 & H3 & H4 & H5 & H6 & H7 & H8).
  exact (c105_over file_of xfsz env log c k0 path a v k R E n q w p o D H1 H2 H3 H4 H5 H6 H7 H8 ds w' D' before d after o' asked taken).
Qed.

Theorem output_success w p n q o D ds w' D' x r before d after o' asked taken : writes_to file_of c k0 k w p n q o ->
  fruns file_of xfsz w (disk_after file_of k D) ds w' D' -> streams_only ds -> never_short (max_output_size c) (of_id o) ds ->
  xfsz p = true -> w' p = Some (inr x) -> reported c x r -> verdict r = 0 ->
  ds = before ++ d :: after -> d_wrote d = Some (o', asked, taken) -> of_id o' = of_id o -> taken <> asked ->
  asked_through (of_id o) after = [].
Proof.
  intros (H1 & H2 & H3 & H4 & H5 & H6 & H7 & H8).
  exact (c105_success file_of xfsz env log c k0 path a v k R E n q w p o D H1 H2 H3 H4 H5 H6 H7 H8 ds w' D' x r before d after o' asked taken).
Qed.
End Closed.
