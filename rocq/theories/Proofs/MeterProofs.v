From Coq Require Import ZArith Bool List String Lia.
From Verif.Base Require Import CInt CStr.
From Verif.Model Require Import Config Runner Seccomp Child Program Meter.
From Verif.Spec Require Import Verdict RunSpec Syscalls SandboxSpec ContainSpec MeterSpec.
From Verif.Proofs Require Import SeccompProofs ChildClaims ProgramProofs RunnerClaims.
Import ListNotations.
Open Scope list_scope.
Open Scope Z_scope.

Section Proofs.
Variable tick : Z.
Variable xcpu : nat -> bool.
Local Notation mstep := (mstep tick xcpu).
Local Notation mruns := (mruns tick xcpu).
Local Notation at_tick := (at_tick xcpu).

Definition conf (w0 : world) : Prop := forall p s, w0 p = Some s -> exists P, s = inl P /\ confined P.

Lemma reached_true l t : reached l t = true <-> l <> RLIM_INFINITY /\ 1000000 * l <= t.
Proof.
  unfold reached. rewrite andb_true_iff, negb_true_iff, Z.eqb_neq, Z.leb_le. tauto.
Qed.
Lemma reached_false l t : reached l t = false <-> l = RLIM_INFINITY \/ t < 1000000 * l.
Proof.
  destruct (reached l t) eqn:E.
  - apply reached_true in E. split; [discriminate|]. lia.
  - split; [intros _|reflexivity]. destruct (Z.eq_dec l RLIM_INFINITY) as [|N]; [left; assumption|right].
    destruct (Z_lt_le_dec t (1000000 * l)) as [|L]; [assumption|].
    assert (reached l t = true) by (apply reached_true; tauto). congruence.
Qed.

(** ** The world *)
Lemma tick_inv w0 w p P t : inv w0 w -> w p = Some (inl P) -> inv w0 (put w p (at_tick p P t)).
Proof.
  intros I H. apply (inv_put w0 w p P); [exact I|exact H|]. intros P0 X Ok. unfold Meter.at_tick.
  destruct (p_rlim P RCpu) as [soft hard] eqn:E. destruct (reached hard t) eqn:Rh; [exact Logic.I|].
  destruct (reached soft t) eqn:Rs; [|exact Ok]. destruct (xcpu p); [exact Logic.I|].
  destruct Ok as ((O1 & O2 & O3 & O4) & O5 & O6). split; [|split; [exact O5|exact O6]].
  split; [exact O1|]. split; [exact O2|]. split; [exact O3|]. intros r. cbn [p_rlim with_rlim].
  destruct (res_eqb RCpu r) eqn:Er; [|apply O4]. apply res_eqb_eq in Er. subst r. specialize (O4 RCpu). rewrite E in O4. cbn in *.
  apply reached_true in Rs. apply reached_false in Rh. unfold RLIM_INFINITY in *. lia.
Qed.

Lemma mstep_inv w0 w m e w' m' : conf w0 -> inv w0 w -> mstep w m e w' m' -> inv w0 w'.
Proof.
  intros C I St. destruct St as [p P sc w' sp re H A S N R|p P sc w' H A S|p P u s H U1 U2 U3|p P sp re H N R|p sig w' S].
  - exact (step_inv w0 w _ w' C I S).
  - exact (step_inv w0 w _ w' C I S).
  - apply tick_inv; assumption.
  - exact I.
  - exact (step_inv w0 w _ w' C I S).
Qed.

(** ** The meter *)
Definition cpu_kept (P0 : proc) (u : use) (s : proc + ending) : Prop :=
  snd (p_rlim P0 RCpu) < RLIM_INFINITY ->
  match s with
  | inl _ => u_time u < 1000000 * snd (p_rlim P0 RCpu)
  | inr _ => u_time u < 1000000 * snd (p_rlim P0 RCpu) + tick
  end.
Definition mem_kept (own : Z) (P0 : proc) (u : use) : Prop :=
  own <= u_peak u /\ 0 <= u_resident u <= u_space u /\
  (snd (p_rlim P0 RAs) < RLIM_INFINITY ->
   u_space u <= snd (p_rlim P0 RAs) /\ u_peak u <= Z.max own (snd (p_rlim P0 RAs))).
Definition kept (own : Z) (P0 : proc) (u : use) (s : proc + ending) : Prop :=
  0 <= u_user u /\ 0 <= u_sys u /\ cpu_kept P0 u s /\ mem_kept own P0 u.
Definition minv (own : nat -> Z) (w0 w : world) (m : meter) : Prop :=
  forall p P0 s, w0 p = Some (inl P0) -> w p = Some s -> kept (own p) P0 (m p) s.

Lemma step_same w0 w e w' : conf w0 -> inv w0 w -> step w e w' -> forall p s', w' p = Some s' ->
  exists s, w p = Some s /\ (forall E, s = inr E -> s' = s).
Proof.
  intros C I S p s' H. pose proof (step_inv w0 w e w' C I S) as I'. 
  assert (Hs : w p <> None).
  { specialize (I p). specialize (I' p). rewrite H in I'. intros X. rewrite X in I. destruct s'; destruct I' as (P0 & I' & _) || destruct I' as (P0 & I'); congruence. }
  destruct (w p) as [s|] eqn:E; [|congruence]. exists s. split; [reflexivity|]. intros x ->.
  destruct S as [q P sc w' Hp Ha Ex|q P sc er Hp Ha|q P sc Hp Ha|q P sig Hp].
  - assert (Hconf : forall nm, sc_name sc = nm -> existsb (String.eqb nm) (harmless ++ ["execve"; "open"; "openat"; "dup"; "dup2"; "dup3"]%string) = false -> False).
    { intros nm En X. pose proof (I q) as Iq. rewrite Hp in Iq. destruct Iq as (P0 & H0 & (_ & _ & F & _) & _).
      destruct (C q _ H0) as (P0' & Y & Cf). injection Y as <-. rewrite F in Ha. exact (allowed_not P0 sc nm Cf Ha En X). }
    destruct Ex as [|flags path id n Hn Hf|old new d Hn Hf|n Hn|q' Q r soft hard Hn Hr Hq HQ Hm Hs' Hh
                   |fds c Hn Hf Hc|c Hn Hi|Hn|Hn|w' Hn]; try congruence;
      try (unfold put in H; destruct (Nat.eqb_spec p q); [subst; congruence|congruence]).
    + unfold put in H. destruct (Nat.eqb_spec p q'); [subst; congruence|congruence].
    + exfalso. pose proof (I q) as Iq. rewrite Hp in Iq. destruct Iq as (P0 & H0 & (_ & _ & F & _) & _).
      destruct (C q _ H0) as (P0' & Y & Cf). injection Y as <-. rewrite F in Ha. apply Hn, (allowed_modelled P0 sc Cf Ha).
  - congruence.
  - unfold put in H. destruct (Nat.eqb_spec p q); [subst; congruence|congruence].
  - unfold put in H. destruct (Nat.eqb_spec p q); [subst; congruence|congruence].
Qed.

(** Nothing but time is counted at a tick, nothing but memory at a call. *)
Lemma kept_mono own P0 u s s' : 0 <= tick -> kept own P0 u s -> (forall E, s = inr E -> s' = s) -> kept own P0 u s'.
Proof.
  intros T (K1 & K2 & K3 & K4) Sm. split; [exact K1|]. split; [exact K2|]. split; [|exact K4]. intros L. specialize (K3 L).
  destruct s as [P|E]; [|rewrite (Sm E eq_refl); exact K3]. destruct s'; lia.
Qed.

Lemma limits_held w0 w p P P0 : inv w0 w -> w p = Some (inl P) -> w0 p = Some (inl P0) -> held P0 P.
Proof. intros I H H0. specialize (I p). rewrite H in I. destruct I as (P0' & X & Ok & _). congruence. Qed.

Lemma occupy_kept own P0 P u s space resident : kept own P0 u s -> held P0 P ->
  space <= u_space u \/ within (fst (p_rlim P RAs)) space -> 0 <= resident <= space -> kept own P0 (occupy u space resident) s.
Proof.
  intros (K1 & K2 & K3 & K4 & K5 & K6) (_ & _ & _ & L) Sp Re. split; [exact K1|]. split; [exact K2|]. split; [exact K3|].
  split; [cbn; lia|]. split; [exact Re|]. intros Fi. destruct (K6 Fi) as [K7 K8]. specialize (L RAs).
  unfold within in Sp. cbn. unfold RLIM_INFINITY in *.
  assert (space <= snd (p_rlim P0 RAs)) by lia. split; [assumption|]. lia.
Qed.

Lemma mstep_minv own w0 w m e w' m' : 0 <= tick -> conf w0 -> inv w0 w -> minv own w0 w m -> mstep w m e w' m' -> minv own w0 w' m'.
Proof.
  intros T C I M St. destruct St as [p P sc w' sp re H A S N R|p P sc w' H A S|p P u s H U1 U2 U3|p P sp re H N R|p sig w' S];
    intros q Q0 s' H0 H'.
  - destruct (step_same w0 w _ w' C I S q s' H') as (s0 & Hs & Sm). pose proof (M q Q0 s0 H0 Hs) as K.
    apply (kept_mono _ _ _ s0); [exact T| |exact Sm]. unfold set_use. destruct (Nat.eqb_spec q p) as [->|Ne]; [|exact K].
    assert (Hh : held Q0 P) by (eapply limits_held; eassumption).
    assert (Hc : In (sc_name sc) modelled).
    { destruct (C p _ H0) as (P0' & Y & Cf). injection Y as <-. destruct Hh as (_ & _ & F & _). rewrite F in A. exact (allowed_modelled Q0 sc Cf A). }
    apply (occupy_kept _ _ P); [exact K|exact Hh| |exact R].
    destruct N as [-> | [[_ N] | [[_ N] | N]]]; [left; lia|exact N|right; exact N|contradiction].
  - destruct (step_same w0 w _ w' C I S q s' H') as (s0 & Hs & Sm). pose proof (M q Q0 s0 H0 Hs) as K.
    exact (kept_mono _ _ _ s0 _ T K Sm).
  - unfold put in H'. unfold set_use. destruct (Nat.eqb_spec q p) as [->|Ne]; [|exact (M q Q0 s' H0 H')].
    injection H' as <-. destruct (M p Q0 _ H0 H) as (K1 & K2 & K3 & K4).
    assert (Hh : held Q0 P) by (eapply limits_held; eassumption). destruct Hh as (_ & _ & _ & L). specialize (L RCpu).
    split; [cbn; lia|]. split; [cbn; lia|]. split; [|exact K4]. intros Fi. specialize (K3 Fi).
    unfold u_time in *. cbn [spend u_user u_sys]. unfold Meter.at_tick. destruct (p_rlim P RCpu) as [soft hard] eqn:E. cbn [fst snd] in L.
    destruct (reached hard (u_user (m p) + u_sys (m p) + u + s)) eqn:Rh; [lia|].
    apply reached_false in Rh. unfold RLIM_INFINITY in *.
    assert (u_user (m p) + u + (u_sys (m p) + s) < 1000000 * snd (p_rlim Q0 RCpu)) by lia.
    destruct (reached soft _); [destruct (xcpu p); lia|lia].
  - pose proof (M q Q0 s' H0 H') as K. unfold set_use. destruct (Nat.eqb_spec q p) as [->|Ne]; [|exact K].
    assert (Hh : held Q0 P) by (eapply limits_held; eassumption).
    apply (occupy_kept _ _ P); [exact K|exact Hh| |exact R]. destruct N as [-> | [_ N]]; [left; lia|right; exact N].
  - destruct (step_same w0 w _ w' C I S q s' H') as (s0 & Hs & Sm). pose proof (M q Q0 s0 H0 Hs) as K.
    exact (kept_mono _ _ _ s0 _ T K Sm).
Qed.

Lemma mruns_both own w0 w m evs w' m' : 0 <= tick -> conf w0 -> mruns w m evs w' m' -> inv w0 w -> minv own w0 w m ->
  inv w0 w' /\ minv own w0 w' m'.
Proof.
  intros T C R. induction R as [w m|w m e w1 m1 evs w2 m2 S R IH]; intros I M; [now split|].
  apply IH; [exact (mstep_inv w0 w m e w1 m1 C I S)|exact (mstep_minv own w0 w m e w1 m1 T C I M S)].
Qed.

Lemma begun_conf own w m : all_begun own w m -> conf w.
Proof. intros [A _] p s H. exact (started_confined w p s A H). Qed.

Lemma begun_minv own w m : all_begun own w m -> minv own w w m.
Proof.
  intros B p P0 s H H'. assert (s = inl P0) as -> by congruence. destruct (proj2 B p P0 H) as (B1 & B2 & B3 & B4 & B5 & B6 & B7).
  destruct (begun_conf own w m B p _ H) as (P & Y & Cf). injection Y as <-.
  split; [exact B1|]. split; [exact B2|]. split; [intros L; apply B3; unfold RLIM_INFINITY in *; lia|]. split; [exact B6|]. split; [exact B5|]. intros L.
  pose proof (cf_lim P0 Cf RAs). unfold RLIM_INFINITY in *. assert (u_space (m p) <= fst (p_rlim P0 RAs)) by (apply B4; lia). lia.
Qed.

Lemma runs_kept own w m evs w' m' : 0 <= tick -> all_begun own w m -> mruns w m evs w' m' ->
  inv w w' /\ minv own w w' m'.
Proof.
  intros T B R. apply (mruns_both own w w m evs w' m' T (begun_conf own w m B) R).
  - apply inv_start, (begun_conf own w m B).
  - apply (begun_minv own w m B).
Qed.

Lemma judged_limits c ptr P r z : ContainSpec.judged c ptr P -> wanted_limit c r = Some z ->
  p_rlim P r = (z, z) /\ 1 <= z < RLIM_INFINITY.
Proof.
  intros (env & log & k0 & path & a & v & k & R & U & L & E & _ & ->) W.
  destruct (c15_limits _ _ _ _ _ _ _ _ R E r) as [H1 H2]. rewrite W in H1. split; [exact H1|]. apply H2, W.
Qed.

Lemma wanted_cpu c : max_cpu_time c <> -1 -> wanted_limit c RCpu = Some (seconds (max_cpu_time c)).
Proof. intros N. cbn. apply Z.eqb_neq in N. rewrite N. reflexivity. Qed.
Lemma wanted_as c : max_memory c <> -1 -> memory_limit_check_only c = 0 -> wanted_limit c RAs = Some (2 * max_memory c).
Proof. intros N E. unfold wanted_limit. apply Z.eqb_neq in N. rewrite N, E. reflexivity. Qed.

(** ** CPU time *)
Lemma cpu_bound own w m evs w' m' p c s : 0 <= tick -> all_begun own w m -> mruns w m evs w' m' -> runs_for w p c ->
  max_cpu_time c <> -1 -> w' p = Some s ->
  match s with
  | inl _ => u_time (m' p) < 1000000 * seconds (max_cpu_time c)
  | inr _ => u_time (m' p) < 1000000 * seconds (max_cpu_time c) + tick
  end.
Proof.
  intros T B R (ptr & P & H & J) N Hs. destruct (runs_kept own w m evs w' m' T B R) as [_ M].
  destruct (M p P s H Hs) as (_ & _ & K & _). destruct (judged_limits c ptr P RCpu _ J (wanted_cpu c N)) as [E F].
  unfold cpu_kept in K. rewrite E in K. exact (K (proj2 F)).
Qed.

Lemma mem_bound own w m evs w' m' p c : 0 <= tick -> all_begun own w m -> mruns w m evs w' m' -> runs_for w p c ->
  max_memory c <> -1 -> memory_limit_check_only c = 0 ->
  u_space (m' p) <= 2 * max_memory c /\ u_peak (m' p) <= Z.max (own p) (2 * max_memory c).
Proof.
  intros T B R (ptr & P & H & J) N E0. destruct (runs_kept own w m evs w' m' T B R) as [I M].
  assert (exists s, w' p = Some s) as [s Hs].
  { specialize (I p). destruct (w' p) as [s|]; [now exists s|congruence]. }
  destruct (M p P s H Hs) as (_ & _ & _ & _ & _ & K).
  destruct (judged_limits c ptr P RAs _ J (wanted_as c N E0)) as [E F]. rewrite E in K. exact (K (proj2 F)).
Qed.

(** ** Not too early *)
Definition cpu_same (w0 w : world) (p : nat) (P0 : proc) : Prop := forall P, w p = Some (inl P) -> p_rlim P RCpu = p_rlim P0 RCpu.

Lemma step_cpu w0 w e w' p P0 : conf w0 -> inv w0 w -> step w e w' ->
  (forall q sc, e = Calls q sc -> sc_name sc = "prlimit64"%string -> sc_arg sc 1 <> 0) ->
  cpu_same w0 w p P0 -> cpu_same w0 w' p P0.
Proof.
  intros C I S F K P' H'.
  destruct S as [q P sc w' Hp Ha Ex|q P sc er Hp Ha|q P sc Hp Ha|q P sig Hp].
  - destruct Ex as [|flags path id n Hn Hf|old new d Hn Hf|n Hn|q' Q r soft hard Hn Hr Hq HQ Hm Hs' Hh
                   |fds c Hn Hf Hc|c Hn Hi|Hn|Hn|w' Hn]; try (apply K; exact H');
      try (unfold put in H'; destruct (Nat.eqb_spec p q) as [->|Ne]; [injection H' as <-; exact (K P Hp)|exact (K P' H')]).
    + unfold put in H'. destruct (Nat.eqb_spec p q') as [->|Ne]; [|exact (K P' H')]. injection H' as <-.
      cbn [p_rlim with_rlim]. destruct (res_eqb r RCpu) eqn:Er; [|exact (K Q HQ)]. apply res_eqb_eq in Er. subst r.
      exfalso. apply (F q sc eq_refl Hn). revert Hr. unfold resource_of.
      destruct (sc_arg sc 1) as [|x|x]; [reflexivity| |discriminate].
      do 4 (destruct x as [x|x|]; try discriminate).
    + unfold put in H'. destruct (Nat.eqb_spec p q) as [->|Ne]; [discriminate|exact (K P' H')].
    + exfalso. pose proof (I q) as Iq. rewrite Hp in Iq. destruct Iq as (Q0 & H0 & (_ & _ & Fl & _) & _).
      destruct (C q _ H0) as (P0' & Y & Cf). injection Y as <-. rewrite Fl in Ha. apply Hn, (allowed_modelled Q0 sc Cf Ha).
  - exact (K P' H').
  - unfold put in H'. destruct (Nat.eqb_spec p q) as [->|Ne]; [|exact (K P' H')].
    unfold killed_thread in H'. pose proof (I q) as Iq. rewrite Hp in Iq. destruct Iq as (Q0 & H0 & (O1 & _) & _).
    rewrite O1 in H'. discriminate.
  - unfold put in H'. destruct (Nat.eqb_spec p q) as [->|Ne]; [discriminate|exact (K P' H')].
Qed.

(** Ended by the CPU limit only when it is reached. *)
Definition late (p : nat) (L : Z) (evs : list mevent) (w' : world) (m' : meter) : Prop :=
  (forall sig, In (MHit p sig) evs -> sig <> SIGKILL /\ sig <> SIGXCPU) ->
  w' p = Some (inr (Signaled SIGKILL)) \/ w' p = Some (inr (Signaled SIGXCPU)) -> 1000000 * L <= u_time (m' p).

Lemma step_ends w0 w e w' p sig : conf w0 -> inv w0 w -> step w e w' -> w' p = Some (inr (Signaled sig)) -> sig <> 31 ->
  w p = Some (inr (Signaled sig)) \/ e = Hit p sig.
Proof.
  intros C I S H' N31. destruct S as [q P sc w' Hp Ha Ex|q P sc er Hp Ha|q P sc Hp Ha|q P sg Hp].
  - left. destruct Ex as [|flags path id n Hn Hf|old new d Hn Hf|n Hn|q' Q r soft hard Hn Hr Hq HQ Hm Hs' Hh
                   |fds c Hn Hf Hc|c Hn Hi|Hn|Hn|w' Hn]; try exact H';
      try (unfold put in H'; destruct (Nat.eqb_spec p q) as [->|Ne]; [discriminate|exact H']).
    + unfold put in H'. destruct (Nat.eqb_spec p q') as [->|Ne]; [discriminate|exact H'].
    + exfalso. pose proof (I q) as Iq. rewrite Hp in Iq. destruct Iq as (Q0 & H0 & (_ & _ & Fl & _) & _).
      destruct (C q _ H0) as (P0' & Y & Cf). injection Y as <-. rewrite Fl in Ha. apply Hn, (allowed_modelled Q0 sc Cf Ha).
  - now left.
  - left. unfold put in H'. destruct (Nat.eqb_spec p q) as [->|Ne]; [|exact H'].
    unfold killed_thread in H'. destruct (Nat.leb _ _); [|discriminate]. injection H' as <-. exfalso. apply N31. reflexivity.
  - unfold put in H'. destruct (Nat.eqb_spec p q) as [->|Ne]; [|now left]. injection H' as <-. now right.
Qed.

Lemma mstep_ended_same w m e w' m' p E : mstep w m e w' m' -> w p = Some (inr E) -> u_time (m' p) = u_time (m p).
Proof.
  intros S H. destruct S as [q P sc w' sp re Hp A S N R|q P sc w' Hp A S|q P u s Hp U1 U2 U3|q P sp re Hp N R|q sig w' S];
    try reflexivity; unfold set_use; destruct (Nat.eqb_spec p q) as [->|Ne]; reflexivity || congruence.
Qed.

Lemma not_early_gen w0 p P0 L : conf w0 -> p_rlim P0 RCpu = (L, L) -> L <> RLIM_INFINITY ->
  forall w m evs w' m', mruns w m evs w' m' -> inv w0 w -> cpu_limits_left evs -> cpu_same w0 w p P0 ->
  (forall sig, In (MHit p sig) evs -> sig <> SIGKILL /\ sig <> SIGXCPU) ->
  (w p = Some (inr (Signaled SIGKILL)) \/ w p = Some (inr (Signaled SIGXCPU)) -> 1000000 * L <= u_time (m p)) ->
  w' p = Some (inr (Signaled SIGKILL)) \/ w' p = Some (inr (Signaled SIGXCPU)) -> 1000000 * L <= u_time (m' p).
Proof.
  intros C E Fi w m evs w' m' R. induction R as [w m|w m e w1 m1 evs w2 m2 S R IH]; intros I Lf K Hn K0; [exact K0|].
  apply IH.
  - exact (mstep_inv w0 w m e w1 m1 C I S).
  - intros q sc Hin. exact (Lf q sc (or_intror Hin)).
  - destruct S as [q P sc w' sp re Hp A S N R'|q P sc w' Hp A S|q P u s Hp U1 U2 U3|q P sp re Hp N R'|q sig w' S].
    + apply (step_cpu w0 w (Calls q sc) w' p P0 C I S); [|exact K]. intros q' sc' [= <- <-]. exact (Lf q sc (or_introl eq_refl)).
    + apply (step_cpu w0 w (Calls q sc) w' p P0 C I S); [|exact K]. intros q' sc' [= <- <-]. exact (Lf q sc (or_introl eq_refl)).
    + intros P' H'. unfold put in H'. destruct (Nat.eqb_spec p q) as [->|Ne]; [|exact (K P' H')].
      injection H' as H'. unfold Meter.at_tick in H'. rewrite (K P Hp), E in H'.
      destruct (reached L _); [discriminate|]. injection H' as <-. exact (K P Hp).
    + exact K.
    + apply (step_cpu w0 w (Hit q sig) w' p P0 C I S); [discriminate|exact K].
  - intros sig Hin. exact (Hn sig (or_intror Hin)).
  - intros Hend.
    assert (Old : w p = Some (inr (Signaled SIGKILL)) \/ w p = Some (inr (Signaled SIGXCPU)) -> 1000000 * L <= u_time (m1 p)).
    { intros O. destruct O as [O|O]; rewrite (mstep_ended_same w m e w1 m1 p _ S O); apply K0; tauto. }
    destruct S as [q P sc w' sp re Hp A S N R'|q P sc w' Hp A S|q P u s Hp U1 U2 U3|q P sp re Hp N R'|q sig w' S].
    + apply Old. destruct Hend as [X|X]; (destruct (step_ends w0 w _ w' p _ C I S X) as [Y|Y]; [discriminate|tauto|discriminate Y]).
    + apply Old. destruct Hend as [X|X]; (destruct (step_ends w0 w _ w' p _ C I S X) as [Y|Y]; [discriminate|tauto|discriminate Y]).
    + unfold put in Hend. destruct (Nat.eqb_spec p q) as [->|Ne]; [|exact (Old Hend)].
      unfold set_use. rewrite Nat.eqb_refl. unfold u_time. cbn [spend u_user u_sys].
      unfold Meter.at_tick in Hend. rewrite (K P Hp), E in Hend.
      destruct (reached L (u_time (m q) + u + s)) eqn:Rh; [apply reached_true in Rh; unfold u_time in Rh; lia|].
      destruct Hend; discriminate.
    + exact (Old Hend).
    + apply Old. destruct Hend as [X|X]; (destruct (step_ends w0 w _ w' p _ C I S X) as [Y|Y]; [discriminate|tauto|]);
        injection Y as -> ->; exfalso; destruct (Hn _ (or_introl eq_refl)); congruence.
Qed.

Lemma not_early own w m evs w' m' p c : all_begun own w m -> mruns w m evs w' m' -> runs_for w p c ->
  max_cpu_time c <> -1 -> cpu_limits_left evs -> (forall sig, In (MHit p sig) evs -> sig <> 9 /\ sig <> 24) ->
  w' p = Some (inr (Signaled 9)) \/ w' p = Some (inr (Signaled 24)) ->
  1000 * max_cpu_time c < 1000000 * seconds (max_cpu_time c) <= u_time (m' p).
Proof.
  intros B R (ptr & P & H & J) N Lf Hn Hend. destruct (judged_limits c ptr P RCpu _ J (wanted_cpu c N)) as [E F].
  split. { unfold seconds. pose proof (Z.mod_pos_bound (max_cpu_time c) 1000). pose proof (Z.div_mod (max_cpu_time c) 1000). lia. }
  apply (not_early_gen w p P (seconds (max_cpu_time c)) (begun_conf own w m B) E) with (w := w) (m := m) (evs := evs) (w' := w');
    try assumption.
  - unfold RLIM_INFINITY in *. lia.
  - apply inv_start, (begun_conf own w m B).
  - intros P' H'. congruence.
  - intros [X|X]; congruence.
Qed.
End Proofs.
