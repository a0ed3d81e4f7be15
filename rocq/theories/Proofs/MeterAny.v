From Coq Require Import ZArith Bool List String Lia.
From Verif.Base Require Import CInt CStr.
From Verif.Model Require Import Config Runner Seccomp Child Program Meter.
From Verif.Spec Require Import Verdict RunSpec Syscalls SandboxSpec Samples ChildSamples ContainSpec ContainSamples MeterSpec.
From Verif.Proofs Require Import SeccompProofs ChildClaims ProgramProofs RunnerClaims ContainSampleFacts MeterProofs MeterClaims.
Import ListNotations.
Open Scope list_scope.
Open Scope Z_scope.

Section Any.
Variable tick : Z.
Variable xcpu : nat -> bool.
Local Notation mstep := (mstep tick xcpu).
Local Notation mruns := (mruns tick xcpu).
Local Notation minv := (minv tick).
Local Notation kept := (kept tick).

(** A process that cannot get privileges back and whose limits are not above those it started with. *)
Definition lim_ok (P0 P : proc) : Prop := forall r, fst (p_rlim P r) <= snd (p_rlim P r) <= snd (p_rlim P0 r).
Definition low (P : proc) : Prop := p_nnp P = true /\ exists u g gs, u <> 0 /\ ids_are u g gs (p_cred P).
Definition winv (w0 w : world) : Prop := forall p, match w p with
  | Some (inl P) => exists P0, w0 p = Some (inl P0) /\ low P /\ lim_ok P0 P
  | Some (inr _) => exists P0, w0 p = Some (inl P0)
  | None => w0 p = None end.

Lemma low_not_privileged P : low P -> privileged P = false.
Proof. intros (_ & u & g & gs & U & (_ & E & _)). unfold privileged. rewrite E. now apply Z.eqb_neq. Qed.

Lemma winv_put w0 w p P s : winv w0 w -> w p = Some (inl P) ->
  (forall P0, w0 p = Some (inl P0) -> low P -> lim_ok P0 P -> match s with inl P' => low P' /\ lim_ok P0 P' | inr _ => True end) ->
  winv w0 (put w p s).
Proof.
  intros I H K q. unfold put. destruct (Nat.eqb_spec q p) as [->|Ne]; [|apply I].
  specialize (I p). rewrite H in I. destruct I as (P0 & H0 & L & O). specialize (K P0 H0 L O). destruct s; eauto.
Qed.

Lemma step_low w e w' p P P' : step w e w' -> (forall q sc, e = Calls q sc -> In (sc_name sc) modelled) ->
  w p = Some (inl P) -> w' p = Some (inl P') -> low P -> low P'.
Proof.
  intros S M H H' (N & u & g & gs & U & D). destruct (step_ids w e w' p P P' u g gs U S) as (N' & D'); try assumption.
  split; [exact N'|]. now exists u, g, gs.
Qed.

Lemma step_lim w0 w e w' p P' : winv w0 w -> step w e w' -> (forall q sc, e = Calls q sc -> In (sc_name sc) modelled) ->
  w' p = Some (inl P') -> exists P0, w0 p = Some (inl P0) /\ lim_ok P0 P'.
Proof.
  intros I S M H'.
  assert (Old : forall q Q, w q = Some (inl Q) -> exists P0, w0 q = Some (inl P0) /\ lim_ok P0 Q).
  { intros q Q HQ. specialize (I q). rewrite HQ in I. destruct I as (P0 & A & _ & B). eauto. }
  destruct S as [q P sc w' Hp Ha Ex|q P sc er Hp Ha|q P sc Hp Ha|q P sig Hp].
  - specialize (M q sc eq_refl). destruct Ex as [|flags path id n Hn Hf|old new d Hn Hf|n Hn|q' Q r soft hard Hn Hr Hq HQ Hm Hs' Hh
                   |fds c Hn Hf Hc|c Hn Hi|Hn|Hn|w' Hn]; try contradiction; try exact (Old p P' H');
      try (unfold put in H'; destruct (Nat.eqb_spec p q) as [->|Ne]; [injection H' as <-; exact (Old q P Hp)|exact (Old p P' H')]).
    + unfold put in H'. destruct (Nat.eqb_spec p q') as [->|Ne]; [|exact (Old p P' H')]. injection H' as <-.
      destruct (Old q' Q HQ) as (P0 & A & B). exists P0. split; [exact A|]. intros r'. cbn [p_rlim with_rlim].
      destruct (res_eqb r r') eqn:Er; [|apply B]. apply res_eqb_eq in Er. subst r'. cbn [fst snd]. split; [exact Hs'|].
      destruct Hh as [Hh|Hh]; [specialize (B r); lia|]. exfalso. specialize (I q). rewrite Hp in I. destruct I as (_ & _ & L & _).
      rewrite (low_not_privileged P L) in Hh. discriminate.
    + unfold put in H'. destruct (Nat.eqb_spec p q) as [->|Ne]; [discriminate|exact (Old p P' H')].
  - exact (Old p P' H').
  - unfold put in H'. destruct (Nat.eqb_spec p q) as [->|Ne]; [|exact (Old p P' H')].
    unfold killed_thread in H'. destruct (Nat.leb _ _); [discriminate|]. injection H' as <-. exact (Old q P Hp).
  - unfold put in H'. destruct (Nat.eqb_spec p q) as [->|Ne]; [discriminate|exact (Old p P' H')].
Qed.

(** Where a process comes from. *)
Lemma step_from w e w' p s' : step w e w' -> (forall q sc, e = Calls q sc -> In (sc_name sc) modelled) ->
  w' p = Some s' -> exists s, w p = Some s /\ (forall E, s = inr E -> s' = s).
Proof.
  intros S M H'.
  assert (Run : forall q P, w q = Some (inl P) -> exists s, w q = Some s /\ (forall E, s = inr E -> s' = s)).
  { intros q P X. exists (inl P). split; [exact X|discriminate]. }
  destruct S as [q P sc w' Hp Ha Ex|q P sc er Hp Ha|q P sc Hp Ha|q P sig Hp].
  - specialize (M q sc eq_refl). destruct Ex; try contradiction; try (exists s'; split; [exact H'|reflexivity]);
      unfold put in H'; match type of H' with (if Nat.eqb p ?x then _ else _) = _ => destruct (Nat.eqb_spec p x) as [->|_] end;
      try (exists s'; split; [exact H'|reflexivity]); eapply Run; eassumption.
  - exists s'. split; [exact H'|reflexivity].
  - unfold put in H'. destruct (Nat.eqb_spec p q) as [->|_]; [exact (Run q P Hp)|exists s'; split; [exact H'|reflexivity]].
  - unfold put in H'. destruct (Nat.eqb_spec p q) as [->|_]; [exact (Run q P Hp)|exists s'; split; [exact H'|reflexivity]].
Qed.

Lemma step_none w e w' p : step w e w' -> (forall q sc, e = Calls q sc -> In (sc_name sc) modelled) -> w' p = None -> w p = None.
Proof.
  intros S M H'. destruct S as [q P sc w' Hp Ha Ex|q P sc er Hp Ha|q P sc Hp Ha|q P sig Hp].
  - specialize (M q sc eq_refl). destruct Ex; try contradiction; try exact H';
      unfold put in H'; match type of H' with (if Nat.eqb p ?x then _ else _) = _ => destruct (Nat.eqb_spec p x) as [->|_] end;
      discriminate || exact H'.
  - exact H'.
  - unfold put in H'. destruct (Nat.eqb_spec p q) as [->|_]; [discriminate|exact H'].
  - unfold put in H'. destruct (Nat.eqb_spec p q) as [->|_]; [discriminate|exact H'].
Qed.

Lemma step_winv w0 w e w' : winv w0 w -> step w e w' -> (forall q sc, e = Calls q sc -> In (sc_name sc) modelled) -> winv w0 w'.
Proof.
  intros I S M p. destruct (w' p) as [[P'|E]|] eqn:H'.
  - destruct (step_lim w0 w e w' p P' I S M H') as (P0 & A & B). exists P0. split; [exact A|]. split; [|exact B].
    destruct (step_was w e w' p P' S M H') as (P & HP). specialize (I p) as Ip. rewrite HP in Ip. destruct Ip as (_ & _ & L & _).
    exact (step_low w e w' p P P' S M HP H' L).
  - destruct (step_from w e w' p _ S M H') as (s & Hs & _). specialize (I p). rewrite Hs in I. destruct s; [destruct I as (P0 & A & _)|destruct I as (P0 & A)]; eauto.
  - specialize (I p). now rewrite (step_none w e w' p S M H') in I.
Qed.

Lemma tick_winv w0 w p P t : winv w0 w -> w p = Some (inl P) -> winv w0 (put w p (at_tick xcpu p P t)).
Proof.
  intros I H. apply (winv_put w0 w p P); [exact I|exact H|]. intros P0 X Lo Ok. unfold at_tick.
  destruct (p_rlim P RCpu) as [soft hard] eqn:E. destruct (reached hard t) eqn:Rh; [exact Logic.I|].
  destruct (reached soft t) eqn:Rs; [|split; assumption]. destruct (xcpu p); [exact Logic.I|].
  split; [exact Lo|]. intros r. cbn [p_rlim with_rlim].
  destruct (res_eqb RCpu r) eqn:Er; [|apply Ok]. apply res_eqb_eq in Er. subst r. specialize (Ok RCpu). rewrite E in Ok. cbn in *.
  apply reached_true in Rs. apply reached_false in Rh. unfold RLIM_INFINITY in *. lia.
Qed.

Definition known (e : mevent) : Prop := match e with MCall _ sc => In (sc_name sc) modelled | _ => True end.

Lemma calls_known (q : nat) (sc : syscall) : In (sc_name sc) modelled ->
  forall q' sc', Calls q sc = Calls q' sc' -> In (sc_name sc') modelled.
Proof. intros H q' sc' [= <- <-]. exact H. Qed.
Lemma hit_known (q : nat) sig : forall q' sc', Hit q sig = Calls q' sc' -> In (sc_name sc') modelled.
Proof. discriminate. Qed.

Lemma mstep_winv w0 w m e w' m' : winv w0 w -> mstep w m e w' m' -> known e -> winv w0 w'.
Proof.
  intros I St K. destruct St as [p P sc w' sp re H A S N R|p P sc w' H A S|p P u s H U1 U2 U3|p P sp re H N R|p sig w' S].
  - exact (step_winv w0 w _ w' I S (calls_known p sc K)).
  - exact (step_winv w0 w _ w' I S (calls_known p sc K)).
  - apply tick_winv; assumption.
  - exact I.
  - exact (step_winv w0 w _ w' I S (hit_known p sig)).
Qed.

Lemma occupy_kept' own P0 P u s space resident : kept own P0 u s -> lim_ok P0 P ->
  space <= u_space u \/ within (fst (p_rlim P RAs)) space -> 0 <= resident <= space -> kept own P0 (occupy u space resident) s.
Proof.
  intros (K1 & K2 & K3 & K4 & K5 & K6) L Sp Re. split; [exact K1|]. split; [exact K2|]. split; [exact K3|].
  split; [cbn; lia|]. split; [exact Re|]. intros Fi. destruct (K6 Fi) as [K7 K8]. specialize (L RAs).
  unfold within in Sp. cbn. unfold RLIM_INFINITY in *.
  assert (space <= snd (p_rlim P0 RAs)) by lia. split; [assumption|]. lia.
Qed.

Lemma winv_lim w0 w p P P0 : winv w0 w -> w p = Some (inl P) -> w0 p = Some (inl P0) -> lim_ok P0 P.
Proof. intros I H H0. specialize (I p). rewrite H in I. destruct I as (P0' & X & _ & L). assert (P0' = P0) as <- by congruence. exact L. Qed.

Lemma mstep_minv' own w0 w m e w' m' : 0 <= tick -> winv w0 w -> minv own w0 w m -> mstep w m e w' m' -> known e -> minv own w0 w' m'.
Proof.
  intros T I M St Kn. destruct St as [p P sc w' sp re H A S N R|p P sc w' H A S|p P u s H U1 U2 U3|p P sp re H N R|p sig w' S];
    intros q Q0 s' H0 H'.
  - destruct (step_from w _ w' q s' S (calls_known p sc Kn) H') as (s0 & Hs & Sm). pose proof (M q Q0 s0 H0 Hs) as K.
    apply (kept_mono _ _ _ _ s0); [exact T| |exact Sm]. unfold set_use. destruct (Nat.eqb_spec q p) as [->|Ne]; [|exact K].
    apply (occupy_kept' _ _ P); [exact K|eapply winv_lim; eassumption| |exact R].
    destruct N as [-> | [[_ N] | [[_ N] | N]]]; [left; lia|exact N|right; exact N|contradiction].
  - destruct (step_from w _ w' q s' S (calls_known p sc Kn) H') as (s0 & Hs & Sm). pose proof (M q Q0 s0 H0 Hs) as K.
    exact (kept_mono _ _ _ _ s0 _ T K Sm).
  - unfold put in H'. unfold set_use. destruct (Nat.eqb_spec q p) as [->|Ne]; [|exact (M q Q0 s' H0 H')].
    injection H' as <-. destruct (M p Q0 _ H0 H) as (K1 & K2 & K3 & K4).
    assert (L : lim_ok Q0 P) by (eapply winv_lim; eassumption). specialize (L RCpu).
    split; [cbn; lia|]. split; [cbn; lia|]. split; [|exact K4]. intros Fi. specialize (K3 Fi).
    unfold u_time in *. cbn [spend u_user u_sys]. unfold at_tick. destruct (p_rlim P RCpu) as [soft hard] eqn:E. cbn [fst snd] in L.
    destruct (reached hard (u_user (m p) + u_sys (m p) + u + s)) eqn:Rh; [lia|].
    apply reached_false in Rh. unfold RLIM_INFINITY in *.
    assert (u_user (m p) + u + (u_sys (m p) + s) < 1000000 * snd (p_rlim Q0 RCpu)) by lia.
    destruct (reached soft _); [destruct (xcpu p); lia|lia].
  - pose proof (M q Q0 s' H0 H') as K. unfold set_use. destruct (Nat.eqb_spec q p) as [->|Ne]; [|exact K].
    apply (occupy_kept' _ _ P); [exact K|eapply winv_lim; eassumption| |exact R]. destruct N as [-> | [_ N]]; [left; lia|right; exact N].
  - destruct (step_from w _ w' q s' S (hit_known p sig) H') as (s0 & Hs & Sm). pose proof (M q Q0 s0 H0 Hs) as K.
    exact (kept_mono _ _ _ _ s0 _ T K Sm).
Qed.

Lemma mruns_any own w0 w m evs w' m' : 0 <= tick -> mruns w m evs w' m' -> only_modelled evs -> winv w0 w -> minv own w0 w m ->
  winv w0 w' /\ minv own w0 w' m'.
Proof.
  intros T R. induction R as [w m|w m e w1 m1 evs w2 m2 S R IH]; intros O I M; [now split|].
  assert (K : known e) by (destruct e; try exact Logic.I; exact (O _ _ (or_introl eq_refl))).
  apply IH; [intros p sc X; exact (O p sc (or_intror X))|exact (mstep_winv w0 w m e w1 m1 I S K)|exact (mstep_minv' own w0 w m e w1 m1 T I M S K)].
Qed.

Lemma under_start own w m : all_begun_under own (fun r => r <> None) w m -> winv w w /\ minv own w w m.
Proof.
  intros [A B].
  assert (F : forall p P, w p = Some (inl P) -> low P /\ lim_ok P P).
  { intros p P H. destruct (A p _ H) as (P' & c & ptr & Y & J & (U1 & U2 & U3) & N). injection Y as <-.
    destruct (judged_facts c ptr P J (conj U1 (conj U2 U3)) N) as (_ & F2 & _).
    destruct J as (env & log & k0 & path & a & v & k & Rd & U & L & E & _ & ->). split.
    - split; [exact F2|]. exists (uid c), (gid c), [gid c]. split; [exact U1|].
      destruct (c20_privileges _ _ _ _ _ _ _ _ Rd U E) as ((Dg & Du) & _). destruct (Du U2) as (D1 & D2 & D3).
      destruct (Dg U3) as (D4 & D5 & D6 & D7). repeat split; assumption.
    - intros r. destruct (c15_limits _ _ _ _ _ _ _ _ Rd E r) as [H1 H2]. cbn [program_of p_rlim].
      destruct (wanted_limit c r) as [z|]; rewrite H1; [cbn; lia|]. specialize (L r). lia. }
  split.
  - intros p. destruct (w p) as [[P|E]|] eqn:H; [| |reflexivity].
    + exists P. split; [reflexivity|]. apply (F p P H).
    + destruct (A p _ H) as (P & c & ptr & Y & _). discriminate.
  - intros p P0 s H H'. assert (s = inl P0) as -> by congruence. destruct (B p P0 H) as (B1 & B2 & B3 & B4 & B5 & B6 & B7).
    destruct (F p P0 H) as [_ L].
    split; [exact B1|]. split; [exact B2|]. split; [intros X; apply B3; unfold RLIM_INFINITY in *; lia|]. split; [exact B6|]. split; [exact B5|]. intros X.
    pose proof (L RAs). unfold RLIM_INFINITY in *. assert (u_space (m p) <= fst (p_rlim P0 RAs)) by (apply B4; lia). lia.
Qed.

Lemma any_profile own w m evs w' m' p c : 0 <= tick -> all_begun_under own (fun r => r <> None) w m -> mruns w m evs w' m' ->
  only_modelled evs -> runs_for w p c ->
  (max_cpu_time c <> -1 -> forall s, w' p = Some s ->
     match s with
     | inl _ => u_time (m' p) < 1000000 * seconds (max_cpu_time c)
     | inr _ => u_time (m' p) < 1000000 * seconds (max_cpu_time c) + tick
     end) /\
  (max_memory c <> -1 -> memory_limit_check_only c = 0 ->
     u_space (m' p) <= 2 * max_memory c /\ u_peak (m' p) <= Z.max (own p) (2 * max_memory c)).
Proof.
  intros T B R O (ptr & P & H & J). destruct (under_start own w m B) as [I M].
  destruct (mruns_any own w w m evs w' m' T R O I M) as [I' M']. split.
  - intros N s Hs. destruct (M' p P s H Hs) as (_ & _ & K & _). destruct (judged_limits c ptr P RCpu _ J (wanted_cpu c N)) as [E F].
    unfold cpu_kept in K. rewrite E in K. exact (K (proj2 F)).
  - intros N E0. destruct (w' p) as [s|] eqn:Hs; [|specialize (I' p); rewrite Hs in I'; congruence]. destruct (M' p P s H Hs) as (_ & _ & _ & _ & _ & K).
    destruct (judged_limits c ptr P RAs _ J (wanted_as c N E0)) as [E F]. rewrite E in K. exact (K (proj2 F)).
Qed.
End Any.

(** Without a profile: a set-uid file gives root back, and with it any limit. *)
Definition root_cred : cred := mkCred 1001 0 0 1001 1001 1001 [1001].

Lemma root_unbounded tick xcpu T w m P : 1 <= tick -> w 7%nat = Some (inl P) ->
  (forall sc, filters_action (p_filters P) sc = ActAllow) -> p_nnp P = false ->
  p_cred P = mkCred 1001 1001 1001 1001 1001 1001 [1001] -> 0 <= u_resident (m 7%nat) <= u_space (m 7%nat) -> 0 <= u_user (m 7%nat) ->
  exists evs w' m' P', mruns tick xcpu w m evs w' m' /\ only_modelled evs /\ w' 7%nat = Some (inl P') /\ T <= u_user (m' 7%nat).
Proof.
  intros Tk H A N C Re Us.
  set (P1 := mkProc [] (p_rlim P) root_cred (p_filters P) (p_nnp P) 1).
  set (P2 := with_rlim P1 RCpu (18446744073709551615, 18446744073709551615)).
  set (w1 := put w 7 (inl P1)). set (w2 := put w1 7 (inl P2)).
  set (m1 := set_use m 7 (occupy (m 7%nat) (u_space (m 7%nat)) (u_resident (m 7%nat)))).
  set (m2 := set_use m1 7 (occupy (m1 7%nat) (u_space (m1 7%nat)) (u_resident (m1 7%nat)))).
  destruct (can_spend tick xcpu 7 P2 18446744073709551615 Tk eq_refl _ w2 m2 (Z.max T 0) 0 eq_refl eq_refl) as (evs & w' & m' & R & O & W & _ & M); [lia|lia| |].
  { intros X. contradiction X. reflexivity. }
  exists (MCall 7 (call "execve" [4096]) :: MCall 7 (call "prlimit64" [0; 0]) :: evs), w', m', P2.
  split.
  { apply (mruns_cons tick xcpu w m _ w1 m1).
    { apply (m_call tick xcpu w m 7 P (call "execve" [4096]) w1 (u_space (m 7%nat)) (u_resident (m 7%nat))); [exact H|apply A| |left; reflexivity|exact Re].
      apply (step_allowed w 7 P); [exact H|apply A|].
      apply (ex_execve w 7 P (call "execve" [4096]) [] root_cred); [reflexivity|intros n d X; destruct n; discriminate|].
      rewrite N, C. cbn. auto. }
    apply (mruns_cons tick xcpu w1 m1 _ w2 m2).
    { apply (m_call tick xcpu w1 m1 7 P1 (call "prlimit64" [0; 0]) w2 (u_space (m1 7%nat)) (u_resident (m1 7%nat))); [reflexivity|apply A| |left; reflexivity|exact Re].
      apply (step_allowed w1 7 P1); [reflexivity|apply A|].
      apply (ex_prlimit w1 7 P1 (call "prlimit64" [0; 0]) 7 P1 RCpu 18446744073709551615 18446744073709551615);
        [reflexivity|reflexivity|left; split; reflexivity|reflexivity|left; reflexivity|lia|right; reflexivity]. }
    exact R. }
  split. { intros p sc [X|[X|X]]; [injection X as <- <-; cbn; auto 60|injection X as <- <-; cbn; auto 60|destruct (O _ X) as (a & b & Y); discriminate]. }
  split; [rewrite W; reflexivity|]. rewrite M.
  change (T <= u_user (m 7%nat) + Z.max T 0). lia.
Qed.

Lemma two_none_begun : all_begun_under (fun _ => 1048576) (fun r => r = None) (two None 1001 1002) fresh_meter.
Proof.
  assert (Inj : forall a b : proc, @Some (proc + ending) (inl a) = Some (inl b) -> b = a) by (intros a b Q; congruence).
  split.
  - intros p s H. unfold two in H. do 7 (destruct p as [|p]; [discriminate|]).
    destruct p as [|[|p]]; [| |discriminate].
    + exists (sub_program None 1001), (sub_config None 1001), sub_ptr. split; [congruence|]. split; [apply sub_judged; [lia|cbn; tauto]|]. split; [apply sub_user; lia|reflexivity].
    + exists (sub_program None 1002), (sub_config None 1002), sub_ptr. split; [congruence|]. split; [apply sub_judged; [lia|cbn; tauto]|]. split; [apply sub_user; lia|reflexivity].
  - intros p Q H. assert (exists u, 0 <= u < 4294967295 /\ Q = sub_program None u) as (u & U & ->).
    { unfold two in H. do 7 (destruct p as [|p]; [discriminate|]).
      destruct p as [|[|p]]; [exists 1001|exists 1002|discriminate]; (split; [lia|exact (Inj _ _ H)]). }
    destruct (sub_limits None u U) as [E1 E2]; [cbn; tauto|]. unfold begun. rewrite E1, E2. cbn. lia.
Qed.

Lemma without_profile_unbounded tick xcpu T : 1 <= tick ->
  all_begun_under (fun _ => 1048576) (fun r => r = None) (two None 1001 1002) fresh_meter /\
  runs_for (two None 1001 1002) 7 (sub_config None 1001) /\
  exists evs w' m' P, mruns tick xcpu (two None 1001 1002) fresh_meter evs w' m' /\ only_modelled evs /\
  w' 7%nat = Some (inl P) /\ T <= u_user (m' 7%nat).
Proof.
  intros Tk. split; [exact two_none_begun|].
  split. { exists sub_ptr, (sub_program None 1001). split; [reflexivity|]. apply sub_judged; [lia|cbn; tauto]. }
  apply (root_unbounded tick xcpu T _ _ (sub_program None 1001) Tk).
  - reflexivity.
  - intros sc. vm_compute. reflexivity.
  - vm_compute. reflexivity.
  - vm_compute. reflexivity.
  - cbn. lia.
  - cbn. lia.
Qed.

(** Golang programs, for which the bounds hold. *)
Lemma two_golang_begun : all_begun_under (fun _ => 1048576) (fun r => r <> None) (two (Some "golang"%string) 1001 1002) fresh_meter /\
  runs_for (two (Some "golang"%string) 1001 1002) 7 (sub_config (Some "golang"%string) 1001).
Proof.
  assert (Inj : forall a b : proc, @Some (proc + ending) (inl a) = Some (inl b) -> b = a) by (intros a b Q; congruence).
  split; [split|].
  - intros p s H. unfold two in H. do 7 (destruct p as [|p]; [discriminate|]).
    destruct p as [|[|p]]; [| |discriminate].
    + exists (sub_program (Some "golang"%string) 1001), (sub_config (Some "golang"%string) 1001), sub_ptr. split; [congruence|]. split; [apply sub_judged; [lia|cbn; tauto]|]. split; [apply sub_user; lia|discriminate].
    + exists (sub_program (Some "golang"%string) 1002), (sub_config (Some "golang"%string) 1002), sub_ptr. split; [congruence|]. split; [apply sub_judged; [lia|cbn; tauto]|]. split; [apply sub_user; lia|discriminate].
  - intros p Q H. assert (exists u, 0 <= u < 4294967295 /\ Q = sub_program (Some "golang"%string) u) as (u & U & ->).
    { unfold two in H. do 7 (destruct p as [|p]; [discriminate|]).
      destruct p as [|[|p]]; [exists 1001|exists 1002|discriminate]; (split; [lia|exact (Inj _ _ H)]). }
    destruct (sub_limits (Some "golang"%string) u U) as [E1 E2]; [cbn; tauto|]. unfold begun. rewrite E1, E2. cbn. lia.
  - exists sub_ptr, (sub_program (Some "golang"%string) 1001). split; [reflexivity|]. apply sub_judged; [lia|cbn; tauto].
Qed.
