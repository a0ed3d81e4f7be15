(** arg_parse on any table does what [outcome] says. *)
From Coq Require Import ZArith Bool List Ascii String Arith Lia.
From Verif.Base Require Import CInt CStr.
From Verif.Model Require Import Permute Getopt Argtable AnyTable.
From Verif.Spec Require Import CmdLine AnyLine AnySpec AnyTableSpec.
From Verif.Proofs Require Import PermuteProofs GetoptLong GetoptProofs ParseSim AnyLong AnyGetopt AnySim.
Import ListNotations.
Open Scope list_scope.
Open Scope nat_scope.

(** ** The bounded list of errors *)
Definition bounded (em : nat) (l : list perror) : list perror :=
  if len l <=? em then l else firstn (em - 1) l ++ [mkErr None ARG_ELIMIT None].

Lemma upd_end {A} (a : list A) x y : upd (len a) x (a ++ [y]) = a ++ [x].
Proof. induction a as [|z a IH]; cbn; [reflexivity|]. rewrite IH. reflexivity. Qed.

Lemma upd_at_end {A} (l : list A) n x : len l = n -> 1 <= n -> upd (n - 1) x l = firstn (n - 1) l ++ [x].
Proof.
  intros L P. destruct (exists_last (l := l)) as (a & y & ->).
  { intros ->. cbn in L. lia. }
  rewrite app_length in L. cbn in L. assert (n - 1 = len a) as -> by lia.
  rewrite upd_end, firstn_app, Nat.sub_diag, firstn_all. cbn. rewrite app_nil_r. reflexivity.
Qed.

Lemma register_bounded em l x : 1 <= em -> register_error em (bounded em l) x = bounded em (l ++ [x]).
Proof.
  intros P. unfold register_error, bounded. rewrite app_length. cbn [List.length].
  destruct (Nat.leb_spec (len l) em) as [L|L].
  - destruct (Nat.ltb_spec (len l) em) as [L2|L2].
    + rewrite (proj2 (Nat.leb_le (len l + 1) em)) by lia. reflexivity.
    + rewrite (proj2 (Nat.leb_gt (len l + 1) em)) by lia. rewrite upd_at_end by lia.
      rewrite firstn_app. replace (em - 1 - len l) with 0 by lia. cbn [firstn]. rewrite app_nil_r. reflexivity.
  - rewrite (proj2 (Nat.leb_gt (len l + 1) em)) by lia.
    assert (len (firstn (em - 1) l ++ [mkErr None ARG_ELIMIT None]) = em) as Le.
    { rewrite app_length, firstn_length. cbn. lia. }
    rewrite Le, Nat.ltb_irrefl. rewrite upd_at_end by lia. f_equal.
    rewrite !firstn_app. rewrite firstn_length.
    replace (em - 1 - Nat.min (em - 1) (len l)) with 0 by lia. replace (em - 1 - len l) with 0 by lia.
    cbn [firstn]. rewrite !app_nil_r, firstn_firstn, Nat.min_id. reflexivity.
Qed.

Lemma bounded_kept em errs : bounded em (map coded errs) = map coded (kept em errs).
Proof.
  unfold bounded, kept. rewrite map_length. destruct (len errs <=? em); [reflexivity|].
  rewrite map_app, firstn_map. reflexivity.
Qed.

Lemma bounded_nil em l : 1 <= em -> bounded em l = [] -> l = [].
Proof.
  unfold bounded. destruct (Nat.leb_spec (len l) em); [auto|]. intros P E. destruct (firstn (em - 1) l); discriminate.
Qed.

Section Parse.
Variable St : Type.
Variable os : list opt.
Variable bs : list (behaviour St).
Variable em : nat.
Variable posix : bool.
Hypothesis FO : fine_options os.
Hypothesis LB : List.length bs = List.length os.
Hypothesis EM : 1 <= em.
Let table := declared os bs.

Lemma table_length : len table = len os.
Proof.
  unfold table. clear table FO. revert bs LB. induction os as [|o os0 IH]; intros [|b bs0] L; try discriminate; [reflexivity|].
  cbn [declared List.length]. rewrite IH; [reflexivity|]. cbn in L. lia.
Qed.

Lemma nth_table k b : nth_error bs k = Some b -> exists o, nth_error os k = Some o /\ nth_error table k = Some (declare o b).
Proof.
  intros E. assert (k < len os) as L by (rewrite <- LB; apply nth_error_Some; congruence).
  destruct (nth_error os k) as [o|] eqn:Eo; [|apply nth_error_Some in L; congruence].
  exists o. split; [reflexivity|]. unfold table. rewrite (nth_declared St os bs k), Eo, E. reflexivity.
Qed.

Lemma put_upd k (s : St) objs : put St k s objs = upd k s objs.
Proof. revert k. induction objs as [|x l IH]; intros [|k]; cbn; auto. rewrite IH. reflexivity. Qed.

(** ** Offering *)
Lemma offers_scan k v objs r all : offers St bs k v objs r ->
  any_scan St table em k v objs (bounded em all) =
  match r with UB => UB | Val (objs', a) => Val (objs', bounded em (all ++ map coded (refusal k v a))) end.
Proof.
  intros H. unfold any_scan.
  destruct H as [b Eb Ea|b f s s' Eb Ea Es Ef|b f s s' code Eb Ea Es Ef Nc|b f s Eb Ea Es Ef];
    destruct (nth_table k b Eb) as (o & Eo & ->).
  - cbn [declare h_scan]. rewrite Ea. cbn [refusal map]. rewrite app_nil_r. reflexivity.
  - cbn [declare h_scan]. rewrite Ea, Es, Ef. cbn [cbind refusal map Z.eqb]. rewrite app_nil_r, put_upd. reflexivity.
  - cbn [declare h_scan]. rewrite Ea, Es, Ef. cbn [cbind refusal map coded]. rewrite (proj2 (Z.eqb_neq code 0) Nc), put_upd.
    rewrite register_bounded by exact EM. reflexivity.
  - cbn [declare h_scan]. rewrite Ea, Es, Ef. reflexivity.
Qed.

Lemma hasvalue_takes k o b : nth_error os k = Some o ->
  h_hasvalue (declare o b : hdr St) = match o_takes o with Nothing => false | _ => true end.
Proof. reflexivity. Qed.

Lemma happens_event objs e r all : happens St os bs objs e r ->
  app_event St os bs em e (objs, bounded em all) =
  match r with UB => UB | Val (objs', es) => Val (objs', bounded em (all ++ map coded es)) end.
Proof.
  intros H. destruct H as [k v last objs' a Ho|k v last Ho|k v objs' a Ho|k v Ho|w|w|c]; cbn [app_event].
  - assert (exists b, nth_error bs k = Some b) as (b & Eb) by (inversion Ho; eauto).
    destruct (nth_table k b Eb) as (o & Eo & Et). fold table. rewrite Et. unfold empty_value. rewrite Eo.
    cbn [declare h_hasvalue].
    destruct v as [[|c v]|]; [destruct (o_takes o)| |]; cbn [app map]; try exact (offers_scan _ _ _ _ _ Ho).
    + rewrite register_bounded by exact EM. fold table. rewrite (offers_scan _ _ _ _ _ Ho), <- app_assoc. reflexivity.
    + rewrite register_bounded by exact EM. fold table. rewrite (offers_scan _ _ _ _ _ Ho), <- app_assoc. reflexivity.
  - assert (exists b, nth_error bs k = Some b) as (b & Eb) by (inversion Ho; eauto).
    destruct (nth_table k b Eb) as (o & Eo & Et). fold table. rewrite Et. cbn [declare h_hasvalue].
    destruct v as [[|c v]|]; [destruct (o_takes o)| |]; try exact (offers_scan _ _ _ _ _ Ho);
      rewrite register_bounded by exact EM; exact (offers_scan _ _ _ _ _ Ho).
  - exact (offers_scan _ _ _ _ _ Ho).
  - exact (offers_scan _ _ _ _ _ Ho).
  - rewrite register_bounded by exact EM. reflexivity.
  - rewrite register_bounded by exact EM. reflexivity.
  - rewrite register_bounded by exact EM. reflexivity.
Qed.

Lemma happen_events objs es r : happen St os bs objs es r -> forall all,
  app_events St os bs em es (objs, bounded em all) =
  match r with UB => UB | Val (objs', es) => Val (objs', bounded em (all ++ map coded es)) end.
Proof.
  intros H. induction H as [objs|objs e es objs1 errs1 objs2 errs2 H1 H2 IH|objs e es H|objs e es objs1 errs1 H1 H2 IH];
    intros all; cbn [app_events].
  - rewrite app_nil_r. reflexivity.
  - rewrite (happens_event _ _ _ all H1). cbn [cbind]. rewrite IH, map_app, app_assoc. reflexivity.
  - rewrite (happens_event _ _ _ all H). reflexivity.
  - rewrite (happens_event _ _ _ all H1). cbn [cbind]. rewrite IH. reflexivity.
Qed.

(** ** Words that are no options *)
Definition last_of (ws : list str) (last : list error) (l : option (nat * Z * str)) : Prop :=
  match last, l with
  | [], None => True
  | [Refused k c (Some w)], Some (k', c', w') => k = k' /\ c = c' /\ w = w' /\ hd_error ws = Some w
  | _, _ => False
  end.

Lemma last_cases ws last l : last_of ws last l ->
  (last = [] /\ l = None) \/
  exists k c w, last = [Refused k c (Some w)] /\ l = Some (k, c, w) /\ hd_error ws = Some w.
Proof.
  destruct last as [|e [|? ?]]; intros H.
  - destruct l; [destruct H|left; auto].
  - destruct e as [k c [w|]| | | | | |]; try (destruct H; fail). destruct l as [[[k' c'] w']|]; [|destruct H].
    cbn in H. destruct H as (-> & -> & -> & E). right. exists k', c', w'. auto.
  - destruct e as [k c [w|]| | | | | |]; destruct H.
Qed.

Lemma leftover_words ws all :
  fold_left (fun errs w => register_error em errs (mkErr None ARG_ENOMATCH (Some w))) ws (bounded em all) =
  bounded em (all ++ map coded (map NotTaken ws)).
Proof.
  revert all. induction ws as [|w ws IH]; intros all; cbn [fold_left map]; [rewrite app_nil_r; reflexivity|].
  rewrite register_bounded by exact EM. rewrite IH, <- app_assoc. reflexivity.
Qed.

Lemma positional_entry i : i < len os ->
  exists h, nth_error table i = Some h /\
  (is_positional St os bs i = true /\ h_long h = None /\ h_short h = None /\ (exists b f, nth_error bs i = Some b /\ b_accept b = Some f /\ h_scan h = Some f) \/
   is_positional St os bs i = false /\ (h_long h <> None \/ h_short h <> None \/ h_scan h = None)).
Proof.
  intros L. destruct (nth_error bs i) as [b|] eqn:Eb.
  2:{ exfalso. apply nth_error_None in Eb. lia. }
  destruct (nth_table i b Eb) as (o & Eo & Et). exists (declare o b). split; [exact Et|].
  unfold is_positional. rewrite Eo, Eb. destruct o as [ls ns t]. cbn [declare h_long h_short h_scan o_letters o_names].
  destruct ls as [|c ls]; [|right; split; [reflexivity|right; left; discriminate]].
  destruct ns as [|n ns]; [|right; split; [reflexivity|left; discriminate]].
  destruct (b_accept b) as [f|] eqn:Ea; [left|right; auto].
  repeat split; auto. exists b, f. auto.
Qed.

Lemma positionals_from i : i < len os ->
  filter (is_positional St os bs) (seq i (len os - i)) =
  (if is_positional St os bs i then [i] else []) ++ filter (is_positional St os bs) (seq (S i) (len os - S i)).
Proof.
  intros L. replace (len os - i) with (S (len os - S i)) by lia. cbn [seq filter].
  destruct (is_positional St os bs i); reflexivity.
Qed.

Lemma shared_untagged : forall fuel i objs words last l r,
  shared St bs (filter (is_positional St os bs) (seq i (len os - i))) words last objs r ->
  last_of words last l -> len words + (len os - i) <= fuel ->
  match r with
  | UB => any_untagged St table fuel i objs words l = UB
  | Val (objs', errs) => exists x, any_untagged St table fuel i objs words l = Val (objs', x) /\
                         forall all, any_leftover em (bounded em all) x = bounded em (all ++ map coded errs)
  end.
Proof.
  induction fuel as [|fuel IH]; intros i objs words last l r H Hl Hf.
  - destruct words; [|cbn in Hf; lia]. assert (r = Val (objs, [])) as -> by (inversion H; reflexivity).
    destruct (last_cases _ _ _ Hl) as [(-> & ->)|(k & c & w & _ & _ & X)]; [|discriminate].
    cbn [any_untagged]. destruct (nth_error table i).
    + exists None. split; [reflexivity|]. intros all. cbn. rewrite app_nil_r. reflexivity.
    + exists (Some ([], None)). split; [reflexivity|]. intros all. cbn. rewrite app_nil_r. reflexivity.
  - destruct (le_lt_dec (len os) i) as [Li|Li].
    + assert (nth_error table i = None) as Et by (apply nth_error_None; rewrite table_length; exact Li).
      cbn [any_untagged]. rewrite Et. replace (len os - i) with 0 in H by lia. cbn [seq filter] in H.
      inversion H; subst.
      * exists (Some ([], l)). split; [reflexivity|]. intros all. cbn [any_leftover].
        destruct (last_cases _ _ _ Hl) as [(_ & ->)|(k & c & w & _ & _ & X)]; [|discriminate].
        cbn. rewrite app_nil_r. reflexivity.
      * destruct (last_cases _ _ _ Hl) as [(_ & ->)|(k & c & w' & X & _)]; [|discriminate].
        eexists. split; [reflexivity|]. intros all. cbn [any_leftover]. apply leftover_words.
      * destruct (last_cases _ _ _ Hl) as [(X & _)|(k & c & w' & X & -> & Ew)]; [discriminate|]. injection X as ->.
        eexists. split; [reflexivity|]. intros all. cbn [any_leftover tl]. rewrite register_bounded by exact EM.
        rewrite leftover_words, <- app_assoc. reflexivity.
    + destruct (positional_entry i Li) as (h & Et & Cases). cbn [any_untagged]. rewrite Et.
      rewrite (positionals_from i Li) in H.
      destruct words as [|w ws].
      { inversion H; subst. exists None. split; [reflexivity|]. intros all. cbn. rewrite app_nil_r. reflexivity. }
      destruct Cases as [(Ip & El & Es & b & f & Eb & Ef & Eh)|(Ip & Nh)]; rewrite Ip in H; cbn [app] in H.
      * rewrite El, Es, Eh. inversion H as [|? ? ? ? ? ? ? ? Ho Hr|? ? ? ? ? ? ? ? ? Ho Hr|? ? ? ? ? ? Ho| |]; subst.
        -- inversion Ho as [b0 Eb0 Ea0|b0 f0 s s' Eb0 Ea0 Eo0 Ef0| |]; subst; [congruence|].
           assert (b0 = b) as -> by congruence. assert (f0 = f) as -> by congruence.
           rewrite Eo0, Ef0. cbn [cbind]. change (0 =? 0)%Z with true. cbv iota. rewrite <- put_upd.
           apply (IH i _ ws [] None r); [|exact Logic.I|cbn in Hf; lia].
           rewrite (positionals_from i Li), Ip. exact Hr.
        -- inversion Ho as [| |b0 f0 s s' code0 Eb0 Ea0 Eo0 Ef0 Nc|]; subst.
           assert (b0 = b) as -> by congruence. assert (f0 = f) as -> by congruence.
           rewrite Eo0, Ef0. cbn [cbind]. rewrite (proj2 (Z.eqb_neq code 0) Nc). rewrite <- put_upd.
           apply (IH (S i) _ (w :: ws) [Refused i code (Some w)] (Some (i, code, w)) r); [exact Hr|cbn; auto|cbn in *; lia].
        -- inversion Ho as [| | |b0 f0 s Eb0 Ea0 Eo0 Ef0]; subst.
           assert (b0 = b) as -> by congruence. assert (f0 = f) as -> by congruence.
           rewrite Eo0, Ef0. reflexivity.
      * assert (match h_long h with
              | Some _ => any_untagged St table fuel (S i) objs (w :: ws) l
              | None =>
                  match h_short h with
                  | Some _ => any_untagged St table fuel (S i) objs (w :: ws) l
                  | None =>
                      match h_scan h with
                      | Some scan =>
                          match nth_error objs i with
                          | Some o =>
                              cbind (scan (Some w) o) (fun '(errorcode, o') =>
                                 if (errorcode =? 0)%Z then any_untagged St table fuel i (upd i o' objs) ws None
                                 else any_untagged St table fuel (S i) (upd i o' objs) (w :: ws) (Some (i, errorcode, w)))
                          | None => UB
                          end
                      | None => any_untagged St table fuel (S i) objs (w :: ws) l
                      end
                  end
              end = any_untagged St table fuel (S i) objs (w :: ws) l) as ->.
        { destruct (h_long h); [reflexivity|]. destruct (h_short h); [reflexivity|]. destruct (h_scan h); [|reflexivity].
          exfalso. intuition congruence. }
        apply (IH (S i) objs (w :: ws) last l r); [exact H|exact Hl|cbn in *; lia].
Qed.

(** ** Checks and resets *)
Lemma check_complaints : forall (os0 : list opt) (bs0 : list (behaviour St)) i objs all, len bs0 = len os0 ->
  any_check St em i (declared os0 bs0) objs (bounded em all) = bounded em (all ++ map coded (complaints St i bs0 objs)).
Proof.
  induction os0 as [|o os0 IH]; intros [|b bs0] i objs all L; try discriminate.
  - cbn. rewrite app_nil_r. reflexivity.
  - cbn [declared any_check complaints]. destruct objs as [|s objs]; [cbn; rewrite app_nil_r; reflexivity|].
    cbn [declare h_check]. cbn [List.length] in L. destruct (b_content b) as [f|].
    + destruct (f s =? 0)%Z; [rewrite IH by lia; reflexivity|].
      rewrite register_bounded by exact EM. rewrite IH by lia. rewrite <- app_assoc. reflexivity.
    + rewrite IH by lia. reflexivity.
Qed.

Lemma reset_restarted : forall (os0 : list opt) (bs0 : list (behaviour St)) objs, len bs0 = len os0 -> len objs = len os0 ->
  any_reset St (declared os0 bs0) objs = restarted St bs0 objs.
Proof.
  induction os0 as [|o os0 IH]; intros [|b bs0] [|s objs] L L2; try discriminate; [reflexivity|].
  cbn [declared any_reset restarted declare h_reset]. rewrite IH by (cbn in *; lia). reflexivity.
Qed.

(** ** The whole *)
Let parse fuel argv objs := any_parse St table em fuel posix argv objs.

Lemma start_Rg a ws : Rg (mkG (a :: ws) 1 [] None None true) [] ws.
Proof.
  split; [reflexivity|]. split; [discriminate|]. split; [auto|]. exists [a], []. cbn. split; [reflexivity|]. split; [lia|]. left. auto.
Qed.

Lemma start_loop fuel a ws objs :
  any_loop St table em fuel posix (shorts_of os) (los_of 0 os) (mkA objs [] (mkG (a :: ws) 0 [] None None false)) =
  any_loop St table em fuel posix (shorts_of os) (los_of 0 os) (mkA objs [] (mkG (a :: ws) 1 [] None None true)).
Proof. destruct fuel; reflexivity. Qed.

Lemma tagged_is fuel a ws objs : any_tagged St table em fuel posix (a :: ws) objs =
  any_loop St table em fuel posix (shorts_of os) (los_of 0 os) (mkA objs [] (mkG (a :: ws) 1 [] None None true)).
Proof.
  unfold any_tagged, table. rewrite (declared_short St os bs LB), (declared_long St os bs 0 FO LB). apply start_loop.
Qed.

Theorem any_parse_outcome a words objs out :
  len objs = len os -> Forall c_string words ->
  outcome St os bs em posix words objs out ->
  returns (fun fuel => parse fuel (a :: words) objs) (left_by out).
Proof.
  intros Lo Cw H. unfold returns, parse, any_parse.
  replace (any_reset St table objs) with (restarted St bs objs) by (symmetry; apply reset_restarted; assumption).
  change (@nil perror) with (bounded em []) in *.
  assert (forall es rest r, reads os posix words es rest -> happen St os bs (restarted St bs objs) es r ->
    exists g', skipn (g_optind g') (g_argv g') = rest /\ exists n, forall fuel, n <= fuel ->
      any_tagged St table em fuel posix (a :: words) (restarted St bs objs) =
      Some (match r with UB => UB | Val (o, errs) => Val (mkA o (bounded em (map coded errs)) g') end)) as Tag.
  { intros es rest r Hr Hh.
    destruct (any_reads_sim St os bs em posix FO LB words es rest Hr _ [] (start_Rg a words) ltac:(reflexivity) Cw) as (g' & Sk & Fi).
    exists g'. split; [exact Sk|]. destruct (Fi (restarted St bs objs) (bounded em [])) as (n & Fn). exists n. intros fuel L.
    rewrite tagged_is. change (@nil perror) with (bounded em []). fold table in Fn. rewrite (Fn fuel L).
    rewrite (happen_events _ _ _ Hh []). destruct r as [[o errs]|]; reflexivity. }
  destruct H as [es rest objs1 errs1 objs2 errs2 Hr Hh Hs|es rest Hr Hh|es rest objs1 errs1 Hr Hh Hs].
  - destruct (Tag _ _ _ Hr Hh) as (g' & Sk & n & Fn). exists n. intros fuel L. rewrite (Fn fuel L).
    cbn [a_get a_objs a_errs]. rewrite Sk.
    pose proof (shared_untagged (len rest + len table) 0 objs1 rest [] None (Val (objs2, errs2))) as U.
    rewrite Nat.sub_0_r in U. destruct (U Hs Logic.I ltac:(rewrite table_length; lia)) as (x & E & Ex). rewrite E. cbn [cbind left_by].
    rewrite Ex, <- map_app. do 2 f_equal. f_equal.
    destruct (errs1 ++ errs2) as [|e errs] eqn:Ee.
    + cbn [map]. change (bounded em []) with (@nil perror). cbv iota.
      pose proof (check_complaints os bs 0 objs2 [] LB) as Ck. change (bounded em []) with (@nil perror) in Ck.
      fold table in Ck. rewrite Ck. cbn [app]. apply bounded_kept.
    + rewrite bounded_kept. destruct (map coded (kept em (e :: errs))) eqn:Em; [|reflexivity].
      exfalso. rewrite <- bounded_kept in Em. apply bounded_nil in Em; [discriminate|exact EM].
  - destruct (Tag _ _ _ Hr Hh) as (g' & Sk & n & Fn). exists n. intros fuel L. rewrite (Fn fuel L). reflexivity.
  - destruct (Tag _ _ _ Hr Hh) as (g' & Sk & n & Fn). exists n. intros fuel L. rewrite (Fn fuel L).
    cbn [a_get a_objs a_errs]. rewrite Sk.
    pose proof (shared_untagged (len rest + len table) 0 objs1 rest [] None UB) as U.
    rewrite Nat.sub_0_r in U. rewrite (U Hs Logic.I ltac:(rewrite table_length; lia)). reflexivity.
Qed.

Theorem any_parse_stuck a words objs : Forall c_string words -> gets_stuck os posix words ->
  never_returns (fun fuel => parse fuel (a :: words) objs).
Proof.
  intros Cw H fuel r. unfold parse, any_parse. rewrite tagged_is.
  pose proof (any_stuck_sim St os bs em posix FO LB words H _ [] (start_Rg a words) ltac:(reflexivity) Cw fuel (any_reset St table objs) []) as N.
  fold table in N. cbv beta in N. destruct (any_loop St table em fuel posix (shorts_of os) (los_of 0 os) _) as [[p|]|]; [|discriminate|discriminate].
  exfalso. apply (N p). reflexivity.
Qed.

Theorem any_parse_empty fuel objs : len objs = len os ->
  parse fuel [] objs = Some (left_by (Val (restarted St bs objs, kept em (complaints St 0 bs (restarted St bs objs))))).
Proof.
  intros L. unfold parse, any_parse. pose proof (reset_restarted os bs objs LB L) as Er. fold table in Er. rewrite Er.
  pose proof (check_complaints os bs 0 (restarted St bs objs) [] LB) as Ck. change (bounded em []) with (@nil perror) in Ck.
  fold table in Ck. rewrite Ck. cbn [app left_by]. rewrite bounded_kept. reflexivity.
Qed.
End Parse.
