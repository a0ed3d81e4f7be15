(** main: from the command line to what is done. *)
From Coq Require Import ZArith Bool List Ascii String Arith Lia.
From Verif.Base Require Import CInt CStr.
From Verif.Model Require Import Config ArgInt Permute Getopt Argtable Main.
From Verif.Spec Require Import IntText CmdLine Invocation.
From Verif.Proofs Require Import ArgIntClaims PermuteProofs GetoptLong GetoptProofs ParseSim InvocationProofs.
Import ListNotations.
Open Scope list_scope.
Open Scope nat_scope.

Lemma occurs_unique acc es acc1 fs1 : occurs acc es acc1 fs1 -> forall acc2 fs2, occurs acc es acc2 fs2 -> acc1 = acc2 /\ fs1 = fs2.
Proof.
  intros H. induction H as [acc|acc e es new fs acc' fs' O H IH]; intros acc2 fs2 H2; inversion H2; subst; auto.
  match goal with X : one acc e ?n ?f |- _ => destruct (one_unique _ _ _ _ _ _ O X) as [<- <-] end.
  match goal with X : occurs _ es _ _ |- _ => destruct (IH _ _ X) as [-> ->] end. auto.
Qed.

(** ** The events of a command line *)
Lemma long_good w s ws e ws' : long_option judger_names w s ws e ws' -> good_event e.
Proof. intros H. destruct H; cbn; auto. Qed.

Lemma letters_good ls : Forall good_event (map Letter ls).
Proof. induction ls; constructor; cbn; auto. Qed.

Lemma reads_good posix ws es r : reads judger_names posix ws es r -> Forall good_event es.
Proof.
  intros H. induction H; auto.
  - apply Forall_app. split; [apply letters_good|assumption].
  - apply Forall_app. split; [apply letters_good|]. constructor; [eapply long_good; eassumption|assumption].
Qed.

Lemma stuck_good posix ws es : stuck_after judger_names posix ws es -> Forall good_event es.
Proof.
  intros H. induction H; auto.
  - apply Forall_app. split; [apply letters_good|assumption].
  - apply Forall_app. split; [apply letters_good|]. constructor; [eapply long_good; eassumption|assumption].
Qed.

Definition undefined_from (acc : accepted) (es : list event) : Prop :=
  exists es1 n v w es2 acc' fs m,
    es = es1 ++ Given n (Some v) w :: es2 /\ occurs acc es1 acc' fs /\
    In (mkOpt n Number m) judger_options /\ len (taken n acc') < m /\ negated_min v.

Lemma harmless_first acc e es : ~ undefined_from acc (e :: es) ->
  forall n m v w, e = Given n (Some v) w -> In (mkOpt n Number m) judger_options -> len (taken n acc) < m -> ~ negated_min v.
Proof. intros H n m v w -> I L Nm. apply H. exists [], n, v, w, es, acc, [], m. repeat split; auto. constructor. Qed.

Lemma harmless_next acc e es new fs : ~ undefined_from acc (e :: es) -> one acc e new fs -> ~ undefined_from (acc ++ new) es.
Proof.
  intros H O (es1 & n & v & w & es2 & acc' & fs' & m & -> & Oc & I & L & Nm).
  apply H. exists (e :: es1), n, v, w, es2, acc', (fs ++ fs'), m. repeat split; auto. econstructor; eassumption.
Qed.

Theorem events_step es : Forall good_event es -> forall acc l, ~ undefined_from acc es -> within_limits acc ->
  exists acc' fs, occurs acc es acc' fs /\ within_limits acc' /\
    apply_events los EM es (table_of acc, bounded EM l) = Val (table_of acc', bounded EM (l ++ map coded fs)).
Proof.
  induction es as [|e es IH]; intros G acc l Hm W.
  - exists acc, []. cbn [map apply_events]. rewrite app_nil_r. split; [constructor|]. auto.
  - inversion G as [|? ? G1 G2]; subst.
    destruct (event_step acc e l G1 W (harmless_first acc e es Hm)) as (new & fs & O & W' & E).
    destruct (IH G2 (acc ++ new) (l ++ map coded fs) (harmless_next acc e es new fs Hm O) W') as (acc' & fs' & O' & W2 & E').
    exists acc', (fs ++ fs'). split; [econstructor; eassumption|]. split; [exact W2|].
    cbn [apply_events]. rewrite E. cbn [cbind]. rewrite E', map_app, app_assoc. reflexivity.
Qed.

(** A number with undefined behaviour makes all of it undefined. *)
Lemma event_undefined acc n m v w l : within_limits acc -> In (mkOpt n Number m) judger_options ->
  len (taken n acc) < m -> negated_min v ->
  apply_event los EM (Given n (Some v) w) (table_of acc, bounded EM l) = UB.
Proof.
  intros W I Lt Nm. destruct (option_entry n Number m I) as (i & e & E1 & E2 & E3 & E4 & E5 & M0).
  cbn [apply_event]. rewrite E5. cbn [lo_val]. rewrite nth_put, E1. cbn [option_map].
  rewrite (scan_put acc n Number m (Some v) _ I i e E1 E2 E3 E4).
  assert (scanfn (put acc e) (Some v) = UB) as ->; [|reflexivity].
  assert (e_count (put acc e) = len (taken n acc)) as Cn.
  { unfold e_count, put. cbn [e_vals]. rewrite map_length, E2. reflexivity. }
  assert (e_max (put acc e) = m) as Mx by exact E4.
  unfold scanfn. rewrite Cn, Mx. unfold put at 1. cbn [e_kind]. rewrite E3.
  assert ((len (taken n acc) =? m) = false) as -> by (apply Nat.eqb_neq; lia).
  cbn [akind_of]. apply scan_UB in Nm. rewrite Nm. reflexivity.
Qed.

Lemma negated_min_dec v : negated_min v \/ ~ negated_min v.
Proof.
  destruct (scan_cases v) as [U|[(z & St)|[Ov|Bd]]]; [left; apply scan_UB; exact U|right|right|right];
    intros Nm; apply scan_UB in Nm; congruence.
Qed.

Theorem events_undefined es1 : forall n m v w es2 acc acc' fs l,
  Forall good_event (es1 ++ Given n (Some v) w :: es2) -> within_limits acc -> occurs acc es1 acc' fs ->
  In (mkOpt n Number m) judger_options -> len (taken n acc') < m -> negated_min v ->
  apply_events los EM (es1 ++ Given n (Some v) w :: es2) (table_of acc, bounded EM l) = UB.
Proof.
  induction es1 as [|e es1 IH]; intros n m v w es2 acc acc' fs l G W O I Lt Nm.
  - inversion O; subst. cbn [app apply_events]. rewrite (event_undefined acc' n m v w l W I Lt Nm). reflexivity.
  - cbn [app] in *. inversion G as [|? ? G1 G2]; subst. inversion O as [|? ? new1 fs1 ? fs2 O1 O2]; subst. cbn [apply_events].
    assert ((exists n' m' v' w', e = Given n' (Some v') w' /\ In (mkOpt n' Number m') judger_options /\ len (taken n' acc) < m' /\ negated_min v') \/
            (forall n' m' v' w', e = Given n' (Some v') w' -> In (mkOpt n' Number m') judger_options -> len (taken n' acc) < m' -> ~ negated_min v')) as [(n' & m' & v' & w' & -> & I' & L' & N')|Hs].
    { destruct e as [n' [v'|] w'| | |]; try (right; intros; discriminate).
      destruct (negated_min_dec v') as [N'|N']; [|right; intros ? ? ? ? E; injection E as -> -> ->; auto].
      destruct (valued_option n' G1) as (k & m' & I' & _).
      destruct k; try (right; intros ? m2 ? ? E I2; injection E as -> -> ->; destruct (option_unique _ _ _ _ _ I' I2); discriminate).
      destruct (le_lt_dec m' (len (taken n' acc))) as [L'|L'].
      - right. intros ? m2 ? ? E I2 L2. injection E as -> -> ->. destruct (option_unique _ _ _ _ _ I' I2) as [_ <-]. lia.
      - left. exists n', m', v', w'. auto. }
    + rewrite (event_undefined acc n' m' v' w' l W I' L' N'). reflexivity.
    + destruct (event_step acc e l G1 W Hs) as (new & fs' & O' & W' & ->). cbn [cbind].
      destruct (one_unique _ _ _ _ _ _ O' O1) as [-> ->]. eapply IH; eauto.
Qed.

Lemma within_nil : within_limits [].
Proof. split; [|intros n v []]. intros n k m _. cbn. lia. Qed.

Lemma occurs_exists posix ws es r : reads judger_names posix ws es r -> harmless es ->
  exists acc fs, occurs [] es acc fs.
Proof.
  intros R H. destruct (events_step es (reads_good _ _ _ _ R) [] [] H within_nil) as (acc & fs & O & _). eauto.
Qed.

Lemma good_occurs es acc fs : Forall good_event es -> harmless es -> occurs [] es acc fs ->
  within_limits acc /\
  apply_events los EM es (table_of [], []) = Val (table_of acc, bounded EM (map coded fs)).
Proof.
  intros G H O. destruct (events_step es G [] [] H within_nil) as (acc' & fs' & O' & W & E).
  destruct (occurs_unique _ _ _ _ O _ _ O') as [<- <-]. split; [exact W|]. exact E.
Qed.

(** ** The start *)
Lemma start_Rg prog ws : Rg (mkG (prog :: ws) 1 [] None None true) [] ws.
Proof.
  split; [reflexivity|]. split; [discriminate|]. split; [auto|].
  exists [prog], []. cbn. split; [reflexivity|]. split; [reflexivity|]. left. auto.
Qed.

Lemma start_loop posix prog ws t errs fuel :
  tagged_loop fuel posix (lit ":") los EM (mkP t errs (mkG (prog :: ws) 0 [] None None false)) =
  tagged_loop fuel posix (lit ":") los EM (mkP t errs (mkG (prog :: ws) 1 [] None None true)).
Proof. destruct fuel; reflexivity. Qed.

(** ** After the options *)
Lemma untagged_skip words : words <> [] -> forall acc T i, (forall e, In e T -> e_long e <> None) ->
  untagged_loop i (map (put acc) T) words None = Val (map (put acc) T, inr (words, None)).
Proof.
  intros Nw acc. destruct words as [|w ws]; [congruence|]. clear Nw.
  induction T as [|e T IH]; intros i H; [reflexivity|]. cbn [map untagged_loop].
  assert (exists n, e_long (put acc e) = Some n) as (n & ->).
  { cbn [put e_long]. destruct (e_long e) eqn:E; [eauto|]. exfalso. apply (H e); [left; reflexivity|exact E]. }
  rewrite IH by (intros x Hx; apply H; right; exact Hx). destruct (e_short (put acc e)); reflexivity.
Qed.

Lemma all_tagged : forall e, In e arg_table -> e_long e <> None.
Proof. intros e H. cbn [arg_table In] in H. repeat (destruct H as [<-|H]; [discriminate|]). destruct H. Qed.

Lemma fold_map {A B} (f : list B -> B -> list B) (h : A -> B) l x :
  fold_left (fun acc a => f acc (h a)) l x = fold_left f (map h l) x.
Proof. revert x. induction l as [|a l IH]; intros x; [reflexivity|]. cbn. apply IH. Qed.

Lemma untagged acc fs g r : skipn (g_optind g) (g_argv g) = r ->
  arg_parse_untagged EM (mkP (table_of acc) (bounded EM (map coded fs)) g) =
  Val (table_of acc, bounded EM (map coded (fs ++ map Stray r))).
Proof.
  intros S. unfold arg_parse_untagged. cbn [p_get p_table p_errs]. rewrite S.
  destruct r as [|w r].
  - cbn [map]. rewrite app_nil_r. reflexivity.
  - unfold table_of. rewrite untagged_skip; [|discriminate|exact all_tagged]. cbn [cbind].
    rewrite (fold_map (register_error EM) (fun w => mkErr None ARG_ENOMATCH (Some w))).
    rewrite register_all by (unfold EM; lia). rewrite map_app, map_map. reflexivity.
Qed.

Lemma check_optional acc T : Forall (fun e => e_min e = 0) T -> forall i rest errs,
  arg_parse_check EM i (map (put acc) T ++ rest) errs = arg_parse_check EM (i + len T) rest errs.
Proof.
  induction T as [|e T IH]; intros F i rest errs; [cbn; rewrite Nat.add_0_r; reflexivity|].
  inversion F as [|? ? E F']; subst. cbn [map app arg_parse_check].
  assert ((checkfn (put acc e) =? 0)%Z = true) as ->.
  { unfold checkfn, put. cbn [e_min]. rewrite E. reflexivity. }
  rewrite (IH F'). cbn [List.length]. f_equal. lia.
Qed.

Lemma check acc : arg_parse_check EM 0 (table_of acc) [] =
  match taken (lit "exe_path") acc with [] => [coded (Required (lit "exe_path"))] | _ => [] end.
Proof.
  assert (table_of acc = map (put acc) (firstn 9 arg_table) ++ put acc (strn "exe_path" 1 1) :: map (put acc) (skipn 10 arg_table) ++ []) as ->.
  { unfold table_of. rewrite app_nil_r. rewrite <- (firstn_skipn 9 arg_table) at 1. rewrite map_app. reflexivity. }
  rewrite check_optional by (cbn [firstn arg_table]; repeat constructor).
  cbn [arg_parse_check]. rewrite check_optional by (cbn [skipn arg_table]; repeat constructor). cbn [arg_parse_check].
  unfold checkfn, put. cbn [e_min strn]. unfold e_count. cbn [e_vals]. rewrite map_length.
  change (e_name (strn "exe_path" 1 1)) with (lit "exe_path").
  destruct (taken (lit "exe_path") acc) as [|v vs]; [vm_compute; reflexivity|reflexivity].
Qed.

Lemma bounded_coded fs : bounded EM (map coded fs) = map coded (first_ten fs).
Proof.
  unfold bounded, first_ten, EM. rewrite map_length. destruct (len fs <=? 10); [reflexivity|].
  rewrite map_app, firstn_map. reflexivity.
Qed.

Lemma parse_reads posix prog ws es r acc fs :
  Forall c_string ws -> reads judger_names posix ws es r -> harmless es -> occurs [] es acc fs ->
  exists n, forall fuel, n <= fuel ->
    arg_parse fuel posix EM (prog :: ws) arg_table =
    Some (Val (table_of acc, map coded (first_ten (all_faults acc fs r)))).
Proof.
  intros C R H O. pose proof (reads_good _ _ _ _ R) as G.
  destruct (good_occurs es acc fs G H O) as [W E].
  rewrite <- los_options in R.
  destruct (reads_sim los posix EM los_fine ws es r R _ [] (table_of []) [] (start_Rg prog ws) (fun _ => eq_refl) C)
    as (g' & S & n & F).
  rewrite E in F. cbn [cbind] in F. cbn [app] in S. exists n. intros fuel L.
  unfold arg_parse. change (arg_reset arg_table) with (table_of []).
  unfold arg_parse_tagged. change (alloc_shortoptions (table_of [])) with (lit ":").
  change (alloc_longoptions 0 (table_of [])) with los.
  rewrite start_loop, F by exact L. rewrite (untagged acc fs g' r S). cbn [cbind].
  rewrite bounded_coded. unfold all_faults.
  destruct (fs ++ map Stray r) as [|f l] eqn:Ef.
  - cbn [first_ten map List.length Nat.leb]. rewrite check.
    destruct (taken (lit "exe_path") acc); reflexivity.
  - destruct (first_ten (f :: l)) as [|f' l'] eqn:Et; [|reflexivity].
    exfalso. unfold first_ten in Et. destruct (len (f :: l) <=? 10); [discriminate|].
    cbn [firstn] in Et. discriminate.
Qed.

(** ** The configuration *)
Lemma vals_of acc i e : nth_error arg_table i = Some e -> vals (table_of acc) i = map store (taken (e_name e) acc).
Proof. intros E. unfold vals. rewrite nth_put, E. reflexivity. Qed.

Definition typed (k : kind) (vs : list value) : Prop :=
  Forall (fun v => match k, v with Flag, VFlag => True | Number, VNumber z => is_int z | Text, VText _ => True | _, _ => False end) vs.

Lemma taken_In n v acc : In v (taken n acc) -> In (n, v) acc.
Proof.
  induction acc as [|[m x] acc IH]; [intros []|]. cbn. destruct (str_eqb m n) eqn:E.
  - apply str_eqb_eq in E. subst. intros [->|H]; [left; reflexivity|right; auto].
  - intros H. right. auto.
Qed.

Lemma taken_typed acc n k m : within_limits acc -> In (mkOpt n k m) judger_options -> typed k (taken n acc).
Proof.
  intros [_ W] I. apply Forall_forall. intros v Hv. destruct (W n v (taken_In _ _ _ Hv)) as (k' & m' & I' & T).
  destruct (option_unique _ _ _ _ _ I I') as [-> _]. exact T.
Qed.

Ltac in_options := cbn [judger_options In]; unfold opt_; repeat (first [left; reflexivity|right]).

Lemma int_option acc n m i e d : within_limits acc -> In (mkOpt (lit n) Number m) judger_options ->
  nth_error arg_table i = Some e -> e_name e = lit n ->
  int_field (table_of acc) i d = Val (number_of acc n d) /\
  (0 <? count (table_of acc) i) = match taken (lit n) acc with [] => false | _ => true end /\
  (taken (lit n) acc <> [] -> ival (table_of acc) i 0 = Val (number_of acc n d)).
Proof.
  intros W I E En. pose proof (taken_typed acc _ _ _ W I) as T.
  unfold int_field, count, ival. rewrite (vals_of acc i e E), En, map_length. unfold number_of.
  destruct (taken (lit n) acc) as [|v vs]; [split; [reflexivity|split; [reflexivity|congruence]]|]. pose proof (Forall_inv T) as Tv.
  destruct v as [|z|s]; try (destruct Tv; fail). cbn. auto.
Qed.

Lemma str_option acc n m i e d : within_limits acc -> In (mkOpt (lit n) Text m) judger_options ->
  nth_error arg_table i = Some e -> e_name e = lit n ->
  str_field (table_of acc) i d = Val (text_of acc n d).
Proof.
  intros W I E En. pose proof (taken_typed acc _ _ _ W I) as T.
  unfold str_field, count, sval. rewrite (vals_of acc i e E), En, map_length. unfold text_of.
  destruct (taken (lit n) acc) as [|v vs]; [auto|]. pose proof (Forall_inv T) as Tv.
  destruct v as [|z|s]; try (destruct Tv; fail). reflexivity.
Qed.

Lemma texts_store vs : typed Text vs -> map store vs = map VStr (texts vs) /\ len (texts vs) = len vs.
Proof.
  intros T. induction T as [|v vs Tv T [IH1 IH2]]; [auto|]. destruct v; try (destruct Tv; fail).
  cbn. rewrite IH1, IH2. auto.
Qed.

Lemma upd_mid {A} (x : list A) c y z : upd (len x) c (x ++ y :: z) = x ++ c :: z.
Proof. induction x as [|a x IH]; cbn; [reflexivity|]. f_equal. exact IH. Qed.

Lemma set_mid x c m : set_cell (len x) c (x ++ repeat Uninit (S m)) = Val (x ++ c :: repeat Uninit m).
Proof.
  unfold set_cell. rewrite app_length, repeat_length. rewrite (proj2 (Nat.ltb_lt (len x) _)) by lia.
  cbn [repeat]. rewrite upd_mid. reflexivity.
Qed.

Lemma fill_texts t e : forall ss pre x m, vals t e = map VStr (pre ++ ss) -> len ss <= m ->
  fill t e (len ss) (len x) (len pre) (x ++ repeat Uninit m) = Val (x ++ map Ptr ss ++ repeat Uninit (m - len ss)).
Proof.
  induction ss as [|s ss IH]; intros pre x m V L.
  - cbn. rewrite Nat.sub_0_r. reflexivity.
  - cbn [List.length fill]. unfold sval. rewrite V, map_app. cbn [map].
    replace (len pre) with (len (map VStr pre)) at 1 by apply map_length. rewrite nth_error_mid. cbn [cbind].
    destruct m as [|m]; [cbn in L; lia|]. cbn [List.length] in L. rewrite set_mid. cbn [cbind].
    specialize (IH (pre ++ [s]) (x ++ [Ptr s]) m).
    rewrite !app_length in IH. cbn [List.length] in IH. rewrite !Nat.add_1_r in IH.
    replace (x ++ Ptr s :: repeat Uninit m) with ((x ++ [Ptr s]) ++ repeat Uninit m) by (rewrite <- app_assoc; reflexivity).
    rewrite IH; [|rewrite V, <- app_assoc; reflexivity|lia].
    rewrite <- !app_assoc. reflexivity.
Qed.

Lemma set_full x c : set_cell (len x) c x = UB.
Proof. unfold set_cell. rewrite Nat.ltb_irrefl. reflexivity. Qed.

Lemma args_vector acc exe : within_limits acc ->
  cbind (set_cell 0 (Ptr exe) (repeat Uninit ARGS_MAX_NUMBER)) (fun a =>
  cbind (fill (table_of acc) I_args (count (table_of acc) I_args) 1 0 a) (fun a =>
  set_cell (1 + count (table_of acc) I_args) Null a)) =
  if len (taken (lit "args") acc) =? 255 then UB
  else Val (map Ptr (exe :: texts (taken (lit "args") acc)) ++ Null :: repeat Uninit (255 - len (exe :: texts (taken (lit "args") acc)))).
Proof.
  intros W. assert (In (mkOpt (lit "args") Text 255) judger_options) as I by in_options.
  pose proof (taken_typed acc _ _ _ W I) as T. pose proof (proj1 W _ _ _ I) as L.
  destruct (texts_store _ T) as [St Ln].
  assert (vals (table_of acc) I_args = map VStr (texts (taken (lit "args") acc))) as V.
  { rewrite (vals_of acc I_args (strn "args" 0 255) eq_refl). exact St. }
  unfold count. rewrite V, map_length. rewrite <- Ln in L |- *.
  set (ss := texts (taken (lit "args") acc)) in *. clearbody ss.
  assert (forall m, repeat Uninit (S m) = [] ++ repeat Uninit (S m)) as R0 by reflexivity.
  change ARGS_MAX_NUMBER with (S 255). rewrite R0.
  change (set_cell 0) with (set_cell (len (@nil cell))). rewrite set_mid. cbn [cbind app].
  pose proof (fill_texts (table_of acc) I_args ss [] [Ptr exe] 255 V L) as F. cbn [app List.length] in F.
  rewrite F. cbn [cbind].
  destruct (Nat.eqb_spec (len ss) 255) as [E|E].
  - rewrite E, Nat.sub_diag. cbn [repeat]. rewrite app_nil_r.
    replace (1 + 255) with (len (Ptr exe :: map Ptr ss)) by (cbn [List.length]; rewrite map_length; lia).
    apply set_full.
  - replace (255 - len ss) with (S (254 - len ss)) by lia.
    change (Ptr exe :: map Ptr ss ++ repeat Uninit (S (254 - len ss))) with ((Ptr exe :: map Ptr ss) ++ repeat Uninit (S (254 - len ss))).
    replace (1 + len ss) with (len (Ptr exe :: map Ptr ss)) by (cbn [List.length]; rewrite map_length; lia).
    rewrite set_mid. cbn [map List.length]. replace (255 - S (len ss)) with (254 - len ss) by lia. reflexivity.
Qed.

Lemma env_vector acc : within_limits acc ->
  cbind (fill (table_of acc) I_env (count (table_of acc) I_env) 0 0 (repeat Uninit ENV_MAX_NUMBER)) (fun a =>
  set_cell (count (table_of acc) I_env) Null a) =
  Val (map Ptr (texts (taken (lit "env") acc)) ++ Null :: repeat Uninit (255 - len (texts (taken (lit "env") acc)))).
Proof.
  intros W. assert (In (mkOpt (lit "env") Text 255) judger_options) as I by in_options.
  pose proof (taken_typed acc _ _ _ W I) as T. pose proof (proj1 W _ _ _ I) as L.
  destruct (texts_store _ T) as [St Ln].
  assert (vals (table_of acc) I_env = map VStr (texts (taken (lit "env") acc))) as V.
  { rewrite (vals_of acc I_env (strn "env" 0 255) eq_refl). exact St. }
  unfold count. rewrite V, map_length. rewrite <- Ln in L.
  set (ss := texts (taken (lit "env") acc)) in *. clearbody ss.
  assert (len ss <= 256) as L2 by lia.
  pose proof (fill_texts (table_of acc) I_env ss [] [] 256 V L2) as F. cbn [app List.length] in F.
  change ENV_MAX_NUMBER with 256. rewrite F. cbn [cbind].
  replace (256 - len ss) with (S (255 - len ss)) by lia.
  replace (len ss) with (len (map Ptr ss)) at 1 by apply map_length.
  rewrite set_mid. reflexivity.
Qed.

Lemma cbind_assoc {A B C} (m : cres A) (f : A -> cres B) (h : B -> cres C) :
  cbind (cbind m f) h = cbind m (fun x => cbind (f x) h).
Proof. destruct m; reflexivity. Qed.

Lemma int_mod z : is_int z -> cast_u32 z = (z mod 2 ^ 32)%Z.
Proof. reflexivity. Qed.

Lemma id_option acc n m i e d : within_limits acc -> In (mkOpt (lit n) Number m) judger_options ->
  nth_error arg_table i = Some e -> e_name e = lit n -> (d mod 2 ^ 32 = d)%Z ->
  (if 0 <? count (table_of acc) i then cbind (ival (table_of acc) i 0) (fun z => Val (cast_u32 z)) else Val d) =
  Val ((number_of acc n d) mod 2 ^ 32)%Z.
Proof.
  intros W I E En D. destruct (int_option acc n m i e d W I E En) as (_ & -> & V).
  destruct (taken (lit n) acc) as [|v vs] eqn:Tk.
  - unfold number_of. rewrite Tk, D. reflexivity.
  - rewrite V by discriminate. reflexivity.
Qed.

Theorem config_of acc : within_limits acc -> taken (lit "exe_path") acc <> [] ->
  if len (taken (lit "args") acc) =? 255 then make_config (table_of acc) = UB
  else exists c, make_config (table_of acc) = Val c /\ configured acc c.
Proof.
  intros W Ne. unfold make_config.
  rewrite (proj1 (int_option acc "max_cpu_time" 1 I_max_cpu_time _ UNLIMITED W ltac:(in_options) eq_refl eq_refl)).
  rewrite (proj1 (int_option acc "max_real_time" 1 I_max_real_time _ UNLIMITED W ltac:(in_options) eq_refl eq_refl)).
  rewrite (proj1 (int_option acc "max_memory" 1 I_max_memory _ UNLIMITED W ltac:(in_options) eq_refl eq_refl)).
  rewrite (proj1 (int_option acc "max_stack" 1 I_max_stack _ (16 * 1024 * 1024)%Z W ltac:(in_options) eq_refl eq_refl)).
  rewrite (proj1 (int_option acc "max_process_number" 1 I_max_process_number _ UNLIMITED W ltac:(in_options) eq_refl eq_refl)).
  rewrite (proj1 (int_option acc "max_output_size" 1 I_max_output_size _ UNLIMITED W ltac:(in_options) eq_refl eq_refl)).
  rewrite (str_option acc "input_path" 1 I_input_path _ _ W ltac:(in_options) eq_refl eq_refl).
  rewrite (str_option acc "output_path" 1 I_output_path _ _ W ltac:(in_options) eq_refl eq_refl).
  rewrite (str_option acc "error_path" 1 I_error_path _ _ W ltac:(in_options) eq_refl eq_refl).
  rewrite (str_option acc "log_path" 1 I_log_path _ _ W ltac:(in_options) eq_refl eq_refl).
  rewrite (str_option acc "seccomp_rule_name" 1 I_seccomp_rule_name _ _ W ltac:(in_options) eq_refl eq_refl).
  rewrite (id_option acc "uid" 1 I_uid _ 65534%Z W ltac:(in_options) eq_refl eq_refl eq_refl).
  rewrite (id_option acc "gid" 1 I_gid _ 65534%Z W ltac:(in_options) eq_refl eq_refl eq_refl).
  assert ((if 0 <? count (table_of acc) I_memory_limit_check_only
         then cbind (ival (table_of acc) I_memory_limit_check_only 0) (fun z => Val (if (z =? 0)%Z then 0%Z else 1%Z))
         else Val 0%Z) = Val (if (number_of acc "memory_limit_check_only" 0 =? 0)%Z then 0%Z else 1%Z)) as ->.
  { destruct (int_option acc "memory_limit_check_only" 1 I_memory_limit_check_only _ 0%Z W ltac:(in_options) eq_refl eq_refl) as (_ & -> & V).
    destruct (taken (lit "memory_limit_check_only") acc) as [|v vs] eqn:Tk.
    - unfold number_of. rewrite Tk. reflexivity.
    - rewrite V by discriminate. reflexivity. }
  cbn [cbind].
  assert (exists exe, sval (table_of acc) I_exe_path 0 = Val exe /\ Some exe = text_of acc "exe_path" None) as (exe & -> & Exe).
  { assert (In (mkOpt (lit "exe_path") Text 1) judger_options) as I by in_options.
    pose proof (taken_typed acc _ _ _ W I) as T. unfold sval. rewrite (vals_of acc I_exe_path (strn "exe_path" 1 1) eq_refl).
    change (e_name (strn "exe_path" 1 1)) with (lit "exe_path"). unfold text_of.
    destruct (taken (lit "exe_path") acc) as [|v vs]; [congruence|]. pose proof (Forall_inv T) as Tv.
    destruct v as [|z|s]; try (destruct Tv; fail). exists s. cbn. auto. }
  cbn [cbind].
  pose proof (args_vector acc exe W) as AV. pose proof (env_vector acc W) as EV.
  destruct (set_cell 0 (Ptr exe) (repeat Uninit ARGS_MAX_NUMBER)) as [a0|]; cbn [cbind] in *; [|destruct (len (taken (lit "args") acc) =? 255); [reflexivity|discriminate]].
  destruct (fill (table_of acc) I_args (count (table_of acc) I_args) 1 0 a0) as [a1|]; cbn [cbind] in *; [|destruct (len (taken (lit "args") acc) =? 255); [reflexivity|discriminate]].
  destruct (fill (table_of acc) I_env (count (table_of acc) I_env) 0 0 (repeat Uninit ENV_MAX_NUMBER)) as [v0|]; cbn [cbind] in *; [|discriminate].
  rewrite AV, EV. destruct (len (taken (lit "args") acc) =? 255); [reflexivity|]. cbn [cbind].
  eexists. split; [reflexivity|]. unfold configured, vector.
  cbn [max_cpu_time max_real_time max_memory max_stack max_process_number max_output_size memory_limit_check_only
       exe_path input_path output_path error_path args env log_path seccomp_rule_name uid gid].
  repeat (split; [first [reflexivity|exact Exe|idtac]|]); try reflexivity.
  unfold text_of. destruct (taken (lit "log_path") acc) as [|[] ?]; reflexivity.
Qed.

(** ** main *)
Definition has (n : string) (acc : accepted) : bool := match taken (lit n) acc with [] => false | _ => true end.

Definition acts (acc : accepted) (fs : list fault) (r : list str) (a : cres action) : Prop :=
  if has "help" acc then a = Val Usage
  else if has "version" acc then a = Val Version
  else match all_faults acc fs r with
       | [] => if len (taken (lit "args") acc) =? 255 then a = UB else exists c, a = Val (Run c) /\ configured acc c
       | l => a = Val (Errors (map coded (first_ten l)))
       end.

Lemma count_has acc n i e : nth_error arg_table i = Some e -> e_name e = lit n ->
  (0 <? count (table_of acc) i) = has n acc.
Proof.
  intros E En. unfold count, has. rewrite (vals_of acc i e E), En, map_length. destruct (taken (lit n) acc); reflexivity.
Qed.

Theorem main_reads posix prog ws es r acc fs :
  Forall c_string ws -> reads judger_names posix ws es r -> harmless es -> occurs [] es acc fs ->
  exists n a, (forall fuel, n <= fuel -> main_ fuel posix (prog :: ws) = Some a) /\ acts acc fs r a.
Proof.
  intros C R H O. destruct (parse_reads posix prog ws es r acc fs C R H O) as (n & P).
  destruct (good_occurs es acc fs (reads_good _ _ _ _ R) H O) as [W _].
  exists n. eexists. split.
  - intros fuel L. unfold main_. change end_max with EM. rewrite (P fuel L). cbn [cbind]. reflexivity.
  - unfold acts. rewrite (count_has acc "help" I_help _ eq_refl eq_refl), (count_has acc "version" I_version _ eq_refl eq_refl).
    destruct (has "help" acc); [reflexivity|]. destruct (has "version" acc); [reflexivity|].
    rewrite map_length. destruct (all_faults acc fs r) as [|f l] eqn:A.
    + cbn [first_ten List.length Nat.leb Nat.ltb].
      assert (taken (lit "exe_path") acc <> []) as Ne.
      { unfold all_faults in A. destruct (fs ++ map Stray r); [|discriminate].
        destruct (taken (lit "exe_path") acc); [discriminate|]. discriminate. }
      pose proof (config_of acc W Ne) as Cf. destruct (len (taken (lit "args") acc) =? 255).
      * rewrite Cf. reflexivity.
      * destruct Cf as (c & -> & Cf). exists c. auto.
    + assert ((0 <? len (first_ten (f :: l))) = true) as ->; [|reflexivity].
      unfold first_ten. destruct (len (f :: l) <=? 10); [reflexivity|]. cbn [firstn]. reflexivity.
Qed.

(** A command line on which parsing does not end. *)
Theorem main_stuck posix prog ws es : Forall c_string ws -> stuck_after judger_names posix ws es -> harmless es ->
  forall fuel, main_ fuel posix (prog :: ws) = None.
Proof.
  intros C S H fuel. pose proof (stuck_good _ _ _ S) as G.
  destruct (events_step es G [] [] H within_nil) as (acc & fs & _ & _ & E).
  rewrite <- los_options in S.
  pose proof (stuck_sim los posix EM los_fine ws es S _ [] (table_of []) [] (start_Rg prog ws) (fun _ => eq_refl) C) as X.
  change (bounded EM []) with (@nil perror) in E. rewrite E in X.
  unfold main_, arg_parse. change (arg_reset arg_table) with (table_of []). change end_max with EM.
  unfold arg_parse_tagged. change (alloc_shortoptions (table_of [])) with (lit ":").
  change (alloc_longoptions 0 (table_of [])) with los.
  rewrite start_loop, X. reflexivity.
Qed.

(** ** Termination and undefined behaviour *)
Lemma undefined_events posix ws es r : reads judger_names posix ws es r -> undefined es ->
  apply_events los EM es (table_of [], []) = UB.
Proof.
  intros R (es1 & n & v & w & es2 & acc & fs & m & -> & O & I & L & Nm).
  exact (events_undefined es1 n m v w es2 [] acc fs [] (reads_good _ _ _ _ R) within_nil O I L Nm).
Qed.

Lemma parse_ends posix prog ws es r : Forall c_string ws -> reads judger_names posix ws es r ->
  exists n a, forall fuel, n <= fuel -> main_ fuel posix (prog :: ws) = Some a.
Proof.
  intros C R. rewrite <- los_options in R.
  destruct (reads_sim los posix EM los_fine ws es r R _ [] (table_of []) [] (start_Rg prog ws) (fun _ => eq_refl) C)
    as (g' & S & n & F).
  unfold finishes in F. destruct (cbind (apply_events los EM es (table_of [], [])) (fun '(t, errs) => Val (mkP t errs g'))) as [x|];
  exists n; eexists; intros fuel L;
  unfold main_, arg_parse; change (arg_reset arg_table) with (table_of []); change end_max with EM;
  unfold arg_parse_tagged; change (alloc_shortoptions (table_of [])) with (lit ":");
  change (alloc_longoptions 0 (table_of [])) with los;
  rewrite start_loop, F by exact L; reflexivity.
Qed.

Theorem main_undefined posix prog ws es r : Forall c_string ws -> reads judger_names posix ws es r -> undefined es ->
  exists n, forall fuel, n <= fuel -> main_ fuel posix (prog :: ws) = Some UB.
Proof.
  intros C R U. pose proof (undefined_events _ _ _ _ R U) as E. rewrite <- los_options in R.
  destruct (reads_sim los posix EM los_fine ws es r R _ [] (table_of []) [] (start_Rg prog ws) (fun _ => eq_refl) C)
    as (g' & S & n & F).
  exists n. intros fuel L.
  unfold main_, arg_parse. change (arg_reset arg_table) with (table_of []). change end_max with EM.
  unfold arg_parse_tagged. change (alloc_shortoptions (table_of [])) with (lit ":").
  change (alloc_longoptions 0 (table_of [])) with los.
  rewrite start_loop, F by exact L. rewrite E. reflexivity.
Qed.

Theorem main_terminates posix prog ws : Forall c_string ws ->
  ((exists fuel a, main_ fuel posix (prog :: ws) = Some a) <->
   ~ exists es, stuck_after judger_names posix ws es /\ harmless es).
Proof.
  intros C. split.
  - intros (fuel & a & M) (es & S & H). rewrite (main_stuck posix prog ws es C S H) in M. discriminate.
  - intros N.
    assert ((exists es r, reads judger_names posix ws es r) \/ (exists es, stuck_after judger_names posix ws es)) as [(es & r & R)|(es & S)].
    { rewrite <- los_options. apply reads_total. exact los_fine. }
    + destruct (parse_ends posix prog ws es r C R) as (n & a & F). exists n, a. apply F. lia.
    + destruct (apply_events los EM es (table_of [], [])) as [x|] eqn:E.
      * exfalso. apply N. exists es. split; [exact S|].
        intros (es1 & n & v & w & es2 & acc & fs & m & -> & O & I & L & Nm).
        pose proof (events_undefined es1 n m v w es2 [] acc fs [] (stuck_good _ _ _ S) within_nil O I L Nm) as U.
        change (bounded EM []) with (@nil perror) in U. congruence.
      * rewrite <- los_options in S.
        pose proof (stuck_sim los posix EM los_fine ws es S _ [] (table_of []) [] (start_Rg prog ws) (fun _ => eq_refl) C) as X.
        rewrite E in X. destruct X as (n & F). exists n, UB.
        unfold main_, arg_parse. change (arg_reset arg_table) with (table_of []). change end_max with EM.
        unfold arg_parse_tagged. change (alloc_shortoptions (table_of [])) with (lit ":").
        change (alloc_longoptions 0 (table_of [])) with los.
        rewrite start_loop, F by lia. reflexivity.
Qed.
