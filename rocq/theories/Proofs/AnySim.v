(** The loop of arg_parse_tagged on any table follows [reads] and [gets_stuck]. *)
From Coq Require Import ZArith Bool List Ascii String Arith Lia.
From Verif.Base Require Import CInt CStr.
From Verif.Model Require Import Permute Getopt Argtable AnyTable.
From Verif.Spec Require Import CmdLine AnyLine AnySpec AnyTableSpec.
From Verif.Proofs Require Import PermuteProofs GetoptLong GetoptProofs ParseSim AnyLong AnyGetopt.
Import ListNotations.
Open Scope list_scope.
Open Scope nat_scope.

(** ** The table *)
Lemma split_join1 n ns : fine_name n -> Forall fine_name ns ->
  split_commas (n ++ flat_map (fun m => lit "," ++ m) ns) = n :: ns.
Proof.
  intros (Ne & Nc & _) F. revert n Ne Nc.
  induction F as [|m ms (Me & Mc & _) F IH]; intros n Ne Nc.
  - cbn [flat_map]. rewrite app_nil_r. unfold no_char in Nc. induction n as [|c n IHn]; [congruence|].
    cbn [split_commas]. assert (aeqb c "," = false) as -> by (apply aeqb_neq; intros ->; apply Nc; left; reflexivity).
    destruct n as [|c' n]; [reflexivity|].
    assert (aeqb c' "," = false) as -> by (apply aeqb_neq; intros ->; apply Nc; right; left; reflexivity).
    rewrite IHn; [reflexivity|discriminate|]. intros I. apply Nc. right. exact I.
  - cbn [flat_map]. change (lit "," ++ m) with (","%char :: m). cbn [app].
    unfold no_char in Nc. induction n as [|c n IHn]; [congruence|].
    cbn [app split_commas]. assert (aeqb c "," = false) as -> by (apply aeqb_neq; intros ->; apply Nc; left; reflexivity).
    destruct n as [|c' n].
    + cbn [app]. change (aeqb "," ",") with true. cbv iota. rewrite (IH m Me Mc). reflexivity.
    + cbn [app] in *. assert (aeqb c' "," = false) as -> by (apply aeqb_neq; intros ->; apply Nc; right; left; reflexivity).
      rewrite IHn; [reflexivity|discriminate|]. intros I. apply Nc. right. exact I.
Qed.

Lemma split_join ns : Forall fine_name ns -> split_commas (join_commas ns) = ns.
Proof. intros F. destruct F as [|n ns Fn F]; [reflexivity|]. apply split_join1; assumption. Qed.

Section Sim.
Variable St : Type.
Variable os : list opt.
Variable bs : list (behaviour St).
Variable em : nat.
Variable posix : bool.
Hypothesis FO : fine_options os.
Hypothesis LB : List.length bs = List.length os.
Let table := declared os bs.

Lemma declared_long : forall (os : list opt) (bs : list (behaviour St)) i, fine_options os -> List.length bs = List.length os ->
  any_longoptions St i (declared os bs) = los_of i os.
Proof.
  intros os0. induction os0 as [|o os0 IH]; intros [|b bs0] i F L; try discriminate; [reflexivity|].
  inversion F as [|? ? (Fl & Fn) F']; subst. cbn [declared any_longoptions los_of].
  rewrite (IH bs0) by (auto; cbn in L; lia). f_equal. cbn [declare h_long h_optvalue h_hasvalue].
  assert (match match o_names o with [] => None | ns => Some (join_commas ns) end with Some s => split_commas s | None => [] end = o_names o) as ->.
  { rewrite <- (split_join (o_names o) Fn) at 2. destruct (o_names o); reflexivity. }
  apply map_ext. intros n. destruct (o_takes o); reflexivity.
Qed.

Lemma declared_short : any_shortoptions St table = shorts_of os.
Proof.
  unfold any_shortoptions, shorts_of, table. f_equal. clear table FO. revert bs LB.
  induction os as [|o os0 IH]; intros [|b bs0] L; try discriminate; [reflexivity|].
  cbn [declared flat_map body_of]. rewrite IH by (cbn in L; lia). apply (f_equal (fun x => x ++ body_of os0)).
  cbn [declare h_short h_hasvalue h_optvalue].
  destruct (o_letters o) as [|x l]; [reflexivity|].
  apply flat_map_ext. intros c. destruct (o_takes o); reflexivity.
Qed.

Lemma nth_declared k : nth_error table k =
  match nth_error os k, nth_error bs k with Some o, Some b => Some (declare o b) | _, _ => None end.
Proof.
  unfold table. clear table FO LB. revert bs k. induction os as [|o os0 IH]; intros [|b bs0] [|k]; cbn [declared nth_error]; auto.
  destruct (nth_error os0 k); reflexivity.
Qed.

Lemma strchr_in s c : (exists r, strchr s c = Some r) <-> In c s.
Proof.
  induction s as [|x s IH]; cbn [strchr].
  - split; [intros (? & ?); discriminate|intros []].
  - destruct (aeqb x c) eqn:E.
    + apply aeqb_eq in E. subst. split; [left; reflexivity|eauto].
    + apply aeqb_neq in E. rewrite IH. cbn. intuition congruence.
Qed.

Lemma find_short c k : letter_means os c k -> any_shortoption St 0 table c = Some k.
Proof.
  intros ((o & E & Ic) & Mn).
  assert (forall (os : list opt) (bs : list (behaviour St)) i k o, List.length bs = List.length os -> nth_error os k = Some o -> In c (o_letters o) ->
    (forall j o', nth_error os j = Some o' -> In c (o_letters o') -> k <= j) ->
    any_shortoption St i (declared os bs) c = Some (i + k)) as G.
  { clear. induction os as [|q os0 IH]; intros [|b bs0] i k o L E Ic Mn; try discriminate; [destruct k; discriminate|].
    cbn [declared any_shortoption declare h_short].
    destruct k as [|k].
    - injection E as ->. rewrite Nat.add_0_r. destruct (o_letters o) as [|x l] eqn:El; [destruct Ic|].
      destruct (proj2 (strchr_in (x :: l) c) Ic) as (r & ->). reflexivity.
    - assert (~ In c (o_letters q)) as Nq by (intros H; specialize (Mn 0 q eq_refl H); lia).
      assert (any_shortoption St (S i) (declared os0 bs0) c = Some (i + S k)) as R.
      { rewrite (IH bs0 (S i) k o); auto; [f_equal; lia|]. intros j o' Ej Ij. specialize (Mn (S j) o' Ej Ij). lia. }
      destruct (o_letters q) as [|x l]; [exact R|].
      destruct (strchr (x :: l) c) eqn:Es; [|exact R]. exfalso. apply Nq. apply strchr_in. eauto. }
  unfold table. rewrite (G os bs 0 k o LB E Ic); [reflexivity|]. intros j o' Ej Ij. apply Mn. exists o'. auto.
Qed.

(** ** Events *)
Let loop fuel objs errs g := any_loop St table em fuel posix (shorts_of os) (los_of 0 os) (mkA objs errs g).
Let get := getopt_long posix (shorts_of os) (los_of 0 os).

Definition app_event (e : event) (st : list St * list perror) : cres (list St * list perror) :=
  let (objs, errs) := st in
  match e with
  | Long k v last =>
      match nth_error table k with
      | None => UB
      | Some h => any_scan St table em k v objs
                    (match v with
                     | Some [] => if h_hasvalue h then register_error em errs (mkErr None ARG_EMISSARG (Some last)) else errs
                     | _ => errs
                     end)
      end
  | Short k v => any_scan St table em k v objs errs
  | Unknown w => Val (objs, register_error em errs (mkErr None ARG_ELONGOPT (Some w)))
  | NoValue w => Val (objs, register_error em errs (mkErr None ARG_EMISSARG (Some w)))
  | NoLetter c => Val (objs, register_error em errs (mkErr None (schar c) None))
  end.

Fixpoint app_events (es : list event) (st : list St * list perror) : cres (list St * list perror) :=
  match es with
  | [] => Val st
  | e :: es => cbind (app_event e st) (app_events es)
  end.

Lemma app_events_app a b st : app_events (a ++ b) st = cbind (app_events a st) (app_events b).
Proof.
  revert st. induction a as [|e a IH]; intros st; [reflexivity|]. cbn [app app_events].
  destruct (app_event e st); cbn [cbind]; auto.
Qed.

Definition goes_on (fuel : nat) (g : gopt) (r : cres (list St * list perror)) : option (cres (astate St)) :=
  match r with UB => Some UB | Val (o, e) => loop fuel o e g end.

Lemma any_loop_step fuel objs errs g r g1 e :
  get g = Val (r, g1) -> (r_code r =? DONE)%Z = false ->
  any_step St table em r (mkA objs errs g1) = cbind (app_event e (objs, errs)) (fun '(o, e) => Val (mkA o e g1)) ->
  loop (S fuel) objs errs g = goes_on fuel g1 (app_event e (objs, errs)).
Proof.
  intros E D S. unfold loop. cbn [any_loop a_get a_objs a_errs]. unfold get in E. rewrite E, D, S.
  destruct (app_event e (objs, errs)) as [[o er]|]; reflexivity.
Qed.

Lemma any_loop_same fuel objs errs g g1 : get g = get g1 -> loop fuel objs errs g = loop fuel objs errs g1.
Proof. intros E. unfold loop. destruct fuel; [reflexivity|]. cbn [any_loop a_get a_objs a_errs]. unfold get in E. rewrite E. reflexivity. Qed.

Lemma any_loop_done fuel objs errs g g1 : get g = Val (mkRet DONE None 0 0, g1) ->
  loop (S fuel) objs errs g = Some (Val (mkA objs errs g1)).
Proof. intros E. unfold loop. cbn [any_loop a_get a_objs a_errs]. unfold get in E. rewrite E. reflexivity. Qed.

Lemma step_any_long e r g1 l objs errs :
  any_return e r -> any_last e l -> prev_word g1 = Val (Some l) ->
  (r_code r =? DONE)%Z = false /\
  any_step St table em r (mkA objs errs g1) = cbind (app_event e (objs, errs)) (fun '(o, e) => Val (mkA o e g1)).
Proof.
  intros LR EL PW. destruct e as [k v last|k v|w|w|c]; cbn [any_return any_last] in LR, EL; try (destruct LR; fail).
  - subst r l. split; [reflexivity|].
    unfold any_step. cbn [r_code r_flagval r_optarg a_objs a_errs a_get Z.eqb].
    unfold app_event. destruct (nth_error table k) as [h|]; [|reflexivity].
    destruct v as [[|c v]|]; cbn [cbind].
    + destruct (h_hasvalue h); [rewrite PW|]; cbn [cbind]; reflexivity.
    + reflexivity.
    + reflexivity.
  - subst. split; [reflexivity|]. unfold any_step. cbn [a_get]. rewrite PW. reflexivity.
  - subst. split; [reflexivity|]. unfold any_step. cbn [a_get]. rewrite PW. reflexivity.
Qed.

Lemma fine_code c : fine_letter c ->
  (schar c =? 0)%Z = false /\ (schar c =? BADCH)%Z = false /\ (schar c =? BADARG)%Z = false /\
  (schar c =? DONE)%Z = false /\ ascii_of_N (Z.to_N (schar c mod 256)) = c.
Proof.
  unfold fine_letter. destruct c as [[] [] [] [] [] [] [] []]; intros H;
    try (exfalso; apply H; cbn; tauto); vm_compute; repeat split; reflexivity.
Qed.

Lemma letter_fine c k : letter_means os c k -> fine_letter c.
Proof.
  intros ((o & E & Ic) & _). pose proof FO as F. unfold fine_options in F. rewrite Forall_forall in F.
  apply nth_error_In in E. destruct (F o E) as (Fl & _). rewrite Forall_forall in Fl. auto.
Qed.
Lemma letter_no_dash c k : letter_means os c k -> c <> "-"%char.
Proof. intros H. apply letter_fine in H. unfold fine_letter in H. intros ->. apply H. cbn. tauto. Qed.

Lemma step_any_short c k v z g1 objs errs : letter_means os c k ->
  (r_code (mkRet (schar c) v z 0) =? DONE)%Z = false /\
  any_step St table em (mkRet (schar c) v z 0) (mkA objs errs g1) =
  cbind (app_event (Short k v) (objs, errs)) (fun '(o, e) => Val (mkA o e g1)).
Proof.
  intros Lm. destruct (fine_code c (letter_fine c k Lm)) as (E0 & E1 & E2 & E3 & E4).
  split; [exact E3|]. unfold any_step. cbn [r_code r_optarg a_get a_objs a_errs]. rewrite E0, E1, E2, E4, (find_short c k Lm).
  reflexivity.
Qed.

Lemma step_any_badch c g1 objs errs : c <> "000"%char ->
  any_step St table em (mkRet BADCH None (schar c) 0) (mkA objs errs g1) =
  cbind (app_event (NoLetter c) (objs, errs)) (fun '(o, e) => Val (mkA o e g1)).
Proof.
  intros N. unfold any_step. cbn [r_code r_optopt]. change (BADCH =? 0)%Z with false. change (BADCH =? BADCH)%Z with true. cbv iota.
  assert ((schar c =? 0)%Z = false) as ->; [|reflexivity].
  apply Z.eqb_neq. intros H. apply N. apply schar_zero. exact H.
Qed.

Lemma step_any_badarg w z g1 objs errs : prev_word g1 = Val (Some w) ->
  any_step St table em (mkRet BADARG None z 0) (mkA objs errs g1) =
  cbind (app_event (NoValue w) (objs, errs)) (fun '(o, e) => Val (mkA o e g1)).
Proof.
  intros PW. unfold any_step. cbn [r_code a_get]. change (BADARG =? 0)%Z with false. change (BADARG =? BADCH)%Z with false.
  change (BADARG =? BADARG)%Z with true. cbv iota. rewrite PW. reflexivity.
Qed.

Lemma goes_on_more e es fuel g st :
  match app_event e st with UB => Some UB | Val (o, er) => goes_on fuel g (app_events es (o, er)) end =
  goes_on fuel g (app_events (e :: es) st).
Proof. cbn [app_events]. destruct (app_event e st) as [[o er]|]; reflexivity. Qed.

Definition word_runs (es : list event) (g g1 : gopt) : Prop :=
  forall fuel objs errs, loop (len es + fuel) objs errs g = goes_on fuel g1 (app_events es (objs, errs)).

Lemma runs_cons e es g r g1 g2 :
  get g = Val (r, g1) -> (r_code r =? DONE)%Z = false ->
  (forall objs errs, any_step St table em r (mkA objs errs g1) = cbind (app_event e (objs, errs)) (fun '(o, e) => Val (mkA o e g1))) ->
  word_runs es g1 g2 -> word_runs (e :: es) g g2.
Proof.
  intros E D S H fuel objs errs. cbn [List.length Nat.add]. rewrite (any_loop_step _ _ _ _ _ _ e E D (S objs errs)).
  rewrite <- goes_on_more. destruct (app_event e (objs, errs)) as [[o er]|]; [|reflexivity]. apply H.
Qed.
Lemma runs_nil g : word_runs [] g g.
Proof. intros fuel objs errs. reflexivity. Qed.

Lemma c_char c p : c_string (c :: p) -> c <> "000"%char /\ c_string p.
Proof. unfold c_string, no_char. cbn. intros H. split; [intros ->; tauto|tauto]. Qed.

Lemma inside_sim w p ws es ws' : inside os w p ws es ws' ->
  forall g non, p <> [] -> Mid g non w ws p -> len p < len w -> c_string p ->
  exists g1, Rg g1 non ws' /\ word_runs es g g1.
Proof.
  intros H. induction H as [ws|c p ws es ws' Nc Nm H IH|c p ws k es ws' Lm Ht H IH|c p ws k t Lm Ht Nt Np
                            |c v ws k Lm Ht|c k Lm Ht|c ws k Lm Ht|s ws e ws' Ns LO];
    intros g non Ne M L Cs.
  - congruence.
  - destruct (c_char _ _ Cs) as [N0 Cp]. destruct (short_unknown os posix FO g non w ws c p M Nc Nm) as (g1 & E & Hn).
    assert (exists g2, Rg g2 non ws' /\ word_runs es g1 g2) as (g2 & R2 & W2).
    { destruct p as [|x p].
      - inversion H; subst. exists g1. split; [apply Hn; reflexivity|apply runs_nil].
      - apply (IH g1 non); [discriminate|apply Hn; discriminate|cbn in *; lia|exact Cp]. }
    exists g2. split; [exact R2|]. apply (runs_cons _ _ _ _ _ _ E); auto. intros. apply step_any_badch. exact N0.
  - destruct (c_char _ _ Cs) as [N0 Cp]. pose proof (letter_no_dash c k Lm) as Nc.
    destruct (short_flag os posix FO g non w ws c p k M Nc Lm Ht) as (g1 & E & Hn).
    assert (exists g2, Rg g2 non ws' /\ word_runs es g1 g2) as (g2 & R2 & W2).
    { destruct p as [|x p].
      - inversion H; subst. exists g1. split; [apply Hn; reflexivity|apply runs_nil].
      - apply (IH g1 non); [discriminate|apply Hn; discriminate|cbn in *; lia|exact Cp]. }
    exists g2. split; [exact R2|]. apply (runs_cons _ _ _ _ _ _ E); auto.
    + apply (step_any_short c k None 0%Z g1 [] [] Lm).
    + intros. apply (step_any_short c k None 0%Z g1 objs errs Lm).
  - pose proof (letter_no_dash c k Lm) as Nc.
    destruct (short_value os posix FO g non w ws c p k t M Nc Lm Ht Nt Np) as (g1 & E & R1).
    exists g1. split; [exact R1|]. apply (runs_cons _ _ _ _ _ _ E); [| |apply runs_nil].
    + apply (step_any_short c k (Some p) 0%Z g1 [] [] Lm).
    + intros. apply (step_any_short c k (Some p) 0%Z g1 objs errs Lm).
  - pose proof (letter_no_dash c k Lm) as Nc.
    destruct (short_next os posix FO g non w v ws c k M Nc Lm Ht) as (g1 & E & R1).
    exists g1. split; [exact R1|]. apply (runs_cons _ _ _ _ _ _ E); [| |apply runs_nil].
    + apply (step_any_short c k (Some v) 0%Z g1 [] [] Lm).
    + intros. apply (step_any_short c k (Some v) 0%Z g1 objs errs Lm).
  - pose proof (letter_no_dash c k Lm) as Nc.
    destruct (short_missing os posix FO g non w c k M Nc Lm Ht) as (g1 & E & R1 & Pw).
    exists g1. split; [exact R1|]. apply (runs_cons _ _ _ _ _ _ E); [reflexivity| |apply runs_nil].
    intros. apply step_any_badarg. exact Pw.
  - pose proof (letter_no_dash c k Lm) as Nc.
    destruct (short_omitted os posix FO g non w ws c k M Nc Lm Ht) as (g1 & E & R1).
    exists g1. split; [exact R1|]. apply (runs_cons _ _ _ _ _ _ E); [| |apply runs_nil].
    + apply (step_any_short c k None 0%Z g1 [] [] Lm).
    + intros. apply (step_any_short c k None 0%Z g1 objs errs Lm).
  - destruct (any_long os posix g non w ws s M Ns) as (e' & ws2 & r & g1 & E & R1 & LO2 & LR & l & El & Pw).
    { cbn in L. lia. }
    destruct (any_long_unique os _ _ _ _ _ _ _ LO LO2) as [<- <-].
    exists g1. split; [exact R1|]. apply (runs_cons _ _ _ _ _ _ E); [| |apply runs_nil].
    + apply (step_any_long e r g1 l [] [] LR El Pw).
    + intros. apply (step_any_long e r g1 l objs errs LR El Pw).
Qed.

Lemma inside_words w p ws es ws' : inside os w p ws es ws' -> Forall c_string ws -> Forall c_string ws'.
Proof.
  intros H F. induction H as [| | | |c v ws k Lm Ht| | |s ws e ws' Ns LO]; auto.
  - inversion F; auto.
  - destruct LO; auto. inversion F; auto.
Qed.

Theorem any_reads_sim ws es r : reads os posix ws es r ->
  forall g non, Rg g non ws -> (posix = true -> non = []) -> Forall c_string ws ->
  exists g', skipn (g_optind g') (g_argv g') = non ++ r /\
  forall objs errs, exists n, forall fuel, n <= fuel ->
    loop fuel objs errs g = Some (cbind (app_events es (objs, errs)) (fun '(o, e) => Val (mkA o e g'))).
Proof.
  intros H. induction H as [|w ws es r Nw Px H IH|w ws Nw Px|ws|p ws es ws' es' r N1 N2 Hin H IH];
    intros g non R Pn F.
  - destruct (any_end os posix g non R) as (g' & E & S). exists g'. rewrite app_nil_r. split; [exact S|].
    intros objs errs. exists 1. intros [|fuel] L; [lia|]. apply (any_loop_done _ _ _ _ _ E).
  - destruct (any_skip os posix g non w ws Px R Nw) as (g1 & R1 & E).
    destruct (IH g1 (non ++ [w]) R1) as (g' & S & Fi).
    { rewrite Px. discriminate. }
    { inversion F; auto. }
    exists g'. split; [rewrite S, <- app_assoc; reflexivity|]. intros objs errs. destruct (Fi objs errs) as (n & Fn).
    exists n. intros fuel L. rewrite (any_loop_same _ _ _ _ _ E). auto.
  - rewrite (Pn Px) in *. destruct (any_stop os posix g w ws Px R Nw) as (g' & E & S). exists g'. split; [exact S|].
    intros objs errs. exists 1. intros [|fuel] L; [lia|]. apply (any_loop_done _ _ _ _ _ E).
  - destruct (any_dashes os posix g non ws R) as (g' & E & S). exists g'. split; [exact S|].
    intros objs errs. exists 1. intros [|fuel] L; [lia|]. apply (any_loop_done _ _ _ _ _ E).
  - inversion F as [|? ? Cw Cws]; subst.
    destruct (any_word os posix g non p ws R N1 N2) as (g0 & M & E0).
    destruct (c_char _ _ Cw) as [_ Cp].
    destruct (inside_sim _ _ _ _ _ Hin g0 non N1 M ltac:(cbn; lia) Cp) as (g1 & R1 & W1).
    destruct (IH g1 non R1 Pn (inside_words _ _ _ _ _ Hin Cws)) as (g' & S & Fi).
    exists g'. split; [exact S|]. intros objs errs. rewrite app_events_app.
    destruct (app_events es (objs, errs)) as [[o er]|] eqn:Ev.
    + cbn [cbind]. destruct (Fi o er) as (n & Fn). exists (len es + n). intros fuel L.
      replace fuel with (len es + (fuel - len es)) by lia.
      rewrite (any_loop_same _ _ _ _ _ E0), W1, Ev. cbn [goes_on]. apply Fn. lia.
    + cbn [cbind]. exists (len es). intros fuel L. replace fuel with (len es + (fuel - len es)) by lia.
      rewrite (any_loop_same _ _ _ _ _ E0), W1, Ev. reflexivity.
Qed.

(** ** The word that is never left *)
Lemma prev_exists g non w ws p : Mid g non w ws p -> exists x,
  prev_word (mkG (g_argv g) (g_optind g) [] (g_nstart g) (g_nend g) false) = Val (Some x).
Proof.
  intros (_ & Z & _ & done & opts & Ea & Eo & _). unfold prev_word. cbn [g_optind g_argv].
  destruct (g_optind g) as [|i]; [congruence|]. unfold argv_at.
  destruct (nth_error (g_argv g) i) eqn:Ei; [eauto|]. exfalso.
  apply nth_error_None in Ei. rewrite Ea, !app_length in Ei. cbn in Ei. lia.
Qed.

Lemma dash_nonempty p : ends_in_dash os p -> p <> [].
Proof. intros H. destruct H; discriminate. Qed.

Lemma dash_forever non ws p0 : ends_in_dash os p0 -> p0 <> lit "-" -> c_string p0 ->
  forall fuel p g objs errs r, ends_in_dash os p -> c_string p -> Mid g non ("-"%char :: p0) ws p ->
  loop fuel objs errs g <> Some (Val r).
Proof.
  intros H0 N0 C0. assert (p0 <> []) as Ne0 by (apply dash_nonempty; exact H0).
  induction fuel as [|fuel IH]; intros p g objs errs r H C M; [discriminate|].
  destruct H as [|c p Nc Nm H|c p k Lm Ht H].
  - assert (get g = Val (mkRet BADARG None 0 0, mkG (g_argv g) (g_optind g) [] (g_nstart g) (g_nend g) false)) as E.
    { apply (any_dash os posix g non _ ws M). destruct p0; [congruence|discriminate]. }
    destruct (prev_exists _ _ _ _ _ M) as (x & Pw).
    rewrite (any_loop_step _ _ _ _ _ _ (NoValue x) E eq_refl); [|apply step_any_badarg; exact Pw].
    cbn [app_event goes_on].
    destruct (any_again os posix g non ws p0 _ Ne0 N0 M) as (g1 & M1 & Eg).
    rewrite (any_loop_same _ _ _ _ _ Eg). apply (IH p0 g1); assumption.
  - destruct (c_char _ _ C) as [Nz Cp]. destruct (short_unknown os posix FO g non _ ws c p M Nc Nm) as (g1 & E & Hn).
    rewrite (any_loop_step _ _ _ _ _ _ (NoLetter c) E eq_refl); [|apply step_any_badch; exact Nz].
    cbn [app_event goes_on]. apply (IH p g1); auto. apply Hn. apply dash_nonempty. exact H.
  - destruct (c_char _ _ C) as [Nz Cp]. pose proof (letter_no_dash c k Lm) as Nc.
    destruct (short_flag os posix FO g non _ ws c p k M Nc Lm Ht) as (g1 & E & Hn).
    rewrite (any_loop_step _ _ _ _ _ _ (Short k None) E).
    2,3: apply (step_any_short c k None 0%Z g1 objs errs Lm).
    destruct (app_event (Short k None) (objs, errs)) as [[o er]|]; cbn [goes_on]; [|discriminate].
    apply (IH p g1); auto. apply Hn. apply dash_nonempty. exact H.
Qed.

Lemma never_more es g g1 : word_runs es g g1 ->
  (forall fuel objs errs r, loop fuel objs errs g1 <> Some (Val r)) ->
  forall fuel objs errs r, loop fuel objs errs g <> Some (Val r).
Proof.
  intros W N fuel objs errs r E.
  assert (loop (len es + fuel) objs errs g = Some (Val r)) as E2.
  { clear - E. unfold loop in *. revert E. generalize (mkA objs errs g) as p. revert fuel.
    assert (forall n fuel p, any_loop St table em fuel posix (shorts_of os) (los_of 0 os) p = Some (Val r) ->
      any_loop St table em (n + fuel) posix (shorts_of os) (los_of 0 os) p = Some (Val r)) as G.
    { intros n. induction fuel as [|fuel IH]; intros p E; [discriminate|]. rewrite Nat.add_succ_r. cbn [any_loop] in *.
      destruct (getopt_long posix (shorts_of os) (los_of 0 os) (a_get p)) as [[q gq]|]; [|discriminate].
      destruct (r_code q =? DONE)%Z; [exact E|]. destruct (any_step St table em q _) as [p1|]; [|discriminate]. apply IH. exact E. }
    intros fuel p E. apply G. exact E. }
  rewrite W in E2. unfold goes_on in E2. destruct (app_events es (objs, errs)) as [[o er]|]; [|discriminate].
  exact (N _ _ _ _ E2).
Qed.

Theorem any_stuck_sim ws : gets_stuck os posix ws ->
  forall g non, Rg g non ws -> (posix = true -> non = []) -> Forall c_string ws ->
  forall fuel objs errs r, loop fuel objs errs g <> Some (Val r).
Proof.
  intros H. induction H as [p ws Np H|w ws Nw Px H IH|p ws es ws' N1 N2 Hin H IH]; intros g non R Pn F fuel objs errs r.
  - inversion F as [|? ? Cw _]; subst. destruct (c_char _ _ Cw) as [_ Cp].
    destruct (any_word os posix g non p ws R (dash_nonempty p H) Np) as (g0 & M & E0).
    rewrite (any_loop_same _ _ _ _ _ E0). apply (dash_forever non ws p H Np Cp fuel p g0); assumption.
  - destruct (any_skip os posix g non w ws Px R Nw) as (g1 & R1 & E). rewrite (any_loop_same _ _ _ _ _ E).
    apply (IH g1 (non ++ [w]) R1); [rewrite Px; discriminate|inversion F; auto].
  - inversion F as [|? ? Cw Cws]; subst. destruct (c_char _ _ Cw) as [_ Cp].
    destruct (any_word os posix g non p ws R N1 N2) as (g0 & M & E0).
    destruct (inside_sim _ _ _ _ _ Hin g0 non N1 M ltac:(cbn; lia) Cp) as (g1 & R1 & W1).
    rewrite (any_loop_same _ _ _ _ _ E0). revert fuel objs errs r. apply (never_more es g0 g1 W1).
    apply (IH g1 non R1 Pn). apply (inside_words _ _ _ _ _ Hin Cws).
Qed.
End Sim.
