(** The loop of arg_parse_tagged follows [reads] and [stuck_after]. *)
From Coq Require Import ZArith Bool List Ascii String Arith Lia.
From Verif.Base Require Import CInt CStr.
From Verif.Model Require Import ArgInt Permute Getopt Argtable.
From Verif.Spec Require Import CmdLine.
From Verif.Proofs Require Import PermuteProofs GetoptLong GetoptProofs.
Import ListNotations.
Open Scope list_scope.
Open Scope nat_scope.

Lemma schar_zero c : schar c = 0%Z -> c = "000"%char.
Proof. destruct c as [[] [] [] [] [] [] [] []]; vm_compute; intros H; try discriminate; reflexivity. Qed.

Lemma str_eqb_refl s : str_eqb s s = true.
Proof. apply str_eqb_eq. reflexivity. Qed.

Section Sim.
Variable los : list lopt.
Variable posix : bool.
Variable em : nat.
Hypothesis OK : los_ok los.
Let os := options_of los.
Let get := getopt_long posix (lit ":") los.
Let loop fuel t errs g := tagged_loop fuel posix (lit ":") los em (mkP t errs g).

(** What one event does to the table and the errors. *)
Definition apply_event (e : event) (st : list entry * list perror) : cres (list entry * list perror) :=
  let (t, errs) := st in
  match e with
  | Given n v last =>
      match find (fun o => str_eqb (lo_name o) n) los with
      | None => UB
      | Some o =>
          match nth_error t (lo_val o) with
          | None => UB
          | Some en =>
              scan_entry em (lo_val o) v t
                (match v with
                 | Some [] => if has_value en
                              then register_error em errs (mkErr None ARG_EMISSARG (Some last)) else errs
                 | _ => errs
                 end)
          end
      end
  | Unknown w => Val (t, register_error em errs (mkErr None ARG_ELONGOPT (Some w)))
  | NoValue w => Val (t, register_error em errs (mkErr None ARG_EMISSARG (Some w)))
  | Letter c => Val (t, register_error em errs (mkErr None (schar c) None))
  end.

Fixpoint apply_events (es : list event) (st : list entry * list perror) : cres (list entry * list perror) :=
  match es with
  | [] => Val st
  | e :: es => cbind (apply_event e st) (apply_events es)
  end.

Lemma apply_events_app a b st : apply_events (a ++ b) st = cbind (apply_events a st) (apply_events b).
Proof.
  revert st. induction a as [|e a IH]; intros st; [reflexivity|]. cbn [app apply_events].
  destruct (apply_event e st); cbn [cbind]; auto.
Qed.

Lemma find_name o : In o los -> find (fun x => str_eqb (lo_name x) (lo_name o)) los = Some o.
Proof.
  destruct OK as (ND & _). revert ND. clear. induction los as [|x l IH]; intros ND I; [destruct I|].
  cbn [map] in ND. inversion ND as [|? ? N1 N2]; subst. cbn [find]. destruct I as [->|I].
  - rewrite str_eqb_refl. reflexivity.
  - assert (str_eqb (lo_name x) (lo_name o) = false) as ->; [|auto].
    destruct (str_eqb (lo_name x) (lo_name o)) eqn:E; [|reflexivity]. apply str_eqb_eq in E.
    exfalso. apply N1. rewrite E. apply in_map. exact I.
Qed.

Lemma step_long e r g1 l t errs :
  long_return los e r -> event_last e l -> prev_word g1 = Val (Some l) ->
  (r_code r =? DONE)%Z = false /\
  tagged_step em r (mkP t errs g1) = cbind (apply_event e (t, errs)) (fun '(t, errs) => Val (mkP t errs g1)).
Proof.
  intros LR EL PW. destruct e as [n v last|w|w|c]; cbn [long_return event_last] in LR, EL; [| | |destruct LR].
  - destruct LR as (o & I & En & -> & Hv). subst l n. split; [reflexivity|].
    unfold tagged_step. cbn [r_code r_flagval r_optarg p_table p_errs p_get Z.eqb].
    unfold apply_event. rewrite (find_name o I).
    destruct (nth_error t (lo_val o)) as [en|] eqn:Nt; [|reflexivity].
    destruct v as [[|c v]|]; cbn [cbind].
    + destruct (has_value en); [rewrite PW|]; cbn [cbind];
        destruct (scan_entry em (lo_val o) _ t _) as [[]|]; reflexivity.
    + destruct (scan_entry em (lo_val o) _ t _) as [[]|]; reflexivity.
    + destruct (scan_entry em (lo_val o) _ t _) as [[]|]; reflexivity.
  - subst. split; [reflexivity|]. unfold tagged_step. cbn [p_get]. rewrite PW. reflexivity.
  - subst. split; [reflexivity|]. unfold tagged_step. cbn [p_get]. rewrite PW. reflexivity.
Qed.

Lemma loop_step fuel t errs g r g1 : get g = Val (r, g1) -> (r_code r =? DONE)%Z = false ->
  loop (S fuel) t errs g =
  match tagged_step em r (mkP t errs g1) with
  | UB => Some UB
  | Val p => tagged_loop fuel posix (lit ":") los em p
  end.
Proof. intros E D. unfold loop. cbn [tagged_loop p_get p_table p_errs]. unfold get in E. rewrite E, D. reflexivity. Qed.

Lemma loop_same fuel t errs g g1 : get g = get g1 -> loop fuel t errs g = loop fuel t errs g1.
Proof. intros E. unfold loop. destruct fuel; [reflexivity|]. cbn [tagged_loop p_get p_table p_errs]. unfold get in E. rewrite E. reflexivity. Qed.

Lemma loop_done fuel t errs g g1 : get g = Val (mkRet DONE None 0 0, g1) ->
  loop (S fuel) t errs g = Some (Val (mkP t errs g1)).
Proof. intros E. unfold loop. cbn [tagged_loop p_get p_table p_errs]. unfold get in E. rewrite E. reflexivity. Qed.

Definition letter_errs (ls : str) (errs : list perror) : list perror :=
  fold_left (fun errs c => register_error em errs (mkErr None (schar c) None)) ls errs.

Lemma apply_letters ls t errs : apply_events (map Letter ls) (t, errs) = Val (t, letter_errs ls errs).
Proof. revert errs. induction ls as [|c ls IH]; intros errs; [reflexivity|]. cbn [map apply_events apply_event cbind letter_errs fold_left]. apply IH. Qed.

Lemma letter_step g non w ws c p fuel t errs : Mid g non w ws (c :: p) -> c <> "-"%char -> c <> "000"%char ->
  exists g1, (p = [] -> Rg g1 non ws) /\ (p <> [] -> Mid g1 non w ws p) /\
  loop (S fuel) t errs g = loop fuel t (register_error em errs (mkErr None (schar c) None)) g1.
Proof.
  intros M N1 N0. destruct (get_letter los posix g non w ws c p M N1) as (g1 & E & R1 & R2).
  exists g1. split; [exact R1|]. split; [exact R2|]. rewrite (loop_step _ _ _ _ _ _ E eq_refl).
  unfold tagged_step. cbn [r_code r_optopt]. change (BADCH =? 0)%Z with false. change (BADCH =? BADCH)%Z with true. cbv iota.
  assert ((schar c =? 0)%Z = false) as ->; [|reflexivity].
  apply Z.eqb_neq. intros H. apply N0. apply schar_zero. exact H.
Qed.

Lemma letters_sim : forall ls g non w ws p' t errs,
  Mid g non w ws (ls ++ p') -> no_char "-"%char ls -> c_string ls -> ls ++ p' <> [] ->
  exists g1, (p' = [] -> Rg g1 non ws) /\ (p' <> [] -> Mid g1 non w ws p') /\
  forall fuel, loop (len ls + fuel) t errs g = loop fuel t (letter_errs ls errs) g1.
Proof.
  unfold no_char, c_string. induction ls as [|c ls IH]; intros g non w ws p' t errs M Nd Nz Ne.
  - exists g. cbn [app] in *. split; [intros ->; congruence|]. split; [auto|]. reflexivity.
  - cbn [app] in M. cbn [List.length Nat.add].
    assert (c <> "-"%char) as C1 by (intros ->; apply Nd; left; reflexivity).
    assert (c <> "000"%char) as C2 by (intros ->; apply Nz; left; reflexivity).
    destruct (get_letter los posix g non w ws c (ls ++ p') M C1) as (g1 & E & R1 & R2).
    assert (forall fuel, loop (S fuel) t errs g = loop fuel t (register_error em errs (mkErr None (schar c) None)) g1) as St.
    { intros fuel. rewrite (loop_step _ _ _ _ _ _ E eq_refl).
      unfold tagged_step. cbn [r_code r_optopt]. change (BADCH =? 0)%Z with false. change (BADCH =? BADCH)%Z with true. cbv iota.
      assert ((schar c =? 0)%Z = false) as ->; [|reflexivity].
      apply Z.eqb_neq. intros H. apply C2. apply schar_zero. exact H. }
    destruct (ls ++ p') as [|x y] eqn:El.
    + destruct ls; [|discriminate]. destruct p'; [|discriminate]. exists g1.
      split; [intros _; apply R1; reflexivity|]. split; [congruence|]. intros fuel. apply St.
    + rewrite <- El in R2. destruct (IH g1 non w ws p' t (register_error em errs (mkErr None (schar c) None))) as (g2 & A & B & C).
      * apply R2. rewrite El. discriminate.
      * intros H. apply Nd. right. exact H.
      * intros H. apply Nz. right. exact H.
      * rewrite El. discriminate.
      * exists g2. split; [exact A|]. split; [exact B|]. intros fuel. rewrite St. apply C.
Qed.

Lemma c_string_tail c w : c_string (c :: w) -> c_string w.
Proof. unfold c_string, no_char. cbn. tauto. Qed.
Lemma c_string_app a b : c_string (a ++ b) -> c_string a /\ c_string b.
Proof. unfold c_string, no_char. rewrite in_app_iff. tauto. Qed.

Definition finishes (t : list entry) (errs : list perror) (g : gopt) (out : cres pstate) : Prop :=
  exists n, forall fuel, n <= fuel -> loop fuel t errs g = Some out.

Lemma long_words w s ws e ws' : long_option os w s ws e ws' -> Forall c_string ws -> Forall c_string ws'.
Proof. intros H F. destruct H; auto. inversion F; auto. Qed.

(** A word with a long option: its letters, then the event. *)
Lemma long_sim g non ls s ws e ws' t errs :
  Rg g non ((lit "-" ++ ls ++ lit "-" ++ s) :: ws) -> no_char "-"%char ls -> s <> [] ->
  c_string (lit "-" ++ ls ++ lit "-" ++ s) ->
  long_option os (lit "-" ++ ls ++ lit "-" ++ s) s ws e ws' ->
  exists g1, Rg g1 non ws' /\
  forall fuel, loop (len ls + S fuel) t errs g =
    match apply_events (map Letter ls ++ [e]) (t, errs) with
    | UB => Some UB
    | Val (t', errs') => loop fuel t' errs' g1
    end.
Proof.
  intros H Nd Ns Cs LO. change (lit "-" ++ ls ++ lit "-" ++ s) with ("-"%char :: (ls ++ "-"%char :: s)) in *.
  destruct (get_word los posix g non (ls ++ "-"%char :: s) ws H) as (g0 & M & E0).
  { destruct ls; discriminate. }
  { destruct ls as [|c ls]; [intros E; injection E as ->; congruence|]. intros E. injection E as -> E. destruct ls; discriminate. }
  apply c_string_tail, c_string_app in Cs. destruct Cs as [Cl _].
  destruct (letters_sim ls g0 non _ ws ("-"%char :: s) t errs M Nd Cl) as (g1 & _ & M1 & Lp).
  { destruct ls; discriminate. }
  specialize (M1 ltac:(discriminate)).
  destruct (get_long los posix OK g1 non _ ws s M1 Ns) as (e' & ws2 & r & g2 & E2 & R2 & LO2 & LR & l & EL & PW).
  { cbn [List.length]. rewrite app_length. cbn [List.length]. lia. }
  destruct (long_option_unique los _ _ _ _ _ _ _ OK LO LO2) as [<- <-].
  exists g2. split; [exact R2|]. intros fuel.
  rewrite (loop_same _ _ _ _ _ E0), Lp.
  rewrite apply_events_app, apply_letters. cbn [cbind apply_events].
  destruct (step_long e r g2 l t (letter_errs ls errs) LR EL PW) as [D St].
  rewrite (loop_step _ _ _ _ _ _ E2 D), St.
  destruct (apply_event e (t, letter_errs ls errs)) as [[t' errs']|]; reflexivity.
Qed.

Lemma letters_word_sim g non ls ws t errs :
  Rg g non ((lit "-" ++ ls) :: ws) -> ls <> [] -> no_char "-"%char ls -> c_string (lit "-" ++ ls) ->
  exists g1, Rg g1 non ws /\
  forall fuel, loop (len ls + fuel) t errs g = loop fuel t (letter_errs ls errs) g1.
Proof.
  intros H Ne Nd Cs. change (lit "-" ++ ls) with ("-"%char :: ls) in *.
  destruct (get_word los posix g non ls ws H Ne) as (g0 & M & E0).
  { intros ->. apply Nd. left. reflexivity. }
  apply c_string_tail in Cs.
  destruct (letters_sim ls g0 non ("-"%char :: ls) ws [] t errs) as (g1 & R1 & _ & Lp); auto.
  { rewrite app_nil_r. exact M. }
  { rewrite app_nil_r. exact Ne. }
  exists g1. split; [apply R1; reflexivity|]. intros fuel. rewrite (loop_same _ _ _ _ _ E0). apply Lp.
Qed.

Theorem reads_sim ws es r : reads os posix ws es r ->
  forall g non t errs, Rg g non ws -> (posix = true -> non = []) -> Forall c_string ws ->
  exists g', skipn (g_optind g') (g_argv g') = non ++ r /\
  finishes t errs g (cbind (apply_events es (t, errs)) (fun '(t, errs) => Val (mkP t errs g'))).
Proof.
  intros H. induction H as [|w ws es r Nw Px H IH|w ws Nw Px|ws|ls ws es r Ne Nd H IH|ls s ws e ws' es r Nd Ns LO H IH];
    intros g non t errs R Pn F.
  - destruct (get_end los posix g non R) as (g' & E & S). exists g'. rewrite app_nil_r. split; [exact S|].
    exists 1. intros [|fuel] L; [lia|]. apply (loop_done _ _ _ _ _ E).
  - destruct (get_skip los posix g non w ws Px R Nw) as (g1 & R1 & E).
    destruct (IH g1 (non ++ [w]) t errs R1) as (g' & S & n & Fi).
    { rewrite Px. discriminate. }
    { inversion F; auto. }
    exists g'. split; [rewrite S, <- app_assoc; reflexivity|]. exists n. intros fuel L. rewrite (loop_same _ _ _ _ _ E). auto.
  - rewrite (Pn Px) in *. destruct (get_stop los posix g w ws Px R Nw) as (g' & E & S). exists g'. split; [exact S|].
    exists 1. intros [|fuel] L; [lia|]. apply (loop_done _ _ _ _ _ E).
  - destruct (get_dashes los posix g non ws R) as (g' & E & S). exists g'. split; [exact S|].
    exists 1. intros [|fuel] L; [lia|]. apply (loop_done _ _ _ _ _ E).
  - inversion F as [|? ? Cw Cws]; subst.
    destruct (letters_word_sim g non ls ws t errs R Ne Nd Cw) as (g1 & R1 & Lp).
    destruct (IH g1 non t (letter_errs ls errs) R1 Pn Cws) as (g' & S & n & Fi).
    exists g'. split; [exact S|]. exists (len ls + n). intros fuel L.
    replace fuel with (len ls + (fuel - len ls)) by lia. rewrite Lp, Fi by lia.
    rewrite apply_events_app, apply_letters. reflexivity.
  - inversion F as [|? ? Cw Cws]; subst.
    destruct (long_sim g non ls s ws e ws' t errs R Nd Ns Cw LO) as (g1 & R1 & Lp).
    replace (map Letter ls ++ e :: es) with ((map Letter ls ++ [e]) ++ es) by (rewrite <- app_assoc; reflexivity).
    rewrite apply_events_app. destruct (apply_events (map Letter ls ++ [e]) (t, errs)) as [[t' errs']|] eqn:Ev. all: swap 1 2.
    + destruct (IH g1 non t errs R1 Pn (long_words _ _ _ _ _ LO Cws)) as (g' & S & _).
      exists g'. split; [exact S|]. exists (len ls + 1). intros fuel L.
      replace fuel with (len ls + Datatypes.S (fuel - len ls - 1)) by lia. rewrite Lp. reflexivity.
    + destruct (IH g1 non t' errs' R1 Pn (long_words _ _ _ _ _ LO Cws)) as (g' & S & n & Fi).
      exists g'. split; [exact S|]. exists (len ls + Datatypes.S n). intros fuel L.
      replace fuel with (len ls + Datatypes.S (fuel - len ls - 1)) by lia. rewrite Lp, Fi by lia. reflexivity.
Qed.

(** ** The word that is never left *)
Definition rewound (g : gopt) : gopt := mkG (g_argv g) (g_optind g) [] (g_nstart g) (g_nend g) false.

Lemma get_again g non ls ws p : ls <> [] -> no_char "-"%char ls ->
  Mid g non ("-"%char :: ls ++ lit "-") ws p ->
  exists g1, Mid g1 non ("-"%char :: ls ++ lit "-") ws (ls ++ lit "-") /\ get (rewound g) = get g1.
Proof.
  intros Nl Nd M. pose proof (move _ _ _ _ _ (ls ++ lit "-") M) as M1.
  exists (mkG (g_argv g) (g_optind g) (ls ++ lit "-") (g_nstart g) (g_nend g) false). split; [exact M1|].
  unfold get. rewrite (get_Mid los posix _ _ _ _ _ M1) by (destruct ls; discriminate).
  pose proof (Mid_nth _ _ _ _ _ M) as Nth. pose proof M as (_ & Z & _ & done & opts & Ea & Eo & W).
  unfold getopt_long, rewound. cbn [g_optind g_reset g_argv g_place g_nstart g_nend].
  rewrite (proj2 (Nat.eqb_neq _ _) Z).
  assert (forall f b, find_option f b (mkG (g_argv g) (g_optind g) [] (g_nstart g) (g_nend g) false) =
    Val (inr (mkG (g_argv g) (g_optind g) (ls ++ lit "-") (g_nstart g) (g_nend g) false))) as ->.
  { intros f b. destruct ls as [|c ls]; [congruence|].
    assert (aeqb c "-"%char = false) as Ec by (apply aeqb_neq; intros ->; apply Nd; left; reflexivity).
    assert (match g_nstart g, g_nend g with Some _, None => Some (g_optind g) | _, ne => ne end = g_nend g) as En.
    { destruct W as [(_ & _ & -> & ->)|(_ & -> & ->)]; reflexivity. }
    cbn [app] in *. destruct f; cbn [find_option g_optind g_reset g_argv g_place g_nstart g_nend];
      rewrite Nth; cbn [negb andb]; change (aeqb "-" "-") with true; cbv iota; rewrite Ec, En; reflexivity. }
  reflexivity.
Qed.

Lemma stuck_forever ls ws non : ls <> [] -> no_char "-"%char ls -> c_string ls ->
  forall fuel g ls' t errs, (exists a, ls = a ++ ls') -> Mid g non ("-"%char :: ls ++ lit "-") ws (ls' ++ lit "-") ->
  loop fuel t errs g = None.
Proof.
  intros Nl Nd Cs. induction fuel as [|fuel IH]; intros g ls' t errs Sf M; [reflexivity|].
  destruct ls' as [|c ls'].
  - cbn [app] in M.
    assert (get g = Val (mkRet BADARG None 0 0, rewound g)) as E.
    { apply (get_dash los posix g non _ ws M). cbn [List.length]. rewrite app_length. cbn. lia. }
    rewrite (loop_step _ _ _ _ _ _ E eq_refl). unfold tagged_step. cbn [r_code p_get].
    change (BADARG =? 0)%Z with false. change (BADARG =? BADCH)%Z with false. change (BADARG =? BADARG)%Z with true. cbv iota.
    assert (exists w, prev_word (rewound g) = Val w) as (w & Pw).
    { unfold prev_word. cbn [rewound g_optind g_argv]. pose proof M as (_ & Z & _ & done & opts & Ea & Eo & _).
      destruct (g_optind g) as [|i]; [congruence|]. unfold argv_at.
      destruct (nth_error (g_argv g) i) eqn:Ei; [eauto|]. exfalso.
      apply nth_error_None in Ei. rewrite Ea, !app_length in Ei. cbn in Ei. lia. }
    rewrite Pw. cbn [cbind]. cbn [p_table p_errs].
    destruct (get_again g non ls ws _ Nl Nd M) as (g1 & M1 & Eg).
    fold (loop fuel t (register_error em errs (mkErr None ARG_EMISSARG w)) (rewound g)).
    rewrite (loop_same _ _ _ _ _ Eg). apply (IH g1 ls); [|exact M1]. exists []. reflexivity.
  - destruct Sf as (a & Ea). cbn [app] in M.
    destruct (letter_step g non _ ws c (ls' ++ lit "-") fuel t errs M) as (g1 & _ & M1 & E).
    { intros ->. apply Nd. rewrite Ea. apply in_or_app. right. left. reflexivity. }
    { intros ->. apply Cs. rewrite Ea. apply in_or_app. right. left. reflexivity. }
    rewrite E. apply (IH g1 ls'); [|apply M1; destruct ls'; discriminate].
    exists (a ++ [c]). rewrite <- app_assoc. exact Ea.
Qed.

Theorem stuck_sim ws es : stuck_after os posix ws es ->
  forall g non t errs, Rg g non ws -> (posix = true -> non = []) -> Forall c_string ws ->
  match apply_events es (t, errs) with
  | UB => finishes t errs g UB
  | Val _ => forall fuel, loop fuel t errs g = None
  end.
Proof.
  intros H. induction H as [ls ws Nl Nd|w ws es Nw Px H IH|ls ws es Ne Nd H IH|ls s ws e ws' es Nd Ns LO H IH];
    intros g non t errs R Pn F.
  - cbn [apply_events]. inversion F as [|? ? Cw _]; subst.
    change (lit "-" ++ ls ++ lit "-") with ("-"%char :: (ls ++ lit "-")) in *.
    destruct (get_word los posix g non (ls ++ lit "-") ws R) as (g0 & M & E0).
    { destruct ls; discriminate. }
    { destruct ls as [|c ls]; [congruence|]. intros E. injection E as -> E. destruct ls; discriminate. }
    apply c_string_tail, c_string_app in Cw. destruct Cw as [Cl _].
    intros fuel. rewrite (loop_same _ _ _ _ _ E0). apply (stuck_forever ls ws non Nl Nd Cl fuel g0 ls); [|exact M].
    exists []. reflexivity.
  - destruct (get_skip los posix g non w ws Px R Nw) as (g1 & R1 & E).
    assert (posix = true -> non ++ [w] = []) as Pn1 by (rewrite Px; discriminate).
    assert (Forall c_string ws) as F1 by (inversion F; auto).
    specialize (IH g1 (non ++ [w]) t errs R1 Pn1 F1).
    destruct (apply_events es (t, errs)). all: swap 1 2.
    + destruct IH as (n & Fi). exists n. intros fuel L. rewrite (loop_same _ _ _ _ _ E). auto.
    + intros fuel. rewrite (loop_same _ _ _ _ _ E). auto.
  - inversion F as [|? ? Cw Cws]; subst.
    destruct (letters_word_sim g non ls ws t errs R Ne Nd Cw) as (g1 & R1 & Lp).
    specialize (IH g1 non t (letter_errs ls errs) R1 Pn Cws).
    rewrite apply_events_app, apply_letters. cbn [cbind].
    destruct (apply_events es (t, letter_errs ls errs)). all: swap 1 2.
    + destruct IH as (n & Fi). exists (len ls + n). intros fuel L.
      replace fuel with (len ls + (fuel - len ls)) by lia. rewrite Lp. apply Fi. lia.
    + assert (forall fuel, loop (len ls + fuel) t errs g = None) as X by (intros fuel; rewrite Lp; apply IH).
      intros fuel. destruct (loop fuel t errs g) eqn:El; [|reflexivity]. exfalso.
      assert (loop (len ls + fuel) t errs g <> None) as Y; [|apply Y; apply X].
      clear - El. assert (forall n p, tagged_loop n posix (lit ":") los em p <> None -> forall m, tagged_loop (m + n) posix (lit ":") los em p <> None) as Mono.
      { clear. induction n as [|n IH]; intros p H m; [cbn in H; congruence|].
        rewrite Nat.add_succ_r. cbn [tagged_loop] in *. destruct (getopt_long posix (lit ":") los (p_get p)) as [[r g]|]; [|congruence].
        destruct (r_code r =? DONE)%Z; [congruence|]. destruct (tagged_step em r _) as [p1|]; [|congruence]. apply IH. exact H. }
      apply Mono. fold (loop fuel t errs g). rewrite El. discriminate.
  - inversion F as [|? ? Cw Cws]; subst.
    destruct (long_sim g non ls s ws e ws' t errs R Nd Ns Cw LO) as (g1 & R1 & Lp).
    replace (map Letter ls ++ e :: es) with ((map Letter ls ++ [e]) ++ es) by (rewrite <- app_assoc; reflexivity).
    rewrite apply_events_app. destruct (apply_events (map Letter ls ++ [e]) (t, errs)) as [[t' errs']|] eqn:Ev; cbn [cbind]. all: swap 1 2.
    + exists (len ls + 1). intros fuel L.
      replace fuel with (len ls + Datatypes.S (fuel - len ls - 1)) by lia. rewrite Lp. reflexivity.
    + specialize (IH g1 non t' errs' R1 Pn (long_words _ _ _ _ _ LO Cws)).
      destruct (apply_events es (t', errs')). all: swap 1 2.
      * destruct IH as (n & Fi). exists (len ls + Datatypes.S n). intros fuel L.
        replace fuel with (len ls + Datatypes.S (fuel - len ls - 1)) by lia. rewrite Lp. apply Fi. lia.
      * assert (forall fuel, loop (len ls + Datatypes.S fuel) t errs g = None) as X by (intros fuel; rewrite Lp; apply IH).
        intros fuel. destruct (loop fuel t errs g) eqn:El; [|reflexivity]. exfalso.
        assert (loop (len ls + Datatypes.S fuel) t errs g <> None) as Y; [|apply Y; apply X].
        clear - El. assert (forall n p, tagged_loop n posix (lit ":") los em p <> None -> forall m, tagged_loop (m + n) posix (lit ":") los em p <> None) as Mono.
        { clear. induction n as [|n IH]; intros p H m; [cbn in H; congruence|].
          rewrite Nat.add_succ_r. cbn [tagged_loop] in *. destruct (getopt_long posix (lit ":") los (p_get p)) as [[r g]|]; [|congruence].
          destruct (r_code r =? DONE)%Z; [congruence|]. destruct (tagged_step em r _) as [p1|]; [|congruence]. apply IH. exact H. }
        replace (len ls + Datatypes.S fuel) with ((len ls + 1) + fuel) by lia.
        apply Mono. fold (loop fuel t errs g). rewrite El. discriminate.
Qed.

(** ** Every command line is one or the other, in one way *)
Lemma first_dash (p : str) :
  no_char "-"%char p \/ exists ls s, no_char "-"%char ls /\ p = ls ++ "-"%char :: s.
Proof.
  induction p as [|c p IH]; [left; intros []|].
  destruct (ascii_dec c "-"%char) as [->|Nc].
  - right. exists [], p. split; [intros []|reflexivity].
  - destruct IH as [IH|(ls & s & H & ->)].
    + left. intros [E|I]; [congruence|exact (IH I)].
    + right. exists (c :: ls), s. split; [|reflexivity]. intros [E|I]; [congruence|exact (H I)].
Qed.

Lemma option_word_dec w : option_word w \/ ~ option_word w.
Proof. rewrite <- option_wordb_iff. destruct (option_wordb w); [left|right]; congruence. Qed.

Lemma long_exists w s ws : exists e ws', long_option os w s ws e ws' /\ len ws' <= len ws.
Proof.
  destruct (parse_long los [] w s ws OK) as (e & ws' & r & k & _ & LO & _ & K).
  exists e, ws'. split; [exact LO|]. destruct K as [(_ & -> & _)|(_ & v & -> & _)]; cbn; lia.
Qed.

Theorem reads_total ws : (exists es r, reads os posix ws es r) \/ (exists es, stuck_after os posix ws es).
Proof.
  remember (len ws) as n eqn:E. assert (len ws <= n) as L by lia. clear E.
  revert ws L. induction n as [|n IH]; intros ws L.
  - destruct ws; [|cbn in L; lia]. left. exists [], []. constructor.
  - destruct ws as [|w ws]; [left; exists [], []; constructor|]. cbn [List.length] in L.
    destruct (option_word_dec w) as [(c & r & ->)|Nw].
    + destruct (first_dash (c :: r)) as [Nd|(ls & s & Nd & E)].
      * destruct (IH ws ltac:(lia)) as [(es & r' & H)|(es & H)].
        -- left. exists (map Letter (c :: r) ++ es), r'.
           apply (reads_letters os posix (c :: r) ws es r'); auto. discriminate.
        -- right. exists (map Letter (c :: r) ++ es).
           apply (stuck_letters os posix (c :: r) ws es); auto. discriminate.
      * rewrite E. destruct s as [|x s].
        -- destruct ls as [|l ls].
           ++ left. exists [], ws. apply reads_dashes.
           ++ right. exists []. apply (stuck_here os posix (l :: ls) ws); auto. discriminate.
        -- destruct (long_exists ("-"%char :: ls ++ "-"%char :: x :: s) (x :: s) ws) as (e & ws' & LO & Ll).
           destruct (IH ws' ltac:(lia)) as [(es & r' & H)|(es & H)].
           ++ left. exists (map Letter ls ++ e :: es), r'.
              apply (reads_long os posix ls (x :: s) ws e ws' es r'); auto. discriminate.
           ++ right. exists (map Letter ls ++ e :: es).
              apply (stuck_long os posix ls (x :: s) ws e ws' es); auto. discriminate.
    + destruct (Bool.bool_dec posix true) as [Px|Px].
      * left. exists [], (w :: ws). apply reads_posix_stop; auto.
      * apply not_true_is_false in Px. destruct (IH ws ltac:(lia)) as [(es & r' & H)|(es & H)].
        -- left. exists es, (w :: r'). apply reads_other; auto.
        -- right. exists es. apply stuck_other; auto.
Qed.

Lemma dash_unique (a b c d : str) : no_char "-"%char a -> no_char "-"%char c ->
  a ++ "-"%char :: b = c ++ "-"%char :: d -> a = c /\ b = d.
Proof.
  unfold no_char. revert c. induction a as [|x a IH]; intros [|y c] Na Nc E; cbn [app] in E.
  - injection E as ->. auto.
  - injection E as <- _. exfalso. apply Nc. left. reflexivity.
  - injection E as -> _. exfalso. apply Na. left. reflexivity.
  - injection E as -> E. destruct (IH c) as [-> ->]; auto.
    + intros I. apply Na. right. exact I.
    + intros I. apply Nc. right. exact I.
Qed.

Lemma dash_no (a b c : str) : no_char "-"%char c -> a ++ "-"%char :: b = c -> False.
Proof. intros N <-. apply N. apply in_or_app. right. left. reflexivity. Qed.

Lemma word_cons (l : str) : lit "-" ++ l = "-"%char :: l.
Proof. reflexivity. Qed.
Lemma long_word ls s : lit "-" ++ ls ++ lit "-" ++ s = "-"%char :: ls ++ "-"%char :: s.
Proof. reflexivity. Qed.

Lemma letters_option (ls : str) : ls <> [] -> option_word ("-"%char :: ls).
Proof. intros H. destruct ls as [|c r]; [congruence|]. exists c, r. reflexivity. Qed.
Lemma long_option_word (ls s : str) : option_word ("-"%char :: ls ++ "-"%char :: s).
Proof. apply letters_option. destruct ls; discriminate. Qed.

Theorem reads_unique ws es r : reads os posix ws es r -> forall es2 r2, reads os posix ws es2 r2 -> es = es2 /\ r = r2.
Proof.
  assert (~ option_word (lit "--") -> False) as Odd.
  { intros H. apply H. exists "-"%char, []. reflexivity. }
  intros H. induction H as [|w ws es r Nw Px H IH|w ws Nw Px|ws|ls ws es r Ne Nd H IH|ls s ws e ws' es r Nd Ns LO H IH];
    intros es2 r2 H2.
  - inversion H2; auto.
  - inversion H2 as [|? ? ? ? ? ? H3|? ? ? ?|?|? ? ? ? ? ? H3|? ? ? ? ? ? ? ? ? ? H3]; subst; clear H2; try congruence.
    + destruct (IH _ _ H3) as [-> ->]. auto.
    + exfalso. auto.
    + exfalso. apply Nw. apply letters_option. assumption.
    + exfalso. apply Nw. apply long_option_word.
  - inversion H2 as [|? ? ? ? ? ? H3|? ? ? ?|?|? ? ? ? ? ? H3|? ? ? ? ? ? ? ? ? ? H3]; subst; clear H2; try congruence; auto.
    + exfalso. auto.
    + exfalso. apply Nw. apply letters_option. assumption.
    + exfalso. apply Nw. apply long_option_word.
  - inversion H2 as [|? ? ? ? Nw ? H3|? ? Nw ?|?|ls ? ? ? Ne Nd H3|ls s ? ? ? ? ? Nd Ns LO H3]; subst; clear H2; auto; try (exfalso; auto; fail).
    + exfalso. apply Nd. left. reflexivity.
    + exfalso. match goal with E : ls ++ _ = ["-"%char] |- _ => apply (dash_unique ls s [] []) in E end; auto.
      * destruct H as [_ ->]. congruence.
      * intros [].
  - inversion H2 as [|? ? ? ? Nw ? H3|? ? Nw ?|?|ls' ? ? ? Ne' Nd' H3|ls' s ? ? ? ? ? Nd' Ns' LO' H3]; subst; clear H2.
    + exfalso. apply Nw. apply letters_option. assumption.
    + exfalso. apply Nw. apply letters_option. assumption.
    + exfalso. apply Nd. left. reflexivity.
    + destruct (IH _ _ H3) as [-> ->]. auto.
    + exfalso. apply (dash_no ls' s _ Nd eq_refl).
  - inversion H2 as [|? ? ? ? Nw ? H3|? ? Nw ?|?|ls' ? ? ? Ne' Nd' H3|ls' s' ? ? ? ? ? Nd' Ns' LO' H3]; subst; clear H2.
    + exfalso. apply Nw. apply long_option_word.
    + exfalso. apply Nw. apply long_option_word.
    + exfalso. match goal with E : _ = ls ++ _ |- _ => symmetry in E; apply (dash_unique ls s [] []) in E end; auto.
      * destruct H0 as [_ ->]. congruence.
      * intros [].
    + exfalso. apply (dash_no ls s _ Nd' eq_refl).
    + match goal with E : ls' ++ _ = ls ++ _ |- _ => apply (dash_unique ls' s' ls s Nd' Nd) in E; destruct E as [-> ->] end.
      destruct (long_option_unique los _ _ _ _ _ _ _ OK LO LO') as [<- <-].
      destruct (IH _ _ H3) as [-> ->]. auto.
Qed.
End Sim.
