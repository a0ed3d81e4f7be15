(** getopt_long for any options: one call reads what [inside] says. *)
From Coq Require Import ZArith Bool List Ascii String Arith Lia.
From Verif.Base Require Import CInt CStr.
From Verif.Model Require Import Permute Getopt Argtable.
From Verif.Spec Require Import CmdLine AnyLine AnySpec.
From Verif.Proofs Require Import PermuteProofs GetoptLong GetoptProofs ParseSim AnyLong.
Import ListNotations.
Open Scope list_scope.
Open Scope nat_scope.

Definition colons (t : takes) : str :=
  match t with Nothing => [] | Value => [":"%char] | MaybeValue => [":"; ":"]%char end.

(** The option string. *)
Definition body_of (os : list opt) : str :=
  flat_map (fun o => flat_map (fun c => c :: colons (o_takes o)) (o_letters o)) os.
Definition shorts_of (os : list opt) : str := ":"%char :: body_of os.

Definition okhd (s : str) : Prop := match s with [] => True | x :: _ => x <> ":"%char end.

Lemma fine_colon c : fine_letter c -> c <> ":"%char.
Proof. unfold fine_letter. intros H ->. apply H. cbn. tauto. Qed.

Lemma letters_hd t ls tail : Forall fine_letter ls -> okhd tail -> okhd (flat_map (fun c => c :: colons t) ls ++ tail).
Proof. intros F H. destruct F as [|c ls Fc _]; [exact H|]. cbn. apply fine_colon. exact Fc. Qed.

Lemma body_hd os : fine_options os -> okhd (body_of os).
Proof.
  intros F. induction F as [|o os (Fl & _) _ IH]; [exact Logic.I|]. cbn [body_of flat_map]. apply letters_hd; assumption.
Qed.

Lemma strchr_letters c t ls tail : c <> ":"%char -> Forall fine_letter ls -> okhd tail ->
  (In c ls /\ exists rest, strchr (flat_map (fun c => c :: colons t) ls ++ tail) c = Some (c :: colons t ++ rest) /\ okhd rest) \/
  (~ In c ls /\ strchr (flat_map (fun c => c :: colons t) ls ++ tail) c = strchr tail c).
Proof.
  intros Nc F H. induction F as [|x ls Fx F IH]; [right; split; [intros []|reflexivity]|].
  cbn [flat_map app strchr]. destruct (aeqb x c) eqn:E.
  - apply aeqb_eq in E. subst x. left. split; [left; reflexivity|].
    exists (flat_map (fun c => c :: colons t) ls ++ tail). rewrite app_assoc. split; [reflexivity|]. apply letters_hd; assumption.
  - apply aeqb_neq in E.
    assert (forall r, strchr (colons t ++ r) c = strchr r c) as Ec.
    { intros r. assert (aeqb ":" c = false) as Ec by (apply aeqb_neq; congruence).
      destruct t; cbn [colons app strchr]; rewrite ?Ec; reflexivity. }
    rewrite <- app_assoc, Ec. destruct IH as [(I & R)|(N & R)]; [left|right].
    + split; [right; exact I|exact R].
    + split; [intros [->|I]; tauto|exact R].
Qed.

Lemma strchr_body c os : c <> ":"%char -> fine_options os ->
  (exists k o rest, nth_error os k = Some o /\ In c (o_letters o) /\
     (forall j o', j < k -> nth_error os j = Some o' -> ~ In c (o_letters o')) /\
     strchr (body_of os) c = Some (c :: colons (o_takes o) ++ rest) /\ okhd rest) \/
  ((forall j o', nth_error os j = Some o' -> ~ In c (o_letters o')) /\ strchr (body_of os) c = None).
Proof.
  intros Nc F. induction F as [|q os (Fl & Fn) F IH].
  - right. split; [intros [] ? ?; discriminate|reflexivity].
  - change (body_of (q :: os)) with (flat_map (fun c => c :: colons (o_takes q)) (o_letters q) ++ body_of os).
    destruct (strchr_letters c (o_takes q) (o_letters q) (body_of os) Nc Fl (body_hd os F)) as [(I & rest & E & H)|(N & E)].
    + left. exists 0, q, rest. split; [reflexivity|]. split; [exact I|]. split; [intros; lia|]. auto.
    + rewrite E. destruct IH as [(k & o & rest & Ek & Io & Mn & Es & Hr)|(Na & Es)].
      * left. exists (S k), o, rest. split; [exact Ek|]. split; [exact Io|]. split; [|auto].
        intros [|j] o' L Ej; cbn in Ej; [injection Ej as <-; exact N|]. apply (Mn j o'); [lia|exact Ej].
      * right. split; [|exact Es]. intros [|j] o' Ej; cbn in Ej; [injection Ej as <-; exact N|]. apply (Na j o' Ej).
Qed.

Section Calls.
Variable os : list opt.
Variable posix : bool.
Hypothesis FO : fine_options os.
Let los := los_of 0 os.
Let get := getopt_long posix (shorts_of os) los.

Lemma letter_case c : fine_options os ->
  (exists k t rest, letter_means os c k /\ option_takes os k t /\ c <> ":"%char /\
     strchr (shorts_of os) c = Some (c :: colons t ++ rest) /\ okhd rest) \/
  ((forall k, ~ letter_means os c k) /\ (c = ":"%char \/ strchr (shorts_of os) c = None)).
Proof.
  intros F. destruct (ascii_dec c ":"%char) as [->|Nc].
  - right. split; [|left; reflexivity]. intros k ((o & E & I) & _).
    assert (fine_letter ":"%char) as X; [|exact (fine_colon _ X eq_refl)].
    unfold fine_options in F. rewrite Forall_forall in F. apply nth_error_In in E. destruct (F o E) as (Fl & _).
    rewrite Forall_forall in Fl. auto.
  - assert (strchr (shorts_of os) c = strchr (body_of os) c) as Es.
    { cbn [shorts_of strchr]. replace (aeqb ":" c) with false; [reflexivity|]. symmetry. apply aeqb_neq. congruence. }
    rewrite Es. destruct (strchr_body c os Nc F) as [(k & o & rest & Ek & Io & Mn & E & Hr)|(Na & E)].
    + left. exists k, (o_takes o), rest. split; [|split; [exists o; auto|auto]].
      split; [exists o; auto|]. intros j (o' & Ej & Ij). destruct (le_lt_dec k j) as [L|L]; [exact L|].
      destruct (Mn j o' L Ej Ij).
    + right. split; [|right; exact E]. intros k ((o & Ek & I) & _). exact (Na k o Ek I).
Qed.

Definition dispatch (g : gopt) : cres (gret * gopt) :=
  match nth_error (g_argv g) (g_optind g) with
  | None => UB
  | Some w =>
      if negb (len (g_place g) =? len w)
         && match g_place g with c :: _ => aeqb c "-"%char | [] => false end
      then
        match tl (g_place g) with
        | [] => Val (mkRet BADARG None 0 0, mkG (g_argv g) (g_optind g) [] (g_nstart g) (g_nend g) false)
        | place =>
            cbind (parse_long_options los (g_argv g) (g_optind g) place false) (fun '(r, optind) =>
            Val (r, mkG (g_argv g) optind [] (g_nstart g) (g_nend g) false))
        end
      else short_option (shorts_of os) g
  end.

Lemma any_Rg g non ws : Rg g non ws ->
  get g = cbind (find_option (len (g_argv g)) (negb posix) g) (fun x =>
          match x with inl g => Val (mkRet DONE None 0 0, g) | inr g => dispatch g end).
Proof.
  intros (P & Z & R & _). unfold get, getopt_long. rewrite (proj2 (Nat.eqb_neq _ _) Z).
  destruct (g_reset g) eqn:Er; [|reflexivity].
  destruct (R eq_refl) as [Ns Ne].
  assert (mkG (g_argv g) (g_optind g) (g_place g) None None true = g) as -> by (destruct g; cbn in *; congruence).
  reflexivity.
Qed.

Lemma any_Mid g non w ws p : Mid g non w ws p -> p <> [] -> get g = dispatch g.
Proof.
  intros (P & Z & R & _) Np. unfold get, getopt_long. rewrite (proj2 (Nat.eqb_neq _ _) Z), R.
  assert (forall f b, find_option f b g = Val (inr g)) as ->; [|reflexivity].
  intros f b. destruct f; cbn [find_option]; rewrite P, R; destruct p; try congruence; reflexivity.
Qed.

Lemma any_end g non : Rg g non [] ->
  exists g', get g = Val (mkRet DONE None 0 0, g') /\ skipn (g_optind g') (g_argv g') = non.
Proof.
  intros H. destruct (find_end g non (negb posix) (len (g_argv g)) H) as (g' & E & S).
  exists g'. rewrite (any_Rg g non [] H), E. auto.
Qed.

Lemma any_dashes g non ws : Rg g non (lit "--" :: ws) ->
  exists g', get g = Val (mkRet DONE None 0 0, g') /\ skipn (g_optind g') (g_argv g') = non ++ ws.
Proof.
  intros H. destruct (find_dashes g non ws (negb posix) (len (g_argv g)) H) as (g' & E & S).
  exists g'. rewrite (any_Rg g non _ H), E. auto.
Qed.

Lemma any_stop g w ws : posix = true -> Rg g [] (w :: ws) -> ~ option_word w ->
  exists g', get g = Val (mkRet DONE None 0 0, g') /\ skipn (g_optind g') (g_argv g') = w :: ws.
Proof.
  intros Px H Nw. destruct (find_stop g w ws (len (g_argv g)) H Nw) as (g' & E & S).
  exists g'. rewrite (any_Rg g _ _ H), Px. cbn [negb]. rewrite E. auto.
Qed.

Lemma any_skip g non w ws : posix = false -> Rg g non (w :: ws) -> ~ option_word w ->
  exists g1, Rg g1 (non ++ [w]) ws /\ get g = get g1.
Proof.
  intros Px H Nw. destruct (find_skip g non w ws H Nw) as (g1 & H1 & L & E). exists g1. split; [exact H1|].
  rewrite (any_Rg g _ _ H), (any_Rg g1 _ _ H1), Px. cbn [negb]. rewrite L.
  assert (0 < len (g_argv g)) as L0 by (pose proof (Rg_length _ _ _ H) as X; cbn in X; lia).
  assert (len ws <= len (g_argv g) - 1) by (pose proof (Rg_length _ _ _ H) as X; cbn in X; lia).
  destruct (len (g_argv g)) as [|f] eqn:F; [lia|]. rewrite E.
  rewrite (find_fuel ws g1 _ f (S f) H1) by lia. reflexivity.
Qed.

Lemma any_word g non p ws : Rg g non (("-"%char :: p) :: ws) -> p <> [] -> p <> lit "-" ->
  exists g1, Mid g1 non ("-"%char :: p) ws p /\ get g = get g1.
Proof.
  intros H N1 N2. destruct (find_word g non p ws (negb posix) (len (g_argv g)) H N1 N2) as (g1 & E & M & _).
  exists g1. split; [exact M|]. rewrite (any_Rg g _ _ H), E, (any_Mid g1 _ _ _ _ M N1). reflexivity.
Qed.

(** Inside a word, after [c] has been read and [p] remains. *)
Definition next_in (g1 : gopt) (non : list str) (w : str) (ws : list str) (p : str) : Prop :=
  (p = [] -> Rg g1 non ws) /\ (p <> [] -> Mid g1 non w ws p).

Lemma next_here g non w ws c p : Mid g non w ws (c :: p) ->
  next_in (mkG (g_argv g) (match p with [] => S (g_optind g) | _ => g_optind g end) p (g_nstart g) (g_nend g) false) non w ws p.
Proof.
  intros M. split.
  - intros ->. replace (S (g_optind g)) with (g_optind g + len [w]) by (cbn; lia).
    apply (advance g non w ws [w] ws [] _ M); cbn; auto; lia.
  - intros Np. destruct p; [congruence|]. apply (move _ _ _ _ _ _ M).
Qed.

Lemma next_word g non w ws c p : Mid g non w ws (c :: p) ->
  Rg (mkG (g_argv g) (S (g_optind g)) [] (g_nstart g) (g_nend g) false) non ws.
Proof.
  intros M. replace (S (g_optind g)) with (g_optind g + len [w]) by (cbn; lia).
  apply (advance g non w ws [w] ws [] _ M); cbn; auto; lia.
Qed.

Lemma get_short g non w ws c p : Mid g non w ws (c :: p) -> c <> "-"%char -> get g = short_option (shorts_of os) g.
Proof.
  intros M Nc. rewrite (any_Mid g _ _ _ _ M) by discriminate. unfold dispatch. rewrite (Mid_nth _ _ _ _ _ M).
  pose proof M as (P & _). rewrite P. rewrite (proj2 (aeqb_neq c "-"%char) Nc), andb_false_r. reflexivity.
Qed.

Lemma last_if (p : str) i : (if match p with [] => true | _ => false end then S i else i) = match p with [] => S i | _ => i end.
Proof. destruct p; reflexivity. Qed.

Lemma short_unknown g non w ws c p : Mid g non w ws (c :: p) -> c <> "-"%char -> (forall k, ~ letter_means os c k) ->
  exists g1, get g = Val (mkRet BADCH None (schar c) 0, g1) /\ next_in g1 non w ws p.
Proof.
  intros M Nc Nm. rewrite (get_short _ _ _ _ _ _ M Nc). eexists. split; [|exact (next_here _ _ _ _ _ _ M)].
  unfold short_option. pose proof M as (P & _). rewrite P. rewrite (proj2 (aeqb_neq c "-"%char) Nc). cbn [andb].
  destruct (letter_case c FO) as [(k & t & rest & Lm & _)|(_ & [->|E])]; [destruct (Nm k Lm)| |].
  - change (strchr (shorts_of os) ":") with (Some (":"%char :: body_of os)). change (aeqb ":" ":") with true. cbn [orb].
    rewrite last_if. reflexivity.
  - rewrite E, last_if. reflexivity.
Qed.

Lemma short_flag g non w ws c p k : Mid g non w ws (c :: p) -> c <> "-"%char -> letter_means os c k -> option_takes os k Nothing ->
  exists g1, get g = Val (mkRet (schar c) None 0 0, g1) /\ next_in g1 non w ws p.
Proof.
  intros M Nc Lm Ht. rewrite (get_short _ _ _ _ _ _ M Nc). eexists. split; [|exact (next_here _ _ _ _ _ _ M)].
  unfold short_option. pose proof M as (P & _). rewrite P. rewrite (proj2 (aeqb_neq c "-"%char) Nc). cbn [andb].
  destruct (letter_case c FO) as [(k' & t & rest & Lm' & Ht' & Ncol & E & Hr)|(Nm & _)]; [|destruct (Nm k Lm)].
  rewrite <- (letter_unique os c k k' Lm Lm') in Ht'. rewrite <- (takes_unique os _ _ _ Ht Ht') in E. cbn [colons app] in E.
  rewrite E, (proj2 (aeqb_neq c ":"%char) Ncol). cbn [orb]. rewrite last_if.
  destruct rest as [|x rest]; [reflexivity|]. cbn [okhd] in Hr. rewrite (proj2 (aeqb_neq x ":"%char) Hr). reflexivity.
Qed.

Lemma short_value g non w ws c p k t : Mid g non w ws (c :: p) -> c <> "-"%char -> letter_means os c k ->
  option_takes os k t -> t <> Nothing -> p <> [] ->
  exists g1, get g = Val (mkRet (schar c) (Some p) 0 0, g1) /\ Rg g1 non ws.
Proof.
  intros M Nc Lm Ht Nt Np. rewrite (get_short _ _ _ _ _ _ M Nc). eexists. split; [|exact (next_word _ _ _ _ _ _ M)].
  unfold short_option. pose proof M as (P & _). rewrite P. rewrite (proj2 (aeqb_neq c "-"%char) Nc). cbn [andb].
  destruct (letter_case c FO) as [(k' & t' & rest & Lm' & Ht' & Ncol & E & Hr)|(Nm & _)]; [|destruct (Nm k Lm)].
  rewrite <- (letter_unique os c k k' Lm Lm') in Ht'. rewrite <- (takes_unique os _ _ _ Ht Ht') in E.
  rewrite E, (proj2 (aeqb_neq c ":"%char) Ncol). cbn [orb].
  destruct p as [|x p]; [congruence|]. destruct t; [congruence| |]; reflexivity.
Qed.

Lemma Mid_next g non w ws p : Mid g non w ws p -> nth_error (g_argv g) (S (g_optind g)) = hd_error ws.
Proof.
  intros (_ & _ & _ & done & opts & -> & -> & _).
  replace (done ++ non ++ opts ++ w :: ws) with ((done ++ non ++ opts ++ [w]) ++ ws) by (rewrite <- !app_assoc; reflexivity).
  assert (S (len done + len non + len opts) = len (done ++ non ++ opts ++ [w])) as -> by (rewrite !app_length; cbn; lia).
  rewrite nth_error_app2, Nat.sub_diag by lia. destruct ws; reflexivity.
Qed.

Lemma short_next g non w v ws c k : Mid g non w (v :: ws) [c] -> c <> "-"%char -> letter_means os c k ->
  option_takes os k Value ->
  exists g1, get g = Val (mkRet (schar c) (Some v) 0 0, g1) /\ Rg g1 non ws.
Proof.
  intros M Nc Lm Ht. rewrite (get_short _ _ _ _ _ _ M Nc). eexists. split.
  - unfold short_option. pose proof M as (P & _). rewrite P. rewrite (proj2 (aeqb_neq c "-"%char) Nc). cbn [andb].
    destruct (letter_case c FO) as [(k' & t' & rest & Lm' & Ht' & Ncol & E & Hr)|(Nm & _)]; [|destruct (Nm k Lm)].
    rewrite <- (letter_unique os c k k' Lm Lm') in Ht'. rewrite <- (takes_unique os _ _ _ Ht Ht') in E. cbn [colons app] in E.
    rewrite E, (proj2 (aeqb_neq c ":"%char) Ncol). cbn [orb]. change (aeqb ":" ":") with true. cbn [negb].
    rewrite (Mid_next _ _ _ _ _ M). cbn [hd_error].
    replace (match rest with [] => true | c' :: _ => negb (aeqb c' ":") end) with true; [reflexivity|].
    destruct rest as [|x rest]; [reflexivity|]. cbn [okhd] in Hr. rewrite (proj2 (aeqb_neq x ":"%char) Hr). reflexivity.
  - replace (S (S (g_optind g))) with (g_optind g + len [w; v]) by (cbn; lia).
    apply (advance g non w (v :: ws) [w; v] ws [] _ M); cbn; auto; lia.
Qed.

Lemma short_missing g non w c k : Mid g non w [] [c] -> c <> "-"%char -> letter_means os c k ->
  option_takes os k Value ->
  exists g1, get g = Val (mkRet BADARG None (schar c) 0, g1) /\ Rg g1 non [] /\ prev_word g1 = Val (Some w).
Proof.
  intros M Nc Lm Ht. rewrite (get_short _ _ _ _ _ _ M Nc). eexists. split; [|split; [exact (next_word _ _ _ _ _ _ M)|]].
  - unfold short_option. pose proof M as (P & _). rewrite P. rewrite (proj2 (aeqb_neq c "-"%char) Nc). cbn [andb].
    destruct (letter_case c FO) as [(k' & t' & rest & Lm' & Ht' & Ncol & E & Hr)|(Nm & _)]; [|destruct (Nm k Lm)].
    rewrite <- (letter_unique os c k k' Lm Lm') in Ht'. rewrite <- (takes_unique os _ _ _ Ht Ht') in E. cbn [colons app] in E.
    rewrite E, (proj2 (aeqb_neq c ":"%char) Ncol). cbn [orb]. change (aeqb ":" ":") with true. cbn [negb].
    rewrite (Mid_next _ _ _ _ _ M). cbn [hd_error].
    replace (match rest with [] => true | c' :: _ => negb (aeqb c' ":") end) with true; [reflexivity|].
    destruct rest as [|x rest]; [reflexivity|]. cbn [okhd] in Hr. rewrite (proj2 (aeqb_neq x ":"%char) Hr). reflexivity.
  - unfold prev_word. cbn [g_optind g_argv]. unfold argv_at. rewrite (Mid_nth _ _ _ _ _ M). reflexivity.
Qed.

Lemma short_omitted g non w ws c k : Mid g non w ws [c] -> c <> "-"%char -> letter_means os c k ->
  option_takes os k MaybeValue ->
  exists g1, get g = Val (mkRet (schar c) None 0 0, g1) /\ Rg g1 non ws.
Proof.
  intros M Nc Lm Ht. rewrite (get_short _ _ _ _ _ _ M Nc). eexists. split; [|exact (next_word _ _ _ _ _ _ M)].
  unfold short_option. pose proof M as (P & _). rewrite P. rewrite (proj2 (aeqb_neq c "-"%char) Nc). cbn [andb].
  destruct (letter_case c FO) as [(k' & t' & rest & Lm' & Ht' & Ncol & E & Hr)|(Nm & _)]; [|destruct (Nm k Lm)].
  rewrite <- (letter_unique os c k k' Lm Lm') in Ht'. rewrite <- (takes_unique os _ _ _ Ht Ht') in E. cbn [colons app] in E.
  rewrite E, (proj2 (aeqb_neq c ":"%char) Ncol). cbn [orb]. reflexivity.
Qed.

Lemma any_dash g non w ws : Mid g non w ws (lit "-") -> len w <> 1 ->
  get g = Val (mkRet BADARG None 0 0, mkG (g_argv g) (g_optind g) [] (g_nstart g) (g_nend g) false).
Proof.
  intros M L. rewrite (any_Mid g _ _ _ _ M) by discriminate. unfold dispatch. rewrite (Mid_nth _ _ _ _ _ M).
  pose proof M as (P & _). rewrite P. change (lit "-") with ["-"%char]. cbn [List.length].
  rewrite (proj2 (Nat.eqb_neq 1 (len w))) by lia. reflexivity.
Qed.

Lemma any_long g non w ws s : Mid g non w ws ("-"%char :: s) -> s <> [] -> len w <> S (len s) ->
  exists e ws' r g1, get g = Val (r, g1) /\ Rg g1 non ws' /\
    long_option os w s ws e ws' /\ any_return e r /\
    exists l, any_last e l /\ prev_word g1 = Val (Some l).
Proof.
  intros M Ns L. rewrite (any_Mid g _ _ _ _ M) by discriminate. unfold dispatch. rewrite (Mid_nth _ _ _ _ _ M).
  pose proof M as (P & Z & _ & done & opts & Ea & Eo & W). rewrite P. cbn [List.length tl].
  rewrite (proj2 (Nat.eqb_neq (S (len s)) (len w))) by lia. change (aeqb "-" "-") with true. cbn [negb andb].
  set (pre := done ++ non ++ opts).
  assert (g_argv g = pre ++ w :: ws) as Ea' by (unfold pre; rewrite Ea, <- !app_assoc; reflexivity).
  assert (g_optind g = len pre) as Eo' by (unfold pre; rewrite Eo, !app_length; lia).
  destruct (any_parse_long os pre w s ws) as (e & ws' & r & k & E & LO & LR & K).
  exists e, ws', r. destruct s as [|c s]; [congruence|].
  eexists. split; [rewrite Ea', Eo'; fold los in E; rewrite E; cbn [cbind]; reflexivity|].
  destruct K as [(-> & -> & El)|(-> & v & -> & El)].
  - split; [|split; [exact LO|split; [exact LR|]]].
    + rewrite <- Ea', <- Eo'. change 1 with (len [w]). apply (advance g non w ws [w] ws [] _ M); cbn; auto; lia.
    + exists w. split; [exact El|]. unfold prev_word. cbn [g_optind g_argv]. rewrite Nat.add_1_r.
      unfold argv_at. rewrite nth_error_mid. reflexivity.
  - split; [|split; [exact LO|split; [exact LR|]]].
    + rewrite <- Ea', <- Eo'. change 2 with (len [w; v]). apply (advance g non w (v :: ws') [w; v] ws' [] _ M); cbn; auto; lia.
    + exists v. split; [exact El|]. unfold prev_word. cbn [g_optind g_argv]. rewrite Nat.add_succ_r, Nat.add_1_r.
      unfold argv_at. replace (pre ++ w :: v :: ws') with ((pre ++ [w]) ++ v :: ws') by (rewrite <- app_assoc; reflexivity).
      replace (S (len pre)) with (len (pre ++ [w])) by (rewrite app_length; cbn; lia).
      rewrite nth_error_mid. reflexivity.
Qed.

(** The word is read again after a dash at its end. *)
Lemma any_again g non ws p0 p : p0 <> [] -> p0 <> lit "-" -> Mid g non ("-"%char :: p0) ws p ->
  exists g1, Mid g1 non ("-"%char :: p0) ws p0 /\
             get (mkG (g_argv g) (g_optind g) [] (g_nstart g) (g_nend g) false) = get g1.
Proof.
  intros N1 N2 M. pose proof (move _ _ _ _ _ p0 M) as M1.
  exists (mkG (g_argv g) (g_optind g) p0 (g_nstart g) (g_nend g) false). split; [exact M1|].
  rewrite (any_Mid _ _ _ _ _ M1 N1).
  pose proof (Mid_nth _ _ _ _ _ M) as Nth. pose proof M as (_ & Z & _ & done & opts & Ea & Eo & W).
  unfold get, getopt_long. cbn [g_optind g_reset g_argv g_place g_nstart g_nend].
  rewrite (proj2 (Nat.eqb_neq _ _) Z).
  assert (forall f b, find_option f b (mkG (g_argv g) (g_optind g) [] (g_nstart g) (g_nend g) false) =
    Val (inr (mkG (g_argv g) (g_optind g) p0 (g_nstart g) (g_nend g) false))) as ->; [|reflexivity].
  intros f b. destruct p0 as [|c1 p2]; [congruence|].
  assert ((aeqb c1 "-"%char && match p2 with [] => true | _ => false end) = false) as Nd.
  { destruct (aeqb c1 "-"%char) eqn:Ec; [|reflexivity]. apply aeqb_eq in Ec. subst c1.
    destruct p2; [exfalso; apply N2; reflexivity|reflexivity]. }
  assert (match g_nstart g, g_nend g with Some _, None => Some (g_optind g) | _, ne => ne end = g_nend g) as En.
  { destruct W as [(_ & _ & -> & ->)|(_ & -> & ->)]; reflexivity. }
  destruct f; cbn [find_option g_optind g_reset g_argv g_place g_nstart g_nend];
    rewrite Nth; cbn [negb andb]; change (aeqb "-" "-") with true; cbv iota; rewrite Nd, En; reflexivity.
Qed.
End Calls.
