(** getopt_long reads the words from left to right: the loop over it follows
    [reads] and [stuck_after]. *)
From Coq Require Import ZArith Bool List Ascii String Arith Lia.
From Verif.Base Require Import CInt CStr.
From Verif.Model Require Import ArgInt Permute Getopt Argtable.
From Verif.Spec Require Import CmdLine.
From Verif.Proofs Require Import PermuteProofs GetoptLong.
Import ListNotations.
Open Scope list_scope.
Open Scope nat_scope.

Notation len := List.length.

(** ** Where getopt stands *)
(** Words already dealt with, words that are no options, options after these. *)
Definition between (d n o : nat) (ns ne : option nat) : Prop :=
  (n = 0 /\ o = 0 /\ ns = None /\ ne = None) \/
  (0 < n /\ o = 0 /\ ns = Some d /\ ne = None) \/
  (0 < n /\ 0 < o /\ ns = Some d /\ ne = Some (d + n)).
Definition within (d n o : nat) (ns ne : option nat) : Prop :=
  (n = 0 /\ o = 0 /\ ns = None /\ ne = None) \/
  (0 < n /\ ns = Some d /\ ne = Some (d + n)).

(** Between two words: [non] are the words skipped so far, [ws] those to come. *)
Definition Rg (g : gopt) (non ws : list str) : Prop :=
  g_place g = [] /\ g_optind g <> 0 /\
  (g_reset g = true -> g_nstart g = None /\ g_nend g = None) /\
  exists done opts,
    g_argv g = done ++ non ++ opts ++ ws /\ g_optind g = len done + len non + len opts /\
    between (len done) (len non) (len opts) (g_nstart g) (g_nend g).

(** Inside the word [w], with the text [p] to be read. *)
Definition Mid (g : gopt) (non : list str) (w : str) (ws : list str) (p : str) : Prop :=
  g_place g = p /\ g_optind g <> 0 /\ g_reset g = false /\
  exists done opts,
    g_argv g = done ++ non ++ opts ++ w :: ws /\ g_optind g = len done + len non + len opts /\
    within (len done) (len non) (len opts) (g_nstart g) (g_nend g).

Lemma at_optind {A} (done non opts : list A) w ws :
  nth_error (done ++ non ++ opts ++ w :: ws) (len done + len non + len opts) = Some w.
Proof.
  replace (done ++ non ++ opts ++ w :: ws) with ((done ++ non ++ opts) ++ w :: ws) by (rewrite <- !app_assoc; reflexivity).
  replace (len done + len non + len opts) with (len (done ++ non ++ opts)) by (rewrite !app_length; lia).
  apply nth_error_mid.
Qed.

Lemma at_end {A} (done non opts : list A) :
  nth_error (done ++ non ++ opts ++ []) (len done + len non + len opts) = None.
Proof. apply nth_error_None. rewrite !app_length. cbn. lia. Qed.

Lemma skip_to {A} (a b : list A) n : n = len a -> skipn n (a ++ b) = b.
Proof. intros ->. rewrite skipn_app, skipn_all, Nat.sub_diag. reflexivity. Qed.

Lemma swap {A} (a b c d : list A) n1 n2 n3 : n1 = len a -> n2 = len a + len b -> n3 = len a + len b + len c ->
  0 < len b -> 0 < len c -> permute_args n1 n2 n3 (a ++ b ++ c ++ d) = Val (a ++ c ++ b ++ d).
Proof. intros -> -> -> Hb Hc. apply permute_args_swaps; assumption. Qed.

(** After reading [k] words from inside [w]. *)
Lemma advance g non w ws used rest place' :
  forall p, Mid g non w ws p -> w :: ws = used ++ rest -> 0 < len used -> place' = [] ->
  Rg (mkG (g_argv g) (g_optind g + len used) place' (g_nstart g) (g_nend g) false) non rest.
Proof.
  intros p (_ & Hz & _ & done & opts & Ea & Eo & W) Es U ->.
  split; [reflexivity|]. split; [cbn; lia|]. split; [discriminate|].
  cbn [g_argv g_optind g_nstart g_nend]. rewrite Es in Ea. destruct W as [(n0 & o0 & -> & ->)|(n0 & -> & ->)].
  - destruct non; [|discriminate]. destruct opts; [|discriminate].
    exists (done ++ used), []. cbn [app List.length] in *. rewrite Ea, Eo, app_length, <- app_assoc.
    split; [reflexivity|]. split; [lia|]. left. auto.
  - exists done, (opts ++ used). rewrite Ea, Eo, app_length, <- app_assoc.
    split; [reflexivity|]. split; [lia|]. right. right. repeat split; auto. lia.
Qed.

Lemma move g non w ws p p' : Mid g non w ws p ->
  Mid (mkG (g_argv g) (g_optind g) p' (g_nstart g) (g_nend g) false) non w ws p'.
Proof. intros (_ & Z & _ & H). split; [reflexivity|]. split; [exact Z|]. split; [reflexivity|exact H]. Qed.

(** ** find_option *)
Definition option_wordb (w : str) : bool :=
  match w with c :: _ :: _ => aeqb c "-"%char | _ => false end.
Lemma option_wordb_iff w : option_wordb w = true <-> option_word w.
Proof.
  unfold option_word. destruct w as [|c [|c1 r]]; cbn.
  - split; [discriminate|]. intros (? & ? & ?). discriminate.
  - split; [discriminate|]. intros (? & ? & ?). discriminate.
  - rewrite aeqb_eq. split; [intros ->; eauto|]. intros (x & y & E). congruence.
Qed.

(** A word that is no option is skipped. *)
Lemma find_skip g non w ws : Rg g non (w :: ws) -> ~ option_word w ->
  exists g1, Rg g1 (non ++ [w]) ws /\ len (g_argv g1) = len (g_argv g) /\
             forall fuel, find_option (S fuel) true g = find_option fuel true g1.
Proof.
  intros (P & Z & R & done & opts & Ea & Eo & W) Hw.
  assert (forall fuel, find_option (S fuel) true g =
    cbind (match g_nstart g, g_nend g with
           | None, ne => Val (g_argv g, Some (g_optind g), ne)
           | Some ns, Some ne => cbind (permute_args ns ne (g_optind g) (g_argv g)) (fun argv => Val (argv, Some (g_optind g - (ne - ns)), None))
           | Some ns, None => Val (g_argv g, Some ns, None)
           end) (fun '(argv, ns, ne) => find_option fuel true (mkG argv (S (g_optind g)) [] ns ne false))) as E.
  { intros fuel. cbn [find_option negb]. rewrite P, andb_false_r.
    rewrite Ea at 1. rewrite Eo at 1. rewrite at_optind.
    destruct w as [|c [|c1 r]]; [reflexivity|reflexivity|].
    assert (aeqb c "-"%char = false) as ->; [|reflexivity].
    apply aeqb_neq. intros ->. apply Hw. exists c1, r. reflexivity. }
  destruct W as [(n0 & o0 & Ns & Ne)|[(n0 & o0 & Ns & Ne)|(n0 & o0 & Ns & Ne)]]; rewrite Ns, Ne in E.
  - destruct non; [|discriminate]. destruct opts; [|discriminate]. cbn [app List.length] in *.
    eexists. split; [|split; [|intros fuel; rewrite E; cbn [cbind]; reflexivity]]; [|reflexivity].
    split; [reflexivity|]. split; [discriminate|]. split; [discriminate|].
    exists done, []. cbn [g_argv g_optind g_nstart g_nend app List.length]. rewrite Ea. split; [reflexivity|]. split; [lia|].
    right. left. repeat split; try lia. f_equal. lia.
  - destruct opts; [|discriminate]. cbn [app List.length] in *.
    eexists. split; [|split; [|intros fuel; rewrite E; cbn [cbind]; reflexivity]]; [|reflexivity].
    split; [reflexivity|]. split; [discriminate|]. split; [discriminate|].
    exists done, []. cbn [g_argv g_optind g_nstart g_nend app List.length]. rewrite Ea, app_length, <- app_assoc.
    split; [reflexivity|]. split; [cbn; lia|].
    right. left. repeat split; cbn; lia.
  - assert (permute_args (len done) (len done + len non) (g_optind g) (g_argv g) = Val (done ++ opts ++ non ++ w :: ws)) as Pm.
    { rewrite Ea. apply swap; auto. }
    rewrite Pm in E. cbn [cbind] in E.
    eexists. split; [|split; [|intros fuel; rewrite E; reflexivity]].
    2:{ cbn [g_argv]. rewrite Ea, !app_length. cbn. lia. }
    split; [reflexivity|]. split; [discriminate|]. split; [discriminate|].
    exists (done ++ opts), []. cbn [g_argv g_optind g_nstart g_nend app List.length].
    split; [rewrite <- !app_assoc; reflexivity|]. rewrite !app_length. cbn [List.length]. split; [lia|].
    right. left. repeat split; try lia. f_equal. lia.
Qed.

(** At the end, or when only words remain that are not read. *)
Lemma find_end g non permute fuel : Rg g non [] ->
  exists g', find_option fuel permute g = Val (inl g') /\ skipn (g_optind g') (g_argv g') = non.
Proof.
  intros (P & Z & R & done & opts & Ea & Eo & W).
  assert (nth_error (g_argv g) (g_optind g) = None) as Nth by (rewrite Ea, Eo; apply at_end).
  assert (forall fuel, find_option fuel permute g =
        match g_nend g, g_nstart g with
        | Some ne, Some ns =>
            cbind (permute_args ns ne (g_optind g) (g_argv g)) (fun argv =>
            Val (inl (mkG argv (g_optind g - (ne - ns)) [] None None false)))
        | Some _, None => UB
        | None, Some ns => Val (inl (mkG (g_argv g) ns [] None None false))
        | None, None => Val (inl (mkG (g_argv g) (g_optind g) [] None None false))
        end) as E.
  { intros f. destruct f; cbn [find_option]; rewrite P, andb_false_r, Nth; reflexivity. }
  rewrite E.
  destruct W as [(n0 & o0 & -> & ->)|[(n0 & o0 & -> & ->)|(n0 & o0 & -> & ->)]].
  - eexists. split; [reflexivity|]. cbn [g_argv g_optind].
    destruct non; [|discriminate]. destruct opts; [|discriminate]. cbn [app List.length] in *. rewrite Ea. apply skip_to. lia.
  - eexists. split; [reflexivity|]. cbn [g_argv g_optind].
    destruct opts; [|discriminate]. cbn [app List.length] in *. rewrite Ea, app_nil_r. apply skip_to. reflexivity.
  - rewrite Ea, (swap done non opts []) by auto. cbn [cbind].
    eexists. split; [reflexivity|]. cbn [g_argv g_optind]. rewrite app_nil_r, app_assoc. apply skip_to. rewrite app_length. lia.
Qed.

Lemma find_stop g w ws fuel : Rg g [] (w :: ws) -> ~ option_word w ->
  exists g', find_option fuel false g = Val (inl g') /\ skipn (g_optind g') (g_argv g') = w :: ws.
Proof.
  intros (P & Z & R & done & opts & Ea & Eo & W) Hw.
  assert (opts = []) as ->.
  { destruct W as [(_ & o & _)|[(n & _)|(n & _)]]; [destruct opts; [reflexivity|discriminate]|cbn in n; lia|cbn in n; lia]. }
  cbn [app List.length] in Ea, Eo.
  assert (nth_error (g_argv g) (g_optind g) = Some w) as Nth.
  { rewrite Ea, Eo, !Nat.add_0_r. apply nth_error_mid. }
  eexists. split.
  - destruct fuel; cbn [find_option negb]; rewrite P, andb_false_r, Nth;
      (destruct w as [|c [|c1 r]]; [reflexivity|reflexivity|];
       replace (aeqb c "-"%char) with false; [reflexivity|];
       symmetry; apply aeqb_neq; intros ->; apply Hw; exists c1, r; reflexivity).
  - cbn [g_argv g_optind]. rewrite Ea. apply skip_to. lia.
Qed.

Lemma find_dashes g non ws permute fuel : Rg g non (lit "--" :: ws) ->
  exists g', find_option fuel permute g = Val (inl g') /\ skipn (g_optind g') (g_argv g') = non ++ ws.
Proof.
  intros (P & Z & R & done & opts & Ea & Eo & W).
  assert (nth_error (g_argv g) (g_optind g) = Some (lit "--")) as Nth by (rewrite Ea, Eo; apply at_optind).
  assert (forall fuel, find_option fuel permute g =
     match (match g_nstart g, g_nend g with Some _, None => Some (g_optind g) | _, ne => ne end), g_nstart g with
            | Some ne, Some ns =>
                cbind (permute_args ns ne (S (g_optind g)) (g_argv g)) (fun argv =>
                Val (inl (mkG argv (S (g_optind g) - (ne - ns)) [] None None false)))
            | Some _, None => UB
            | None, _ => Val (inl (mkG (g_argv g) (S (g_optind g)) [] None None false))
            end) as E.
  { intros f. destruct f; cbn [find_option]; rewrite P, andb_false_r, Nth; reflexivity. }
  rewrite E. clear E.
  assert (forall ne, ne = len done + len non -> 0 < len non ->
    exists g', cbind (permute_args (len done) ne (S (g_optind g)) (g_argv g)) (fun argv =>
                Val (inl (mkG argv (S (g_optind g) - (ne - len done)) [] None None false) : gopt + gopt)) = Val (inl g') /\
      skipn (g_optind g') (g_argv g') = non ++ ws) as Sw.
  { intros ne -> n0.
    replace (g_argv g) with (done ++ non ++ (opts ++ [lit "--"]) ++ ws) by (rewrite Ea, <- !app_assoc; reflexivity).
    rewrite (swap done non (opts ++ [lit "--"]) ws); auto; try (rewrite !app_length; cbn [List.length]; lia).
    cbn [cbind]. eexists. split; [reflexivity|]. cbn [g_argv g_optind]. rewrite app_assoc. apply skip_to.
    rewrite !app_length. cbn [List.length]. lia. }
  destruct W as [(n0 & o0 & -> & ->)|[(n0 & o0 & -> & ->)|(n0 & o0 & -> & ->)]].
  - eexists. split; [reflexivity|]. cbn [g_argv g_optind].
    destruct non; [|discriminate]. destruct opts; [|discriminate]. cbn [app List.length] in *.
    replace (g_argv g) with ((done ++ [lit "--"]) ++ ws) by (rewrite Ea, <- app_assoc; reflexivity).
    apply skip_to. rewrite app_length. cbn. lia.
  - apply Sw; [|exact n0]. rewrite Eo, o0. lia.
  - apply Sw; auto.
Qed.

Lemma find_word g non p ws permute fuel : Rg g non (("-"%char :: p) :: ws) -> p <> [] -> p <> lit "-" ->
  exists g', find_option fuel permute g = Val (inr g') /\ Mid g' non ("-"%char :: p) ws p /\ len (g_argv g') = len (g_argv g).
Proof.
  intros (P & Z & R & done & opts & Ea & Eo & W) N1 N2.
  assert (nth_error (g_argv g) (g_optind g) = Some ("-"%char :: p)) as Nth by (rewrite Ea, Eo; apply at_optind).
  eexists. split; [|split].
  - destruct p as [|c1 p2]; [congruence|].
    assert ((aeqb c1 "-"%char && match p2 with [] => true | _ => false end) = false) as Nd.
    { destruct (aeqb c1 "-"%char) eqn:Ec; [|reflexivity]. apply aeqb_eq in Ec. subst c1.
      destruct p2; [exfalso; apply N2; reflexivity|reflexivity]. }
    destruct fuel; cbn [find_option]; rewrite P, andb_false_r, Nth; rewrite Nd;
    change (aeqb "-" "-") with true; cbn [andb]; reflexivity.
  - split; [reflexivity|]. split; [exact Z|]. split; [reflexivity|].
    exists done, opts. cbn [g_argv g_optind g_nstart g_nend]. split; [exact Ea|]. split; [exact Eo|].
    destruct W as [(n0 & o0 & -> & ->)|[(n0 & o0 & -> & ->)|(n0 & o0 & -> & ->)]].
    + left. auto.
    + right. repeat split; auto. f_equal. lia.
    + right. auto.
  - reflexivity.
Qed.

(** The fuel does not matter. *)
Lemma find_fuel : forall ws g non f1 f2, Rg g non ws -> len ws <= f1 -> len ws <= f2 ->
  find_option f1 true g = find_option f2 true g.
Proof.
  induction ws as [|w ws IH]; intros g non f1 f2 H L1 L2.
  - destruct H as (P & Z & R & done & opts & Ea & Eo & W).
    assert (nth_error (g_argv g) (g_optind g) = None) as Nth by (rewrite Ea, Eo; apply at_end).
    destruct f1, f2; cbn [find_option]; rewrite P, andb_false_r, Nth; reflexivity.
  - destruct (option_wordb w) eqn:Ow.
    + apply option_wordb_iff in Ow. destruct Ow as (c & r & ->).
      assert (nth_error (g_argv g) (g_optind g) = Some ("-"%char :: c :: r)) as Nth.
      { destruct H as (P & Z & R & done & opts & Ea & Eo & W). rewrite Ea, Eo. apply at_optind. }
      destruct H as (P & _). cbn [List.length] in L1, L2. destruct f1, f2; cbn [find_option]; rewrite P, andb_false_r, Nth; reflexivity.
    + assert (~ option_word w) as Nw by (rewrite <- option_wordb_iff, Ow; discriminate).
      destruct (find_skip g non w ws H Nw) as (g1 & H1 & _ & E). cbn [List.length] in L1, L2.
      destruct f1 as [|f1]; [lia|]. destruct f2 as [|f2]; [lia|]. rewrite !E. apply (IH _ _ _ _ H1); lia.
Qed.

(** ** One call *)
Section Calls.
Variable los : list lopt.
Variable posix : bool.
Hypothesis OK : los_ok los.
Let get := getopt_long posix (lit ":") los.

Definition dispatch (g : gopt) : cres (gret * gopt) :=
  match nth_error (g_argv g) (g_optind g) with
  | None => UB
  | Some w =>
      if negb (len (g_place g) =? len w)
         && match g_place g with c :: _ => aeqb c "-"%char | [] => false end
      then
        match tl (g_place g) with
        | [] => Val (mkRet BADARG None 0 0, mkG (g_argv g) (g_optind g) [] (g_nstart g) (g_nend g) false)
        | place =>
            cbind (parse_long_options los (g_argv g) (g_optind g) place false) (fun '(r, optind) =>
            Val (r, mkG (g_argv g) optind [] (g_nstart g) (g_nend g) false))
        end
      else short_option (lit ":") g
  end.

Lemma get_Rg g non ws : Rg g non ws ->
  get g = cbind (find_option (len (g_argv g)) (negb posix) g) (fun x =>
          match x with inl g => Val (mkRet DONE None 0 0, g) | inr g => dispatch g end).
Proof.
  intros (P & Z & R & _). unfold get, getopt_long. rewrite (proj2 (Nat.eqb_neq _ _) Z).
  destruct (g_reset g) eqn:Er; [|reflexivity].
  destruct (R eq_refl) as [Ns Ne].
  assert (mkG (g_argv g) (g_optind g) (g_place g) None None true = g) as -> by (destruct g; cbn in *; congruence).
  reflexivity.
Qed.

Lemma get_Mid g non w ws p : Mid g non w ws p -> p <> [] -> get g = dispatch g.
Proof.
  intros (P & Z & R & _) Np. unfold get, getopt_long. rewrite (proj2 (Nat.eqb_neq _ _) Z), R.
  assert (forall f b, find_option f b g = Val (inr g)) as ->; [|reflexivity].
  intros f b. destruct f; cbn [find_option]; rewrite P, R; destruct p; try congruence; reflexivity.
Qed.

Lemma get_end g non : Rg g non [] ->
  exists g', get g = Val (mkRet DONE None 0 0, g') /\ skipn (g_optind g') (g_argv g') = non.
Proof.
  intros H. destruct (find_end g non (negb posix) (len (g_argv g)) H) as (g' & E & S).
  exists g'. rewrite (get_Rg g non [] H), E. auto.
Qed.

Lemma get_dashes g non ws : Rg g non (lit "--" :: ws) ->
  exists g', get g = Val (mkRet DONE None 0 0, g') /\ skipn (g_optind g') (g_argv g') = non ++ ws.
Proof.
  intros H. destruct (find_dashes g non ws (negb posix) (len (g_argv g)) H) as (g' & E & S).
  exists g'. rewrite (get_Rg g non _ H), E. auto.
Qed.

Lemma get_stop g w ws : posix = true -> Rg g [] (w :: ws) -> ~ option_word w ->
  exists g', get g = Val (mkRet DONE None 0 0, g') /\ skipn (g_optind g') (g_argv g') = w :: ws.
Proof.
  intros Px H Nw. destruct (find_stop g w ws (len (g_argv g)) H Nw) as (g' & E & S).
  exists g'. rewrite (get_Rg g _ _ H), Px. cbn [negb]. rewrite E. auto.
Qed.

Lemma Rg_length g non ws : Rg g non ws -> len ws <= len (g_argv g).
Proof. intros (_ & _ & _ & d & o & -> & _). rewrite !app_length. lia. Qed.

Lemma get_skip g non w ws : posix = false -> Rg g non (w :: ws) -> ~ option_word w ->
  exists g1, Rg g1 (non ++ [w]) ws /\ get g = get g1.
Proof.
  intros Px H Nw. destruct (find_skip g non w ws H Nw) as (g1 & H1 & L & E). exists g1. split; [exact H1|].
  rewrite (get_Rg g _ _ H), (get_Rg g1 _ _ H1), Px. cbn [negb]. rewrite L.
  assert (0 < len (g_argv g)) as L0 by (pose proof (Rg_length _ _ _ H) as X; cbn in X; lia).
  assert (len ws <= len (g_argv g) - 1) by (pose proof (Rg_length _ _ _ H) as X; cbn in X; lia).
  destruct (len (g_argv g)) as [|f] eqn:F; [lia|]. rewrite E.
  rewrite (find_fuel ws g1 _ f (S f) H1) by lia. reflexivity.
Qed.

Lemma get_word g non p ws : Rg g non (("-"%char :: p) :: ws) -> p <> [] -> p <> lit "-" ->
  exists g1, Mid g1 non ("-"%char :: p) ws p /\ get g = get g1.
Proof.
  intros H N1 N2. destruct (find_word g non p ws (negb posix) (len (g_argv g)) H N1 N2) as (g1 & E & M & _).
  exists g1. split; [exact M|]. rewrite (get_Rg g _ _ H), E, (get_Mid g1 _ _ _ _ M N1). reflexivity.
Qed.

(** Inside a word. *)
Lemma Mid_nth g non w ws p : Mid g non w ws p -> nth_error (g_argv g) (g_optind g) = Some w.
Proof. intros (_ & _ & _ & d & o & -> & -> & _). apply at_optind. Qed.

Lemma get_letter g non w ws c p : Mid g non w ws (c :: p) -> c <> "-"%char ->
  exists g1, get g = Val (mkRet BADCH None (schar c) 0, g1) /\
             (p = [] -> Rg g1 non ws) /\ (p <> [] -> Mid g1 non w ws p).
Proof.
  intros M Nc. rewrite (get_Mid g _ _ _ _ M) by discriminate. unfold dispatch. rewrite (Mid_nth _ _ _ _ _ M).
  pose proof M as (P & _). rewrite P. rewrite (proj2 (aeqb_neq c "-"%char) Nc), andb_false_r.
  eexists. split; [|split].
  - unfold short_option. rewrite P. change (lit ":") with [":"%char]. cbn [strchr].
    rewrite (proj2 (aeqb_neq c "-"%char) Nc). cbn [andb].
    destruct (aeqb ":" c) eqn:Ec.
    + apply aeqb_eq in Ec. subst c. change (aeqb ":" ":") with true. cbn [orb]. reflexivity.
    + reflexivity.
  - intros ->. replace (S (g_optind g)) with (g_optind g + len [w]) by (cbn; lia).
    apply (advance g non w ws [w] ws [] _ M); cbn; auto; lia.
  - intros Np. destruct p; [congruence|]. apply (move _ _ _ _ _ _ M).
Qed.

Lemma get_dash g non w ws : Mid g non w ws (lit "-") -> len w <> 1 ->
  get g = Val (mkRet BADARG None 0 0, mkG (g_argv g) (g_optind g) [] (g_nstart g) (g_nend g) false).
Proof.
  intros M L. rewrite (get_Mid g _ _ _ _ M) by discriminate. unfold dispatch. rewrite (Mid_nth _ _ _ _ _ M).
  pose proof M as (P & _). rewrite P. change (lit "-") with ["-"%char]. cbn [List.length].
  rewrite (proj2 (Nat.eqb_neq 1 (len w))) by lia. reflexivity.
Qed.

Lemma get_long g non w ws s : Mid g non w ws ("-"%char :: s) -> s <> [] -> len w <> S (len s) ->
  exists e ws' r g1, get g = Val (r, g1) /\ Rg g1 non ws' /\
    long_option (options_of los) w s ws e ws' /\ long_return los e r /\
    exists l, event_last e l /\ prev_word g1 = Val (Some l).
Proof.
  intros M Ns L. rewrite (get_Mid g _ _ _ _ M) by discriminate. unfold dispatch. rewrite (Mid_nth _ _ _ _ _ M).
  pose proof M as (P & Z & _ & done & opts & Ea & Eo & W). rewrite P. cbn [List.length tl].
  rewrite (proj2 (Nat.eqb_neq (S (len s)) (len w))) by lia. change (aeqb "-" "-") with true. cbn [negb andb].
  set (pre := done ++ non ++ opts).
  assert (g_argv g = pre ++ w :: ws) as Ea' by (unfold pre; rewrite Ea, <- !app_assoc; reflexivity).
  assert (g_optind g = len pre) as Eo' by (unfold pre; rewrite Eo, !app_length; lia).
  destruct (parse_long los pre w s ws OK) as (e & ws' & r & k & E & LO & LR & K).
  exists e, ws', r. destruct s as [|c s]; [congruence|].
  eexists. split; [rewrite Ea', Eo', E; cbn [cbind]; reflexivity|].
  destruct K as [(-> & -> & El)|(-> & v & -> & El)].
  - split; [|split; [exact LO|split; [exact LR|]]].
    + rewrite <- Ea', <- Eo'. change 1 with (len [w]). apply (advance g non w ws [w] ws [] _ M); cbn; auto; lia.
    + exists w. split; [exact El|]. unfold prev_word. cbn [g_optind g_argv]. rewrite Nat.add_1_r.
      unfold argv_at. rewrite nth_error_mid. reflexivity.
  - split; [|split; [exact LO|split; [exact LR|]]].
    + rewrite <- Ea', <- Eo'. change 2 with (len [w; v]). apply (advance g non w (v :: ws') [w; v] ws' [] _ M); cbn; auto; lia.
    + exists v. split; [exact El|]. unfold prev_word. cbn [g_optind g_argv]. rewrite Nat.add_succ_r, Nat.add_1_r.
      unfold argv_at. replace (pre ++ w :: v :: ws') with ((pre ++ [w]) ++ v :: ws') by (rewrite <- app_assoc; reflexivity).
      replace (S (len pre)) with (len (pre ++ [w])) by (rewrite app_length; cbn; lia).
      rewrite nth_error_mid. reflexivity.
Qed.
End Calls.
