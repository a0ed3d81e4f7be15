(** The calls of [call] and [done] (Spec/GetoptSpec.v) are those of the code. *)
From Coq Require Import ZArith Bool List Ascii String Arith Lia.
From Verif.Base Require Import CInt CStr.
From Verif.Model Require Import Permute Getopt GetoptFull.
From Verif.Spec Require Import CmdLine GetoptSpec GetoptAnswer.
From Verif.Proofs Require Import PermuteProofs GetoptLong GetoptProofs GetoptNames GetoptSteps.
Import ListNotations.
Open Scope list_scope.
Open Scope nat_scope.

Lemma letter_code_done c : letter_code c = DONE -> c = "255"%char.
Proof. destruct c as [[] [] [] [] [] [] [] []]; vm_compute; intros; congruence. Qed.

Section Calls.
Variables (opterr posix : bool) (q : request).
Hypothesis FQ : fine q.
Local Notation opts := (option_string q).
Local Notation los := (option_map (map as_long) (q_names q)).
Local Notation answer_ := (answer opterr posix q).
Local Notation core_ := (core opterr posix q).
Local Notation letter := (parse_letter opterr posix (q_only q) opts los).
Local Notation at_ := (at_option opterr posix (q_only q) opts los).
Local Notation "'state' g i p" := (mkG (g_argv g) i p (g_nstart g) (g_nend g) false) (at level 0, g at level 0, i at level 0, p at level 0).

(** ** Between words *)
Definition go (x : found) : cres (out * gopt) :=
  match x with
  | FEnd g => Val (mkOut DONE None None None None None, g)
  | FWord w g => Val (mkOut INORDER (Some w) None None None None, g)
  | FOption g => at_ g
  end.

Lemma core_Rg g non ws : Rg g non ws -> core_ g = cbind (find_any (len (g_argv g)) (allargs q) (permute q) g) go.
Proof.
  intros (P & Z & R & _). unfold core. rewrite (proj2 (Nat.eqb_neq _ _) Z).
  destruct (g_reset g) eqn:Er; [|reflexivity].
  destruct (R eq_refl) as [Ns Ne].
  assert (mkG (g_argv g) (g_optind g) (g_place g) None None true = g) as -> by (destruct g; cbn in *; congruence).
  reflexivity.
Qed.
Lemma core_Mid_any g non w ws p : Mid g non w ws p -> core_ g = cbind (find_any (len (g_argv g)) (allargs q) (permute q) g) go.
Proof. intros (P & Z & R & _). unfold core. rewrite (proj2 (Nat.eqb_neq _ _) Z), R. reflexivity. Qed.

Lemma core_Mid g non w ws p : Mid g non w ws p -> p <> [] -> core_ g = at_ g.
Proof.
  intros M Np. rewrite (core_Mid_any _ _ _ _ _ M). destruct M as (P & Z & R & _).
  assert (forall f a b, find_any f a b g = Val (FOption g)) as ->; [|reflexivity].
  intros f a b. destruct f; cbn [find_any]; rewrite P, R; destruct p; try congruence; reflexivity.
Qed.

(** The search for words that are options. *)
Lemma find_same fuel g : (allargs q = true -> match nth_error (g_argv g) (g_optind g) with Some w => option_word w | None => True end) ->
  find_any fuel (allargs q) (permute q) g = cbind (find_option fuel (permute q) g) (fun x => Val (as_found x)).
Proof.
  intros H. destruct (allargs q).
  - apply find_any_other. apply H. reflexivity.
  - apply find_any_plain.
Qed.
Lemma Rg_nth g non ws : Rg g non ws -> nth_error (g_argv g) (g_optind g) = hd_error ws.
Proof.
  intros (_ & _ & _ & d & o & -> & -> & _). destruct ws as [|w ws]; [apply at_end|apply at_optind].
Qed.

Lemma core_end g non : Rg g non [] -> exists g', core_ g = Val (mkOut DONE None None None None None, g') /\ skipn (g_optind g') (g_argv g') = non.
Proof.
  intros H. destruct (find_end g non (permute q) (len (g_argv g)) H) as (g' & E & Sk). exists g'. split; [|exact Sk].
  rewrite (core_Rg _ _ _ H), find_same by (rewrite (Rg_nth _ _ _ H); cbn; auto). rewrite E. reflexivity.
Qed.
Lemma dashes_option : option_word (lit "--").
Proof. exists "-"%char, []. reflexivity. Qed.
Lemma core_dashes g non ws : Rg g non (lit "--" :: ws) ->
  exists g', core_ g = Val (mkOut DONE None None None None None, g') /\ skipn (g_optind g') (g_argv g') = non ++ ws.
Proof.
  intros H. destruct (find_dashes g non ws (permute q) (len (g_argv g)) H) as (g' & E & Sk). exists g'. split; [|exact Sk].
  rewrite (core_Rg _ _ _ H), find_same by (rewrite (Rg_nth _ _ _ H); intros _; exact dashes_option). rewrite E. reflexivity.
Qed.
Lemma core_stop g w ws : q_style q = Stop -> Rg g [] (w :: ws) -> ~ option_word w ->
  exists g', core_ g = Val (mkOut DONE None None None None None, g') /\ skipn (g_optind g') (g_argv g') = w :: ws.
Proof.
  intros St H Nw. destruct (find_stop g w ws (len (g_argv g)) H Nw) as (g' & E & Sk). exists g'. split; [|exact Sk].
  rewrite (core_Rg _ _ _ H), find_same by (unfold allargs; rewrite St; discriminate). unfold permute. rewrite St, E. reflexivity.
Qed.
Lemma core_skip g non w ws : q_style q = Collect -> Rg g non (w :: ws) -> ~ option_word w ->
  exists g1, Rg g1 (non ++ [w]) ws /\ core_ g = core_ g1.
Proof.
  intros St H Nw. destruct (find_skip g non w ws H Nw) as (g1 & H1 & L & E). exists g1. split; [exact H1|].
  assert (allargs q = false) as Al by (unfold allargs; rewrite St; reflexivity). assert (permute q = true) as Pe by (unfold permute; rewrite St; reflexivity).
  rewrite (core_Rg _ _ _ H), (core_Rg _ _ _ H1), !find_same by (rewrite Al; discriminate). rewrite Pe, L.
  assert (0 < len (g_argv g)) as L0 by (pose proof (Rg_length _ _ _ H) as X; cbn in X; lia).
  assert (len ws <= len (g_argv g) - 1) by (pose proof (Rg_length _ _ _ H) as X; cbn in X; lia).
  destruct (len (g_argv g)) as [|f] eqn:F; [lia|]. rewrite E.
  rewrite (find_fuel ws g1 _ f (S f) H1) by lia. reflexivity.
Qed.
Lemma core_inorder g w ws : q_style q = InOrder -> Rg g [] (w :: ws) -> ~ option_word w ->
  exists g', core_ g = Val (answer_ (Word w), g') /\ Rg g' [] ws.
Proof.
  intros St H Nw. assert (allargs q = true) as Al by (unfold allargs; rewrite St; reflexivity).
  rewrite (core_Rg _ _ _ H), Al. pose proof (Rg_nth _ _ _ H) as Nth. cbn in Nth. destruct H as (P & Z & R & d & o & Ea & Eo & W).
  rewrite (find_any_word _ _ g P w Nth Nw). cbn [cbind go]. eexists. split; [reflexivity|].
  split; [reflexivity|]. split; [discriminate|]. split; [discriminate|]. cbn [g_argv g_optind g_nstart g_nend].
  destruct W as [(_ & o0 & Ns & Ne)|[(n0 & _)|(n0 & _)]]; [|cbn in n0; lia|cbn in n0; lia].
  destruct o; [|discriminate]. cbn [app len] in *. exists (d ++ [w]), []. rewrite Ea, Eo, app_length, <- app_assoc. cbn [app len].
  split; [reflexivity|]. split; [lia|]. left. rewrite Ns, Ne. auto.
Qed.

(** A word that is an option, before which reading stands (perhaps again). *)
Definition again (g : gopt) (non : list str) (p : str) (ws : list str) : Prop := p <> [] /\ p <> lit "-" /\ Mid g non ("-"%char :: p) ws [].
Lemma core_word g non p ws : Rg g non (("-"%char :: p) :: ws) -> p <> [] -> p <> lit "-" ->
  exists g1, Mid g1 non ("-"%char :: p) ws p /\ core_ g = core_ g1.
Proof.
  intros H N1 N2. destruct (find_word g non p ws (permute q) (len (g_argv g)) H N1 N2) as (g1 & E & M & _).
  exists g1. split; [exact M|]. rewrite (core_Rg g _ _ H), find_same.
  - rewrite E. cbn [cbind as_found go]. rewrite (core_Mid g1 _ _ _ _ M N1). reflexivity.
  - rewrite (Rg_nth _ _ _ H). intros _. destruct p as [|c p]; [congruence|]. exists c, p. reflexivity.
Qed.
Lemma core_again g non p ws : again g non p ws -> exists g1, Mid g1 non ("-"%char :: p) ws p /\ core_ g = core_ g1.
Proof.
  intros (N1 & N2 & M). exists (state g (g_optind g) p). pose proof (move _ _ _ _ _ p M) as M1. split; [exact M1|].
  rewrite (core_Mid_any _ _ _ _ _ M), (core_Mid _ _ _ _ _ M1 N1). pose proof (Mid_nth _ _ _ _ _ M) as Nth. destruct p as [|c p]; [congruence|].
  rewrite find_same by (rewrite Nth; intros _; exists c, p; reflexivity).
  assert (forall f, find_option f (permute q) g = Val (inr (state g (g_optind g) (c :: p)))) as ->; [|reflexivity].
  assert ((aeqb c "-"%char && match p with [] => true | _ => false end) = false) as Nd.
  { destruct (aeqb c "-"%char) eqn:Ec; [|reflexivity]. apply aeqb_eq in Ec. subst c.
    destruct p; [exfalso; apply N2; reflexivity|reflexivity]. }
  destruct M as (P & Z & R & d & o & Ea & Eo & W).
  assert (match g_nstart g, g_nend g with Some _, None => Some (g_optind g) | _, ne => ne end = g_nend g) as En.
  { destruct W as [(_ & _ & -> & ->)|(_ & -> & ->)]; reflexivity. }
  intros f. destruct f; cbn [find_option]; rewrite P, andb_false_r, Nth; rewrite Nd; change (aeqb "-" "-") with true; cbv iota; rewrite En; reflexivity.
Qed.

(** ** Letters *)
Definition here (g : gopt) (p : str) : gopt := state g (match p with [] => S (g_optind g) | _ => g_optind g end) p.

Lemma letter_unknown g non w ws c p : Mid g non w ws (c :: p) -> ~ letter_known q c -> (c = "-"%char -> p <> []) ->
  letter g = Val (answer_ (NoLetter c), here g p).
Proof.
  intros (P & _) Nk Nd. unfold parse_letter, here. rewrite P.
  assert (aeqb c "-" && match p with [] => true | _ => false end = false) as D.
  { destruct (aeqb c "-") eqn:Ec; [|reflexivity]. apply aeqb_eq in Ec. destruct p; [destruct (Nd Ec eq_refl)|reflexivity]. }
  rewrite D. assert (forall b : bool, (if match p with [] => true | _ => false end then S (g_optind g) else g_optind g) = match p with [] => S (g_optind g) | _ => g_optind g end) as Ep by (intros _; destruct p; reflexivity).
  rewrite (Ep true). rewrite letter_code_schar, said_ok by exact FQ. 
  assert ((if posix then illoptchar c else gnuoptchar c) = (if posix then lit "illegal option -- " else lit "invalid option -- ") ++ [c]) as -> by (destruct posix; reflexivity).
  destruct (aeqb c ":" || _) eqn:Ec; [reflexivity|]. apply orb_false_iff in Ec. destruct Ec as (Ec & _). apply aeqb_neq in Ec.
  destruct (letter_case q c FQ Ec) as [(t & rest & Lt & _)|(_ & ->)]; [destruct Nk; exists t; exact Lt|reflexivity].
Qed.

Definition long_at (g : gopt) (ns : list name) (i : nat) (s : str) : cres (out * gopt) :=
  cbind (GetoptFull.parse_long opterr (q_only q) opts (map as_long ns) (lit "-W ") false (g_argv g) i s) (fun '(r, i) => Val (r, state g i [])).

Lemma letter_shape g non w ws c p t : Mid g non w ws (c :: p) -> letter_is q c t ->
  letter g =
  let next (f : str -> cres (out * gopt)) :=
    match nth_error (g_argv g) (S (g_optind g)) with None => Val (answer_ (LetterLacks c), state g (S (g_optind g)) []) | Some v => f v end in
  match t, p with
  | Nothing, _ => Val (answer_ (Letter c None), here g p)
  | Value, [] => next (fun v => Val (answer_ (Letter c (Some v)), state g (S (S (g_optind g))) []))
  | Value, _ | MaybeValue, _ :: _ => Val (answer_ (Letter c (Some p)), state g (S (g_optind g)) [])
  | MaybeValue, [] => Val (answer_ (Letter c None), state g (S (g_optind g)) [])
  | LongName, [] => next (fun v => long_at g (names q) (S (g_optind g)) v)
  | LongName, _ => long_at g (names q) (g_optind g) p
  end.
Proof.
  intros (P & _) Lt. destruct (letter_fine q c t FQ Lt) as (Fc & Fl).
  assert (c <> "-"%char) as Nd by (intros ->; apply Fc; cbn; tauto). assert (c <> ":"%char) as Nc by (intros ->; apply Fc; cbn; tauto).
  unfold parse_letter, here. rewrite P, (proj2 (aeqb_neq _ _) Nd), (proj2 (aeqb_neq _ _) Nc). cbn [andb orb].
  destruct (letter_case q c FQ Nc) as [(t' & rest & Lt' & -> & Ho)|(Nk & _)]; [|destruct Nk; exists t; exact Lt].
  rewrite (letter_unique _ _ _ _ Lt' Lt). cbn [names]. rewrite letter_code_schar, said_ok, badarg_ok by exact FQ. unfold answer. change (lit "option requires an argument -- " ++ [c]) with (recargchar c).
  assert (forall x y : gopt, (if match p with [] => true | _ => false end then x else y) = match p with [] => x | _ => y end) as Ep by (intros; destruct p; reflexivity).
  destruct t; cbn [tail_of].
  - cbn [app]. assert (match rest with c0 :: _ => aeqb c0 ";" | [] => false end = false) as Es.
    { destruct rest as [|r0 rest]; [reflexivity|]. destruct Ho as (H1 & H2). apply aeqb_neq. assumption. }
    rewrite Es, andb_false_r.
    assert (match rest with c0 :: _ => aeqb c0 ":" | [] => false end = false) as Ec.
    { destruct rest as [|r0 rest]; [reflexivity|]. destruct Ho as (H1 & H2). apply aeqb_neq. assumption. }
    destruct los; (destruct rest as [|r0 rest]; [|rewrite Ec; cbn [negb]]; destruct p; reflexivity).
  - change (lit ":") with [":"%char]. cbn [app]. change (aeqb ":" ";") with false. rewrite andb_false_r. change (aeqb ":" ":") with true. cbn [negb].
    assert (match rest with c0 :: _ => negb (aeqb c0 ":") | [] => true end = true) as Ec.
    { destruct rest as [|r0 rest]; [reflexivity|]. destruct Ho as (H1 & H2). apply negb_true_iff, aeqb_neq. assumption. }
    rewrite Ec. destruct los; destruct p; reflexivity.
  - change (lit "::") with [":"; ":"]%char. cbn [app]. change (aeqb ":" ";") with false. rewrite andb_false_r. change (aeqb ":" ":") with true. cbn [negb].
    destruct los; destruct p; reflexivity.
  - destruct (Fl eq_refl) as (-> & Qn). change (lit ";") with [";"%char]. cbn [app]. change (aeqb ";" ";") with true. change (aeqb "W" "W") with true. cbn [andb].
    unfold names, long_at. destruct (q_names q) as [ns|]; [|congruence]. cbn [option_map]. destruct p; reflexivity.
Qed.

(** Inside a word. *)
Definition Win (g : gopt) (non : list str) (w p : str) (ws : list str) : Prop :=
  Mid g non w ws p /\ p <> [] /\ exists p0, w = "-"%char :: p0 /\ len p <= len p0 /\ p0 <> lit "-".
Lemma Win_len g non w p ws : Win g non w p ws -> (len p =? len w) = false.
Proof. intros (_ & _ & p0 & -> & L & _). apply Nat.eqb_neq. cbn. lia. Qed.

Lemma at_letter g non w c p ws : Win g non w (c :: p) ws -> tried_as_letter q c p -> at_ g = letter g.
Proof.
  intros W (Nd & T). pose proof (Win_len _ _ _ _ _ W) as Ln. destruct W as (M & _). pose proof (Mid_nth _ _ _ _ _ M) as Nth. pose proof M as (P & _ & R & _).
  unfold at_option. rewrite Nth, P, Ln, (proj2 (aeqb_neq _ _) Nd).
  destruct (q_names q) as [ns|] eqn:Qn; cbn [option_map]; [|reflexivity]. destruct (q_only q) eqn:Qo; [|reflexivity].
  destruct T as [T|[T|(K & a & v & Sp & Sn)]]; [discriminate|discriminate|].
  destruct K as (t & Lt). destruct (letter_fine q c t FQ Lt) as (Fc & _). assert (c <> ":"%char) as Nc by (intros ->; apply Fc; cbn; tauto).
  rewrite (proj2 (aeqb_neq _ _) Nc). destruct (letter_case q c FQ Nc) as [(t' & rest & _ & -> & _)|(Nk & _)]; [|destruct Nk; exists t; exact Lt].
  cbn [negb andb]. pose proof (parse_not opterr q FQ ns (lit "-") (c :: p) a v (g_argv g) (g_optind g) Qn Sp Sn) as Pn. rewrite Qo in Pn. rewrite Pn. cbn [cbind r_value].
  change (DONE =? DONE)%Z with true. cbv iota. replace (mkG (g_argv g) (g_optind g) (c :: p) (g_nstart g) (g_nend g) false) with g; [reflexivity|].
  destruct g; cbn in *; congruence.
Qed.

(** ** Names *)
Lemma Mid_skip g non w ws p : Mid g non w ws p -> skipn (S (g_optind g)) (g_argv g) = ws /\ S (g_optind g) <= len (g_argv g).
Proof.
  intros (_ & _ & _ & d & o & -> & -> & _). replace (d ++ non ++ o ++ w :: ws) with ((d ++ non ++ o ++ [w]) ++ ws) by (rewrite <- !app_assoc; reflexivity).
  split; [apply skip_to; rewrite !app_length; cbn; lia|rewrite !app_length; cbn; lia].
Qed.
Lemma names_some ns : q_names q = Some ns -> names q = ns.
Proof. unfold names. intros ->. reflexivity. Qed.

(** The name is in the word itself. *)
Lemma name_in g non w p0 ws ns short dash s e ws' : Mid g non w ws p0 -> q_names q = Some ns -> by_name q short dash s ws e ws' ->
  exists i, GetoptFull.parse_long opterr (q_only q) opts (map as_long ns) dash short (g_argv g) (g_optind g) s = Val (answer_ e, i) /\
  r_value (answer_ e) <> DONE /\ Rg (state g i []) non ws'.
Proof.
  intros M Qn B. destruct (Mid_skip _ _ _ _ _ M) as (Sk & L).
  destruct (parse_ok opterr posix q FQ ns short dash s ws e ws' (g_argv g) (g_optind g) Qn B Sk L) as (E & D & used & Eu & Lu).
  eexists. split; [exact E|]. split; [exact D|]. rewrite <- Lu. replace (S (g_optind g) + len used) with (g_optind g + len (w :: used)) by (cbn; lia).
  apply (advance g non w ws (w :: used) ws' [] _ M); cbn; [congruence|lia|reflexivity].
Qed.
(** It is the next word. *)
Lemma name_next_word g non w p0 v ws ns short dash e ws' : Mid g non w (v :: ws) p0 -> q_names q = Some ns -> by_name q short dash v ws e ws' ->
  exists i, GetoptFull.parse_long opterr (q_only q) opts (map as_long ns) dash short (g_argv g) (S (g_optind g)) v = Val (answer_ e, i) /\
  r_value (answer_ e) <> DONE /\ Rg (state g i []) non ws'.
Proof.
  intros M Qn B. destruct (Mid_skip _ _ _ _ _ M) as (Sk & L).
  assert (skipn (S (S (g_optind g))) (g_argv g) = ws /\ S (S (g_optind g)) <= len (g_argv g)) as (Sk' & L').
  { destruct M as (_ & _ & _ & d & o & -> & -> & _). replace (d ++ non ++ o ++ w :: v :: ws) with ((d ++ non ++ o ++ [w; v]) ++ ws) by (rewrite <- !app_assoc; reflexivity).
    split; [apply skip_to; rewrite !app_length; cbn; lia|rewrite !app_length; cbn; lia]. }
  destruct (parse_ok opterr posix q FQ ns short dash v ws e ws' (g_argv g) (S (g_optind g)) Qn B Sk' L') as (E & D & used & Eu & Lu).
  eexists. split; [exact E|]. split; [exact D|]. rewrite <- Lu. replace (S (S (g_optind g)) + len used) with (g_optind g + len (w :: v :: used)) by (cbn; lia).
  apply (advance g non w (v :: ws) (w :: v :: used) ws' [] _ M); cbn; [congruence|lia|reflexivity].
Qed.

(** ** One call *)
Definition R (x : position) (g : gopt) : Prop :=
  match x with
  | Before others ws => Rg g others ws \/ exists p ws', ws = ("-"%char :: p) :: ws' /\ again g others p ws'
  | Within others w p ws => Win g others w p ws
  end.

Lemma R_word others ws g : R (Before others ws) g -> match ws with [] => True | w :: _ => ~ option_word w \/ w = lit "--" end -> Rg g others ws.
Proof.
  intros [H|(p & ws' & -> & N1 & N2 & M)] H0; [exact H|]. exfalso. destruct H0 as [H0|H0].
  - apply H0. destruct p as [|c p]; [congruence|]. exists c, p. reflexivity.
  - apply N2. injection H0 as ->. reflexivity.
Qed.
Lemma R_option others p ws g : R (Before others (("-"%char :: p) :: ws)) g -> p <> [] -> p <> lit "-" ->
  exists g1, R (Within others ("-"%char :: p) p ws) g1 /\ core_ g = core_ g1.
Proof.
  intros H N1 N2. assert (exists g1, Mid g1 others ("-"%char :: p) ws p /\ core_ g = core_ g1) as (g1 & M & E).
  { destruct H as [H|(p' & ws' & E & A)]; [apply core_word; assumption|]. injection E as <- <-. apply core_again. exact A. }
  exists g1. split; [|exact E]. split; [exact M|]. split; [exact N1|]. exists p. auto.
Qed.
Lemma R_behind g others w c p ws : Win g others w (c :: p) ws -> R (behind others w p ws) (here g p).
Proof.
  intros (M & _ & p0 & Ew & L & N0). unfold here. destruct p as [|c1 p]; cbn [behind R].
  - left. replace (S (g_optind g)) with (g_optind g + len [w]) by (cbn; lia). apply (advance g others w ws [w] ws [] _ M); cbn; auto; lia.
  - split; [apply (move _ _ _ _ _ _ M)|]. split; [discriminate|]. exists p0. split; [exact Ew|]. split; [cbn in *; lia|exact N0].
Qed.
Lemma R_next g others w p ws : Win g others w p ws -> R (Before others ws) (state g (S (g_optind g)) []).
Proof.
  intros (M & _). left. replace (S (g_optind g)) with (g_optind g + len [w]) by (cbn; lia). apply (advance g others w ws [w] ws [] _ M); cbn; auto; lia.
Qed.
Lemma Mid_nth_next g non w ws p : Mid g non w ws p -> nth_error (g_argv g) (S (g_optind g)) = hd_error ws.
Proof.
  intros (_ & _ & _ & d & o & -> & -> & _). replace (d ++ non ++ o ++ w :: ws) with ((d ++ non ++ o ++ [w]) ++ ws) by (rewrite <- !app_assoc; reflexivity).
  replace (S (len d + len non + len o)) with (len (d ++ non ++ o ++ [w])) by (rewrite !app_length; cbn; lia).
  destruct ws; [rewrite app_nil_r; apply nth_error_None; lia|apply nth_error_mid].
Qed.
Lemma letter_not_done c v t : letter_is q c t -> r_value (answer_ (Letter c v)) <> DONE.
Proof. intros Lt E. apply letter_code_done in E. subst c. destruct (letter_fine q _ t FQ Lt) as (Fc & _). apply Fc. cbn. tauto. Qed.
Lemma lacks_not_done c : r_value (answer_ (LetterLacks c)) <> DONE.
Proof. cbn. destruct (q_colon q); discriminate. Qed.

Theorem call_step x e y : call q x e y -> forall g, R x g ->
  exists g', core_ g = Val (answer_ e, g') /\ R y g' /\ r_value (answer_ e) <> DONE.
Proof.
  induction 1 as [others w ws e x St Nw _ IH|w ws St Nw|others p ws e x N1 N2 _ IH|others w s ws e ws' Qn Ns B|others w c p ws short e ws' Qn Qo Nd Sh B
    |others w ws Qn|others w c p ws T Nk|others w p ws Qn Np|others w c p ws T Lt|others w c p ws t T Lt Ht Np|others w c v ws T Lt
    |others w c t T Lt Ht|others w c ws T Lt|others w c p ws e ws' T Lt Np B|others w c v ws e ws' T Lt B]; intros g H.
  - apply R_word in H; [|left; exact Nw]. destruct (core_skip g others w ws St H Nw) as (g1 & H1 & E). rewrite E. apply IH. left. exact H1.
  - apply R_word in H; [|left; exact Nw]. destruct (core_inorder g w ws St H Nw) as (g' & E & H1). exists g'. split; [exact E|]. split; [left; exact H1|discriminate].
  - destruct (R_option _ _ _ _ H N1 N2) as (g1 & H1 & E). rewrite E. apply IH. exact H1.
  - pose proof (Win_len _ _ _ _ _ H) as Ln. destruct H as (M & _). destruct (q_names q) as [ns|] eqn:Q; [|congruence].
    destruct (name_in g others w _ ws ns false (lit "--") s e ws' M Q B) as (i & E & D & H1).
    exists (state g i []). split; [|split; [left; exact H1|exact D]].
    rewrite (core_Mid g _ _ _ _ M) by discriminate. unfold at_option. pose proof M as (P & _). rewrite (Mid_nth _ _ _ _ _ M), P, Q, Ln.
    change (aeqb "-" "-") with true. cbn [option_map]. destruct s as [|s0 s]; [congruence|]. rewrite E. cbn [cbind].
    rewrite (proj2 (Z.eqb_neq _ _) D). reflexivity.
  - pose proof (Win_len _ _ _ _ _ H) as Ln. destruct H as (M & _). destruct (q_names q) as [ns|] eqn:Q; [|congruence].
    destruct (name_in g others w _ ws ns short (lit "-") (c :: p) e ws' M Q B) as (i & E & D & H1).
    exists (state g i []). split; [|split; [left; exact H1|exact D]].
    rewrite (core_Mid g _ _ _ _ M) by discriminate. unfold at_option. pose proof M as (P & _). rewrite (Mid_nth _ _ _ _ _ M), P, Q, Ln.
    rewrite (proj2 (aeqb_neq _ _) Nd), Qo. cbn [option_map]. rewrite Qo in E.
    assert (negb (aeqb c ":") && match strchr opts c with Some _ => true | None => false end = short) as ->.
    { destruct (aeqb c ":") eqn:Ec; cbn [negb andb].
      - apply aeqb_eq in Ec. subst c. destruct short; [|reflexivity]. exfalso. destruct (proj1 Sh eq_refl) as (t & Lt). destruct (letter_fine q _ t FQ Lt) as (Fc & _). apply Fc. cbn. tauto.
      - apply aeqb_neq in Ec. destruct (letter_case q c FQ Ec) as [(t & rest & Lt & -> & _)|(Nk & ->)].
        + symmetry. apply Sh. exists t. exact Lt.
        + destruct short; [destruct Nk; apply Sh; reflexivity|reflexivity]. }
    rewrite E. cbn [cbind]. rewrite (proj2 (Z.eqb_neq _ _) D). reflexivity.
  - pose proof (Win_len _ _ _ _ _ H) as Ln. destruct H as (M & _ & p0 & Ew & L & N0). destruct (q_names q) as [ns|] eqn:Q; [|congruence].
    exists (state g (g_optind g) []). split; [|split; [|cbn; destruct (q_colon q); discriminate]].
    + rewrite (core_Mid g _ _ _ _ M) by discriminate. unfold at_option. pose proof M as (P & _). change (lit "-") with ["-"%char] in P, Ln. rewrite (Mid_nth _ _ _ _ _ M), P, Q, Ln. cbn [option_map].
      change (aeqb "-" "-") with true. rewrite badarg_ok by exact FQ. reflexivity.
    + right. exists p0, ws. rewrite Ew. split; [reflexivity|]. split; [intros ->; cbn in L; lia|]. split; [exact N0|]. rewrite <- Ew. apply (move _ _ _ _ _ _ M).
  - exists (here g p). split; [|split; [apply (R_behind _ _ _ _ _ _ H)|discriminate]].
    pose proof H as (M & _). rewrite (core_Mid g _ _ _ _ M), (at_letter _ _ _ _ _ _ H T) by discriminate. apply (letter_unknown _ _ _ _ _ _ M Nk). intros ->. destruct (proj1 T eq_refl).
  - exists (here g p). split; [|split; [apply (R_behind _ _ _ _ _ _ H)|discriminate]].
    pose proof H as (M & _). rewrite (core_Mid g _ _ _ _ M) by discriminate.
    assert (at_ g = letter g) as ->.
    { unfold at_option. rewrite (Mid_nth _ _ _ _ _ M), Qn. reflexivity. }
    apply (letter_unknown _ _ _ _ _ _ M); [|auto]. intros (t & Lt). destruct (letter_fine q _ t FQ Lt) as (Fc & _). apply Fc. cbn. tauto.
  - exists (here g p). split; [|split; [apply (R_behind _ _ _ _ _ _ H)|exact (letter_not_done _ _ _ Lt)]].
    pose proof H as (M & _). rewrite (core_Mid g _ _ _ _ M), (at_letter _ _ _ _ _ _ H T), (letter_shape _ _ _ _ _ _ _ M Lt) by discriminate. reflexivity.
  - exists (state g (S (g_optind g)) []). split; [|split; [apply (R_next _ _ _ _ _ H)|exact (letter_not_done _ _ _ Lt)]].
    pose proof H as (M & _). rewrite (core_Mid g _ _ _ _ M), (at_letter _ _ _ _ _ _ H T), (letter_shape _ _ _ _ _ _ _ M Lt) by discriminate.
    destruct p; [congruence|]. destruct Ht as [-> | ->]; reflexivity.
  - exists (state g (S (S (g_optind g))) []). pose proof H as (M & _). split; [|split; [|exact (letter_not_done _ _ _ Lt)]].
    + rewrite (core_Mid g _ _ _ _ M), (at_letter _ _ _ _ _ _ H T), (letter_shape _ _ _ _ _ _ _ M Lt) by discriminate.
      rewrite (Mid_nth_next _ _ _ _ _ M). reflexivity.
    + left. replace (S (S (g_optind g))) with (g_optind g + len [w; v]) by (cbn; lia). apply (advance g others w (v :: ws) [w; v] ws [] _ M); cbn; auto; lia.
  - exists (state g (S (g_optind g)) []). pose proof H as (M & _). split; [|split; [apply (R_next _ _ _ _ _ H)|apply lacks_not_done]].
    rewrite (core_Mid g _ _ _ _ M), (at_letter _ _ _ _ _ _ H T), (letter_shape _ _ _ _ _ _ _ M Lt) by discriminate.
    rewrite (Mid_nth_next _ _ _ _ _ M). destruct Ht as [-> | ->]; reflexivity.
  - exists (state g (S (g_optind g)) []). pose proof H as (M & _). split; [|split; [apply (R_next _ _ _ _ _ H)|exact (letter_not_done _ _ _ Lt)]].
    rewrite (core_Mid g _ _ _ _ M), (at_letter _ _ _ _ _ _ H T), (letter_shape _ _ _ _ _ _ _ M Lt) by discriminate. reflexivity.
  - pose proof H as (M & _). destruct (letter_fine q _ _ FQ Lt) as (_ & Fl). destruct (Fl eq_refl) as (_ & Qn). destruct (q_names q) as [ns|] eqn:Q; [|congruence].
    destruct (name_in g others w _ ws ns false (lit "-W ") p e ws' M Q B) as (i & E & D & H1).
    exists (state g i []). split; [|split; [left; exact H1|exact D]].
    rewrite (core_Mid g _ _ _ _ M), (at_letter _ _ _ _ _ _ H T), (letter_shape _ _ _ _ _ _ _ M Lt) by discriminate.
    destruct p; [congruence|]. unfold long_at. rewrite (names_some _ Q), E. reflexivity.
  - pose proof H as (M & _). destruct (letter_fine q _ _ FQ Lt) as (_ & Fl). destruct (Fl eq_refl) as (_ & Qn). destruct (q_names q) as [ns|] eqn:Q; [|congruence].
    destruct (name_next_word g others w _ v ws ns false (lit "-W ") e ws' M Q B) as (i & E & D & H1).
    exists (state g i []). split; [|split; [left; exact H1|exact D]].
    rewrite (core_Mid g _ _ _ _ M), (at_letter _ _ _ _ _ _ H T), (letter_shape _ _ _ _ _ _ _ M Lt) by discriminate.
    rewrite (Mid_nth_next _ _ _ _ _ M). cbn [hd_error]. unfold long_at. rewrite (names_some _ Q), E. reflexivity.
Qed.

Theorem done_step x r : done q x r -> forall g, R x g ->
  exists g', core_ g = Val (mkOut DONE None None None None None, g') /\ skipn (g_optind g') (g_argv g') = r.
Proof.
  induction 1 as [others|others w ws r St Nw _ IH|w ws St Nw|others ws|others w ws Qn]; intros g H.
  - apply R_word in H; [|exact Logic.I]. apply core_end. exact H.
  - apply R_word in H; [|left; exact Nw]. destruct (core_skip g others w ws St H Nw) as (g1 & H1 & E). rewrite E. apply IH. left. exact H1.
  - apply R_word in H; [|left; exact Nw]. apply core_stop; assumption.
  - apply R_word in H; [|right; reflexivity]. apply core_dashes. exact H.
  - pose proof H as (M & _). exists (state g (g_optind g) []). split.
    + rewrite (core_Mid g _ _ _ _ M) by discriminate. unfold at_option. rewrite (Mid_nth _ _ _ _ _ M), Qn. cbn [option_map].
      unfold parse_letter. pose proof M as (P & _). rewrite P. change (lit "-") with ["-"%char]. change (aeqb "-" ":") with false. change (aeqb "-" "-") with true. cbn [orb andb negb].
      destruct (letter_case q "-"%char FQ) as [(t & rest & Lt & _)|(_ & ->)]; [discriminate| |reflexivity].
      destruct (letter_fine q _ t FQ Lt) as (Fc & _). destruct Fc. cbn. tauto.
    + cbn [g_optind g_argv]. destruct M as (_ & _ & _ & d & o & -> & -> & _). rewrite !app_assoc, <- (app_assoc _ o), <- !app_assoc.
      replace (d ++ others ++ o ++ w :: ws) with ((d ++ others ++ o) ++ w :: ws) by (rewrite <- !app_assoc; reflexivity). apply skip_to. rewrite !app_length. lia.
Qed.
End Calls.
