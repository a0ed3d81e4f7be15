(** C103: quoting the values of the Node function. *)
From Coq Require Import ZArith Bool List Ascii String Arith Lia.
From Verif.Base Require Import CInt CStr CMem.
From Verif.Model Require Import Config ArgInt Argtable Main Messages Runner Child Timeout Judger NodeBinding Callers Shell.
From Verif.Spec Require Import IntText CmdLine Invocation NodeSpec ShellSpec.
From Verif.Spec Require Import Verdict RunSpec TimeoutSpec JudgerSpec CallerSpec OutputSpec.
From Verif.Proofs Require Import ArgIntProofs ArgIntClaims InvocationProofs MainProofs InvocationClaims CommandClaims PythonProofs PythonClaims NodeProofs NodeClaims.
From Verif.Proofs Require Import JudgerClaims CallerProofs.
From Verif.Proofs Require NodeOutput.
Import ListNotations.
Open Scope list_scope.
Open Scope nat_scope.

(** ** The shell without quotes *)
Definition begun (word : str) : option str := match word with [] => None | _ => Some word end.
Lemma close_begun word words : sh_close (begun word) words = end_word word words.
Proof. destruct word; reflexivity. Qed.
Lemma add_begun word c : sh_add (begun word) [c] = begun (word ++ [c]).
Proof. destruct word; reflexivity. Qed.

Lemma neutral_not c : shell_neutral c = false -> aeqb c squote = true \/ aeqb c dquote = true \/ aeqb c backslash = true ->
  (aeqb c " "%char || aeqb c "009"%char) = false /\ (aeqb c ";"%char || aeqb c "010"%char) = false.
Proof. intros _ [X|[X|X]]; apply aeqb_eq in X; subst; split; reflexivity. Qed.

Lemma lex_sh s : forall word words cs, lex s word words = Some cs -> sh_lex s Bare (begun word) words = Some cs.
Proof.
  induction s as [|c s IH]; intros word words cs H.
  - cbn [lex sh_lex] in *. rewrite close_begun. exact H.
  - cbn [lex sh_lex] in *. destruct (shell_neutral c) eqn:N; [rewrite add_begun; apply IH, H|].
    assert (aeqb c squote = false /\ aeqb c dquote = false /\ aeqb c backslash = false) as (Q1 & Q2 & Q3).
    { destruct (aeqb c squote) eqn:Q1; [destruct (neutral_not c N (or_introl Q1)) as [X0 X]; rewrite X0, X in H; discriminate H|].
      destruct (aeqb c dquote) eqn:Q2; [destruct (neutral_not c N (or_intror (or_introl Q2))) as [X0 X]; rewrite X0, X in H; discriminate H|].
      destruct (aeqb c backslash) eqn:Q3; [destruct (neutral_not c N (or_intror (or_intror Q3))) as [X0 X]; rewrite X0, X in H; discriminate H|]. auto. }
    rewrite Q1, Q2, Q3, close_begun. change newline with "010"%char.
    destruct (aeqb c " "%char || aeqb c "009"%char); [apply (IH []), H|].
    destruct (aeqb c ";"%char || aeqb c "010"%char); [|discriminate H].
    destruct (end_word word words) as [|w ws].
    + destruct (aeqb c "010"%char); [apply (IH []), H|discriminate H].
    + destruct (simple_command (w :: ws)); [|discriminate H].
      destruct (lex s [] []) as [cs'|] eqn:L; [|discriminate H]. pose proof (IH [] [] cs' L) as X. cbn [begun] in X. rewrite X. exact H.
Qed.
Lemma shell_sh cmd cs : shell cmd = Some cs -> sh cmd = Some cs.
Proof. apply (lex_sh cmd [] []). Qed.

(** ** Words *)
Lemma sh_add_add word s t : sh_add (sh_add word s) t = sh_add word (s ++ t).
Proof. unfold sh_add. rewrite app_assoc. reflexivity. Qed.

Lemma sh_more s rest w words : nice s -> sh_lex (s ++ rest) Bare (Some w) words = sh_lex rest Bare (Some (w ++ s)) words.
Proof.
  intro F. revert w. induction F as [|c s H F IH]; intro w; [rewrite app_nil_r; reflexivity|].
  cbn [app sh_lex]. rewrite H. unfold sh_add. rewrite IH, <- app_assoc. reflexivity.
Qed.
Lemma sh_plain s rest word words : nice s -> s <> [] -> sh_lex (s ++ rest) Bare word words = sh_lex rest Bare (sh_add word s) words.
Proof.
  intros F N. destruct F as [|c s H F]; [congruence|]. cbn [app sh_lex]. rewrite H. unfold sh_add at 1.
  rewrite sh_more by exact F. rewrite <- app_assoc. reflexivity.
Qed.

Notation body s := (flat_map (fun c => if ascii_dec c quote then lit "'\''" else [c]) s).
Lemma sh_body s rest w words : sh_lex (body s ++ [quote] ++ rest) Single (Some w) words = sh_lex rest Bare (Some (w ++ s)) words.
Proof.
  revert w. induction s as [|c s IH]; intro w; [rewrite app_nil_r; reflexivity|].
  cbn [flat_map]. destruct (ascii_dec c quote) as [->|N].
  - change (lit "'\''" ++ body s) with ("'"%char :: "\"%char :: "'"%char :: "'"%char :: body s). cbn [app].
    cbn [sh_lex]. change (aeqb "'" squote) with true. change (aeqb "\" squote) with false.
    change (shell_neutral "\") with false. change (aeqb "\" dquote) with false. change (aeqb "\" backslash) with true.
    change (aeqb "'" newline) with false. change (shell_neutral "'") with false. cbv iota.
    unfold sh_add. rewrite app_nil_r. change (quote :: rest) with ([quote] ++ rest). rewrite IH, <- app_assoc. reflexivity.
  - cbn [app sh_lex]. destruct (aeqb c squote) eqn:Q; [apply aeqb_eq in Q; contradiction|].
    unfold sh_add. change (quote :: rest) with ([quote] ++ rest). rewrite IH, <- app_assoc. reflexivity.
Qed.
Lemma sh_quoted s rest word words : sh_lex (quoted s ++ rest) Bare word words = sh_lex rest Bare (sh_add word s) words.
Proof.
  unfold quoted. cbn [app sh_lex]. change (shell_neutral quote) with false. change (aeqb quote squote) with true. cbv iota.
  rewrite <- app_assoc. unfold sh_add. rewrite app_nil_r, sh_body. reflexivity.
Qed.
Lemma sh_value written meant rest w words : stands_for written meant ->
  sh_lex (written ++ rest) Bare (Some w) words = sh_lex rest Bare (Some (w ++ meant)) words.
Proof.
  intros [[-> [P _]]|[-> _]]; [apply sh_more, plain_nice, P|]. rewrite sh_quoted. reflexivity.
Qed.

(** ** Items *)
Definition item_stands (a b : item) : Prop := exists n v v', a = same n v /\ b = same n v' /\ nice (lit n) /\
  (stands_for v v' \/ (v = v' /\ nice v)).
Lemma word_split n v : word_of (same n v) = (lit "--" ++ lit n ++ lit "=") ++ v.
Proof. unfold word_of, setting_word, same. cbn. rewrite <- !app_assoc. reflexivity. Qed.
Lemma sh_item a b rest words : item_stands a b ->
  sh_lex (word_of a ++ rest) Bare None words = sh_lex rest Bare (Some (word_of b)) words.
Proof.
  intros (n & v & v' & -> & -> & Nn & S).
  rewrite !word_split.
  rewrite <- app_assoc, sh_plain; [|repeat apply nice_app; [apply lit_nice; reflexivity|exact Nn|apply lit_nice; reflexivity]|discriminate].
  unfold sh_add. cbn [app]. destruct S as [S|[<- N]]; [apply (sh_value v v'), S|apply sh_more, N].
Qed.

Lemma sh_items ts ts' : Forall2 item_stands ts ts' -> forall w words,
  sh_lex (spaced ts) Bare (Some w) words =
  match words ++ [w] ++ map word_of ts' with [] => Some [] | ws => if simple_command ws then Some [ws] else None end.
Proof.
  induction 1 as [|a b ts ts' S F IH]; intros w words; [reflexivity|].
  change (spaced (a :: ts)) with (" "%char :: (word_of a ++ spaced ts)).
  cbn [sh_lex]. change (shell_neutral " ") with false. change (aeqb " " squote) with false. change (aeqb " " dquote) with false.
  change (aeqb " " backslash) with false. change (aeqb " " " " || aeqb " " "009") with true. cbv iota.
  rewrite (sh_item a b) by exact S. rewrite IH. cbn [sh_close map app]. rewrite <- app_assoc. reflexivity.
Qed.

Lemma sh_words ts ts' : Forall2 item_stands ts ts' -> sh (judger_path ++ spaced ts) = Some [judger_path :: map word_of ts'].
Proof.
  intro F. unfold sh. rewrite sh_plain by (try discriminate; apply lit_nice; reflexivity). unfold sh_add; cbn [app].
  rewrite (sh_items ts ts' F). cbn [app].
  assert (forall l, simple_command (judger_path :: l) = true) as E by reflexivity.
  change judger_path with (lit "/usr/lib/judger/libjudger.so") in *. cbv [lit] in *. cbn [list_ascii_of_string] in *. rewrite E. reflexivity.
Qed.

(** ** Calls *)
Lemma quoted_c s : nul_free s -> c_string (quoted s).
Proof.
  intros N I. unfold quoted in I. rewrite !in_app_iff in I. destruct I as [[X|[]]|[I|[X|[]]]]; try discriminate X.
  apply in_flat_map in I. destruct I as (c & I & J). destruct (ascii_dec c quote).
  - cbn in J. repeat (destruct J as [J|J]; [discriminate J|]). destruct J.
  - destruct J as [->|[]]. exact (N I).
Qed.
Lemma stands_cstring a b : stands_for a b -> cstring a /\ c_string b.
Proof.
  intros [[-> P]|(-> & N & L)].
  - pose proof (plain_cstring b P) as C. split; [exact C|apply C].
  - split; [split; [apply quoted_c, N|exact L]|exact N].
Qed.

Lemma Forall2_in_l {A B} (R : A -> B -> Prop) l l' a : Forall2 R l l' -> In a l -> exists b, In b l' /\ R a b.
Proof. induction 1 as [|x y l l' H F IH]; [intros []|]. intros [<-|I]; [exists y; split; [left; reflexivity|exact H]|]. destruct (IH I) as (b & J & K). exists b. split; [right; exact J|exact K]. Qed.
Lemma Forall2_in_r {A B} (R : A -> B -> Prop) l l' b : Forall2 R l l' -> In b l' -> exists a, In a l /\ R a b.
Proof. induction 1 as [|x y l l' H F IH]; [intros []|]. intros [<-|I]; [exists x; split; [left; reflexivity|exact H]|]. destruct (IH I) as (a & J & K). exists a. split; [right; exact J|exact K]. Qed.

Section Call.
Variables (posix : bool) (o : string -> jsval) (q p : node_call).
Hypothesis O : object_of o q.
Hypothesis E : env_with_args o.
Hypothesis S : call_stands_for q p.
Let ws := map word_of (k_items p).
Let es := map event_of (k_items p).

Lemma written_cstrings : cstrings q.
Proof.
  destruct S as (_ & Ss & Sa & Se). split; [|split].
  - intros n s I. apply (in_map snd) in I. destruct (Forall2_in_l _ _ _ _ Ss I) as ([b|] & _ & H); [|destruct H]. apply (stands_cstring s b H).
  - apply Forall_forall. intros s I. destruct (Forall2_in_l _ _ _ _ Sa I) as (b & _ & H). apply (stands_cstring s b H).
  - apply Forall_forall. intros s I. destruct (Forall2_in_l _ _ _ _ Se I) as (b & _ & H). apply (stands_cstring s b H).
Qed.
Lemma meant_c t : In t (k_items p) -> c_string (i_value t).
Proof.
  destruct S as (_ & Ss & Sa & Se). intro I. apply k_items_in in I. destruct I as [n z I|n s I|s I|s I]; cbn [same i_value].
  - apply nice_c, fmt_d_nice.
  - apply (in_map snd) in I. destruct (Forall2_in_r _ _ _ _ Ss I) as ([a|] & _ & H); [|destruct H]. apply (stands_cstring a s H).
  - destruct (Forall2_in_r _ _ _ _ Sa I) as (a & _ & H). apply (stands_cstring a s H).
  - destruct (Forall2_in_r _ _ _ _ Se I) as (a & _ & H). apply (stands_cstring a s H).
Qed.
Lemma meant_words : Forall c_string ws.
Proof.
  apply Forall_forall. intros w I. apply in_map_iff in I. destruct I as (t & <- & I). pose proof (meant_c t I) as V.
  assert (exists n v, t = same n v /\ nice (lit n)) as (n & v & -> & N).
  { apply k_items_in in I. destruct I as [n z I|n s I|s I|s I]; eexists _, _; (split; [reflexivity|]).
    - apply (names_nice p). left. exact (in_map fst _ _ I).
    - apply (names_nice p). right. exact (in_map fst _ _ I).
    - apply lit_nice. reflexivity.
    - apply lit_nice. reflexivity. }
  rewrite word_split. cbn [same i_value] in V.
  intros J. rewrite in_app_iff in J. destruct J as [J|J]; [|exact (V J)].
  revert J. apply nice_c. repeat apply nice_app; [apply lit_nice; reflexivity|exact N|apply lit_nice; reflexivity].
Qed.

Lemma strs_stand (l l' : list (string * option str)) : map fst l = map fst l' -> (forall n, In n (map fst l) -> nice (lit n)) ->
  Forall2 (maybe stands_for) (map snd l) (map snd l') ->
  let f := fun ns : string * option str => match snd ns with Some s => [same (fst ns) s] | None => [] end in
  Forall2 item_stands (flat_map f l) (flat_map f l').
Proof.
  intros M N F f. revert l' M F N. induction l as [|[n a] l IH]; intros [|[n' b] l'] M F N; try discriminate M; [constructor|].
  cbn [map fst snd] in *. injection M as <- M. inversion F as [|? ? ? ? H F']; subst. cbn [flat_map].
  apply Forall2_app; [|apply IH; [exact M|exact F'|intros k I; apply N; right; exact I]].
  unfold f. cbn [fst snd]. destruct a as [a|], b as [b|]; cbn [maybe] in H; [|contradiction H|contradiction H|constructor].
  constructor; [|constructor]. exists n, a, b. repeat split; [apply N; left; reflexivity|left; exact H].
Qed.
Lemma list_stand key l l' : nice (lit key) -> Forall2 stands_for l l' -> Forall2 item_stands (map (same key) l) (map (same key) l').
Proof. intros N F. induction F as [|a b l l' H F IH]; [constructor|]. cbn [map]. constructor; [|exact IH]. exists key, a, b. auto. Qed.

Lemma items_stand : Forall2 item_stands (k_items q) (k_items p).
Proof.
  destruct S as (Si & Ss & Sa & Se). unfold k_items, k_int_items, k_str_items. rewrite Si.
  apply Forall2_app; [|apply Forall2_app; [|apply Forall2_app]].
  - assert (forall t, In t (k_int_items p) -> item_stands t t) as H.
    { intros t I. unfold k_int_items in I. apply in_flat_map in I. destruct I as ([n [z|]] & I & J); cbn [fst snd] in J; [|destruct J].
      destruct J as [<-|[]]. exists n, (fmt_d z), (fmt_d z). repeat split; [apply (names_nice p); left; exact (in_map fst _ _ I)|].
      right. split; [reflexivity|apply fmt_d_nice]. }
    unfold k_int_items in H. revert H. generalize (flat_map (fun nz : string * option Z => match snd nz with Some z => [same (fst nz) (fmt_d z)] | None => [] end) (k_ints p)).
    intros l. induction l as [|t l IH]; intro H; constructor; [apply H; left; reflexivity|apply IH; intros u I; apply H; right; exact I].
  - apply strs_stand; [reflexivity| |exact Ss]. intros n I. apply (names_nice q). right. exact I.
  - apply list_stand; [apply lit_nice; reflexivity|exact Sa].
  - apply list_stand; [apply lit_nice; reflexivity|exact Se].
Qed.

Lemma quoted_started : exists cmd, node_command o = NVal cmd /\ sh cmd = Some [judger_path :: ws].
Proof.
  exists (judger_path ++ spaced (k_items q)). split; [exact (command_of o q O E written_cstrings)|].
  apply sh_words, items_stand.
Qed.

Lemma meant_valid : acceptable p -> exists c, does posix (judger_path :: ws) (Val (Run c)) /\ requests p c.
Proof.
  intros V. apply acceptable_iff in V. destruct V as (Sd & L).
  destruct (runs posix judger_path ws es [] meant_words (k_reads posix p)) as (c & D & Cf).
  - apply k_faultless, Sd.
  - exact (k_no_help p).
  - exact (k_no_version p).
  - unfold es. rewrite (k_args_count p). exact L.
  - exists c. split; [exact D|apply k_asked; [exact Cf|apply Sd]].
Qed.
Lemma meant_only c : does posix (judger_path :: ws) (Val (Run c)) -> acceptable p /\ requests p c.
Proof.
  intros D. destruct (does_run posix judger_path ws es [] meant_words (k_reads posix p) c D) as (F & Cf & _ & _ & L).
  apply k_faultless in F. unfold es in L. rewrite (k_args_count p) in L. split; [apply acceptable_iff; auto|apply k_asked; [exact Cf|apply F]].
Qed.

Theorem quoted_faithful : acceptable p -> exists cmd argv c,
  node_command o = NVal cmd /\ sh cmd = Some [argv] /\ hd_error argv = Some judger_path /\ does posix argv (Val (Run c)) /\ requests p c.
Proof.
  intro A. destruct quoted_started as (cmd & C & Sh). destruct (meant_valid A) as (c & D & R).
  exists cmd, (judger_path :: ws), c. auto.
Qed.
Theorem quoted_only : forall cmd argvs, node_command o = NVal cmd -> sh cmd = Some argvs ->
  exists argv, argvs = [argv] /\ hd_error argv = Some judger_path /\ forall c, does posix argv (Val (Run c)) -> acceptable p /\ requests p c.
Proof.
  intros cmd argvs C Sh. destruct quoted_started as (cmd' & C' & Sh'). rewrite C in C'. injection C' as <-.
  rewrite Sh in Sh'. injection Sh' as ->. exists (judger_path :: ws). split; [reflexivity|]. split; [reflexivity|exact meant_only].
Qed.
End Call.

(** ** In a world *)
Theorem quoted_reports W obj q p : object_of obj q -> env_with_args obj -> call_stands_for q p ->
  forall own h o, acceptable p -> nul_free own -> world_ok W -> measurable W h ->
  node_sh_calls W own obj h o ->
  exists c r, requests p c /\ reports W c h r /\
  ((Z.of_nat (List.length (own ++ print_result r)) < 2 ^ 31)%Z -> o = Some (NodeReturns own (result_object r))).
Proof.
  intros O E S own h o A N Wo Me Cl.
  destruct (quoted_started obj q p O E S) as (cmd & Ec & Sc). destruct (meant_valid (w_posix W) q p S A) as (c & D & R).
  destruct Cl as [X|X|cmd' argv' h t st o' Ec' S' H' J _ Dc]; [congruence|congruence|].
  assert (cmd' = cmd) as -> by congruence. rewrite Sc in S'. injection S' as <-.
  destruct (judged_reports W _ _ c (meant_words q p S) D h t st Wo Me J) as (r & -> & Rp).
  exists c, r. split; [exact R|]. split; [exact Rp|]. intro L. f_equal. apply (NodeOutput.node_result_clean own r o' N L), Dc.
Qed.

(** ** The length *)
Lemma quoted_length s : List.length (quoted s) = 2 + List.length s + 3 * count_occ ascii_dec s quote.
Proof.
  unfold quoted. rewrite !app_length. cbn [List.length].
  assert (List.length (body s) = List.length s + 3 * count_occ ascii_dec s quote) as H.
  { induction s as [|c s IH]; [reflexivity|]. cbn [flat_map List.length count_occ]. rewrite app_length, IH.
    destruct (ascii_dec c quote); cbn; lia. }
  lia.
Qed.
Lemma quoted_wrapped s : ~ In quote s -> quoted s = wrapped s.
Proof.
  intro N. unfold quoted, wrapped. f_equal. f_equal. induction s as [|c s IH]; [reflexivity|]. cbn [flat_map].
  destruct (ascii_dec c quote) as [->|_]; [destruct N; left; reflexivity|]. cbn [app]. f_equal. apply IH. intro I. apply N. right. exact I.
Qed.

(** ** Quotes around are not enough *)
Lemma sh_single s rest w words : ~ In quote s -> sh_lex (s ++ [quote] ++ rest) Single (Some w) words = sh_lex rest Bare (Some (w ++ s)) words.
Proof.
  intro N. rewrite <- sh_body. f_equal. assert (body s = s) as ->; [|reflexivity].
  induction s as [|c s IH]; [reflexivity|]. cbn [flat_map].
  destruct (ascii_dec c quote) as [->|_]; [destruct N; left; reflexivity|]. cbn [app]. f_equal. apply IH. intro I. apply N. right. exact I.
Qed.
Lemma sh_space_some rest w words : sh_lex (" "%char :: rest) Bare (Some w) words = sh_lex rest Bare None (words ++ [w]).
Proof. reflexivity. Qed.

Theorem wrapped_injects a b x : plain_text x -> nul_free a -> ~ In quote a -> command_word b ->
  List.length (wrapped (breaks_out a b)) <= 254 ->
  exists cmd, node_command (two_paths x (wrapped (breaks_out a b))) = NVal cmd /\
    sh cmd = Some [[judger_path; lit "--input_path=" ++ a]; [b; []; lit "--exe_path=" ++ x]].
Proof.
  intros X Na Qa (B & Be & Nb & Br) L. eexists. split.
  { apply two_command; [apply plain_cstring, X|]. split; [|exact L]. intro I. unfold wrapped, breaks_out in I.
    rewrite !in_app_iff in I. cbn in I.
    assert (~ In "000"%char b) as Nc by (apply nice_c, plain_nice, B). unfold nul_free in Na. change NUL with "000"%char in Na.
    repeat match goal with H : _ \/ _ |- _ => destruct H end; try discriminate; try contradiction. }
  assert (js_option "input_path" (wrapped (breaks_out a b)) ++ js_option "exe_path" x =
    " "%char :: lit "--input_path=" ++ quote :: a ++ [quote] ++ ";"%char :: b ++ " "%char :: quote :: quote :: " "%char :: (lit "--exe_path=" ++ x) ++ []) as ->.
  { unfold js_option, wrapped, breaks_out. rewrite (app_nil_r (lit "--exe_path=" ++ x)). cbn. repeat (rewrite <- app_assoc; cbn [app]). reflexivity. }
  unfold sh. rewrite sh_plain by (try discriminate; apply lit_nice; reflexivity). unfold sh_add; cbn [app]. rewrite sh_space_some.
  rewrite sh_plain by (try discriminate; apply lit_nice; reflexivity). cbn [app]. unfold sh_add.
  set (w := lit "--input_path="). cbn [app].
  change (quote :: a ++ quote :: ";"%char :: b ++ " "%char :: quote :: quote :: " "%char :: (lit "--exe_path=" ++ x) ++ [])
    with (quote :: (a ++ [quote] ++ (";"%char :: b ++ " "%char :: quote :: quote :: " "%char :: (lit "--exe_path=" ++ x) ++ []))).
  assert (forall r v ws, sh_lex (quote :: r) Bare (Some v) ws = sh_lex r Single (Some (v ++ [])) ws) as Q by reflexivity.
  rewrite Q, sh_single by exact Qa. rewrite app_nil_r.
  set (w1 := w ++ a).
  assert (forall r v ws, simple_command (ws ++ [v]) = true ->
    sh_lex (";"%char :: r) Bare (Some v) ws = match sh_lex r Bare None [] with Some cs => Some ((ws ++ [v]) :: cs) | None => None end) as Sm.
  { intros r v ws Hs. cbn [sh_lex]. change (shell_neutral ";") with false. change (aeqb ";" squote) with false. change (aeqb ";" dquote) with false.
    change (aeqb ";" backslash) with false. change (aeqb ";" " " || aeqb ";" "009") with false. change (aeqb ";" ";" || aeqb ";" newline) with true.
    cbv iota. cbn [sh_close]. destruct (ws ++ [v]) as [|y ys] eqn:Ey; [destruct ws; discriminate Ey|]. rewrite Hs. reflexivity. }
  rewrite Sm by reflexivity.
  rewrite sh_plain by (try exact Nb; apply plain_nice, B). unfold sh_add; cbn [app]. rewrite sh_space_some.
  assert (forall r ws, sh_lex (quote :: quote :: r) Bare None ws = sh_lex r Bare (Some []) ws) as Em by reflexivity.
  rewrite Em, sh_space_some.
  rewrite <- ?app_assoc. rewrite sh_plain by (try discriminate; apply lit_nice; reflexivity). unfold sh_add. set (e := lit "--exe_path="). cbn [app].
  rewrite <- (app_nil_r x) at 1. rewrite sh_more by (apply plain_nice, X).
  cbn [app sh_lex sh_close].
  assert (simple_command [b; []; lit "--exe_path=" ++ x] = true) as Sc.
  { unfold simple_command. apply andb_true_iff. split; apply negb_true_iff, not_true_iff_false; rewrite existsb_exists.
    - intros (c & I & Q'). apply aeqb_eq in Q'. subst c. exact (Be I).
    - intros (r & I & Q'). apply str_eqb_eq in Q'. exact (Br r I Q'). }
  match goal with |- context [simple_command ?l] => assert (simple_command l = true) as -> by exact Sc end. reflexivity.
Qed.

(** ** Calls without quotes *)
Theorem calls_sh W own obj h o : node_calls W own obj h o -> node_sh_calls W own obj h o.
Proof.
  intros [X|X|cmd argv h' t st o' C S H J N D]; [apply node_sh_refuses, X|apply node_sh_crashes, X|].
  exact (node_sh_starts W own obj cmd argv h' t st o' C (shell_sh cmd _ S) H J N D).
Qed.

(** ** One by one *)
Lemma sh_x rest : sh (lit "x " ++ rest) = sh_lex rest Bare None [lit "x"].
Proof. reflexivity. Qed.
Lemma sh_last (w : str) : sh_lex [] Bare (Some w) [lit "x"] = Some [[lit "x"; w]].
Proof. reflexivity. Qed.
Lemma sh_single_all s : ~ In quote s -> sh (lit "x '" ++ s ++ lit "'") = Some [[lit "x"; s]].
Proof.
  intro N. change (lit "x '" ++ s ++ lit "'") with (lit "x " ++ quote :: s ++ [quote] ++ []). rewrite sh_x.
  change (sh_lex (s ++ [quote] ++ []) Single (Some []) [lit "x"] = Some [[lit "x"; s]]).
  rewrite sh_single by exact N. apply sh_last.
Qed.
Lemma sh_backslash_all c : c <> "010"%char -> sh (lit "x \" ++ [c]) = Some [[lit "x"; [c]]].
Proof.
  intro N. change (lit "x \" ++ [c]) with (lit "x " ++ [backslash; c]). rewrite sh_x.
  change (sh_lex [c] Escaped None [lit "x"] = Some [[lit "x"; [c]]]). cbn [sh_lex].
  destruct (aeqb c newline) eqn:Q; [apply aeqb_eq in Q; contradiction|]. reflexivity.
Qed.
Lemma sh_double_chars s rest w : Forall (fun c => ~ In c (lit "$`""\")) s ->
  sh_lex (s ++ rest) Double (Some w) [lit "x"] = sh_lex rest Double (Some (w ++ s)) [lit "x"].
Proof.
  intro F. revert w. induction F as [|c s N F IH]; intro w; [rewrite app_nil_r; reflexivity|].
  cbn [app sh_lex].
  destruct (aeqb c dquote) eqn:Q1; [apply aeqb_eq in Q1; subst; destruct N; cbn; tauto|].
  destruct (aeqb c backslash) eqn:Q2; [apply aeqb_eq in Q2; subst; destruct N; cbn; tauto|].
  destruct (aeqb c "$"%char) eqn:Q3; [apply aeqb_eq in Q3; subst; destruct N; cbn; tauto|].
  destruct (aeqb c "`"%char) eqn:Q4; [apply aeqb_eq in Q4; subst; destruct N; cbn; tauto|].
  cbn [orb]. unfold sh_add. rewrite IH, <- app_assoc. reflexivity.
Qed.
Lemma sh_double_all s : Forall (fun c => ~ In c (lit "$`""\")) s -> sh (lit "x """ ++ s ++ lit """") = Some [[lit "x"; s]].
Proof.
  intro F. change (lit "x """ ++ s ++ lit """") with (lit "x " ++ dquote :: s ++ [dquote]). rewrite sh_x.
  change (sh_lex (s ++ [dquote]) Double (Some []) [lit "x"] = Some [[lit "x"; s]]).
  rewrite sh_double_chars by exact F. reflexivity.
Qed.
Lemma sh_double_backslash c : c <> "010"%char ->
  sh (lit "x ""\" ++ [c] ++ lit """") = Some [[lit "x"; if in_dec ascii_dec c (lit "$`""\") then [c] else ["\"%char; c]]].
Proof.
  intro N. change (lit "x ""\" ++ [c] ++ lit """") with (lit "x " ++ [dquote; backslash; c; dquote]). rewrite sh_x.
  change (sh_lex [c; dquote] DoubleEscaped (Some []) [lit "x"] = Some [[lit "x"; if in_dec ascii_dec c (lit "$`""\") then [c] else ["\"%char; c]]]).
  cbn [sh_lex]. destruct (aeqb c newline) eqn:Q; [apply aeqb_eq in Q; contradiction|].
  destruct (existsb (aeqb c) [dquote; backslash; "$"%char; "`"%char]) eqn:X; destruct (in_dec ascii_dec c (lit "$`""\")) as [I|I].
  - reflexivity.
  - destruct I. apply existsb_exists in X. destruct X as (d & J & K). apply aeqb_eq in K. subst d. cbn in *. tauto.
  - apply not_true_iff_false in X. destruct X. apply existsb_exists. exists c. split; [cbn in *; tauto|apply aeqb_eq; reflexivity].
  - reflexivity.
Qed.
Lemma sh_open_all s : ~ In quote s -> sh (lit "x '" ++ s) = None.
Proof.
  intro N. change (lit "x '" ++ s) with (lit "x " ++ quote :: s). rewrite sh_x.
  change (sh_lex s Single (Some []) [lit "x"] = None). generalize (@nil ascii). induction s as [|c s IH]; intro w; [reflexivity|].
  cbn [sh_lex]. destruct (aeqb c squote) eqn:Q; [apply aeqb_eq in Q; subst; destruct N; left; reflexivity|].
  unfold sh_add. apply IH. intro I. apply N. right. exact I.
Qed.
