(** C81 and C82: usage lines and messages. *)
From Coq Require Import ZArith NArith Bool List Ascii String Arith Lia.
From Verif.Base Require Import CInt CStr CMem Tm.
From Verif.Model Require Import ArgInt Argtable Dstr ArgCat Messages Wrap ArgDate ArgObject Trex Usage.
From Verif.Spec Require Import DstrSpec WrapSpec UsageSpec.
From Verif.Proofs Require Import DstrProofs ArgCatProofs MessageProofs WrapProofs WrapClaims.
Import ListNotations.
Open Scope list_scope.
Open Scope nat_scope.
Local Notation len := (@List.length ascii).
Local Notation bshows := ArgCatProofs.shows.
Local Notation syntax := ArgCat.syntax.

(** ** What a sequence of calls appends *)
Definition plain (o : op) : Prop :=
  match o with
  | Cat s => no_nul s
  | Catf n s => no_nul s /\ n < 100
  | _ => False
  end.
Definition appends (r : cres (list op)) (t : str) : Prop := exists os, r = Val os /\ Forall plain os /\ added_by os = t.

Lemma appends_val os : Forall plain os -> appends (Val os) (added_by os).
Proof. intros F. exists os. auto. Qed.
Lemma appends_nil : appends (Val []) [].
Proof. exists []. auto. Qed.
Lemma appends_after os r t : Forall plain os -> appends r t -> appends (after os r) (added_by os ++ t).
Proof.
  intros F (os' & -> & F' & <-). exists (os ++ os'). split; [reflexivity|]. split; [apply Forall_app; auto|apply added_app].
Qed.
Lemma appends_then r t f t' : appends r t -> (forall os, Forall plain os -> added_by os = t -> appends (f os) t') -> appends (cbind r f) t'.
Proof. intros (os & -> & F & E) H. cbn [cbind]. auto. Qed.
Lemma appends_over {A} (f : A -> cres (list op)) (g : A -> str) l : Forall (fun a => appends (f a) (g a)) l ->
  appends (over f l) (List.concat (map g l)).
Proof.
  induction 1 as [|a l H F IH]; [apply appends_nil|]. cbn [over map List.concat].
  destruct H as (os & -> & Fo & <-). cbn [cbind]. apply appends_after; assumption.
Qed.
Lemma appends_more os os' t : Forall plain os -> added_by os = t -> Forall plain os' -> appends (Val (os ++ os')) (t ++ added_by os').
Proof. intros F <- F'. exists (os ++ os'). split; [reflexivity|]. split; [apply Forall_app; auto|apply added_app]. Qed.

Lemma piece_le n s os : In (Catf n s) os -> len s <= len (added_by os).
Proof.
  induction os as [|p os IH]; [intros []|]. change (p :: os) with ([p] ++ os). rewrite added_app, app_length. intros [I|I].
  - subst p. unfold added_by at 1. cbn [map List.concat]. rewrite app_nil_r. lia.
  - apply IH in I. lia.
Qed.
Lemma through_appends r t : appends r t -> (Z.of_nat (len t) < LIMIT)%Z -> through_dstr r = Val t.
Proof.
  intros (os & -> & F & <-) L. apply through_adding; [|exact L].
  rewrite Forall_forall in *. intros o J. specialize (F o J). destruct o as [s|c|n s| | | | |]; cbn [plain adding] in *; try contradiction; auto.
  apply piece_le in J. destruct F as [F1 F2]. unfold Dstr.len, DstrSpec.LIMIT in *. repeat split; [exact F1|exact F2|lia].
Qed.

Ltac nonul := first [assumption|apply lit_no_nul; reflexivity|apply no_nul_app; split; nonul|apply no_nul_left; nonul].

(** ** Names in the buffer *)
Lemma fresh_shows N : 1 <= N -> bshows N (fresh_buffer N) [].
Proof.
  intros H. unfold ArgCatProofs.shows, fresh_buffer; cbn [c_buf c_dest c_ndest app List.length].
  rewrite Nat.sub_0_r, bytes_repeat. split; [reflexivity|]. split; [lia|]. split; [intros []|lia].
Qed.
Lemma syntax_shows : bshows 199 syntax [].
Proof. apply fresh_shows. lia. Qed.

Lemma exact_datatype N s t n sep : bshows N s t -> no_nul (lit sep) -> (forall v, n_value n = Some v -> no_nul v) ->
  len t + len (with_value (lit sep) n) <= N - 1 ->
  exists s', cat_datatype sep (n_value n) (n_optional n) s = Val s' /\ bshows N s' (t ++ with_value (lit sep) n).
Proof.
  intros H Ns Nv L. unfold cat_datatype, with_value in *. destruct (n_value n) as [v|]; [|exists s; rewrite app_nil_r; auto].
  rewrite app_length in L. destruct (exact_cat N s t (lit sep) H Ns ltac:(lia)) as (s1 & -> & S1 & _). cbn [cbind].
  destruct (exact_value N s1 _ v (n_optional n) S1 (Nv v eq_refl)) as (s2 & E & S2); [rewrite app_length; lia|].
  exists s2. split; [exact E|]. rewrite <- app_assoc in S2. exact S2.
Qed.

Lemma exact_option N n s : 3 <= N -> ~ In NUL (n_shorts n) -> Forall (fun l => l <> [] /\ no_nul l /\ ~ In ","%char l) (n_longs n) ->
  (forall v, n_value n = Some v -> no_nul v) -> bshows N s [] -> len (short_syntax n) <= N - 1 ->
  exists s', arg_cat_option (g_shortopts (members n)) (g_longopts (members n)) (n_value n) (n_optional n) s = Val s' /\ bshows N s' (short_syntax n).
Proof.
  intros HN N1 N2 N3 H L. unfold arg_cat_option, short_syntax in *. cbn [members g_shortopts g_longopts].
  destruct (n_shorts n) as [|c so].
  - destruct (n_longs n) as [|l ls].
    + unfold with_value in *. destruct (n_value n) as [v|]; [|exists s; auto].
      rewrite app_nil_l in *. destruct (exact_value N s [] v (n_optional n) H (N3 v eq_refl)) as (s1 & E & S1); [cbn [List.length]; rewrite Nat.add_0_l; exact L|].
      exists s1. auto.
    + inversion N2 as [|? ? (Nl & Ul & Cl) F]; subst. rewrite !app_length in L.
      assert (exists rest, joined [","%char] (l :: ls) = l ++ rest /\ (rest = [] \/ exists r, rest = ","%char :: r) /\ no_nul rest) as (rest & Ej & Hr & Nr).
      { rewrite joined_cons. destruct ls as [|m ls]; [exists []; rewrite app_nil_r; repeat split; auto; intros []|].
        exists ([","%char] ++ joined [","%char] (m :: ls)). split; [reflexivity|]. split; [right; eexists; reflexivity|].
        apply no_nul_app. split; [apply lit_no_nul; reflexivity|].
        clear - F. remember (m :: ls) as xs eqn:E. clear E. induction F as [|x xs (A & B & C) F IH]; [intros []|].
        rewrite joined_cons. destruct xs; [exact B|]. apply no_nul_app. split; [exact B|]. apply no_nul_app. split; [apply lit_no_nul; reflexivity|exact IH]. }
      change (match l :: ls with [] => None | _ => Some (joined [","%char] (l :: ls)) end) with (Some (joined [","%char] (l :: ls))).
      rewrite Ej. change (len (lit "--")) with 2 in L.
      destruct (exact_long N s [] l rest H Ul Cl Hr Nr ltac:(cbn [List.length]; lia)) as (s1 & -> & S1 & _). cbn [cbind]. cbn [app] in S1.
      destruct (exact_datatype N s1 _ n "=" S1 ltac:(apply lit_no_nul; reflexivity) N3) as (s2 & E & S2).
      { rewrite app_length. change (len (lit "--")) with 2. lia. }
      exists s2. split; [exact E|]. rewrite <- !app_assoc in S2. exact S2.
  - rewrite app_length in L. cbn [List.length] in L.
    destruct (exact_cat N s [] ["-"%char; c] H) as (s1 & -> & S1 & _).
    { intros [J|[J|[]]]; [discriminate|subst; apply N1; left; reflexivity]. } { cbn [List.length]; lia. }
    cbn [cbind]. destruct (exact_datatype N s1 _ n " " S1 ltac:(apply lit_no_nul; reflexivity) N3) as (s2 & E & S2); [cbn [List.length app]; lia|].
    exists s2. split; [exact E|]. exact S2.
Qed.

Lemma joined_length sep sep' l : len sep <= len sep' -> len (joined sep l) <= len (joined sep' l).
Proof.
  intros H. induction l as [|x l IH]; [reflexivity|]. rewrite !joined_cons. destruct l; [lia|]. rewrite !app_length. lia.
Qed.
Lemma full_length sep n : presentable n -> len sep <= 2 -> len (full_syntax sep n) <= 198.
Proof.
  intros (_ & _ & _ & _ & L) H. unfold gnu_column in L. rewrite app_length in L.
  unfold full_syntax, option_names in *. rewrite app_length in *.
  pose proof (joined_length sep [","; " "]%char (map (fun c => ["-"%char; c]) (n_shorts n) ++ map (app ["-"; "-"]%char) (n_longs n)) H). lia.
Qed.
Lemma joined_first sep x l : len x <= len (joined sep (x :: l)).
Proof. rewrite joined_cons. destruct l; [lia|rewrite !app_length; lia]. Qed.
Lemma short_length n : presentable n -> len (short_syntax n) <= 198.
Proof.
  intros P. pose proof (full_length [","; " "]%char n P (le_n _)) as L. unfold full_syntax, option_names, option_value, short_syntax, with_value in *.
  rewrite app_length in L. destruct (n_shorts n) as [|c so].
  - destruct (n_longs n) as [|l ls].
    + destruct (n_value n); cbn [app List.length joined map] in *; lia.
    + cbn [map app] in L. pose proof (joined_first [","; " "]%char ("-"%char :: "-"%char :: l) (map (fun l => "-"%char :: "-"%char :: l) ls)) as J.
      cbn [List.length] in J. rewrite !app_length. change (len (lit "--")) with 2.
      destruct (n_value n) as [v|]; [change (lit "=") with ["="%char]; cbn [List.length app] in *|cbn [List.length] in *]; lia.
  - cbn [map app] in L. pose proof (joined_first [","; " "]%char ["-"%char; c] (map (fun c => ["-"%char; c]) so ++ map (app ["-"; "-"]%char) (n_longs n))) as J.
    cbn [List.length app] in *. cbn [app List.length].
    destruct (n_value n) as [v|]; [|cbn [List.length]; lia]. change (lit " ") with [" "%char]. rewrite app_length in *. cbn [List.length].
    destruct (n_longs n); cbn [List.length] in *; lia.
Qed.
Lemma short_text n : presentable n ->
  buffer_text (arg_cat_option (g_shortopts (members n)) (g_longopts (members n)) (n_value n) (n_optional n) syntax) = Val (short_syntax n).
Proof.
  intros P. pose proof P as (N1 & N2 & N3 & _). destruct (exact_option 199 n syntax) as (s & -> & Sh); auto; try lia; try exact syntax_shows.
  { pose proof (short_length n P). lia. }
  unfold buffer_text. cbn [cbind]. apply (shows_text _ _ _ Sh).
Qed.
Lemma full_text sep n : presentable n -> no_nul sep -> len sep <= 2 ->
  buffer_text (arg_cat_optionv (g_shortopts (members n)) (g_longopts (members n)) (n_value n) (n_optional n) sep syntax) = Val (full_syntax sep n).
Proof.
  intros P Ns H. pose proof P as (N1 & N2 & N3 & _). apply option_complete; auto; try lia. pose proof (full_length sep n P H). lia.
Qed.
Lemma joined_nul sep l : no_nul sep -> Forall no_nul l -> no_nul (joined sep l).
Proof.
  intros Ns F. induction F as [|x l Hx F IH]; [intros []|]. rewrite joined_cons. destruct l; [exact Hx|]. apply no_nul_app. split; [exact Hx|].
  apply no_nul_app. auto.
Qed.
Lemma value_nul sep n : no_nul sep -> (forall v, n_value n = Some v -> no_nul v) -> no_nul (with_value sep n).
Proof.
  intros Ns Nv. unfold with_value. destruct (n_value n) as [v|]; [|intros []]. apply no_nul_app. split; [exact Ns|].
  specialize (Nv v eq_refl). destruct (n_optional n); nonul.
Qed.
Lemma full_nul sep n : presentable n -> no_nul sep -> no_nul (full_syntax sep n).
Proof.
  intros (N1 & N2 & N3 & _) Ns. unfold full_syntax, option_names. apply no_nul_app. split.
  - apply joined_nul; [exact Ns|]. apply Forall_app. split; apply Forall_forall; intros x I; apply in_map_iff in I; destruct I as (y & <- & I).
    + intros [J|[J|[]]]; [discriminate|congruence].
    + rewrite Forall_forall in N2. destruct (N2 y I) as (_ & A & _). apply no_nul_app. split; [apply lit_no_nul; reflexivity|exact A].
  - unfold option_value. destruct (n_value n) as [v|]; [|intros []]. apply no_nul_app. split.
    + destruct (n_longs n), (n_shorts n); apply lit_no_nul; reflexivity.
    + specialize (N3 v eq_refl). destruct (n_optional n); nonul.
Qed.
Lemma short_nul n : presentable n -> no_nul (short_syntax n).
Proof.
  intros (N1 & N2 & N3 & _). unfold short_syntax. destruct (n_shorts n) as [|c so].
  - destruct (n_longs n) as [|l ls]; [apply value_nul; [intros []|exact N3]|]. inversion N2 as [|? ? (_ & Ul & _) _]; subst.
    apply no_nul_app. split; [apply lit_no_nul; reflexivity|]. apply no_nul_app. split; [exact Ul|]. apply value_nul; [apply lit_no_nul; reflexivity|exact N3].
  - apply no_nul_app. split; [intros [J|[J|[]]]; [discriminate|subst; apply N1; left; reflexivity]|].
    apply value_nul; [apply lit_no_nul; reflexivity|exact N3].
Qed.

(** ** Usage *)
Lemma added_repeat s k : added_by (List.concat (repeat [Cat (lit " "); Cat s] k)) = List.concat (repeat (lit " " ++ s) k).
Proof.
  induction k as [|k IH]; [reflexivity|]. cbn [repeat List.concat]. rewrite added_app, IH. f_equal. unfold added_by. cbn. rewrite app_nil_r. reflexivity.
Qed.
Lemma plain_repeat s k : no_nul s -> Forall plain (List.concat (repeat [Cat (lit " "); Cat s] k)).
Proof.
  intros N. induction k as [|k IH]; [constructor|]. cbn [repeat List.concat]. apply Forall_app. split; [|exact IH].
  constructor; [apply lit_no_nul; reflexivity|]. constructor; [exact N|constructor].
Qed.
Lemma instances_append s least most : no_nul s -> (0 <= least <= most)%Z -> (most <= INT_MAX)%Z -> appends (instances s least most) (times s least most).
Proof.
  intros N H1 H2. unfold instances, int_op. rewrite (proj2 (in_int_iff _)) by (unfold INT_MIN, INT_MAX in *; lia). cbn [cbind].
  eexists. split; [reflexivity|]. rewrite added_app, added_repeat. unfold times.
  assert (forall t, no_nul (lit t) -> plain (Cat (lit t))) as Pl by (intros t X; exact X).
  destruct (Z.eqb_spec (most - least) 0) as [->|D0]; [split; [apply Forall_app; split; [apply plain_repeat, N|constructor]|reflexivity]|].
  destruct (Z.eqb_spec (most - least) 1) as [->|D1].
  { split; [apply Forall_app; split; [apply plain_repeat, N|]; repeat constructor; first [exact N|apply lit_no_nul; reflexivity]|].
    f_equal; unfold added_by, in_brackets; cbn [map List.concat]; rewrite app_nil_r; reflexivity. }
  destruct (Z.eqb_spec (most - least) 2) as [->|D2].
  { split; [apply Forall_app; split; [apply plain_repeat, N|]; repeat constructor; first [exact N|apply lit_no_nul; reflexivity]|].
    f_equal; unfold added_by, in_brackets; cbn [map List.concat]; rewrite app_nil_r, <- !app_assoc; reflexivity. }
  split; [apply Forall_app; split; [apply plain_repeat, N|]; repeat constructor; first [exact N|apply lit_no_nul; reflexivity]|].
  f_equal. unfold added_by, in_brackets. cbn [map List.concat]. rewrite app_nil_r.
  destruct (most - least)%Z as [|p|p] eqn:E; [congruence| |lia]. destruct p as [p|p|]; [| |congruence]; try destruct p; try congruence; rewrite <- !app_assoc; reflexivity.
Qed.

Section Switches.
Let entries := map entry_of.
Lemma letter_entry x : letter x = if u_hasvalue (entry_of x) then None else option_map first_letter (u_short (entry_of x)).
Proof. unfold letter, u_short. cbn [entry_of u_hasvalue u_shown members g_shortopts]. destruct (x_takes x), (n_shorts (x_option x)); reflexivity. Qed.
Lemma letter_no_nul x c : presentable (x_option x) -> letter x = Some c -> c <> NUL.
Proof.
  intros (N & _) E ->. unfold letter in E. destruct (x_takes x); [discriminate|]. destruct (n_shorts (x_option x)); [discriminate|].
  injection E as ->. apply N. left. reflexivity.
Qed.
Lemma catf_c_ok p c : String.length p <= 10 -> no_nul (lit p) -> c <> NUL -> plain (catf_c p c).
Proof. intros L N C. cbn. split; [|lia]. apply no_nul_app. split; [exact N|]. intros [J|[]]. congruence. Qed.

Lemma letters_cons which x xs : letters which (x :: xs) =
  if which x then match u_short (entry_of x) with
                  | Some so => if u_hasvalue (entry_of x) then letters which xs else first_letter so :: letters which xs
                  | None => letters which xs
                  end
  else letters which xs.
Proof. cbn [letters]. rewrite letter_entry. destruct (which x), (u_hasvalue (entry_of x)), (u_short (entry_of x)); reflexivity. Qed.
Lemma mandatory_spec xs : Forall (fun x => presentable (x_option x)) xs -> forall f1 f2, String.length f1 <= 10 -> no_nul (lit f1) ->
  exists os, mandatory_ops f1 f2 (entries xs) = (os, match letters mandatory xs with [] => f2 | _ => "["%string end) /\
  Forall plain os /\ added_by os = match letters mandatory xs with [] => [] | ms => lit f1 ++ ms end.
Proof.
  induction 1 as [|x xs P F IH]; intros f1 f2 L N; [exists []; repeat split; constructor|].
  change (entries (x :: xs)) with (entry_of x :: entries xs). cbn [mandatory_ops]. rewrite !letters_cons.
  change (u_min (entry_of x)) with (x_least x). change (mandatory x) with (1 <=? x_least x)%Z.
  destruct (Z.ltb_spec (x_least x) 1) as [H|H].
  { replace (1 <=? x_least x)%Z with false by (symmetry; apply Z.leb_gt; lia).
    destruct (IH f1 f2 L N) as (os & E & Fo & A). exists os. auto. }
  replace (1 <=? x_least x)%Z with true by (symmetry; apply Z.leb_le; lia).
  pose proof (letter_entry x) as Le.
  destruct (u_short (entry_of x)) as [so|] eqn:Es; [destruct (u_hasvalue (entry_of x)) eqn:Eh|].
  - destruct (IH f1 f2 L N) as (os & E & Fo & A). exists os. auto.
  - cbn [option_map] in *. destruct (IH EmptyString "["%string) as (os & -> & Fo & A); [cbn; lia|intros []|].
    exists (catf_c f1 (first_letter so) :: os). split; [destruct (letters mandatory xs); reflexivity|]. split.
    + constructor; [|exact Fo]. apply catf_c_ok; auto. exact (letter_no_nul x _ P Le).
    + change (catf_c f1 (first_letter so) :: os) with ([catf_c f1 (first_letter so)] ++ os). rewrite added_app, A.
      unfold added_by. cbn [map List.concat catf_c]. rewrite app_nil_r, <- app_assoc. f_equal. destruct (letters mandatory xs); reflexivity.
  - destruct (IH f1 f2 L N) as (os & E & Fo & A). exists os. auto.
Qed.
Lemma optional_spec xs : Forall (fun x => presentable (x_option x)) xs -> forall f2 sf, String.length f2 <= 10 -> no_nul (lit f2) ->
  exists os, optional_ops f2 sf (entries xs) = (os, match letters (fun x => negb (mandatory x)) xs with [] => sf | _ => "]"%string end) /\
  Forall plain os /\ added_by os = match letters (fun x => negb (mandatory x)) xs with [] => [] | ms => lit f2 ++ ms end.
Proof.
  induction 1 as [|x xs P F IH]; intros f2 sf L N; [exists []; repeat split; constructor|].
  change (entries (x :: xs)) with (entry_of x :: entries xs). cbn [optional_ops]. rewrite !letters_cons.
  change (u_min (entry_of x)) with (x_least x). change (mandatory x) with (1 <=? x_least x)%Z. rewrite Z.gtb_ltb.
  destruct (Z.ltb_spec 0 (x_least x)) as [H|H].
  { replace (1 <=? x_least x)%Z with true by (symmetry; apply Z.leb_le; lia). cbn [negb].
    destruct (IH f2 sf L N) as (os & E & Fo & A). exists os. auto. }
  replace (1 <=? x_least x)%Z with false by (symmetry; apply Z.leb_gt; lia). cbn [negb].
  pose proof (letter_entry x) as Le.
  destruct (u_short (entry_of x)) as [so|] eqn:Es; [destruct (u_hasvalue (entry_of x)) eqn:Eh|].
  - destruct (IH f2 sf L N) as (os & E & Fo & A). exists os. auto.
  - cbn [option_map] in *. destruct (IH EmptyString "]"%string) as (os & -> & Fo & A); [cbn; lia|intros []|].
    exists (catf_c f2 (first_letter so) :: os). split; [destruct (letters (fun x => negb (mandatory x)) xs); reflexivity|]. split.
    + constructor; [|exact Fo]. apply catf_c_ok; auto. exact (letter_no_nul x _ P Le).
    + change (catf_c f2 (first_letter so) :: os) with ([catf_c f2 (first_letter so)] ++ os). rewrite added_app, A.
      unfold added_by. cbn [map List.concat catf_c]. rewrite app_nil_r, <- app_assoc. f_equal. destruct (letters (fun x => negb (mandatory x)) xs); reflexivity.
  - destruct (IH f2 sf L N) as (os & E & Fo & A). exists os. auto.
Qed.
Lemma gnuswitch_spec xs : Forall (fun x => presentable (x_option x)) xs ->
  Forall plain (gnuswitch_ds (entries xs)) /\ added_by (gnuswitch_ds (entries xs)) = gathered xs.
Proof.
  intros F. unfold gnuswitch_ds, gathered.
  destruct (mandatory_spec xs F " -" " [-") as (os1 & -> & F1 & A1); [cbn; lia|apply lit_no_nul; reflexivity|].
  set (f2 := match letters mandatory xs with [] => " [-"%string | _ => "["%string end).
  destruct (optional_spec xs F f2 "") as (os2 & -> & F2 & A2).
  { unfold f2. destruct (letters mandatory xs); cbn; lia. } { unfold f2. destruct (letters mandatory xs); apply lit_no_nul; reflexivity. }
  split.
  - apply Forall_app. split; [exact F1|]. apply Forall_app. split; [exact F2|]. constructor; [|constructor].
    split; [|cbn; lia]. destruct (letters (fun x => negb (mandatory x)) xs); apply lit_no_nul; reflexivity.
  - rewrite !added_app, A1, A2. unfold f2. destruct (letters mandatory xs) as [|m ms], (letters (fun x => negb (mandatory x)) xs) as [|o os];
      unfold added_by; cbn [map List.concat catf app]; rewrite ?app_nil_r, <- ?app_assoc; reflexivity.
Qed.
End Switches.

Lemma syntax_entry_appends x : presentable (x_option x) -> countable x -> appends (syntax_entry (entry_of x)) (usage_of x).
Proof.
  intros P (C1 & C2). unfold syntax_entry, usage_of. rewrite letter_entry.
  assert (appends (cbind (buffer_text (arg_cat_option (u_short (entry_of x)) (g_longopts (u_shown (entry_of x))) (g_datatype (u_shown (entry_of x))) (g_optvalue (u_shown (entry_of x))) syntax))
    (fun s => match s with [] => Val [] | _ => instances s (u_min (entry_of x)) (u_max (entry_of x)) end))
    (match short_syntax (x_option x) with [] => [] | s => times s (x_least x) (x_most x) end)) as X.
  { change (u_short (entry_of x)) with (g_shortopts (members (x_option x))). change (u_shown (entry_of x)) with (members (x_option x)).
    change (g_datatype (members (x_option x))) with (n_value (x_option x)). change (g_optvalue (members (x_option x))) with (n_optional (x_option x)).
    rewrite short_text by exact P. cbn [cbind]. pose proof (short_nul _ P) as N. destruct (short_syntax (x_option x)) as [|c s]; [apply appends_nil|].
    apply instances_append; assumption. }
  destruct (u_short (entry_of x)) as [so|]; [destruct (u_hasvalue (entry_of x))|]; cbn [option_map]; [exact X|apply appends_nil|].
  destruct (u_hasvalue (entry_of x)); exact X.
Qed.
Lemma syntaxv_entry_appends x : presentable (x_option x) -> countable x ->
  appends (syntaxv_entry (entry_of x)) (times (full_syntax (lit "|") (x_option x)) (x_least x) (x_most x)).
Proof.
  intros P (C1 & C2). unfold syntaxv_entry.
  change (u_short (entry_of x)) with (g_shortopts (members (x_option x))). change (u_shown (entry_of x)) with (members (x_option x)).
  change (g_datatype (members (x_option x))) with (n_value (x_option x)). change (g_optvalue (members (x_option x))) with (n_optional (x_option x)).
  rewrite full_text; [|exact P|apply lit_no_nul; reflexivity|cbn; lia]. cbn [cbind]. apply instances_append; [|assumption|assumption].
  apply full_nul; [exact P|apply lit_no_nul; reflexivity].
Qed.
Lemma glossary_entry_appends w x : presentable (x_option x) -> appends (glossary_entry w (entry_of x)) (glossary_line w x).
Proof.
  intros P. unfold glossary_entry, glossary_line.
  change (u_short (entry_of x)) with (g_shortopts (members (x_option x))). change (u_shown (entry_of x)) with (members (x_option x)).
  change (g_datatype (members (x_option x))) with (n_value (x_option x)). change (g_optvalue (members (x_option x))) with (n_optional (x_option x)).
  change (g_glossary (members (x_option x))) with (n_help (x_option x)). destruct (n_help (x_option x)) as [g|] eqn:Eg; [|apply appends_nil].
  rewrite full_text; [|exact P|apply lit_no_nul; reflexivity|cbn; lia]. cbn [cbind].
  pose proof P as (_ & _ & _ & N4 & _). specialize (N4 g Eg).
  assert (no_nul (full_syntax (lit ", ") (x_option x))) as Nf by (apply full_nul; [exact P|apply lit_no_nul; reflexivity]).
  eexists. split; [reflexivity|]. split.
  - constructor; [|constructor]. split; [|lia]. rewrite fmt_left_left. change [NL] with (lit (String "010" "")). nonul.
  - unfold added_by. cbn [map List.concat]. rewrite app_nil_r, fmt_left_left. reflexivity.
Qed.

Lemma suffix_plain suffix : (forall s, suffix = Some s -> no_nul s) -> Forall plain (suffix_ops suffix) /\ added_by (suffix_ops suffix) = suffix_text suffix.
Proof.
  intros H. destruct suffix as [s|]; [|split; [constructor|reflexivity]]. split; [constructor; [exact (H s eq_refl)|constructor]|].
  unfold added_by. cbn. apply app_nil_r.
Qed.
Lemma syntax_appends xs suffix : in_table xs -> (forall s, suffix = Some s -> no_nul s) ->
  appends (print_syntax_ds (map entry_of xs) suffix) (usage_line xs ++ suffix_text suffix).
Proof.
  intros T Ns. unfold print_syntax_ds, usage_line. destruct (gnuswitch_spec xs) as (F & A).
  { eapply Forall_impl; [|exact T]. intros x [P _]. exact P. }
  rewrite <- A, <- app_assoc. apply appends_after; [exact F|].
  assert (appends (over syntax_entry (map entry_of xs)) (List.concat (map usage_of xs))) as (os & E & Fo & Ao).
  { replace (List.concat (map usage_of xs)) with (List.concat (map usage_of xs)) by reflexivity.
    clear - T. induction T as [|x xs (P & C) T IH]; [apply appends_nil|]. cbn [map over List.concat].
    destruct (syntax_entry_appends x P C) as (os & -> & Fo & <-). cbn [cbind]. apply appends_after; assumption. }
  rewrite E. cbn [cbind]. destruct (suffix_plain suffix Ns) as (Fs & <-). apply appends_more; assumption.
Qed.
Lemma syntaxv_appends xs suffix : in_table xs -> (forall s, suffix = Some s -> no_nul s) ->
  appends (print_syntaxv_ds (map entry_of xs) suffix) (verbose_line xs ++ suffix_text suffix).
Proof.
  intros T Ns. unfold print_syntaxv_ds, verbose_line.
  assert (appends (over syntaxv_entry (map entry_of xs)) (List.concat (map (fun x => times (full_syntax (lit "|") (x_option x)) (x_least x) (x_most x)) xs))) as (os & E & Fo & Ao).
  { clear - T. induction T as [|x xs (P & C) T IH]; [apply appends_nil|]. cbn [map over List.concat].
    destruct (syntaxv_entry_appends x P C) as (os & -> & Fo & <-). cbn [cbind]. apply appends_after; assumption. }
  rewrite E. cbn [cbind]. destruct (suffix_plain suffix Ns) as (Fs & <-). apply appends_more; assumption.
Qed.
Lemma glossary_appends format xs : Forall (fun x => presentable (x_option x)) xs ->
  appends (print_glossary_ds format (map entry_of xs)) (glossary_text (match format with Some w => w | None => 20 end) xs).
Proof.
  intros T. unfold print_glossary_ds, glossary_text. generalize (match format with Some w => w | None => 20 end). intros w.
  induction T as [|x xs P T IH]; [apply appends_nil|]. cbn [map over List.concat].
  destruct (glossary_entry_appends w x P) as (os & -> & Fo & <-). cbn [cbind]. apply appends_after; assumption.
Qed.

Lemma syntax_printed xs suffix : in_table xs -> (forall s, suffix = Some s -> no_nul s) ->
  (Z.of_nat (len (usage_line xs ++ suffix_text suffix)) < LIMIT)%Z ->
  print_syntax (map entry_of xs) suffix = Val (usage_line xs ++ suffix_text suffix).
Proof. intros T N L. apply through_appends; [apply syntax_appends; assumption|exact L]. Qed.
Lemma syntaxv_printed xs suffix : in_table xs -> (forall s, suffix = Some s -> no_nul s) ->
  (Z.of_nat (len (verbose_line xs ++ suffix_text suffix)) < LIMIT)%Z ->
  print_syntaxv (map entry_of xs) suffix = Val (verbose_line xs ++ suffix_text suffix).
Proof. intros T N L. apply through_appends; [apply syntaxv_appends; assumption|exact L]. Qed.
Lemma glossary_plain_printed format xs : Forall (fun x => presentable (x_option x)) xs ->
  (Z.of_nat (len (glossary_text (match format with Some w => w | None => 20 end) xs)) < LIMIT)%Z ->
  print_glossary format (map entry_of xs) = Val (glossary_text (match format with Some w => w | None => 20 end) xs).
Proof. intros T L. apply through_appends; [apply glossary_appends; assumption|exact L]. Qed.

(** The line of an option tells how often it is expected. *)
Lemma times_step s k most : (0 <= k)%Z -> times s (k + 1) most = lit " " ++ s ++ times s k (most - 1).
Proof.
  intros H. unfold times. replace (most - (k + 1))%Z with (most - 1 - k)%Z by lia.
  replace (Z.to_nat (k + 1)) with (S (Z.to_nat k)) by lia. cbn [repeat List.concat]. rewrite <- !app_assoc. reflexivity.
Qed.
Lemma times_zero s most : times s 0 most = match most with 0%Z => [] | 1%Z => in_brackets s | 2%Z => in_brackets s ++ in_brackets s | _ => in_brackets s ++ lit "..." end.
Proof. unfold times. rewrite Z.sub_0_r. reflexivity. Qed.
Lemma times_open s most : (1 <= most)%Z -> exists t, times s 0 most = " "%char :: "["%char :: t.
Proof.
  intros H. rewrite times_zero. destruct most as [|p|p]; [lia| |lia]. destruct p as [p|p|]; [|destruct p|]; eexists; reflexivity.
Qed.
Lemma times_apart s most k most' : s <> [] -> hd_error s <> Some "["%char -> (0 <= most)%Z -> times s 0 most <> lit " " ++ s ++ times s k most'.
Proof.
  intros Ns Hd H E. destruct s as [|c s]; [congruence|]. destruct (Z.eq_dec most 0) as [->|D]; [rewrite times_zero in E; discriminate|].
  destruct (times_open (c :: s) most) as (t & Et); [lia|]. rewrite Et in E. cbn in E. injection E as E _. apply Hd. cbn. congruence.
Qed.
Lemma times_determined s least most least' most' : s <> [] -> hd_error s <> Some "["%char ->
  (0 <= least <= most)%Z -> (0 <= least' <= most')%Z -> times s least most = times s least' most' -> same_counts least most least' most'.
Proof.
  intros Ns Hd. revert most least' most'.
  assert (forall k, (0 <= k)%Z -> forall most least' most', (k <= most)%Z -> (0 <= least' <= most')%Z -> times s k most = times s least' most' -> same_counts k most least' most') as X.
  { intros k H. pattern k. apply natlike_ind; [| |exact H]; clear k H.
    - intros most least' most' H1 H2 E. rewrite times_zero in E. destruct (Z.eq_dec least' 0) as [->|D].
      + rewrite times_zero in E. split; [reflexivity|].
        assert (len (in_brackets s) = len s + 3) as Lb by (unfold in_brackets; rewrite !app_length; cbn; lia).
        assert (len s <> 0) as Ls by (destruct s; [congruence|discriminate]).
        assert (forall m, (0 <= m)%Z -> len (match m with 0%Z => [] | 1%Z => in_brackets s | 2%Z => in_brackets s ++ in_brackets s | _ => in_brackets s ++ lit "..." end) =
          if (m =? 0)%Z then 0 else if (m =? 1)%Z then len s + 3 else if (m =? 2)%Z then len s + 3 + (len s + 3) else len s + 3 + 3) as Lm.
        { intros m Hm. destruct m as [|p|p]; [reflexivity| |lia]. destruct p as [p|p|]; [|destruct p|]; cbn [Z.eqb Pos.eqb]; rewrite ?app_length, ?Lb; cbn [List.length lit list_ascii_of_string]; lia. }
        apply (f_equal len) in E. rewrite !Lm in E by lia.
        destruct (Z.eqb_spec most 0), (Z.eqb_spec most' 0), (Z.eqb_spec most 1), (Z.eqb_spec most' 1), (Z.eqb_spec most 2), (Z.eqb_spec most' 2); lia.
      + exfalso. replace least' with (least' - 1 + 1)%Z in E by lia. rewrite times_step in E by lia. rewrite <- times_zero in E.
        revert E. apply times_apart; assumption.
    - intros k Hk IH most least' most' H1 H2 E. unfold Z.succ in *. rewrite times_step in E by exact Hk. destruct (Z.eq_dec least' 0) as [->|D].
      + exfalso. symmetry in E. revert E. apply times_apart; try assumption; lia.
      + replace least' with (least' - 1 + 1)%Z in E by lia. rewrite times_step in E by lia.
        apply app_inv_head in E. apply app_inv_head in E. apply IH in E; [|lia|lia]. unfold same_counts in *. lia. }
  intros most least' most' H1 H2 E. apply X; auto; lia.
Qed.

Lemma full_nonempty_determined n least most least' most' takes : presentable n -> full_syntax (lit "|") n <> [] -> hd_error (full_syntax (lit "|") n) <> Some "["%char ->
  let x := mkE n takes least most in let y := mkE n takes least' most' in
  countable x -> countable y ->
  (Z.of_nat (len (verbose_line [x])) < LIMIT)%Z -> (Z.of_nat (len (verbose_line [y])) < LIMIT)%Z ->
  print_syntaxv (map entry_of [x]) None = print_syntaxv (map entry_of [y]) None -> same_counts least most least' most'.
Proof.
  intros P Nn Hd x y Cx Cy Lx Ly E.
  assert (forall z, x_option z = n -> countable z -> (Z.of_nat (len (verbose_line [z])) < LIMIT)%Z ->
    print_syntaxv (map entry_of [z]) None = Val (times (full_syntax (lit "|") n) (x_least z) (x_most z))) as X.
  { intros z Ez Cz Lz. rewrite syntaxv_printed; [|constructor; [rewrite Ez; auto|constructor]|discriminate|cbn [suffix_text]; rewrite app_nil_r; exact Lz].
    unfold verbose_line. cbn [map List.concat suffix_text]. rewrite !app_nil_r, Ez. reflexivity. }
  rewrite !X in E by (try reflexivity; assumption). injection E as E. destruct Cx as (Cx & _), Cy as (Cy & _). cbn [x y x_least x_most] in *.
  exact (times_determined _ _ _ _ _ Nn Hd Cx Cy E).
Qed.
