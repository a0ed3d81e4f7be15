(** C74: the claims of Props/P21_Wrap.v. *)
From Coq Require Import ZArith Bool List Ascii String Arith Lia.
From Verif.Base Require Import CInt CStr CMem.
From Verif.Model Require Import ArgInt Argtable Dstr ArgCat Messages Wrap.
From Verif.Spec Require Import DstrSpec WrapSpec.
From Verif.Proofs Require Import DstrProofs ArgCatProofs MessageProofs WrapProofs.
Import ListNotations.
Open Scope list_scope.
Open Scope nat_scope.
Local Notation len := (@List.length ascii).
Local Notation bshows := ArgCatProofs.shows.

(** ** The buffer, when the text fits *)
Lemma exact_cat N s t src : bshows N s t -> no_nul src -> len t + len src <= N - 1 ->
  exists s', arg_cat src s = Val s' /\ bshows N s' (t ++ src) /\ at_end s' /\ c_dest s' = len (t ++ src).
Proof.
  intros H Ns L. destruct (arg_cat_shows N s t src H Ns) as (s' & E & S' & A & D).
  rewrite firstn_all2 in S', D by (rewrite app_length; exact L). exists s'. auto.
Qed.
Lemma exact_long N s t name rest : bshows N s t -> no_nul name -> ~ In ","%char name -> (rest = [] \/ exists r, rest = ","%char :: r) -> no_nul rest ->
  len t + 2 + len name <= N - 1 ->
  exists s', cat_long (name ++ rest) s = Val s' /\ bshows N s' (t ++ lit "--" ++ name) /\ skipn (strcspn_comma (name ++ rest)) (name ++ rest) = rest.
Proof.
  intros H Nn Nc Hr Nr L. unfold cat_long.
  assert (strcspn_comma (name ++ rest) = len name) as Ec.
  { clear - Nc Hr. induction name as [|c name IH]; cbn [app strcspn_comma List.length].
    - destruct Hr as [->|(r & ->)]; reflexivity.
    - destruct (aeqb c ",") eqn:E; [apply aeqb_eq in E; subst; destruct Nc; left; reflexivity|]. rewrite IH; [reflexivity|]. intros J. apply Nc. right. exact J. }
  destruct (exact_cat N s t (lit "--") H ltac:(apply lit_no_nul; reflexivity) ltac:(cbn; lia)) as (s1 & -> & S1 & A1 & D1). cbn [cbind].
  pose proof S1 as (_ & _ & _ & _ & E1 & _). rewrite Ec. rewrite app_length in D1. cbn in D1.
  rewrite (proj2 (Nat.ltb_lt _ _)) by lia.
  destruct (strncat_shows N s1 (t ++ lit "--") (name ++ rest) (len name) S1) as (s2 & -> & S2); [apply no_nul_app; auto|exact A1|rewrite app_length; cbn; lia|lia|].
  exists s2. split; [reflexivity|]. rewrite firstn_app, firstn_all, Nat.sub_diag in S2. cbn [firstn] in S2. rewrite app_nil_r, <- app_assoc in S2.
  split; [exact S2|]. rewrite skipn_app, skipn_all, Nat.sub_diag. reflexivity.
Qed.

Definition dashed (l : list ascii) : list str := map (fun c => ["-"%char; c]) l.
Definition ddashed (l : list str) : list str := map (app ["-"; "-"]%char) l.
Lemma joined_cons sep x l : joined sep (x :: l) = match l with [] => x | _ => x ++ sep ++ joined sep l end.
Proof. destruct l; reflexivity. Qed.

Lemma joined_more sep x y l : joined sep (x :: y :: l) = x ++ sep ++ joined sep (y :: l).
Proof. reflexivity. Qed.
Lemma exact_shorts N sep so : no_nul sep -> no_nul so -> forall s t, bshows N s t -> len t + len (joined sep (dashed so)) <= N - 1 ->
  exists s', cat_shorts sep so s = Val s' /\ bshows N s' (t ++ joined sep (dashed so)).
Proof.
  intros Ns. induction so as [|c so IH]; intros No s t H L; cbn [cat_shorts].
  - exists s. split; [reflexivity|]. cbn. rewrite app_nil_r. exact H.
  - apply no_nul_cons in No. destruct No as (Nc & No). change (dashed (c :: so)) with (["-"%char; c] :: dashed so) in *.
    assert (no_nul ["-"%char; c]) as Nd by (apply no_nul_cons; split; [discriminate|apply no_nul_cons; split; [exact Nc|intros []]]).
    destruct so as [|c' so].
    + cbn [dashed map joined] in *. destruct (exact_cat N s t ["-"%char; c] H Nd L) as (s' & -> & S' & _). exists s'. auto.
    + change (dashed (c' :: so)) with (["-"%char; c'] :: dashed so) in *. rewrite joined_more in *. change (["-"%char; c'] :: dashed so) with (dashed (c' :: so)) in *. rewrite !app_length in L.
      destruct (exact_cat N s t ["-"%char; c] H Nd ltac:(lia)) as (s1 & -> & S1 & _). cbn [cbind].
      destruct (exact_cat N s1 _ sep S1 Ns ltac:(rewrite app_length; lia)) as (s2 & -> & S2 & _). cbn [cbind].
      destruct (IH No s2 _ S2 ltac:(rewrite !app_length; lia)) as (s3 & -> & S3). exists s3. split; [reflexivity|]. rewrite <- !app_assoc in S3. exact S3.
Qed.

Lemma cat_longs_step fuel sep lo s : lo <> [] -> cat_longs (S fuel) sep lo s =
  cbind (cat_long lo s) (fun s => match skipn (strcspn_comma lo) lo with _ :: lo' => cbind (arg_cat sep s) (cat_longs fuel sep lo') | [] => Val s end).
Proof. destruct lo; [congruence|reflexivity]. Qed.
Lemma cat_longs_next fuel sep lo s s1 lo' : lo <> [] -> cat_long lo s = Val s1 -> skipn (strcspn_comma lo) lo = ","%char :: lo' ->
  cat_longs (S fuel) sep lo s = cbind (arg_cat sep s1) (cat_longs fuel sep lo').
Proof. intros N E K. rewrite cat_longs_step, E by exact N. cbn [cbind]. rewrite K. reflexivity. Qed.
Lemma exact_longs N sep names : no_nul sep -> Forall (fun l => l <> [] /\ no_nul l /\ ~ In ","%char l) names ->
  forall fuel s t, bshows N s t -> len (joined [","%char] names) < fuel -> len t + len (joined sep (ddashed names)) <= N - 1 ->
  exists s', cat_longs fuel sep (joined [","%char] names) s = Val s' /\ bshows N s' (t ++ joined sep (ddashed names)).
Proof.
  intros Ns F. induction F as [|x names (Nx & Ux & Cx) F IH]; intros fuel s t H Lf L.
  - destruct fuel; [cbn in Lf; lia|]. exists s. split; [reflexivity|]. cbn. rewrite app_nil_r. exact H.
  - destruct fuel as [|fuel]; [lia|]. change (ddashed (x :: names)) with ((lit "--" ++ x) :: ddashed names) in *.
    assert (no_nul (joined [","%char] names)) as Nj.
    { clear - F. induction F as [|y ys (_ & U & _) F IH]; [intros []|]. rewrite joined_cons. destruct ys; [exact U|]. rewrite !no_nul_app. split; [exact U|]. split; [intros [E|[]]; discriminate|exact IH]. }
    destruct names as [|y names].
    + cbn [ddashed map joined] in *. rewrite app_length in L. cbn in L.
      destruct (exact_long N s t x [] H Ux Cx (or_introl eq_refl) ltac:(intros []) ltac:(lia)) as (s1 & E1 & S1 & K1). rewrite app_nil_r in E1, K1.
      rewrite cat_longs_step by exact Nx. rewrite E1. cbn [cbind]. rewrite K1. exists s1. auto.
    + change (ddashed (y :: names)) with ((lit "--" ++ y) :: ddashed names) in *. rewrite (joined_more [","%char]) in *. rewrite (joined_more sep) in *. change ((lit "--" ++ y) :: ddashed names) with (ddashed (y :: names)) in *. rewrite !app_length in L. cbn [lit list_ascii_of_string List.length] in L.
      destruct (exact_long N s t x ([","%char] ++ joined [","%char] (y :: names)) H Ux Cx) as (s1 & E1 & S1 & K1); [right; eexists; reflexivity| |lia|].
      { apply no_nul_app. split; [intros [E|[]]; discriminate|exact Nj]. }
      destruct (exact_cat N s1 _ sep S1 Ns) as (s2 & E2 & S2 & _); [rewrite !app_length; cbn [lit list_ascii_of_string List.length] in *; lia|].
      destruct (IH fuel s2 _ S2) as (s3 & E3 & S3); [rewrite !app_length in Lf; cbn [List.length] in Lf; unfold str in *; lia|rewrite !app_length; cbn [lit list_ascii_of_string List.length] in *; lia|].
      exists s3. split; [|rewrite <- !app_assoc in S3; rewrite <- app_assoc; exact S3].
      eapply eq_trans; [apply (cat_longs_next fuel sep _ s s1 (joined [","%char] (y :: names))); [destruct x; [congruence|discriminate]|exact E1|exact K1]|].
      rewrite E2. exact E3.
Qed.

Lemma joined_app sep a b : joined sep (a ++ b) = joined sep a ++ (match a, b with _ :: _, _ :: _ => sep | _, _ => [] end) ++ joined sep b.
Proof.
  induction a as [|x a IH]; [reflexivity|]. destruct a as [|y a].
  - cbn [app]. rewrite joined_cons. destruct b; cbn [app joined]; [rewrite app_nil_r; reflexivity|reflexivity].
  - change ((x :: y :: a) ++ b) with (x :: y :: (a ++ b)). rewrite !joined_more. change (y :: (a ++ b)) with ((y :: a) ++ b). rewrite IH. rewrite <- !app_assoc. destruct b; reflexivity.
Qed.

Lemma exact_value N s t v (o : bool) : bshows N s t -> no_nul v -> len t + len (if o then ["["%char] ++ v ++ ["]"%char] else v) <= N - 1 ->
  exists s', cat_value v o s = Val s' /\ bshows N s' (t ++ if o then ["["%char] ++ v ++ ["]"%char] else v).
Proof.
  intros H Nv L. unfold cat_value. destruct o.
  - rewrite !app_length in L. cbn [List.length] in L.
    destruct (exact_cat N s t (lit "[") H ltac:(apply lit_no_nul; reflexivity) ltac:(cbn; lia)) as (s1 & -> & S1 & _). cbn [cbind].
    destruct (exact_cat N s1 _ v S1 Nv) as (s2 & -> & S2 & _); [rewrite app_length; cbn; lia|]. cbn [cbind].
    destruct (exact_cat N s2 _ (lit "]") S2) as (s3 & -> & S3 & _); [apply lit_no_nul; reflexivity|rewrite !app_length; cbn; lia|].
    exists s3. split; [reflexivity|]. rewrite <- !app_assoc in S3. exact S3.
  - destruct (exact_cat N s t v H Nv L) as (s1 & -> & S1 & _). exists s1. auto.
Qed.

Lemma cbind_val {A B} (r : cres A) x (f : A -> cres B) y : r = Val x -> f x = y -> cbind r f = y.
Proof. intros -> H. exact H. Qed.
Lemma exact_optionv N n sep s t : no_nul sep -> ~ In NUL (n_shorts n) -> Forall (fun l => l <> [] /\ no_nul l /\ ~ In ","%char l) (n_longs n) ->
  (forall v, n_value n = Some v -> no_nul v) -> bshows N s t -> len t + len (full_syntax sep n) <= N - 1 ->
  exists s', arg_cat_optionv (g_shortopts (members n)) (g_longopts (members n)) (n_value n) (n_optional n) sep s = Val s' /\ bshows N s' (t ++ full_syntax sep n).
Proof.
  intros Ns N1 N2 N3 H L. unfold arg_cat_optionv. cbn [members g_shortopts g_longopts].
  unfold full_syntax, option_names in *. change (map (fun c => ["-"%char; c]) (n_shorts n)) with (dashed (n_shorts n)) in *. change (map (app ["-"; "-"]%char) (n_longs n)) with (ddashed (n_longs n)) in *.
  rewrite joined_app in *. rewrite !app_length in L.
  assert (exists s1, match (match n_shorts n with [] => None | so => Some so end) with Some so => cat_shorts sep so s | None => Val s end = Val s1 /\
    bshows N s1 (t ++ joined sep (dashed (n_shorts n)))) as (s1 & E1 & S1).
  { destruct (n_shorts n) as [|c so] eqn:En; [exists s; split; [reflexivity|cbn; rewrite app_nil_r; exact H]|].
    destruct (exact_shorts N sep (c :: so) Ns N1 s t H ltac:(lia)) as (s1 & E & S1). exists s1. auto. }
  assert (exists s2, match (match n_shorts n with [] => None | so => Some so end), (match n_longs n with [] => None | l => Some (joined [","%char] l) end) with
      | Some _, Some _ => arg_cat sep s1 | _, _ => Val s1 end = Val s2 /\
      bshows N s2 ((t ++ joined sep (dashed (n_shorts n))) ++ match dashed (n_shorts n), ddashed (n_longs n) with _ :: _, _ :: _ => sep | _, _ => [] end)) as (s2 & E2 & S2).
  { destruct (n_shorts n) as [|c so], (n_longs n) as [|x lo]; cbn [dashed ddashed map] in *; try (exists s1; split; [reflexivity|]; cbn [app]; rewrite app_nil_r; exact S1).
    destruct (exact_cat N s1 _ sep S1 Ns) as (s2 & E & S2 & _); [rewrite app_length; lia|]. exists s2. auto. }
  rewrite <- app_assoc in S2.
  set (m := match dashed (n_shorts n), ddashed (n_longs n) with _ :: _, _ :: _ => sep | _, _ => [] end) in *.
  assert (exists s3, match (match n_longs n with [] => None | l => Some (joined [","%char] l) end) with Some lo => cat_longs (S (len lo)) sep lo s2 | None => Val s2 end = Val s3 /\
      bshows N s3 ((t ++ joined sep (dashed (n_shorts n)) ++ m) ++ joined sep (ddashed (n_longs n)))) as (s3 & E3 & S3).
  { clearbody m. destruct (n_longs n) as [|x lo] eqn:En; [exists s2; split; [reflexivity|]; cbn [ddashed map joined]; rewrite app_nil_r; exact S2|].
    apply (exact_longs N sep (x :: lo) Ns N2 _ s2 _ S2); [lia|rewrite !app_length; lia]. }
  rewrite <- !app_assoc in S3. rewrite <- !app_assoc.
  unfold option_value in *. destruct (n_value n) as [v|] eqn:Ev; [|exists s3; split; [exact (cbind_val _ _ _ _ E1 (cbind_val _ _ _ _ E2 (cbind_val _ _ _ _ E3 eq_refl)))|]; rewrite app_nil_r; exact S3].
  rewrite app_length in L. set (sp := match n_longs n, n_shorts n with _ :: _, _ => ["="%char] | [], _ :: _ => [" "%char] | [], [] => [] end) in *.
  assert (exists s4, match (match n_longs n with [] => None | l => Some (joined [","%char] l) end), (match n_shorts n with [] => None | so => Some so end) with
      | Some _, _ => arg_cat (lit "=") s3 | None, Some _ => arg_cat (lit " ") s3 | None, None => Val s3 end = Val s4 /\
      bshows N s4 ((t ++ joined sep (dashed (n_shorts n)) ++ m ++ joined sep (ddashed (n_longs n))) ++ sp)) as (s4 & E4 & S4).
  { unfold sp in *. clearbody m. destruct (n_longs n) as [|x lo]; [destruct (n_shorts n) as [|c so]|].
    - exists s3. split; [reflexivity|]. rewrite app_nil_r. exact S3.
    - destruct (exact_cat N s3 _ (lit " ") S3) as (s4 & E & S4 & _); [apply lit_no_nul; reflexivity|rewrite !app_length; cbn [List.length lit list_ascii_of_string] in *; lia|]. exists s4. auto.
    - destruct (exact_cat N s3 _ (lit "=") S3) as (s4 & E & S4 & _); [apply lit_no_nul; reflexivity|rewrite !app_length; cbn [List.length lit list_ascii_of_string] in *; lia|]. exists s4. auto. }
  rewrite <- !app_assoc in S4.
  destruct (exact_value N s4 _ v (n_optional n) S4 (N3 v eq_refl)) as (s5 & E5 & S5); [rewrite !app_length; lia|].
  exists s5. split; [exact (cbind_val _ _ _ _ E1 (cbind_val _ _ _ _ E2 (cbind_val _ _ _ _ E3 (cbind_val _ _ _ _ E4 E5))))|]. rewrite <- !app_assoc in S5. exact S5.
Qed.

(** ** Through the growable string *)
Definition adding (o : op) : Prop :=
  match o with
  | Cat s => no_nul s
  | Catc c => c <> NUL
  | Catf n s => no_nul s /\ n < 100 /\ (Dstr.len s < DstrSpec.LIMIT)%Z
  | _ => False
  end.
Lemma adding_text os : Forall adding os -> DstrSpec.text_of os = added_by os.
Proof.
  intros F. change (added_by os) with ([] ++ added_by os). unfold DstrSpec.text_of. generalize (@nil ascii) as t.
  induction F as [|o os H F IH]; intros t; cbn [fold_left]; [symmetry; apply app_nil_r|].
  rewrite IH. change (o :: os) with ([o] ++ os). rewrite added_app, app_assoc. f_equal. destruct o; cbn [adding] in H; try contradiction; unfold added_by; cbn [DstrSpec.text_after map List.concat]; rewrite app_nil_r; auto.
  - rewrite upto_id by (intros [J|[]]; congruence). reflexivity.
  - rewrite upto_id by apply H. reflexivity.
Qed.
Lemma through_adding os : Forall adding os -> (Dstr.len (added_by os) < DstrSpec.LIMIT)%Z -> through_dstr (Val os) = Val (added_by os).
Proof.
  intros F L. unfold through_dstr. cbn [cbind].
  destruct (dstr_concatenates os) as (d & C & T & h & D & _).
  - eapply Forall_impl; [|exact F]. intros [| |n s'| | | | |] H; cbn in *; try tauto. unfold DstrSpec.LIMIT. intuition lia.
  - intros b a Eq. subst os. apply Forall_app in F. rewrite (adding_text b) by apply F. rewrite added_app, len_app in L. pose proof (len_nonneg (added_by a)). lia.
  - rewrite C. cbn [cbind]. rewrite T. cbn [cbind]. rewrite D. cbn [cbind]. rewrite adding_text by exact F. reflexivity.
Qed.

(** ** A text in a column *)
Lemma column_width lm rm : (0 <= lm <= rm)%Z -> (rm < U32_MOD - 1)%Z -> cast_u32 (cast_u32 (rm - lm) + 1) = (rm - lm + 1)%Z.
Proof. intros H1 H2. rewrite (cast_u32_id (rm - lm)) by lia. apply cast_u32_id. lia. Qed.

Lemma column_ok fuel lm rm text : (0 <= lm <= rm)%Z -> (rm < U32_MOD - 1)%Z -> no_nul text -> List.length text < fuel ->
  exists os lines, print_formatted fuel lm rm text = Some (Val os) /\ WrapSpec.shows (Z.to_nat (rm - lm + 1)) text lines /\ printed_lines (Z.to_nat lm) lines (added_by os) /\
    Forall adding os /\ List.length (added_by os) <= (Z.to_nat lm + 2) * List.length text.
Proof.
  intros H1 H2 N Hf. unfold print_formatted. rewrite column_width by assumption.
  destruct (format_ok (rm - lm + 1) (Z.to_nat lm) text ltac:(lia) fuel [] text eq_refl Hf) as (os & lines & E & Sh & Pl & _ & Fo & Lo).
  exists os, lines. split; [exact E|]. split; [exact Sh|]. split; [exact Pl|]. split; [|exact Lo].
  eapply Forall_impl; [|exact Fo]. intros o [(c & -> & J)|[->| ->]]; cbn [adding].
  - intros ->. exact (N J).
  - intros [J|[]]; discriminate.
  - apply lit_no_nul; reflexivity.
Qed.

Lemma column_printed fuel lm rm text : (0 <= lm <= rm)%Z -> (rm < U32_MOD - 1)%Z -> no_nul text -> List.length text < fuel ->
  ((lm + 2) * Z.of_nat (List.length text) < LIMIT)%Z ->
  exists lines out, option_map through_dstr (print_formatted fuel lm rm text) = Some (Val out) /\
    WrapSpec.shows (Z.to_nat (rm - lm + 1)) text lines /\ printed_lines (Z.to_nat lm) lines out.
Proof.
  intros H1 H2 N Hf HL. destruct (column_ok fuel lm rm text H1 H2 N Hf) as (os & lines & E & Sh & Pl & Fo & Lo).
  exists lines, (added_by os). rewrite E. cbn [option_map]. rewrite through_adding; [auto|exact Fo|]. unfold Dstr.len.
  enough (Z.of_nat (len (added_by os)) <= (lm + 2) * Z.of_nat (List.length text))%Z by lia.
  apply Nat2Z.inj_le in Lo. rewrite Nat2Z.inj_mul, Nat2Z.inj_add, Z2Nat.id in Lo by lia. exact Lo.
Qed.

(** ** The glossary *)
Lemma fmt_left_left w s : fmt_left w s = left w s.
Proof. reflexivity. Qed.
Lemma syntax_start n : exists s t, gnu_syntax (members n) = Val s /\ bshows 199 s t /\
  t = match n_shorts n, n_longs n with [], _ :: _ => repeat " "%char 4 | _, _ => [] end.
Proof.
  assert (bshows 199 syntax []) as S0.
  { unfold bshows, syntax, fresh_buffer; cbn [c_buf c_dest c_ndest app List.length].
    rewrite Nat.sub_0_r, bytes_repeat. split; [reflexivity|]. split; [lia|]. split; [intros []|lia]. }
  unfold gnu_syntax, members. cbn [g_shortopts g_longopts]. destruct (n_shorts n) as [|c so]; [destruct (n_longs n) as [|x lo]|].
  - exists syntax, []. auto.
  - eexists. exists (repeat " "%char 4). split; [vm_compute; reflexivity|]. split; [|reflexivity].
    split; [vm_compute; reflexivity|]. cbn [c_dest c_ndest]. rewrite repeat_length. split; [lia|]. split; [intros [J|[J|[J|[J|[]]]]]; discriminate|lia].
  - exists syntax, []. destruct (n_longs n); auto.
Qed.

Lemma gnu_column_no_nul n : presentable n -> exists s, buffer_text (cbind (gnu_syntax (members n)) (arg_cat_optionv (g_shortopts (members n)) (g_longopts (members n)) (g_datatype (members n)) (g_optvalue (members n)) (lit ", "))) = Val s /\
  s = gnu_column n /\ no_nul s.
Proof.
  intros (N1 & N2 & N3 & _ & L). destruct (syntax_start n) as (s & t & E & Sh & Et). rewrite E. cbn [cbind].
  assert (gnu_column n = t ++ full_syntax (lit ", ") n) as Eg by (rewrite Et; reflexivity). rewrite Eg in *. rewrite app_length in L.
  destruct (exact_optionv 199 n (lit ", ") s t ltac:(apply lit_no_nul; reflexivity) N1 N2 N3 Sh ltac:(lia)) as (s' & E' & S').
  change (g_datatype (members n)) with (n_value n). change (g_optvalue (members n)) with (n_optional n). rewrite E'. unfold buffer_text. cbn [cbind].
  rewrite (shows_text _ _ _ S'). eexists. split; [reflexivity|]. split; [reflexivity|]. apply S'.
Qed.

Lemma no_nul_repeat n : no_nul (repeat " "%char n).
Proof. intros J. apply repeat_spec in J. discriminate. Qed.
Lemma no_nul_left w s : no_nul s -> no_nul (left w s).
Proof. intros H. apply no_nul_app. split; [exact H|apply no_nul_repeat]. Qed.
Lemma left_length w s : List.length (left w s) = Nat.max w (List.length s).
Proof. unfold left. rewrite app_length, repeat_length. lia. Qed.
Lemma left_over w s : w <= List.length s -> left w s = s.
Proof. intros H. unfold left. replace (w - List.length s) with 0 by lia. apply app_nil_r. Qed.

Lemma entry_ok fuel n : presentable n -> help_size n < fuel ->
  exists os, gnu_entry_ops fuel (members n) = Some (Val os) /\ help_entry n (added_by os) /\ Forall adding os /\ List.length (added_by os) <= 230 + 30 * help_size n.
Proof.
  intros P Hf. destruct (gnu_column_no_nul n P) as (s & E & Es & Ns). pose proof P as (_ & _ & _ & N4 & L). subst s.
  unfold gnu_entry_ops. rewrite E. change (g_glossary (members n)) with (n_help n). unfold help_entry, help_size in *.
  destruct (n_help n) as [g|]; [|exists []; split; [reflexivity|]; split; [reflexivity|]; split; [constructor|cbn; lia]].
  destruct (column_ok fuel 28 79 g ltac:(lia) ltac:(reflexivity) (N4 g eq_refl) Hf) as (os & lines & -> & Sh & Pl & Fo & Lo).
  change (Z.to_nat (79 - 28 + 1)) with 52 in Sh. change (Z.to_nat 28) with 28 in *.
  destruct (25 <? List.length (gnu_column n)) eqn:K; cbn [option_map].
  - apply Nat.ltb_lt in K. eexists. split; [reflexivity|]. rewrite !added_app.
    assert (added_by [catf "  %-25s %s." (lit "  " ++ fmt_left 25 (gnu_column n) ++ lit " " ++ [NL])] = repeat " "%char 2 ++ gnu_column n ++ [" "; "010"]%char) as ->.
    { unfold added_by. cbn [map List.concat catf]. rewrite fmt_left_left, left_over, app_nil_r by lia. reflexivity. }
    change (added_by [catf "  %-25s " (lit "  " ++ fmt_left 25 [] ++ lit " ")]) with (repeat " "%char 28). split; [|split].
    + exists lines, (added_by os). split; [exact Sh|]. split; [exact Pl|]. rewrite <- !app_assoc. reflexivity.
    + constructor; [|constructor; [|exact Fo]]; cbn [adding catf String.length].
      * rewrite fmt_left_left. split; [|split; [cbn; lia|]].
        -- apply no_nul_app. split; [apply lit_no_nul; reflexivity|]. apply no_nul_app. split; [apply no_nul_left, Ns|]. intros [J|[J|[]]]; discriminate.
        -- unfold Dstr.len. rewrite !app_length, left_length. cbn [List.length lit list_ascii_of_string]. unfold LIMIT. lia.
      * split; [|split; [cbn; lia|reflexivity]]. apply no_nul_repeat with (n := 28).
    + rewrite !app_length, !repeat_length. cbn [List.length]. lia.
  - apply Nat.ltb_ge in K. eexists. split; [reflexivity|]. rewrite !added_app. cbn [app].
    assert (added_by [catf "  %-25s " (lit "  " ++ fmt_left 25 (gnu_column n) ++ lit " ")] = repeat " "%char 2 ++ left 25 (gnu_column n) ++ [" "%char]) as ->.
    { unfold added_by. cbn [map List.concat catf]. rewrite app_nil_r. reflexivity. }
    split; [|split].
    + exists lines, (added_by os). auto.
    + constructor; [|exact Fo]. cbn [adding catf String.length]. rewrite fmt_left_left. split; [|split; [cbn; lia|]].
      * apply no_nul_app. split; [apply lit_no_nul; reflexivity|]. apply no_nul_app. split; [apply no_nul_left, Ns|]. intros [J|[]]; discriminate.
      * unfold Dstr.len. rewrite !app_length, left_length. cbn [List.length lit list_ascii_of_string]. unfold LIMIT. lia.
    + rewrite !app_length, !repeat_length, left_length. change (added_by []) with (@nil ascii). cbn [List.length]. lia.
Qed.

Definition total_help (table : list named) : nat := list_sum (map help_size table).
Lemma glossary_ops_ok fuel table : Forall presentable table -> total_help table < fuel ->
  exists os outs, gnu_ops fuel (map members table) = Some (Val os) /\ Forall2 help_entry table outs /\ added_by os = List.concat outs ++ [NL] /\ Forall adding os /\
    List.length (added_by os) <= 1 + 230 * List.length table + 30 * total_help table.
Proof.
  induction 1 as [|n table P F IH]; intros Hf.
  - exists [Cat [NL]], []. split; [reflexivity|]. split; [constructor|]. split; [reflexivity|]. split; [|cbn; lia]. constructor; [intros [J|[]]; discriminate|constructor].
  - change (total_help (n :: table)) with (help_size n + total_help table) in *.
    destruct (IH ltac:(lia)) as (os & outs & E & Fh & Ea & Fo & Lo). destruct (entry_ok fuel n P ltac:(lia)) as (os1 & E1 & H1 & F1 & L1).
    exists (os1 ++ os), (added_by os1 :: outs). cbn [map gnu_ops]. rewrite E1, E. split; [reflexivity|]. split; [constructor; assumption|].
    rewrite added_app, Ea. split; [cbn [List.concat]; rewrite app_assoc; reflexivity|]. split; [apply Forall_app; auto|]. rewrite <- Ea, app_length. cbn [List.length]. lia.
Qed.

Lemma glossary_printed fuel table : Forall presentable table -> total_help table < fuel ->
  (230 * Z.of_nat (List.length table) + 30 * Z.of_nat (total_help table) < LIMIT - 1)%Z ->
  exists outs, print_glossary_gnu fuel (map members table) = Some (Val (List.concat outs ++ [NL])) /\ Forall2 help_entry table outs.
Proof.
  intros F Hf HL. destruct (glossary_ops_ok fuel table F Hf) as (os & outs & E & Fh & Ea & Fo & Lo).
  exists outs. split; [|exact Fh]. unfold print_glossary_gnu. rewrite E. cbn [option_map]. rewrite through_adding, Ea; [reflexivity|exact Fo|]. unfold Dstr.len. lia.
Qed.

(** ** Limits *)
Lemma no_width_loops lm : (1 <= lm < U32_MOD)%Z -> forall fuel, print_formatted fuel lm (lm - 1) (lit "a") = None.
Proof.
  intros H. unfold print_formatted. replace (lm - 1 - lm)%Z with (-1)%Z by lia. change (cast_u32 (cast_u32 (-1) + 1)) with 0%Z.
  change (List.length (lit "a")) with 1. generalize (Z.to_nat lm) as m. intros m. induction fuel as [|fuel IH]; [reflexivity|].
  change (format_lines (S fuel) m 0 (lit "a") 0 1) with (option_map (after ([] ++ [Cat [NL]] ++ repeat (Cat (lit " ")) m)) (format_lines fuel m 0 (lit "a") 0 1)).
  rewrite IH. reflexivity.
Qed.

Lemma option_complete N n sep : 1 <= N -> no_nul sep -> ~ In NUL (n_shorts n) -> Forall (fun l => l <> [] /\ no_nul l /\ ~ In ","%char l) (n_longs n) ->
  (forall v, n_value n = Some v -> no_nul v) -> List.length (full_syntax sep n) < N ->
  buffer_text (arg_cat_optionv (g_shortopts (members n)) (g_longopts (members n)) (n_value n) (n_optional n) sep (fresh_buffer N)) = Val (full_syntax sep n).
Proof.
  intros HN Ns N1 N2 N3 L.
  assert (bshows N (fresh_buffer N) []) as S0.
  { unfold bshows, fresh_buffer; cbn [c_buf c_dest c_ndest app List.length]. rewrite Nat.sub_0_r, bytes_repeat. split; [reflexivity|]. split; [lia|]. split; [intros []|lia]. }
  destruct (exact_optionv N n sep _ [] Ns N1 N2 N3 S0 ltac:(cbn [List.length]; lia)) as (s & -> & S'). unfold buffer_text. cbn [cbind]. apply (shows_text _ _ _ S').
Qed.
