(** Bounds and text of the option buffer. *)
From Coq Require Import ZArith Bool List Ascii String Arith Lia.
From Verif.Base Require Import CInt CStr CMem.
From Verif.Model Require Import ArgCat.
From Verif.Spec Require Import DstrSpec.
From Verif.Proofs Require Import DstrProofs.
Import ListNotations.
Open Scope list_scope.
Open Scope nat_scope.

(** The buffer of [N + 1] bytes, [end] at [N], is initialised, its last byte is
    NUL, and the position is before [end]. *)
Definition fine (N : nat) (s : cursor) : Prop :=
  exists w, c_buf s = bytes w /\ List.length w = S N /\ nth_error w N = Some NUL /\
            c_dest s + c_ndest s = N /\ 1 <= c_ndest s.

Definition at_end (s : cursor) : Prop := load (c_buf s) (c_dest s) = Val NUL.

Lemma load_bytes w i : i < List.length w -> exists c, nth_error w i = Some c /\ load (bytes w) i = Val c.
Proof.
  intros H. unfold load, bytes. rewrite nth_error_map.
  destruct (nth_error w i) as [c|] eqn:E; [|apply nth_error_None in E; lia].
  exists c. auto.
Qed.

Lemma bytes_inj v w : bytes v = bytes w -> v = w.
Proof. revert w; induction v as [|c v IH]; intros [|d w] H; cbn in H; try discriminate; [reflexivity|]. injection H as -> H. f_equal. apply IH, H. Qed.

Lemma bytes_repeat n : bytes (repeat NUL n) = zeroed n.
Proof. induction n; cbn; [reflexivity|]. f_equal. assumption. Qed.

Definition splice (w : str) (i : nat) (v : str) : str := firstn i w ++ v ++ skipn (i + List.length v) w.

Lemma store_bytes w i v :
  i + List.length v <= List.length w -> store (bytes w) i (bytes v) = Val (bytes (splice w i v)).
Proof.
  intros H. rewrite store_val by (rewrite !bytes_length; lia).
  unfold splice. rewrite !bytes_app. rewrite bytes_length. unfold bytes.
  rewrite firstn_map, skipn_map. reflexivity.
Qed.

Lemma splice_length w i v : i + List.length v <= List.length w -> List.length (splice w i v) = List.length w.
Proof. intros H. unfold splice. rewrite !app_length, firstn_length, skipn_length. lia. Qed.

Lemma nth_error_skipn {A} (l : list A) k j : nth_error (skipn k l) j = nth_error l (k + j).
Proof. revert l; induction k as [|k IH]; intros [|x l]; cbn; auto. destruct j; reflexivity. Qed.

Lemma nth_error_firstn {A} (l : list A) k j : j < k -> nth_error (firstn k l) j = nth_error l j.
Proof. revert l j; induction k as [|k IH]; intros [|x l] [|j]; cbn; intros H; auto; try lia. apply IH. lia. Qed.

Lemma splice_nth w i v j :
  i + List.length v <= List.length w ->
  nth_error (splice w i v) j =
    if j <? i then nth_error w j
    else if j <? i + List.length v then nth_error v (j - i) else nth_error w j.
Proof.
  intros H. unfold splice. destruct (j <? i) eqn:E1.
  - apply Nat.ltb_lt in E1. rewrite nth_error_app1 by (rewrite firstn_length; lia).
    apply nth_error_firstn, E1.
  - apply Nat.ltb_ge in E1. rewrite nth_error_app2 by (rewrite firstn_length; lia).
    rewrite firstn_length, Nat.min_l by lia. destruct (j <? i + List.length v) eqn:E2.
    + apply Nat.ltb_lt in E2. rewrite nth_error_app1 by lia. reflexivity.
    + apply Nat.ltb_ge in E2. rewrite nth_error_app2 by lia. rewrite nth_error_skipn. f_equal. lia.
Qed.

Lemma nth_error_ext {A} (l l' : list A) : (forall j, nth_error l j = nth_error l' j) -> l = l'.
Proof.
  revert l'; induction l as [|x l IH]; intros [|y l'] H; auto.
  - specialize (H 0). discriminate.
  - specialize (H 0). discriminate.
  - f_equal; [specialize (H 0); injection H; auto|]. apply IH. intros j. apply (H (S j)).
Qed.

(** ** The two loops of arg_cat *)

Lemma seek_ok room w dest :
  dest + room <= List.length w ->
  exists p, seek room (bytes w) dest = Val p /\ dest <= p <= dest + room /\
            (forall j, dest <= j < p -> nth_error w j <> Some NUL) /\
            (p < dest + room -> nth_error w p = Some NUL).
Proof.
  revert dest; induction room as [|room IH]; intros dest H; cbn.
  - exists dest. split; [reflexivity|]. split; [lia|]. split; [lia|lia].
  - destruct (load_bytes w dest) as (c & E & ->); [lia|]. cbn.
    destruct (aeqb c NUL) eqn:Ec.
    + apply aeqb_eq in Ec. subst. exists dest. split; [reflexivity|]. split; [lia|]. split; [lia|auto].
    + destruct (IH (S dest)) as (p & -> & B & C & D); [lia|].
      exists p. split; [reflexivity|]. split; [lia|]. split.
      * intros j J. destruct (Nat.eq_dec j dest) as [->|]; [|apply C; lia].
        rewrite E. intros F; injection F as ->. rewrite aeqb_refl in Ec. discriminate.
      * intros. apply D. lia.
Qed.

Lemma copy_ok room w dest src :
  dest + room <= List.length w ->
  copy room (bytes w) dest src =
    Val (bytes (splice w dest (firstn room src)), dest + List.length (firstn room src)).
Proof.
  revert w dest src; induction room as [|room IH]; intros w dest src H; cbn.
  - unfold splice. cbn. rewrite Nat.add_0_r, firstn_skipn. reflexivity.
  - destruct src as [|c src]; cbn.
    + unfold splice. cbn. rewrite Nat.add_0_r, firstn_skipn. reflexivity.
    + change [Some c] with (bytes [c]). rewrite store_bytes by (cbn; lia). cbn.
      rewrite IH by (rewrite splice_length; cbn; lia).
      f_equal. f_equal; [|lia]. f_equal.
      assert (L : List.length (firstn room src) <= room) by (rewrite firstn_length; lia).
      set (v := firstn room src) in *. clearbody v.
      apply nth_error_ext. intros j.
      rewrite !splice_nth by (rewrite ?splice_length; cbn; lia). cbn [List.length].
      repeat match goal with |- context [?a <? ?b] => destruct (Nat.ltb_spec a b) end;
        try lia; try reflexivity.
      * replace (j - dest) with 0 by lia. reflexivity.
      * replace (j - dest) with (S (j - S dest)) by lia. reflexivity.
Qed.

(** ** arg_cat *)

(** What arg_cat does to the bytes [w]: [p] is where the string ends (or [end-1]),
    [v] what is copied there. *)
Lemma arg_cat_ok N s src :
  fine N s ->
  exists w p v s',
    c_buf s = bytes w /\ List.length w = S N /\
    c_dest s <= p <= N - 1 /\
    (forall j, c_dest s <= j < p -> nth_error w j <> Some NUL) /\
    (p < N - 1 -> nth_error w p = Some NUL) /\
    v = firstn (N - 1 - p) src /\
    arg_cat src s = Val s' /\ c_buf s' = bytes (splice w p (v ++ [NUL])) /\
    c_dest s' = p + List.length v /\ p + List.length v <= N - 1 /\
    fine N s' /\ at_end s'.
Proof.
  intros (w & B & L & Z & D & P). unfold arg_cat. rewrite B, D.
  destruct (seek_ok (N - 1 - c_dest s) w (c_dest s)) as (p & -> & P1 & P2 & P3); [lia|].
  cbn [cbind]. rewrite copy_ok by lia. cbn [cbind].
  set (v := firstn (N - 1 - p) src).
  assert (Lv : List.length v <= N - 1 - p) by (unfold v; rewrite firstn_length; lia).
  change [Some NUL] with (bytes [NUL]).
  rewrite store_bytes by (rewrite splice_length; cbn; lia). cbn [cbind].
  assert (ES : splice (splice w p v) (p + List.length v) [NUL] = splice w p (v ++ [NUL])).
  { apply nth_error_ext. intros j.
    rewrite !splice_nth by (rewrite ?splice_length; rewrite ?app_length; cbn; lia).
    rewrite app_length. cbn [List.length].
    repeat match goal with |- context [?a <? ?b] => destruct (Nat.ltb_spec a b) end;
        try lia; try reflexivity.
    - rewrite nth_error_app1 by lia. reflexivity.
    - rewrite nth_error_app2 by lia. f_equal. lia. }
  rewrite ES.
  eexists w, p, v, _. repeat (split; [solve [reflexivity|assumption|lia|intros; apply P3; lia]|]).
  assert (LS : p + List.length (v ++ [NUL]) <= List.length w) by (rewrite app_length; cbn; lia).
  split.
  - exists (splice w p (v ++ [NUL])). cbn [c_buf c_dest c_ndest].
    split; [reflexivity|]. split; [rewrite splice_length; lia|]. split; [|lia].
    rewrite splice_nth by exact LS. rewrite app_length. cbn [List.length].
    repeat match goal with |- context [?a <? ?b] => destruct (Nat.ltb_spec a b) end; try lia; exact Z.
  - unfold at_end. cbn [c_buf c_dest].
    destruct (load_bytes (splice w p (v ++ [NUL])) (p + List.length v)) as (c & E & ->);
      [rewrite splice_length; lia|].
    rewrite splice_nth in E by exact LS. rewrite app_length in E. cbn [List.length] in E.
    destruct (Nat.ltb_spec (p + List.length v) p); [lia|].
    destruct (Nat.ltb_spec (p + List.length v) (p + (List.length v + 1))); [|lia].
    rewrite nth_error_app2 in E by lia.
    replace (p + List.length v - p - List.length v) with 0 in E by lia. cbn in E. congruence.
Qed.

Lemma arg_cat_fine N s src : fine N s -> exists s', arg_cat src s = Val s' /\ fine N s' /\ at_end s'.
Proof.
  intros F. destruct (arg_cat_ok N s src F) as (w & p & v & s' & H). exists s'. tauto.
Qed.

(** strncat straight after arg_cat: up to [ndest] bytes and a NUL. *)
Lemma strncat_ok N s src n w :
  fine N s -> c_buf s = bytes w -> at_end s -> n <= c_ndest s ->
  strncat src n s = Val (mkC (bytes (splice w (c_dest s) (firstn n src ++ [NUL]))) (c_dest s) (c_ndest s)) /\
  fine N (mkC (bytes (splice w (c_dest s) (firstn n src ++ [NUL]))) (c_dest s) (c_ndest s)).
Proof.
  intros (w' & B & L & Z & D & P) Bw A Hn. rewrite B in Bw.
  assert (w' = w) as -> by (apply bytes_inj; exact Bw).
  unfold strncat. rewrite B. unfold at_end in A. rewrite B in A.
  assert (C : cstr (skipn (c_dest s) (bytes w)) = Val []).
  { unfold load in A. unfold bytes in A |- *. rewrite skipn_map.
    rewrite nth_error_map in A.
    pose proof (nth_error_skipn w (c_dest s) 0) as S0. rewrite Nat.add_0_r in S0. rewrite <- S0 in A.
    destruct (skipn (c_dest s) w) as [|c r]; cbn in A; [discriminate|].
    injection A as ->. reflexivity. }
  rewrite C. cbn [cbind List.length]. rewrite Nat.add_0_r.
  assert (Lf : List.length (firstn n src) <= n) by (rewrite firstn_length; lia).
  set (v := firstn n src) in *. clearbody v.
  assert (LS : c_dest s + List.length (v ++ [NUL]) <= List.length w) by (rewrite app_length; cbn; lia).
  replace (terminated v) with (bytes (v ++ [NUL])) by (rewrite bytes_app; reflexivity).
  rewrite store_bytes by exact LS. cbn [cbind]. split; [reflexivity|].
  exists (splice w (c_dest s) (v ++ [NUL])). cbn [c_buf c_dest c_ndest].
  split; [reflexivity|]. split; [rewrite splice_length; lia|]. split; [|lia].
  rewrite splice_nth by exact LS. rewrite app_length in *. cbn [List.length] in *.
  destruct (Nat.ltb_spec N (c_dest s)); [lia|].
  destruct (Nat.ltb_spec N (c_dest s + (List.length v + 1))); [|exact Z].
  rewrite nth_error_app2 by lia. replace (N - c_dest s - List.length v) with 0 by lia. reflexivity.
Qed.

Lemma cat_long_fine N s name : fine N s -> exists s', cat_long name s = Val s' /\ fine N s'.
Proof.
  intros F. unfold cat_long.
  destruct (arg_cat_fine N s (lit "--") F) as (s1 & -> & F1 & A1). cbn [cbind].
  pose proof F1 as (w & B & _).
  destruct (strncat_ok N s1 name (if strcspn_comma name <? c_ndest s1 then strcspn_comma name else c_ndest s1) w F1 B A1)
    as [-> F2]; [destruct (Nat.ltb_spec (strcspn_comma name) (c_ndest s1)); lia|].
  eauto.
Qed.

Lemma arg_cat_fine' N s src : fine N s -> exists s', arg_cat src s = Val s' /\ fine N s'.
Proof. intros F. destruct (arg_cat_fine N s src F) as (s' & E & F' & _). eauto. Qed.

Ltac step :=
  match goal with
  | F : fine ?N ?s |- context [arg_cat ?x ?s] =>
      let s' := fresh "s" in let E := fresh "E" in let F' := fresh "F" in
      destruct (arg_cat_fine' N s x F) as (s' & E & F'); rewrite E; clear E; cbn [cbind]
  | F : fine ?N ?s |- context [cat_long ?x ?s] =>
      let s' := fresh "s" in let E := fresh "E" in let F' := fresh "F" in
      destruct (cat_long_fine N s x F) as (s' & E & F'); rewrite E; clear E; cbn [cbind]
  end.

Lemma cat_value_fine N s d o : fine N s -> exists s', cat_value d o s = Val s' /\ fine N s'.
Proof. intros F. unfold cat_value. destruct o; repeat step; eauto. Qed.

Lemma cat_datatype_fine N s sep d o : fine N s -> exists s', cat_datatype sep d o s = Val s' /\ fine N s'.
Proof.
  intros F. unfold cat_datatype. destruct d; [|eauto]. step. apply cat_value_fine; assumption.
Qed.

Lemma arg_cat_option_fine N s so lo d o : fine N s -> exists s', arg_cat_option so lo d o s = Val s' /\ fine N s'.
Proof.
  intros F. unfold arg_cat_option. destruct so as [so|].
  - step. apply cat_datatype_fine; assumption.
  - destruct lo as [lo|]; [step; apply cat_datatype_fine; assumption|].
    destruct d; [apply cat_value_fine; assumption|eauto].
Qed.

Lemma cat_shorts_fine N sep so s : fine N s -> exists s', cat_shorts sep so s = Val s' /\ fine N s'.
Proof.
  revert s; induction so as [|c so IH]; intros s F; cbn; [eauto|].
  step. destruct so; [eauto|]. step. apply IH; assumption.
Qed.

Lemma cat_longs_fine N fuel sep lo s :
  List.length lo < fuel -> fine N s -> exists s', cat_longs fuel sep lo s = Val s' /\ fine N s'.
Proof.
  revert lo s; induction fuel as [|fuel IH]; intros lo s L F; [lia|].
  destruct lo as [|c lo]; cbn [cat_longs]; [eauto|].
  step. destruct (skipn (strcspn_comma (c :: lo)) (c :: lo)) as [|x lo'] eqn:E; [eauto|].
  step. apply IH; [|assumption].
  apply (f_equal (@List.length _)) in E. rewrite skipn_length in E. cbn [List.length] in *. lia.
Qed.

Lemma arg_cat_optionv_fine N s so lo d o sep :
  fine N s -> exists s', arg_cat_optionv so lo d o sep s = Val s' /\ fine N s'.
Proof.
  intros F. unfold arg_cat_optionv.
  assert (exists s1, (match so with Some so => cat_shorts sep so s | None => Val s end) = Val s1 /\ fine N s1)
    as (s1 & -> & F1) by (destruct so; [apply cat_shorts_fine; assumption|eauto]).
  cbn [cbind].
  assert (exists s2, (match so, lo with Some _, Some _ => arg_cat sep s1 | _, _ => Val s1 end) = Val s2 /\ fine N s2)
    as (s2 & -> & F2) by (destruct so; [destruct lo|]; [apply arg_cat_fine'; assumption|eauto|eauto]).
  cbn [cbind].
  assert (exists s3, (match lo with Some lo => cat_longs (S (List.length lo)) sep lo s2 | None => Val s2 end) = Val s3 /\ fine N s3)
    as (s3 & -> & F3) by (destruct lo; [apply cat_longs_fine; [lia|assumption]|eauto]).
  cbn [cbind]. destruct d as [d|]; [|eauto].
  destruct lo; [step; apply cat_value_fine; assumption|].
  destruct so; [step; apply cat_value_fine; assumption|].
  cbn [cbind]. apply cat_value_fine; assumption.
Qed.

(** The buffer is a C string of less than its size. *)
Lemma cstr_bytes w n : nth_error w n = Some NUL -> exists t, cstr (bytes w) = Val t /\ List.length t <= n /\ no_nul t.
Proof.
  revert n; induction w as [|c w IH]; intros [|n] E; cbn in E; try discriminate.
  - injection E as ->. cbn. exists []. split; [reflexivity|]. split; [cbn; lia|intros []].
  - cbn. destruct (aeqb c NUL) eqn:Ec.
    + exists []. split; [reflexivity|]. split; [cbn; lia|intros []].
    + destruct (IH n E) as (t & Et & Lt & Nt). unfold bytes in Et. rewrite Et. cbn.
      exists (c :: t). split; [reflexivity|]. split; [cbn; lia|].
      apply no_nul_cons. split; [apply aeqb_neq, Ec|exact Nt].
Qed.

Lemma fine_text N s : fine N s -> exists t, cstr (c_buf s) = Val t /\ List.length t <= N /\ no_nul t.
Proof. intros (w & -> & _ & Z & _). apply cstr_bytes, Z. Qed.


Lemma fresh_fine N : 1 <= N -> fine N (fresh_buffer N).
Proof.
  intros H. exists (repeat NUL (S N)). unfold fresh_buffer; cbn [c_buf c_dest c_ndest].
  split; [symmetry; apply bytes_repeat|].
  rewrite repeat_length. split; [reflexivity|]. split; [|lia].
  apply nth_error_repeat. lia.
Qed.

(** ** The text *)

(** The buffer shows [t] and is zero after it. *)
Definition shows (N : nat) (s : cursor) (t : str) : Prop :=
  c_buf s = bytes (t ++ repeat NUL (S N - List.length t)) /\ List.length t <= N /\ no_nul t /\
  c_dest s <= List.length t /\ c_dest s + c_ndest s = N /\ 1 <= c_ndest s.

Lemma shows_fine N s t : shows N s t -> fine N s.
Proof.
  intros (B & L & Nt & D & E & P). eexists. split; [exact B|].
  rewrite app_length, repeat_length. split; [lia|]. split; [|lia].
  rewrite nth_error_app2 by lia. apply nth_error_repeat. lia.
Qed.

Lemma shows_text N s t : shows N s t -> cstr (c_buf s) = Val t.
Proof.
  intros (B & L & Nt & _). rewrite B, bytes_app, bytes_repeat.
  apply holds_cstr; [exact Nt|]. apply zeroed_holds. lia.
Qed.

Lemma nth_nul t k j : no_nul t -> nth_error (t ++ repeat NUL k) j = Some NUL -> List.length t <= j.
Proof.
  intros N E. destruct (le_lt_dec (List.length t) j) as [H|H]; [exact H|].
  rewrite nth_error_app1 in E by exact H. exfalso. apply N. eapply nth_error_In; eauto.
Qed.

Lemma arg_cat_shows N s t src :
  shows N s t -> no_nul src ->
  exists s', arg_cat src s = Val s' /\ shows N s' (firstn (N - 1) (t ++ src)) /\ at_end s' /\
             c_dest s' = List.length (firstn (N - 1) (t ++ src)).
Proof.
  intros S Ns. pose proof (shows_fine _ _ _ S) as F.
  destruct S as (B & L & Nt & D & E & P).
  destruct (arg_cat_ok N s src F)
    as (w & p & v & s' & Bw & Lw & Rp & NZ & ZP & Ev & EA & B' & D' & Lv & F' & A').
  rewrite B in Bw. apply bytes_inj in Bw. subst w.
  assert (Ep : p = Nat.min (List.length t) (N - 1)).
  { destruct (Nat.lt_ge_cases p (N - 1)) as [H|H].
    - apply ZP in H as H'. apply nth_nul in H'; [|exact Nt].
      destruct (Nat.eq_dec p (List.length t)); [lia|]. exfalso.
      apply (NZ (List.length t)); [lia|]. rewrite nth_error_app2 by lia. apply nth_error_repeat. lia.
    - destruct (Nat.lt_ge_cases (List.length t) p); [|lia]. exfalso.
      apply (NZ (List.length t)); [lia|]. rewrite nth_error_app2 by lia. apply nth_error_repeat. lia. }
  exists s'. split; [exact EA|].
  set (t' := firstn (N - 1) (t ++ src)).
  assert (Et : t' = firstn p t ++ v).
  { unfold t'. rewrite firstn_app, Ev, Ep.
    destruct (Nat.le_gt_cases (List.length t) (N - 1)).
    - rewrite Nat.min_l by lia. rewrite firstn_all, (firstn_all2 t) by lia. reflexivity.
    - rewrite Nat.min_r by lia. replace (N - 1 - List.length t) with 0 by lia.
      rewrite Nat.sub_diag. reflexivity. }
  assert (Lt : List.length t' = p + List.length v).
  { rewrite Et, app_length, firstn_length. lia. }
  split; [|split; [exact A'|congruence]].
  destruct F' as (w' & Bw' & _ & _ & E' & P').
  split; [|split; [lia|split; [|lia]]].
  - rewrite B'. f_equal. rewrite Lt.
    unfold splice. rewrite app_length. cbn [List.length].
    rewrite firstn_app. replace (p - List.length t) with 0 by lia. cbn [firstn]. rewrite app_nil_r.
    rewrite Et, <- !app_assoc. f_equal. f_equal.
    rewrite skipn_app.
    destruct (Nat.le_gt_cases (List.length t) (N - 1)).
    + rewrite skipn_all2 by lia. cbn [app]. rewrite skipn_repeat.
      replace (Datatypes.S N - (p + List.length v))
        with (Datatypes.S (Datatypes.S N - List.length t - (p + (List.length v + 1) - List.length t))) by lia.
      reflexivity.
    + assert (List.length v = 0) by (rewrite Ev, firstn_length; lia).
      rewrite skipn_all2 by lia. cbn [app]. rewrite skipn_repeat.
      replace (Datatypes.S N - (p + List.length v))
        with (Datatypes.S (Datatypes.S N - List.length t - (p + (List.length v + 1) - List.length t))) by lia.
      reflexivity.
  - unfold t'. apply no_nul_firstn. apply no_nul_app. auto.
Qed.

Lemma strncat_shows N s t src n :
  shows N s t -> no_nul src -> at_end s -> c_dest s = List.length t -> n <= c_ndest s ->
  exists s', strncat src n s = Val s' /\ shows N s' (t ++ firstn n src).
Proof.
  intros S Ns A Dt Hn. pose proof (shows_fine _ _ _ S) as F.
  destruct S as (B & L & Nt & D & E & P).
  destruct (strncat_ok N s src n _ F B A Hn) as [-> F'].
  eexists. split; [reflexivity|].
  assert (Lf : List.length (firstn n src) <= n) by (rewrite firstn_length; lia).
  assert (Nf : no_nul (firstn n src)) by (apply no_nul_firstn, Ns).
  set (v := firstn n src) in *. clearbody v.
  split; [|cbn [c_dest c_ndest]; rewrite app_length; split; [lia|split; [apply no_nul_app; auto|lia]]].
  cbn [c_buf]. f_equal. unfold splice. rewrite !app_length. cbn [List.length].
  rewrite Dt, firstn_app, Nat.sub_diag. cbn [firstn]. rewrite app_nil_r, firstn_all, <- !app_assoc.
  f_equal. f_equal. rewrite skipn_app, skipn_all2 by lia. cbn [app]. rewrite skipn_repeat.
  replace (Datatypes.S N - (List.length t + List.length v))
    with (Datatypes.S (Datatypes.S N - List.length t - (List.length t + (List.length v + 1) - List.length t))) by lia.
  reflexivity.
Qed.

Lemma firstn_app_firstn {A} n m (x y : list A) : n <= m -> firstn n (firstn m x ++ y) = firstn n (x ++ y).
Proof.
  intros H. rewrite !firstn_app, firstn_firstn, Nat.min_l by lia. f_equal. f_equal.
  rewrite firstn_length. destruct (Nat.le_gt_cases m (List.length x)); [|lia].
  destruct (Nat.eq_dec n m); lia.
Qed.

Lemma firstn_app_le {A} n (x y : list A) : List.length x <= n -> firstn n (x ++ y) = x ++ firstn (n - List.length x) y.
Proof. intros H. rewrite firstn_app, firstn_all2 by lia. reflexivity. Qed.

Definition no_comma (s : str) : Prop := ~ In ","%char s.

Lemma strcspn_all s : no_comma s -> strcspn_comma s = List.length s.
Proof.
  induction s as [|c s IH]; intros N; cbn; [reflexivity|].
  destruct (aeqb c ",") eqn:E; [apply aeqb_eq in E; subst; exfalso; apply N; left; reflexivity|].
  rewrite IH; [reflexivity|]. intros I. apply N. right. exact I.
Qed.

(** One long name after nothing. *)
Lemma cat_long_shows N s name :
  3 <= N -> shows N s [] -> no_nul name -> no_comma name ->
  exists s', cat_long name s = Val s' /\ shows N s' (firstn N (lit "--" ++ name)).
Proof.
  intros HN S Nn Nc. unfold cat_long.
  destruct (arg_cat_shows N s [] (lit "--") S) as (s1 & -> & S1 & A1 & D1);
    [intros [H|[H|[]]]; discriminate|].
  cbn [cbind app] in *. rewrite firstn_all2 in S1, D1 by (cbn; lia).
  rewrite strcspn_all by exact Nc.
  pose proof S1 as (B & L & Nt & D & E & P).
  destruct (strncat_shows N s1 (lit "--") name
             (if List.length name <? c_ndest s1 then List.length name else c_ndest s1)
             S1 Nn A1 D1) as (s2 & -> & S2).
  { destruct (Nat.ltb_spec (List.length name) (c_ndest s1)); lia. }
  exists s2. split; [reflexivity|].
  replace (firstn N (lit "--" ++ name))
    with (lit "--" ++ firstn (if List.length name <? c_ndest s1 then List.length name else c_ndest s1) name); [exact S2|].
  rewrite firstn_app_le by (cbn; lia). f_equal.
  cbn [lit list_ascii_of_string List.length] in *.
  destruct (Nat.ltb_spec (List.length name) (c_ndest s1)).
  - rewrite !firstn_all2 by lia. reflexivity.
  - f_equal. lia.
Qed.

(** The text for an entry with one long name. *)
Lemma long_option N name d sep :
  3 <= N -> name <> [] -> no_nul name -> no_comma name -> no_nul d ->
  buffer_text (arg_cat_optionv None (Some name) (Some d) false sep (fresh_buffer N)) =
    Val (firstn (N - 1) (lit "--" ++ name ++ lit "=" ++ d)).
Proof.
  intros HN Ne Nn Nc Nd. unfold arg_cat_optionv, buffer_text. cbn [cbind].
  assert (S0 : shows N (fresh_buffer N) []).
  { unfold shows, fresh_buffer; cbn [c_buf c_dest c_ndest app List.length].
    rewrite Nat.sub_0_r, bytes_repeat. split; [reflexivity|]. split; [lia|]. split; [intros []|lia]. }
  destruct (cat_long_shows N _ name HN S0 Nn Nc) as (s1 & E1 & S1).
  destruct name as [|c name']; [contradiction|]. set (name := c :: name') in *.
  assert (EL : cat_longs (S (List.length name)) sep name (fresh_buffer N) = Val s1).
  { unfold name at 2. cbn [cat_longs]. fold name. rewrite E1. cbn [cbind].
    rewrite strcspn_all, skipn_all by exact Nc. reflexivity. }
  rewrite EL. cbn [cbind].
  destruct (arg_cat_shows N s1 _ (lit "=") S1) as (s2 & -> & S2 & _); [intros [H|[]]; discriminate|].
  cbn [cbind cat_value].
  destruct (arg_cat_shows N s2 _ d S2 Nd) as (s3 & -> & S3 & _).
  cbn [cbind]. rewrite (shows_text _ _ _ S3). f_equal.
  rewrite firstn_app_firstn by lia. rewrite <- app_assoc.
  rewrite firstn_app_firstn by lia. rewrite <- app_assoc. reflexivity.
Qed.

Lemma long_flag N name sep :
  3 <= N -> name <> [] -> no_nul name -> no_comma name ->
  buffer_text (arg_cat_optionv None (Some name) None false sep (fresh_buffer N)) =
    Val (firstn N (lit "--" ++ name)).
Proof.
  intros HN Ne Nn Nc. unfold arg_cat_optionv, buffer_text. cbn [cbind].
  assert (S0 : shows N (fresh_buffer N) []).
  { unfold shows, fresh_buffer; cbn [c_buf c_dest c_ndest app List.length].
    rewrite Nat.sub_0_r, bytes_repeat. split; [reflexivity|]. split; [lia|]. split; [intros []|lia]. }
  destruct (cat_long_shows N _ name HN S0 Nn Nc) as (s1 & E1 & S1).
  destruct name as [|c name']; [contradiction|]. set (name := c :: name') in *.
  assert (EL : cat_longs (S (List.length name)) sep name (fresh_buffer N) = Val s1).
  { unfold name at 2. cbn [cat_longs]. fold name. rewrite E1. cbn [cbind].
    rewrite strcspn_all, skipn_all by exact Nc. reflexivity. }
  rewrite EL. cbn [cbind]. apply (shows_text _ _ _ S1).
Qed.
