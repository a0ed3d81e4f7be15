(** The judger's own table is one of these tables: Model/Argtable.v is an instance of
    Model/AnyTable.v. *)
From Coq Require Import ZArith Bool List Ascii String Arith Lia.
From Verif.Base Require Import CInt CStr.
From Verif.Model Require Import ArgInt Permute Getopt Argtable AnyTable.
Import ListNotations.
Open Scope list_scope.
Open Scope nat_scope.
Notation len := List.length.

Definition with_vals (e : entry) (vals : list aval) : entry :=
  mkEntry (e_kind e) (e_short e) (e_long e) (e_min e) (e_max e) vals.

Definition hdr_of (e : entry) : hdr (list aval) :=
  mkHdr (e_short e) (e_long e) (has_value e) false
    (Some (fun v vals => cbind (scanfn (with_vals e vals) v) (fun '(c, e') => Val (c, e_vals e'))))
    (Some (fun vals => checkfn (with_vals e vals)))
    (Some (fun _ => [])).

Lemma with_own e : with_vals e (e_vals e) = e.
Proof. destruct e; reflexivity. Qed.
(** An entry without its values. *)
Definition blank (e : entry) : entry := with_vals e [].
Lemma blank_header e e' : blank e' = blank e -> hdr_of e' = hdr_of e.
Proof. intros H. exact (f_equal hdr_of H). Qed.
Lemma scanfn_blank e v c e' : scanfn e v = Val (c, e') -> blank e' = blank e.
Proof.
  unfold scanfn. destruct (e_kind e) eqn:K.
  - destruct (e_count e <? e_max e); intros E; injection E as <- <-; reflexivity.
  - destruct (e_count e =? e_max e); [intros E; injection E as <- <-; reflexivity|].
    destruct v as [s|]; [|intros E; injection E as <- <-; reflexivity].
    destruct (scan_int s) as [[z|cd]|]; cbn; [| |discriminate]; intros E; injection E as <- <-; reflexivity.
  - destruct (e_count e =? e_max e); [intros E; injection E as <- <-; reflexivity|].
    destruct v as [s|]; intros E; injection E as <- <-; reflexivity.
Qed.

Lemma scanfn_header e v c e' : scanfn e v = Val (c, e') -> hdr_of e' = hdr_of e.
Proof. intros H. apply blank_header. eapply scanfn_blank. exact H. Qed.

Lemma map_set_entry {B} (f : entry -> B) i e t : map f (set_entry i e t) = upd i (f e) (map f t).
Proof. revert i. induction t as [|x t IH]; intros [|i]; cbn; auto. rewrite IH. reflexivity. Qed.
Lemma upd_same {A} i (x : A) l : nth_error l i = Some x -> upd i x l = l.
Proof. revert i. induction l as [|y l IH]; intros [|i] E; cbn in *; try discriminate; [injection E as ->; auto|]. rewrite IH; auto. Qed.
Lemma keeps_blank i e e' t : nth_error t i = Some e -> blank e' = blank e ->
  map blank (set_entry i e' t) = map blank t.
Proof. intros E H. rewrite map_set_entry, H. apply upd_same. apply map_nth_error. exact E. Qed.

(** The table of the model of arg_lit, arg_int and arg_str, seen as objects. *)
Definition sees (ts : list entry) (t : list entry) (objs : list (list aval)) : Prop :=
  map blank t = ts /\ map e_vals t = objs.
Lemma blank_headers t ts : map blank t = ts -> map hdr_of t = map hdr_of ts.
Proof. intros <-. rewrite map_map. apply map_ext. reflexivity. Qed.
Definition seen {A B} (R : A -> B -> Prop) (x : cres A) (y : cres B) : Prop :=
  match x, y with UB, UB => True | Val a, Val b => R a b | _, _ => False end.

Section Bridge.
Variable ts : list entry.
Notation hs := (map hdr_of ts).
Variable em : nat.

Definition R2 : list entry * list perror -> list (list aval) * list perror -> Prop :=
  fun a b => sees ts (fst a) (fst b) /\ snd a = snd b.

Lemma scan_bridge i v t objs errs : sees ts t objs ->
  seen R2 (scan_entry em i v t errs) (any_scan _ hs em i v objs errs).
Proof.
  intros (Hh & <-). unfold scan_entry, any_scan. rewrite <- (blank_headers _ _ Hh), nth_error_map.
  destruct (nth_error t i) as [e|] eqn:Ee; cbn [option_map]; [|exact Logic.I].
  cbn [hdr_of h_scan]. rewrite nth_error_map, Ee. cbn [option_map]. rewrite with_own.
  destruct (scanfn e v) as [[c e']|] eqn:Es; cbn; [|exact Logic.I].
  split; [|reflexivity]. split.
  - cbn [fst]. rewrite <- Hh. eapply keeps_blank; [exact Ee|]. eapply scanfn_blank. exact Es.
  - apply map_set_entry.
Qed.

Lemma longs_bridge t : forall i, any_longoptions _ i (map hdr_of t) = alloc_longoptions i t.
Proof. induction t as [|e t IH]; intros i; cbn; [reflexivity|]. rewrite IH. reflexivity. Qed.
Lemma shorts_bridge t : any_shortoptions _ (map hdr_of t) = alloc_shortoptions t.
Proof.
  unfold any_shortoptions, alloc_shortoptions. f_equal. induction t as [|e t IH]; cbn; [reflexivity|]. rewrite IH. f_equal.
  destruct (e_short e) as [s|]; [|reflexivity]. induction s as [|c s IHs]; [reflexivity|]. cbn. rewrite IHs.
  unfold has_value. destruct (e_kind e); reflexivity.
Qed.
Lemma short_bridge t c : forall i, any_shortoption _ i (map hdr_of t) c = find_shortoption i t c.
Proof. induction t as [|e t IH]; intros i; cbn; [reflexivity|]. rewrite IH. reflexivity. Qed.

Definition RP : pstate -> astate (list aval) -> Prop :=
  fun p a => sees ts (p_table p) (a_objs a) /\ p_errs p = a_errs a /\ p_get p = a_get a.

Lemma bind_scan i v t objs errs g : sees ts t objs ->
  seen RP (cbind (scan_entry em i v t errs) (fun '(t, errs) => Val (mkP t errs g)))
          (cbind (any_scan _ hs em i v objs errs) (fun '(t, errs) => Val (mkA t errs g))).
Proof.
  intros S. pose proof (scan_bridge i v t objs errs S) as H.
  destruct (scan_entry em i v t errs) as [[t1 e1]|], (any_scan _ hs em i v objs errs) as [[o1 e2]|]; cbn in *; try contradiction; auto.
  destruct H as (A & B). cbn in *. split; [exact A|]. split; [exact B|reflexivity].
Qed.

Lemma step_bridge r p a : RP p a -> seen RP (tagged_step em r p) (any_step _ hs em r a).
Proof.
  intros (S & E & G). destruct p as [t errs g], a as [objs errs' g']. cbn [p_table p_errs p_get a_objs a_errs a_get] in *. subst errs' g'.
  assert (Q : forall e, seen RP (Val (mkP t (register_error em errs e) g)) (Val (mkA objs (register_error em errs e) g))).
  { intros e. cbn. split; [exact S|]. split; reflexivity. }
  assert (Qw : forall f : option str -> perror, seen RP
    (cbind (prev_word g) (fun w => Val (mkP t (register_error em errs (f w)) g)))
    (cbind (prev_word g) (fun w => Val (mkA objs (register_error em errs (f w)) g)))).
  { intros f. destruct (prev_word g); [apply Q|exact Logic.I]. }
  unfold tagged_step, any_step. cbn [p_table p_errs p_get a_objs a_errs a_get].
  destruct (r_code r =? 0)%Z eqn:E0.
  - pose proof S as (Sh & So). rewrite <- (blank_headers _ _ Sh) at 1. rewrite nth_error_map. destruct (nth_error t (r_flagval r)) as [e|] eqn:Ee; cbn [option_map]; [|exact Logic.I].
    cbn [hdr_of h_hasvalue].
    destruct (r_optarg r) as [[|c s]|] eqn:Eo.
    + destruct (has_value e).
      * destruct (prev_word g) as [w|]; cbn [cbind]; [|exact Logic.I]. apply bind_scan. exact S.
      * cbn [cbind]. apply bind_scan. exact S.
    + cbn [cbind]. apply bind_scan. exact S.
    + cbn [cbind]. apply bind_scan. exact S.
  - destruct (r_code r =? BADCH)%Z; [destruct (r_optopt r =? 0)%Z; [apply Qw|apply Q]|].
    destruct (r_code r =? BADARG)%Z; [apply Qw|].
    pose proof S as (Sh & So). rewrite <- (blank_headers _ _ Sh) at 1. rewrite short_bridge.
    destruct (find_shortoption 0 t _) as [i|]; [|apply Q]. apply bind_scan. exact S.
Qed.

Definition seen_opt {A B} (R : A -> B -> Prop) (x : option (cres A)) (y : option (cres B)) : Prop :=
  match x, y with None, None => True | Some a, Some b => seen R a b | _, _ => False end.

Lemma loop_bridge fuel : forall posix opts los p a, RP p a ->
  seen_opt RP (tagged_loop fuel posix opts los em p) (any_loop _ hs em fuel posix opts los a).
Proof.
  induction fuel as [|fuel IH]; intros posix opts los p a R; [exact Logic.I|]. cbn [tagged_loop any_loop].
  destruct R as (S & E & G). rewrite <- G, <- E. destruct (getopt_long posix opts los (p_get p)) as [[r g]|]; [|exact Logic.I].
  destruct (r_code r =? DONE)%Z; [cbn; split; [exact S|]; split; reflexivity|].
  pose proof (step_bridge r (mkP (p_table p) (p_errs p) g) (mkA (a_objs a) (p_errs p) g)) as Q.
  destruct (tagged_step em r _) as [p1|], (any_step _ hs em r _) as [a1|]; cbn in Q; try (exfalso; apply Q; split; [exact S|split; reflexivity]); [|exact Logic.I].
  apply IH. apply Q. split; [exact S|split; reflexivity].
Qed.

(** ** The other words *)
Definition RU (pre : list entry) : list entry * (unit + (list str * option (nat * Z * str))) ->
                list (list aval) * option (list str * option (nat * Z * str)) -> Prop :=
  fun a b => sees ts (pre ++ fst a) (fst b) /\
    match snd a, snd b with inl _, None => True | inr ([], None), None => True | inr x, Some y => x = y | _, _ => False end.

Lemma entry_words e words : forall c e' words' err, untagged_entry e words = Val (e', words', err) -> c = len words' -> c <= len words.
Proof.
  revert e. induction words as [|w words IH]; intros e c e' words' err; cbn; [intros E ->; injection E as _ <- _; auto|].
  destruct (scanfn e (Some w)) as [[cd e1]|]; cbn; [|discriminate].
  destruct (cd =? 0)%Z; [intros H ->; pose proof (IH e1 _ e' words' err H eq_refl); auto|intros E ->; injection E as _ <- _; auto].
Qed.

Lemma upd_mid {A} (x y : A) pre post : upd (len pre) x (pre ++ y :: post) = pre ++ x :: post.
Proof. induction pre as [|a pre IH]; cbn; [reflexivity|]. rewrite IH. reflexivity. Qed.
Lemma nth_mid {A} (y : A) pre post : nth_error (pre ++ y :: post) (len pre) = Some y.
Proof. induction pre as [|a pre IH]; cbn; auto. Qed.

(** One entry without a name takes words. *)
Lemma entry_bridge words : forall pre e todo fuel last, map hdr_of (pre ++ e :: todo) = hs ->
  e_long e = None -> e_short e = None -> len words + len todo + 1 <= fuel ->
  any_untagged _ hs fuel (len pre) (map e_vals (pre ++ e :: todo)) words last =
  match words with
  | [] => Val (map e_vals (pre ++ e :: todo), None)
  | _ =>
      match untagged_entry e words with
      | UB => UB
      | Val (e', [], _) => Val (map e_vals (pre ++ e' :: todo), None)
      | Val (e', words', err) =>
          any_untagged _ hs (fuel - (len words - len words') - 1) (S (len pre)) (map e_vals (pre ++ e' :: todo)) words'
            (match err with Some (c, w) => Some (len pre, c, w) | None => None end)
      end
  end.
Proof.
  induction words as [|w words IH]; intros pre e todo fuel last H L Sh F.
  - destruct fuel as [|fuel]; [cbn in F; lia|]. cbn [any_untagged].
    assert (nth_error hs (len pre) = Some (hdr_of e)) as ->; [|reflexivity].
    rewrite <- H, nth_error_map, nth_mid. reflexivity.
  - destruct fuel as [|fuel]; [cbn in F; lia|]. cbn [any_untagged].
    assert (nth_error hs (len pre) = Some (hdr_of e)) as En by (rewrite <- H, nth_error_map, nth_mid; reflexivity).
    rewrite En. cbn [hdr_of h_long h_short h_scan]. rewrite L, Sh, nth_error_map, nth_mid. cbn [option_map].
    rewrite with_own. cbn [untagged_entry]. destruct (scanfn e (Some w)) as [[c e']|] eqn:Es; cbn [cbind]; [|reflexivity].
    assert (Eu : upd (len pre) (e_vals e') (map e_vals (pre ++ e :: todo)) = map e_vals (pre ++ e' :: todo)).
    { rewrite !map_app. cbn [map]. rewrite <- (map_length e_vals pre) at 1. apply upd_mid. }
    rewrite Eu. destruct (c =? 0)%Z eqn:Ec.
    + assert (map hdr_of (pre ++ e' :: todo) = hs) as H'.
      { rewrite <- H, !map_app. cbn [map]. rewrite (scanfn_header _ _ _ _ Es). reflexivity. }
      pose proof (scanfn_header _ _ _ _ Es) as Hh.
      assert (e_long e' = None) as L' by (pose proof (f_equal h_long Hh) as X; cbn in X; congruence).
      assert (e_short e' = None) as S' by (pose proof (f_equal h_short Hh) as X; cbn in X; congruence).
      rewrite (IH pre e' todo fuel None H' L' S') by (cbn in F; lia).
      destruct words as [|w2 words]; [reflexivity|].
      destruct (untagged_entry e' (w2 :: words)) as [[[e2 words'] err]|] eqn:E2; [|reflexivity].
      destruct words' as [|w3 words']; [reflexivity|].
      pose proof (entry_words e' (w2 :: words) _ _ _ _ E2 eq_refl) as Lw.
      f_equal. cbn [len] in *. lia.
    + replace (S fuel - (len (w :: words) - len (w :: words)) - 1) with fuel by (cbn [len]; lia). reflexivity.
Qed.

Lemma nil_words fuel i objs last : len hs = len objs -> i < len objs -> any_untagged _ hs fuel i objs [] last = Val (objs, None).
Proof.
  intros E L. assert (exists h, nth_error hs i = Some h) as (h & Eh).
  { destruct (nth_error hs i) eqn:X; [eauto|]. apply nth_error_None in X. lia. }
  destruct fuel; cbn [any_untagged]; rewrite Eh; reflexivity.
Qed.

Lemma untagged_bridge todo : forall pre words last fuel, map blank (pre ++ todo) = ts -> len words + len todo <= fuel ->
  seen (RU pre) (untagged_loop (len pre) todo words last)
                (any_untagged _ hs fuel (len pre) (map e_vals (pre ++ todo)) words last).
Proof.
  induction todo as [|e todo IH]; intros pre words last fuel H F.
  - cbn [untagged_loop]. assert (nth_error hs (len pre) = None) as En.
    { apply nth_error_None. rewrite <- (blank_headers _ _ H), map_length, app_nil_r. auto. }
    destruct fuel; cbn [any_untagged]; rewrite En; cbn; (split; [split; [exact H|reflexivity]|destruct words, last; reflexivity]).
  - cbn [untagged_loop]. destruct words as [|w words].
    + rewrite nil_words.
      * cbn. split; [split; [exact H|reflexivity]|exact Logic.I].
      * rewrite <- (blank_headers _ _ H), !map_length. reflexivity.
      * rewrite map_length, app_length. cbn. lia.
    + assert (Skip : forall l s, e_long e = l -> e_short e = s -> (l <> None \/ s <> None) ->
        seen (RU pre) (cbind (untagged_loop (S (len pre)) todo (w :: words) last) (fun '(t, r) => Val (e :: t, r)))
             (any_untagged _ hs fuel (len pre) (map e_vals (pre ++ e :: todo)) (w :: words) last)).
      { intros l s El Es0 Ne. destruct fuel as [|fuel]; [cbn in F; lia|].
        assert (nth_error hs (len pre) = Some (hdr_of e)) as En by (rewrite <- (blank_headers _ _ H), nth_error_map, nth_mid; reflexivity).
        assert (any_untagged _ hs (S fuel) (len pre) (map e_vals (pre ++ e :: todo)) (w :: words) last
                = any_untagged _ hs fuel (S (len pre)) (map e_vals (pre ++ e :: todo)) (w :: words) last) as ->.
        { cbn [any_untagged]. rewrite En. cbn [hdr_of h_long h_short h_scan]. rewrite El, Es0.
          destruct l, s; try reflexivity. destruct Ne; congruence. }
        pose proof (IH (pre ++ [e]) (w :: words) last fuel) as Q. rewrite <- app_assoc in Q. cbn [app] in Q.
        replace (len (pre ++ [e])) with (S (len pre)) in Q by (rewrite app_length; cbn; lia). specialize (Q H).
        cbn [len] in F. assert (S (len words) + len todo <= fuel) as F' by lia. specialize (Q F').
        destruct (untagged_loop (S (len pre)) todo (w :: words) last) as [[t1 r1]|],
                 (any_untagged _ hs fuel (S (len pre)) _ (w :: words) last) as [[o1 r2]|]; cbn in *; auto.
        destruct Q as ((Q1 & Q1') & Q2). cbn in *. split; [|exact Q2]. cbn. rewrite <- app_assoc in Q1, Q1'. split; assumption. }
      destruct (e_long e) as [l|] eqn:El; [apply (Skip (Some l) (e_short e)); auto; left; discriminate|].
      destruct (e_short e) as [s|] eqn:Es0; [apply (Skip None (Some s)); auto; right; discriminate|].
      rewrite (entry_bridge (w :: words) pre e todo fuel last (blank_headers _ _ H) El Es0) by (cbn [len] in *; lia).
      destruct (untagged_entry e (w :: words)) as [[[e' words'] err]|] eqn:Eu; cbn [cbind]; [|exact Logic.I].
      assert (blank e' = blank e) as Hh.
      { clear - Eu. revert e e' words' err Eu. generalize (w :: words) as ws. induction ws as [|x ws IH]; intros e e' words' err; cbn.
        - intros E. injection E as <- _ _. reflexivity.
        - destruct (scanfn e (Some x)) as [[c e1]|] eqn:Es; cbn; [|discriminate]. destruct (c =? 0)%Z.
          + intros E. rewrite (IH _ _ _ _ E). eapply scanfn_blank. exact Es.
          + intros E. injection E as <- _ _. eapply scanfn_blank. exact Es. }
      assert (map blank (pre ++ e' :: todo) = ts) as H' by (rewrite <- H, !map_app; cbn [map]; rewrite Hh; reflexivity).
      pose proof (entry_words e (w :: words) _ _ _ _ Eu eq_refl) as Lw.
      pose proof (IH (pre ++ [e']) words' (match err with Some (c, w) => Some (len pre, c, w) | None => None end)) as Q.
      rewrite <- app_assoc in Q. cbn [app] in Q. replace (len (pre ++ [e'])) with (S (len pre)) in Q by (rewrite app_length; cbn; lia).
      destruct words' as [|w' words'].
      * specialize (Q (len todo) H' (le_n _)).
        destruct todo as [|e2 todo2].
        -- (* the last entry used the last word *)
           cbn [untagged_loop]. cbn. 
           assert (err = None) as ->.
           { clear - Eu. revert e e' err Eu. generalize (w :: words) as ws. induction ws as [|x ws IH]; intros e e' err; cbn.
             - intros E. injection E as _ <-. reflexivity.
             - destruct (scanfn e (Some x)) as [[c e1]|] eqn:Es; cbn; [|discriminate]. destruct (c =? 0)%Z; [apply IH|discriminate]. }
           split; [split; [exact H'|reflexivity]|exact Logic.I].
        -- cbn [untagged_loop cbind] in *. cbn. split; [|exact Logic.I]. split; [exact H'|reflexivity].
      * specialize (Q (fuel - (len (w :: words) - len (w' :: words')) - 1) H').
        assert (len (w' :: words') + len todo <= fuel - (len (w :: words) - len (w' :: words')) - 1) as F' by (cbn [len] in *; lia).
        specialize (Q F').
        destruct (untagged_loop (S (len pre)) todo (w' :: words') _) as [[t1 r1]|],
                 (any_untagged _ hs _ (S (len pre)) _ (w' :: words') _) as [[o1 r2]|]; cbn in *; auto.
        destruct Q as ((Q1 & Q1') & Q2). cbn in *. split; [|exact Q2]. cbn. rewrite <- app_assoc in Q1, Q1'. split; assumption.
Qed.

Lemma check_bridge t : forall i errs, any_check _ em i (map hdr_of t) (map e_vals t) errs = arg_parse_check em i t errs.
Proof. induction t as [|e t IH]; intros i errs; cbn; [reflexivity|]. rewrite with_own. apply IH. Qed.
End Bridge.

Lemma reset_blank t : map blank (arg_reset t) = map blank t.
Proof. unfold arg_reset. rewrite map_map. apply map_ext. intros e. reflexivity. Qed.
Lemma reset_headers t : map hdr_of (arg_reset t) = map hdr_of t.
Proof. unfold arg_reset. rewrite map_map. apply map_ext. intros e. reflexivity. Qed.
Lemma reset_vals t objs : len objs = len t -> any_reset _ (map hdr_of t) objs = map e_vals (arg_reset t).
Proof. revert objs. induction t as [|e t IH]; intros [|o objs] L; cbn in *; try discriminate; [reflexivity|]. rewrite IH by lia. reflexivity. Qed.

(** arg_parse of Model/Argtable.v is arg_parse of Model/AnyTable.v. *)
Theorem parse_bridge fuel posix em argv t :
  seen_opt (R2 (map blank t)) (arg_parse fuel posix em argv t)
           (any_parse _ (map hdr_of t) em fuel posix argv (map e_vals t)).
Proof.
  set (hs := map hdr_of t). set (ts := map blank t).
  assert (Ht : map hdr_of ts = hs) by (unfold ts, hs; rewrite map_map; apply map_ext; reflexivity). unfold arg_parse, any_parse. replace (any_reset _ hs (map e_vals t)) with (map e_vals (arg_reset t)) by (symmetry; apply reset_vals; apply map_length).
  cbv zeta.
  assert (S0 : sees ts (arg_reset t) (map e_vals (arg_reset t))) by (split; [apply reset_blank|reflexivity]).
  destruct argv as [|a argv].
  - cbn [seen_opt seen]. split; [exact S0|]. cbn [snd fst]. unfold hs. rewrite <- (reset_headers t), check_bridge. reflexivity.
  - unfold arg_parse_tagged, any_tagged.
    assert (any_shortoptions _ hs = alloc_shortoptions (arg_reset t)) as -> by (unfold hs; rewrite <- (reset_headers t); apply shorts_bridge).
    assert (any_longoptions _ 0 hs = alloc_longoptions 0 (arg_reset t)) as -> by (unfold hs; rewrite <- (reset_headers t); apply longs_bridge).
    pose proof (loop_bridge ts em fuel posix (alloc_shortoptions (arg_reset t)) (alloc_longoptions 0 (arg_reset t))
      (mkP (arg_reset t) [] (mkG (a :: argv) 0 [] None None false))
      (mkA (map e_vals (arg_reset t)) [] (mkG (a :: argv) 0 [] None None false))) as Q.
    specialize (Q (conj S0 (conj eq_refl eq_refl))). rewrite Ht in Q.
    destruct (tagged_loop fuel posix _ _ em _) as [[p|]|], (any_loop _ hs em fuel posix _ _ _) as [[q|]|]; try contradiction; try exact Logic.I.
    destruct Q as ((Hh & Ho) & E & G). cbn [seen_opt]. unfold arg_parse_untagged. rewrite <- G, <- Ho, <- E.
    set (words := skipn (g_optind (p_get p)) (g_argv (p_get p))).
    pose proof (untagged_bridge ts (p_table p) [] words None (len words + len hs)) as U. cbn [app len] in U.
    specialize (U Hh). rewrite Ht in U.
    assert (len hs = len (p_table p)) as Lh by (rewrite <- Ht, <- Hh, !map_length; reflexivity). rewrite Lh in *. specialize (U (le_n _)).
    destruct (untagged_loop 0 (p_table p) words None) as [[t1 r]|], (any_untagged _ hs (len words + len (p_table p)) 0 (map e_vals (p_table p)) words None) as [[o r2]|];
      cbn [seen cbind] in *; try contradiction; [|exact Logic.I].
    destruct U as ((Uh & Uo) & Ur). cbn [fst snd app] in *. subst o.
    assert (match r with
            | inl _ => Val (t1, p_errs p)
            | inr (ws, last) =>
                let '(errs, ws) :=
                  match last with
                  | Some (i, c, w) => (register_error em (p_errs p) (mkErr (Some i) c (Some w)), tl ws)
                  | None => (p_errs p, ws)
                  end in
                Val (t1, fold_left (fun errs w => register_error em errs (mkErr None ARG_ENOMATCH (Some w))) ws errs)
            end = Val (t1, any_leftover em (p_errs p) r2)) as ->.
    { destruct r as [[]|[ws last]].
      - destruct r2; [contradiction|reflexivity].
      - destruct r2 as [[ws2 last2]|].
        + assert ((ws, last) = (ws2, last2)) as X by (destruct ws, last; exact Ur). injection X as -> ->.
          destruct last2 as [[[i c] w]|]; reflexivity.
        + destruct ws, last; try contradiction. reflexivity. }
    cbn [cbind]. split; [split; [exact Uh|reflexivity]|]. cbn [snd]. rewrite <- Ht, <- (blank_headers _ _ Uh), check_bridge. reflexivity.
Qed.
