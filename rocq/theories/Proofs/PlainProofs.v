(** Tables of switches, integers and texts. *)
From Coq Require Import ZArith Bool List Ascii String Arith Lia.
From Verif.Base Require Import CInt CStr.
From Verif.Model Require Import ArgInt Permute Getopt Argtable AnyTable.
From Verif.Spec Require Import IntText CmdLine AnyLine AnySpec AnyTableSpec Writing PlainSpec.
From Verif.Proofs Require Import ArgIntClaims AnyLong AnyTableProofs AnyTotal AnyBridge WritingProofs.
Import ListNotations.
Open Scope list_scope.
Open Scope nat_scope.

Lemma plain_declared ps : declared (map as_option ps) (map acts ps) = map hdr_of (map as_entry ps).
Proof.
  induction ps as [|p ps IH]; [reflexivity|]. cbn [map declared]. rewrite IH. f_equal.
  destruct p as [[] [|l ls] [|n ns] lo hi]; reflexivity.
Qed.

(** Any outcome of such a table is the outcome of arg_parse. *)
Theorem plain_outcome ps em posix a words out : fine_options (map as_option ps) -> 1 <= em -> Forall c_string words ->
  outcome (list aval) (map as_option ps) (map acts ps) em posix words (map (fun _ => []) ps) out ->
  returns (fun fuel => arg_parse fuel posix em (a :: words) (map as_entry ps))
    (left_by (tabled ps out)).
Proof.
  intros FO EM Cw H.
  pose proof (any_parse_outcome (list aval) (map as_option ps) (map acts ps) em posix FO) as Q.
  rewrite !map_length in Q. specialize (Q eq_refl EM a words (map (fun _ => []) ps) out).
  rewrite map_length in Q. specialize (Q eq_refl Cw H). destruct Q as (n & Q). exists n. intros fuel L. specialize (Q fuel L).
  rewrite plain_declared in Q. pose proof (parse_bridge fuel posix em (a :: words) (map as_entry ps)) as B.
  replace (map e_vals (map as_entry ps)) with (map (fun _ : plain => @nil aval) ps) in B by (rewrite map_map; apply map_ext; reflexivity).
  rewrite Q in B. destruct (arg_parse fuel posix em (a :: words) (map as_entry ps)) as [[[t errs]|]|]; [| |contradiction].
  - destruct out as [[vals errs']|]; [|contradiction]. cbn in B. destruct B as ((Bh & Bv) & Be). cbn in Bh, Bv, Be. subst errs.
    apply (f_equal (fun t => Some (Val (t, map coded errs')))). clear - Bh Bv. revert t vals Bh Bv.
    induction ps as [|p ps IH]; intros [|e t] vals Bh Bv; try discriminate; cbn in *; [reflexivity|]. subst vals. cbn.
    assert (blank e = as_entry p) as Hh by (exact (f_equal (hd (blank e)) Bh)).
    assert (map blank t = map blank (map as_entry ps)) as Ht by (exact (f_equal (@tl entry) Bh)).
    rewrite <- (IH t (map e_vals t) Ht eq_refl). f_equal. unfold holding. rewrite <- Hh.
    pose proof (f_equal e_min Hh) as Hmin. pose proof (f_equal e_max Hh) as Hmax. destruct e. cbn in *. congruence.
  - destruct out as [[vals errs']|]; [contradiction|reflexivity].
Qed.

(** ** Everything fits *)
Lemma all2_length {A B} (R : A -> B -> Prop) l l' : Forall2 R l l' -> len l = len l'.
Proof. intros F. induction F; cbn; auto. Qed.

Section Fits.
Variable ps : list plain.
Notation os := (map as_option ps).
Notation bs := (map acts ps).

Definition collected (xs : list (nat * option str)) (kept : list aval) : list (list aval) :=
  map (fun k => values_of k xs kept) (seq 0 (len ps)).

Lemma values_app k xs kept ys kept' : len xs = len kept ->
  values_of k (xs ++ ys) (kept ++ kept') = values_of k xs kept ++ values_of k ys kept'.
Proof.
  unfold values_of. revert kept. induction xs as [|x xs IH]; intros [|a kept] L; try discriminate; [reflexivity|].
  cbn in *. destruct (fst x =? k); cbn; rewrite IH by lia; reflexivity.
Qed.

Lemma nth_seq_map {A} (f : nat -> A) n k : k < n -> nth_error (map f (seq 0 n)) k = Some (f k).
Proof. intros L. rewrite nth_error_map. rewrite (nth_error_nth' _ 0) by (rewrite seq_length; exact L). rewrite seq_nth by exact L. reflexivity. Qed.

Lemma put_map (f g : nat -> list aval) k : forall n b, (forall j, j <> b + k -> g j = f j) -> k < n ->
  put (list aval) k (g (b + k)) (map f (seq b n)) = map g (seq b n).
Proof.
  induction k as [|k IH]; intros [|n] b H L; try lia; cbn.
  - rewrite Nat.add_0_r in *. f_equal. apply map_ext_in. intros j I. apply in_seq in I. symmetry. apply H. lia.
  - rewrite <- (H b) by lia. f_equal. replace (b + S k) with (S b + k) by lia. apply IH; [|lia]. intros j N. apply H. lia.
Qed.

Lemma collected_put k v a xs kept : len xs = len kept -> k < len ps ->
  put (list aval) k (values_of k xs kept ++ [a]) (collected xs kept) = collected (xs ++ [(k, v)]) (kept ++ [a]).
Proof.
  intros L Lk. unfold collected.
  pose proof (put_map (fun k => values_of k xs kept) (fun j => values_of j (xs ++ [(k, v)]) (kept ++ [a])) k (len ps) 0) as Q.
  cbn [Nat.add] in Q. rewrite <- Q; [|intros j N|exact Lk].
  - f_equal. rewrite values_app by exact L. unfold values_of. cbn. rewrite Nat.eqb_refl. reflexivity.
  - rewrite values_app by exact L. unfold values_of at 2. cbn. destruct (Nat.eqb_spec k j); [congruence|]. cbn. rewrite app_nil_r. reflexivity.
Qed.

(** An object that is not full takes a value. *)
Lemma takes_value k p v a xs kept : nth_error ps k = Some p -> stored (pl_kind p) v a ->
  len xs = len kept -> len (values_of k xs kept) < pl_most p ->
  offers (list aval) bs k v (collected xs kept) (Val (collected (xs ++ [(k, v)]) (kept ++ [a]), None)).
Proof.
  intros Ep St L Lt. assert (k < len ps) as Lk by (apply nth_error_Some; congruence).
  rewrite <- (collected_put k v a xs kept L Lk).
  eapply offers_taken; [apply map_nth_error; exact Ep|reflexivity|apply nth_seq_map; exact Lk|].
  destruct p as [kd ls ns lo hi]. cbn [pl_kind pl_most] in *. unfold scanfn, holding, as_entry. cbn [e_kind pl_kind pl_least e_count e_vals e_max pl_most].
  destruct kd; cbn [e_kind]; unfold e_count; cbn [e_vals e_max].
  - inversion St; subst. apply Nat.ltb_lt in Lt. rewrite Lt. reflexivity.
  - inversion St; subst. destruct (Nat.eqb_spec (len (values_of k xs kept)) hi); [lia|].
    rewrite (proj1 (plain_scan s n H) H0). reflexivity.
  - inversion St; subst. destruct (Nat.eqb_spec (len (values_of k xs kept)) hi); [lia|]. reflexivity.
Qed.

(** A full one refuses. *)
Lemma put_same k s (objs : list (list aval)) : nth_error objs k = Some s -> put (list aval) k s objs = objs.
Proof. revert k. induction objs as [|x l IH]; intros [|k] E; cbn in *; try discriminate; [injection E as ->; reflexivity|]. rewrite IH; auto. Qed.
Lemma refuses_value k p v xs kept : nth_error ps k = Some p -> len (values_of k xs kept) = pl_most p ->
  exists code, offers (list aval) bs k v (collected xs kept) (Val (collected xs kept, Some code)).
Proof.
  intros Ep Le. assert (k < len ps) as Lk by (apply nth_error_Some; congruence).
  exists ARG_ERR_MAXCOUNT. pose proof (nth_seq_map (fun k => values_of k xs kept) (len ps) k Lk) as En.
  rewrite <- (put_same k _ (collected xs kept) En) at 2.
  eapply offers_refused; [apply map_nth_error; exact Ep|reflexivity|exact En| |discriminate].
  destruct p as [kd ls ns lo hi]. cbn [pl_kind pl_most] in *. unfold scanfn, holding, as_entry.
  destruct kd; cbn [e_kind pl_kind]; unfold e_count; cbn [e_vals e_max pl_most]; rewrite Le.
  - rewrite Nat.ltb_irrefl. reflexivity.
  - rewrite Nat.eqb_refl. reflexivity.
  - rewrite Nat.eqb_refl. reflexivity.
Qed.

Definition keeps (x : nat * option str) (a : aval) : Prop :=
  exists p, nth_error ps (fst x) = Some p /\ stored (pl_kind p) (snd x) a.

(** The event of a value. *)
Definition ev (x : nat * option str) (e : event) : Prop :=
  e = Short (fst x) (snd x) \/
  exists l, e = Long (fst x) (snd x) l /\ snd x <> Some [].

Lemma events_happen xs es kept : Forall2 ev xs es -> Forall2 keeps xs kept -> forall done kept0, len done = len kept0 ->
  (forall k p, nth_error ps k = Some p -> len (values_of k (done ++ xs) (kept0 ++ kept)) <= pl_most p) ->
  happen (list aval) os bs (collected done kept0) es (Val (collected (done ++ xs) (kept0 ++ kept), [])).
Proof.
  intros F. revert kept. induction F as [|x e xs es E F IH]; intros kept K done kept0 L Hm.
  - inversion K; subst. rewrite !app_nil_r. constructor.
  - inversion K as [|? a ? kept' (p & Ep & St) K']; subst. destruct x as [k v]. cbn [fst snd] in *.
    assert (len (values_of k done kept0) < pl_most p) as Lt.
    { pose proof (Hm k p Ep) as Q. rewrite values_app in Q by exact L. rewrite app_length in Q. unfold values_of in Q at 2. cbn in Q.
      rewrite Nat.eqb_refl in Q. cbn in Q. lia. }
    pose proof (takes_value k p v a done kept0 Ep St L Lt) as O.
    assert (happens (list aval) os bs (collected done kept0) e (Val (collected (done ++ [(k, v)]) (kept0 ++ [a]), []))) as Hh.
    { destruct E as [->|(l & -> & Nv)]; cbn [fst snd] in *.
      - exact (happens_short _ os bs _ k v _ None O).
      - pose proof (happens_long _ os bs _ k v l _ None O) as Q.
        replace (empty_value os k v l ++ refusal k v None) with (@nil error) in Q; [exact Q|].
        unfold empty_value, refusal. destruct v as [[|c s]|]; [exfalso; apply Nv; reflexivity|reflexivity|reflexivity]. }
    change (@nil error) with (@nil error ++ []). eapply happen_then; [exact Hh|].
    replace (done ++ (k, v) :: xs) with ((done ++ [(k, v)]) ++ xs) in * by (rewrite <- app_assoc; reflexivity).
    replace (kept0 ++ a :: kept') with ((kept0 ++ [a]) ++ kept') in * by (rewrite <- app_assoc; reflexivity).
    apply IH; [exact K'|rewrite !app_length; cbn; lia|exact Hm].
Qed.

(** ** The other words *)
Lemma fill k p ks R : nth_error ps k = Some p -> forall ws m done kept0 kept1 last, len done = len kept0 ->
  len (values_of k done kept0) + m = pl_most p ->
  Forall2 keeps (map (fun w => (k, Some w)) (firstn m ws)) kept1 ->
  (forall last', shared (list aval) bs ks (skipn m ws) last'
     (collected (done ++ map (fun w => (k, Some w)) (firstn m ws)) (kept0 ++ kept1)) R) ->
  shared (list aval) bs (k :: ks) ws last (collected done kept0) R.
Proof.
  intros Ep. induction ws as [|w ws IH]; intros m done kept0 kept1 last L Lm F H.
  - rewrite firstn_nil in F, H. rewrite skipn_nil in H. inversion F; subst. cbn [map] in H. rewrite !app_nil_r in H.
    specialize (H []). inversion H; subst. constructor.
  - destruct m as [|m].
    + cbn in F, H. inversion F; subst. rewrite !app_nil_r in H.
      destruct (refuses_value k p (Some w) done kept0 Ep) as (code & O); [lia|].
      eapply shared_refused; [exact O|apply H].
    + cbn [firstn map skipn] in F, H. inversion F as [|? a ? kept' (p' & Ep' & St) F']; subst. cbn [fst snd] in *.
      assert (p' = p) as -> by congruence.
      pose proof (takes_value k p (Some w) a done kept0 Ep St L ltac:(lia)) as O.
      eapply shared_taken; [exact O|]. apply (IH m (done ++ [(k, Some w)]) (kept0 ++ [a]) kept'); auto.
      * rewrite !app_length. cbn. lia.
      * rewrite values_app by exact L. rewrite app_length. unfold values_of at 2. cbn. rewrite Nat.eqb_refl. cbn. lia.
      * intros last'. rewrite <- !app_assoc. cbn [app]. apply H.
Qed.

Definition positional (p : plain) : Prop := pl_letters p = [] /\ pl_names p = [].

Lemma positional_is k p : nth_error ps k = Some p -> (is_positional (list aval) os bs k = true <-> positional p).
Proof.
  intros E. unfold is_positional. rewrite (map_nth_error as_option k ps E), (map_nth_error acts k ps E).
  destruct p as [kd [|l ls] [|n ns] lo hi]; unfold positional; cbn; intuition discriminate.
Qed.

Lemma deal_shared qs : forall k, skipn k ps = qs -> forall ws done kept0 kept last, len done = len kept0 ->
  (forall j p, k <= j -> nth_error ps j = Some p -> positional p -> values_of j done kept0 = []) ->
  len (dealt k qs ws) = len ws -> Forall2 keeps (dealt k qs ws) kept ->
  shared (list aval) bs (filter (is_positional (list aval) os bs) (seq k (len qs))) ws last (collected done kept0)
    (Val (collected (done ++ dealt k qs ws) (kept0 ++ kept), [])).
Proof.
  induction qs as [|p qs IH]; intros k Eq ws done kept0 kept last L Hz Ld F.
  - cbn in Ld. destruct ws; [|discriminate]. cbn in F. inversion F; subst. rewrite !app_nil_r. constructor.
  - assert (nth_error ps k = Some p) as Ep.
    { clear - Eq. revert ps Eq. induction k as [|k IH]; intros [|x l] E; cbn in *; try discriminate; [congruence|auto]. }
    assert (skipn (S k) ps = qs) as Eq'.
    { clear - Eq. revert ps Eq. induction k as [|k IH]; intros [|x l] E; cbn in *; try discriminate; [congruence|].
      apply IH in E. exact E. }
    cbn [len seq filter]. pose proof (positional_is k p Ep) as Pi.
    destruct (is_positional (list aval) os bs k) eqn:Ei.
    + assert (positional p) as (P1 & P2) by (apply Pi; reflexivity). destruct p as [kd ls ns lo hi]. cbn in P1, P2. subst ls ns.
      cbn [dealt] in *. rewrite app_length in Ld. rewrite map_length in Ld.
      apply Forall2_app_inv_l in F. destruct F as (kept1 & kept2 & F1 & F2 & ->).
      assert (len (map (fun w : str => (k, Some w)) (firstn hi ws)) = len kept1) as L1 by (eapply all2_length; exact F1).
      apply (fill k (mkPlain kd [] [] lo hi) _ _ Ep ws hi done kept0 kept1); auto.
      * rewrite (Hz k _ (le_n _) Ep) by (split; reflexivity). reflexivity.
      * intros last'. rewrite !app_assoc. apply IH; auto.
        -- rewrite !app_length. lia.
        -- intros j p' Lj Ej Pj. rewrite values_app by exact L. rewrite (Hz j p') by (auto; lia). cbn [app].
           unfold values_of. clear - Lj. revert kept1. generalize (firstn hi ws) as l. induction l as [|w l IHl]; intros [|a kept1]; cbn; auto.
           destruct (Nat.eqb_spec k j); [lia|]. apply IHl.
        -- assert (len ws = len (firstn hi ws) + len (skipn hi ws)) as X by (rewrite <- app_length, firstn_skipn; reflexivity). lia.
    + assert (dealt k (p :: qs) ws = dealt (S k) qs ws) as Ed.
      { destruct p as [kd [|l ls] [|n ns] lo hi]; try reflexivity. exfalso. assert (false = true); [|discriminate]. apply Pi. split; reflexivity. }
      rewrite Ed in *. apply IH; auto. intros j p' Lj. apply Hz. lia.
Qed.

Lemma complaints_none (vals : list (list aval)) : forall qs k, (forall j p v, nth_error qs j = Some p -> nth_error vals j = Some v -> pl_least p <= len v) ->
  complaints (list aval) k (map acts qs) vals = [].
Proof.
  induction vals as [|v vals IH]; intros [|q qs] k H; cbn; auto. rewrite IH by (intros j p v' E; apply (H (S j)); exact E).
  pose proof (H 0 q v eq_refl eq_refl). assert (checkfn (holding q v) = 0%Z) as ->; [|reflexivity].
  unfold checkfn, e_count, holding. cbn [e_vals e_min as_entry]. destruct (Nat.ltb_spec (len v) (pl_least q)); [lia|]. reflexivity.
Qed.

Lemma filled_is xs kept : filled 0 ps xs kept = map (fun pv => holding (fst pv) (snd pv)) (combine ps (collected xs kept)).
Proof.
  unfold collected. generalize 0. induction ps as [|p l IH]; intros k; cbn; [reflexivity|]. rewrite IH. reflexivity.
Qed.

Lemma restarted_plain xs kept : xs = [] -> restarted (list aval) bs (map (fun _ => []) ps) = collected xs kept.
Proof.
  intros ->. unfold collected, values_of. cbn. generalize 0. induction ps as [|p l IH]; intros k; cbn; [reflexivity|]. rewrite <- IH. reflexivity.
Qed.

(** Whatever the words are: if they are read as the values [xs] and the other words
    [rest], and all fits, the table holds the values. *)
Theorem plain_delivered em posix a words xs es rest kept : fine_options os -> 1 <= em -> Forall c_string words ->
  reads os posix words es rest -> Forall2 ev xs es ->
  (forall x p, In x xs -> nth_error ps (fst x) = Some p -> ~ positional p) ->
  len (dealt 0 ps rest) = len rest -> in_order ps (xs ++ dealt 0 ps rest) kept ->
  returns (fun fuel => arg_parse fuel posix em (a :: words) (map as_entry ps))
    (Val (filled 0 ps (xs ++ dealt 0 ps rest) kept, [])).
Proof.
  intros FO EM Cw Hr He Np Ld (Hk & Hc). apply Forall2_app_inv_l in Hk. destruct Hk as (kept1 & kept2 & K1 & K2 & ->).
  assert (len xs = len kept1) as L1 by (eapply all2_length; exact K1).
  pose proof (plain_outcome ps em posix a words (Val (collected (xs ++ dealt 0 ps rest) (kept1 ++ kept2), [])) FO EM Cw) as Q.
  rewrite filled_is. apply Q. clear Q.
  assert (happen (list aval) os bs (restarted (list aval) bs (map (fun _ => []) ps)) es (Val (collected xs kept1, []))) as Hh.
  { rewrite (restarted_plain [] [] eq_refl). apply (events_happen xs es kept1 He K1 [] [] eq_refl). intros k p Ep. cbn [app].
    pose proof (proj2 (Hc k p Ep)) as Q. rewrite values_app in Q by exact L1. rewrite app_length in Q. lia. }
  assert (shared (list aval) bs (positionals (list aval) os bs) rest [] (collected xs kept1)
            (Val (collected (xs ++ dealt 0 ps rest) (kept1 ++ kept2), []))) as Hs.
  { unfold positionals. rewrite map_length. apply deal_shared; auto. intros j p _ Ej Pj.
    clear - Np Ej Pj L1. revert kept1 L1. induction xs as [|x xs IH]; intros [|a kept1] L; try discriminate; [reflexivity|].
    unfold values_of. cbn. destruct (Nat.eqb_spec (fst x) j) as [<-|N].
    - exfalso. exact (Np x p (or_introl eq_refl) Ej Pj).
    - apply IH; [intros y q I; apply Np; right; exact I|cbn in L; lia]. }
  pose proof (outcome_fine (list aval) os bs em posix words (map (fun _ => []) ps) es rest _ _ _ _ Hr Hh Hs) as O. cbn [app] in O.
  rewrite complaints_none in O; [exact O|]. intros j p v Ep Ev. unfold collected in Ev.
  assert (j < len ps) as Lj by (apply nth_error_Some; congruence). rewrite nth_seq_map in Ev by exact Lj. injection Ev as <-. apply Hc. exact Ep.
Qed.
End Fits.

(** ** Written settings *)
Lemma setting_events ps s : allowed (map as_option ps) s -> not_empty s -> Forall2 ev (gives s) (said s).
Proof.
  intros A N. destruct s as [k n|k n v|k n v|ks|k c v|k c v]; cbn [gives said not_empty] in *.
  - constructor; [right; eexists; split; [reflexivity|discriminate]|constructor].
  - constructor; [right; eexists; split; [reflexivity|intros E; apply N; injection E as E; exact E]|constructor].
  - constructor; [right; eexists; split; [reflexivity|intros E; apply N; injection E as E; exact E]|constructor].
  - clear. induction ks as [|kc ks IH]; cbn; constructor; [left; reflexivity|exact IH].
  - constructor; [left; reflexivity|constructor].
  - constructor; [left; reflexivity|constructor].
Qed.

Lemma has_not_positional ps k p : nth_error ps k = Some p ->
  (exists n, has_name (map as_option ps) k n) \/ (exists c, has_letter (map as_option ps) k c) -> ~ positional p.
Proof.
  intros E H (P1 & P2). destruct H as [(n & o & Eo & I)|(c & o & Eo & I)]; rewrite (map_nth_error as_option k ps E) in Eo;
    injection Eo as <-; cbn in I; [rewrite P2 in I|rewrite P1 in I]; destruct I.
Qed.

Lemma setting_named ps s x p : allowed (map as_option ps) s -> In x (gives s) -> nth_error ps (fst x) = Some p -> ~ positional p.
Proof.
  intros A I E. apply (has_not_positional ps (fst x) p E).
  destruct s as [k n|k n v|k n v|ks|k c v|k c v]; cbn [gives allowed] in *;
    try (destruct I as [<-|[]]; cbn [fst] in *).
  - left. exists n. apply A.
  - left. exists n. apply A.
  - left. exists n. apply A.
  - apply in_map_iff in I. destruct I as ([k c] & <- & I). destruct A as (_ & F). rewrite Forall_forall in F. apply F in I. right. exists c. apply I.
  - right. exists c. apply A.
  - right. exists c. apply A.
Qed.

Lemma item_events_ev ps is_ : Forall (item_fine (map as_option ps)) is_ -> Forall2 ev (flat_map item_gives is_) (flat_map item_events is_).
Proof.
  intros F. induction F as [|i is_ A F IH]; cbn [flat_map]; [constructor|]. apply Forall2_app; [|exact IH].
  destruct i as [s|w]; cbn in *; [|constructor]. eapply setting_events; apply A.
Qed.

Theorem items_delivered ps em a is_ kept : fine_options (map as_option ps) -> 1 <= em ->
  Forall c_string (flat_map item_words is_) -> Forall (item_fine (map as_option ps)) is_ ->
  let others := flat_map item_args is_ in
  let xs := flat_map item_gives is_ ++ dealt 0 ps others in
  len (dealt 0 ps others) = len others -> in_order ps xs kept ->
  returns (fun fuel => arg_parse fuel false em (a :: flat_map item_words is_) (map as_entry ps)) (Val (filled 0 ps xs kept, [])).
Proof.
  intros FO EM Cw F others xs Ld Ho. eapply plain_delivered; eauto.
  - apply items_read; [exact FO|]. eapply Forall_impl; [|exact F]. intros [s|w] A; cbn in *; [apply A|exact A].
  - apply (item_events_ev ps). exact F.
  - intros x p I. apply in_flat_map in I. destruct I as (i & Ii & Ix). rewrite Forall_forall in F. apply F in Ii.
    destruct i as [s|w]; [|destruct Ix]. apply (setting_named ps s x p); [apply Ii|exact Ix].
Qed.

Theorem settings_delivered ps em posix a ss rest kept : fine_options (map as_option ps) -> 1 <= em ->
  Forall c_string (flat_map write ss) -> Forall c_string rest -> Forall (fun s => allowed (map as_option ps) s /\ not_empty s) ss ->
  let xs := flat_map gives ss ++ dealt 0 ps rest in
  len (dealt 0 ps rest) = len rest -> in_order ps xs kept ->
  returns (fun fuel => arg_parse fuel posix em (a :: flat_map write ss ++ lit "--" :: rest) (map as_entry ps)) (Val (filled 0 ps xs kept, [])).
Proof.
  intros FO EM Cw Cr F xs Ld Ho. eapply plain_delivered; eauto.
  - apply Forall_app. split; [exact Cw|]. constructor; [|exact Cr]. vm_compute. intuition discriminate.
  - apply settings_reads; [exact FO| |apply reads_dashes]. eapply Forall_impl; [|exact F]. intros s A. apply A.
  - rewrite app_nil_r. clear - F. induction F as [|s ss A F IH]; cbn [flat_map]; [constructor|]. apply Forall2_app; [|exact IH]. eapply setting_events; apply A.
  - intros x p I. apply in_flat_map in I. destruct I as (s & Is & Ix). rewrite Forall_forall in F. apply F in Is.
    apply (setting_named ps s x p); [apply Is|exact Ix].
Qed.
