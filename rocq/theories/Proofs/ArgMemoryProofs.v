(** The memory of the option parser: the model with memory does the same as the
    one without, and frees what it allocates. *)
From Coq Require Import ZArith Bool List Ascii String Arith Lia.
From Verif.Base Require Import CInt CStr CMem.
From Verif.Model Require Import Config ArgInt Permute Getopt Argtable Main ArgMemory.
From Verif.Spec Require Import IntText ArgMemorySpec.
From Verif.Proofs Require Import DstrProofs.
Import ListNotations.
Open Scope list_scope.
Open Scope nat_scope.

Local Notation len := List.length.

(** ** Arrays *)
Lemma put_mid {A} (a : list A) x y b : put (a ++ x :: b) (len a) y = Val (a ++ y :: b).
Proof.
  unfold put. rewrite (proj2 (Nat.ltb_lt _ _)) by (rewrite app_length; cbn; lia).
  rewrite firstn_app, firstn_all, Nat.sub_diag, firstn_O, app_nil_r.
  rewrite skipn_app, (skipn_all2 a) by lia. replace (S (len a) - len a) with 1 by lia. reflexivity.
Qed.
Lemma put_at {A} (a : list A) i x b y : len a = i -> put (a ++ x :: b) i y = Val (a ++ y :: b).
Proof. intros <-. apply put_mid. Qed.
Lemma split_nth {A} (a : list A) i : i < len a -> exists x, a = firstn i a ++ x :: skipn (S i) a /\ len (firstn i a) = i.
Proof.
  intros L. destruct (nth_error a i) as [x|] eqn:E; [|apply nth_error_None in E; lia].
  exists x. split; [|rewrite firstn_length; lia]. revert i L E. induction a as [|y a IH]; intros [|i] L E; try discriminate E; cbn in *.
  - injection E as <-. reflexivity.
  - f_equal. apply IH; [lia|exact E].
Qed.
Lemma store_mid (a : block) x b y : store (a ++ x :: b) (len a) [y] = Val (a ++ y :: b).
Proof.
  rewrite store_val by (rewrite app_length; cbn; lia). cbn [List.length].
  rewrite firstn_app, firstn_all, Nat.sub_diag, firstn_O, app_nil_r.
  rewrite skipn_app, (skipn_all2 a) by lia. replace (len a + 1 - len a) with 1 by lia. reflexivity.
Qed.
Lemma store_fresh (a : block) i k y : len a = i -> 1 <= k -> store (a ++ repeat None k) i [y] = Val ((a ++ [y]) ++ repeat None (k - 1)).
Proof.
  intros <- K. destruct k; [lia|]. cbn [repeat]. rewrite store_mid, <- app_assoc. cbn. rewrite Nat.sub_0_r. reflexivity.
Qed.
Lemma put_fresh {A} (a : list (option A)) i k y : len a = i -> 1 <= k -> put (a ++ repeat None k) i y = Val ((a ++ [y]) ++ repeat None (k - 1)).
Proof.
  intros <- K. destruct k; [lia|]. cbn [repeat]. rewrite put_mid, <- app_assoc. cbn. rewrite Nat.sub_0_r. reflexivity.
Qed.

(** ** The list of long options *)
Definition or_nil (o : option str) : str := match o with None => [] | Some p => p end.
(** The names in [l], when the text [o] of the first one has been read already. *)
Fixpoint names_from (o : option str) (l : str) : list str :=
  match l with
  | [] => match o with None => [] | Some p => [p] end
  | c :: r => let p := or_nil o in
              if aeqb c ","%char then p :: names_from None r else names_from (@Some str (p ++ [c])) r
  end.
Lemma names_some l : forall p, names_from (Some p) l =
  match l with
  | [] => [p]
  | c :: r => if aeqb c ","%char then p :: names_from None r
              else match names_from None l with n :: ns => (p ++ n) :: ns | [] => [p] end
  end.
Proof.
  induction l as [|c r IH]; intros p; [reflexivity|]. cbn [names_from app or_nil]. destruct (aeqb c ","%char); [reflexivity|].
  rewrite (IH (p ++ [c])), (IH [c]). destruct r as [|c' r]; [reflexivity|].
  destruct (aeqb c' ","%char); [reflexivity|]. destruct (names_from None (c' :: r)); [reflexivity|]. rewrite <- app_assoc. reflexivity.
Qed.
Lemma split_names l : split_commas l = names_from None l.
Proof.
  assert (forall n l, len l <= n -> split_commas l = names_from None l) as H.
  { clear. induction n as [|n IH]; intros l L; [destruct l; [reflexivity|cbn in L; lia]|].
    destruct l as [|c r]; [reflexivity|]. cbn [List.length or_nil] in L. cbn [split_commas names_from app or_nil]. destruct (aeqb c ","%char).
    - rewrite IH by lia. reflexivity.
    - rewrite names_some. destruct r as [|c' r]; [reflexivity|]. cbn [List.length or_nil] in L. destruct (aeqb c' ","%char); [rewrite IH by lia; reflexivity|].
      rewrite <- IH by (cbn [List.length or_nil]; lia). destruct (split_commas (c' :: r)); reflexivity. }
  apply (H (len l)). lia.
Qed.
Lemma names_count l : forall o, len (names_from o l) <= commas l + 1.
Proof.
  induction l as [|c r IH]; intros o; cbn [names_from commas]; [destruct o; cbn; lia|].
  destruct (aeqb c ","%char); [cbn [List.length or_nil]; specialize (IH None); lia|]. specialize (IH (@Some str (or_nil o ++ [c]))). lia.
Qed.
Definition texts (ns : list str) : block := flat_map terminated ns.
Lemma texts_app a b : texts (a ++ b) = texts a ++ texts b.
Proof. apply flat_map_app. Qed.
Lemma texts_one n : texts [n] = bytes n ++ [Some NUL].
Proof. unfold texts. cbn [flat_map]. apply app_nil_r. Qed.
Lemma texts_cons n ns : len (texts (n :: ns)) = S (len n) + len (texts ns).
Proof. unfold texts. cbn [flat_map]. unfold terminated at 1, bytes. rewrite !app_length, map_length. cbn. lia. Qed.
Lemma names_size l : forall o, len (texts (names_from o l)) <= len (or_nil o) + len l + 1.
Proof.
  induction l as [|c r IH]; intros o; cbn [names_from List.length].
  - destruct o; cbn; [|lia]. rewrite app_nil_r. unfold terminated, bytes. rewrite app_length, map_length. cbn. lia.
  - destruct (aeqb c ","%char).
    + unfold texts. cbn [flat_map]. rewrite app_length. specialize (IH None). unfold texts in IH. cbn [List.length or_nil] in IH.
      unfold terminated at 1, bytes. rewrite app_length, map_length. cbn [List.length or_nil] in *. lia.
    + specialize (IH (@Some str (or_nil o ++ [c]))). cbn [or_nil] in IH. rewrite app_length in IH. cbn [List.length or_nil] in *. lia.
Qed.

(** The options for the names [ns], from offset [off] on. *)
Fixpoint laid (off : nat) (ns : list (str * nat * nat)) : list (option mopt) :=
  match ns with
  | [] => []
  | (n, ha, v) :: ns => Some (mkMopt (Some off) ha v) :: laid (off + S (len n)) ns
  end.
Definition fst3 (x : str * nat * nat) : str := fst (fst x).
Lemma texts_length ns : len (texts (map fst3 ns)) = fold_right (fun x a => S (len (fst3 x)) + a) 0 ns.
Proof.
  induction ns as [|x ns IH]; [reflexivity|]. unfold texts in *. cbn [map flat_map fold_right]. rewrite app_length, IH.
  unfold terminated, bytes. rewrite app_length, map_length. cbn [List.length or_nil]. lia.
Qed.
Lemma laid_app a : forall off b, laid off (a ++ b) = laid off a ++ laid (off + len (texts (map fst3 a))) b.
Proof.
  induction a as [|[[n ha] v] a IH]; intros off b; cbn [app laid]; [cbn; rewrite Nat.add_0_r; reflexivity|].
  rewrite IH. cbn [app map]. rewrite texts_cons. do 3 f_equal. unfold fst3 at 2. cbn [fst]. lia.
Qed.
Lemma laid_length ns : forall off, len (laid off ns) = len ns.
Proof. induction ns as [|[[n ha] v] ns IH]; intros off; [reflexivity|]. cbn. rewrite IH. reflexivity. Qed.

(** The state after the names [ns] and the beginning [p] of another one. *)
Definition at_state (ns : list (str * nat * nat)) (p : str) (k m : nat) : lstate :=
  mkLs (laid 0 ns ++ repeat None k) ((texts (map fst3 ns) ++ bytes p) ++ repeat None m) (len ns) (len (texts (map fst3 ns)) + len p).

Lemma bytes_len p : len (bytes p) = len p.
Proof. apply map_length. Qed.

Lemma end_name_ok ns p k m ha v : 1 <= k -> 1 <= m ->
  end_name (len (texts (map fst3 ns))) ha v (at_state ns p k m) = Val (at_state (ns ++ [(p, ha, v)]) [] (k - 1) (m - 1)).
Proof.
  intros K M. unfold end_name, at_state. cbn [ls_text ls_opts ls_off ls_index].
  rewrite store_fresh by (rewrite ?app_length, ?bytes_len; lia). cbn [cbind].
  rewrite put_fresh by (rewrite ?laid_length; lia). cbn [cbind]. do 2 f_equal.
  - rewrite laid_app. cbn. reflexivity.
  - rewrite map_app, texts_app. cbn [map]. rewrite texts_one. unfold fst3 at 3. cbn [fst bytes map]. rewrite !app_nil_r, <- !app_assoc. reflexivity.
  - rewrite app_length. cbn. lia.
  - rewrite map_app, texts_app, app_length. cbn [map]. rewrite texts_cons. unfold fst3 at 3. cbn [fst texts flat_map List.length]. lia.
Qed.

Lemma copy_long_ok ha v l : forall ns o k m,
  len (names_from o l) <= k -> len (texts (names_from o l)) <= len (or_nil o) + m ->
  exists k' m', copy_long l (match o with None => None | Some _ => Some (len (texts (map fst3 ns))) end) ha v
      (at_state ns (or_nil o) k m) =
    Val (at_state (ns ++ map (fun n => (n, ha, v)) (names_from o l)) [] k' m') /\
    k = k' + len (names_from o l) /\ len (or_nil o) + m = m' + len (texts (names_from o l)).
Proof.
  induction l as [|c r IH]; intros ns o k m K M; cbn [copy_long].
  - destruct o as [p|].
    + cbn [names_from texts flat_map] in *. unfold terminated in M. rewrite app_nil_r, app_length, bytes_len in M. cbn [List.length or_nil] in *.
      rewrite end_name_ok by lia. exists (k - 1), (m - 1). split; [reflexivity|].
      unfold texts. cbn [flat_map]. rewrite app_nil_r. unfold terminated. rewrite app_length, bytes_len. cbn [List.length or_nil]. lia.
    + cbn [names_from map] in *. exists k, m. rewrite app_nil_r. split; [reflexivity|]. cbn. lia.
  - set (p := or_nil o) in *.
    replace (match match o with None => None | Some _ => Some (len (texts (map fst3 ns))) end with Some i => i | None => ls_off (at_state ns p k m) end)
      with (len (texts (map fst3 ns))) by (destruct o; [reflexivity|subst p; cbn; lia]).
    cbn [names_from] in *. fold p in K, M |- *. destruct (aeqb c ","%char).
    + cbn [List.length or_nil] in K. unfold texts in M. cbn [flat_map] in M. rewrite app_length in M. unfold terminated at 1 in M. rewrite app_length, bytes_len in M. cbn [List.length or_nil] in M.
      rewrite end_name_ok by lia. cbn [cbind].
      destruct (IH (ns ++ [(p, ha, v)]) None (k - 1) (m - 1)) as (k' & m' & E & E1 & E2); [lia|unfold texts; cbn [List.length or_nil]; lia|].
      cbn [List.length or_nil] in E2. cbn [or_nil] in E. exists k', m'. rewrite E. split; [rewrite <- app_assoc; reflexivity|]. cbn [List.length or_nil]. split; [lia|].
      unfold texts. cbn [flat_map]. rewrite app_length. unfold terminated at 1. rewrite app_length, bytes_len. cbn [List.length or_nil]. unfold texts in E2. lia.
    + assert (1 <= m) as M1.
      { assert (len p + 1 < len (texts (names_from (@Some str (p ++ [c])) r))); [|lia].
        assert (forall r (q : str), len q < len (texts (names_from (@Some str q) r))) as H.
        { clear. induction r as [|d r IH]; intros q; cbn [names_from or_nil].
          - unfold texts. cbn [flat_map]. unfold terminated. rewrite app_nil_r, app_length, bytes_len. cbn. lia.
          - destruct (aeqb d ","%char); [unfold texts; cbn [flat_map]; unfold terminated; rewrite !app_length, bytes_len; cbn [List.length or_nil]; lia|].
            specialize (IH (q ++ [d])). rewrite app_length in IH. cbn in IH. lia. }
        specialize (H r (p ++ [c])). rewrite app_length in H. cbn [List.length or_nil] in H. lia. }
      assert (store (ls_text (at_state ns p k m)) (ls_off (at_state ns p k m)) [Some c] =
              Val (((texts (map fst3 ns) ++ bytes p) ++ [Some c]) ++ repeat None (m - 1))) as Es.
      { apply store_fresh; [unfold at_state; cbn [ls_off]; rewrite app_length, bytes_len; reflexivity|exact M1]. }
      rewrite Es. cbn [cbind].
      destruct (IH ns (@Some str (p ++ [c])) k (m - 1)) as (k' & m' & E & E1 & E2); [exact K|cbn [or_nil]; rewrite app_length; cbn [List.length or_nil]; lia|].
      exists k', m'. rewrite <- E. split; [|split; [exact E1|cbn [or_nil] in E2; rewrite app_length in E2; cbn [List.length or_nil] in E2; lia]].
      f_equal. unfold at_state. cbn [ls_opts ls_index ls_off]. f_equal.
      * unfold bytes. cbn [or_nil]. rewrite map_app, <- !app_assoc. reflexivity.
      * cbn [or_nil]. rewrite app_length. cbn. lia.
Qed.

(** The names the code is written for. *)
Definition triple (o : lopt) : str * nat * nat := (lo_name o, lo_has_arg o, lo_val o).

Lemma names_nul l : forall o, no_nul (or_nil o) -> no_nul l -> Forall no_nul (names_from o l).
Proof.
  induction l as [|c r IH]; intros o O L; cbn [names_from].
  - destruct o; [constructor; [exact O|constructor]|constructor].
  - assert (no_nul r) as R by (intros I; apply L; right; exact I).
    destruct (aeqb c ","%char); [constructor; [exact O|apply IH; [intros []|exact R]]|].
    apply IH; [|exact R]. cbn [or_nil]. intros I. apply in_app_or in I. destruct I as [I|[I|[]]]; [exact (O I)|]. apply L. left. exact I.
Qed.

Lemma count_ok l : long_names l -> exists n, count_long l = Val n /\ len (match l with Some s => split_commas s | None => [] end) <= n.
Proof.
  destruct l as [s|]; [|exists 0; split; [reflexivity|cbn; lia]]. intros (_ & c & r & -> & N). exists (S (commas r)). split; [reflexivity|].
  rewrite split_names. cbn [names_from]. destruct (aeqb c ","%char) eqn:E; [apply aeqb_eq in E; congruence|].
  pose proof (names_count r (@Some str (or_nil None ++ [c]))). lia.
Qed.

Lemma at_names ha v l : map (fun n => (n, ha, v)) l = map triple (map (fun n => mkLopt n ha v) l).
Proof. rewrite map_map. reflexivity. Qed.

Lemma fill_ok table : forall i ns k m, Forall (fun e => long_names (me_long e)) table -> exists no size, sizes_long table = Val (no, size) /\
  (no <= k -> size <= m -> exists k' m', fill_long i table (at_state ns [] k m) =
     Val (at_state (ns ++ map triple (alloc_longoptions i (map entry_of table))) [] k' m') /\ k <= k' + no).
Proof.
  induction table as [|e table IH]; intros i ns k m F.
  - exists 0, 0. split; [reflexivity|]. intros _ _. exists k, m. cbn [fill_long alloc_longoptions map]. rewrite app_nil_r. split; [reflexivity|lia].
  - inversion F as [|? ? Fe Ft]; subst. destruct (count_ok _ Fe) as (n & Ec & Ln).
    destruct (IH 0 [] 0 0 Ft) as (no & size & Es & _). cbn [sizes_long]. rewrite Ec. cbn [cbind]. rewrite Es. cbn [cbind].
    do 2 eexists. split; [reflexivity|]. intros K M. cbn [fill_long].
    set (l := match me_long e with Some l => l | None => [] end) in *.
    assert (len l + 1 + size <= m) as M' by exact M. clear M. rename M' into M.
    assert (match me_long e with Some s => split_commas s | None => [] end = names_from None l) as El.
    { subst l. destruct (me_long e); [apply split_names|reflexivity]. }
    destruct (copy_long_ok (if has_value_m e then 1 else 0) i l ns None k m) as (k1 & m1 & E & K1 & M1).
    { rewrite <- El. lia. } { pose proof (names_size l None) as X. cbn [or_nil List.length] in *. lia. }
    cbn [or_nil] in E. rewrite E. cbn [cbind].
    destruct (IH (S i) (ns ++ map (fun n => (n, if has_value_m e then 1 else 0, i)) (names_from None l)) k1 m1 Ft) as (no' & size' & Es' & H).
    rewrite Es in Es'. injection Es' as <- <-. destruct H as (k' & m' & E' & K').
    + rewrite El in Ln. lia.
    + pose proof (names_size l None) as X. cbn [or_nil List.length] in *. lia.
    + exists k', m'. rewrite E'. split; [|rewrite El in Ln; lia]. do 2 f_equal. rewrite <- app_assoc. f_equal.
      cbn [map alloc_longoptions]. rewrite map_app. f_equal. rewrite at_names. f_equal. cbn [entry_of e_long]. rewrite El. reflexivity.
Qed.

Lemma names_good table : forall i, Forall (fun e => long_names (me_long e)) table -> Forall (fun o => no_nul (lo_name o)) (alloc_longoptions i (map entry_of table)).
Proof.
  induction table as [|e table IH]; intros i F; [constructor|]. inversion F as [|? ? Fe Ft]; subst. cbn [map alloc_longoptions].
  apply Forall_app. split; [|apply IH, Ft]. cbn [entry_of e_long]. destruct (me_long e) as [s|]; [|constructor].
  destruct Fe as (N & _). apply Forall_map. cbn [lo_name]. rewrite split_names. apply names_nul; [intros []|exact N].
Qed.

Lemma read_ok ns : forall pre rest x, Forall (fun o => no_nul (lo_name o)) ns ->
  read_long (laid (len pre) (map triple ns) ++ Some (mkMopt None 0 0) :: x) (pre ++ texts (map fst3 (map triple ns)) ++ rest) = Val ns.
Proof.
  induction ns as [|[n ha v] ns IH]; intros pre rest x F; [reflexivity|]. inversion F as [|? ? Fn Fs]; subst. cbn [lo_name] in Fn.
  cbn [map triple laid app read_long mo_name mo_has_arg mo_val lo_name lo_has_arg lo_val].
  rewrite skipn_app, skipn_all, Nat.sub_diag. cbn [skipn app]. unfold texts at 1. cbn [flat_map map fst3 fst].
  unfold terminated at 1. rewrite <- !app_assoc. cbn [app]. unfold fst3 at 1. cbn [fst]. rewrite cstr_holds by exact Fn. cbn [cbind].
  specialize (IH (pre ++ terminated n) rest x Fs).
  assert (len (pre ++ terminated n) = len pre + S (len n)) as El by (unfold terminated; rewrite !app_length, bytes_len; cbn; lia).
  rewrite El in IH. rewrite <- app_assoc in IH. unfold texts at 1. cbn [flat_map]. unfold fst3 at 1. cbn [fst]. rewrite <- app_assoc.
  unfold texts in IH. change (fst (fst (triple (mkLopt n ha v)))) with n. rewrite IH. reflexivity.
Qed.

Theorem long_ok table : Forall (fun e => long_names (me_long e)) table ->
  exists s, long_block table = Val s /\ read_long (ls_opts s) (ls_text s) = Val (alloc_longoptions 0 (map entry_of table)).
Proof.
  intros F. unfold long_block. destruct (fill_ok table 0 [] 0 0 F) as (no & size & Es & _). rewrite Es. cbn [cbind].
  destruct (fill_ok table 0 [] (no + 1) (size + 1) F) as (no' & size' & Es' & H). rewrite Es in Es'. injection Es' as <- <-.
  destruct H as (k & m & E & K); [lia|lia|].
  change (mkLs (repeat None (no + 1)) (repeat None (size + 1)) 0 0) with (at_state [] [] (no + 1) (size + 1)). rewrite E. cbn [cbind].
  unfold at_state. cbn [ls_opts ls_text ls_index ls_off]. rewrite put_fresh by (rewrite ?laid_length; lia || reflexivity). cbn [cbind].
  eexists. split; [reflexivity|]. cbn [ls_opts ls_text app bytes map]. rewrite app_nil_r, <- app_assoc. cbn [app].
  exact (read_ok _ [] _ _ (names_good table 0 F)).
Qed.

(** ** The list of short options *)
Definition short_of (e : entry) : str :=
  flat_map (fun c => if has_value e then [c; ":"%char] else [c]) (match e_short e with Some s => s | None => [] end).
Lemma alloc_short t : alloc_shortoptions t = ":"%char :: flat_map short_of t.
Proof. reflexivity. Qed.

Lemma push_ok w m c : 1 <= m -> push c (bytes w ++ repeat None m, len w) = Val (bytes (w ++ [c]) ++ repeat None (m - 1), len (w ++ [c])).
Proof.
  intros M. unfold push. cbn [fst snd]. rewrite store_fresh by (rewrite ?bytes_len; lia). cbn [cbind]. unfold bytes. rewrite map_app, app_length. cbn.
  do 2 f_equal. lia.
Qed.
Lemma copy_short_ok has s : forall w m, 2 * len s <= m -> exists m', copy_short s has (bytes w ++ repeat None m, len w) =
    Val (bytes (w ++ flat_map (fun c => if has then [c; ":"%char] else [c]) s) ++ repeat None m',
         len (w ++ flat_map (fun c => if has then [c; ":"%char] else [c]) s)) /\ m <= m' + 2 * len s.
Proof.
  induction s as [|c s IH]; intros w m M; cbn [List.length] in M.
  - exists m. cbn [copy_short flat_map]. rewrite app_nil_r. split; [reflexivity|cbn; lia].
  - cbn [copy_short]. rewrite push_ok by lia. cbn [cbind]. destruct has.
    + rewrite push_ok by lia. cbn [cbind]. destruct (IH ((w ++ [c]) ++ [":"%char]) (m - 1 - 1)) as (m' & E & L); [lia|].
      exists m'. rewrite E. cbn [flat_map List.length]. rewrite <- !app_assoc. cbn [app]. split; [reflexivity|lia].
    + destruct (IH (w ++ [c]) (m - 1)) as (m' & E & L); [lia|].
      exists m'. cbn [cbind]. rewrite E. cbn [flat_map List.length]. rewrite <- !app_assoc. cbn [app]. split; [reflexivity|lia].
Qed.
Lemma fill_short_ok table : forall w m, size_short table <= m + 1 -> exists m', fill_short table (bytes w ++ repeat None m, len w) =
    Val (bytes (w ++ flat_map short_of (map entry_of table)) ++ repeat None m', len (w ++ flat_map short_of (map entry_of table))) /\ 1 <= m'.
Proof.
  induction table as [|e table IH]; intros w m M; cbn [size_short fold_right] in M.
  - exists m. cbn [fill_short map flat_map]. rewrite app_nil_r. split; [reflexivity|lia].
  - cbn [fill_short]. unfold size_short in IH. destruct (copy_short_ok (has_value_m e) (letters e) w m) as (m1 & E & L); [lia|].
    rewrite E. cbn [cbind]. destruct (IH (w ++ flat_map (fun c => if has_value_m e then [c; ":"%char] else [c]) (letters e)) m1) as (m2 & E2 & L2); [lia|].
    exists m2. rewrite E2. cbn [map flat_map]. rewrite <- app_assoc. split; [reflexivity|exact L2].
Qed.
Theorem short_ok table : Forall (fun e => short_names (me_short e)) table ->
  exists b, short_block table = Val b /\ cstr b = Val (alloc_shortoptions (map entry_of table)).
Proof.
  intros F. unfold short_block.
  assert (2 <= size_short table) as Z2 by (clear F; unfold size_short; induction table as [|e t IH]; cbn [fold_right]; lia).
  change (repeat None (size_short table)) with (bytes [] ++ repeat None (size_short table)).
  change (push ":"%char (bytes [] ++ repeat None (size_short table), 0)) with (push ":"%char (bytes [] ++ repeat None (size_short table), len (@nil ascii))).
  rewrite push_ok by lia. cbn [cbind app].
  destruct (fill_short_ok table [":"%char] (size_short table - 1)) as (m & E & M); [lia|]. rewrite E. cbn [cbind].
  rewrite push_ok by lia. cbn [cbind fst]. eexists. split; [reflexivity|].
  unfold bytes. rewrite map_app, <- app_assoc. cbn [map app]. rewrite alloc_short.
  change (Some ":"%char :: map Some (flat_map short_of (map entry_of table)) ++ Some NUL :: repeat None (m - 1))
    with (bytes (":"%char :: flat_map short_of (map entry_of table)) ++ Some NUL :: repeat None (m - 1)).
  apply cstr_holds. apply no_nul_cons. split; [discriminate|]. intros I. apply in_flat_map in I. destruct I as (x & J & K).
  apply in_map_iff in J. destruct J as (e & <- & J). rewrite Forall_forall in F. specialize (F e J).
  unfold short_of in K. apply in_flat_map in K. destruct K as (c & K1 & K2). cbn [entry_of e_short] in K1.
  destruct (me_short e) as [s|]; [|destruct K1]. cbn in F.
  assert (c = NUL) as -> by (destruct (has_value (entry_of e)); cbn in K2; intuition (try discriminate; auto)). exact (F K1).
Qed.

(** ** The copy of argv *)
Lemma copy_argv_ok argv : forall (pre : list (option (option str))), copy_argv (len pre) argv (pre ++ repeat None (len argv + 1)) =
  Val (pre ++ map (fun w => Some (Some w)) argv ++ [Some None]).
Proof.
  induction argv as [|w argv IH]; intros pre; cbn [copy_argv].
  - apply put_mid.
  - cbn [List.length Nat.add repeat]. rewrite put_mid. cbn [cbind]. specialize (IH (pre ++ [Some (Some w)])).
    rewrite app_length in IH. cbn [List.length] in IH. rewrite Nat.add_1_r, <- app_assoc in IH. cbn [app] in IH. rewrite IH, <- app_assoc. reflexivity.
Qed.
Lemma read_argv_ok argv : read_argv (map (fun w => Some (Some w)) argv ++ [Some None]) = Val argv.
Proof. induction argv as [|w argv IH]; [reflexivity|]. cbn. rewrite IH. reflexivity. Qed.

(** ** Simulation *)
Definition simc {A B} (R : A -> B -> Prop) (x : cres A) (y : cres B) : Prop :=
  match x, y with Val a, Val b => R a b | UB, UB => True | _, _ => False end.
Lemma simc_bind {A B C D} (R : A -> B -> Prop) (Q : C -> D -> Prop) x y f g :
  simc R x y -> (forall a b, R a b -> simc Q (f a) (g b)) -> simc Q (cbind x f) (cbind y g).
Proof. destruct x, y; cbn; try tauto. intros H K. apply K, H. Qed.

(** The element of the array for a value that was counted. *)
Inductive holds_val (k : akind) : slot -> aval -> Prop :=
| hv_int z : holds_val k (SInt z) (VInt z)
| hv_str s : holds_val k (SStr s) (VStr s)
| hv_none_int : k = AInt -> holds_val k SUninit VNone
| hv_none_str : k = AStr -> holds_val k (SStr []) VNone.
Definition blank (k : akind) : slot := match k with AStr => SStr [] | _ => SUninit end.

Record Rent (m : ment) (e : entry) : Prop := mkRent {
  re_kind : me_kind m = e_kind e;
  re_short : me_short m = e_short e;
  re_long : me_long m = e_long e;
  re_min : me_min m = e_min e;
  re_max : me_max m = e_max e;
  re_count : me_count m = len (e_vals e);
  re_le : me_count m <= me_max m;
  re_lit : me_kind m = ALit -> e_vals e = repeat VNone (me_count m);
  re_arr : me_kind m <> ALit -> exists a, me_arr m = a ++ repeat (blank (me_kind m)) (me_max m - me_count m) /\ Forall2 (holds_val (me_kind m)) a (e_vals e)
}.
Definition Rerrs (d : mend) (em : nat) (errs : list perror) : Prop :=
  en_max d = em /\ 1 <= em /\ en_count d = len errs /\ len errs <= em /\ exists k, en_arr d = map Some errs ++ repeat None k /\ len errs + k = em.

Lemma holds_length k a v : Forall2 (holds_val k) a v -> len a = len v.
Proof. induction 1; cbn; congruence. Qed.

(** A value is added: an element is stored, or counted without. *)
Lemma Rent_add m e v x : Rent m e -> me_count m < me_max m -> me_kind m <> ALit -> holds_val (me_kind m) x v ->
  (exists a, put (me_arr m) (me_count m) x = Val a /\ Rent (with_arr m a (S (me_count m))) (add_val e v)) /\
  (x = blank (me_kind m) -> Rent (with_arr m (me_arr m) (S (me_count m))) (add_val e v)).
Proof.
  intros [K Sh Lo Mi Ma Co Le Li Ar] L NL H. destruct (Ar NL) as (a & E & F). pose proof (holds_length _ _ _ F) as Fl.
  destruct (me_max m - me_count m) as [|k] eqn:D; [lia|]. cbn [repeat] in E.
  assert (forall y b, b = a ++ y :: repeat (blank (me_kind m)) k -> holds_val (me_kind m) y v -> Rent (with_arr m b (S (me_count m))) (add_val e v)) as G.
  { intros y b -> Hy. constructor; cbn [with_arr add_val me_kind me_short me_long me_min me_max me_arr me_count e_kind e_short e_long e_min e_max e_vals];
      try assumption; try lia.
    - rewrite app_length. cbn. lia.
    - intros N. destruct (NL N).
    - intros _. exists (a ++ [y]). replace (me_max m - S (me_count m)) with k by lia. split; [rewrite <- app_assoc; reflexivity|].
      apply Forall2_app; [exact F|]. constructor; [exact Hy|constructor]. }
  split.
  - rewrite E. rewrite put_at by lia. eexists. split; [reflexivity|]. apply G with (y := x); [reflexivity|exact H].
  - intros ->. apply G with (y := blank (me_kind m)); assumption.
Qed.

Lemma scanfn_sim m e argval : Rent m e ->
  simc (fun x y => fst x = fst y /\ me_id (snd x) = me_id m /\ Rent (snd x) (snd y)) (scanfn_m m argval) (scanfn e argval).
Proof.
  intros R. pose proof R as [K Sh Lo Mi Ma Co Le Li Ar]. unfold scanfn_m, scanfn, e_count. rewrite <- K, <- Ma, <- Co.
  destruct (me_kind m) eqn:Km.
  - destruct (me_count m <? me_max m) eqn:L; cbn; [|split; [reflexivity|split; [reflexivity|exact R]]].
    apply Nat.ltb_lt in L. split; [reflexivity|]. split; [reflexivity|]. constructor;
      cbn [with_arr add_val me_kind me_short me_long me_min me_max me_arr me_count e_kind e_short e_long e_min e_max e_vals]; try congruence; try lia.
    + rewrite app_length. cbn. lia.
    + intros _. rewrite (Li eq_refl). change [VNone] with (repeat VNone 1). rewrite <- repeat_app. f_equal. lia.
  - destruct (me_count m =? me_max m) eqn:L; cbn; [split; [reflexivity|split; [reflexivity|exact R]]|].
    apply Nat.eqb_neq in L. assert (me_kind m <> ALit) as NL by congruence. destruct argval as [s|].
    + destruct (scan_int s) as [[v|code]|]; cbn; [| |exact Logic.I].
      * destruct (Rent_add m e (VInt v) (SInt v) R ltac:(lia) NL (hv_int _ v)) as ((a & E & G) & _). rewrite E. cbn. split; [reflexivity|]. split; [reflexivity|exact G].
      * split; [reflexivity|]. split; [reflexivity|exact R].
    + cbn. split; [reflexivity|]. split; [reflexivity|].
      refine (proj2 (Rent_add m e VNone SUninit R ltac:(lia) NL (hv_none_int _ Km)) _). rewrite Km. reflexivity.
  - destruct (me_count m =? me_max m) eqn:L; cbn; [split; [reflexivity|split; [reflexivity|exact R]]|].
    apply Nat.eqb_neq in L. assert (me_kind m <> ALit) as NL by congruence. destruct argval as [s|].
    + destruct (Rent_add m e (VStr s) (SStr s) R ltac:(lia) NL (hv_str _ s)) as ((a & E & G) & _). rewrite E. cbn. split; [reflexivity|]. split; [reflexivity|exact G].
    + cbn. split; [reflexivity|]. split; [reflexivity|].
      refine (proj2 (Rent_add m e VNone (SStr []) R ltac:(lia) NL (hv_none_str _ Km)) _). rewrite Km. reflexivity.
Qed.
Lemma checkfn_sim m e : Rent m e -> checkfn_m m = checkfn e.
Proof. intros R. unfold checkfn_m, checkfn, e_count. rewrite (re_min _ _ R), (re_count _ _ R). reflexivity. Qed.
Lemma has_value_sim m e : Rent m e -> has_value_m m = has_value e.
Proof. intros R. unfold has_value_m, has_value. rewrite (re_kind _ _ R). reflexivity. Qed.

(** *** Errors *)
Lemma upd_last {A} (x : A) l y : upd (len l) x (l ++ [y]) = l ++ [x].
Proof. induction l as [|z l IH]; [reflexivity|]. cbn. rewrite IH. reflexivity. Qed.
Lemma register_sim d em errs e : Rerrs d em errs ->
  exists d', register_m d e = Val d' /\ en_id d' = en_id d /\ Rerrs d' em (register_error em errs e).
Proof.
  intros (Em & M1 & Co & Le & k & Ar & Lk). unfold register_m, register_error. rewrite Em, Co.
  destruct (len errs <? em) eqn:L.
  - apply Nat.ltb_lt in L. rewrite Ar, put_fresh by (rewrite ?map_length; lia). cbn [cbind]. eexists. split; [reflexivity|]. split; [reflexivity|].
    unfold Rerrs. cbn [en_max en_count en_arr]. rewrite app_length. cbn [List.length]. repeat (split; [lia|]).
    exists (k - 1). rewrite map_app. split; [reflexivity|lia].
  - apply Nat.ltb_ge in L. destruct em as [|i]; [lia|]. assert (k = 0) as -> by lia. cbn [repeat] in Ar. rewrite app_nil_r in Ar.
    destruct (exists_last (l := errs)) as (l & z & ->); [intros ->; cbn in *; lia|]. rewrite app_length in *. cbn [List.length] in *.
    rewrite Ar, map_app. cbn [map]. rewrite put_at by (rewrite map_length; lia). cbn [cbind]. eexists. split; [reflexivity|]. split; [reflexivity|].
    replace (S i - 1) with (len l) by lia. rewrite upd_last. unfold Rerrs. cbn [en_max en_count en_arr]. rewrite app_length. cbn [List.length].
    repeat (split; [lia|]). exists 0. cbn [repeat]. rewrite map_app, app_nil_r. split; [reflexivity|lia].
Qed.

(** *** The table *)
Definition Rtab (ids : list nat) (t : list ment) (t' : list entry) : Prop := map me_id t = ids /\ Forall2 Rent t t'.
Definition Rend (id em : nat) (d : mend) (errs : list perror) : Prop := en_id d = id /\ Rerrs d em errs.

Lemma Rtab_nth ids t t' i : Rtab ids t t' -> match nth_error t i, nth_error t' i with
  | Some m, Some e => Rent m e
  | None, None => True
  | _, _ => False
  end.
Proof.
  intros (_ & F). revert i. induction F as [|m e t t' R F IH]; intros [|i]; cbn; try tauto. apply IH.
Qed.
Lemma put_sim ids t t' i m e m' e' : Rtab ids t t' -> nth_error t i = Some m -> nth_error t' i = Some e -> me_id m' = me_id m -> Rent m' e' ->
  exists t2, put t i m' = Val t2 /\ Rtab ids t2 (set_entry i e' t').
Proof.
  intros (Id & F) Nt Nt' Idm R'. unfold put. rewrite (proj2 (Nat.ltb_lt _ _)) by (apply nth_error_Some; congruence).
  eexists. split; [reflexivity|]. subst ids. revert i Nt Nt'. induction F as [|x y t t' Rx F IH]; intros [|i] Nt Nt'; try discriminate; cbn in *.
  - injection Nt as ->. split; [cbn; congruence|]. constructor; [exact R'|exact F].
  - destruct (IH i Nt Nt') as (A & B). split; [cbn; congruence|]. constructor; [exact Rx|exact B].
Qed.

Definition Rpair ids id em (x : list ment * mend) (y : list entry * list perror) : Prop := Rtab ids (fst x) (fst y) /\ Rend id em (snd x) (snd y).
Lemma register_bind {A B} (Q : A -> B -> Prop) id em d errs e (f : mend -> cres A) (y : cres B) :
  Rend id em d errs -> (forall d', Rend id em d' (register_error em errs e) -> simc Q (f d') y) -> simc Q (cbind (register_m d e) f) y.
Proof.
  intros (I & R) H. destruct (register_sim d em errs e R) as (d' & -> & Id & R'). cbn. apply H. split; [congruence|exact R'].
Qed.
Lemma scan_sim ids id em i o t t' d errs : Rtab ids t t' -> Rend id em d errs ->
  simc (Rpair ids id em) (scan_m i o t d) (scan_entry em i o t' errs).
Proof.
  intros T D. unfold scan_m, scan_entry. pose proof (Rtab_nth _ _ _ i T) as N.
  destruct (nth_error t i) as [m|] eqn:Nm, (nth_error t' i) as [e|] eqn:Ne; try (destruct N; fail); [|exact I].
  eapply simc_bind; [exact (scanfn_sim m e o N)|]. intros [c m'] [c' e'] (E & Id & R). cbn [fst snd] in *. subst c'.
  destruct (put_sim _ _ _ _ _ _ _ _ T Nm Ne Id R) as (t2 & -> & T2). cbn [cbind].
  destruct (c =? 0)%Z.
  - cbn. split; assumption.
  - apply (register_bind _ id em d errs); [exact D|]. intros d' D'. cbn. split; assumption.
Qed.

Definition Rst ids id em (p : mstate) (q : pstate) : Prop :=
  Rtab ids (m_table p) (p_table q) /\ Rend id em (m_end p) (p_errs q) /\ m_get p = p_get q.

Lemma find_short_sim t t' c : Forall2 Rent t t' -> forall i, find_short_m i t c = find_shortoption i t' c.
Proof.
  induction 1 as [|m e t t' R F IH]; intros i; [reflexivity|]. cbn. rewrite (re_short _ _ R).
  destruct (e_short e) as [s|]; [destruct (strchr s c); [reflexivity|]|]; apply IH.
Qed.

Lemma tagged_step_sim ids id em r p q : Rst ids id em p q -> simc (Rst ids id em) (tagged_step_m r p) (tagged_step em r q).
Proof.
  destruct p as [t d g], q as [t' errs g']. intros (T & D & G). cbn [m_table m_end m_get p_table p_errs p_get] in *. subst g'.
  unfold tagged_step_m, tagged_step. cbn [m_table m_end m_get p_table p_errs p_get].
  assert (forall e, simc (Rst ids id em) (cbind (register_m d e) (fun d => Val (mkMs t d g))) (Val (mkP t' (register_error em errs e) g))) as Er.
  { intros e. apply (register_bind _ id em d errs); [exact D|]. intros d' D'. cbn. split; [exact T|]. split; [exact D'|reflexivity]. }
  assert (forall i o d errs, Rend id em d errs -> simc (Rst ids id em)
     (cbind (scan_m i o t d) (fun '(t, d) => Val (mkMs t d g))) (cbind (scan_entry em i o t' errs) (fun '(t, errs) => Val (mkP t errs g)))) as Sc.
  { intros i o d0 errs0 D0. eapply simc_bind; [exact (scan_sim ids id em i o t t' d0 errs0 T D0)|].
    intros [t1 d1] [t1' errs1] (T1 & D1). cbn. split; [exact T1|]. split; [exact D1|reflexivity]. }
  destruct (r_code r =? 0)%Z.
  - pose proof (Rtab_nth _ _ _ (r_flagval r) T) as N.
    destruct (nth_error t (r_flagval r)) as [m|], (nth_error t' (r_flagval r)) as [e|]; try (destruct N; fail); [|exact I].
    rewrite (has_value_sim _ _ N).
    apply (simc_bind (Rend id em)); [|intros d0 errs0 D0; apply Sc, D0].
    destruct (r_optarg r) as [[|c s]|]; try exact D. destruct (has_value e); [|exact D].
    destruct (prev_word g) as [w|]; [|exact I]. cbn [cbind].
    destruct D as (Di & D). destruct (register_sim d em errs (mkErr None ARG_EMISSARG w) D) as (d' & E & Id & D'). rewrite E. cbn. split; [congruence|exact D'].
  - destruct (r_code r =? BADCH)%Z; [|destruct (r_code r =? BADARG)%Z].
    + destruct (r_optopt r =? 0)%Z; [|apply Er]. destruct (prev_word g) as [w|]; [|exact I]. apply Er.
    + destruct (prev_word g) as [w|]; [|exact I]. apply Er.
    + rewrite (find_short_sim t t' _ (proj2 T)). destruct (find_shortoption 0 t' _) as [i|]; [|apply Er]. apply Sc, D.
Qed.

Definition simo {A B} (R : A -> B -> Prop) (x : option (cres A)) (y : option (cres B)) : Prop :=
  match x, y with Some x, Some y => simc R x y | None, None => True | _, _ => False end.
Lemma tagged_loop_sim ids id em posix options los fuel : forall p q, Rst ids id em p q ->
  simo (Rst ids id em) (tagged_loop_m fuel posix options los p) (tagged_loop fuel posix options los em q).
Proof.
  induction fuel as [|fuel IH]; intros p q R; cbn [tagged_loop_m tagged_loop]; [exact I|].
  pose proof R as (T & D & G). rewrite G. destruct (getopt_long posix options los (p_get q)) as [[r g]|]; [|exact I].
  assert (Rst ids id em (mkMs (m_table p) (m_end p) g) (mkP (p_table q) (p_errs q) g)) as R' by (split; [exact T|split; [exact D|reflexivity]]).
  destruct (r_code r =? DONE)%Z; [exact R'|].
  pose proof (tagged_step_sim ids id em r _ _ R') as St.
  destruct (tagged_step_m r _) as [p1|], (tagged_step em r _) as [q1|]; cbn in St; try tauto. apply IH, St.
Qed.

(** *** Words without an option *)
Lemma untagged_entry_sim words : forall m e, Rent m e ->
  simc (fun x y => me_id (fst (fst x)) = me_id m /\ Rent (fst (fst x)) (fst (fst y)) /\ snd (fst x) = snd (fst y) /\ snd x = snd y)
    (untagged_entry_m m words) (untagged_entry e words).
Proof.
  induction words as [|w words IH]; intros m e R; cbn [untagged_entry_m untagged_entry].
  - cbn. auto.
  - eapply simc_bind; [exact (scanfn_sim m e (Some w) R)|]. intros [c m'] [c' e'] (E & Id & R'). cbn [fst snd] in *. subst c'.
    destruct (c =? 0)%Z; [|cbn; auto]. specialize (IH m' e' R').
    destruct (untagged_entry_m m' words) as [[[x1 x2] x3]|], (untagged_entry e' words) as [[[y1 y2] y3]|]; cbn in *; try tauto. rewrite <- Id. exact IH.
Qed.
Lemma untagged_loop_sim t t' : Forall2 Rent t t' -> forall i words last,
  simc (fun x y => Rtab (map me_id t) (fst x) (fst y) /\ snd x = snd y) (untagged_loop_m i t words last) (untagged_loop i t' words last).
Proof.
  induction 1 as [|m e t t' R F IH]; intros i words last; cbn [untagged_loop_m untagged_loop].
  - cbn. split; [|reflexivity]. split; [reflexivity|constructor].
  - destruct words as [|w words].
    + cbn. split; [|reflexivity]. split; [reflexivity|]. constructor; assumption.
    + assert (forall i words last, simc (fun x y => Rtab (map me_id (m :: t)) (fst x) (fst y) /\ snd x = snd y)
         (cbind (untagged_loop_m i t words last) (fun '(t0, r) => Val (m :: t0, r))) (cbind (untagged_loop i t' words last) (fun '(t0, r) => Val (e :: t0, r)))) as Sk.
      { intros i0 w0 l0. eapply simc_bind; [exact (IH i0 w0 l0)|]. intros [a b] [a' b'] ((I1 & F1) & E1). cbn [fst snd] in *. subst b'. cbn.
        split; [|reflexivity]. split; [cbn; congruence|constructor; assumption]. }
      rewrite (re_long _ _ R), (re_short _ _ R). destruct (e_long e) as [lo|]; [apply Sk|]. destruct (e_short e) as [sh|]; [apply Sk|].
      eapply simc_bind; [exact (untagged_entry_sim (w :: words) m e R)|].
      intros [[m' ws] er] [[e' ws'] er'] (Id & R' & E1 & E2). cbn [fst snd] in *. subst ws' er'.
      eapply simc_bind; [exact (IH (S i) ws _)|]. intros [a b] [a' b'] ((I1 & F1) & E1). cbn [fst snd] in *. subst b'. cbn.
      split; [|reflexivity]. split; [cbn; congruence|constructor; assumption].
Qed.
Lemma register_words_sim id em words : forall d errs, Rend id em d errs ->
  exists d', register_words words d = Val d' /\ Rend id em d' (fold_left (fun errs w => register_error em errs (mkErr None ARG_ENOMATCH (Some w))) words errs).
Proof.
  induction words as [|w words IH]; intros d errs R; cbn [register_words fold_left].
  - exists d. split; [reflexivity|exact R].
  - destruct R as (I & R). destruct (register_sim d em errs (mkErr None ARG_ENOMATCH (Some w)) R) as (d1 & E & Id & R1). rewrite E. cbn [cbind].
    apply IH. split; [congruence|exact R1].
Qed.
Lemma untagged_sim ids id em p q : Rst ids id em p q -> simc (Rpair ids id em) (untagged_m p) (arg_parse_untagged em q).
Proof.
  intros ((Id & F) & D & G). unfold untagged_m, arg_parse_untagged. rewrite G.
  eapply simc_bind; [exact (untagged_loop_sim _ _ F 0 _ None)|]. intros [t r] [t' r'] (T & E). cbn [fst snd] in *. subst r'. rewrite Id in T.
  destruct r as [[]|[words [[[i c] w]|]]].
  - cbn. split; assumption.
  - apply (register_bind _ id em (m_end p) (p_errs q)); [exact D|]. intros d' D'.
    destruct (register_words_sim id em (tl words) d' _ D') as (d2 & E2 & D2). rewrite E2. cbn. split; assumption.
  - destruct (register_words_sim id em words _ _ D) as (d2 & E2 & D2). rewrite E2. cbn. split; assumption.
Qed.

Lemma check_sim id em t t' : Forall2 Rent t t' -> forall i d errs, Rend id em d errs ->
  exists d', check_m i t d = Val d' /\ Rend id em d' (arg_parse_check em i t' errs).
Proof.
  induction 1 as [|m e t t' R F IH]; intros i d errs D; cbn [check_m arg_parse_check].
  - exists d. split; [reflexivity|exact D].
  - rewrite (checkfn_sim _ _ R). destruct (checkfn e =? 0)%Z; cbn [cbind].
    + apply IH, D.
    + destruct D as (I & D). destruct (register_sim d em errs (mkErr (Some i) (checkfn e) None) D) as (d1 & E & Id & D1). rewrite E. cbn [cbind].
      apply IH. split; [congruence|exact D1].
Qed.

(** *** Reset *)
(** What reset needs: also the entries that were just created are like that. *)
Record fresh_like (m : ment) (e : entry) : Prop := mkFresh {
  fl_kind : me_kind m = e_kind e;
  fl_short : me_short m = e_short e;
  fl_long : me_long m = e_long e;
  fl_min : me_min m = e_min e;
  fl_max : me_max m = e_max e;
  fl_count : me_count m = 0;
  fl_arr : me_kind m <> ALit -> me_arr m = repeat (blank (me_kind m)) (me_max m)
}.
Definition cleared (e : entry) : entry := mkEntry (e_kind e) (e_short e) (e_long e) (e_min e) (e_max e) [].
Lemma reset_fresh m e : fresh_like m e -> exists m', resetfn_m m = Val m' /\ me_id m' = me_id m /\ Rent m' (cleared e).
Proof.
  intros [K Sh Lo Mi Ma Co Ar].
  assert (Rent (with_arr m (me_arr m) 0) (cleared e)) as G.
  { constructor; cbn [with_arr cleared me_kind me_short me_long me_min me_max me_arr me_count e_kind e_short e_long e_min e_max e_vals]; try assumption; try reflexivity.
    - lia.
    - intros N. exists []. rewrite Nat.sub_0_r. split; [exact (Ar N)|constructor]. }
  unfold resetfn_m. destruct (me_kind m) eqn:Km.
  1, 2: eexists; split; [reflexivity|split; [reflexivity|exact G]].
  rewrite Co. cbn. eexists. split; [reflexivity|]. split; [reflexivity|exact G].
Qed.
Lemma reset_sim t t' : Forall2 fresh_like t t' -> exists t2, reset_m t = Val t2 /\ Rtab (map me_id t) t2 (arg_reset t').
Proof.
  induction 1 as [|m e t t' R F IH]; cbn [reset_m].
  - exists []. split; [reflexivity|]. split; [reflexivity|constructor].
  - destruct (reset_fresh m e R) as (m' & E & Id & R'). destruct IH as (t2 & E2 & I2 & F2). rewrite E, E2. cbn [cbind].
    eexists. split; [reflexivity|]. split; [cbn; congruence|]. constructor; assumption.
Qed.

(** ** The heap *)
Definition good (h : heap) : Prop := NoDup (h_live h) /\ forall i, In i (h_live h) -> i < h_calls h.
Lemma xmalloc_cases ok h : good h ->
  (xmalloc ok h = MPanic /\ ok (h_calls h) = false) \/
  (xmalloc ok h = MVal (h_calls h, mkHeap (h_calls h :: h_live h) (S (h_calls h))) /\ good (mkHeap (h_calls h :: h_live h) (S (h_calls h)))).
Proof.
  intros (N & G). unfold xmalloc. destruct (ok (h_calls h)) eqn:E; [right|left; split; reflexivity || assumption].
  split; [reflexivity|]. split; cbn.
  - constructor; [|exact N]. intros I. apply G in I. lia.
  - intros i [<-|I]; [lia|]. apply G in I. lia.
Qed.
Lemma xfree_top i l n : ~ In i l -> xfree i (mkHeap (i :: l) n) = MVal (mkHeap l n).
Proof.
  intros N. unfold xfree. cbn [h_live h_calls existsb]. rewrite Nat.eqb_refl. cbn [orb]. do 2 f_equal. cbn [remove].
  destruct (Nat.eq_dec i i) as [_|D]; [|destruct (D eq_refl)]. apply notin_remove, N.
Qed.
Lemma good_fresh h : good h -> ~ In (h_calls h) (h_live h).
Proof. intros (_ & G) I. apply G in I. lia. Qed.
Lemma good_live h l : good h -> h_live l = h_live h -> h_calls h <= h_calls l -> good l.
Proof. intros (N & G) E L. split; rewrite E; [exact N|]. intros i I. apply G in I. lia. Qed.

Definition named_table (t : list entry) : Prop := Forall (fun e => long_names (e_long e) /\ short_names (e_short e)) t.

Lemma lists_sim ids t t' : Rtab ids t t' ->
  alloc_longoptions 0 (map entry_of t) = alloc_longoptions 0 t' /\ alloc_shortoptions (map entry_of t) = alloc_shortoptions t'.
Proof.
  intros (_ & F). split.
  - generalize 0. induction F as [|m e t t' R F IH]; intros i; [reflexivity|]. cbn [map alloc_longoptions]. rewrite IH.
    unfold has_value. cbn [entry_of e_long e_kind]. rewrite (re_long _ _ R), (re_kind _ _ R). reflexivity.
  - rewrite !alloc_short. f_equal. induction F as [|m e t t' R F IH]; [reflexivity|]. cbn [map flat_map]. rewrite IH. f_equal.
    unfold short_of, has_value. cbn [entry_of e_short e_kind]. rewrite (re_short _ _ R), (re_kind _ _ R). reflexivity.
Qed.
Lemma named_sim t t' : Forall2 Rent t t' -> named_table t' -> Forall (fun e => long_names (me_long e)) t /\ Forall (fun e => short_names (me_short e)) t.
Proof.
  induction 1 as [|m e t t' R F IH]; intros N; [split; constructor|]. inversion N as [|? ? (N1 & N2) Nt]; subst. destruct (IH Nt) as (A & B).
  split; constructor; try assumption; [rewrite (re_long _ _ R)|rewrite (re_short _ _ R)]; assumption.
Qed.

Lemma tagged_sim ok fuel posix argv ids id em t t' d errs h : Rtab ids t t' -> Rend id em d errs -> named_table t' -> good h ->
  match tagged_m ok fuel posix argv t d h with
  | None => arg_parse_tagged fuel posix em argv t' errs = None
  | Some (MVal (p, h')) => exists q, arg_parse_tagged fuel posix em argv t' errs = Some (Val q) /\ Rst ids id em p q /\ h_live h' = h_live h /\ h_calls h <= h_calls h'
  | Some MUB => arg_parse_tagged fuel posix em argv t' errs = Some UB
  | Some MPanic => exists n, h_calls h <= n < h_calls h + 2 /\ ok n = false
  end.
Proof.
  intros T D N G. unfold tagged_m. destruct (named_sim _ _ (proj2 T) N) as (N1 & N2).
  destruct (lists_sim _ _ _ T) as (E1 & E2).
  destruct (xmalloc_cases ok h G) as [(-> & F)|(-> & G1)]; cbn [obind]; [exists (h_calls h); split; [lia|exact F]|].
  destruct (long_ok t N1) as (ls & -> & Rl). cbn [lift obind].
  destruct (xmalloc_cases ok _ G1) as [(-> & F)|(-> & G2)]; cbn [obind h_calls] in *; [exists (S (h_calls h)); split; [lia|exact F]|].
  destruct (short_ok t N2) as (sb & -> & Rs). cbn [lift obind]. rewrite Rl, Rs, E1, E2. cbn [lift obind]. unfold arg_parse_tagged.
  pose proof (tagged_loop_sim ids id em posix (alloc_shortoptions t') (alloc_longoptions 0 t') fuel
    (mkMs t d (mkG argv 0 [] None None false)) (mkP t' errs (mkG argv 0 [] None None false)) (conj T (conj D eq_refl))) as S0.
  destruct (tagged_loop_m fuel posix _ _ _) as [[p|]|], (tagged_loop fuel posix _ _ em _) as [[q|]|]; cbn in S0; try tauto; cbn [option_map lift obind]; try reflexivity.
  cbn [h_live] in *. rewrite xfree_top by exact (good_fresh _ G1). cbn [obind].
  rewrite xfree_top by exact (good_fresh _ G). cbn [obind]. exists q. split; [reflexivity|]. split; [exact S0|]. cbn. split; [reflexivity|lia].
Qed.

Lemma parse_sim ok fuel posix argv em t t' d h : Forall2 fresh_like t t' -> named_table t' -> 1 <= em -> en_max d = em -> en_arr d = repeat None em -> good h ->
  match parse_m ok fuel posix argv t d h with
  | None => arg_parse fuel posix em argv t' = None
  | Some (MVal (t2, d2, h')) => exists t2' errs, arg_parse fuel posix em argv t' = Some (Val (t2', errs)) /\
      Rtab (map me_id t) t2 t2' /\ Rend (en_id d) em d2 errs /\ h_live h' = h_live h /\ h_calls h <= h_calls h'
  | Some MUB => arg_parse fuel posix em argv t' = Some UB
  | Some MPanic => exists n, h_calls h <= n < h_calls h + 3 /\ ok n = false
  end.
Proof.
  intros F N M Em Ar G. unfold parse_m, arg_parse.
  destruct (reset_sim t t' F) as (t2 & -> & T). cbn [lift obind]. set (ids := map me_id t) in *.
  assert (Rend (en_id d) em (mkMend (en_id d) (en_max d) (en_arr d) 0) []) as D.
  { split; [reflexivity|]. split; [exact Em|]. split; [exact M|]. cbn. split; [reflexivity|]. split; [lia|]. exists em. split; [exact Ar|reflexivity]. }
  assert (named_table (arg_reset t')) as N'.
  { clear - N. induction N as [|e t' H N IH]; [constructor|]. cbn. constructor; [exact H|exact IH]. }
  destruct argv as [|w argv].
  - destruct (check_sim (en_id d) em _ _ (proj2 T) 0 _ _ D) as (d2 & -> & D2). cbn [lift obind].
    eexists _, _. split; [reflexivity|]. split; [exact T|]. split; [exact D2|]. split; [reflexivity|lia].
  - set (argv0 := w :: argv) in *. destruct (xmalloc_cases ok h G) as [(-> & Fa)|(-> & G1)]; cbn [obind]; [exists (h_calls h); split; [lia|exact Fa]|].
    pose proof (copy_argv_ok argv0 []) as C. cbn [List.length app] in C. rewrite C. cbn [lift obind].
    rewrite read_argv_ok. cbn [lift obind].
    pose proof (tagged_sim ok fuel posix argv0 ids (en_id d) em t2 (arg_reset t') _ [] _ T D N' G1) as S0. cbn [h_live h_calls] in S0.
    destruct (tagged_m ok fuel posix argv0 t2 _ _) as [[[p h1]| |]|]; cbn [obind].
    + destruct S0 as (q & -> & R & Lv & Lc). pose proof (untagged_sim ids (en_id d) em p q R) as U.
      destruct (untagged_m p) as [[t3 d3]|], (arg_parse_untagged em q) as [[t3' errs3]|]; cbn in U; try tauto; cbn [lift obind cbind]; [|reflexivity].
      destruct U as (T3 & D3). cbn [fst snd] in *.
      assert (exists d4, (match en_count d3 with 0 => check_m 0 t3 d3 | _ => Val d3 end) = Val d4 /\
        Rend (en_id d) em d4 (match errs3 with [] => arg_parse_check em 0 t3' [] | _ => errs3 end)) as (d4 & E4 & D4).
      { assert (en_count d3 = len errs3) as -> by (apply D3). destruct errs3 as [|e3 errs3]; cbn [List.length].
        - exact (check_sim (en_id d) em _ _ (proj2 T3) 0 _ _ D3).
        - exists d3. split; [reflexivity|exact D3]. }
      rewrite E4. cbn [lift obind].
      destruct h1 as [l1 c1]. cbn [h_live h_calls] in *. subst l1. rewrite xfree_top by exact (good_fresh _ G). cbn [obind].
      eexists _, _. split; [reflexivity|]. split; [exact T3|]. split; [exact D4|]. cbn. split; [reflexivity|lia].
    + rewrite S0. reflexivity.
    + destruct S0 as (n & B & O). exists n. split; [lia|exact O].
    + rewrite S0. reflexivity.
Qed.

(** ** What main reads *)
Lemma Rent_same m e : Rent m e -> same_entry (entry_of m) e.
Proof.
  intros [K Sh Lo Mi Ma Co Le Li Ar]. split; [exact Ma|]. cbn [entry_of e_vals].
  destruct (me_kind m) eqn:Km.
  - rewrite Li by reflexivity. clear. induction (me_count m); cbn; constructor; [left; reflexivity|assumption].
  - destruct (Ar ltac:(discriminate)) as (a & -> & F). rewrite Co, <- (holds_length _ _ _ F), firstn_app, firstn_all, Nat.sub_diag. cbn. rewrite app_nil_r.
    clear - F. induction F as [|x v a l H F IH]; cbn; constructor; [|exact IH]. destruct H; cbn; unfold same_val; auto; discriminate.
  - destruct (Ar ltac:(discriminate)) as (a & -> & F). rewrite Co, <- (holds_length _ _ _ F), firstn_app, firstn_all, Nat.sub_diag. cbn. rewrite app_nil_r.
    clear - F. induction F as [|x v a l H F IH]; cbn; constructor; [|exact IH]. destruct H; cbn; unfold same_val; auto; discriminate.
Qed.
Lemma same_nth t t' i : Forall2 same_entry t t' -> match nth_error t i, nth_error t' i with
  | Some m, Some e => same_entry m e
  | None, None => True
  | _, _ => False
  end.
Proof. intros F. revert i. induction F as [|m e t t' R F IH]; intros [|i]; cbn; try tauto. apply IH. Qed.
Lemma same_vals t t' i : Forall2 same_entry t t' -> Forall2 same_val (vals t i) (vals t' i).
Proof.
  intros F. pose proof (same_nth _ _ i F) as N. unfold vals. destruct (nth_error t i), (nth_error t' i); try (destruct N; fail); [apply N|constructor].
Qed.
Lemma same_count t t' i : Forall2 same_entry t t' -> count t i = count t' i.
Proof. intros F. unfold count. pose proof (same_vals t t' i F) as V. induction V; cbn; congruence. Qed.
Lemma same_valn l l' k : Forall2 same_val l l' -> match nth_error l k, nth_error l' k with
  | Some m, Some e => same_val m e
  | None, None => True
  | _, _ => False
  end.
Proof. intros F. revert k. induction F as [|m e t t' R F IH]; intros [|i]; cbn; try tauto. apply IH. Qed.
Lemma same_ival t t' i k : Forall2 same_entry t t' -> ival t i k = ival t' i k.
Proof.
  intros F. unfold ival. pose proof (same_valn _ _ k (same_vals t t' i F)) as N.
  destruct (nth_error (vals t i) k), (nth_error (vals t' i) k); try (destruct N; fail); [|reflexivity]. destruct N as [->|(-> & ->)]; reflexivity.
Qed.
Lemma same_sval t t' i k : Forall2 same_entry t t' -> sval t i k = sval t' i k.
Proof.
  intros F. unfold sval. pose proof (same_valn _ _ k (same_vals t t' i F)) as N. pose proof (same_nth _ _ i F) as N2.
  destruct (nth_error (vals t i) k), (nth_error (vals t' i) k); try (destruct N; fail).
  - destruct N as [->|(-> & ->)]; reflexivity.
  - destruct (nth_error t i), (nth_error t' i); try (destruct N2; fail); [|reflexivity]. destruct N2 as (-> & _). reflexivity.
Qed.
Lemma same_fill t t' e n : Forall2 same_entry t t' -> forall i k a, fill t e n i k a = fill t' e n i k a.
Proof.
  intros F. induction n as [|n IH]; intros i k a; cbn [fill]; [reflexivity|]. rewrite (same_sval t t' _ _ F).
  destruct (sval t' e k) as [s|]; [|reflexivity]. cbn [cbind]. destruct (set_cell i (Ptr s) a) as [b|]; [|reflexivity]. cbn [cbind]. apply IH.
Qed.
Lemma same_config t t' : Forall2 same_entry t t' -> make_config t = make_config t'.
Proof.
  intros F. unfold make_config, int_field, str_field.
  rewrite !(same_count t t' _ F), !(same_ival t t' _ _ F), !(same_sval t t' _ _ F).
  repeat match goal with
  | |- cbind ?x _ = cbind ?x _ => destruct x; [|reflexivity]; cbn [cbind]
  | |- cbind (fill t ?e ?n ?i ?k ?a) _ = _ => rewrite (same_fill t t' e n F i k a)
  end.
  reflexivity.
Qed.
Lemma errors_ok em d errs : Rerrs d em errs -> errors_of (en_count d) (en_arr d) = Val errs.
Proof.
  intros (_ & _ & -> & _ & k & -> & _). generalize (repeat (@None perror) k) as r. intros r.
  induction errs as [|e errs IH]; cbn; [reflexivity|]. rewrite IH. reflexivity.
Qed.

(** ** Creating and freeing the table *)
Lemma new_table_ok ok t : Forall (fun e => e_min e <= e_max e) t -> forall h, good h ->
  match new_table ok t h with
  | MVal (t2, h2) => Forall2 fresh_like t2 t /\ good h2 /\ h_live h2 = rev (map me_id t2) ++ h_live h /\ h_calls h2 = h_calls h + len t
  | MUB => False
  | MPanic => exists n, h_calls h <= n < h_calls h + len t /\ ok n = false
  end.
Proof.
  induction 1 as [|e t Le F IH]; intros h G; cbn [new_table].
  - split; [constructor|]. split; [exact G|]. cbn. split; [reflexivity|lia].
  - unfold new_entry. destruct (xmalloc_cases ok h G) as [(-> & Fa)|(-> & G1)]; cbn [mbind List.length]; [exists (h_calls h); split; [lia|exact Fa]|].
    specialize (IH _ G1). cbn [h_calls h_live] in IH. destruct (new_table ok t _) as [[t2 h2]| |]; cbn [mbind].
    + destruct IH as (F2 & G2 & L2 & C2). assert ((e_max e <? e_min e) = false) as El by (apply Nat.ltb_ge; exact Le). rewrite El.
      split; [|split; [exact G2|]].
      * constructor; [|exact F2]. constructor; cbn; try reflexivity. intros NL. destruct (e_kind e); [destruct (NL eq_refl)|reflexivity|reflexivity].
      * cbn [map me_id rev]. rewrite <- app_assoc. cbn [app]. split; [exact L2|lia].
    + exact IH.
    + destruct IH as (n & B & O). exists n. split; [lia|exact O].
Qed.
Lemma in_existsb i l : In i l -> existsb (Nat.eqb i) l = true.
Proof. intros I. apply existsb_exists. exists i. split; [exact I|apply Nat.eqb_refl]. Qed.
Lemma NoDup_remove_all i (l : list nat) : NoDup l -> NoDup (remove Nat.eq_dec i l).
Proof.
  induction 1 as [|x l N D IH]; cbn; [constructor|]. destruct (Nat.eq_dec i x); [exact IH|]. constructor; [|exact IH].
  intros H. apply in_remove in H. tauto.
Qed.
Lemma free_all ids : forall h, NoDup ids -> (forall i, In i ids <-> In i (h_live h)) -> exists n, free_table ids h = MVal (mkHeap [] n).
Proof.
  induction ids as [|i ids IH]; intros h D E; cbn [free_table].
  - exists (h_calls h). destruct h as [[|x l] c]; [reflexivity|]. destruct (proj2 (E x) (or_introl eq_refl)).
  - unfold xfree. rewrite in_existsb by (apply E; left; reflexivity). cbn [mbind]. inversion D as [|? ? N D']; subst. apply IH; [exact D'|].
    intros j. cbn [h_live]. split.
    + intros J. apply in_in_remove; [intros ->; exact (N J)|apply E; right; exact J].
    + intros J. apply in_remove in J. destruct J as (J & Ne). apply E in J. destruct J as [->|J]; [destruct (Ne eq_refl)|exact J].
Qed.

Lemma arg_table_usable : Forall usable arg_table.
Proof.
  unfold arg_table. repeat apply Forall_cons; try apply Forall_nil.
  all: constructor; [|exact I|cbn; lia].
  all: split; [intros J; repeat (destruct J as [J|J]; [discriminate J|]); exact J|].
  all: eexists _, _; split; [reflexivity|discriminate].
Qed.
Lemma usable_named t : Forall usable t -> named_table t.
Proof. intros F. eapply Forall_impl; [|exact F]. intros e [A B _]. split; assumption. Qed.

Theorem library_ok ok fuel posix em argv t t2 h2 d h3 : Forall usable t -> 1 <= em ->
  new_table ok t (mkHeap [] 0) = MVal (t2, h2) -> new_end ok em h2 = MVal (d, h3) ->
  match parse_m ok fuel posix argv t2 d h3 with
  | None => arg_parse fuel posix em argv t = None
  | Some (MVal (t4, d4, h4)) => exists t' errs, arg_parse fuel posix em argv t = Some (Val (t', errs)) /\
      map me_count t4 = map e_count t' /\ Forall2 same_entry (map entry_of t4) t' /\ errors_of (en_count d4) (en_arr d4) = Val errs /\ en_count d4 = len errs /\
      exists n, free_table (map me_id t4 ++ [en_id d4]) h4 = MVal (mkHeap [] n)
  | Some MUB => arg_parse fuel posix em argv t = Some UB
  | Some MPanic => exists n, h_calls h3 <= n < h_calls h3 + 3 /\ ok n = false
  end.
Proof.
  intros U M E1 E2. assert (good (mkHeap [] 0)) as G0 by (split; [constructor|intros i []]).
  assert (Forall (fun e => e_min e <= e_max e) t) as Le by (eapply Forall_impl; [|exact U]; intros e [_ _ L]; exact L).
  pose proof (new_table_ok ok t Le _ G0) as Nt. rewrite E1 in Nt. destruct Nt as (F & G2 & L2 & C2). cbn [h_live] in L2. rewrite app_nil_r in L2.
  unfold new_end in E2. destruct (xmalloc_cases ok h2 G2) as [(X & _)|(X & G3)]; rewrite X in E2; [discriminate|]. cbn [mbind] in E2. injection E2 as <- <-.
  pose proof (parse_sim ok fuel posix argv em t2 t (mkMend (h_calls h2) em (repeat None em) 0) _ F (usable_named t U) M eq_refl eq_refl G3) as P.
  destruct (parse_m ok fuel posix argv t2 _ _) as [[[[t4 d4] h4]| |]|]; [|exact P|exact P|exact P].
  destruct P as (t' & errs & E & (Ids & R) & (Id & D) & Lv & Lc). cbn [en_id h_live h_calls] in *. exists t', errs. split; [exact E|].
  split; [clear - R; induction R as [|m e t4 t' R F IH]; cbn; [reflexivity|]; rewrite IH, (re_count _ _ R); reflexivity|].
  split; [clear - R; induction R as [|m e t4 t' R F IH]; cbn; constructor; [apply Rent_same, R|exact IH]|].
  split; [exact (errors_ok em d4 errs D)|]. split; [apply D|].
  apply free_all.
  - rewrite Ids, Id. destruct G3 as (ND & _). cbn [h_live] in ND. rewrite L2 in ND.
    apply NoDup_rev in ND. cbn [rev] in ND. rewrite rev_involutive in ND. exact ND.
  - intros i. rewrite Ids, Id, Lv, L2. cbn [In]. rewrite in_app_iff, <- in_rev. cbn [In]. tauto.
Qed.

Theorem main_ok ok fuel posix argv :
  match main_m ok fuel posix argv with
  | None => main_ fuel posix argv = None
  | Some (MVal (a, h)) => main_ fuel posix argv = Some (Val a) /\ h_live h = []
  | Some MUB => main_ fuel posix argv = Some UB
  | Some MPanic => exists n, n < 23 /\ ok n = false
  end.
Proof.
  assert (good (mkHeap [] 0)) as G0 by (split; [constructor|intros i []]).
  assert (Forall (fun e => e_min e <= e_max e) arg_table) as Le by (eapply Forall_impl; [|exact arg_table_usable]; intros e [_ _ L]; exact L).
  unfold main_m, main_. pose proof (new_table_ok ok arg_table Le _ G0) as Nt.
  destruct (new_table ok arg_table (mkHeap [] 0)) as [[t2 h2]| |] eqn:E1; cbn [obind]; [|destruct Nt|destruct Nt as (n & B & O); exists n; cbn in B; split; [lia|exact O]].
  destruct Nt as (_ & G2 & _ & C2). cbn in C2.
  destruct (new_end ok end_max h2) as [[d h3]| |] eqn:E2; cbn [obind].
  - pose proof (library_ok ok fuel posix end_max argv arg_table t2 h2 d h3 arg_table_usable ltac:(unfold end_max; lia) E1 E2) as L.
    assert (h_calls h3 = 20) as C3.
    { unfold new_end in E2. destruct (xmalloc_cases ok h2 G2) as [(X & _)|(X & _)]; rewrite X in E2; [discriminate|]. injection E2 as <- <-. cbn. lia. }
    destruct (parse_m ok fuel posix argv t2 d h3) as [[[[t4 d4] h4]| |]|]; cbn [obind].
    + destruct L as (t' & errs & -> & _ & Sm & Er & Ec & n & Fr). cbn [cbind].
      rewrite !(same_count _ _ _ Sm), (same_config _ _ Sm), Er, Ec, Fr. cbn [cbind].
      destruct (0 <? count t' I_help); [cbn; split; reflexivity|]. destruct (0 <? count t' I_version); [cbn; split; reflexivity|].
      destruct (0 <? len errs); [cbn; split; reflexivity|]. destruct (make_config t'); cbn; [split; reflexivity|reflexivity].
    + rewrite L. reflexivity.
    + destruct L as (n & B & O). exists n. split; [lia|exact O].
    + rewrite L. reflexivity.
  - exfalso. unfold new_end in E2. destruct (xmalloc_cases ok h2 G2) as [(X & _)|(X & _)]; rewrite X in E2; discriminate.
  - unfold new_end in E2. destruct (xmalloc_cases ok h2 G2) as [(X & O)|(X & _)]; rewrite X in E2; [|discriminate]. exists (h_calls h2). split; [lia|exact O].
Qed.

Theorem does_safe posix argv a : does posix argv (Val a) -> forall ok, exists fuel,
  (main_m ok fuel posix argv = Some MPanic /\ exists n, n < 23 /\ ok n = false) \/
  (exists h, main_m ok fuel posix argv = Some (MVal (a, h)) /\ h_live h = []).
Proof.
  intros (fuel & E) ok. exists fuel. pose proof (main_ok ok fuel posix argv) as M. destruct (main_m ok fuel posix argv) as [[[b h]| |]|].
  - destruct M as (M & L). rewrite E in M. injection M as <-. right. exists h. split; [reflexivity|exact L].
  - rewrite E in M. discriminate.
  - left. split; [reflexivity|exact M].
  - rewrite E in M. discriminate.
Qed.
Theorem only_does ok fuel posix argv r : main_m ok fuel posix argv = Some r ->
  match r with
  | MVal (a, h) => does posix argv (Val a) /\ h_live h = []
  | MUB => does posix argv UB
  | MPanic => exists n, n < 23 /\ ok n = false
  end.
Proof.
  intros E. pose proof (main_ok ok fuel posix argv) as M. rewrite E in M. destruct r as [[a h]| |].
  - destruct M as (M & L). split; [exists fuel; exact M|exact L].
  - exists fuel. exact M.
  - exact M.
Qed.

Definition sample_argv : list str := [lit "judger"; lit "--exe_path=/bin/true"; lit "--max_cpu_time=1000"; lit "--args=a"; lit "--args=b"; lit "--bad"].
Lemma sample_main : exists e h, main_m (fun _ => true) 10 true sample_argv = Some (MVal (Errors [e], h)) /\ h = mkHeap [] 23.
Proof. eexists _, _. split; vm_compute; reflexivity. Qed.
Lemma sample_panic : main_m (fun n => negb (n =? 21)) 10 true sample_argv = Some MPanic.
Proof. vm_compute. reflexivity. Qed.

(** A table that is not usable. *)
Definition life (em : nat) (t : list entry) (argv : list str) : option (mres unit) :=
  obind (Some (new_table (fun _ => true) t (mkHeap [] 0))) (fun '(t, h) =>
  obind (Some (new_end (fun _ => true) em h)) (fun '(d, h) =>
  obind (parse_m (fun _ => true) 10 true argv t d h) (fun _ => Some (MVal tt)))).
Lemma unusable :
  life 1 [mkEntry ALit None (Some (lit ",a")) 0 1 []] [lit "x"] = Some MUB /\
  life 1 [mkEntry ALit None (Some []) 0 1 []] [lit "x"] = Some MUB /\
  life 0 [mkEntry ALit None (Some (lit "a")) 1 1 []] [lit "x"] = Some MUB /\
  life 1 [mkEntry ALit None (Some (lit "a,,b,")) 1 1 []] [lit "x"; lit "--b"] = Some (MVal tt).
Proof. repeat split; vm_compute; reflexivity. Qed.
