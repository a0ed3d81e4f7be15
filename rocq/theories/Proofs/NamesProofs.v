(** Proofs about names of files. *)
From Coq Require Import ZArith Bool List Ascii String Lia.
From Verif.Base Require Import CInt CStr.
From Verif.Model Require Import Config Runner Seccomp Child Names.
From Verif.Spec Require Import NamesSpec.
Import ListNotations.
Open Scope list_scope.
Open Scope Z_scope.

Lemma may_right bit u n : may bit u n = true <-> has_right bit u n.
Proof.
  unfold may. split.
  - intros H. apply orb_prop in H. destruct H as [H|H]; [apply by_root; lia|].
    destruct (w_uid u =? n_uid n) eqn:E; [apply by_owner; [lia|exact H]|].
    destruct (existsb (Z.eqb (n_gid n)) (w_gids u)) eqn:G.
    + apply by_group; [lia| |exact H]. apply existsb_exists in G. destruct G as (g & I & Eg). apply Z.eqb_eq in Eg. congruence.
    + apply by_others; [lia| |exact H]. intros I. assert (existsb (Z.eqb (n_gid n)) (w_gids u) = true); [|congruence].
      apply existsb_exists. exists (n_gid n). split; [exact I|apply Z.eqb_refl].
  - intros [H|H H1|H I H1|H I H1]; apply orb_true_iff.
    + left. lia.
    + right. rewrite (proj2 (Z.eqb_eq _ _) H). exact H1.
    + right. rewrite (proj2 (Z.eqb_neq _ _) H).
      assert (existsb (Z.eqb (n_gid n)) (w_gids u) = true) as ->; [|exact H1].
      apply existsb_exists. exists (n_gid n). split; [exact I|apply Z.eqb_refl].
    + right. rewrite (proj2 (Z.eqb_neq _ _) H).
      destruct (existsb (Z.eqb (n_gid n)) (w_gids u)) eqn:G; [|exact H1].
      exfalso. apply I. apply existsb_exists in G. destruct G as (g & Ig & Eg). apply Z.eqb_eq in Eg. congruence.
Qed.

Lemma str_eqb_spec a b : str_eqb a b = true <-> a = b.
Proof. split; [apply str_eqb_eq|intros ->; apply str_eqb_refl]. Qed.
Lemma str_eqb_no a b : a <> b -> str_eqb a b = false.
Proof. intros H. destruct (str_eqb a b) eqn:E; [|reflexivity]. exfalso. apply H. apply str_eqb_spec. exact E. Qed.

(** One step of the walk. *)
Lemma walk_nil links F u fl d : walk links F u fl d [] = At d.
Proof. destruct links; reflexivity. Qed.
Lemma walk_cons links F u fl d x rest : walk links F u fl d (x :: rest) =
  match nth_error F d with
  | Some n =>
      match n_kind n with
      | IsDir up ents =>
          if negb (may 0 u n) then Nowhere
          else if str_eqb x (lit ".") then walk links F u fl d rest
          else if str_eqb x (lit "..") then walk links F u fl up rest
          else match entry x ents with
               | None => match rest with [] => Free d x | _ => Nowhere end
               | Some i =>
                   match nth_error F i with
                   | None => Nowhere
                   | Some m =>
                       match n_kind m with
                       | IsLink t =>
                           if match rest with [] => negb fl | _ => false end then Entry d x i
                           else match links with
                                | O => Nowhere
                                | S k => walk k F u fl (if absolute t then 0%nat else d) (components t ++ rest)
                                end
                       | _ => match rest with [] => Entry d x i | _ => walk links F u fl i rest end
                       end
                   end
               end
      | _ => Nowhere
      end
  | None => Nowhere
  end.
Proof. destruct links; reflexivity. Qed.

Lemma walk_leads u F links : forall l d p, walk links F u true d l = p -> p <> Nowhere ->
  exists k ds, (k <= links)%nat /\ leads u F k d l ds p.
Proof.
  induction links as [links IHl] using lt_wf_ind.
  induction l as [|x rest IH]; intros d p H N.
  - rewrite walk_nil in H. subst p. exists 0%nat, []. split; [lia|constructor].
  - rewrite walk_cons in H.
    destruct (nth_error F d) as [n|] eqn:Nd; [|congruence]. destruct (n_kind n) as [?|up ents|?|] eqn:K; try congruence.
    destruct (may 0 u n) eqn:My; cbn [negb] in H; [|congruence].
    assert (searches u F d up ents) as Se.
    { exists n. split; [exact Nd|]. split; [exact K|]. apply may_right. exact My. }
    destruct (str_eqb x (lit ".")) eqn:X1.
    { apply str_eqb_spec in X1. subst x. destruct (IH _ _ H N) as (k & ds & Lk & L). exists k, (d :: ds). split; [exact Lk|]. econstructor; eassumption. }
    destruct (str_eqb x (lit "..")) eqn:X2.
    { apply str_eqb_spec in X2. subst x. destruct (IH _ _ H N) as (k & ds & Lk & L). exists k, (d :: ds). split; [exact Lk|]. eapply leads_up; eassumption. }
    assert (ordinary_name x) as Ox.
    { split; intros ->; rewrite str_eqb_refl in *; discriminate. }
    destruct (entry x ents) as [i|] eqn:Ei.
    2:{ destruct rest; [|congruence]. rewrite <- H. exists 0%nat, [d]. split; [lia|]. eapply leads_free; eassumption. }
    destruct (nth_error F i) as [m|] eqn:Ni; [|congruence].
    assert (forall t, n_kind m = IsLink t -> match links with O => Nowhere | S k => walk k F u true (if absolute t then 0%nat else d) (components t ++ rest) end = p ->
      exists k ds, (k <= links)%nat /\ leads u F k d (x :: rest) ds p) as Lk.
    { intros t Km Hl. destruct links as [|links]; [congruence|].
      destruct (IHl links ltac:(lia) _ _ _ Hl N) as (k & ds & Lk & L). exists (S k), (d :: ds). split; [lia|].
      eapply leads_link; try eassumption. exists m. auto. }
    assert ((forall t, n_kind m <> IsLink t) -> match rest with [] => Entry d x i | _ => walk links F u true i rest end = p ->
      exists k ds, (k <= links)%nat /\ leads u F k d (x :: rest) ds p) as Nl.
    { intros Km Hl. destruct rest as [|y rest].
      - rewrite <- Hl. exists 0%nat, [d]. split; [lia|]. eapply leads_entry; try eassumption. exists m. auto.
      - destruct (IH _ _ Hl N) as (k & ds & Q & L). exists k, (d :: ds). split; [exact Q|]. eapply leads_into; try eassumption. exists m. auto. }
    destruct (n_kind m) eqn:Km.
    + apply Nl; [discriminate|exact H].
    + apply Nl; [discriminate|exact H].
    + apply (Lk to eq_refl). destruct rest; exact H.
    + apply Nl; [discriminate|exact H].
Qed.

Lemma leads_walk u F k d l ds p : leads u F k d l ds p -> forall links, (k <= links)%nat -> walk links F u true d l = p.
Proof.
  induction 1 as [d|k d up l rest ds p S L IH|k d up l rest ds p S L IH|d up l x S O E|d up l x i S O E NL
                 |k d up l x i y rest ds p S O E NL L IH|k d up l x i t rest ds p S O E AL L IH]; intros links Lk.
  - apply walk_nil.
  - destruct S as (n & A & B & C). apply may_right in C. rewrite walk_cons, A, B, C. cbn [negb]. rewrite str_eqb_refl. auto.
  - destruct S as (n & A & B & C). apply may_right in C. rewrite walk_cons, A, B, C. cbn [negb].
    rewrite str_eqb_no by discriminate. rewrite str_eqb_refl. auto.
  - destruct S as (n & A & B & C). apply may_right in C. destruct O. rewrite walk_cons, A, B, C. cbn [negb].
    rewrite !str_eqb_no by assumption. rewrite E. reflexivity.
  - destruct S as (n & A & B & C). apply may_right in C. destruct O. rewrite walk_cons, A, B, C. cbn [negb].
    rewrite !str_eqb_no by assumption. rewrite E. destruct NL as (m & M1 & M2). rewrite M1.
    destruct (n_kind m) eqn:Km; try reflexivity. exfalso. apply (M2 to). reflexivity.
  - destruct S as (n & A & B & C). apply may_right in C. destruct O. rewrite walk_cons, A, B, C. cbn [negb].
    rewrite !str_eqb_no by assumption. rewrite E. destruct NL as (m & M1 & M2). rewrite M1.
    destruct (n_kind m) eqn:Km; try (apply IH; exact Lk). exfalso. apply (M2 to). reflexivity.
  - destruct S as (n & A & B & C). apply may_right in C. destruct O. rewrite walk_cons, A, B, C. cbn [negb].
    rewrite !str_eqb_no by assumption. rewrite E. destruct AL as (m & M1 & M2). rewrite M1, M2.
    destruct links as [|links]; [lia|]. destruct rest; apply IH; lia.
Qed.

Lemma path_spec u F path p : p <> Nowhere ->
  (locate u F path true = p <-> exists k ds, (k <= 40)%nat /\ path_leads u F path k ds p).
Proof.
  intros N. split.
  - intros H. apply walk_leads in H; [|exact N]. exact H.
  - intros (k & ds & L & H). exact (leads_walk _ _ _ _ _ _ _ H _ L).
Qed.

Lemma leads_somewhere u F k d l ds p : leads u F k d l ds p -> p <> Nowhere.
Proof. induction 1; try discriminate; assumption. Qed.

(** ** Changing objects *)
Lemma upd_same F : forall i n m, nth_error F i = Some m -> nth_error (upd F i n) i = Some n.
Proof. induction F as [|x F IH]; intros [|i] n m H; cbn in *; try discriminate; [reflexivity|]. eapply IH. exact H. Qed.
Lemma upd_other F : forall i n j, j <> i -> nth_error (upd F i n) j = nth_error F j.
Proof. induction F as [|x F IH]; intros [|i] n [|j] H; cbn; try reflexivity; try congruence. apply IH. congruence. Qed.
Lemma upd_length F : forall i n, List.length (upd F i n) = List.length F.
Proof. induction F as [|x F IH]; intros [|i] n; cbn; auto. Qed.

Lemma in_dir_inv u F d f F' : in_dir u F d f = Some F' ->
  exists n up l, nth_error F d = Some n /\ n_kind n = IsDir up l /\ may 1 u n = true /\ F' = upd F d (with_kind n (IsDir up (f l))).
Proof.
  unfold in_dir. destruct (nth_error F d) as [n|]; [|discriminate]. destruct (n_kind n) as [|up l| |] eqn:K; try discriminate.
  destruct (may 1 u n) eqn:My; [|discriminate]. intros H. injection H as <-. exists n, up, l. auto.
Qed.

Lemma locate_free u F p fl d x : locate u F p fl = Free d x ->
  exists n up l, nth_error F d = Some n /\ n_kind n = IsDir up l /\ entry x l = None.
Proof.
  unfold locate. generalize (origin_of u p), (components p), max_links. intros a l links. revert l a.
  induction links as [links IHl] using lt_wf_ind.
  induction l as [|y rest IH]; intros a H; [rewrite walk_nil in H; discriminate|].
  rewrite walk_cons in H. destruct (nth_error F a) as [n|] eqn:Na; [|discriminate].
  destruct (n_kind n) as [|up ents| |] eqn:K; try discriminate.
  destruct (negb _); [discriminate|]. destruct (str_eqb y (lit ".")); [eauto|]. destruct (str_eqb y (lit "..")); [eauto|].
  destruct (entry y ents) as [i|] eqn:Ei.
  2:{ destruct rest; [|discriminate]. injection H as <- <-. exists n, up, ents. auto. }
  destruct (nth_error F i) as [m|]; [|discriminate].
  destruct (n_kind m); try (destruct rest; [discriminate|eauto]).
  destruct (match rest with [] => _ | _ => _ end); [discriminate|]. destruct links as [|k]; [discriminate|].
  apply (IHl k ltac:(lia) _ _ H).
Qed.

(** ** The openings of the judger *)
Lemma open_write_spec umask u F path F' i : open_write umask u true true F path = Some (F', i) -> opened_w umask u path F F' i.
Proof.
  unfold open_write. intros H.
  assert (forall p, locate u F path true = p -> reaches p i -> p <> Nowhere ->
    match nth_error F i with
      | Some n =>
          match n_kind n with
          | IsFile data => if may 1 u n then Some (upd F i (with_kind n (IsFile [])), i) else None
          | IsOther => if may 1 u n then Some (F, i) else None
          | _ => None
          end
      | None => None
      end = Some (F', i) -> opened_w umask u path F F' i) as Ex.
  { intros p L Re Np Q. apply path_spec in L; [|exact Np]. destruct L as (k & ds & Lk & L). exists k, ds. split; [exact Lk|].
    left. exists p. split; [exact L|]. split; [exact Re|].
    destruct (nth_error F i) as [n|] eqn:Ni; [|discriminate]. destruct (n_kind n) eqn:K; try discriminate.
    - destruct (may 1 u n); [|discriminate]. injection Q as <-. left. split.
      + split; [apply upd_length|]. intros j Hj. apply upd_other. exact Hj.
      + exists n, data. split; [exact Ni|]. split; [exact K|]. rewrite (upd_same _ _ _ _ Ni). reflexivity.
    - destruct (may 1 u n); [|discriminate]. injection Q as <-. right. split; [|reflexivity]. exists n. auto. }
  destruct (locate u F path true) as [j|d x j|d x|] eqn:L; [| | |discriminate].
  - assert (j = i) as ->.
    { destruct (nth_error F j) as [n|]; [|discriminate]. destruct (n_kind n); try discriminate; destruct (may 1 u n); try discriminate; congruence. }
    apply (Ex (At i) eq_refl); [left; reflexivity|discriminate|exact H].
  - assert (j = i) as ->.
    { destruct (nth_error F j) as [n|]; [|discriminate]. destruct (n_kind n); try discriminate; destruct (may 1 u n); try discriminate; congruence. }
    apply (Ex (Entry d x i) eq_refl); [right; eauto|discriminate|exact H].
  - destruct (locate_free _ _ _ _ _ _ L) as (n0 & up0 & l0 & A1 & A2 & A3).
    apply path_spec in L; [|discriminate]. destruct L as (k & ds & Lk & L). exists k, ds. split; [exact Lk|]. right.
    exists d, x. split; [exact L|].
    unfold make in H. destruct (in_dir u F d (add x (List.length F))) as [F1|] eqn:D; [|discriminate]. injection H as <- <-.
    split; [|reflexivity]. apply in_dir_inv in D. destruct D as (n & up & l & B1 & B2 & B3 & ->).
    assert (d < List.length F)%nat as Ld by (apply nth_error_Some; congruence).
    exists n, up, l, (hd 0 (w_gids u)). split; [exact B1|]. split; [exact B2|]. split; [congruence|].
    assert (List.length (upd F d (with_kind n (IsDir up (add x (List.length F) l)))) = List.length F) as Ll by apply upd_length.
    split; [|split; [|split]].
    + rewrite nth_error_app1 by (rewrite Ll; exact Ld). rewrite (upd_same _ _ _ _ B1). reflexivity.
    + rewrite nth_error_app2 by (rewrite Ll; lia). rewrite Ll, Nat.sub_diag. reflexivity.
    + rewrite app_length, Ll. cbn. lia.
    + intros j J1 J2. destruct (Nat.lt_ge_cases j (List.length F)) as [Lj|Lj].
      * rewrite nth_error_app1 by (rewrite Ll; exact Lj). apply upd_other. exact J1.
      * rewrite nth_error_app2 by (rewrite Ll; lia). rewrite Ll.
        replace (j - List.length F)%nat with (S (j - S (List.length F)))%nat by lia. cbn.
        rewrite (proj2 (nth_error_None F j)) by lia. destruct (j - S (List.length F))%nat; reflexivity.
Qed.

(** fopen with "a" leaves contents alone. *)
Lemma open_append_spec umask u F path F' i : open_write umask u true false F path = Some (F', i) -> opened_a umask u path F F' i.
Proof.
  intros H. destruct (locate u F path true) as [j|d x j|d x|] eqn:L.
  - unfold open_write in H. rewrite L in H. pose proof L as L'. apply path_spec in L'; [|discriminate]. destruct L' as (k & ds & Lk & L').
    exists k, ds. split; [exact Lk|]. left. exists (At j). split; [exact L'|].
    destruct (nth_error F j) as [n|]; [|discriminate]. destruct (n_kind n); try discriminate; destruct (may 1 u n); try discriminate;
      injection H as <- <-; (split; [left; reflexivity|reflexivity]).
  - unfold open_write in H. rewrite L in H. pose proof L as L'. apply path_spec in L'; [|discriminate]. destruct L' as (k & ds & Lk & L').
    exists k, ds. split; [exact Lk|]. left. exists (Entry d x j). split; [exact L'|].
    destruct (nth_error F j) as [n|]; [|discriminate]. destruct (n_kind n); try discriminate; destruct (may 1 u n); try discriminate;
      injection H as <- <-; (split; [right; eauto|reflexivity]).
  - assert (open_write umask u true true F path = Some (F', i)) as H' by (unfold open_write in *; rewrite L in *; exact H).
    apply open_write_spec in H'. destruct H' as (k & ds & Lk & [(p & A & Re & _)|(d' & x' & A & B & C)]).
    + exfalso. assert (locate u F path true = p) as Q by (apply path_spec; [exact (leads_somewhere _ _ _ _ _ _ _ A)|eauto]).
      rewrite L in Q. destruct Re as [->|(? & ? & ->)]; discriminate.
    + exists k, ds. split; [exact Lk|]. right. eauto.
  - unfold open_write in H. rewrite L in H. discriminate.
Qed.
