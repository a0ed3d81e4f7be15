(** What programs can do to names. *)
From Coq Require Import ZArith Bool List Ascii String Lia.
From Verif.Base Require Import CInt CStr.
From Verif.Model Require Import Config Runner Seccomp Child Names.
From Verif.Spec Require Import RunSpec Syscalls SandboxSpec NamesSpec.
From Verif.Proofs Require Import ChildClaims NamesProofs.
Import ListNotations.
Open Scope list_scope.
Open Scope Z_scope.

Local Opaque walk locate open_write.

(** ** The openings of the child *)
Fixpoint open_steps (umask : Z) (u : who) (F : fs) (l : list sstep) : option fs :=
  match l with
  | [] => Some F
  | SOpen p MRead :: l => match locate u F p true with At _ | Entry _ _ _ => open_steps umask u F l | _ => None end
  | SOpen p _ :: l => match open_write umask u true true F p with Some (F', _) => open_steps umask u F' l | None => None end
  | _ :: l => open_steps umask u F l
  end.
Lemma openings_steps umask u tr : forall F, openings umask u F tr = open_steps umask u F (flat_map performed tr).
Proof.
  induction tr as [|ev tr IH]; intros F; [reflexivity|].
  destruct ev as [| id p m | | | | | | | |]; cbn; try apply IH.
  destruct m; cbn; try (destruct (open_write umask u true true F p) as [[F' i]|]; [apply IH|reflexivity]).
  destruct (locate u F p true); try reflexivity; apply IH.
Qed.
Lemma open_steps_app umask u l : forall F l', open_steps umask u F (l ++ l') =
  match open_steps umask u F l with Some F' => open_steps umask u F' l' | None => None end.
Proof.
  induction l as [|s l IH]; intros F l'; [reflexivity|]. destruct s as [|p m| | | | | |]; cbn; try apply IH.
  destruct m; try (destruct (open_write umask u true true F p) as [[F' i]|]; [apply IH|reflexivity]).
  destruct (locate u F p true); try reflexivity; apply IH.
Qed.
Lemma open_steps_none umask u l : (forall p m, ~ In (SOpen p m) l) -> forall F, open_steps umask u F l = Some F.
Proof.
  induction l as [|s l IH]; intros N F; [reflexivity|].
  destruct s as [|p m| | | | | |]; cbn; try (apply IH; intros p' m' I; apply (N p' m'); right; exact I).
  exfalso. apply (N p m). left. reflexivity.
Qed.

Lemma judge_opens umask u env log c k0 path a v k F F' :
  ready c k0 -> child_process env log c k0 = CExec path a v k -> openings umask u F (k_trace k) = Some F' ->
  exists F1,
    match output_path c with Some q => exists i, opened_w umask u q F F1 i | None => F1 = F end /\
    match error_path c with
    | Some q => if match output_path c with Some o => str_eqb o q | None => false end then F' = F1 else exists i, opened_w umask u q F1 F' i
    | None => F' = F1
    end.
Proof.
  intros R E H. destruct (c13_complete_sandbox _ _ _ _ _ _ _ _ R E) as (_ & _ & _ & Sc).
  rewrite openings_steps, Sc in H. unfold sandbox_script in H.
  rewrite open_steps_app, open_steps_none in H.
  2:{ intros p m I. unfold limit_steps in I. apply in_flat_map in I. destruct I as (r & _ & I). destruct (wanted_limit c r); cbn in I; intuition discriminate. }
  rewrite open_steps_app in H.
  assert (open_steps umask u F (input_steps c) = Some F) as Inp.
  { unfold input_steps in *. destruct (input_path c) as [p|]; [|reflexivity]. cbn in *. destruct (locate u F p true); try reflexivity; discriminate. }
  rewrite Inp, open_steps_app in H.
  destruct (open_steps umask u F (output_steps c)) as [F1|] eqn:O; [|discriminate].
  rewrite open_steps_app in H. destruct (open_steps umask u F1 (error_steps c)) as [F2|] eqn:Er; [|discriminate].
  rewrite open_steps_none in H.
  2:{ intros p m I. unfold id_steps, filter_steps in I. rewrite !in_app_iff in I.
      repeat match type of I with context[if ?b then _ else _] => destruct b end;
      destruct (seccomp_rule_name c); cbn in I; intuition discriminate. }
  injection H as <-. exists F1. split.
  - unfold output_steps in O. destruct (output_path c) as [q|]; cbn in O; [|congruence].
    destruct (open_write umask u true true F q) as [[G i]|] eqn:W; [|discriminate]. injection O as <-. exists i. apply open_write_spec. exact W.
  - unfold error_steps in Er. destruct (error_path c) as [q|]; cbn in Er; [|congruence].
    destruct (output_path c) as [o|].
    + destruct (str_eqb o q); cbn in Er; [congruence|].
      destruct (open_write umask u true true F1 q) as [[G i]|] eqn:W; [|discriminate]. injection Er as <-. exists i. apply open_write_spec. exact W.
    + cbn in Er. destruct (open_write umask u true true F1 q) as [[G i]|] eqn:W; [|discriminate]. injection Er as <-. exists i. apply open_write_spec. exact W.
Qed.

(** ** Whose objects change *)
Definition is_file (n : node) : Prop := exists data, n_kind n = IsFile data.
(** The same sort of object with the same owner; links point where they did. *)
Definition like (n n' : node) : Prop :=
  n_uid n' = n_uid n /\
  match n_kind n, n_kind n' with
  | IsFile _, IsFile _ | IsDir _ _, IsDir _ _ | IsOther, IsOther => True
  | IsLink t, IsLink t' => t' = t
  | _, _ => False
  end.
Lemma like_refl n : like n n.
Proof. split; [reflexivity|]. destruct (n_kind n); auto. Qed.
Lemma like_trans a b c : like a b -> like b c -> like a c.
Proof. intros [A B] [C D]. split; [congruence|]. destruct (n_kind a), (n_kind b), (n_kind c); try contradiction; auto; congruence. Qed.
Lemma like_file a b : like a b -> is_file b -> is_file a.
Proof. intros [_ B] (d & D). rewrite D in B. unfold is_file. destruct (n_kind a) as [x| | |]; try contradiction. exists x. reflexivity. Qed.

Definition may_change (u : who) (held : list nat) (i : nat) (n : node) : Prop :=
  may 1 u n = true \/ w_uid u = n_uid n \/ (In i held /\ is_file n).
Definition changes (u : who) (held : list nat) (F F' : fs) : Prop :=
  forall i n, nth_error F i = Some n -> exists n', nth_error F' i = Some n' /\ like n n' /\ (n' = n \/ may_change u held i n).

Lemma changes_refl u held F : changes u held F F.
Proof. intros i n H. exists n. split; [exact H|]. split; [apply like_refl|auto]. Qed.
Lemma changes_trans u held F G H : changes u held F G -> changes u held G H -> changes u held F H.
Proof.
  intros A B i n N. destruct (A i n N) as (m & M1 & M2 & M3). destruct (B i m M1) as (o & O1 & O2 & O3).
  exists o. split; [exact O1|]. split; [exact (like_trans _ _ _ M2 O2)|].
  destruct M3 as [->|M3]; [exact O3|right; exact M3].
Qed.
Lemma changes_app u held F l : changes u held F (F ++ l).
Proof.
  intros i n N. exists n. split; [rewrite nth_error_app1; [exact N|apply nth_error_Some; congruence]|]. split; [apply like_refl|auto].
Qed.
Lemma changes_upd u held F i n n' : nth_error F i = Some n -> like n n' -> may_change u held i n -> changes u held F (upd F i n').
Proof.
  intros N L M j m J. destruct (Nat.eq_dec j i) as [->|Ne].
  - assert (m = n) as -> by congruence. exists n'. split; [exact (upd_same _ _ _ _ N)|]. auto.
  - exists m. split; [rewrite upd_other by exact Ne; exact J|]. split; [apply like_refl|auto].
Qed.
Lemma changes_in_dir u held F d f F' : in_dir u F d f = Some F' -> changes u held F F'.
Proof.
  intros H. apply in_dir_inv in H. destruct H as (n & up & l & A & B & C & ->).
  apply changes_upd with n; [exact A| |left; exact C]. split; [reflexivity|]. rewrite B. exact I.
Qed.
Lemma changes_make u held F d x k mode F' : make u F d x k mode = Some F' -> changes u held F F'.
Proof.
  unfold make. destruct (in_dir u F d (add x (List.length F))) as [F1|] eqn:D; [|discriminate]. intros H. injection H as <-.
  eapply changes_trans; [exact (changes_in_dir _ _ _ _ _ _ D)|apply changes_app].
Qed.
Lemma make_length u F d x k mode F' : make u F d x k mode = Some F' -> List.length F' = S (List.length F).
Proof.
  unfold make. destruct (in_dir u F d (add x (List.length F))) as [F1|] eqn:D; [|discriminate]. intros H. injection H as <-.
  apply in_dir_inv in D. destruct D as (n & up & l & _ & _ & _ & ->). rewrite app_length, upd_length. cbn. lia.
Qed.

Lemma changes_open umask u held create trunc F p F' i : open_write umask u create trunc F p = Some (F', i) ->
  changes u held F F' /\ (forall n, nth_error F i = Some n -> may 1 u n = true).
Proof.
  Local Transparent open_write. unfold open_write. intros H. Local Opaque open_write.
  assert (forall j, match nth_error F j with
      | Some n =>
          match n_kind n with
          | IsFile data => if may 1 u n then Some (if trunc then upd F j (with_kind n (IsFile [])) else F, j) else None
          | IsOther => if may 1 u n then Some (F, j) else None
          | _ => None
          end
      | None => None
      end = Some (F', i) -> changes u held F F' /\ (forall n, nth_error F i = Some n -> may 1 u n = true)) as Ex.
  { intros j Q. destruct (nth_error F j) as [n|] eqn:Nj; [|discriminate]. destruct (n_kind n) eqn:K; try discriminate.
    - destruct (may 1 u n) eqn:My; [|discriminate]. injection Q as <- <-. split; [|intros; congruence].
      destruct trunc; [|apply changes_refl]. apply changes_upd with n; [exact Nj| |left; exact My]. split; [reflexivity|]. rewrite K. exact I.
    - destruct (may 1 u n) eqn:My; [|discriminate]. injection Q as <- <-. split; [apply changes_refl|intros; congruence]. }
  destruct (locate u F p true) as [j|d x j|d x|]; [eauto|eauto| |discriminate].
  destruct create; [|discriminate]. destruct (make u F d x (IsFile []) _) as [F1|] eqn:M; [|discriminate]. injection H as <- <-.
  split; [exact (changes_make _ _ _ _ _ _ _ _ M)|]. intros n N. exfalso.
  assert (List.length F < List.length F)%nat; [|lia]. apply nth_error_Some. congruence.
Qed.

Lemma object_inv u F p i n : object u F p = Some (i, n) -> nth_error F i = Some n.
Proof.
  unfold object. destruct (locate u F p true) as [j|d x j|d x|]; try discriminate;
    destruct (nth_error F j) eqn:E; try discriminate; congruence.
Qed.

(** One call of a program. *)
Lemma does_changes umask u F held a F' held' : does umask u (F, held) a = Some (F', held') ->
  changes u held F F' /\ (forall i n, In i held' -> nth_error F i = Some n -> In i held \/ may 1 u n = true).
Proof.
  destruct a as [p create trunc|i data|t p|old new|p mode|p|old new|p mode|p g]; cbn [does]; intros H.
  - destruct (open_write umask u create trunc F p) as [[F1 i]|] eqn:O; [|discriminate]. injection H as <- <-.
    destruct (changes_open _ _ held _ _ _ _ _ _ O) as [A B]. split; [exact A|]. intros j n [<-|I] N; eauto.
  - destruct (existsb (Nat.eqb i) held) eqn:Ex; [|discriminate]. destruct (nth_error F i) as [n|] eqn:N; [|discriminate].
    destruct (n_kind n) eqn:K; try discriminate. injection H as <- <-. split; [|eauto].
    apply changes_upd with n; [exact N| |].
    + split; [reflexivity|]. rewrite K. exact I.
    + right. right. split; [|exists data0; exact K]. apply existsb_exists in Ex. destruct Ex as (j & J & Q). apply Nat.eqb_eq in Q. congruence.
  - destruct (locate u F p false); try discriminate. destruct (make u F d x (IsLink t) 511) as [F1|] eqn:M; [|discriminate].
    injection H as <- <-. split; [exact (changes_make _ _ _ _ _ _ _ _ M)|eauto].
  - destruct (locate u F old false); try discriminate. destruct (locate u F new false); try discriminate.
    destruct (nth_error F i) as [n|]; [|discriminate].
    assert (forall F1, in_dir u F d0 (add x0 i) = Some F1 -> changes u held F F1) as D by (intros F1; apply changes_in_dir).
    destruct (in_dir u F d0 (add x0 i)) as [F1|]; destruct (n_kind n); try discriminate; injection H as <- <-; split; eauto.
  - destruct (locate u F p false); try discriminate. destruct (make u F d x _ _) as [F1|] eqn:M; [|discriminate].
    injection H as <- <-. split; [exact (changes_make _ _ _ _ _ _ _ _ M)|eauto].
  - destruct (locate u F p false); try discriminate. destruct (_ && _); [|discriminate].
    destruct (in_dir u F d (drop x)) as [F1|] eqn:D; [|discriminate]. injection H as <- <-. split; [exact (changes_in_dir _ _ _ _ _ _ D)|eauto].
  - destruct (locate u F old false) as [|d x i| |]; try discriminate.
    destruct (match locate u F new false with Free d' x' => _ | _ => _ end) as [[d' x']|]; [|discriminate].
    destruct (may_remove u F d i); [|discriminate].
    destruct (in_dir u F d (drop x)) as [F1|] eqn:D1; [|discriminate].
    destruct (in_dir u F1 d' (fun l => add x' i (drop x' l))) as [F2|] eqn:D2; [|discriminate].
    assert (changes u held F F2) as C2 by (eapply changes_trans; [exact (changes_in_dir _ _ _ _ _ _ D1)|exact (changes_in_dir _ _ _ _ _ _ D2)]).
    destruct (nth_error F2 i) as [n|] eqn:N2; [|discriminate].
    destruct (n_kind n) eqn:K; try (injection H as <- <-; split; eauto; fail).
    destruct (Nat.eqb d d'); [injection H as <- <-; split; eauto|].
    destruct (may 1 u n) eqn:My; [|discriminate]. injection H as <- <-. split; [|eauto].
    eapply changes_trans; [exact C2|]. apply changes_upd with n; [exact N2| |left; exact My]. split; [reflexivity|]. rewrite K. exact I.
  - destruct (object u F p) as [[i n]|] eqn:O; [|discriminate]. apply object_inv in O.
    destruct ((w_uid u =? 0) || (w_uid u =? n_uid n)) eqn:W; [|discriminate]. injection H as <- <-. split; [|eauto].
    apply changes_upd with n; [exact O|split; [reflexivity|cbn; destruct (n_kind n); auto]|].
    apply orb_prop in W. destruct W as [W|W]; [left; unfold may; rewrite W; reflexivity|right; left; lia].
  - destruct (object u F p) as [[i n]|] eqn:O; [|discriminate]. apply object_inv in O.
    destruct ((w_uid u =? 0) || _) eqn:W; [|discriminate]. injection H as <- <-. split; [|eauto].
    apply changes_upd with n; [exact O|split; [reflexivity|cbn; destruct (n_kind n); auto]|].
    apply orb_prop in W. destruct W as [W|W]; [left; unfold may; rewrite W; reflexivity|].
    apply andb_prop in W. right; left; lia.
Qed.

(** All calls of a program. *)
Lemma performs_like umask u l : forall F held F' held', performs umask u (F, held) l = (F', held') ->
  forall i n, nth_error F i = Some n -> exists n', nth_error F' i = Some n' /\ like n n'.
Proof.
  induction l as [|a l IH]; intros F held F' held' H i n N; cbn in H.
  - injection H as <- <-. exists n. split; [exact N|apply like_refl].
  - unfold perform in H. destruct (does umask u (F, held) a) as [[F1 h1]|] eqn:D.
    + destruct (does_changes _ _ _ _ _ _ _ D) as [C _]. destruct (C i n N) as (m & M1 & M2 & _).
      destruct (IH F1 h1 F' held' H i m M1) as (n' & A & B). exists n'. split; [exact A|exact (like_trans _ _ _ M2 B)].
    + apply (IH F held F' held' H i n N).
Qed.
Lemma performs_shut umask u l : forall F held F' held', performs umask u (F, held) l = (F', held') ->
  forall i n, nth_error F i = Some n -> shut u n -> (In i held -> ~ is_file n) ->
  nth_error F' i = Some n /\ (In i held' -> ~ is_file n).
Proof.
  induction l as [|a l IH]; intros F held F' held' H i n N S Nf; cbn in H.
  - injection H as <- <-. auto.
  - unfold perform in H. destruct (does umask u (F, held) a) as [[F1 h1]|] eqn:D; [|apply (IH F held F' held' H i n N S Nf)].
    destruct (does_changes _ _ _ _ _ _ _ D) as [C Hd]. destruct (C i n N) as (m & M1 & M2 & M3).
    destruct S as [S1 S2].
    assert (m = n) as ->.
    { destruct M3 as [M3|[M3|[M3|[M3 M4]]]]; [exact M3|exfalso; apply S1; apply may_right; exact M3|contradiction|exfalso; exact (Nf M3 M4)]. }
    apply (IH F1 h1 F' held' H i n M1 (conj S1 S2)). intros I1.
    destruct (Hd i n I1 N) as [A|A]; [exact (Nf A)|]. exfalso. apply S1. apply may_right. exact A.
Qed.

(** A path by way of directories that are shut leads where it did. *)
Lemma leads_kept umask u v F held l F' held' : performs umask u (F, held) l = (F', held') ->
  forall k d names ds p, leads v F k d names ds p -> all_shut u F ds -> leads v F' k d names ds p.
Proof.
  intros H.
  assert (forall d up e, searches v F d up e -> (forall n, nth_error F d = Some n -> shut u n) -> searches v F' d up e) as Se.
  { intros d up e (n & A & B & C) S. exists n. split; [|auto].
    apply (performs_shut _ _ _ _ _ _ _ H d n A (S n A)). intros _ (x & X). congruence. }
  assert (forall i, no_link F i -> no_link F' i) as No.
  { intros i (n & A & B). destruct (performs_like _ _ _ _ _ _ _ H i n A) as (n' & N' & [_ L]). exists n'. split; [exact N'|].
    intros t T. rewrite T in L. destruct (n_kind n) eqn:K; try contradiction. apply (B to). reflexivity. }
  assert (forall i t, a_link F i t -> a_link F' i t) as Li.
  { intros i t (n & A & B). destruct (performs_like _ _ _ _ _ _ _ H i n A) as (n' & N' & [_ L]). exists n'. split; [exact N'|].
    rewrite B in L. destruct (n_kind n'); try contradiction. congruence. }
  induction 1; intros S.
  - constructor.
  - eapply leads_same; [eapply Se; [eassumption|intros; eapply S; [left; reflexivity|assumption]]|].
    apply IHleads. intros d' n' I'. apply S. right. exact I'.
  - eapply leads_up; [eapply Se; [eassumption|intros; eapply S; [left; reflexivity|assumption]]|].
    apply IHleads. intros d' n' I'. apply S. right. exact I'.
  - eapply leads_free; try eassumption. eapply Se; [eassumption|intros; eapply S; [left; reflexivity|assumption]].
  - eapply leads_entry; try eassumption; [|apply No; assumption]. eapply Se; [eassumption|intros; eapply S; [left; reflexivity|assumption]].
  - eapply leads_into; try eassumption; [|apply No; assumption|].
    + eapply Se; [eassumption|intros; eapply S; [left; reflexivity|assumption]].
    + apply IHleads. intros d' n' I'. apply S. right. exact I'.
  - eapply leads_link; try eassumption; [|apply Li; eassumption|].
    + eapply Se; [eassumption|intros; eapply S; [left; reflexivity|assumption]].
    + apply IHleads. intros d' n' I'. apply S. right. exact I'.
Qed.

Lemma leads_dirs v F k d names ds p : leads v F k d names ds p -> forall x, In x ds -> exists n up l, nth_error F x = Some n /\ n_kind n = IsDir up l.
Proof.
  assert (forall d up e, searches v F d up e -> exists n up l, nth_error F d = Some n /\ n_kind n = IsDir up l) as S.
  { intros d' up e (n & A & B & _). exists n, up, e. auto. }
  induction 1; intros z I; cbn in I; try contradiction; destruct I as [<-|I]; eauto; contradiction.
Qed.

Lemma path_kept umask u v F held l F' held' path k ds p : performs umask u (F, held) l = (F', held') ->
  path_leads v F path k ds p -> all_shut u F ds -> path_leads v F' path k ds p /\ all_shut u F' ds.
Proof.
  intros H L S. split; [exact (leads_kept _ _ _ _ _ _ _ _ H _ _ _ _ _ L S)|].
  intros d n I N. destruct (leads_dirs _ _ _ _ _ _ _ L d I) as (m & up & e & A & B).
  destruct (performs_shut _ _ _ _ _ _ _ H d m A (S d m I A)) as [X _]; [intros _ (z & Z); congruence|].
  assert (n = m) as -> by congruence. exact (S d m I A).
Qed.

Lemma file_kept umask u F held l F' held' i n : performs umask u (F, held) l = (F', held') ->
  nth_error F i = Some n -> shut u n -> ~ In i held -> untouched i F F'.
Proof.
  intros H N S I. unfold untouched. rewrite N. apply (performs_shut _ _ _ _ _ _ _ H i n N S). intros X. contradiction.
Qed.

(** ** More names *)
Definition extends (F F' : fs) : Prop :=
  forall i n, nth_error F i = Some n -> exists n', nth_error F' i = Some n' /\
    n_uid n' = n_uid n /\ n_gid n' = n_gid n /\ n_mode n' = n_mode n /\
    match n_kind n, n_kind n' with
    | IsFile _, IsFile _ | IsOther, IsOther => True
    | IsDir up l, IsDir up' l' => up' = up /\ forall x j, entry x l = Some j -> entry x l' = Some j
    | IsLink t, IsLink t' => t' = t
    | _, _ => False
    end.
Lemma extends_refl F : extends F F.
Proof. intros i n N. exists n. repeat split; try exact N. destruct (n_kind n); auto. Qed.
Lemma extends_trans F G H : extends F G -> extends G H -> extends F H.
Proof.
  intros A B i n N. destruct (A i n N) as (m & M1 & M2 & M3 & M4 & M5). destruct (B i m M1) as (o & O1 & O2 & O3 & O4 & O5).
  exists o. split; [exact O1|]. split; [congruence|]. split; [congruence|]. split; [congruence|].
  destruct (n_kind n), (n_kind m), (n_kind o); try contradiction; auto; try congruence.
  destruct M5 as [-> M5], O5 as [-> O5]. auto.
Qed.
Lemma extends_app F l : extends F (F ++ l).
Proof.
  intros i n N. exists n. split; [rewrite nth_error_app1; [exact N|apply nth_error_Some; congruence]|]. repeat split. destruct (n_kind n); auto.
Qed.
Lemma entry_app x l y i : entry x (l ++ [(y, i)]) = match entry x l with Some j => Some j | None => if str_eqb x y then Some i else None end.
Proof. induction l as [|[z j] l IH]; cbn; [reflexivity|]. destruct (str_eqb x z); [reflexivity|exact IH]. Qed.
Lemma extends_add u F d x i F' : in_dir u F d (add x i) = Some F' -> extends F F'.
Proof.
  intros H. apply in_dir_inv in H. destruct H as (n & up & l & A & B & C & ->). intros j m J.
  destruct (Nat.eq_dec j d) as [->|Ne].
  - assert (m = n) as -> by congruence. eexists. split; [exact (upd_same _ _ _ _ A)|]. repeat split. cbn. rewrite B. split; [reflexivity|].
    intros y k Ey. unfold add. rewrite entry_app, Ey. reflexivity.
  - exists m. split; [rewrite upd_other by exact Ne; exact J|]. repeat split. destruct (n_kind m); auto.
Qed.
Lemma extends_make u F d x k mode F' : make u F d x k mode = Some F' -> extends F F'.
Proof.
  unfold make. destruct (in_dir u F d (add x (List.length F))) as [F1|] eqn:D; [|discriminate]. intros H. injection H as <-.
  eapply extends_trans; [exact (extends_add _ _ _ _ _ _ D)|apply extends_app].
Qed.
Lemma extends_store F i n a b : nth_error F i = Some n -> n_kind n = IsFile a -> extends F (upd F i (with_kind n (IsFile b))).
Proof.
  intros N K j m J. destruct (Nat.eq_dec j i) as [->|Ne].
  - assert (m = n) as -> by congruence. eexists. split; [exact (upd_same _ _ _ _ N)|]. repeat split. cbn. rewrite K. exact I.
  - exists m. split; [rewrite upd_other by exact Ne; exact J|]. repeat split. destruct (n_kind m); auto.
Qed.
Lemma extends_open umask u create trunc F p F' i : open_write umask u create trunc F p = Some (F', i) -> extends F F'.
Proof.
  Local Transparent open_write. unfold open_write. intros H. Local Opaque open_write.
  assert (forall j, match nth_error F j with
      | Some n =>
          match n_kind n with
          | IsFile data => if may 1 u n then Some (if trunc then upd F j (with_kind n (IsFile [])) else F, j) else None
          | IsOther => if may 1 u n then Some (F, j) else None
          | _ => None
          end
      | None => None
      end = Some (F', i) -> extends F F') as Ex.
  { intros j Q. destruct (nth_error F j) as [n|] eqn:Nj; [|discriminate]. destruct (n_kind n) eqn:K; try discriminate.
    - destruct (may 1 u n); [|discriminate]. injection Q as <- <-. destruct trunc; [|apply extends_refl]. eapply extends_store; eassumption.
    - destruct (may 1 u n); [|discriminate]. injection Q as <- <-. apply extends_refl. }
  destruct (locate u F p true) as [j|d x j|d x|]; [eauto|eauto| |discriminate].
  destruct create; [|discriminate]. destruct (make u F d x (IsFile []) _) as [F1|] eqn:M; [|discriminate]. injection H as <- <-.
  exact (extends_make _ _ _ _ _ _ _ M).
Qed.
Lemma extends_performs umask u l : only_opens l -> forall F held F' held', performs umask u (F, held) l = (F', held') -> extends F F'.
Proof.
  induction l as [|a l IH]; intros O F held F' held' H; cbn in H; [injection H as <- <-; apply extends_refl|].
  assert (only_opens l) as Ol by (intros b B; apply O; right; exact B).
  unfold perform in H. destruct (does umask u (F, held) a) as [[F1 h1]|] eqn:D; [|exact (IH Ol _ _ _ _ H)].
  eapply extends_trans; [|exact (IH Ol _ _ _ _ H)].
  destruct (O a (or_introl eq_refl)) as [(p & c & t & ->)|(i & data & ->)]; cbn [does] in D.
  - destruct (open_write umask u c t F p) as [[F2 i]|] eqn:W; [|discriminate]. injection D as <- <-. exact (extends_open _ _ _ _ _ _ _ _ W).
  - destruct (existsb _ _); [|discriminate]. destruct (nth_error F i) as [n|] eqn:N; [|discriminate].
    destruct (n_kind n) eqn:K; try discriminate. injection D as <- <-. eapply extends_store; eassumption.
Qed.

Lemma right_same bit u n n' : n_uid n' = n_uid n -> n_gid n' = n_gid n -> n_mode n' = n_mode n -> has_right bit u n -> has_right bit u n'.
Proof. intros A B C H. apply may_right in H. apply may_right. unfold may in *. rewrite A, B, C. exact H. Qed.
Lemma searches_more u F F' d up l : extends F F' -> searches u F d up l ->
  exists l', searches u F' d up l' /\ forall x j, entry x l = Some j -> entry x l' = Some j.
Proof.
  intros X (n & A & B & C). destruct (X d n A) as (n' & N1 & N2 & N3 & N4 & N5). rewrite B in N5.
  destruct (n_kind n') as [|up' l'| |] eqn:K; try contradiction. destruct N5 as [-> N5]. exists l'. split; [|exact N5].
  exists n'. split; [exact N1|]. split; [exact K|]. eapply right_same; eassumption.
Qed.
Lemma no_link_more F F' i : extends F F' -> no_link F i -> no_link F' i.
Proof.
  intros X (n & A & B). destruct (X i n A) as (n' & N1 & _ & _ & _ & N5). exists n'. split; [exact N1|].
  intros t T. rewrite T in N5. destruct (n_kind n) eqn:K; try contradiction. apply (B to). reflexivity.
Qed.
Lemma a_link_more F F' i t : extends F F' -> a_link F i t -> a_link F' i t.
Proof.
  intros X (n & A & B). destruct (X i n A) as (n' & N1 & _ & _ & _ & N5). exists n'. split; [exact N1|].
  rewrite B in N5. destruct (n_kind n'); try contradiction. congruence.
Qed.

Lemma leads_more u F F' k d l ds p : extends F F' -> leads u F k d l ds p -> (forall e x, p <> Free e x) -> leads u F' k d l ds p.
Proof.
  intros X. induction 1; intros N.
  - constructor.
  - destruct (searches_more _ _ _ _ _ _ X H) as (l' & S & _). eapply leads_same; eauto.
  - destruct (searches_more _ _ _ _ _ _ X H) as (l' & S & _). eapply leads_up; eauto.
  - exfalso. exact (N d x eq_refl).
  - destruct (searches_more _ _ _ _ _ _ X H) as (l' & S & M). eapply leads_entry; eauto. eapply no_link_more; eauto.
  - destruct (searches_more _ _ _ _ _ _ X H) as (l' & S & M). eapply leads_into; eauto. eapply no_link_more; eauto.
  - destruct (searches_more _ _ _ _ _ _ X H) as (l' & S & M). eapply leads_link; eauto. eapply a_link_more; eauto.
Qed.

(** A name that was free and is now a link. *)
Lemma leads_linked u F F' k d l ds e x up es j t k2 ds2 q : extends F F' -> leads u F k d l ds (Free e x) ->
  searches u F' e up es -> entry x es = Some j -> a_link F' j t ->
  leads u F' k2 (if absolute t then 0%nat else e) (components t) ds2 q ->
  leads u F' (S (k + k2)) d l (ds ++ ds2) q.
Proof.
  intros X L Se En Al L2. remember (Free e x) as p eqn:Ep. revert Ep. induction L; intros Ep; try discriminate.
  - destruct (searches_more _ _ _ _ _ _ X H) as (l' & S & _). eapply leads_same; eauto.
  - destruct (searches_more _ _ _ _ _ _ X H) as (l' & S & _). eapply leads_up; eauto.
  - injection Ep as -> ->. eapply leads_link; try eassumption. rewrite app_nil_r. exact L2.
  - destruct (searches_more _ _ _ _ _ _ X H) as (l' & S & M). eapply leads_into; eauto. eapply no_link_more; eauto.
  - destruct (searches_more _ _ _ _ _ _ X H) as (l' & S & M). eapply leads_link; eauto. eapply a_link_more; eauto.
Qed.

(** One symbolic link is enough to have any file emptied. *)
Lemma any_file umask umask' u judge F held q v d x i n data k1 ds1 k2 ds2 d2 x2 nd up l :
  w_uid judge = 0 -> locate u F q false = Free d x -> nth_error F d = Some nd -> n_kind nd = IsDir up l -> has_right 1 u nd ->
  path_leads judge F q k1 ds1 (Free d x) -> absolute v = true -> path_leads judge F v k2 ds2 (Entry d2 x2 i) ->
  (k1 + k2 < 40)%nat -> nth_error F i = Some n -> n_kind n = IsFile data ->
  exists F1 F2, performs umask u (F, held) [ASymlink v q] = (F1, held) /\ nth_error F1 i = Some n /\
    open_write umask' judge true true F1 q = Some (F2, i) /\ emptied i F1 F2.
Proof.
  intros Rt Lu Nd Kd Wr Lq Av Lv Lk Ni Kn. apply may_right in Wr.
  set (F0 := upd F d (with_kind nd (IsDir up (add x (List.length F) l)))).
  set (F1 := F0 ++ [mkNode (IsLink v) (w_uid u) (hd 0 (w_gids u)) 511]).
  assert (make u F d x (IsLink v) 511 = Some F1) as M.
  { unfold make, in_dir. rewrite Nd, Kd, Wr. reflexivity. }
  assert (d < List.length F)%nat as Ld by (apply nth_error_Some; congruence).
  assert (List.length F0 = List.length F) as L0 by apply upd_length.
  assert (nth_error F1 d = Some (with_kind nd (IsDir up (add x (List.length F) l)))) as Nd1.
  { unfold F1. rewrite nth_error_app1 by lia. unfold F0. rewrite (upd_same _ _ _ _ Nd). reflexivity. }
  assert (nth_error F1 i = Some n) as Ni1.
  { unfold F1. rewrite nth_error_app1 by (rewrite L0; apply nth_error_Some; congruence). unfold F0.
    rewrite upd_other; [exact Ni|]. intros ->. congruence. }
  assert (extends F F1) as X by exact (extends_make _ _ _ _ _ _ _ M).
  destruct (locate_free _ _ _ _ _ _ Lu) as (n0 & up0 & l0 & Z1 & Z2 & Z3).
  assert (entry x l = None) as Ex by congruence.
  assert (path_leads judge F1 q (S (k1 + k2)) (ds1 ++ ds2) (Entry d2 x2 i)) as L1.
  { unfold path_leads. eapply leads_linked with (j := List.length F) (t := v); [exact X|exact Lq| | | |].
    - exists (with_kind nd (IsDir up (add x (List.length F) l))). split; [exact Nd1|]. split; [reflexivity|]. apply by_root. exact Rt.
    - unfold add. rewrite entry_app, Ex, str_eqb_refl. reflexivity.
    - eexists. split; [unfold F1; rewrite nth_error_app2 by lia; rewrite L0, Nat.sub_diag; reflexivity|reflexivity].
    - unfold path_leads, origin_of in Lv. rewrite Av in Lv |- *. eapply leads_more; [exact X|exact Lv|discriminate]. }
  assert (locate judge F1 q true = Entry d2 x2 i) as Lo.
  { apply path_spec; [discriminate|]. exists (S (k1 + k2)), (ds1 ++ ds2). split; [lia|exact L1]. }
  exists F1, (upd F1 i (with_kind n (IsFile []))).
  assert (open_write umask' judge true true F1 q = Some (upd F1 i (with_kind n (IsFile [])), i)) as W.
  { Local Transparent open_write. unfold open_write. rewrite Lo, Ni1, Kn. assert (may 1 judge n = true) as -> by (apply may_right; apply by_root; exact Rt). reflexivity. }
  split; [|split; [exact Ni1|split; [exact W|]]].
  - cbn. unfold perform. cbn [does]. rewrite Lu, M. reflexivity.
  - split; [split; [apply upd_length|intros j J; apply upd_other; exact J]|].
    exists n, data. split; [exact Ni1|]. split; [exact Kn|]. exact (upd_same _ _ _ _ Ni1).
Qed.

(** What the judger opened stays as it is. *)
Lemma opened_kept umask judge q F F' i u l umask' held' F2 held2 :
  w_uid judge = 0 -> w_uid u <> 0 -> Z.testbit umask 1 = true -> Z.testbit umask 4 = true ->
  opened_w umask judge q F F' i -> (forall n, nth_error F i = Some n -> shut u n) -> ~ In i held' ->
  performs umask' u (F', held') l = (F2, held2) -> untouched i F' F2.
Proof.
  intros Rt Nu U1 U4 O S Nh H.
  assert (exists n, nth_error F' i = Some n /\ shut u n) as (n & N & Sn).
  { destruct O as (k & ds & _ & [(p & _ & _ & [[_ (n & data & A & B & C)]|[(n & A & B) ->]])|(d & x & _ & (n & up & e & g & A & B & C & D & E & _) & ->)]).
    - eexists. split; [exact C|]. destruct (S n A) as [S1 S2]. split; [|exact S2]. intros R. apply S1. eapply right_same; [| | |exact R]; reflexivity.
    - exists n. split; [exact A|exact (S n A)].
    - eexists. split; [exact E|]. split; [|cbn; rewrite Rt; exact Nu].
      intros R. apply may_right in R. unfold may in R. cbn [n_uid n_gid n_mode] in R.
      rewrite (proj2 (Z.eqb_neq (w_uid u) 0) Nu) in R. rewrite Rt, (proj2 (Z.eqb_neq (w_uid u) 0) Nu) in R. cbn [orb] in R.
      change (3 + 1) with 4 in R. rewrite !Z.land_spec, !Z.lnot_spec, U1, U4 in R by lia. cbn [negb] in R.
      rewrite !andb_false_r in R. destruct (existsb _ _) in R; discriminate. }
  exact (file_kept _ _ _ _ _ _ _ _ _ H N Sn Nh).
Qed.

(** ** Which rules let programs change names *)
Section Rules.
Variable (env : child_env) (log : option stream) (c : config) (k0 : kstate) (path : str) (a v : list cell) (k : kstate).
Hypothesis R : ready c k0.
Hypothesis E : child_process env log c k0 = CExec path a v k.
Variable (sc : syscall).
Hypothesis I : In (sc_name sc) name_calls.

Lemma name_flags : open_flags sc = None.
Proof. unfold open_flags. pose proof I as J. cbn in J. repeat destruct J as [<- | J]; try reflexivity. contradiction. Qed.
Lemma name_not nm : ~ In nm name_calls -> sc_name sc <> nm.
Proof. intros H <-. exact (H I). Qed.

Lemma names_killed : seccomp_rule_name c = Some (lit "c_cpp") \/ seccomp_rule_name c = Some (lit "c_cpp_file_io") ->
  filters_action (k_filter k) sc = ActKill.
Proof.
  intros [N|N].
  - apply (c24_c_cpp _ _ _ _ _ _ _ _ R E N). intros (_ & [H|[[H _]|(fl & H & _)]]).
    + revert H. pose proof I as J. cbn in J. repeat destruct J as [<- | J]; try contradiction; cbn; intuition discriminate.
    + revert H. apply name_not. cbn. intuition discriminate.
    + rewrite name_flags in H. discriminate.
  - apply (c24_c_cpp_file_io _ _ _ _ _ _ _ _ R E N). intros (_ & [H|[[H _]|H]]).
    + revert H. pose proof I as J. cbn in J. repeat destruct J as [<- | J]; try contradiction; cbn; intuition discriminate.
    + revert H. apply name_not. cbn. intuition discriminate.
    + revert H. pose proof I as J. cbn in J. repeat destruct J as [<- | J]; try contradiction; cbn; intuition discriminate.
Qed.

Lemma names_allowed : sc_native sc = true -> seccomp_rule_name c <> Some (lit "c_cpp") -> seccomp_rule_name c <> Some (lit "c_cpp_file_io") ->
  filters_action (k_filter k) sc = ActAllow.
Proof.
  intros Na N1 N2. destruct (c22_selection _ _ _ _ _ _ _ _ R E) as [Kn Nr].
  destruct (seccomp_rule_name c) as [nm|] eqn:N; [|apply Nr; reflexivity].
  assert (forall l, (forall x, In x l -> ~ In x name_calls) -> ~ In (sc_name sc) l) as Nin by (intros l H J; exact (H _ J I)).
  assert (nm = lit "general" \/ nm = lit "golang" \/ nm = lit "node") as Q.
  { unfold known_rule in Kn. cbn [In] in Kn. destruct Kn as [<-|[<-|[<-|[<-|[<-|[]]]]]]; auto; exfalso; [apply N1|apply N2]; reflexivity. }
  destruct Q as [->|[->| ->]].
  - apply (c26_general _ _ _ _ _ _ _ _ R E N). split; [|apply name_not; cbn; intuition discriminate].
    unfold general_kills, is_execveat. rewrite name_flags. intros [Y|[Y|[[_ Y]|[[Y _]|(fl & Y & _)]]]]; try congruence.
    + revert Y. apply Nin. intros x X. cbn in X |- *. intuition (subst; discriminate).
    + revert Y. apply name_not. cbn. intuition discriminate.
    + revert Y. apply name_not. cbn. intuition discriminate.
  - apply (c27_golang _ _ _ _ _ _ _ _ R E N). unfold golang_kills, is_execveat. rewrite name_flags. intros [Y|[Y|[[_ Y]|(fl & Y & _)]]]; try congruence.
    + revert Y. apply Nin. intros x X. cbn in X |- *. intuition (subst; discriminate).
    + revert Y. apply name_not. cbn. intuition discriminate.
  - apply (c27_node _ _ _ _ _ _ _ _ R E N). unfold node_kills, is_execveat. intros [Y|[Y|[_ Y]]]; try congruence.
    + revert Y. apply Nin. intros x X. cbn in X |- *. intuition (subst; discriminate).
    + revert Y. apply name_not. cbn. intuition discriminate.
Qed.
End Rules.

(** ** Many programs and many calls *)
Lemma shut_same u n n' : n_uid n' = n_uid n -> n_gid n' = n_gid n -> n_mode n' = n_mode n -> shut u n -> shut u n'.
Proof. intros A B C [S1 S2]. split; [|congruence]. intros R. apply S1. eapply right_same; [| | |exact R]; congruence. Qed.
Lemma all_shut_more u F F' ds v k d names p : extends F F' -> leads v F k d names ds p -> all_shut u F ds -> all_shut u F' ds.
Proof.
  intros X L S e n I N. destruct (leads_dirs _ _ _ _ _ _ _ L e I) as (m & up & l & A & _).
  destruct (X e m A) as (m' & M1 & M2 & M3 & M4 & _). assert (m' = n) as -> by congruence.
  exact (shut_same _ _ _ M2 M3 M4 (S e m I A)).
Qed.
(** A directory shut to one user keeps its rights under the calls of that user, so it stays shut to all. *)
Lemma all_shut_performs umask u w F held l F' held' v k d names ds p : performs umask u (F, held) l = (F', held') ->
  leads v F k d names ds p -> all_shut u F ds -> all_shut w F ds -> all_shut w F' ds.
Proof.
  intros H L S W e n I N. destruct (leads_dirs _ _ _ _ _ _ _ L e I) as (m & up & l0 & A & B).
  destruct (performs_shut _ _ _ _ _ _ _ H e m A (S e m I A)) as [X _]; [intros _ (z & Z); congruence|].
  assert (n = m) as -> by congruence. exact (W e m I A).
Qed.

Lemma history_kept v path k ds l : forall F p, path_leads v F path k ds p -> (forall d x, p <> Free d x) -> outsiders F ds l ->
  path_leads v (history F l) path k ds p.
Proof.
  induction l as [|e l IH]; intros F p L N O; [exact L|]. cbn [history fold_left].
  destruct e as [umask u held acts|umask judge q]; cbn [happens].
  - destruct (performs umask u (F, held) acts) as [F1 h1] eqn:H. cbn [fst].
    assert (all_shut u F ds) as S by (eapply O; left; reflexivity).
    destruct (path_kept _ _ _ _ _ _ _ _ _ _ _ _ H L S) as [L1 _]. apply (IH F1 p L1 N).
    intros um w hw aw I. eapply all_shut_performs; [exact H|exact L|exact S|]. eapply O. right. exact I.
  - destruct (open_write umask judge true true F q) as [[F1 i]|] eqn:W.
    + pose proof (extends_open _ _ _ _ _ _ _ _ W) as X. apply (IH F1 p (leads_more _ _ _ _ _ _ _ _ X L N) N).
      intros um w hw aw I. eapply all_shut_more; [exact X|exact L|]. eapply O. right. exact I.
    + apply (IH F p L N). intros um w hw aw I. eapply O. right. exact I.
Qed.

(** A new file is found where the free name was. *)
Lemma created_entry u mode d x F F' v k o names ds : extends F F' -> created u mode d x F F' -> leads v F k o names ds (Free d x) ->
  leads v F' k o names ds (Entry d x (List.length F)).
Proof.
  intros X (n & up & l & g & A & B & C & D & E & _) L. remember (Free d x) as p eqn:Ep. induction L; try discriminate.
  - destruct (searches_more _ _ _ _ _ _ X H) as (l' & S & _). eapply leads_same; eauto.
  - destruct (searches_more _ _ _ _ _ _ X H) as (l' & S & _). eapply leads_up; eauto.
  - injection Ep as -> ->. destruct H as (m & M1 & M2 & M3). assert (m = n) as -> by congruence.
    eapply leads_entry with (up := up) (l := l ++ [(x, List.length F)]).
    + eexists. split; [exact D|]. split; [reflexivity|]. eapply right_same; [| | |exact M3]; reflexivity.
    + assumption.
    + rewrite entry_app, C, str_eqb_refl. reflexivity.
    + eexists. split; [exact E|discriminate].
  - destruct (searches_more _ _ _ _ _ _ X H) as (l' & S & M). eapply leads_into; eauto. eapply no_link_more; eauto.
  - destruct (searches_more _ _ _ _ _ _ X H) as (l' & S & M). eapply leads_link; eauto. eapply a_link_more; eauto.
Qed.
(** The first opening makes the file; from then on the path leads to it. *)
Lemma opened_entry umask judge q F F' i k ds d x : open_write umask judge true true F q = Some (F', i) ->
  path_leads judge F q k ds (Free d x) -> (k <= 40)%nat -> path_leads judge F' q k ds (Entry d x i).
Proof.
  intros W L Lk. pose proof (extends_open _ _ _ _ _ _ _ _ W) as X. apply open_write_spec in W.
  destruct W as (k' & ds' & Lk' & [(p & L' & Re & _)|(d' & x' & L' & Cr & ->)]).
  - exfalso. assert (locate judge F q true = p) as A by (apply path_spec; [exact (leads_somewhere _ _ _ _ _ _ _ L')|eauto]).
    assert (locate judge F q true = Free d x) as B by (apply path_spec; [discriminate|eauto]).
    destruct Re as [->|(? & ? & ->)]; congruence.
  - assert (Free d' x' = Free d x) as Q.
    { transitivity (locate judge F q true); [symmetry|]; apply path_spec; try discriminate; eauto. }
    injection Q as -> ->. exact (created_entry _ _ _ _ _ _ _ _ _ _ _ X Cr L).
Qed.

(** What was opened is what the path leads to afterwards. *)
Lemma extends_opened umask u q F F' i : opened_w umask u q F F' i -> extends F F'.
Proof.
  intros (k & ds & _ & [(p & _ & _ & [((Le & S) & n & data & N & K & N')|(_ & ->)])|(d & x & _ & (n & up & l & g & N & K & C & N' & _ & _ & S) & ->)]).
  - intros j m M. destruct (Nat.eq_dec j i) as [->|Ne].
    + assert (m = n) as -> by congruence. eexists. split; [exact N'|]. cbn. rewrite K. auto.
    + rewrite (S j Ne). destruct (extends_refl F j m M) as (m' & A). eauto.
  - apply extends_refl.
  - intros j m M. destruct (Nat.eq_dec j d) as [->|Ne].
    + assert (m = n) as -> by congruence. eexists. split; [exact N'|]. cbn. rewrite K. split; [auto|]. split; [auto|]. split; [auto|]. split; [auto|].
      intros y e E. rewrite entry_app, E. reflexivity.
    + assert (j <> List.length F) as Nl by (apply Nat.lt_neq; apply nth_error_Some; congruence).
      rewrite (S j Ne Nl). destruct (extends_refl F j m M) as (m' & A). eauto.
Qed.
Lemma opened_leads umask u q F F' i : opened_w umask u q F F' i ->
  exists k ds pl, (k <= 40)%nat /\ path_leads u F' q k ds pl /\ reaches pl i.
Proof.
  intros O. pose proof (extends_opened _ _ _ _ _ _ O) as X.
  destruct O as (k & ds & Lk & [(p & L & Re & _)|(d & x & L & Cr & ->)]).
  - exists k, ds, p. split; [exact Lk|]. split; [|exact Re]. eapply leads_more; [exact X|exact L|].
    intros d x ->. destruct Re as [Q|(? & ? & Q)]; discriminate.
  - exists k, ds, (Entry d x (List.length F)). split; [exact Lk|]. split; [exact (created_entry _ _ _ _ _ _ _ _ _ _ _ X Cr L)|right; eauto].
Qed.
