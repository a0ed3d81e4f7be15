(** Proofs about the program that is started. *)
From Coq Require Import ZArith Bool List Ascii String Lia.
From Verif.Base Require Import CInt CStr.
From Verif.Model Require Import Config Runner Seccomp Child Names Reading Starting.
From Verif.Spec Require Import RunSpec SandboxSpec NamesSpec StartingSpec.
From Verif.Proofs Require Import ChildClaims NamesProofs NamesUse.
Import ListNotations.
Open Scope list_scope.
Open Scope Z_scope.

Local Opaque locate open_write.

(** ** Files *)
Lemma exec_right_spec u n : may_exec u n = true <-> exec_right u n.
Proof.
  unfold may_exec. destruct (w_uid u =? 0) eqn:Z0.
  - split.
    + intros H. apply existsb_exists in H. destruct H as (b & I & H). cbn in I.
      apply exec_root with b; [lia|intuition|exact H].
    + intros [b _ B H|H]; [|lia]. apply existsb_exists. exists b. split; [cbn; intuition|exact H].
  - split.
    + intros H. apply exec_user; [lia|]. apply may_right. exact H.
    + intros [b H|_ H]; [lia|]. apply may_right. exact H.
Qed.
Lemma busy_spec i busy : negb (existsb (Nat.eqb i) busy) = true <-> ~ In i busy.
Proof.
  rewrite negb_true_iff. split.
  - intros H I. assert (existsb (Nat.eqb i) busy = true); [|congruence]. apply existsb_exists. exists i. split; [exact I|apply Nat.eqb_refl].
  - intros H. destruct (existsb (Nat.eqb i) busy) eqn:E; [|reflexivity]. exfalso. apply H. apply existsb_exists in E.
    destruct E as (j & J & Q). apply Nat.eqb_eq in Q. subst j. exact J.
Qed.
Lemma executable_spec u F busy p i data : executable u F busy p = Some (i, data) <-> runnable u F busy p i data.
Proof.
  unfold executable, runnable. split.
  - intros H. destruct (locate u F p true) as [j|d x j|d x|] eqn:L; try discriminate;
      (destruct (nth_error F j) as [n|] eqn:N; [|discriminate]; destruct (n_kind n) eqn:K; try discriminate;
       destruct (may_exec u n && negb (existsb (Nat.eqb j) busy)) eqn:B; [|discriminate]; injection H as <- <-;
       apply andb_prop in B; destruct B as [B1 B2]; apply exec_right_spec in B1; apply busy_spec in B2;
       apply path_spec in L; [|discriminate]; destruct L as (k & ds & Lk & L);
       exists k, ds; eexists; exists n; split; [exact Lk|]; split; [exact L|]; split; [|auto]).
    + left. reflexivity.
    + right. eauto.
  - intros (k & ds & pl & n & Lk & L & Re & N & K & B1 & B2).
    assert (locate u F p true = pl) as Q by (apply path_spec; [exact (leads_somewhere _ _ _ _ _ _ _ L)|eauto]).
    apply exec_right_spec in B1. apply busy_spec in B2.
    rewrite Q. destruct Re as [->|(d & x & ->)]; rewrite N, K, B1, B2; reflexivity.
Qed.

(** ** The first line *)
Lemma begins_spec a : forall data rest, begins a data = Some rest <-> data = a ++ rest.
Proof.
  induction a as [|x a IH]; intros data rest; cbn; [split; congruence|]. destruct data as [|y data]; [split; discriminate|].
  destruct (Ascii.eqb_spec x y) as [->|Ne]; [rewrite IH; split; congruence|]. split; [discriminate|congruence].
Qed.
Lemma elf_spec data : is_elf data = true <-> elf data.
Proof.
  unfold is_elf, elf. destruct (begins magic data) as [rest|] eqn:B.
  - apply begins_spec in B. split; [intros _; exists rest; exact B|reflexivity].
  - split; [discriminate|]. intros (rest & H). assert (begins magic data = Some rest) by (apply begins_spec; exact H). congruence.
Qed.
Lemma blank_spec c : blank c = true <-> is_blank c.
Proof.
  unfold blank, is_blank. rewrite orb_true_iff. split; (intros [H|H]; [left|right]); try (apply Ascii.eqb_eq; exact H); apply Ascii.eqb_eq in H; exact H.
Qed.
Lemma blank_no c : blank c = false <-> ~ is_blank c.
Proof. rewrite <- blank_spec. destruct (blank c); split; congruence. Qed.
Lemma upto_spec stop s : forall a b, upto stop s = (a, b) <->
  s = a ++ b /\ (forall c, In c a -> stop c = false) /\ (b = [] \/ exists c b', b = c :: b' /\ stop c = true).
Proof.
  induction s as [|x s IH]; intros a b; cbn.
  - split.
    + intros H. injection H as <- <-. split; [reflexivity|]. split; [intros c []|left; reflexivity].
    + intros (H & _). symmetry in H. apply app_eq_nil in H. destruct H as [-> ->]. reflexivity.
  - destruct (stop x) eqn:Sx.
    + split.
      * intros H. injection H as <- <-. split; [reflexivity|]. split; [intros c []|right; eauto].
      * intros (H & A & B). destruct a as [|y a]; [cbn in H; rewrite H; reflexivity|]. injection H as <- _. rewrite (A x (or_introl eq_refl)) in Sx. discriminate.
    + destruct (upto stop s) as [a' b'] eqn:U. split.
      * intros H. injection H as <- <-. destruct (proj1 (IH a' b') eq_refl) as (H & A & B). split; [cbn; congruence|]. split; [|exact B].
        intros c [<-|I]; [exact Sx|exact (A c I)].
      * intros (H & A & B). destruct a as [|y a].
        { exfalso. cbn in H. destruct B as [->|(c & b0 & -> & Sc)]; [discriminate|]. injection H as -> _. congruence. }
        injection H as <- H. assert ((a', b') = (a, b)) as Q.
        { apply IH. split; [exact H|]. split; [intros c I; apply A; right; exact I|exact B]. }
        injection Q as -> ->. reflexivity.
Qed.
Lemma skip_spec s r : skip s = r <-> exists b, s = b ++ r /\ blanks b /\ (r = [] \/ exists c r', r = c :: r' /\ ~ is_blank c).
Proof.
  unfold skip. split.
  - intros H. destruct (upto (fun c => negb (blank c)) s) as [b r'] eqn:U. cbn in H. subst r'. apply upto_spec in U. destruct U as (A & B & C).
    exists b. split; [exact A|]. split; [intros c I; apply blank_spec; apply negb_false_iff; exact (B c I)|].
    destruct C as [C|(c & r' & C & D)]; [left; exact C|]. right. exists c, r'. split; [exact C|]. apply blank_no. apply negb_true_iff. exact D.
  - intros (b & A & B & C). assert (upto (fun c => negb (blank c)) s = (b, r)) as ->; [|reflexivity]. apply upto_spec. split; [exact A|].
    split; [intros c I; apply negb_false_iff; apply blank_spec; exact (B c I)|].
    destruct C as [C|(c & r' & C & D)]; [left; exact C|]. right. exists c, r'. split; [exact C|]. apply negb_true_iff. apply blank_no. exact D.
Qed.
Lemma trim_spec s r : trim_end s = r <-> exists b, s = r ++ b /\ blanks b /\ (r = [] \/ exists r' c, r = r' ++ [c] /\ ~ is_blank c).
Proof.
  unfold trim_end. split.
  - intros H. destruct (proj1 (skip_spec (rev s) (skip (rev s))) eq_refl) as (b & A & B & C). exists (rev b). split; [|split].
    + rewrite <- (rev_involutive s), A, rev_app_distr. congruence.
    + intros c I. apply B. apply in_rev. exact I.
    + destruct C as [C|(c & r' & C & D)].
      * left. rewrite <- H, C. reflexivity.
      * right. exists (rev r'), c. split; [rewrite <- H, C; reflexivity|exact D].
  - intros (b & A & B & C). assert (skip (rev s) = rev r) as ->; [|apply rev_involutive]. apply skip_spec. exists (rev b). split; [|split].
    + rewrite A, rev_app_distr. reflexivity.
    + intros c I. apply B. apply in_rev. exact I.
    + destruct C as [->|(r' & c & -> & D)]; [left; reflexivity|]. right. exists c, (rev r'). rewrite rev_app_distr. split; [reflexivity|exact D].
Qed.
Lemma solid_first s : solid s -> exists c s', s = c :: s' /\ ~ is_blank c.
Proof. intros [N H]. destruct s as [|c s]; [contradiction|]. exists c, s. split; [reflexivity|]. apply H. left. reflexivity. Qed.
Lemma solid_last s : solid s -> exists s' c, s = s' ++ [c] /\ ~ is_blank c.
Proof.
  intros [N H]. destruct (exists_last N) as (s' & c & ->). exists s', c. split; [reflexivity|]. apply H. apply in_or_app. right. left. reflexivity.
Qed.
Lemma blanks_app a b : blanks a -> blanks b -> blanks (a ++ b).
Proof. intros A B c I. apply in_app_or in I. destruct I; auto. Qed.

Lemma interpreter_spec data name arg : interpreter data = Some (name, arg) <-> names_interpreter data name arg.
Proof.
  unfold interpreter. split.
  - intros H. destruct (begins (lit "#!") data) as [rest|] eqn:Bg; [|discriminate]. apply begins_spec in Bg.
    destruct (upto (Ascii.eqb newline) rest) as [line eol] eqn:U. cbn [fst] in H. apply upto_spec in U. destruct U as (U1 & U2 & U3).
    destruct (proj1 (trim_spec line (trim_end line)) eq_refl) as (b2 & T1 & T2 & T3).
    destruct (proj1 (skip_spec (trim_end line) (skip (trim_end line))) eq_refl) as (b1 & S1 & S2 & S3).
    destruct (upto blank (skip (trim_end line))) as [nm more] eqn:V. apply upto_spec in V. destruct V as (V1 & V2 & V3).
    destruct nm as [|c0 nm]; [discriminate|]. injection H as <- <-.
    destruct (proj1 (skip_spec more (skip more)) eq_refl) as (b & M1 & M2 & M3).
    assert (solid (c0 :: nm)) as So by (split; [discriminate|intros c I; apply blank_no; exact (V2 c I)]).
    assert (~ In (ascii_of_nat 10) line) as Nl.
    { intros I. specialize (U2 _ I). rewrite Ascii.eqb_refl in U2. discriminate. }
    assert (eol = [] \/ exists more, eol = ascii_of_nat 10 :: more) as Eol.
    { destruct U3 as [->|(c & e & -> & Q)]; [left; reflexivity|]. right. exists e. apply Ascii.eqb_eq in Q. rewrite <- Q. reflexivity. }
    assert (line = b1 ++ (c0 :: nm) ++ b ++ skip more ++ b2) as Ln.
    { rewrite T1, S1, V1. rewrite M1 at 1. rewrite <- !app_assoc. reflexivity. }
    destruct (skip more) as [|a0 a] eqn:Sk.
    + exists b1, (b ++ b2), line, eol. split; [congruence|]. split; [exact Nl|]. split; [exact Eol|]. split; [exact S2|].
      split; [apply blanks_app; assumption|]. split; [exact So|]. left. split; [reflexivity|exact Ln].
    + exists b1, b2, line, eol. split; [congruence|]. split; [exact Nl|]. split; [exact Eol|]. split; [exact S2|]. split; [exact T2|].
      split; [exact So|]. right. exists b, (a0 :: a). split; [reflexivity|]. split; [exact Ln|]. split; [exact M2|].
      destruct M3 as [M3|(c & r & M3 & M4)]; [discriminate|]. split.
      * intros ->. cbn in M1. destruct V3 as [V3|(x & y & V3 & V4)]; [congruence|]. rewrite M1, M3 in V3. injection V3 as <- _.
        apply M4. apply blank_spec. exact V4.
      * split; [eauto|]. destruct T3 as [T3|(r' & x & T3 & T4)].
        { exfalso. rewrite S1, V1 in T3. apply app_eq_nil in T3. destruct T3 as [_ T3]. discriminate. }
        destruct (@exists_last _ (a0 :: a) ltac:(discriminate)) as (a' & y & Ea). exists a', y. split; [exact Ea|].
        assert (trim_end line = (b1 ++ (c0 :: nm) ++ b ++ a') ++ [y]) as Q.
        { rewrite S1, V1, M1, Ea. rewrite <- !app_assoc. reflexivity. }
        rewrite Q in T3. apply app_inj_tail in T3. destruct T3 as [_ ->]. exact T4.
  - intros (b1 & b2 & line & eol & D & Nl & Eol & B1 & B2 & So & Cases).
    rewrite (proj2 (begins_spec (lit "#!") data (line ++ eol)) D).
    assert (upto (Ascii.eqb newline) (line ++ eol) = (line, eol)) as ->.
    { apply upto_spec. split; [reflexivity|]. split.
      - intros c I. apply Ascii.eqb_neq. intros <-. exact (Nl I).
      - destruct Eol as [->|(m & ->)]; [left; reflexivity|right]. do 2 eexists. split; [reflexivity|reflexivity]. }
    cbn [fst]. destruct (solid_first name So) as (c1 & n1 & F1 & F2). destruct (solid_last name So) as (n2 & c2 & L1 & L2).
    assert (forall c, In c name -> blank c = false) as Sn by (intros c I; apply blank_no; apply So; exact I).
    destruct Cases as [(-> & Ln)|(b & a & -> & Ln & Bb & Nb & ((a1 & r1 & A1 & A2) & (r2 & a2 & A3 & A4)))].
    + assert (trim_end line = b1 ++ name) as ->.
      { apply trim_spec. exists b2. split; [rewrite Ln, <- app_assoc; reflexivity|]. split; [exact B2|]. right. exists (b1 ++ n2), c2.
        split; [rewrite L1 at 1; apply app_assoc|exact L2]. }
      assert (skip (b1 ++ name) = name) as ->.
      { apply skip_spec. exists b1. split; [reflexivity|]. split; [exact B1|]. right. eauto. }
      assert (upto blank name = (name, [])) as ->.
      { apply upto_spec. split; [symmetry; apply app_nil_r|]. split; [exact Sn|left; reflexivity]. }
      rewrite F1. reflexivity.
    + assert (trim_end line = b1 ++ name ++ b ++ a) as ->.
      { apply trim_spec. exists b2. split; [rewrite Ln, <- !app_assoc; reflexivity|]. split; [exact B2|]. right. exists (b1 ++ name ++ b ++ r2), a2.
        split; [rewrite A3 at 1; rewrite <- !app_assoc; reflexivity|exact A4]. }
      assert (skip (b1 ++ name ++ b ++ a) = name ++ b ++ a) as ->.
      { apply skip_spec. exists b1. split; [reflexivity|]. split; [exact B1|]. right. exists c1, (n1 ++ b ++ a). split; [rewrite F1; reflexivity|exact F2]. }
      assert (upto blank (name ++ b ++ a) = (name, b ++ a)) as ->.
      { apply upto_spec. split; [reflexivity|]. split; [exact Sn|]. right. destruct b as [|x b]; [contradiction|]. exists x, (b ++ a).
        split; [reflexivity|]. apply blank_spec. apply Bb. left. reflexivity. }
      assert (skip (b ++ a) = a) as ->.
      { apply skip_spec. exists b. split; [reflexivity|]. split; [exact Bb|]. right. eauto. }
      rewrite F1, A1. reflexivity.
Qed.
Lemma elf_no_interpreter data name arg : elf data -> ~ names_interpreter data name arg.
Proof. intros (r & E) (b1 & b2 & line & eol & D & _). rewrite E in D. discriminate. Qed.

(** ** The program *)
Lemma starts_spec u F busy depth : forall p argv j argv',
  starts depth u F busy p argv = Some (j, argv') <-> exists k, (k <= depth)%nat /\ stands_for u F busy k p argv j argv'.
Proof.
  induction depth as [|d IH]; intros p argv j argv'; cbn [starts].
  - split.
    + intros H. destruct (executable u F busy p) as [[i data]|] eqn:X; [|discriminate]. apply executable_spec in X.
      destruct (is_elf data) eqn:E; [|destruct (interpreter data) as [[? ?]|]; discriminate]. apply elf_spec in E. injection H as <- <-.
      exists 0%nat. split; [lia|]. econstructor; eassumption.
    + intros (k & Lk & S). inversion S as [? ? i data R E|k' ? ? i data name arg ? ? R I S']; subst; [|lia].
      rewrite (proj2 (executable_spec _ _ _ _ _ _) R), (proj2 (elf_spec _) E). reflexivity.
  - split.
    + intros H. destruct (executable u F busy p) as [[i data]|] eqn:X; [|discriminate]. apply executable_spec in X.
      destruct (is_elf data) eqn:E.
      * apply elf_spec in E. injection H as <- <-. exists 0%nat. split; [lia|]. econstructor; eassumption.
      * destruct (interpreter data) as [[name arg]|] eqn:I; [|discriminate]. apply interpreter_spec in I. apply IH in H.
        destruct H as (k & Lk & St). exists (S k). split; [lia|]. econstructor; eassumption.
    + intros (k & Lk & S). inversion S as [? ? i data R E|k' ? ? i data name arg ? ? R I S']; subst.
      * rewrite (proj2 (executable_spec _ _ _ _ _ _) R), (proj2 (elf_spec _) E). reflexivity.
      * rewrite (proj2 (executable_spec _ _ _ _ _ _) R). destruct (is_elf data) eqn:E; [exfalso; apply elf_spec in E; exact (elf_no_interpreter _ _ _ E I)|].
        rewrite (proj2 (interpreter_spec _ _ _) I). apply IH. exists k'. split; [lia|exact S'].
Qed.

(** ** The output file is the program *)
Definition no_program (F : fs) (i : nat) : Prop := exists n, nth_error F i = Some n /\ (n_kind n = IsFile [] \/ n_kind n = IsOther).
Lemma opened_no_program umask u q F F' i : opened_w umask u q F F' i -> no_program F' i.
Proof.
  intros (k & ds & _ & [(p & _ & _ & [(_ & n & data & _ & _ & N)|((n & N & K) & ->)])|(d & x & _ & (n & up & l & g & _ & _ & _ & _ & N & _) & ->)]).
  - eexists. split; [exact N|]. left. reflexivity.
  - exists n. auto.
  - eexists. split; [exact N|]. left. reflexivity.
Qed.
Lemma opened_keeps umask u q F F' i j : opened_w umask u q F F' i -> no_program F j -> no_program F' j.
Proof.
  intros O (m & M & K). destruct (Nat.eq_dec j i) as [->|Ne]; [exact (opened_no_program _ _ _ _ _ _ O)|].
  destruct O as (k & ds & _ & [(p & _ & _ & [((_ & S) & _)|(_ & ->)])|(d & x & _ & (n & up & l & g & D & Kd & _ & _ & _ & _ & S) & ->)]).
  - exists m. rewrite (S j Ne). auto.
  - exists m. auto.
  - exists m. rewrite S; [auto| |exact Ne]. intros ->. assert (m = n) as -> by congruence. destruct K; congruence.
Qed.
Lemma no_program_starts u F busy p argv i : no_program F i -> (exists k ds pl, (k <= 40)%nat /\ path_leads u F p k ds pl /\ reaches pl i) ->
  start u F busy p argv = None.
Proof.
  intros (n & N & K) (k & ds & pl & Lk & L & Re). destruct (start u F busy p argv) as [[j a]|] eqn:St; [exfalso|reflexivity].
  apply starts_spec in St. destruct St as (k' & _ & S).
  assert (forall x data, runnable u F busy p x data -> x = i /\ data = []) as R.
  { intros x data (k2 & ds2 & pl2 & m & Lk2 & L2 & Re2 & M & Km & _).
    assert (pl2 = pl) as ->.
    { transitivity (locate u F p true); [symmetry|]; apply path_spec; eauto using leads_somewhere. }
    assert (x = i) as -> by (destruct Re as [->|(? & ? & ->)], Re2 as [Q|(? & ? & Q)]; congruence).
    split; [reflexivity|]. assert (m = n) as -> by congruence. destruct K; congruence. }
  inversion S as [? ? x data Rn E|? ? ? x data name arg ? ? Rn I _]; subst; destruct (R _ _ Rn) as [_ ->].
  - destruct E as (r & E). discriminate.
  - destruct I as (b1 & b2 & line & eol & D & _). discriminate.
Qed.
Lemma leads_object u F q k ds pl i k2 ds2 pl2 j : (k <= 40)%nat -> path_leads u F q k ds pl -> reaches pl i ->
  (k2 <= 40)%nat -> path_leads u F q k2 ds2 pl2 -> reaches pl2 j -> i = j.
Proof.
  intros Lk L Re Lk2 L2 Re2. assert (pl2 = pl) as ->.
  { transitivity (locate u F q true); [symmetry|]; apply path_spec; eauto using leads_somewhere. }
  destruct Re as [->|(? & ? & ->)], Re2 as [Q|(? & ? & Q)]; congruence.
Qed.
Lemma overwritten umask judge env log c k0 path a v k F F' u busy argv q i :
  ready c k0 -> child_process env log c k0 = CExec path a v k -> openings umask judge F (k_trace k) = Some F' ->
  output_path c = Some q \/ error_path c = Some q ->
  (exists k1 ds1 p1, (k1 <= 40)%nat /\ path_leads judge F' q k1 ds1 p1 /\ reaches p1 i) ->
  (exists k2 ds2 p2, (k2 <= 40)%nat /\ path_leads u F' path k2 ds2 p2 /\ reaches p2 i) ->
  start u F' busy path argv = None.
Proof.
  intros R E O Q (k1 & ds1 & p1 & Lk1 & L1 & Re1) W. destruct (judge_opens _ _ _ _ _ _ _ _ _ _ _ _ R E O) as (F1 & A & B).
  assert (forall j, no_program F' j -> (exists k1 ds1 p1, (k1 <= 40)%nat /\ path_leads judge F' q k1 ds1 p1 /\ reaches p1 j) ->
          start u F' busy path argv = None) as Fin.
  { intros j N (k2 & ds2 & p2 & Lk2 & L2 & Re2). assert (j = i) as -> by exact (leads_object _ _ _ _ _ _ _ _ _ _ _ Lk2 L2 Re2 Lk1 L1 Re1).
    exact (no_program_starts _ _ _ _ _ _ N W). }
  assert (forall G j, opened_w umask judge q G F' j -> start u F' busy path argv = None) as Last.
  { intros G j Op. exact (Fin j (opened_no_program _ _ _ _ _ _ Op) (opened_leads _ _ _ _ _ _ Op)). }
  destruct (output_path c) as [o|] eqn:Eo.
  - destruct A as (j & A). destruct (error_path c) as [e|] eqn:Ee.
    + destruct (str_eqb o e) eqn:Eq.
      * apply str_eqb_spec in Eq. subst e F1. assert (o = q) as -> by (destruct Q; congruence). exact (Last _ _ A).
      * destruct B as (j2 & B). destruct Q as [Q|Q]; injection Q as ->; [|exact (Last _ _ B)].
        apply (Fin j); [exact (opened_keeps _ _ _ _ _ _ _ B (opened_no_program _ _ _ _ _ _ A))|].
        destruct (opened_leads _ _ _ _ _ _ A) as (k2 & ds2 & p2 & Lk2 & L2 & Re2). exists k2, ds2, p2. split; [exact Lk2|]. split; [|exact Re2].
        eapply leads_more; [exact (extends_opened _ _ _ _ _ _ B)|exact L2|]. intros d x ->. destruct Re2 as [X|(? & ? & X)]; discriminate.
    + subst F1. assert (o = q) as -> by (destruct Q; congruence). exact (Last _ _ A).
  - subst F1. destruct Q as [Q|Q]; [discriminate|]. rewrite Q in B. destruct B as (j & B). exact (Last _ _ B).
Qed.

(** ** The program stays the same *)
Lemma history_file l : forall (F : fs) i n, nth_error F i = Some n -> is_file n -> not_writable F i l -> spared i F l -> nth_error (history F l) i = Some n.
Proof.
  induction l as [|e l IH]; intros F i n N Fi S Sp; [exact N|]. cbn [history fold_left]. destruct Sp as [Sp Sl].
  assert (nth_error (happens F e) i = Some n) as N1.
  { destruct e as [umask u held acts|umask judge q]; cbn [happens].
    - destruct (performs umask u (F, held) acts) as [F1 h1] eqn:H. cbn [fst]. rewrite <- N. eapply file_kept; [exact H|exact N| |exact Sp].
      eapply S; [left; reflexivity|exact N].
    - destruct (open_write umask judge true true F q) as [[F1 j]|] eqn:W; [|exact N]. pose proof (Sp F1 j eq_refl) as Ne.
      apply open_write_spec in W. destruct W as (k & ds & _ & [(p & _ & _ & [((_ & Q) & _)|(_ & ->)])|(d & x & _ & (m & up & l0 & g & D & Kd & _ & _ & _ & _ & Q) & ->)]).
      + rewrite Q; [exact N|congruence].
      + exact N.
      + rewrite Q; [exact N| |congruence]. intros ->. assert (n = m) as -> by congruence. destruct Fi as (z & Z). congruence. }
  apply IH; [exact N1|exact Fi| |exact Sl]. intros um u held acts m I M. assert (m = n) as -> by congruence. eapply S; [right; exact I|exact N].
Qed.
Lemma runnable_kept u F busy p i data l : runnable u F busy p i data -> guarded u F l p i -> runnable u (history F l) busy p i data.
Proof.
  intros (k & ds & pl & n & Lk & L & Re & N & K & X & B) (k2 & ds2 & pl2 & Lk2 & L2 & Re2 & O & S & Sp).
  exists k2, ds2, pl2, n. split; [exact Lk2|]. split.
  - apply history_kept; [exact L2| |exact O]. intros d x ->. destruct Re2 as [Q|(? & ? & Q)]; discriminate.
  - split; [exact Re2|]. split; [|auto]. apply history_file; [exact N|exists data; exact K|exact S|exact Sp].
Qed.
Lemma stands_kept u F busy l k p argv j argv' : stands_for u F busy k p argv j argv' ->
  (forall q i, uses u F busy p q i -> guarded u F l q i) -> stands_for u (history F l) busy k p argv j argv'.
Proof.
  intros S. induction S as [p argv i data R E|k p argv i data name arg j argv' R I S IH]; intros G.
  - econstructor; [|exact E]. apply runnable_kept; [exact R|]. apply G. econstructor; exact R.
  - econstructor; [|exact I|]; [apply runnable_kept; [exact R|]; apply G; econstructor; exact R|].
    apply IH. intros q x U. apply G. eapply uses_next; eassumption.
Qed.
Lemma program_kept u F busy l p argv j argv' : start u F busy p argv = Some (j, argv') ->
  (forall q i, uses u F busy p q i -> guarded u F l q i) -> start u (history F l) busy p argv = Some (j, argv') /\
  nth_error (history F l) j = nth_error F j.
Proof.
  intros H G. apply starts_spec in H. destruct H as (k & Lk & S). split.
  - apply starts_spec. exists k. split; [exact Lk|exact (stands_kept _ _ _ _ _ _ _ _ _ S G)].
  - assert (exists q data, uses u F busy p q j /\ runnable u F busy q j data) as (q & data & U & R).
    { clear Lk G. induction S as [p argv i data R E|k p argv i data name arg j argv' R I S IH].
      - exists p, data. split; [econstructor; exact R|exact R].
      - destruct IH as (q & d & U & Rq). exists q, d. split; [eapply uses_next; eassumption|exact Rq]. }
    destruct (G q j U) as (_ & _ & _ & _ & _ & _ & _ & Sh & Sp). destruct R as (_ & _ & _ & n & _ & _ & _ & N & K & _).
    rewrite N. apply history_file; [exact N|exists data; exact K|exact Sh|exact Sp].
Qed.
