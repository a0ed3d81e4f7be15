(** Patterns that are written as the specification says compile. *)
From Coq Require Import ZArith NArith Bool List Ascii String Lia.
From Verif.Base Require Import CInt CStr CMem.
From Verif.Model Require Import Trex.
From Verif.Spec Require Import RegexSpec.
From Verif.Proofs Require Import TrexChars TrexRep TrexTotal TrexParse RegexUnique.
Import ListNotations.
Open Scope list_scope.
Open Scope nat_scope.

Section forward.
Variable pat : str.
Hypothesis Hpat : no_nul pat.
Let L := List.length pat.
Hypothesis Hlen : (Z.of_nat L < 1073741824)%Z.
Hypothesis Hdash : ~ In "-"%char pat \/ L <= 32.
Hypothesis Hdig : forall a ds b, pat = a ++ ds ++ b -> Forall (fun d => digit d = true) ds -> List.length ds <= 4.

Definition go {A} (m : pm A) (x : trex) (Q : A -> trex -> Prop) : Prop := exists a y, m x = PVal a y /\ Q a y.
Lemma go_bind {A B} (m : pm A) (k : A -> pm B) x Q : go m x (fun a y => go (k a) y Q) -> go (bind m k) x Q.
Proof. intros (a & y & E & b & z & E2 & H). exists b, z. unfold bind. rewrite E. auto. Qed.
Lemma go_ret {A} (a : A) x (Q : A -> trex -> Prop) : Q a x -> go (ret a) x Q.
Proof. intros H. exists a, x. split; [reflexivity|exact H]. Qed.
Lemma go_weaken {A} (m : pm A) x (Q R : A -> trex -> Prop) : go m x Q -> (forall a y, Q a y -> R a y) -> go m x R.
Proof. intros (a & y & E & H) W. exists a, y. split; [exact E|]. apply W. exact H. Qed.

(** The rest of the pattern is [s]; there is room for [k] more nodes than bytes have been read. *)
Definition st (x : trex) (s : str) (k : nat) : Prop :=
  rem pat x = s /\ s <> [] /\ size x + k <= S (x_p x) /\
  (x_alloc x = Z.of_nat L /\ size x <= L \/ x_alloc x = (2 * Z.of_nat L)%Z).
Lemma st_p x s k : st x s k -> x_p x <= L /\ List.length s + x_p x = S L.
Proof.
  intros (E & N & _). unfold rem in E. assert (X : List.length s = S L - x_p x).
  { rewrite <- E, skipn_length. unfold tp. rewrite app_length. cbn [List.length]. unfold L. lia. }
  destruct s; [contradiction|]. cbn [List.length] in *. lia.
Qed.
Lemma st_less x s k k' : st x s k -> k' <= k -> st x s k'.
Proof. intros (A & B & C & D) H. repeat split; try assumption. lia. Qed.
Lemma go_peek {B} (k : ascii -> pm B) x c s n Q : st x (c :: s) n -> go (k c) x Q -> go (bind (peek pat) k) x Q.
Proof. intros (E & _) H. apply go_bind. exists c, x. split; [exact (peek_at pat x c s E)|exact H]. Qed.
Lemma st_skip x c s k : st x (c :: s) k -> s <> [] -> st (next_p x) s (S k).
Proof. intros (A & B & C & D) N. split; [exact (skip_at pat x c s A)|]. split; [exact N|]. split; [cbn; unfold size in *; cbn; lia|exact D]. Qed.
Lemma go_skip {B} (k : unit -> pm B) x c s n Q : st x (c :: s) n -> s <> [] ->
  (forall y, st y s (S n) -> x_nodes y = x_nodes x -> go (k tt) y Q) -> go (bind skip k) x Q.
Proof. intros H N K0. apply go_bind. exists tt, (next_p x). split; [reflexivity|]. apply K0; [exact (st_skip _ _ _ _ H N)|reflexivity]. Qed.
Lemma go_skip_last x c s n (Q : unit -> trex -> Prop) : st x (c :: s) n -> s <> [] -> (forall y, st y s (S n) -> x_nodes y = x_nodes x -> Q tt y) -> go skip x Q.
Proof. intros H N K0. exists tt, (next_p x). split; [reflexivity|]. apply K0; [exact (st_skip _ _ _ _ H N)|reflexivity]. Qed.
Lemma go_new t x s n (Q : Z -> trex -> Prop) : 1 <= L -> st x s (S n) ->
  (forall y, st y s n -> (exists rt, x_nodes y = x_nodes x ++ [mkN t (-1) rt (-1)]) -> Q (zn (size x)) y) -> go (newnode t) x Q.
Proof.
  intros L1 H K0. destruct (st_p _ _ _ H) as [P1 _]. destruct H as (A & B & C & D).
  unfold go, newnode. fold (size x).
  assert (X : exists al, (if (x_alloc x <? Z.of_nat (size x) + 1)%Z then int_op (x_alloc x * 2) else Val (x_alloc x)) = Val al /\
    (Z.of_nat (size x) < al)%Z /\ (al = Z.of_nat L /\ S (size x) <= L \/ al = (2 * Z.of_nat L)%Z)).
  { destruct (Z.ltb_spec (x_alloc x) (Z.of_nat (size x) + 1)) as [Y|Y].
    - exists (x_alloc x * 2)%Z. unfold int_op, in_int, INT_MAX, INT_MIN. destruct D as [[D1 D2]|D1]; rewrite D1 in *.
      + rewrite (proj2 (andb_true_iff _ _)) by (rewrite !Z.leb_le; lia). split; [reflexivity|]. split; [lia|right; lia].
      + lia.
    - exists (x_alloc x). split; [reflexivity|]. destruct D as [[D1 D2]|D1]; rewrite D1 in *; lia. }
  destruct X as (al & -> & X1 & X2). rewrite (proj2 (Z.ltb_lt _ _) X1). eexists. eexists. split; [reflexivity|]. apply K0.
  - split; [exact A|]. split; [exact B|]. unfold size. cbn [x_nodes x_p x_alloc]. rewrite app_length. cbn [List.length].
    unfold size in *. split; [lia|]. destruct X2 as [[X2 X3]|X2]; [left; split; [exact X2|lia]|right; exact X2].
  - eexists. reflexivity.
Qed.
Lemma go_set i f x s n (Q : unit -> trex -> Prop) : i < size x -> st x s n ->
  (forall y, st y s n -> changed (x_nodes x) (x_nodes y) i f -> Q tt y) -> go (set (zn i) f) x Q.
Proof.
  intros Hi H K0. unfold go. destruct (set (zn i) f x) as [[] y| | |] eqn:E.
  - exists tt, y. split; [reflexivity|]. destruct (set_inv pat _ _ _ _ _ E) as [C R]. apply K0; [|exact C].
    destruct H as (A & B & C0 & D). destruct C as (_ & _ & C). unfold set in E. destruct (get (x_nodes x) (zn i)); [|discriminate].
    injection E as <-. split; [exact A|]. split; [exact B|]. unfold size in *. cbn [x_nodes x_p x_alloc] in *. rewrite C. auto.
  - unfold set in E. destruct (get (x_nodes x) (zn i)); discriminate.
  - exfalso. unfold set, get, zn in E. destruct (Z.ltb_spec (Z.of_nat i) 0); [lia|]. rewrite Nat2Z.id in E.
    destruct (nth_error (x_nodes x) i) eqn:E2; [discriminate|]. apply nth_error_None in E2. unfold size in Hi. lia.
  - unfold set in E. destruct (get (x_nodes x) (zn i)); discriminate.
Qed.
Lemma go_node i n x (Q : node -> trex -> Prop) : nd (x_nodes x) i n -> Q n x -> go (node_of (zn i)) x Q.
Proof. intros H K0. exists n, x. unfold node_of. rewrite (get_nd _ _ _ H). split; [reflexivity|exact K0]. Qed.
Lemma go_expect c x s n (Q : unit -> trex -> Prop) : st x (c :: s) n -> s <> [] ->
  (forall y, st y s (S n) -> x_nodes y = x_nodes x -> Q tt y) -> go (expect pat c) x Q.
Proof. intros H N K0. unfold expect. apply (go_peek _ _ _ _ _ _ H). rewrite aeqb_refl. exact (go_skip_last _ _ _ _ _ H N K0). Qed.

Lemma st_in x u s n c : st x (u ++ s) n -> s <> [] -> In c u -> In c pat.
Proof.
  intros (E & _) N I0. assert (Nn : c <> NUL).
  { destruct s as [|d s]; [contradiction|]. pose proof (rem_no_nul pat Hpat x u d s E) as X. intros ->. contradiction. }
  assert (In c (tp pat)).
  { unfold rem in E. rewrite <- (firstn_skipn (x_p x) (tp pat)). apply in_or_app. right. rewrite E. apply in_or_app. left. exact I0. }
  unfold tp in H. apply in_app_or in H. destruct H as [H|[H|[]]]; [exact H|]. congruence.
Qed.
Lemma st_part x u s n : st x (u ++ s) n -> s <> [] -> exists a b, pat = a ++ u ++ b.
Proof.
  intros (E & _) N. unfold rem in E. pose proof (firstn_skipn (x_p x) (tp pat)) as X. rewrite E in X.
  destruct (exists_last N) as (b & e & ->). unfold tp in X. rewrite !app_assoc in X. apply app_inj_tail in X. destruct X as [X _].
  exists (firstn (x_p x) (pat ++ [NUL])), b. symmetry. rewrite app_assoc. exact X.
Qed.
Lemma cons_app {A} (c : A) s : c :: s = [c] ++ s.
Proof. reflexivity. Qed.
Lemma app_not_nil {A} (u s : list A) : s <> [] -> u ++ s <> [].
Proof. intros N E. apply app_eq_nil in E. destruct E. contradiction. Qed.
Hint Resolve app_not_nil : core.

Lemma go_escapechar t b x s n : limit t b -> s <> [] -> st x (t ++ s) n ->
  go (escapechar pat) x (fun d y => d = b /\ st y s (S n) /\ x_nodes y = x_nodes x).
Proof.
  intros H N S0. unfold escapechar. destruct H as [c P D|c d C|c D1 D2]; cbn [app] in S0.
  - apply (go_peek _ _ _ _ _ _ S0). rewrite (proj2 (aeqb_neq _ _) D). rewrite (proj2 (isprint_spec c) P). cbn [negb].
    apply (go_skip _ _ _ _ _ _ S0 N). intros y S1 E. apply go_ret. auto.
  - apply (go_peek _ _ _ _ _ _ S0). rewrite aeqb_refl. apply (go_skip _ _ _ _ _ _ S0); [discriminate|]. intros y S1 E.
    apply (go_peek _ _ _ _ _ _ S1). apply (go_skip _ _ _ _ _ _ S1 N). intros y2 S2 E2. apply go_ret.
    split; [|split; [eapply st_less; [exact S2|lia]|congruence]].
    destruct (control c) as [e|] eqn:Ec; [exact (control_unique _ _ _ (control_spec _ _ Ec) C)|].
    apply control_none in Ec. exfalso. apply Ec. cbn in C |- *. repeat (destruct C as [C|C]; [injection C as <- _; tauto|]). destruct C.
  - apply (go_peek _ _ _ _ _ _ S0). rewrite aeqb_refl. apply (go_skip _ _ _ _ _ _ S0); [discriminate|]. intros y S1 E.
    apply (go_peek _ _ _ _ _ _ S1). apply (go_skip _ _ _ _ _ _ S1 N). intros y2 S2 E2. apply go_ret.
    split; [|split; [eapply st_less; [exact S2|lia]|congruence]].
    destruct (control c) as [e|] eqn:Ec; [|reflexivity]. apply control_spec in Ec. exfalso. apply D2. cbn in Ec |- *.
    repeat (destruct Ec as [Ec|Ec]; [injection Ec as <- _; tauto|]). destruct Ec.
Qed.
Definition fresh (x : trex) (i : Z) (y : trex) (s : str) (n : nat) : Prop := i = zn (size x) /\ size y = S (size x) /\ st y s n.
Lemma go_charnode cls u x s n : 1 <= L -> s <> [] -> st x (u ++ s) n ->
  (exists c, u = [c] /\ printing c /\ c <> "\"%char \/ u = ["\"%char; c] /\ c <> NUL) ->
  go (charnode pat cls) x (fun i y => fresh x i y s n /\ exists nn, nd (x_nodes y) (size x) nn /\ x_nodes y <> [] /\
    (n_type nn <> OP_CCLASS \/ exists c, u = ["\"%char; c] /\ is_class c = true)).
Proof.
  intros L1 N S0 (c & [(-> & P & D)|(-> & D)]); unfold charnode; cbn [app] in S0.
  - apply (go_peek _ _ _ _ _ _ S0). rewrite (proj2 (aeqb_neq _ _) D). rewrite (proj2 (isprint_spec c) P). cbn [negb].
    apply (go_skip _ _ _ _ _ _ S0 N). intros y S1 E. apply (go_new _ _ _ _ _ L1 S1). intros y2 S2 (rt & E2).
    unfold fresh, size. rewrite E2, E, app_length. cbn [List.length].
    split; [split; [reflexivity|split; [lia|exact S2]]|]. eexists. split; [apply nd_new|]. split; [destruct (x_nodes x); discriminate|].
    left. cbn. pose proof (sgn_range c). unfold OP_CCLASS. lia.
  - apply (go_peek _ _ _ _ _ _ S0). rewrite aeqb_refl. apply (go_skip _ _ _ _ _ _ S0); [discriminate|]. intros y S1 E.
    apply (go_peek _ _ _ _ _ _ S1). destruct (control c) as [e|] eqn:Ec.
    + apply (go_skip _ _ _ _ _ _ S1 N). intros y2 S2 E2. apply (go_new _ _ _ _ _ L1 S2). intros y3 S3 (rt & E3).
      unfold fresh, size. rewrite E3, E2, E, app_length. cbn [List.length].
      split; [split; [reflexivity|split; [lia|eapply st_less; [exact S3|lia]]]|]. eexists. split; [apply nd_new|]. split; [destruct (x_nodes x); discriminate|].
      left. cbn. pose proof (sgn_range e). unfold OP_CCLASS. lia.
    + destruct (is_class c) eqn:Ek; [|destruct ((aeqb c "b" || aeqb c "B") && negb cls)].
      * apply (go_skip _ _ _ _ _ _ S1 N). intros y2 S2 E2. apply go_bind. apply (go_new _ _ _ _ _ L1 S2). intros y3 S3 (rt & E3).
        assert (Z3 : size y3 = S (size y2)) by (unfold size; rewrite E3, app_length; cbn [List.length]; lia).
        apply go_bind. eapply go_set; [|exact S3|]; [lia|]. intros y4 S4 C4. apply go_ret. destruct C4 as ((nn & N4 & N5) & _ & C4).
        unfold fresh. assert (size y2 = size x) as <- by (unfold size; congruence). split; [split; [reflexivity|split]|].
        -- rewrite <- Z3. unfold size. exact C4.
        -- eapply st_less; [exact S4|lia].
        -- eexists. split; [exact N5|]. split; [intros X; rewrite X in C4; rewrite E3, app_length in C4; cbn in C4; lia|]. right. exists c. auto.
      * apply go_bind. apply (go_new _ _ _ _ _ L1 S1). intros y3 S3 (rt & E3).
        assert (Z3 : size y3 = S (size y)) by (unfold size; rewrite E3, app_length; cbn [List.length]; lia).
        apply go_bind. eapply go_set; [|exact S3|]; [lia|]. intros y4 S4 C4. destruct C4 as ((nn & N4 & N5) & _ & C4).
        apply (go_skip _ _ _ _ _ _ S4 N). intros y5 S5 E5. apply go_ret.
        assert (nn = mkN OP_WB (-1) rt (-1)) as -> by (unfold nd in N4; rewrite E3 in N4; pose proof (nd_new (x_nodes y) (mkN OP_WB (-1) rt (-1))) as X; unfold nd in X; unfold size in N4; congruence).
        unfold fresh. assert (size y = size x) as <- by (unfold size; congruence). split; [split; [reflexivity|split]|].
        -- rewrite <- Z3. unfold size. rewrite E5. exact C4.
        -- eapply st_less; [exact S5|lia].
        -- eexists. rewrite E5. split; [exact N5|]. split; [intros X; rewrite X in C4; rewrite E3, app_length in C4; cbn in C4; lia|]. left. discriminate.
      * apply (go_skip _ _ _ _ _ _ S1 N). intros y2 S2 E2. apply (go_new _ _ _ _ _ L1 S2). intros y3 S3 (rt & E3).
        unfold fresh, size. rewrite E3, E2, E, app_length. cbn [List.length].
        split; [split; [reflexivity|split; [lia|eapply st_less; [exact S3|lia]]]|]. eexists. split; [apply nd_new|]. split; [destruct (x_nodes x); discriminate|].
        left. cbn. pose proof (sgn_range c). unfold OP_CCLASS. lia.
Qed.
Lemma changed_len (x y : trex) i f : changed (x_nodes x) (x_nodes y) i f -> size y = size x.
Proof. intros (_ & _ & H). exact H. Qed.
Lemma changed_keeps (x y : trex) i f k nn : changed (x_nodes x) (x_nodes y) i f -> k <> i -> nd (x_nodes x) k nn -> nd (x_nodes y) k nn.
Proof. intros (_ & H & _) D. unfold nd. rewrite (H k D). auto. Qed.
(** A member of a set is a character or an escape. *)
Lemma member_form minus u it : member minus u it ->
  (exists c, u = [c] /\ printing c /\ c <> "\"%char \/ u = ["\"%char; c] /\ c <> NUL) /\
  (exists c t, u = c :: t /\ c <> "]"%char /\ (minus = false -> c <> "-"%char)) /\
  (forall a, it = One a -> forall c, u = ["\"%char; c] -> is_class c = false).
Proof.
  intros [c P D M|c d C|k K0|c D1 D2].
  - split; [|split].
    + exists c. left. split; [reflexivity|]. split; [exact P|]. intros ->. apply D. cbn. tauto.
    + exists c, []. split; [reflexivity|]. split; [|exact M]. intros ->. apply D. cbn. tauto.
    + discriminate.
  - split; [|split].
    + exists c. right. split; [reflexivity|]. intros ->. cbn in C. intuition discriminate.
    + eexists _, _. split; [reflexivity|]. split; discriminate.
    + intros a _ c' [= <-]. destruct (is_class c) eqn:E; [|reflexivity]. apply is_class_spec in E. cbn in C.
      exfalso. repeat (destruct C as [C|C]; [injection C as <- _; cbn in E; intuition discriminate|]). destruct C.
  - split; [|split].
    + exists k. right. split; [reflexivity|]. intros ->. cbn in K0. intuition discriminate.
    + eexists _, _. split; [reflexivity|]. split; discriminate.
    + discriminate.
  - split; [|split].
    + exists c. right. split; [reflexivity|exact D1].
    + eexists _, _. split; [reflexivity|]. split; discriminate.
    + intros a _ c' [= <-]. destruct (is_class c) eqn:E; [|reflexivity]. apply is_class_spec in E. exfalso. apply D2. apply in_or_app. right. exact E.
Qed.
Lemma limit_form t b : limit t b -> exists d t', t = d :: t' /\ (32 <= sgn d)%Z.
Proof.
  intros [c P D|c d C|c D1 D2].
  - exists c, []. split; [reflexivity|]. destruct P as [P Q]. rewrite (sgn_ascii c) by lia. lia.
  - eexists _, _. split; [reflexivity|]. discriminate.
  - eexists _, _. split; [reflexivity|]. discriminate.
Qed.
Definition pending (x : trex) (minus : bool) (first : Z) : Prop :=
  if minus then first = (-1)%Z else exists f, first = zn f /\ f < size x.
Lemma zn_not_minus f : (zn f =? -1)%Z = false.
Proof. unfold zn. apply Z.eqb_neq. lia. Qed.
Lemma go_class_member fuel minus u it first ch x s : 1 <= L -> s <> [] -> member minus u it -> pending x minus first -> ch < size x ->
  st x (u ++ s) 0 -> forall Q,
  (forall i ch' y, st y s 0 -> size x <= size y -> i < size y -> ch' < size y -> ch' <> i ->
    (exists nn, nd (x_nodes y) i nn /\ (forall a, it = One a -> n_type nn <> OP_CCLASS)) ->
    go (class_loop fuel pat (zn i) (zn ch')) y Q) ->
  go (class_loop (S fuel) pat first (zn ch)) x Q.
Proof.
  intros L1 N M P Hc S0 Q K0. destruct (member_form _ _ _ M) as (F1 & (c & t & Eu & D1 & D2) & F3). cbn [class_loop].
  rewrite Eu in S0. cbn [app] in S0. apply (go_peek _ _ _ _ _ _ S0). rewrite (proj2 (aeqb_neq _ _) D1).
  assert (Pf : (first =? -1)%Z = minus). { destruct minus; cbn in P; [subst; reflexivity|]. destruct P as (f & -> & _). apply zn_not_minus. }
  rewrite Pf. assert (D : aeqb c "-" && negb minus = false).
  { destruct minus; [apply andb_false_r|]. rewrite (proj2 (aeqb_neq _ _) (D2 eq_refl)). reflexivity. }
  rewrite D. change (c :: t ++ s) with ((c :: t) ++ s) in S0. rewrite <- Eu in S0. destruct minus; cbn [negb]; cbn [pending] in P.
  - apply go_bind. eapply go_weaken; [exact (go_charnode true u x s 0 L1 N S0 F1)|]. intros i y [(-> & Z1 & S1) (nn & N1 & _ & T1)].
    apply K0; try assumption; try lia. exists nn. split; [exact N1|]. intros a Ea. destruct T1 as [T1|(d & E1 & E2)]; [exact T1|].
    rewrite (F3 a Ea d E1) in E2. discriminate.
  - destruct P as (f & -> & Hf). apply go_bind. eapply go_set; [|exact S0|]; [exact Hc|]. intros y S1 C1. pose proof (changed_len _ _ _ _ C1) as Z0.
    apply go_bind. eapply go_weaken; [exact (go_charnode true u y s 0 L1 N S1 F1)|]. intros i z [(-> & Z1 & S2) (nn & N1 & _ & T1)].
    apply K0; try assumption; try lia. exists nn. split; [exact N1|]. intros a Ea. destruct T1 as [T1|(d & E1 & E2)]; [exact T1|].
    rewrite (F3 a Ea d E1) in E2. discriminate.
Qed.
Lemma go_class_loop minus u its : members minus u its -> forall fuel first ch x s, 1 <= L -> pending x minus first -> ch < size x ->
  st x (u ++ "]"%char :: s) 0 -> List.length u < fuel ->
  go (class_loop fuel pat first (zn ch)) x (fun r y => st y ("]"%char :: s) 0 /\ size x <= size y /\ (exists c, snd r = zn c /\ c < size y) /\
    (fst r = (-1)%Z \/ exists f, fst r = zn f /\ f < size y)).
Proof.
  induction 1 as [minus|minus u it rest its M Ms IH|minus u a t b rest its M Lm Ms IH]; intros fuel first ch x s L1 P Hc S0 F.
  - destruct fuel as [|fuel]; [lia|]. cbn [class_loop]. cbn [app] in S0. apply (go_peek _ _ _ _ _ _ S0). rewrite aeqb_refl. apply go_ret. cbn [fst snd].
    split; [exact S0|]. split; [lia|]. split; [eauto|]. destruct minus; cbn in P; [left; exact P|right; exact P].
  - destruct fuel as [|fuel]; [lia|]. rewrite <- app_assoc in S0. rewrite app_length in F.
    assert (Lu : 1 <= List.length u) by (destruct (member_form _ _ _ M) as (_ & (c & t & -> & _) & _); cbn; lia).
    eapply go_class_member; [exact L1| |exact M|exact P|exact Hc|exact S0|]; [apply app_not_nil; discriminate|].
    intros i ch' y S1 Z1 Hi Hc' _ _. eapply go_weaken; [apply (IH fuel (zn i) ch' y s L1); try assumption; [exists i; auto|lia]|].
    intros r z (A & B & C). split; [exact A|]. split; [lia|exact C].
  - destruct fuel as [|fuel]; [lia|]. rewrite <- !app_assoc in S0. rewrite !app_length in F. cbn [List.length lit list_ascii_of_string] in F.
    assert (Lu : 1 <= List.length u) by (destruct (member_form _ _ _ M) as (_ & (c & t' & -> & _) & _); cbn; lia).
    eapply go_class_member; [exact L1| |exact M|exact P|exact Hc|exact S0|]; [discriminate|].
    intros i ch' y S1 Z1 Hi Hc' Dc (nn & N1 & T1). destruct fuel as [|fuel]; [lia|]. cbn [class_loop]. cbn [lit list_ascii_of_string app] in S1.
    apply (go_peek _ _ _ _ _ _ S1). change (aeqb "-" "]") with false. change (aeqb "-" "-") with true. rewrite zn_not_minus. cbn [negb andb]. cbv iota.
    assert (Nr : rest ++ "]"%char :: s <> []) by (apply app_not_nil; discriminate).
    apply (go_skip _ _ _ _ _ _ S1); [apply app_not_nil; exact Nr|]. intros y2 S2 E2. apply go_bind. apply (go_new _ _ _ _ _ L1 S2).
    intros y3 S3 (rt & E3). destruct (limit_form _ _ Lm) as (d & t' & Et & Ht). assert (S3' := S3). rewrite Et in S3'. cbn [app] in S3'.
    apply (go_peek _ _ _ _ _ _ S3').
    assert (Zy : size y2 = size y) by (unfold size; congruence).
    assert (Z3 : size y3 = S (size y)) by (unfold size in *; rewrite E3, app_length; cbn [List.length]; lia).
    assert (Hd : (sgn d <? zn i)%Z = false).
    { apply Z.ltb_ge. destruct Hdash as [Hd|Hd].
      - exfalso. apply Hd. change ("-"%char :: t ++ rest ++ "]"%char :: s) with ([("-"%char)] ++ (t ++ rest ++ "]"%char :: s)) in S1.
        apply (st_in _ _ _ _ _ S1); [apply app_not_nil; exact Nr|left; reflexivity].
      - destruct (st_p _ _ _ S1) as [X _]. destruct S1 as (_ & _ & X1 & _). unfold zn. lia. }
    rewrite Hd. apply go_bind.
    assert (N3 : nd (x_nodes y3) i nn) by (rewrite E3, E2; apply nd_app; exact N1).
    apply (go_node _ _ _ _ N3). rewrite (proj2 (Z.eqb_neq _ _) (T1 a eq_refl)).
    apply go_bind. eapply go_set; [|exact S3|]; [lia|]. intros y4 S4 C4. pose proof (changed_len _ _ _ _ C4) as Z4.
    apply go_bind. eapply go_weaken; [exact (go_escapechar t b y4 _ _ Lm Nr S4)|]. intros tt' y5 (-> & S5 & E5).
    assert (Z5 : size y5 = size y4) by (unfold size; congruence).
    apply go_bind. eapply go_set; [|exact S5|]; [lia|]. intros y6 S6 C6. pose proof (changed_len _ _ _ _ C6) as Z6.
    apply go_bind. eapply go_set; [|exact S6|]; [lia|]. intros y7 S7 C7. pose proof (changed_len _ _ _ _ C7) as Z7.
    eapply go_weaken; [apply (IH fuel (-1)%Z (size y2) y7 s L1); [reflexivity|lia|eapply st_less; [exact S7|lia]|lia]|].
    intros r z (A & B & C). split; [exact A|]. split; [lia|exact C].
Qed.
Lemma go_class u its (out : bool) fuel x s : 1 <= L -> its <> [] -> members true u its -> (out = false -> hd_error u <> Some "^"%char) ->
  st x ((if out then lit "^" else []) ++ u ++ "]"%char :: s) 1 -> List.length u < fuel ->
  go (class fuel pat) x (fun i y => i = zn (size x) /\ size x < size y /\ st y ("]"%char :: s) 0).
Proof.
  intros L1 Ni M Hh S0 F. unfold class.
  assert (Hd : exists c t, u = c :: t /\ c <> "]"%char).
  { inversion M as [|m s0 it rest its0 M0 _|m s0 a t b rest its0 M0 _ _]; subst; [contradiction| |];
      destruct (member_form _ _ _ M0) as (_ & (c & t' & -> & D & _) & _); eexists _, _; split; try reflexivity; exact D. }
  destruct Hd as (c & t & Eu & Dc).
  assert (X : go (do c0 <- peek pat; (if aeqb c0 "^" then do n <- newnode OP_NCLASS; do_ skip; ret n else newnode OP_CLASS)) x
     (fun i y => i = zn (size x) /\ size y = S (size x) /\ st y (u ++ "]"%char :: s) 0)).
  { destruct out; cbn [lit list_ascii_of_string app] in S0.
    - apply (go_peek _ _ _ _ _ _ S0). change (aeqb "^" "^") with true. cbv iota. apply go_bind. apply (go_new _ _ _ _ _ L1 S0). intros y S1 (rt & E1).
      apply (go_skip _ _ _ _ _ _ S1); [apply app_not_nil; discriminate|]. intros z S2 E2. apply go_ret.
      split; [reflexivity|]. split; [unfold size in *; rewrite E2, E1, app_length; cbn [List.length]; lia|eapply st_less; [exact S2|lia]].
    - assert (S0' := S0). rewrite Eu in S0'. cbn [app] in S0'. apply (go_peek _ _ _ _ _ _ S0').
      assert (D : c <> "^"%char) by (intros ->; apply (Hh eq_refl); rewrite Eu; reflexivity). rewrite (proj2 (aeqb_neq _ _) D).
      apply (go_new _ _ _ _ _ L1 S0). intros y S1 (rt & E1). split; [reflexivity|]. split; [unfold size in *; rewrite E1, app_length; cbn [List.length]; lia|exact S1]. }
  destruct X as (r & y & E & -> & Z1 & S1).
  apply bind_inv in E. destruct E as (c0 & z0 & Ep & E). destruct (peek_inv _ _ _ _ Ep) as (-> & _).
  apply go_bind. exists c0, x. split; [exact Ep|]. apply go_bind. exists (zn (size x)), y. split; [exact E|].
  assert (S1' := S1). rewrite Eu in S1'. cbn [app] in S1'. apply (go_peek _ _ _ _ _ _ S1'). rewrite (proj2 (aeqb_neq _ _) Dc).
  apply go_bind. eapply go_weaken; [apply (go_class_loop true u its M fuel (-1)%Z (size x) y s L1); [reflexivity|lia|exact S1|exact F]|].
  intros [f ch] z (S2 & Z2 & (ch' & E1 & Hch) & Hf). cbn [fst snd] in *. subst ch.
  assert (Y : go (if (f =? -1)%Z then ret tt else set (zn ch') (with_next f)) z (fun _ w => st w ("]"%char :: s) 0 /\ size w = size z)).
  { destruct Hf as [->|(f' & -> & Hf)].
    - apply go_ret. auto.
    - rewrite zn_not_minus. eapply go_set; [exact Hch|exact S2|]. intros w S3 C3. split; [exact S3|exact (changed_len _ _ _ _ C3)]. }
  apply go_bind. eapply go_weaken; [exact Y|]. intros _ w (S3 & Z3).
  assert (exists nn, nd (x_nodes w) (size x) nn) as (nn & Hn).
  { unfold nd. destruct (nth_error (x_nodes w) (size x)) eqn:E1; [eauto|]. apply nth_error_None in E1. unfold size in *. lia. }
  apply go_bind. apply (go_node _ _ _ _ Hn).
  apply go_bind. eapply go_set; [|exact S3|]; [lia|]. intros w1 S4 C4. pose proof (changed_len _ _ _ _ C4) as Z4.
  apply go_bind. eapply go_set; [|exact S4|]; [lia|]. intros w2 S5 C5. pose proof (changed_len _ _ _ _ C5) as Z5.
  apply go_ret. split; [reflexivity|]. split; [lia|exact S5].
Qed.

(** ** Numbers *)
Lemma digit_range c : digit c = true -> (48 <= code c <= 57)%N.
Proof. unfold digit, lies. intros H. apply andb_true_iff in H. rewrite !N.leb_le in H. exact H. Qed.
Lemma go_number_loop ds : Forall (fun d => digit d = true) ds -> forall fuel v a x c s n, digit c = false ->
  st x (ds ++ c :: s) n -> List.length ds < fuel -> (0 <= v < 10 ^ Z.of_nat a)%Z -> 1 <= a -> a + List.length ds <= 4 ->
  go (number_loop fuel pat v (10 ^ Z.of_nat a)) x (fun w y => (0 <= w < 10000)%Z /\ st y (c :: s) n /\ x_nodes y = x_nodes x).
Proof.
  induction 1 as [|d ds Hd Hds IH]; intros fuel v a x c s n Dc S0 F Hv Ha La; (destruct fuel as [|fuel]; [cbn in F; lia|]); cbn [number_loop].
  - cbn [app] in S0. apply (go_peek _ _ _ _ _ _ S0). rewrite isdigit_spec, Dc. apply go_ret. split; [|auto]. cbn [List.length] in La.
    assert (10 ^ Z.of_nat a <= 10 ^ 4)%Z by (apply Z.pow_le_mono_r; lia). change (10 ^ 4)%Z with 10000%Z in H. lia.
  - cbn [app] in S0. apply (go_peek _ _ _ _ _ _ S0). rewrite isdigit_spec, Hd. cbn [List.length] in La, F.
    pose proof (digit_range d Hd) as Rd. assert (Sd : sgn d = Z.of_N (code d)) by (apply sgn_ascii; lia).
    assert (P1 : (10 ^ Z.of_nat (S a) = 10 * 10 ^ Z.of_nat a)%Z) by (rewrite Nat2Z.inj_succ, Z.pow_succ_r by lia; reflexivity).
    assert (P2 : (10 ^ Z.of_nat (S a) <= 10 ^ 4)%Z) by (apply Z.pow_le_mono_r; lia). change (10 ^ 4)%Z with 10000%Z in P2.
    assert (I1 : in_int (v * 10) = true) by (unfold in_int, INT_MAX, INT_MIN; rewrite andb_true_iff, !Z.leb_le; lia).
    assert (I2 : in_int (v * 10 + (sgn d - 48)) = true) by (unfold in_int, INT_MAX, INT_MIN; rewrite andb_true_iff, !Z.leb_le; lia).
    assert (I3 : in_int (10 ^ Z.of_nat a * 10) = true) by (unfold in_int, INT_MAX, INT_MIN; rewrite andb_true_iff, !Z.leb_le; lia).
    unfold int_op. rewrite I1. apply go_bind. eexists _, _. split; [reflexivity|]. rewrite I2. apply go_bind. eexists _, _. split; [reflexivity|].
    apply (go_skip _ _ _ _ _ _ S0); [apply app_not_nil; discriminate|]. intros y S1 E1.
    rewrite (proj2 (Z.eqb_neq _ _)) by lia. rewrite I3. apply go_bind. eexists _, _. split; [reflexivity|].
    replace (10 ^ Z.of_nat a * 10)%Z with (10 ^ Z.of_nat (S a))%Z by lia.
    eapply go_weaken; [apply (IH fuel (v * 10 + (sgn d - 48))%Z (S a) y c s (S n) Dc S1); lia|].
    intros w z (A & B & C). split; [exact A|]. split; [eapply st_less; [exact B|lia]|congruence].
Qed.
Lemma go_parsenumber ds fuel x c s n : digits ds -> digit c = false -> st x (ds ++ c :: s) n -> List.length ds <= fuel ->
  go (parsenumber fuel pat) x (fun w y => (0 <= w < 10000)%Z /\ st y (c :: s) n /\ x_nodes y = x_nodes x).
Proof.
  intros [Nd Hds] Dc S0 F. assert (Ld : List.length ds <= 4).
  { destruct (st_part _ _ _ _ S0) as (a & b & E); [discriminate|]. exact (Hdig a ds b E Hds). }
  destruct ds as [|d ds]; [contradiction|]. inversion Hds as [|? ? Hd Hds']; subst. cbn [List.length] in *. unfold parsenumber. cbn [app] in S0.
  apply (go_peek _ _ _ _ _ _ S0). apply (go_skip _ _ _ _ _ _ S0); [apply app_not_nil; discriminate|]. intros y S1 E1.
  pose proof (digit_range d Hd) as Rd. assert (Sd : sgn d = Z.of_N (code d)) by (apply sgn_ascii; lia).
  change 10%Z with (10 ^ Z.of_nat 1)%Z. eapply go_weaken; [apply (go_number_loop ds Hds' fuel (sgn d - 48)%Z 1 y c s (S n) Dc S1)|].
  - lia.
  - replace (10 ^ Z.of_nat 1)%Z with 10%Z by reflexivity. lia.
  - lia.
  - lia.
  - intros w z (A & B & C). split; [exact A|]. split; [eapply st_less; [exact B|lia]|congruence].
Qed.
Lemma digits_head ds c s : digits ds -> exists d t, ds ++ c :: s = d :: t /\ isdigit d = true.
Proof. intros [N H]. destruct ds as [|d ds]; [contradiction|]. inversion H; subst. eexists _, _. split; [reflexivity|assumption]. Qed.
Lemma go_repetition u min max fuel x s n : count u min max -> s <> [] -> st x (u ++ s) n -> List.length u <= fuel ->
  go (repetition fuel pat) x (fun o y => (exists p0 p1, o = Some (p0, p1) /\ (0 <= p0 < 32768)%Z) /\ st y s (S n) /\ x_nodes y = x_nodes x).
Proof.
  intros C N S0 F. unfold repetition. destruct C as [| | |ds D|ds D|ds es D De].
  - cbn [lit list_ascii_of_string app] in S0. apply (go_peek _ _ _ _ _ _ S0). change (aeqb "*" "*") with true. cbv iota.
    apply (go_skip _ _ _ _ _ _ S0 N). intros y S1 E1. apply go_ret. split; [eexists _, _; split; [reflexivity|lia]|auto].
  - cbn [lit list_ascii_of_string app] in S0. apply (go_peek _ _ _ _ _ _ S0). change (aeqb "+" "*") with false. change (aeqb "+" "+") with true. cbv iota.
    apply (go_skip _ _ _ _ _ _ S0 N). intros y S1 E1. apply go_ret. split; [eexists _, _; split; [reflexivity|lia]|auto].
  - cbn [lit list_ascii_of_string app] in S0. apply (go_peek _ _ _ _ _ _ S0). change (aeqb "?" "*") with false. change (aeqb "?" "+") with false. change (aeqb "?" "?") with true. cbv iota.
    apply (go_skip _ _ _ _ _ _ S0 N). intros y S1 E1. apply go_ret. split; [eexists _, _; split; [reflexivity|lia]|auto].
  - rewrite <- !app_assoc in S0. rewrite !app_length in F. cbn [lit list_ascii_of_string app List.length] in S0, F. apply (go_peek _ _ _ _ _ _ S0). change (aeqb "{" "*") with false. change (aeqb "{" "+") with false. change (aeqb "{" "?") with false. change (aeqb "{" "{") with true. cbv iota.
    apply (go_skip _ _ _ _ _ _ S0); [apply app_not_nil; discriminate|]. intros y S1 E1.
    destruct (digits_head ds "}"%char s D) as (d & t & Et & Hd). assert (S1' := S1). rewrite Et in S1'. apply (go_peek _ _ _ _ _ _ S1').
    rewrite Hd. cbn [negb]. apply go_bind. eapply go_weaken; [apply (go_parsenumber ds fuel y "}"%char s (S n) D eq_refl S1); lia|].
    intros w z (A & S2 & E2). cbv zeta. apply (go_peek _ _ _ _ _ _ S2). change (aeqb "}" "}") with true. cbv iota.
    apply (go_skip _ _ _ _ _ _ S2 N). intros z2 S3 E3. apply go_ret. split; [eexists _, _; split; [reflexivity|]|].
    + unfold cast_u16. rewrite Z.mod_small by lia. lia.
    + split; [eapply st_less; [exact S3|lia]|congruence].
  - rewrite <- !app_assoc in S0. rewrite !app_length in F. cbn [lit list_ascii_of_string app List.length] in S0, F. apply (go_peek _ _ _ _ _ _ S0). change (aeqb "{" "*") with false. change (aeqb "{" "+") with false. change (aeqb "{" "?") with false. change (aeqb "{" "{") with true. cbv iota.
    apply (go_skip _ _ _ _ _ _ S0); [apply app_not_nil; discriminate|]. intros y S1 E1.
    destruct (digits_head ds ","%char ("}"%char :: s) D) as (d & t & Et & Hd). assert (S1' := S1). rewrite Et in S1'. apply (go_peek _ _ _ _ _ _ S1').
    rewrite Hd. cbn [negb]. apply go_bind. eapply go_weaken; [apply (go_parsenumber ds fuel y ","%char ("}"%char :: s) (S n) D eq_refl S1); lia|].
    intros w z (A & S2 & E2). cbv zeta. apply (go_peek _ _ _ _ _ _ S2). change (aeqb "," "}") with false. change (aeqb "," ",") with true. cbv iota.
    apply (go_skip _ _ _ _ _ _ S2); [discriminate|]. intros z2 S3 E3. apply (go_peek _ _ _ _ _ _ S3). change (isdigit "}") with false. cbv iota.
    apply go_bind. apply go_ret. apply go_bind. apply (go_expect _ _ _ _ _ S3 N). intros z3 S4 E4. apply go_ret. split; [eexists _, _; split; [reflexivity|]|].
    + unfold cast_u16. rewrite Z.mod_small by lia. lia.
    + split; [eapply st_less; [exact S4|lia]|congruence].
  - rewrite <- !app_assoc in S0. rewrite !app_length in F. cbn [lit list_ascii_of_string app List.length] in S0, F. apply (go_peek _ _ _ _ _ _ S0). change (aeqb "{" "*") with false. change (aeqb "{" "+") with false. change (aeqb "{" "?") with false. change (aeqb "{" "{") with true. cbv iota.
    apply (go_skip _ _ _ _ _ _ S0); [apply app_not_nil; discriminate|]. intros y S1 E1.
    destruct (digits_head ds ","%char (es ++ "}"%char :: s) D) as (d & t & Et & Hd). assert (S1' := S1). rewrite Et in S1'. apply (go_peek _ _ _ _ _ _ S1').
    rewrite Hd. cbn [negb]. apply go_bind. eapply go_weaken; [apply (go_parsenumber ds fuel y ","%char (es ++ "}"%char :: s) (S n) D eq_refl S1); lia|].
    intros w z (A & S2 & E2). cbv zeta. apply (go_peek _ _ _ _ _ _ S2). change (aeqb "," "}") with false. change (aeqb "," ",") with true. cbv iota.
    apply (go_skip _ _ _ _ _ _ S2); [apply app_not_nil; discriminate|]. intros z2 S3 E3.
    destruct (digits_head es "}"%char s De) as (d2 & t2 & Et2 & Hd2). assert (S3' := S3). rewrite Et2 in S3'. apply (go_peek _ _ _ _ _ _ S3').
    rewrite Hd2. apply go_bind. apply go_bind. eapply go_weaken; [apply (go_parsenumber es fuel z2 "}"%char s _ De eq_refl S3); lia|].
    intros w2 z4 (A2 & S4 & E4). apply go_ret. apply go_bind. apply (go_expect _ _ _ _ _ S4 N). intros z5 S5 E5. apply go_ret. split; [eexists _, _; split; [reflexivity|]|].
    + unfold cast_u16. rewrite Z.mod_small by lia. lia.
    + split; [eapply st_less; [exact S5|lia]|congruence].
Qed.
Lemma go_no_repetition fuel x c s n : ~ In c (lit "*+?{") -> st x (c :: s) n -> go (repetition fuel pat) x (fun o y => o = None /\ y = x).
Proof.
  intros D S0. unfold repetition. apply (go_peek _ _ _ _ _ _ S0). cbn in D.
  rewrite !(proj2 (aeqb_neq c _)) by (intros ->; tauto). apply go_ret. auto.
Qed.

(** ** Expressions *)
Definition atom_p (fuel : nat) : pm Z :=
  do c <- peek pat;
  if aeqb c "(" then
    do_ skip; do d <- peek pat;
    do e <- (if aeqb d "?" then do_ skip; do_ expect pat ":"; newnode OP_NOCAPEXPR else newnode OP_EXPR);
    do l <- list_ fuel pat; do_ set e (with_left l); do_ expect pat ")"; ret e
  else if aeqb c "[" then do_ skip; do e <- class fuel pat; do_ expect pat "]"; ret e
  else if aeqb c "$" then do_ skip; newnode OP_EOL
  else if aeqb c "." then do_ skip; newnode OP_DOT
  else charnode pat false.
Definition rep_p (r : Z) (p : option (Z * Z)) : pm Z :=
  match p with
  | Some (p0, p1) => do n <- newnode OP_GREEDY; do_ set n (with_left r); do b <- of_cres (pack p0 p1);
                    do_ set n (with_right b); ret n
  | None => ret r
  end.
Definition tail_p (fuel : nat) (r : Z) : pm Z :=
  do c <- peek pat;
  if aeqb c "|" || aeqb c ")" || aeqb c "*" || aeqb c "+" || aeqb c NUL then ret r
  else do n <- element fuel pat; do_ set r (with_next n); ret r.
Lemma go_element fuel x Q : go (atom_p fuel) x (fun r y => go (repetition fuel pat) y (fun p z => go (rep_p r p) z (fun r' w => go (tail_p fuel r') w Q))) ->
  go (element (S fuel) pat) x Q.
Proof.
  intros H. cbn [element]. destruct H as (r & y & E & H). unfold atom_p in E. apply bind_inv in E. destruct E as (c & z & E1 & E2).
  destruct (peek_inv _ _ _ _ E1) as (-> & _). apply go_bind. exists c, x. split; [exact E1|]. apply go_bind. exists r, y. split; [exact E2|].
  apply go_bind. eapply go_weaken; [exact H|]. intros p w H2. apply go_bind. eapply go_weaken; [exact H2|]. intros r' w' H3. exact H3.
Qed.
Definition got (x : trex) (i : Z) (y : trex) (s : str) : Prop := (exists j, i = zn j /\ j < size y) /\ size x <= size y /\ st y s 0.
(** What may come behind: the end, or what ends a chain or a list. *)
Definition closed (lv : level) (s : str) : Prop :=
  match lv with
  | Atom => s <> []
  | Chain => exists c t, s = c :: t /\ In c [NUL; ")"%char; "|"%char]
  | List_ => exists c t, s = c :: t /\ In c [NUL; ")"%char]
  end.
Lemma closed_not_nil lv s : closed lv s -> s <> [].
Proof. destruct lv; cbn; [auto| |]; intros (c & t & -> & _); discriminate. Qed.
Definition need (lv : level) (x : trex) : nat :=
  match lv with Atom => 2 * (S L - x_p x) | Chain => S (2 * (S L - x_p x)) | List_ => S (S (2 * (S L - x_p x))) end.
Definition run (lv : level) (fuel : nat) : pm Z := match lv with Atom => atom_p fuel | Chain => element fuel pat | List_ => list_ fuel pat end.
Lemma go_tail_end fuel j x s n : closed Chain s -> st x s n -> go (tail_p fuel (zn j)) x (fun i y => i = zn j /\ y = x).
Proof.
  intros (c & t & -> & I0) S0. unfold tail_p. apply (go_peek _ _ _ _ _ _ S0). cbn in I0.
  assert (X : aeqb c "|" || aeqb c ")" || aeqb c "*" || aeqb c "+" || aeqb c NUL = true) by (destruct I0 as [<-|[<-|[<-|[]]]]; reflexivity).
  rewrite X. apply go_ret. auto.
Qed.
Lemma go_tail_more fuel j x c t s n : ~ In c (lit "|)*+") -> st x ((c :: t) ++ s) n -> s <> [] -> j < size x ->
  go (element fuel pat) x (fun i y => got x i y s) -> go (tail_p fuel (zn j)) x (fun i y => got x i y s).
Proof.
  intros D S0 N Hj H. unfold tail_p. assert (Nc : c <> NUL).
  { intros ->. pose proof (st_in _ _ _ _ _ S0 N (or_introl eq_refl)) as X. exact (Hpat X). }
  cbn [app] in S0. apply (go_peek _ _ _ _ _ _ S0). cbn in D.
  rewrite !(proj2 (aeqb_neq c _)) by (first [exact Nc|intros ->; tauto]). cbn [orb].
  apply go_bind. eapply go_weaken; [exact H|]. intros i y ((k & -> & Hk) & Z1 & S1). apply go_bind.
  eapply go_set; [|exact S1|]; [lia|]. intros z S2 C2. apply go_ret. pose proof (changed_len _ _ _ _ C2). split; [exists j; split; [reflexivity|lia]|].
  split; [lia|exact S2].
Qed.
Lemma go_rep_p j p0 p1 x s : 1 <= L -> (0 <= p0 < 32768)%Z -> st x s 1 -> go (rep_p (zn j) (Some (p0, p1))) x (fun i y => got x i y s).
Proof.
  intros L1 H S0. unfold rep_p. apply go_bind. apply (go_new _ _ _ _ _ L1 S0). intros y S1 (rt & E1).
  assert (Z1 : size y = S (size x)) by (unfold size; rewrite E1, app_length; cbn [List.length]; lia).
  apply go_bind. eapply go_set; [|exact S1|]; [lia|]. intros z S2 C2. pose proof (changed_len _ _ _ _ C2) as Z2.
  assert (exists b, pack p0 p1 = Val b) as (b & Hb).
  { unfold pack, int_op. assert (in_int (Z.shiftl p0 16) = true) as ->; [|cbn; eauto].
    rewrite Z.shiftl_mul_pow2 by lia. change (2 ^ 16)%Z with 65536%Z. unfold in_int, INT_MAX, INT_MIN. rewrite andb_true_iff, !Z.leb_le. lia. }
  rewrite Hb. apply go_bind. eexists _, _. split; [reflexivity|]. apply go_bind. eapply go_set; [|exact S2|]; [lia|]. intros w S3 C3.
  pose proof (changed_len _ _ _ _ C3) as Z3. apply go_ret. split; [exists (size x); split; [reflexivity|lia]|]. split; [lia|exact S3].
Qed.
Lemma go_new_got t x s : 1 <= L -> st x s 1 -> go (newnode t) x (fun i y => got x i y s).
Proof.
  intros L1 S0. apply (go_new _ _ _ _ _ L1 S0). intros y S1 (rt & E1).
  assert (Z1 : size y = S (size x)) by (unfold size; rewrite E1, app_length; cbn [List.length]; lia).
  split; [exists (size x); split; [reflexivity|lia]|]. split; [lia|exact S1].
Qed.
Lemma go_atom_char fuel u x s : 1 <= L -> s <> [] -> st x (u ++ s) 0 ->
  (exists c, u = [c] /\ printing c /\ ~ In c specials \/ u = ["\"%char; c] /\ c <> NUL) -> go (atom_p fuel) x (fun i y => got x i y s).
Proof.
  intros L1 N S0 (c & Hc). unfold atom_p.
  assert (Hh : exists d t, u ++ s = d :: t /\ ~ In d (lit "([$.")).
  { destruct Hc as [(-> & _ & H)|(-> & _)]; eexists _, _; (split; [reflexivity|]); [|cbn; intuition discriminate].
    intros X. apply H. cbn in X |- *. tauto. }
  destruct Hh as (d & t & E & D). assert (S0' := S0). rewrite E in S0'. apply (go_peek _ _ _ _ _ _ S0'). cbn in D.
  rewrite !(proj2 (aeqb_neq d _)) by (intros ->; tauto).
  eapply go_weaken; [apply (go_charnode false u x s 0 L1 N S0)|].
  - exists c. destruct Hc as [(-> & P & H)|(-> & H)]; [left|right; auto]. split; [reflexivity|]. split; [exact P|]. intros ->. apply H. cbn. tauto.
  - intros i y [(-> & Z1 & S1) _]. split; [exists (size x); split; [reflexivity|lia]|]. split; [lia|exact S1].
Qed.
Lemma got_trans x y z i s s' j : got x j y s' -> got y i z s -> got x i z s.
Proof. intros (_ & A & _) (B & C & D). split; [exact B|]. split; [lia|exact D]. Qed.
Lemma behind_head (b : bool) t q : written Chain (behind b) t q -> exists c t', t = c :: t' /\ ~ In c (lit "|)*+" ++ if b then [] else lit "?{").
Proof.
  intros W. destruct (written_head _ _ _ _ W) as (c & t' & -> & D). exists c, t'. split; [reflexivity|]. intros X.
  destruct D as [D|[D|[D _]]]; [|exact (D X)|discriminate]. destruct b; cbn in X, D; intuition (subst; discriminate).
Qed.
Lemma go_run lv av u r : written lv av u r -> (lv = List_ -> In "^"%char av) -> forall fuel x s, 1 <= L -> closed lv s -> need lv x <= fuel ->
  st x (u ++ s) 0 -> go (run lv fuel) x (fun i y => got x i y s).
Proof.
  induction 1 as [av c P D|av c d C|av k K|av|av|av c N D|av|av|av u its N Hd M|av u its N M|av u q W IH|av u q W IH
    |av u r W IH|av u r c min max W IH Cn|av u r t q W IH W2 IH2|av u r c min max t q W IH Cn W2 IH2
    |av u r W IH|av u r W IH|av u r t q W IH W2 IH2|av u r t q W IH W2 IH2]; intros An fuel x s L1 Cl F S0; pose proof (closed_not_nil _ _ Cl) as Ns;
    cbn [run]; cbn [need] in F.
  - apply (go_atom_char fuel [c] x s L1 Ns S0). exists c. left. split; [reflexivity|]. split; [exact P|]. intros X. apply D. apply in_or_app. left. exact X.
  - apply (go_atom_char fuel ["\"%char; c] x s L1 Ns S0). exists c. right. split; [reflexivity|]. intros ->. cbn in C. intuition discriminate.
  - apply (go_atom_char fuel ["\"%char; k] x s L1 Ns S0). exists k. right. split; [reflexivity|]. intros ->. cbn in K. intuition discriminate.
  - apply (go_atom_char fuel ["\"%char; "b"%char] x s L1 Ns S0). exists "b"%char. right. split; [reflexivity|discriminate].
  - apply (go_atom_char fuel ["\"%char; "B"%char] x s L1 Ns S0). exists "B"%char. right. split; [reflexivity|discriminate].
  - apply (go_atom_char fuel ["\"%char; c] x s L1 Ns S0). exists c. right. split; [reflexivity|exact N].
  - unfold atom_p. cbn [lit list_ascii_of_string app] in S0. apply (go_peek _ _ _ _ _ _ S0). change (aeqb "." "(") with false. change (aeqb "." "[") with false.
    change (aeqb "." "$") with false. change (aeqb "." ".") with true. cbv iota. apply (go_skip _ _ _ _ _ _ S0 Ns). intros y S1 E1.
    eapply go_weaken; [exact (go_new_got _ _ _ L1 S1)|]. intros i z (A & B & C). split; [exact A|]. split; [unfold size in *; rewrite E1 in B; exact B|exact C].
  - unfold atom_p. cbn [lit list_ascii_of_string app] in S0. apply (go_peek _ _ _ _ _ _ S0). change (aeqb "$" "(") with false. change (aeqb "$" "[") with false.
    change (aeqb "$" "$") with true. cbv iota. apply (go_skip _ _ _ _ _ _ S0 Ns). intros y S1 E1.
    eapply go_weaken; [exact (go_new_got _ _ _ L1 S1)|]. intros i z (A & B & C). split; [exact A|]. split; [unfold size in *; rewrite E1 in B; exact B|exact C].
  - unfold atom_p. rewrite <- !app_assoc in S0. cbn [lit list_ascii_of_string app] in S0. apply (go_peek _ _ _ _ _ _ S0). change (aeqb "[" "(") with false.
    change (aeqb "[" "[") with true. cbv iota. apply (go_skip _ _ _ _ _ _ S0); [apply app_not_nil; discriminate|]. intros y S1 E1.
    destruct (st_p _ _ _ S0) as [Q1 Q2]. cbn [List.length] in Q2. rewrite app_length in Q2. cbn [List.length] in Q2.
    apply go_bind. eapply go_weaken; [apply (go_class u its false fuel y s L1 N M (fun _ => Hd) S1); lia|]. intros i z (-> & Z1 & S2).
    apply go_bind. apply (go_expect _ _ _ _ _ S2 Ns). intros w S3 E3. apply go_ret.
    assert (size w = size z) by (unfold size; congruence). assert (size y = size x) by (unfold size; congruence).
    split; [exists (size y); split; [reflexivity|lia]|]. split; [lia|eapply st_less; [exact S3|lia]].
  - unfold atom_p. rewrite <- !app_assoc in S0. cbn [lit list_ascii_of_string app] in S0. apply (go_peek _ _ _ _ _ _ S0). change (aeqb "[" "(") with false.
    change (aeqb "[" "[") with true. cbv iota. apply (go_skip _ _ _ _ _ _ S0); [discriminate|]. intros y S1 E1.
    destruct (st_p _ _ _ S0) as [Q1 Q2]. cbn [List.length] in Q2. rewrite app_length in Q2. cbn [List.length] in Q2.
    apply go_bind. eapply go_weaken; [apply (go_class u its true fuel y s L1 N M); [discriminate|exact S1|lia]|]. intros i z (-> & Z1 & S2).
    apply go_bind. apply (go_expect _ _ _ _ _ S2 Ns). intros w S3 E3. apply go_ret.
    assert (size w = size z) by (unfold size; congruence). assert (size y = size x) by (unfold size; congruence).
    split; [exists (size y); split; [reflexivity|lia]|]. split; [lia|eapply st_less; [exact S3|lia]].
  - unfold atom_p. rewrite <- !app_assoc in S0. cbn [lit list_ascii_of_string app] in S0. apply (go_peek _ _ _ _ _ _ S0). change (aeqb "(" "(") with true. cbv iota.
    apply (go_skip _ _ _ _ _ _ S0); [apply app_not_nil; discriminate|]. intros y S1 E1.
    destruct (st_p _ _ _ S0) as [Q1 Q2]. destruct (st_p _ _ _ S1) as [Q3 Q4]. cbn [List.length] in Q2.
    destruct (written_head _ _ _ _ W) as (c & t & Eu & _).
    assert (Dc : c <> "?"%char) by (intros ->; apply (head_not _ _ _ _ "?" t W); [cbn; tauto|cbn; intuition discriminate|discriminate|exact Eu]).
    assert (S1' := S1). rewrite Eu in S1'. cbn [app] in S1'. apply (go_peek _ _ _ _ _ _ S1'). rewrite (proj2 (aeqb_neq _ _) Dc).
    apply go_bind. apply (go_new _ _ _ _ _ L1 S1). intros z S2 (rt & E2).
    assert (Z2 : size z = S (size y)) by (unfold size; rewrite E2, app_length; cbn [List.length]; lia).
    destruct (st_p _ _ _ S2) as [Q5 Q6].
    apply go_bind. eapply go_weaken; [apply (IH (fun _ => or_introl eq_refl) fuel z (")"%char :: s) L1); [eexists _, _; split; [reflexivity|cbn; tauto]| |exact S2]|].
    + cbn [need]. lia.
    + intros i w ((j & -> & Hj) & Zw & S3). apply go_bind. eapply go_set; [|exact S3|]; [lia|]. intros w1 S4 C4. pose proof (changed_len _ _ _ _ C4) as Z4.
      apply go_bind. apply (go_expect _ _ _ _ _ S4 Ns). intros w2 S5 E5. apply go_ret.
      assert (size w2 = size w1) by (unfold size; congruence). assert (size y = size x) by (unfold size; congruence).
      split; [exists (size y); split; [reflexivity|lia]|]. split; [lia|eapply st_less; [exact S5|lia]].
  - unfold atom_p. rewrite <- !app_assoc in S0. cbn [lit list_ascii_of_string app] in S0. apply (go_peek _ _ _ _ _ _ S0). change (aeqb "(" "(") with true. cbv iota.
    apply (go_skip _ _ _ _ _ _ S0); [discriminate|]. intros y S1 E1.
    destruct (st_p _ _ _ S0) as [Q1 Q2]. cbn [List.length] in Q2.
    apply (go_peek _ _ _ _ _ _ S1). change (aeqb "?" "?") with true. cbv iota.
    apply go_bind. apply (go_skip _ _ _ _ _ _ S1); [discriminate|]. intros y1 S1a E1a. apply go_bind.
    apply (go_expect _ _ _ _ _ S1a); [apply app_not_nil; discriminate|]. intros y2 S1b E1b.
    apply (go_new _ _ _ _ _ L1 S1b). intros z S2 (rt & E2).
    assert (Z2 : size z = S (size y2)) by (unfold size; rewrite E2, app_length; cbn [List.length]; lia).
    destruct (st_p _ _ _ S2) as [Q5 Q6].
    apply go_bind. eapply go_weaken; [apply (IH (fun _ => or_introl eq_refl) fuel z (")"%char :: s) L1); [eexists _, _; split; [reflexivity|cbn; tauto]| |eapply st_less; [exact S2|lia]]|].
    + cbn [need]. lia.
    + intros i w ((j & -> & Hj) & Zw & S3). apply go_bind. eapply go_set; [|exact S3|]; [lia|]. intros w1 S4 C4. pose proof (changed_len _ _ _ _ C4) as Z4.
      apply go_bind. apply (go_expect _ _ _ _ _ S4 Ns). intros w2 S5 E5. apply go_ret.
      assert (size w2 = size w1) by (unfold size; congruence). assert (size y2 = size x) by (unfold size; congruence).
      split; [exists (size y2); split; [reflexivity|lia]|]. split; [lia|eapply st_less; [exact S5|lia]].
  (* chains *)
  - destruct fuel as [|fuel]; [lia|]. apply go_element. eapply go_weaken; [apply (IH (fun X => match X with eq_refl => Logic.I end) fuel x s L1 Ns); [cbn [need]; lia|exact S0]|].
    intros i y G. assert (G0 := G). destruct G as ((j & -> & Hj) & Z1 & S1). destruct Cl as (c & t & -> & I0).
    eapply go_weaken; [apply (go_no_repetition fuel y c t 0); [cbn in I0 |- *; intuition (subst; discriminate)|exact S1]|]. intros o z (-> & ->).
    apply go_ret. eapply go_weaken; [apply (go_tail_end fuel j y (c :: t) 0); [eexists _, _; split; [reflexivity|exact I0]|exact S1]|].
    intros i z (-> & ->). exact G0.
  - destruct fuel as [|fuel]; [lia|]. apply go_element. rewrite <- app_assoc in S0.
    eapply go_weaken; [apply (IH (fun X => match X with eq_refl => Logic.I end) fuel x (c ++ s) L1 (app_not_nil _ _ Ns)); [cbn [need]; lia|exact S0]|].
    intros i y ((j & -> & Hj) & Z1 & S1). destruct (st_p _ _ _ S0) as [Q1 Q2]. rewrite !app_length in Q2.
    eapply go_weaken; [apply (go_repetition c min max fuel y s 0 Cn Ns S1); lia|]. intros o z ((p0 & p1 & -> & Hp) & S2 & E2).
    eapply go_weaken; [exact (go_rep_p j p0 p1 z s L1 Hp S2)|]. intros i w G. assert (Zz : size z = size y) by (unfold size; congruence).
    destruct G as ((k & -> & Hk) & Z3 & S3). eapply go_weaken; [exact (go_tail_end fuel k w s 0 Cl S3)|]. intros i v (-> & ->).
    split; [eauto|]. split; [lia|exact S3].
  - destruct fuel as [|fuel]; [lia|]. apply go_element. rewrite <- app_assoc in S0.
    eapply go_weaken; [apply (IH (fun X => match X with eq_refl => Logic.I end) fuel x (t ++ s) L1 (app_not_nil _ _ Ns)); [cbn [need]; lia|exact S0]|].
    intros i y ((j & -> & Hj) & Z1 & S1). destruct (st_p _ _ _ S0) as [Q1 Q2]. destruct (st_p _ _ _ S1) as [Q3 Q4]. rewrite !app_length in *.
    assert (Lu : 1 <= List.length u) by (destruct (written_head _ _ _ _ W) as (? & ? & -> & _); cbn; lia).
    destruct (behind_head _ _ _ W2) as (c & t' & -> & D). assert (S1' := S1). cbn [app] in S1'.
    eapply go_weaken; [apply (go_no_repetition fuel y c (t' ++ s) 0); [intros X; apply D; cbn in X |- *; tauto|exact S1']|]. intros o z (-> & ->).
    apply go_ret. eapply go_weaken; [apply (go_tail_more fuel j y c t' s 0); [intros X; apply D; cbn in X |- *; tauto|exact S1|exact Ns|exact Hj|]|].
    + apply (IH2 (fun X => match X with eq_refl => Logic.I end) fuel y s L1 Cl); [cbn [need]; lia|exact S1].
    + intros i z (A & B & C). split; [exact A|]. split; [lia|exact C].
  - destruct fuel as [|fuel]; [lia|]. apply go_element. rewrite <- !app_assoc in S0.
    eapply go_weaken; [apply (IH (fun X => match X with eq_refl => Logic.I end) fuel x (c ++ t ++ s) L1); [apply app_not_nil, app_not_nil; exact Ns|cbn [need]; lia|exact S0]|].
    intros i y ((j & -> & Hj) & Z1 & S1). destruct (st_p _ _ _ S0) as [Q1 Q2]. destruct (st_p _ _ _ S1) as [Q3 Q4]. rewrite !app_length in *.
    assert (Lu : 1 <= List.length u) by (destruct (written_head _ _ _ _ W) as (? & ? & -> & _); cbn; lia).
    eapply go_weaken; [apply (go_repetition c min max fuel y (t ++ s) 0 Cn (app_not_nil _ _ Ns) S1); lia|]. intros o z ((p0 & p1 & -> & Hp) & S2 & E2).
    eapply go_weaken; [exact (go_rep_p j p0 p1 z (t ++ s) L1 Hp S2)|]. intros i w G. assert (Zz : size z = size y) by (unfold size; congruence).
    destruct G as ((k & -> & Hk) & Z3 & S3). destruct (st_p _ _ _ S3) as [Q5 Q6]. rewrite app_length in Q6.
    destruct (behind_head _ _ _ W2) as (d & t' & -> & D).
    eapply go_weaken; [apply (go_tail_more fuel k w d t' s 0); [intros X; apply D; cbn in X |- *; tauto|exact S3|exact Ns|exact Hk|]|].
    + apply (IH2 (fun X => match X with eq_refl => Logic.I end) fuel w s L1 Cl); [cbn [need]; lia|exact S3].
    + intros i v (A & B & C). split; [exact A|]. split; [lia|exact C].
  (* lists *)
  - destruct fuel as [|fuel]; [lia|]. cbn [list_]. destruct (written_head _ _ _ _ W) as (c & t & Eu & _).
    assert (Dc : c <> "^"%char) by (intros ->; exact (no_caret _ _ _ t W (An eq_refl) Eu)).
    assert (S0' := S0). rewrite Eu in S0'. cbn [app] in S0'. apply (go_peek _ _ _ _ _ _ S0'). rewrite (proj2 (aeqb_neq _ _) Dc).
    destruct Cl as (d & s' & -> & I0).
    apply go_bind. eapply go_weaken; [apply (IH (fun X => match X with eq_refl => Logic.I end) fuel x (d :: s') L1); [eexists _, _; split; [reflexivity|cbn in I0 |- *; tauto]|cbn [need]; lia|exact S0]|].
    intros i y G. assert (S1 := proj2 (proj2 G)). apply (go_peek _ _ _ _ _ _ S1).
    rewrite (proj2 (aeqb_neq d _)) by (cbn in I0; intuition (subst; discriminate)). apply go_ret. exact G.
  - destruct fuel as [|fuel]; [lia|]. cbn [list_]. rewrite <- app_assoc in S0. cbn [lit list_ascii_of_string app] in S0.
    apply (go_peek _ _ _ _ _ _ S0). change (aeqb "^" "^") with true. cbv iota. apply go_bind.
    apply (go_skip _ _ _ _ _ _ S0 (app_not_nil _ _ Ns)). intros y S1 E1. apply go_bind. apply (go_new _ _ _ _ _ L1 S1). intros z S2 (rt & E2).
    assert (Z2 : size z = S (size y)) by (unfold size; rewrite E2, app_length; cbn [List.length]; lia).
    assert (Zy : size y = size x) by (unfold size; congruence).
    destruct (st_p _ _ _ S0) as [Q1 Q2]. destruct (st_p _ _ _ S2) as [Q3 Q4]. cbn [List.length] in Q2.
    destruct Cl as (d & s' & -> & I0).
    apply go_bind. eapply go_weaken; [apply (IH (fun X => match X with eq_refl => Logic.I end) fuel z (d :: s') L1); [eexists _, _; split; [reflexivity|cbn in I0 |- *; tauto]|cbn [need]; lia|exact S2]|].
    intros i w ((j & -> & Hj) & Zw & S3). apply go_bind. eapply go_set; [|exact S3|]; [lia|]. intros w1 S4 C4. pose proof (changed_len _ _ _ _ C4) as Z4.
    apply go_ret. apply (go_peek _ _ _ _ _ _ S4).
    rewrite (proj2 (aeqb_neq d _)) by (cbn in I0; intuition (subst; discriminate)). apply go_ret.
    split; [exists (size y); split; [reflexivity|lia]|]. split; [lia|exact S4].
  - destruct fuel as [|fuel]; [lia|]. cbn [list_]. rewrite <- !app_assoc in S0. destruct (written_head _ _ _ _ W) as (c & u' & Eu & _).
    assert (Dc : c <> "^"%char) by (intros ->; exact (no_caret _ _ _ u' W (An eq_refl) Eu)).
    assert (S0' := S0). rewrite Eu in S0'. cbn [app] in S0'. apply (go_peek _ _ _ _ _ _ S0'). rewrite (proj2 (aeqb_neq _ _) Dc).
    cbn [lit list_ascii_of_string app] in S0.
    apply go_bind. eapply go_weaken; [apply (IH (fun X => match X with eq_refl => Logic.I end) fuel x ("|"%char :: t ++ s) L1); [eexists _, _; split; [reflexivity|cbn; tauto]|cbn [need]; lia|exact S0]|].
    intros i y ((j & -> & Hj) & Z1 & S1). apply (go_peek _ _ _ _ _ _ S1). change (aeqb "|" "|") with true. cbv iota.
    apply (go_skip _ _ _ _ _ _ S1 (app_not_nil _ _ Ns)). intros y1 S2 E2. assert (Zy : size y1 = size y) by (unfold size; congruence).
    apply go_bind. apply (go_new _ _ _ _ _ L1 S2). intros z S3 (rt & E3).
    assert (Z3 : size z = S (size y1)) by (unfold size; rewrite E3, app_length; cbn [List.length]; lia).
    apply go_bind. eapply go_set; [|exact S3|]; [lia|]. intros z1 S4 C4. pose proof (changed_len _ _ _ _ C4) as Z4.
    destruct (st_p _ _ _ S1) as [Q1 Q2]. destruct (st_p _ _ _ S0) as [Q5 Q6]. destruct (st_p _ _ _ S4) as [Q3 Q4]. rewrite app_length in Q6. cbn [List.length] in Q2, Q6.
    apply go_bind. eapply go_weaken; [apply (IH2 (fun _ => or_introl eq_refl) fuel z1 s L1 Cl); [cbn [need]; lia|exact S4]|].
    intros i w ((k & -> & Hk) & Zw & S5). apply go_bind. eapply go_set; [|exact S5|]; [lia|]. intros w1 S6 C6. pose proof (changed_len _ _ _ _ C6) as Z6.
    apply go_ret. split; [exists (size y1); split; [reflexivity|lia]|]. split; [lia|exact S6].
  - destruct fuel as [|fuel]; [lia|]. cbn [list_]. rewrite <- !app_assoc in S0. cbn [lit list_ascii_of_string app] in S0.
    apply (go_peek _ _ _ _ _ _ S0). change (aeqb "^" "^") with true. cbv iota. apply go_bind.
    apply (go_skip _ _ _ _ _ _ S0); [apply app_not_nil; discriminate|]. intros y0 S0a E0a. apply go_bind. apply (go_new _ _ _ _ _ L1 S0a). intros y2 S0b (rt0 & E0b).
    assert (Z0a : size y0 = size x) by (unfold size; congruence).
    assert (Z0b : size y2 = S (size y0)) by (unfold size; rewrite E0b, app_length; cbn [List.length]; lia).
    destruct (st_p _ _ _ S0) as [P1 P2]. destruct (st_p _ _ _ S0b) as [P3 P4]. cbn [List.length] in P2.
    apply go_bind. eapply go_weaken; [apply (IH (fun X => match X with eq_refl => Logic.I end) fuel y2 ("|"%char :: t ++ s) L1); [eexists _, _; split; [reflexivity|cbn; tauto]|cbn [need]; lia|exact S0b]|].
    intros i y3 ((j0 & -> & Hj0) & Z1a & S1a). apply go_bind. eapply go_set; [|exact S1a|]; [lia|]. intros y S1 C1. pose proof (changed_len _ _ _ _ C1) as Z1. apply go_ret.
    apply (go_peek _ _ _ _ _ _ S1). change (aeqb "|" "|") with true. cbv iota.
    apply (go_skip _ _ _ _ _ _ S1 (app_not_nil _ _ Ns)). intros y1 S2 E2. assert (Zy : size y1 = size y) by (unfold size; congruence).
    apply go_bind. apply (go_new _ _ _ _ _ L1 S2). intros z S3 (rt & E3).
    assert (Z3 : size z = S (size y1)) by (unfold size; rewrite E3, app_length; cbn [List.length]; lia).
    apply go_bind. eapply go_set; [|exact S3|]; [lia|]. intros z1 S4 C4. pose proof (changed_len _ _ _ _ C4) as Z4.
    destruct (st_p _ _ _ S1) as [Q1 Q2]. destruct (st_p _ _ _ S4) as [Q3 Q4]. rewrite app_length in P2. cbn [List.length] in Q2, P2.
    apply go_bind. eapply go_weaken; [apply (IH2 (fun _ => or_introl eq_refl) fuel z1 s L1 Cl); [cbn [need]; lia|exact S4]|].
    intros i w ((k & -> & Hk) & Zw & S5). apply go_bind. eapply go_set; [|exact S5|]; [lia|]. intros w1 S6 C6. pose proof (changed_len _ _ _ _ C6) as Z6.
    apply go_ret. split; [exists (size y1); split; [reflexivity|lia]|]. split; [lia|exact S6].
Qed.
Lemma forward_compile r : writes pat r -> exists ns x, compile pat = PVal ns x.
Proof.
  intros W. assert (L1 : 1 <= L) by (destruct (written_head _ _ _ _ W) as (c & t & -> & _); unfold L; cbn; lia).
  assert (G : go (do first <- newnode OP_EXPR; do l <- list_ (2 * List.length pat + 4) pat; do_ set first (with_left l);
      do c <- peek pat; if aeqb c NUL then fun x => PVal (x_nodes x) x else fail) (mkT [] (cast_int (Z.of_nat (List.length pat))) 0 0) (fun _ _ => True)).
  2:{ destruct G as (ns & x & E & _). exists ns, x. exact E. }
  assert (S0 : st (mkT [] (cast_int (Z.of_nat (List.length pat))) 0 0) (pat ++ [NUL]) 1).
  { split; [reflexivity|]. split; [apply app_not_nil; discriminate|]. split; [cbn; lia|]. left. cbn. split; [|lia].
    apply cast_int_id. unfold INT_MAX, INT_MIN. fold L. lia. }
  apply go_bind. apply (go_new _ _ _ _ _ L1 S0). intros y S1 (rt & E1). change (zn (size _)) with (zn 0).
  assert (Z1 : size y = 1) by (unfold size; rewrite E1; reflexivity). destruct (st_p _ _ _ S1) as [Q1 Q2]. rewrite app_length in Q2. cbn [List.length] in Q2.
  apply go_bind. eapply go_weaken; [apply (go_run List_ (lit "^") pat r W (fun _ => or_introl eq_refl) (2 * List.length pat + 4) y [NUL] L1);
    [eexists _, _; split; [reflexivity|cbn; tauto]|cbn [need]; unfold L, str in *; lia|exact S1]|].
  intros i z ((j & -> & Hj) & Z2 & S2). apply go_bind. eapply go_set; [|exact S2|]; [lia|]. intros w S3 C3.
  apply (go_peek _ _ _ _ _ _ S3). change (aeqb NUL NUL) with true. cbv iota. eexists _, _. split; [reflexivity|exact Logic.I].
Qed.
End forward.
