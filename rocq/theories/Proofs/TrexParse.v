(** What compiling a pattern builds: every pattern that compiles is written as the specification says, and
    its nodes stand for the expression. *)
From Coq Require Import ZArith NArith Bool List Ascii String Lia.
From Verif.Base Require Import CInt CStr CMem.
From Verif.Model Require Import Trex.
From Verif.Spec Require Import RegexSpec.
From Verif.Proofs Require Import TrexChars TrexRep.
Import ListNotations.
Open Scope list_scope.
Open Scope nat_scope.

(** ** The repetition in a node *)
Lemma pack_fields p0 p1 b : (0 <= p0 < 65536)%Z -> (0 <= p1 < 65536)%Z -> pack p0 p1 = Val b -> minimum b = p0 /\ maximum b = p1.
Proof.
  unfold pack, int_op. intros H0 H1. destruct (in_int (Z.shiftl p0 16)); cbn [cbind]; [|discriminate]. intros Eb.
  assert (b = Z.lor (Z.shiftl p0 16) p1) by congruence. subst b. clear Eb.
  assert (E0 : Z.shiftr (Z.lor (Z.shiftl p0 16) p1) 16 = p0).
  { rewrite Z.shiftr_lor. rewrite (Z.shiftr_div_pow2 p1) by lia. rewrite (Z.div_small p1) by (change (2 ^ 16)%Z with 65536%Z; lia).
    rewrite Z.lor_0_r. rewrite Z.shiftl_mul_pow2, Z.shiftr_div_pow2 by lia. apply Z.div_mul. lia. }
  assert (Hb : (2 ^ 16 = 65536)%Z) by reflexivity.
  unfold minimum, maximum. rewrite E0. change 65535%Z with (Z.ones 16). split.
  - rewrite Z.land_ones by lia. apply Z.mod_small. lia.
  - rewrite Z.land_lor_distr_l, !Z.land_ones by lia. rewrite Z.shiftl_mul_pow2 by lia. rewrite Z.mod_mul by lia.
    rewrite Z.lor_0_l. apply Z.mod_small. lia.
Qed.
Lemma cast_u16_range z : (0 <= cast_u16 z < 65536)%Z.
Proof. unfold cast_u16. apply Z.mod_pos_bound. lia. Qed.

(** ** Parts of the pattern *)
Lemma bind_inv {A B} (m : pm A) (k : A -> pm B) x b y : bind m k x = PVal b y -> exists a z, m x = PVal a z /\ k a z = PVal b y.
Proof. unfold bind. destruct (m x) as [a z| | |]; try discriminate. eauto. Qed.
Ltac inv_bind H a z E := apply bind_inv in H; destruct H as (a & z & E & H).

Section parse.
Variable pat : str.
Hypothesis Hpat : no_nul pat.
Definition tp : str := pat ++ [NUL].
Definition rem (x : trex) : str := skipn (x_p x) tp.
Definition size (x : trex) : nat := List.length (x_nodes x).
Definition keep (n : nat) (x y : trex) : Prop := agree (x_nodes x) (x_nodes y) 0 n /\ size x <= size y.
Lemma keep_refl n x : keep n x x.
Proof. split; [intros k _; reflexivity|lia]. Qed.
Lemma keep_trans n x y z : keep n x y -> keep n y z -> keep n x z.
Proof. intros [A1 A2] [B1 B2]. split; [|lia]. intros k Hk. rewrite B1 by exact Hk. apply A1. exact Hk. Qed.
Lemma keep_sub n n' x y : keep n x y -> n' <= n -> keep n' x y.
Proof. intros [A1 A2] L. split; [|exact A2]. eapply agree_sub; [exact A1|lia|lia]. Qed.

Lemma nth_tp p c : nth_error (terminated pat) p = Some (Some c) <-> nth_error tp p = Some c.
Proof.
  unfold terminated, bytes, tp. change [Some NUL] with (map (@Some ascii) [NUL]). rewrite <- map_app. split.
  - intros H. destruct (nth_error (pat ++ [NUL]) p) eqn:E.
    + rewrite (map_nth_error Some _ _ E) in H. congruence.
    + apply nth_error_None in E. assert (X : nth_error (map (@Some ascii) (pat ++ [NUL])) p = None) by (apply nth_error_None; rewrite map_length; exact E).
      congruence.
  - intros H. exact (map_nth_error Some _ _ H).
Qed.
Lemma skipn_nth {A} (l : list A) p c : nth_error l p = Some c -> skipn p l = c :: skipn (S p) l.
Proof. revert l. induction p as [|p IH]; intros [|a l] H; try discriminate; cbn in *; [congruence|]. exact (IH l H). Qed.
Lemma skipn_cons {A} (l : list A) p c s : skipn p l = c :: s -> nth_error l p = Some c /\ skipn (S p) l = s.
Proof. revert l. induction p as [|p IH]; intros [|a l] H; try discriminate; cbn in *; [split; congruence|]. exact (IH l H). Qed.
Definition next_p (x : trex) : trex := mkT (x_nodes x) (x_alloc x) (x_nsub x) (S (x_p x)).
Lemma peek_at x c s : rem x = c :: s -> peek pat x = PVal c x.
Proof.
  unfold rem, peek, of_cres, load. intros H. apply skipn_cons in H. destruct H as [H _]. apply nth_tp in H. rewrite H. reflexivity.
Qed.
Lemma peek_inv x c y : peek pat x = PVal c y -> y = x /\ exists s, rem x = c :: s /\ rem (next_p x) = s.
Proof.
  unfold peek, of_cres, load. destruct (nth_error (terminated pat) (x_p x)) as [[d|]|] eqn:E; try discriminate. intros [= -> <-].
  split; [reflexivity|]. apply nth_tp in E. exists (skipn (S (x_p x)) tp). split; [|reflexivity]. unfold rem. apply skipn_nth. exact E.
Qed.
Lemma skip_at x c s : rem x = c :: s -> rem (next_p x) = s.
Proof. unfold rem. intros H. apply skipn_cons in H. exact (proj2 H). Qed.
Lemma skip_is x : skip x = PVal tt (next_p x).
Proof. reflexivity. Qed.
Lemma newnode_inv t x i y : newnode t x = PVal i y ->
  i = zn (size x) /\ (exists rt, x_nodes y = x_nodes x ++ [mkN t (-1) rt (-1)]) /\ rem y = rem x.
Proof.
  unfold newnode. set (al := if (_ <? _)%Z then _ else _). destruct al as [a|]; [|discriminate].
  destruct (_ <? a)%Z; [|discriminate]. intros [= <- <-]. split; [reflexivity|]. split; [|reflexivity]. eexists. reflexivity.
Qed.
Lemma update_same ns i f n : nth_error ns i = Some n -> nth_error (update ns i f) i = Some (f n).
Proof. revert i. induction ns as [|m ns IH]; intros [|i] H; try discriminate; cbn in *; [congruence|]. exact (IH i H). Qed.
Lemma update_other ns i f k : k <> i -> nth_error (update ns i f) k = nth_error ns k.
Proof. revert i k. induction ns as [|m ns IH]; intros [|i] [|k] H; cbn; try reflexivity; try congruence. apply IH. congruence. Qed.
Lemma update_length ns i f : List.length (update ns i f) = List.length ns.
Proof. revert i. induction ns as [|m ns IH]; intros [|i]; cbn; try reflexivity. rewrite IH. reflexivity. Qed.
(** [set] changes one node. *)
Definition changed (ns ns' : list node) (i : nat) (f : node -> node) : Prop :=
  (exists n, nd ns i n /\ nd ns' i (f n)) /\ (forall k, k <> i -> nth_error ns' k = nth_error ns k) /\ List.length ns' = List.length ns.
Lemma set_inv i f x u y : set (zn i) f x = PVal u y -> changed (x_nodes x) (x_nodes y) i f /\ rem y = rem x.
Proof.
  unfold set, get, zn. destruct (Z.ltb_spec (Z.of_nat i) 0); [discriminate|]. rewrite Nat2Z.id.
  destruct (nth_error (x_nodes x) i) as [n|] eqn:E; [|discriminate]. intros [= _ <-]. cbn [x_nodes]. split; [|reflexivity].
  split; [|split].
  - exists n. split; [exact E|]. unfold nd. apply update_same. exact E.
  - intros k Hk. apply update_other. exact Hk.
  - apply update_length.
Qed.
Lemma node_of_inv i n x y : node_of (zn i) x = PVal n y -> y = x /\ nd (x_nodes x) i n.
Proof.
  unfold node_of, of_cres, get, zn. destruct (Z.ltb_spec (Z.of_nat i) 0); [discriminate|]. rewrite Nat2Z.id.
  destruct (nth_error (x_nodes x) i) as [m|] eqn:E; [|discriminate]. intros [= -> <-]. split; [reflexivity|exact E].
Qed.
Lemma of_cres_inv {A} (r : cres A) x a y : of_cres r x = PVal a y -> r = Val a /\ y = x.
Proof. unfold of_cres. destruct r; [|discriminate]. intros [= -> ->]. auto. Qed.
Lemma expect_inv c x u y : expect pat c x = PVal u y -> y = next_p x /\ rem x = c :: rem y.
Proof.
  unfold expect. intros H. inv_bind H d z E. apply peek_inv in E. destruct E as (-> & s & E1 & E2).
  destruct (aeqb d c) eqn:D; [|discriminate]. injection H as _ <-. apply aeqb_eq in D. subst d. split; [reflexivity|]. rewrite E1. f_equal. symmetry. exact E2.
Qed.
Lemma keep_set n x y i f : changed (x_nodes x) (x_nodes y) i f -> n <= i -> keep n x y.
Proof.
  intros (_ & C & L) Hi. split; [|unfold size; lia]. intros k Hk. apply C. lia.
Qed.
Lemma nd_app ns ms i n : nd ns i n -> nd (ns ++ ms) i n.
Proof. unfold nd. intros H. rewrite nth_error_app1; [exact H|]. apply nth_error_Some. congruence. Qed.
Lemma nd_new ns n : nd (ns ++ [n]) (List.length ns) n.
Proof. unfold nd. rewrite nth_error_app2, Nat.sub_diag; [reflexivity|lia]. Qed.
Lemma keep_new x y n : x_nodes y = x_nodes x ++ [n] -> keep (size x) x y /\ size y = S (size x) /\ nd (x_nodes y) (size x) n.
Proof.
  intros E. unfold keep, size. rewrite E, app_length. cbn [List.length]. split; [split; [|lia]|split; [lia|apply nd_new]].
  intros k Hk. apply nth_error_app1. lia.
Qed.

(** Nothing is behind a NUL. *)
Lemma rem_no_nul x u c s : rem x = u ++ c :: s -> ~ In NUL u.
Proof.
  unfold rem, tp. intros H X.
  assert (E : exists pre, pat ++ [NUL] = pre ++ u ++ c :: s). { exists (firstn (x_p x) (pat ++ [NUL])). rewrite <- H. symmetry. apply firstn_skipn. }
  destruct E as [pre E]. assert (L : exists q d, c :: s = q ++ [d]).
  { destruct (exists_last (l := c :: s)) as (q & d & Eq); [discriminate|]. eauto. }
  destruct L as (q & d & L). rewrite L in E. replace (pre ++ u ++ q ++ [d]) with ((pre ++ u ++ q) ++ [d]) in E by (rewrite <- !app_assoc; reflexivity).
  apply app_inj_tail in E. destruct E as [E _]. apply Hpat. rewrite E. apply in_or_app. right. apply in_or_app. left. exact X.
Qed.
Lemma rem_not_nul x c d s : rem x = c :: d :: s -> c <> NUL.
Proof. intros H E. apply (rem_no_nul x [c] d s H). left. exact E. Qed.

(** Escapes. *)
Lemma control_spec c d : control c = Some d -> control_letter c d.
Proof.
  unfold control, control_letter.
  destruct (aeqb c "v") eqn:E; [apply aeqb_eq in E; subst; intros [= <-]; cbn; tauto|]. clear E.
  destruct (aeqb c "n") eqn:E; [apply aeqb_eq in E; subst; intros [= <-]; cbn; tauto|]. clear E.
  destruct (aeqb c "t") eqn:E; [apply aeqb_eq in E; subst; intros [= <-]; cbn; tauto|]. clear E.
  destruct (aeqb c "r") eqn:E; [apply aeqb_eq in E; subst; intros [= <-]; cbn; tauto|]. clear E.
  destruct (aeqb c "f") eqn:E; [apply aeqb_eq in E; subst; intros [= <-]; cbn; tauto|]. discriminate.
Qed.
Lemma control_none c : control c = None -> ~ In c (lit "ntrfv").
Proof.
  unfold control. repeat match goal with |- context [aeqb c ?d] => destruct (aeqb c d) eqn:? end; try discriminate. intros _.
  repeat match goal with H : aeqb c _ = false |- _ => apply aeqb_neq in H end. cbn. intuition congruence.
Qed.
Lemma is_class_spec c : is_class c = true <-> In c kind_letters.
Proof.
  unfold is_class. rewrite existsb_exists. change classes with kind_letters. split.
  - intros (d & H & E). apply aeqb_eq in E. subst. exact H.
  - intros H. exists c. split; [exact H|apply aeqb_refl].
Qed.
Lemma isprint_spec c : isprint c = true <-> printing c.
Proof. unfold isprint, between, printing. rewrite andb_true_iff, !N.leb_le. tauto. Qed.

Lemma escapechar_inv x t y : escapechar pat x = PVal t y -> exists u, rem x = u ++ rem y /\ x_nodes y = x_nodes x /\ (rem y <> [] -> limit u t).
Proof.
  unfold escapechar. intros H. inv_bind H c z E. apply peek_inv in E. destruct E as (-> & s & E1 & E2).
  destruct (aeqb c "\") eqn:B.
  - apply aeqb_eq in B. subst c. inv_bind H w z E. rewrite skip_is in E. injection E as <- <-.
    inv_bind H d z E. apply peek_inv in E. destruct E as (-> & s1 & E3 & E4). inv_bind H w z E. rewrite skip_is in E. injection E as <- <-.
    injection H as <- <-. exists ["\"%char; d]. rewrite E4. split; [|split; [reflexivity|]].
    + rewrite E1. rewrite E2 in E3. rewrite E3. reflexivity.
    + intros N. destruct (control d) as [e|] eqn:C.
      * apply limit_control. apply control_spec. exact C.
      * apply limit_escaped; [|apply control_none; exact C]. destruct s1 as [|d1 s1]; [contradiction|]. exact (rem_not_nul _ _ _ _ E3).
  - destruct (isprint c) eqn:P; [|discriminate]. cbn [negb] in H. cbv iota in H. inv_bind H w z E. rewrite skip_is in E. injection E as <- <-.
    injection H as <- <-. exists [c]. rewrite E2. split; [rewrite E1; reflexivity|]. split; [reflexivity|]. intros _. apply limit_plain.
    + apply isprint_spec. exact P.
    + apply aeqb_neq in B. exact B.
Qed.

(** A single character, or a kind, in a set ([cls]) or not. *)
Definition alone (it : item) : Prop := match it with From_to _ _ => False | _ => True end.
Definition single (cls : bool) (u : str) (n : node) : Prop :=
  if cls then exists it, alone it /\ item_is n it /\ forall minus, (minus = false -> hd_error u <> Some "-"%char) -> hd_error u <> Some "]"%char -> member minus u it
  else exists r, (forall avoid, (forall c, hd_error u = Some c -> ~ In c (lit "([$." ++ avoid)) -> written Atom avoid u r) /\
       forall ns i, nd ns i n -> rep ns false i (S i) i r.
Lemma charnode_inv cls x i y : charnode pat cls x = PVal i y ->
  exists u n, i = zn (size x) /\ rem x = u ++ rem y /\ keep (size x) x y /\ size y = S (size x) /\
    nd (x_nodes y) (size x) n /\ n_next n = (-1)%Z /\ (rem y <> [] -> single cls u n).
Proof.
  unfold charnode. intros H. inv_bind H c z E. apply peek_inv in E. destruct E as (-> & s & E1 & E2).
  destruct (aeqb c "\") eqn:B.
  - apply aeqb_eq in B. subst c. inv_bind H w z E. rewrite skip_is in E. injection E as <- <-.
    inv_bind H d z E. apply peek_inv in E. destruct E as (-> & s1 & E3 & E4).
    destruct (control d) as [e|] eqn:C.
    + inv_bind H w z E. rewrite skip_is in E. injection E as <- <-. apply newnode_inv in H. destruct H as (-> & (rt & Hn) & Hr).
      destruct (keep_new _ _ _ Hn) as (K1 & K2 & K3). exists ["\"%char; d]. eexists. split; [reflexivity|].
      split; [rewrite Hr, E4, E1; rewrite E2 in E3; rewrite E3; reflexivity|]. split; [exact K1|]. split; [exact K2|]. split; [exact K3|]. split; [reflexivity|].
      intros _. apply control_spec in C. destruct cls.
      * exists (One e). split; [exact Logic.I|]. split; [reflexivity|]. intros minus _ _. apply member_control. exact C.
      * exists (Char e). split; [intros avoid _; apply w_control; exact C|]. intros ns k Hk. eapply r_char; [exact Hk|reflexivity].
    + destruct (is_class d) eqn:D.
      * inv_bind H w z E. rewrite skip_is in E. injection E as <- <-. inv_bind H j z E. apply newnode_inv in E. destruct E as (-> & (rt & Hn) & Hr).
        destruct (keep_new _ _ _ Hn) as (K1 & K2 & K3). inv_bind H w z1 E. apply set_inv in E. destruct E as [(Ce & Co & Cl) Hr1].
        injection H as <- <-. destruct Ce as (n1 & N1 & N2).
        assert (En : n1 = mkN OP_CCLASS (-1) rt (-1)) by (unfold nd in *; congruence). subst n1.
        exists ["\"%char; d]. eexists. split; [reflexivity|].
        split; [rewrite Hr1, Hr, E4, E1; rewrite E2 in E3; rewrite E3; reflexivity|].
        split; [eapply keep_trans; [exact K1|]; eapply keep_set; [repeat split; eauto|reflexivity]|].
        split; [unfold size in *; cbn [next_p x_nodes] in *; congruence|]. split; [exact N2|]. split; [reflexivity|]. intros _. apply is_class_spec in D. destruct cls.
        -- exists (OfKind d). split; [exact Logic.I|]. split; [split; reflexivity|]. intros minus _ _. apply member_kind. exact D.
        -- exists (Kind d). split; [intros avoid _; apply w_kind; exact D|]. intros ns k Hk. eapply r_kind; [exact Hk|reflexivity|reflexivity].
      * destruct ((aeqb d "b" || aeqb d "B") && negb cls) eqn:W.
        -- apply andb_true_iff in W. destruct W as [W1 W2]. destruct cls; [discriminate|]. 
           inv_bind H j z E. apply newnode_inv in E. destruct E as (-> & (rt & Hn) & Hr).
           destruct (keep_new _ _ _ Hn) as (K1 & K2 & K3). inv_bind H w z1 E. apply set_inv in E. destruct E as [(Ce & Co & Cl) Hr1].
           inv_bind H w2 z2 E. rewrite skip_is in E. injection E as <- <-.
           injection H as <- <-. destruct Ce as (n1 & N1 & N2).
           assert (En : n1 = mkN OP_WB (-1) rt (-1)) by (unfold nd in *; congruence). subst n1.
           assert (R2 : rem (next_p z1) = s1). { apply (skip_at _ d). rewrite Hr1, Hr. exact E3. }
           exists ["\"%char; d]. eexists. split; [reflexivity|].
           split; [rewrite R2, E1; rewrite E2 in E3; rewrite E3; reflexivity|].
           split; [eapply keep_trans; [exact K1|]; eapply keep_set; [repeat split; eauto|reflexivity]|].
           split; [unfold size in *; cbn [next_p x_nodes] in *; congruence|]. split; [exact N2|]. split; [reflexivity|]. intros _.
           apply orb_true_iff in W1. rewrite !aeqb_eq in W1. destruct W1 as [-> | ->].
           ++ exists (Word true). split; [intros avoid _; apply w_word|]. intros ns k Hk. eapply r_word; [exact Hk|reflexivity|reflexivity].
           ++ exists (Word false). split; [intros avoid _; apply w_no_word|]. intros ns k Hk. eapply r_word; [exact Hk|reflexivity|reflexivity].
        -- inv_bind H w z E. rewrite skip_is in E. injection E as <- <-. apply newnode_inv in H. destruct H as (-> & (rt & Hn) & Hr).
           destruct (keep_new _ _ _ Hn) as (K1 & K2 & K3). exists ["\"%char; d]. eexists. split; [reflexivity|].
           split; [rewrite Hr, E4, E1; rewrite E2 in E3; rewrite E3; reflexivity|]. split; [exact K1|]. split; [exact K2|]. split; [exact K3|]. split; [reflexivity|].
           intros N. assert (Dn : d <> NUL). { destruct s1 as [|d1 s1]; [rewrite Hr, E4 in N; contradiction|]. exact (rem_not_nul _ _ _ _ E3). }
           apply control_none in C. assert (Dk : ~ In d kind_letters) by (intros X; apply is_class_spec in X; congruence).
           destruct cls.
           ++ exists (One d). split; [exact Logic.I|]. split; [reflexivity|]. intros minus _ _. apply member_escaped; [exact Dn|]. intros X. apply in_app_or in X. tauto.
           ++ exists (Char d). split; [|intros ns k Hk; eapply r_char; [exact Hk|reflexivity]]. intros avoid _. apply w_escaped; [exact Dn|].
              intros X. apply in_app_or in X. destruct X as [X|X]; [|tauto]. cbn [negb] in W. rewrite andb_true_r in W. apply orb_false_iff in W.
              rewrite !aeqb_neq in W. apply C. change (lit "ntrfvbB") with (lit "ntrfv" ++ lit "bB") in X. apply in_app_or in X. destruct X as [X|X]; [exact X|].
              cbn in X. intuition congruence.
  - destruct (isprint c) eqn:P; [|discriminate]. cbn [negb] in H. cbv iota in H. inv_bind H w z E. rewrite skip_is in E. injection E as <- <-.
    apply newnode_inv in H. destruct H as (-> & (rt & Hn) & Hr).
    destruct (keep_new _ _ _ Hn) as (K1 & K2 & K3). exists [c]. eexists. split; [reflexivity|].
    split; [rewrite Hr, E2, E1; reflexivity|]. split; [exact K1|]. split; [exact K2|]. split; [exact K3|]. split; [reflexivity|].
    intros _. apply isprint_spec in P. apply aeqb_neq in B. destruct cls.
    + exists (One c). split; [exact Logic.I|]. split; [reflexivity|]. intros minus M1 M2. apply member_plain; [exact P| |].
      * cbn in M2 |- *. intuition congruence.
      * intros Em. specialize (M1 Em). cbn in M1. congruence.
    + exists (Char c). split; [|intros ns k Hk; eapply r_char; [exact Hk|reflexivity]]. intros avoid A. apply w_plain; [exact P|].
      specialize (A c eq_refl). change specials with (lit "([$." ++ ["\"%char]). rewrite <- app_assoc. intros X. apply in_app_or in X.
      destruct X as [X|X]; [apply A; apply in_or_app; left; exact X|]. cbn [app In] in X. destruct X as [X|X]; [congruence|].
      apply A. apply in_or_app. right. exact X.
Qed.

(** *** Sets *)
Lemma item_with_next n it v : item_is n it -> item_is (with_next v n) it.
Proof. destruct it; exact (fun H => H). Qed.
Lemma seg_last_le ns p js its : seg ns p js its -> p <= List.last js p /\ forall d, js <> [] -> List.last js d = List.last js p.
Proof.
  induction 1 as [p n Hn Hx|p n j m js it its Hn Hx Hj Hm Hi Hs [IH1 IH2]]; [split; [reflexivity|contradiction]|].
  assert (E : forall d, List.last (j :: js) d = List.last js j).
  { intros d. destruct js as [|k js]; [reflexivity|]. change (List.last (j :: k :: js) d) with (List.last (k :: js) d).
    apply IH2. discriminate. }
  split; [rewrite E; lia|]. intros d _. rewrite !E. reflexivity.
Qed.
Lemma seg_last_cons ns p j js it its d : seg ns p (j :: js) (it :: its) -> List.last (j :: js) d = List.last js j.
Proof.
  intros H. inversion H; subst. destruct js as [|k js]; [reflexivity|]. change (List.last (j :: k :: js) d) with (List.last (k :: js) d).
  match goal with Hs : seg _ j _ _ |- _ => destruct (seg_last_le _ _ _ _ Hs) as [_ E] end. rewrite (E d) by discriminate. reflexivity.
Qed.
Lemma seg_snoc ns ns' p js its l j m it : seg ns p js its -> List.last js p = l -> changed ns ns' l (with_next (zn j)) ->
  nd ns j m -> item_is m it -> n_next m = (-1)%Z -> l < j -> seg ns' p (js ++ [j]) (its ++ [it]).
Proof.
  intros H El C Hj Hi Hx Lj. assert (Hj' : nd ns' j m). { unfold nd. rewrite (proj1 (proj2 C)) by lia. exact Hj. }
  destruct C as ((n0 & C1 & C2) & C3 & _).
  revert El. induction H as [p n Hn Hp|p n k m1 js it1 its Hn Hp Hk Hm1 Hi1 Hs IH]; intros El.
  - cbn in El. subst l. cbn [app]. apply (seg_cons _ _ (with_next (zn j) n0) j m); try assumption; try reflexivity. apply (seg_nil _ _ m); assumption.
  - pose proof (seg_last_cons _ _ _ _ _ _ p (seg_cons _ _ _ _ _ _ _ _ Hn Hp Hk Hm1 Hi1 Hs)) as E1. rewrite El in E1.
    destruct (seg_last_le _ _ _ _ Hs) as [L1 _]. cbn [app].
    assert (exists m2, nd ns' k m2 /\ item_is m2 it1) as (m2 & N1 & N2).
    { destruct (Nat.eq_dec k l) as [->|D].
      - exists (with_next (zn j) n0). split; [exact C2|]. apply item_with_next. assert (n0 = m1) as -> by (unfold nd in *; congruence). exact Hi1.
      - exists m1. split; [unfold nd; rewrite C3 by exact D; exact Hm1|exact Hi1]. }
    apply (seg_cons _ _ n k m2); try assumption.
    + unfold nd. rewrite C3 by lia. exact Hn.
    + apply IH. symmetry. exact E1.
Qed.

(** The loop with the link that follows it. *)
Definition class_rest (fuel : nat) (first chain : Z) : pm unit :=
  do fc <- class_loop fuel pat first chain; if (fst fc =? -1)%Z then ret tt else set (snd fc) (with_next (fst fc)).
Definition fin (pend : option item) (u : str) (tl : list item) : Prop :=
  match pend with
  | None => members true u tl
  | Some it => forall minus s, member minus s it -> members minus (s ++ u) tl
  end.
(** The nodes of a set under construction: those linked from [p], and one that is not linked yet. *)
Definition building (x : trex) (p : nat) (js : list nat) (its : list item) (first : Z) (pend : option item) : Prop :=
  seg (x_nodes x) p js its /\ Forall (fun k => k < size x) js /\
  match pend with
  | None => first = (-1)%Z
  | Some it => alone it /\ exists fi n, first = zn fi /\ fi < size x /\ List.last js p < fi /\ nd (x_nodes x) fi n /\ item_is n it /\ n_next n = (-1)%Z
  end.
Lemma agree_app_seg x y p js its n : seg (x_nodes x) p js its -> Forall (fun k => k < size x) js -> p < size x ->
  size x = n -> agree (x_nodes x) (x_nodes y) 0 n -> seg (x_nodes y) p js its.
Proof. intros H F L <- A. eapply seg_agree; [exact H|exact L|exact F|]. eapply agree_sub; [exact A|lia|lia]. Qed.
Lemma last_lt (js : list nat) p n : Forall (fun k => k < n) js -> p < n -> List.last js p < n.
Proof.
  intros F L. destruct js as [|k js]; [exact L|]. rewrite Forall_forall in F. apply F.
  destruct (exists_last (l := k :: js)) as (q & d & E); [discriminate|]. rewrite E. rewrite last_last. apply in_or_app. right. left. reflexivity.
Qed.
Lemma last_snoc (js : list nat) j p : List.last (js ++ [j]) p = j.
Proof. apply last_last. Qed.
Definition same_but_next (ns ns' : list node) (p : nat) : Prop :=
  forall n, nd ns p n -> exists n', nd ns' p n' /\ n_type n' = n_type n /\ n_left n' = n_left n /\ n_right n' = n_right n.
Lemma same_but_next_agree ns ns' p lo hi : agree ns ns' lo hi -> lo <= p < hi -> same_but_next ns ns' p.
Proof. intros A L n Hn. exists n. split; [unfold nd; rewrite A by exact L; exact Hn|auto]. Qed.
Lemma same_but_next_changed ns ns' p i v : changed ns ns' i (with_next v) -> same_but_next ns ns' p.
Proof.
  intros ((n0 & C1 & C2) & C3 & _) n Hn. destruct (Nat.eq_dec p i) as [->|D].
  - assert (n0 = n) as -> by (unfold nd in *; congruence). exists (with_next v n). auto.
  - exists n. split; [unfold nd; rewrite C3 by exact D; exact Hn|auto].
Qed.
Lemma same_but_next_trans a b c p : same_but_next a b p -> same_but_next b c p -> same_but_next a c p.
Proof.
  intros H1 H2 n Hn. destruct (H1 n Hn) as (n1 & A1 & A2 & A3 & A4). destruct (H2 n1 A1) as (n2 & B1 & B2 & B3 & B4).
  exists n2. split; [exact B1|]. split; [congruence|]. split; congruence.
Qed.
Lemma changed_size x y i f : changed (x_nodes x) (x_nodes y) i f -> size y = size x.
Proof. intros (_ & _ & L). exact L. Qed.
Lemma class_rest_inv fuel : forall first p js its pend x y, building x p js its first pend -> p < size x ->
  class_rest fuel first (zn (List.last js p)) x = PVal tt y ->
  exists u js2 tl, rem x = u ++ rem y /\ (exists s, rem y = "]"%char :: s) /\ fin pend u tl /\
    seg (x_nodes y) p (js ++ js2) (its ++ tl) /\ Forall (fun k => k < size y) (js ++ js2) /\ keep p x y /\ same_but_next (x_nodes x) (x_nodes y) p.
Proof.
  induction fuel as [|fuel IH]; intros first p js its pend x y Hb Hp H; unfold class_rest in H; inv_bind H fc z E; [discriminate|].
  cbn [class_loop] in E. inv_bind E c z0 E0. apply peek_inv in E0. destruct E0 as (-> & s & E1 & E2).
  destruct Hb as (Hseg & Hjs & Hpend). pose proof (last_lt _ _ _ Hjs Hp) as Hlast.
  destruct (aeqb c "]") eqn:Cb.
  - apply aeqb_eq in Cb. subst c. injection E as <- <-. cbn [fst snd] in H. destruct pend as [it|].
    + destruct Hpend as (Hal & fi & n & -> & Lf & Lc & Hn & Hi & Hx). rewrite zn_nonneg in H. apply set_inv in H. destruct H as [C Hr].
      exists [], [fi], [it]. rewrite Hr. split; [reflexivity|]. split; [eauto|].
      split; [intros minus s0 Hm; rewrite app_nil_r; rewrite <- (app_nil_r s0); apply members_one; [exact Hm|constructor]|].
      split; [eapply seg_snoc; eauto|]. rewrite (changed_size _ _ _ _ C).
      split; [apply Forall_app; split; [exact Hjs|constructor; [exact Lf|constructor]]|].
      split; [eapply keep_set; [exact C|]|eapply same_but_next_changed; exact C].
      destruct (seg_last_le _ _ _ _ Hseg) as [L1 _]. exact L1.
    + rewrite Hpend in H. change (-1 =? -1)%Z with true in H. cbv iota in H. injection H as <-.
      exists [], [], []. rewrite !app_nil_r. split; [reflexivity|]. split; [eauto|]. split; [constructor|]. split; [exact Hseg|]. split; [exact Hjs|].
      split; [apply keep_refl|]. intros n Hn. exists n. auto.
  - apply aeqb_neq in Cb. destruct (seg_last_le _ _ _ _ Hseg) as [Lp _]. destruct pend as [it|].
    + destruct Hpend as (Hal & fi & n & -> & Lf & Lc & Hn & Hi & Hx). rewrite zn_nonneg in E. cbn [negb] in E. rewrite andb_true_r in E.
      destruct (aeqb c "-") eqn:Cm.
      * apply aeqb_eq in Cm. subst c. inv_bind E w z1 E0. rewrite skip_is in E0. injection E0 as <- <-.
        inv_bind E r z1 E0. apply newnode_inv in E0. destruct E0 as (-> & (rt & Nn) & Rn). cbn [x_nodes next_p] in Nn. change (size (next_p x)) with (size x) in E.
        destruct (keep_new x z1 _ Nn) as (K1 & K2 & K3).
        inv_bind E d z2 E0. apply peek_inv in E0. destruct E0 as (-> & s2 & E3 & E4).
        destruct (sgn d <? zn fi)%Z; [discriminate|]. inv_bind E nf z2 E0. apply node_of_inv in E0. destruct E0 as (-> & Hnf).
        assert (nf = n) as ->. { destruct K1 as [A _]. unfold nd in *. rewrite A in Hnf by lia. congruence. }
        destruct (n_type n =? OP_CCLASS)%Z eqn:Tc; [discriminate|].
        assert (exists a, it = One a /\ n_type n = sgn a) as (a & -> & Ta).
        { destruct it as [a|a b|k]; cbn [item_is] in Hi.
          - eauto.
          - destruct Hal.
          - destruct Hi as [T _]. rewrite T in Tc. discriminate. }
        inv_bind E w z2 E0. apply set_inv in E0. destruct E0 as [C1 R1].
        inv_bind E t z3 E0. apply escapechar_inv in E0. destruct E0 as (u1 & R2 & N2 & Lim).
        inv_bind E w1 z4 E0. apply set_inv in E0. destruct E0 as [C2 R3].
        inv_bind E w2 z5 E0. apply set_inv in E0. destruct E0 as [C3 R4].
        assert (S2 : size z2 = S (size x)) by (rewrite (changed_size _ _ _ _ C1); exact K2).
        assert (S3 : size z3 = S (size x)) by (unfold size in *; rewrite N2; exact S2).
        assert (S4 : size z4 = S (size x)) by (rewrite (changed_size _ _ _ _ C2); exact S3).
        assert (S5 : size z5 = S (size x)) by (rewrite (changed_size _ _ _ _ C3); exact S4).
        assert (A4 : agree (x_nodes x) (x_nodes z4) 0 (size x)).
        { intros k Hk. rewrite (proj1 (proj2 C2)) by lia. rewrite N2. rewrite (proj1 (proj2 C1)) by lia. apply (proj1 K1). exact Hk. }
        assert (exists m, nd (x_nodes z4) (size x) m /\ item_is m (From_to a t) /\ n_next m = (-1)%Z) as (m & M1 & M2 & M3).
        { destruct C1 as ((q1 & Q1 & Q2) & _). destruct C2 as ((q2 & Q3 & Q4) & _). rewrite N2 in Q3.
          assert (q1 = mkN OP_RANGE (-1) rt (-1)) as -> by (unfold nd in *; congruence).
          assert (q2 = with_left (n_type n) (mkN OP_RANGE (-1) rt (-1))) as -> by (unfold nd in *; congruence).
          eexists. split; [exact Q4|]. split; [|reflexivity]. cbn. rewrite Ta. auto. }
        assert (Hseg4 : seg (x_nodes z4) p js its) by (eapply agree_app_seg; [exact Hseg|exact Hjs|exact Hp|reflexivity|exact A4]).
        assert (Hseg5 : seg (x_nodes z5) p (js ++ [size x]) (its ++ [From_to a t])) by (eapply seg_snoc; eauto).
        assert (F5 : Forall (fun k => k < size z5) (js ++ [size x])).
        { rewrite S5. apply Forall_app. split; [eapply Forall_impl; [|exact Hjs]; cbv beta; lia|constructor; [lia|constructor]]. }
        edestruct (IH (-1)%Z p (js ++ [size x]) (its ++ [From_to a t]) None z5 y) as (u & js2 & tl & I1 & I2 & I3 & I4 & I5 & I6 & I7).
        { split; [exact Hseg5|]. split; [exact F5|reflexivity]. }
        { lia. }
        { unfold class_rest, bind. rewrite last_snoc, E. exact H. }
        rewrite <- app_assoc in I5. rewrite <- (app_assoc js) in I4. rewrite <- (app_assoc its) in I4. cbn [app] in I4, I5.
        exists ("-"%char :: u1 ++ u), (size x :: js2), (From_to a t :: tl). split.
        { rewrite E1. cbn [app]. f_equal. rewrite <- E2, <- Rn, <- R1, R2, <- app_assoc. f_equal. rewrite <- R3, <- R4. exact I1. }
        split; [exact I2|]. split.
        { intros minus s0 Hm. apply (members_range minus s0 a u1 t u tl); [exact Hm| |exact I3]. apply Lim.
          rewrite <- R3, <- R4, I1. destruct I2 as [s9 ->]. destruct u; discriminate. }
        split; [exact I4|]. split; [exact I5|]. split.
        { eapply keep_trans; [|exact I6]. split; [|lia]. intros k Hk. rewrite (proj1 (proj2 C3)) by lia. apply A4. lia. }
        eapply same_but_next_trans; [|exact I7]. eapply same_but_next_trans; [eapply same_but_next_agree; [exact A4|lia]|].
        eapply same_but_next_changed. exact C3.
      * apply aeqb_neq in Cm. inv_bind E w z1 E0. apply set_inv in E0. destruct E0 as [C1 R1].
        assert (S1 : size z1 = size x) by exact (changed_size _ _ _ _ C1).
        assert (Hseg1 : seg (x_nodes z1) p (js ++ [fi]) (its ++ [it])) by (eapply seg_snoc; eauto).
        inv_bind E j z2 E0. apply charnode_inv in E0. destruct E0 as (u1 & n1 & -> & R2 & K2 & S2 & Hn1 & Hx1 & Sg).
        assert (F1 : Forall (fun k => k < size z1) (js ++ [fi])).
        { rewrite S1. apply Forall_app. split; [exact Hjs|constructor; [exact Lf|constructor]]. }
        assert (Hseg2 : seg (x_nodes z2) p (js ++ [fi]) (its ++ [it])).
        { eapply agree_app_seg; [exact Hseg1|exact F1|lia|reflexivity|exact (proj1 K2)]. }
        assert (Rz : rem z2 <> []).
        { intros Z0. destruct fuel as [|fuel']; [discriminate|]. cbn [class_loop] in E. inv_bind E d z3 E0. apply peek_inv in E0.
          destruct E0 as (_ & s3 & X & _). congruence. }
        destruct (Sg Rz) as (it1 & Al1 & Hi1 & Mem).
        edestruct (IH (zn (size z1)) p (js ++ [fi]) (its ++ [it]) (Some it1) z2 y) as (u & js2 & tl & I1 & I2 & I3 & I4 & I5 & I6 & I7).
        { split; [exact Hseg2|]. split; [eapply Forall_impl; [|exact F1]; cbv beta; lia|]. split; [exact Al1|].
          exists (size z1), n1. rewrite last_snoc. repeat split; auto; lia. }
        { lia. }
        { unfold class_rest, bind. rewrite last_snoc, E. exact H. }
        rewrite <- app_assoc in I5. rewrite <- (app_assoc js) in I4. rewrite <- (app_assoc its) in I4. cbn [app] in I4, I5.
        assert (Hd : hd_error u1 = Some c \/ u1 = []).
        { destruct u1 as [|a u1]; [right; reflexivity|left]. rewrite R1, E1 in R2. injection R2 as <- _. reflexivity. }
        exists (u1 ++ u), (fi :: js2), (it :: tl). split; [rewrite <- R1, R2, I1, app_assoc; reflexivity|]. split; [exact I2|]. split.
        { intros minus s0 Hm. apply members_one; [exact Hm|]. apply I3. apply Mem.
          - intros _. destruct Hd as [-> | ->]; [congruence|discriminate].
          - destruct Hd as [-> | ->]; [congruence|discriminate]. }
        split; [exact I4|]. split; [exact I5|]. split.
        { eapply keep_trans; [eapply keep_set; [exact C1|exact Lp]|]. eapply keep_trans; [|exact I6]. eapply keep_sub; [exact K2|lia]. }
        eapply same_but_next_trans; [|exact I7]. eapply same_but_next_trans; [eapply same_but_next_changed; exact C1|].
        eapply same_but_next_agree; [exact (proj1 K2)|lia].
    + rewrite Hpend in E. change (-1 =? -1)%Z with true in E. cbn [negb] in E. rewrite andb_false_r in E.
      inv_bind E j z2 E0. apply charnode_inv in E0. destruct E0 as (u1 & n1 & -> & R2 & K2 & S2 & Hn1 & Hx1 & Sg).
      assert (Hseg2 : seg (x_nodes z2) p js its).
      { eapply agree_app_seg; [exact Hseg|exact Hjs|lia|reflexivity|exact (proj1 K2)]. }
      assert (Rz : rem z2 <> []).
      { intros Z0. destruct fuel as [|fuel']; [discriminate|]. cbn [class_loop] in E. inv_bind E d z3 E0. apply peek_inv in E0.
        destruct E0 as (_ & s3 & X & _). congruence. }
      destruct (Sg Rz) as (it1 & Al1 & Hi1 & Mem).
      edestruct (IH (zn (size x)) p js its (Some it1) z2 y) as (u & js2 & tl & I1 & I2 & I3 & I4 & I5 & I6 & I7).
      { split; [exact Hseg2|]. split; [eapply Forall_impl; [|exact Hjs]; cbv beta; lia|]. split; [exact Al1|].
        exists (size x), n1. repeat split; auto; lia. }
      { lia. }
      { unfold class_rest, bind. rewrite E. exact H. }
      assert (Hd : hd_error u1 = Some c \/ u1 = []).
      { destruct u1 as [|a u1]; [right; reflexivity|left]. rewrite E1 in R2. injection R2 as <- _. reflexivity. }
      exists (u1 ++ u), js2, tl. split; [rewrite R2, I1, app_assoc; reflexivity|]. split; [exact I2|]. split.
      { cbn [fin]. apply I3. apply Mem; [discriminate|]. destruct Hd as [-> | ->]; [congruence|discriminate]. }
      split; [exact I4|]. split; [exact I5|]. split.
      { eapply keep_trans; [|exact I6]. eapply keep_sub; [exact K2|lia]. }
      eapply same_but_next_trans; [|exact I7]. eapply same_but_next_agree; [exact (proj1 K2)|lia].
Qed.

(** What stands for an expression from [x] on to [y]: the node [i], with no next. *)
Definition made (x y : trex) (i : nat) (r : rx) : Prop :=
  keep (size x) x y /\ rep (x_nodes y) false (size x) (size y) i r /\ exists n, nd (x_nodes y) i n /\ n_next n = (-1)%Z.
Lemma class_inv fuel x i y : class fuel pat x = PVal i y ->
  exists u out its, i = zn (size x) /\ rem x = u ++ rem y /\ (exists s, rem y = "]"%char :: s) /\ made x y (size x) (Set_ out its) /\
    forall avoid, written Atom avoid (lit "[" ++ u ++ lit "]") (Set_ out its).
Proof.
  unfold class. intros H. inv_bind H c z E. apply peek_inv in E. destruct E as (-> & s & E1 & E2).
  inv_bind H rt z1 E.
  assert (X : exists out u0, rt = zn (size x) /\ (out = true /\ u0 = lit "^" \/ out = false /\ u0 = [] /\ c <> "^"%char) /\
     rem x = u0 ++ rem z1 /\ exists rg, x_nodes z1 = x_nodes x ++ [mkN (if out then OP_NCLASS else OP_CLASS) (-1) rg (-1)]).
  { destruct (aeqb c "^") eqn:C.
    - apply aeqb_eq in C. subst c. inv_bind E j z2 E0. apply newnode_inv in E0. destruct E0 as (-> & (rg & N0) & R0).
      inv_bind E w z3 E0. rewrite skip_is in E0. injection E0 as <- <-. injection E as <- <-.
      exists true, (lit "^"). split; [reflexivity|]. split; [left; auto|]. split; [|exists rg; exact N0].
      rewrite E1. cbn. f_equal. symmetry. apply (skip_at _ "^"%char). rewrite R0. exact E1.
    - apply newnode_inv in E. destruct E as (-> & (rg & N0) & R0). exists false, []. split; [reflexivity|].
      apply aeqb_neq in C. split; [right; auto|]. split; [symmetry; exact R0|]. exists rg. exact N0. }
  destruct X as (out & u0 & -> & Hout & R0 & rg & N0). destruct (keep_new _ _ _ N0) as (K1 & K2 & K3).
  inv_bind H c1 z2 E0. apply peek_inv in E0. destruct E0 as (-> & s1 & E3 & E4).
  destruct (aeqb c1 "]") eqn:C1; [discriminate|]. apply aeqb_neq in C1.
  inv_bind H fc z3 E0. inv_bind H w z4 E5.
  destruct (class_rest_inv fuel (-1)%Z (size x) [] [] None z1 z4) as (u & js & tl & I1 & (sr & I2) & I3 & I4 & I5 & I6 & I7).
  { split; [apply (seg_nil _ _ (mkN (if out then OP_NCLASS else OP_CLASS) (-1) rg (-1))); [exact K3|reflexivity]|]. split; [constructor|reflexivity]. }
  { lia. }
  { unfold class_rest, bind. cbn [List.last]. rewrite E0. destruct w. exact E5. }
  cbn [app] in I4, I5. inv_bind H n z5 E6. apply node_of_inv in E6. destruct E6 as (-> & Hn).
  inv_bind H w1 z6 E6. apply set_inv in E6. destruct E6 as [D1 R1]. inv_bind H w2 z7 E6. apply set_inv in E6. destruct E6 as [D2 R2].
  injection H as <- <-.
  destruct js as [|j js].
  { exfalso. inversion I4; subst. inversion I3; subst.
    - rewrite I2 in I1. cbn in I1. rewrite E3 in I1. injection I1 as I1 _. contradiction. }
  inversion I4 as [|p0 n0 j0 m js0 it its Hn0 Hx0 Lj Hm Hi Hs]; subst.
  assert (n0 = n) as -> by (unfold nd in *; congruence).
  destruct (I7 _ K3) as (n1 & P1 & P2 & P3 & P4). assert (n1 = n) as -> by (unfold nd in *; congruence). cbn [n_type n_left n_right] in P2, P3, P4.
  exists (u0 ++ u), out, (it :: its). split; [reflexivity|]. rewrite R2, R1.
  split; [rewrite R0, I1, app_assoc; reflexivity|]. split; [eauto|].
  assert (Sz : size z7 = size z4) by (rewrite (changed_size _ _ _ _ D2), (changed_size _ _ _ _ D1); reflexivity).
  assert (Ag : forall k, k <> size x -> nth_error (x_nodes z7) k = nth_error (x_nodes z4) k).
  { intros k Hk. rewrite (proj1 (proj2 D2)) by exact Hk. apply (proj1 (proj2 D1)). exact Hk. }
  destruct D1 as ((q1 & Q1 & Q2) & _). destruct D2 as ((q2 & Q3 & Q4) & _).
  assert (q1 = n) as -> by (unfold nd in *; congruence). assert (q2 = with_left (n_next n) n) as -> by (unfold nd in *; congruence).
  split; [split; [|split]|].
  - split; [|destruct I6; lia]. intros k Hk. rewrite Ag by lia. rewrite (proj1 I6) by lia. apply (proj1 K1). exact Hk.
  - apply (r_set _ _ _ (with_next (-1) (with_left (n_next n) n)) out j m js).
    + exact Q4.
    + exact P2.
    + exact Hx0.
    + exact Lj.
    + rewrite Sz. exact I5.
    + unfold nd. rewrite Ag by lia. exact Hm.
    + exact Hi.
    + inversion I5; subst. eapply seg_agree with (hi := size z4); [exact Hs|assumption|assumption|]. intros k Hk. apply Ag. lia.
  - eexists. split; [exact Q4|reflexivity].
  - intros avoid. cbn [fin] in I3. destruct Hout as [[-> ->]|(-> & -> & Cc)].
    + apply (w_set_out avoid u); [discriminate|exact I3].
    + apply w_set; [discriminate| |exact I3]. cbn [app] in *. intros X. destruct u as [|d u]; [discriminate|]. injection X as ->.
      rewrite I1 in R0. cbn in R0. rewrite E1 in R0. injection R0 as R0 _. contradiction.
Qed.

(** *** Numbers and repetitions *)
Lemma isdigit_spec c : isdigit c = digit c.
Proof. reflexivity. Qed.
Lemma number_loop_inv fuel : forall v pos x v' y, number_loop fuel pat (Z.of_N v) pos x = PVal v' y ->
  exists ds, rem x = ds ++ rem y /\ x_nodes y = x_nodes x /\ Forall (fun d => digit d = true) ds /\
    v' = Z.of_N (fold_left (fun v d => v * 10 + (code d - 48))%N ds v).
Proof.
  induction fuel as [|fuel IH]; intros v pos x v' y H; cbn [number_loop] in H; [discriminate|].
  inv_bind H c z E. apply peek_inv in E. destruct E as (-> & s & E1 & E2). destruct (isdigit c) eqn:D.
  - inv_bind H v1 z E. apply of_cres_inv in E. destruct E as [O1 ->]. inv_bind H v2 z E. apply of_cres_inv in E. destruct E as [O2 ->].
    inv_bind H w z E. rewrite skip_is in E. injection E as <- <-. destruct (pos =? 1000000000)%Z; [discriminate|].
    inv_bind H p1 z E. apply of_cres_inv in E. destruct E as [_ ->].
    assert (Dc : (48 <= code c <= 57)%N). { unfold isdigit, between in D. apply andb_true_iff in D. rewrite !N.leb_le in D. exact D. }
    assert (Ev : v2 = Z.of_N (v * 10 + (code c - 48))).
    { unfold int_op in O1, O2. destruct (in_int (Z.of_N v * 10)); [|discriminate]. injection O1 as <-.
      destruct (in_int _) in O2; [|discriminate]. injection O2 as <-. rewrite (sgn_ascii c) by lia. lia. }
    subst v2. apply IH in H. destruct H as (ds & I1 & I2 & I3 & I4). exists (c :: ds). split; [rewrite E1; cbn; f_equal; rewrite <- E2; exact I1|].
    split; [exact I2|]. split; [constructor; [exact D|exact I3]|exact I4].
  - injection H as <- <-. exists []. split; [reflexivity|]. split; [reflexivity|]. split; [constructor|reflexivity].
Qed.
Lemma parsenumber_inv fuel x v y c s : rem x = c :: s -> isdigit c = true -> parsenumber fuel pat x = PVal v y ->
  exists ds, rem x = ds ++ rem y /\ x_nodes y = x_nodes x /\ digits ds /\ v = Z.of_N (value ds).
Proof.
  intros R D H. unfold parsenumber in H. inv_bind H d z E. apply peek_inv in E. destruct E as (-> & s1 & E1 & E2).
  assert (d = c) as -> by congruence. inv_bind H w z E. rewrite skip_is in E. injection E as <- <-.
  assert (Dc : (48 <= code c <= 57)%N). { unfold isdigit, between in D. apply andb_true_iff in D. rewrite !N.leb_le in D. exact D. }
  replace (sgn c - 48)%Z with (Z.of_N (code c - 48)) in H by (rewrite (sgn_ascii c) by lia; lia).
  apply number_loop_inv in H. destruct H as (ds & I1 & I2 & I3 & I4). exists (c :: ds). split; [rewrite E1; cbn; f_equal; rewrite <- E2; exact I1|].
  split; [exact I2|]. split; [split; [discriminate|constructor; [exact D|exact I3]]|]. rewrite I4. reflexivity.
Qed.
Lemma repetition_inv fuel x o y : repetition fuel pat x = PVal o y -> x_nodes y = x_nodes x /\
  match o with
  | None => y = x /\ forall c s, rem x = c :: s -> ~ In c (lit "*+?{")
  | Some (p0, p1) => exists u min max, rem x = u ++ rem y /\ count u min max /\ p0 = (Z.of_N min mod 65536)%Z /\
      p1 = match max with Some m => (Z.of_N m mod 65536)%Z | None => 65535%Z end
  end.
Proof.
  unfold repetition. intros H. inv_bind H c z E. apply peek_inv in E. destruct E as (-> & s & E1 & E2).
  destruct (aeqb c "*") eqn:C1.
  { apply aeqb_eq in C1. subst c. inv_bind H w z E. rewrite skip_is in E. injection E as <- <-. injection H as <- <-.
    split; [reflexivity|]. exists (lit "*"), 0%N, None. rewrite E1, E2. split; [reflexivity|]. split; [constructor|]. split; reflexivity. }
  destruct (aeqb c "+") eqn:C2.
  { apply aeqb_eq in C2. subst c. inv_bind H w z E. rewrite skip_is in E. injection E as <- <-. injection H as <- <-.
    split; [reflexivity|]. exists (lit "+"), 1%N, None. rewrite E1, E2. split; [reflexivity|]. split; [constructor|]. split; reflexivity. }
  destruct (aeqb c "?") eqn:C3.
  { apply aeqb_eq in C3. subst c. inv_bind H w z E. rewrite skip_is in E. injection E as <- <-. injection H as <- <-.
    split; [reflexivity|]. exists (lit "?"), 0%N, (Some 1%N). rewrite E1, E2. split; [reflexivity|]. split; [constructor|]. split; reflexivity. }
  destruct (aeqb c "{") eqn:C4.
  2:{ injection H as <- <-. split; [reflexivity|]. split; [reflexivity|]. intros d s1 R. assert (d = c) as -> by congruence.
      apply aeqb_neq in C1, C2, C3, C4. cbn. intuition congruence. }
  apply aeqb_eq in C4. subst c. inv_bind H w z E. rewrite skip_is in E. injection E as <- <-.
  inv_bind H d z E. apply peek_inv in E. destruct E as (-> & s1 & E3 & E4). destruct (isdigit d) eqn:D; [|discriminate]. cbn [negb] in H. cbv iota in H.
  inv_bind H n z E. apply (parsenumber_inv _ _ _ _ _ _ E3 D) in E. destruct E as (ds & R1 & N1 & D1 & ->). cbv zeta in H.
  inv_bind H e z1 E. apply peek_inv in E. destruct E as (-> & s2 & E5 & E6). destruct (aeqb e "}") eqn:C5.
  { apply aeqb_eq in C5. subst e. inv_bind H w z2 E. rewrite skip_is in E. injection E as <- <-. injection H as <- <-. split; [exact N1|].
    exists (lit "{" ++ ds ++ lit "}"), (value ds), (Some (value ds)). rewrite E6. split.
    - rewrite E1, <- app_assoc. cbn. f_equal. rewrite <- E2, R1, E5, <- app_assoc. reflexivity.
    - split; [constructor; exact D1|]. split; reflexivity. }
  destruct (aeqb e ",") eqn:C6; [|discriminate]. apply aeqb_eq in C6. subst e.
  inv_bind H w z2 E. rewrite skip_is in E. injection E as <- <-. inv_bind H e z2 E. apply peek_inv in E. destruct E as (-> & s3 & E7 & E8).
  inv_bind H p1 z2 E. inv_bind H w1 z3 E9. apply expect_inv in E9. destruct E9 as [-> R9]. injection H as <- <-.
  destruct (isdigit e) eqn:De.
  - inv_bind E m z4 E9. apply (parsenumber_inv _ _ _ _ _ _ E7 De) in E9. destruct E9 as (es & R2 & N2 & D2 & ->). injection E as <- <-.
    split; [cbn [next_p x_nodes] in *; congruence|].
    exists (lit "{" ++ ds ++ lit "," ++ es ++ lit "}"), (value ds), (Some (value es)). split.
    + rewrite E1, <- !app_assoc. cbn. f_equal. rewrite <- E2, R1, E5. f_equal. f_equal. rewrite <- E6, R2, R9. reflexivity.
    + split; [constructor; assumption|]. split; reflexivity.
  - injection E as <- <-. split; [exact N1|]. exists (lit "{" ++ ds ++ lit ",}"), (value ds), None. split.
    + rewrite E1, <- !app_assoc. cbn. f_equal. rewrite <- E2, R1, E5. f_equal. cbn. f_equal. rewrite <- E6, R9. reflexivity.
    + split; [constructor; assumption|]. split; reflexivity.
Qed.

(** *** Elements and lists *)
Lemma made_same x y z i r : made x y i r -> x_nodes z = x_nodes y -> made x z i r.
Proof. unfold made, keep, size. intros H ->. exact H. Qed.
Lemma agree_but_changed ns ns' lo hi i f : changed ns ns' i f ->
  (forall n, n_type (f n) = n_type n /\ n_left (f n) = n_left n /\ n_right (f n) = n_right n) -> agree_but ns ns' lo hi i.
Proof.
  intros ((n0 & C1 & C2) & C3 & _) Hf. split.
  - intros k _ Hk. apply C3. exact Hk.
  - intros n Hn. assert (n0 = n) as -> by (unfold nd in *; congruence). exists (f n). split; [exact C2|apply Hf].
Qed.
Lemma made_rep x z z' i r min max u : made x z i r ->
  (exists n rt, u = zn (size z) /\ x_nodes z' = x_nodes z ++ [n] /\ n = mkN OP_GREEDY (zn i) rt (-1) /\ counts rt min max) ->
  made x z' (size z) (Rep r min max).
Proof.
  intros (K & R & n0 & N1 & N2) (n & rt & -> & E & En & C). pose proof (rep_bounds _ _ _ _ _ _ R) as B. destruct (keep_new _ _ _ E) as (K1 & K2 & K3).
  split; [eapply keep_trans; [exact K|eapply keep_sub; [exact K1|destruct K; lia]]|]. split.
  - rewrite K2. subst n. eapply r_rep; [exact K3|reflexivity|reflexivity|exact C|rewrite E; apply nd_app; exact N1|exact N2|].
    eapply rep_agree; [exact R|]. cbv iota. apply agree_agree_but; [|lia]. eapply agree_sub; [exact (proj1 K1)|lia|lia].
  - exists n. split; [exact K3|]. subst n. reflexivity.
Qed.
Definition parsed (lv : level) (avoid : str) (x y : trex) (i : Z) : Prop :=
  exists i' u r, i = zn i' /\ rem x = u ++ rem y /\ rem y <> [] /\ written lv avoid u r /\ keep (size x) x y /\
    rep (x_nodes y) true (size x) (size y) i' r.
Lemma nth_ext_some {A} (l l' : list A) : (forall k, nth_error l k = nth_error l' k) -> l = l'.
Proof.
  revert l'. induction l as [|a l IH]; intros [|b l'] H; try reflexivity.
  - specialize (H 0). discriminate.
  - specialize (H 0). discriminate.
  - f_equal; [specialize (H 0); cbn in H; congruence|]. apply IH. intros k. exact (H (S k)).
Qed.
Lemma in_single (c d : ascii) : In c [d] <-> c = d.
Proof. cbn. intuition congruence. Qed.
Lemma parse_inv fuel :
  (forall x i y avoid, (forall c s, rem x = c :: s -> ~ In c avoid) -> element fuel pat x = PVal i y -> parsed Chain avoid x y i) /\
  (forall x i y avoid, (forall c s, rem x = c :: s -> c <> "^"%char -> ~ In c avoid) -> list_ fuel pat x = PVal i y -> parsed List_ avoid x y i).
Proof.
  induction fuel as [|fuel [IHe IHl]]; [split; intros; discriminate|]. split.
  - intros x i y avoid Av H. cbn [element] in H. inv_bind H c z E. apply peek_inv in E. destruct E as (-> & s & E1 & E2).
    inv_bind H rt z E.
    assert (X : exists i' u r, rt = zn i' /\ rem x = u ++ rem z /\ made x z i' r /\ (rem z <> [] -> written Atom avoid u r)).
    { destruct (aeqb c "(") eqn:C1.
      { apply aeqb_eq in C1. subst c. inv_bind E w z1 E0. rewrite skip_is in E0. injection E0 as <- <-.
        inv_bind E d z1 E0. apply peek_inv in E0. destruct E0 as (-> & s1 & E3 & E4).
        inv_bind E e z1 E0.
        assert (Y : exists op u0, (op = OP_EXPR \/ op = OP_NOCAPEXPR) /\ e = zn (size x) /\ rem x = u0 ++ rem z1 /\
          (exists rg, x_nodes z1 = x_nodes x ++ [mkN op (-1) rg (-1)]) /\
          exists av, (forall c s, rem z1 = c :: s -> c <> "^"%char -> ~ In c av) /\
                     forall t r, written List_ av t r -> written Atom avoid (u0 ++ t ++ lit ")") r).
        { destruct (aeqb d "?") eqn:C2.
          - apply aeqb_eq in C2. subst d. inv_bind E0 w z2 E5. rewrite skip_is in E5. injection E5 as <- <-.
            inv_bind E0 w z2 E5. apply expect_inv in E5. destruct E5 as [-> R5]. apply newnode_inv in E0. destruct E0 as (-> & N0 & R0).
            exists OP_NOCAPEXPR, (lit "(?:"). split; [auto|]. split; [reflexivity|]. split.
            + rewrite E1. rewrite E2 in E3. rewrite E3, <- E4, R5, R0. reflexivity.
            + split; [exact N0|]. exists (lit "^"). split; [|intros t r Hw; apply w_group_plain; exact Hw].
              intros c0 s0 _ D. cbn. intuition congruence.
          - apply newnode_inv in E0. destruct E0 as (-> & N0 & R0). apply aeqb_neq in C2.
            exists OP_EXPR, (lit "("). split; [auto|]. split; [reflexivity|]. split; [rewrite E1, R0, E2; reflexivity|]. split; [exact N0|].
            exists (lit "^?"). split; [|intros t r Hw; apply w_group; exact Hw].
            intros c0 s0 R D. rewrite R0, E3 in R. injection R as <- _. cbn. intuition congruence. }
        destruct Y as (op & u0 & Hop & -> & R0 & (rg & N0) & av & Hav & Hw). destruct (keep_new _ _ _ N0) as (K1 & K2 & K3).
        inv_bind E l z2 E5. apply (IHl _ _ _ av Hav) in E5. destruct E5 as (l' & u1 & r1 & -> & R1 & Nr & W1 & Kp & Rp).
        inv_bind E w z3 E5. apply set_inv in E5. destruct E5 as [C R2]. inv_bind E w1 z4 E5. apply expect_inv in E5. destruct E5 as [-> R3].
        injection E as <- <-. exists (size x), (u0 ++ u1 ++ lit ")"), r1. split; [reflexivity|].
        split; [rewrite R0, R1, <- R2, R3, <- !app_assoc; reflexivity|]. split; [|intros _; apply Hw; exact W1].
        apply (made_same x z3); [|reflexivity]. pose proof (rep_bounds _ _ _ _ _ _ Rp) as B. pose proof (changed_size _ _ _ _ C) as Sz.
        destruct C as ((q & Q1 & Q2) & Q3 & Q4). assert (q = mkN op (-1) rg (-1)) as ->. { unfold nd in *. rewrite (proj1 Kp) in Q1 by lia. congruence. }
        split; [|split].
        - split; [|destruct Kp; lia]. intros k Hk. rewrite Q3 by lia. rewrite (proj1 Kp) by lia. apply (proj1 K1). exact Hk.
        - eapply r_group; [exact Q2|exact Hop|reflexivity|]. rewrite Sz. rewrite K2 in Rp. eapply rep_agree; [exact Rp|]. cbv iota. intros k Hk. apply Q3. lia.
        - eexists. split; [exact Q2|reflexivity]. }
      destruct (aeqb c "[") eqn:C2.
      { apply aeqb_eq in C2. subst c. inv_bind E w z1 E0. rewrite skip_is in E0. injection E0 as <- <-.
        inv_bind E e z1 E0. apply class_inv in E0. destruct E0 as (u & out & its & -> & R0 & (s0 & R1) & Md & Hw).
        inv_bind E w z2 E0. apply expect_inv in E0. destruct E0 as [-> R2]. injection E as <- <-.
        exists (size x), (lit "[" ++ u ++ lit "]"), (Set_ out its). split; [reflexivity|].
        split; [rewrite E1, <- E2, R0, R2, <- !app_assoc; reflexivity|]. split; [|intros _; apply Hw].
        apply (made_same x z1); [exact Md|reflexivity]. }
      destruct (aeqb c "$") eqn:C3.
      { apply aeqb_eq in C3. subst c. inv_bind E w z1 E0. rewrite skip_is in E0. injection E0 as <- <-. apply newnode_inv in E.
        destruct E as (-> & (rg & N0) & R0). destruct (keep_new x z _ N0) as (K1 & K2 & K3).
        exists (size x), (lit "$"), Stop. split; [reflexivity|]. split; [rewrite E1, R0, E2; reflexivity|]. split; [|intros _; constructor].
        split; [exact K1|]. split; [rewrite K2; eapply r_stop; [exact K3|reflexivity]|]. eexists. split; [exact K3|reflexivity]. }
      destruct (aeqb c ".") eqn:C4.
      { apply aeqb_eq in C4. subst c. inv_bind E w z1 E0. rewrite skip_is in E0. injection E0 as <- <-. apply newnode_inv in E.
        destruct E as (-> & (rg & N0) & R0). destruct (keep_new x z _ N0) as (K1 & K2 & K3).
        exists (size x), (lit "."), Any. split; [reflexivity|]. split; [rewrite E1, R0, E2; reflexivity|]. split; [|intros _; constructor].
        split; [exact K1|]. split; [rewrite K2; eapply r_any; [exact K3|reflexivity]|]. eexists. split; [exact K3|reflexivity]. }
      apply charnode_inv in E. destruct E as (u & n & -> & R0 & K1 & K2 & K3 & Hx & Sg).
      assert (Rz : rem z <> []). { inv_bind H p z1 E. unfold repetition in E. inv_bind E d z2 E3. apply peek_inv in E3. destruct E3 as (_ & s3 & E3 & _). rewrite E3. discriminate. }
      destruct (Sg Rz) as (r & W & Rp). exists (size x), u, r. split; [reflexivity|]. split; [exact R0|]. split.
      - split; [exact K1|]. split; [rewrite K2; apply Rp; exact K3|]. eauto.
      - intros _. apply W. intros c0 Hc0. assert (c0 = c) as ->. { destruct u as [|d u]; [discriminate|]. injection Hc0 as ->. rewrite E1 in R0. injection R0 as ->. reflexivity. }
        intros In0. apply in_app_or in In0. destruct In0 as [In0|In0]; [|exact (Av _ _ E1 In0)].
        apply aeqb_neq in C1, C2, C3, C4. cbn in In0. intuition congruence. }
    destruct X as (i1 & u1 & r1 & -> & R1 & Md1 & W1).
    inv_bind H p z1 Ep. apply repetition_inv in Ep. destruct Ep as [Np Hp].
    inv_bind H rt z2 E3.
    (* the atom, repeated or not *)
    assert (Y : exists i2 u2 r2 rp, rt = zn i2 /\ rem x = u2 ++ rem z2 /\ made x z2 i2 r2 /\ (rem z2 <> [] -> written Chain avoid u2 r2 /\
         (forall c s, rem z2 = c :: s -> ~ In c (lit "|)*+") -> ~ In c (behind rp)) /\
         forall t q, written Chain (behind rp) t q -> written Chain avoid (u2 ++ t) (Seq r2 q))).
    { destruct p as [[p0 p1]|].
      - destruct Hp as (cu & min & max & Rp & Cn & P0 & P1).
        inv_bind E3 g z3 E4. apply newnode_inv in E4. destruct E4 as (-> & (rg & N0) & R0). destruct (keep_new _ _ _ N0) as (K1 & K2 & K3).
        inv_bind E3 w z4 E4. apply set_inv in E4. destruct E4 as [C1 R2]. inv_bind E3 b z5 E4. apply of_cres_inv in E4. destruct E4 as [Pk ->].
        inv_bind E3 w1 z6 E4. apply set_inv in E4. destruct E4 as [C2 R3]. injection E3 as <- <-.
        assert (Sz : size z1 = size z) by (unfold size; rewrite Np; reflexivity).
        assert (Rz : rem z <> []). { rewrite Rp. inversion Cn; subst; discriminate. }
        exists (size z), (u1 ++ cu), (Rep r1 min max), true. split; [rewrite Sz; reflexivity|].
        split; [rewrite R1, Rp, R3, R2, R0, app_assoc; reflexivity|]. split.
        + eapply made_rep; [exact Md1|]. assert (Ct : counts b min max).
          { destruct (pack_fields p0 p1 b) as [F1 F2].
            - rewrite P0. apply Z.mod_pos_bound. lia.
            - rewrite P1. destruct max; [apply Z.mod_pos_bound; lia|lia].
            - exact Pk.
            - split; [rewrite F1; exact P0|rewrite F2; exact P1]. }
          exists (mkN OP_GREEDY (zn i1) b (-1)), b. split; [reflexivity|]. split; [|split; [reflexivity|exact Ct]].
          (* the node as it was set *)
          destruct C1 as ((q1 & Q1 & Q2) & Q3 & Q4). destruct C2 as ((q2 & Q5 & Q6) & Q7 & Q8).
          assert (q1 = mkN OP_GREEDY (-1) rg (-1)) as -> by (unfold nd in *; congruence).
          assert (q2 = with_left (zn i1) (mkN OP_GREEDY (-1) rg (-1))) as -> by (unfold nd in *; congruence).
          apply nth_ext_some. intros k. destruct (Nat.eq_dec k (size z1)) as [->|D].
          * rewrite Q6. symmetry. rewrite Sz. apply nd_new.
          * rewrite Q7, Q3 by exact D. rewrite N0, Np. destruct (Nat.lt_ge_cases k (List.length (x_nodes z))) as [L|L].
            -- rewrite !nth_error_app1 by exact L. reflexivity.
            -- assert (k > List.length (x_nodes z)) by (unfold size in *; lia).
               rewrite !(proj2 (nth_error_None _ _)) by (rewrite app_length; cbn; lia). reflexivity.
        + intros _. split; [apply w_last_rep; [apply W1; exact Rz|exact Cn]|]. split.
          * intros c0 s0 _ D. exact D.
          * intros t q Hw. rewrite <- app_assoc. apply w_more_rep; [apply W1; exact Rz|exact Cn|exact Hw].
      - destruct Hp as [-> Hc]. injection E3 as <- <-. exists i1, u1, r1, false. split; [reflexivity|]. split; [exact R1|]. split; [exact Md1|].
        intros Rz. split; [apply w_last; exact (W1 Rz)|]. split.
        + intros c0 s0 R0 D X. apply in_app_or in X. destruct X as [X|X]; [exact (D X)|]. apply (Hc _ _ R0). cbn in X |- *. tauto.
        + intros t q Hw. apply w_more; [exact (W1 Rz)|exact Hw]. }
    destruct Y as (i2 & u2 & r2 & rp & -> & R2 & Md2 & Hw2).
    inv_bind H c2 z3 E4. apply peek_inv in E4. destruct E4 as (-> & s2 & E5 & E6).
    assert (Rz2 : rem z2 <> []) by (rewrite E5; discriminate). destruct (Hw2 Rz2) as (Wl & Hbh & Wm).
    destruct Md2 as (Kx & Rx & n2 & Hn2 & Hx2). pose proof (rep_bounds _ _ _ _ _ _ Rx) as Bx.
    destruct (aeqb c2 "|" || aeqb c2 ")" || aeqb c2 "*" || aeqb c2 "+" || aeqb c2 NUL) eqn:Fo.
    + injection H as <- <-. exists i2, u2, r2. split; [reflexivity|]. split; [exact R2|]. split; [exact Rz2|]. split; [exact Wl|]. split; [exact Kx|].
      eapply r_last; [exact Rx|exact Hn2|exact Hx2].
    + inv_bind H j z3 E7. apply (IHe _ _ _ (behind rp)) in E7.
      2:{ intros c0 s0 R0. apply (Hbh _ _ R0). assert (c0 = c2) as -> by congruence. rewrite !orb_false_iff, !aeqb_neq in Fo. cbn. intuition congruence. }
      destruct E7 as (j' & u3 & r3 & -> & R3 & Rz3 & W3 & K3 & Rp3). pose proof (rep_bounds _ _ _ _ _ _ Rp3) as B3.
      inv_bind H w z4 E7. apply set_inv in E7. destruct E7 as [C R4]. injection H as <- <-. pose proof (changed_size _ _ _ _ C) as Sz.
      exists i2, (u2 ++ u3), (Seq r2 r3). split; [reflexivity|]. split; [rewrite R2, R3, R4, app_assoc; reflexivity|].
      split; [rewrite R4; exact Rz3|]. split; [apply Wm; exact W3|]. split.
      * eapply keep_trans; [exact Kx|]. eapply keep_trans; [eapply keep_sub; [exact K3|destruct Kx; lia]|]. eapply keep_set; [exact C|lia].
      * assert (Rx3 : rep (x_nodes z3) false (size x) (size z2) i2 r2).
        { eapply rep_agree; [exact Rx|]. cbv iota. apply agree_agree_but; [|lia]. eapply agree_sub; [exact (proj1 K3)|lia|lia]. }
        assert (Hn3 : nd (x_nodes z3) i2 n2). { unfold nd. rewrite (proj1 K3) by lia. exact Hn2. }
        rewrite Sz. eapply (r_more _ _ (size z2) _ _ (with_next (zn j') n2) j').
        -- eapply rep_agree; [exact Rx3|]. cbv iota. eapply agree_but_changed; [exact C|]. intros n0. auto.
        -- destruct C as ((q & Q1 & Q2) & _). assert (q = n2) as -> by (unfold nd in *; congruence). exact Q2.
        -- reflexivity.
        -- eapply rep_agree; [exact Rp3|]. cbv iota. intros k Hk. apply (proj1 (proj2 C)). lia.
  - intros x i y avoid Av H. cbn [list_] in H. inv_bind H c z E. apply peek_inv in E. destruct E as (-> & s & E1 & E2).
    inv_bind H rt z E.
    (* the chain, behind the anchor if there is one *)
    assert (X : exists i' u r, rt = zn i' /\ rem x = u ++ rem z /\ rem z <> [] /\ keep (size x) x z /\ rep (x_nodes z) true (size x) (size z) i' r /\
       written List_ avoid u r /\ forall t q, written List_ (lit "^") t q -> written List_ avoid (u ++ lit "|" ++ t) (Or r q)).
    { destruct (aeqb c "^") eqn:C.
      - apply aeqb_eq in C. subst c. inv_bind E w z1 E0. rewrite skip_is in E0. injection E0 as <- <-.
        inv_bind E b z1 E0. apply newnode_inv in E0. destruct E0 as (-> & (rg & N0) & R0). destruct (keep_new x z1 _ N0) as (K1 & K2 & K3).
        inv_bind E e z2 E0. apply (IHe _ _ _ []) in E0; [|intros c0 s0 _ []].
        destruct E0 as (j & u & r & -> & R1 & Rz & W & Kp & Rp). pose proof (rep_bounds _ _ _ _ _ _ Rp) as B.
        inv_bind E w z3 E0. apply set_inv in E0. destruct E0 as [Ch R2]. injection E as <- <-. pose proof (changed_size _ _ _ _ Ch) as Sz.
        change (size (next_p x)) with (size x) in *.
        exists (size x), (lit "^" ++ u), (Seq Start r). split; [reflexivity|]. split; [rewrite E1, <- E2, <- R0, R1, R2; reflexivity|]. split; [rewrite R2; exact Rz|].
        split; [eapply keep_trans; [exact K1|]; eapply keep_trans; [eapply keep_sub; [exact Kp|lia]|]; eapply keep_set; [exact Ch|lia]|].
        assert (Hb : exists nb, nd (x_nodes z3) (size x) nb /\ n_type nb = OP_BOL /\ n_next nb = zn j).
        { destruct Ch as ((q & Q1 & Q2) & _). assert (q = mkN OP_BOL (-1) rg (-1)) as ->. { unfold nd in *. rewrite (proj1 Kp) in Q1 by lia. congruence. }
          eexists. split; [exact Q2|]. split; reflexivity. }
        destruct Hb as (nb & Nb & Tb & Xb). split; [|split].
        + rewrite Sz. eapply r_more with (mid := S (size x)); [eapply r_start; [exact Nb|exact Tb]|exact Nb|exact Xb|].
          rewrite K2 in Rp. eapply rep_agree; [exact Rp|]. cbv iota. intros k Hk. apply (proj1 (proj2 Ch)). lia.
        + apply w_start. exact W.
        + intros t q Hw. rewrite <- app_assoc. apply w_start_or; [exact W|exact Hw].
      - apply aeqb_neq in C. apply (IHe _ _ _ avoid) in E.
        2:{ intros c0 s0 R. assert (c0 = c) as -> by congruence. exact (Av _ _ E1 C). }
        destruct E as (j & u & r & -> & R1 & Rz & W & Kp & Rp). exists j, u, r. split; [reflexivity|]. split; [exact R1|]. split; [exact Rz|].
        split; [exact Kp|]. split; [exact Rp|]. split; [apply w_list; exact W|]. intros t q Hw. apply w_or; [exact W|exact Hw]. }
    destruct X as (i1 & u1 & r1 & -> & R1 & Rz & K1 & Rp1 & W1 & Wo). pose proof (rep_bounds _ _ _ _ _ _ Rp1) as B1.
    inv_bind H c2 z1 E3. apply peek_inv in E3. destruct E3 as (-> & s2 & E3 & E4). destruct (aeqb c2 "|") eqn:C2.
    + apply aeqb_eq in C2. subst c2. inv_bind H w z1 E5. rewrite skip_is in E5. injection E5 as <- <-.
      inv_bind H t z1 E5. apply newnode_inv in E5. destruct E5 as (-> & (rg & N0) & R0). destruct (keep_new z z1 _ N0) as (K2 & K3 & K4).
      change (size (next_p z)) with (size z) in *.
      inv_bind H w z2 E5. apply set_inv in E5. destruct E5 as [C3 R2]. pose proof (changed_size _ _ _ _ C3) as S2.
      inv_bind H l z3 E5. apply (IHl _ _ _ (lit "^")) in E5; [|intros c0 s0 _ D; cbn; intuition congruence].
      destruct E5 as (l' & u2 & r2 & -> & R3 & Rz3 & W2 & K5 & Rp2). pose proof (rep_bounds _ _ _ _ _ _ Rp2) as B2.
      inv_bind H w1 z4 E5. apply set_inv in E5. destruct E5 as [C4 R4]. pose proof (changed_size _ _ _ _ C4) as S4. injection H as <- <-.
      exists (size z), (u1 ++ lit "|" ++ u2), (Or r1 r2). split; [reflexivity|].
      split; [rewrite R1, E3, <- E4, <- R0, <- R2, R3, R4, <- !app_assoc; reflexivity|]. split; [rewrite R4; exact Rz3|]. split; [apply Wo; exact W2|].
      assert (A : agree (x_nodes z) (x_nodes z4) 0 (size z)).
      { intros k Hk. rewrite (proj1 (proj2 C4)) by lia. rewrite (proj1 K5) by lia. rewrite (proj1 (proj2 C3)) by lia. apply (proj1 K2). exact Hk. }
      split.
      * eapply keep_trans; [exact K1|]. split; [eapply agree_sub; [exact A|lia|lia]|]. lia.
      * destruct C3 as ((q1 & Q1 & Q2) & Q3 & _). destruct C4 as ((q2 & Q5 & Q6) & Q7 & _).
        assert (q1 = mkN OP_OR (-1) rg (-1)) as -> by (unfold nd in *; congruence).
        assert (q2 = with_left (zn i1) (mkN OP_OR (-1) rg (-1))) as ->. { unfold nd in *. rewrite (proj1 K5) in Q5 by lia. congruence. }
        eapply r_last; [|exact Q6|reflexivity]. eapply r_or; [exact Q6|reflexivity|reflexivity|reflexivity| |].
        -- eapply rep_agree; [exact Rp1|]. cbv iota. eapply agree_sub; [exact A|lia|lia].
        -- rewrite S4. replace (S (size z)) with (size z2) by lia. eapply rep_agree; [exact Rp2|]. cbv iota. intros k Hk. apply Q7. lia.
    + injection H as <- <-. exists i1, u1, r1. repeat (split; [solve [auto]|]). exact Rp1.
Qed.
End parse.
