(** Single characters: the tests of the model against those of the specification. *)
From Coq Require Import ZArith NArith Bool List Ascii String Lia.
From Verif.Base Require Import CInt CStr CMem.
From Verif.Model Require Import Trex.
From Verif.Spec Require Import RegexSpec.
Import ListNotations.
Open Scope list_scope.
Open Scope Z_scope.

Lemma code_lt c : (code c < 256)%N.
Proof. unfold code. pose proof (N_ascii_embedding (N_of_ascii c)). destruct c as [[] [] [] [] [] [] [] []]; reflexivity. Qed.
Lemma code_inj c d : code c = code d -> c = d.
Proof. unfold code. intros H. rewrite <- (ascii_N_embedding c), <- (ascii_N_embedding d), H. reflexivity. Qed.
Lemma sgn_range c : -128 <= sgn c < 128.
Proof. unfold sgn. pose proof (code_lt c). destruct (Z.leb_spec 128 (Z.of_N (code c))); lia. Qed.
Lemma sgn_inj c d : sgn c = sgn d -> c = d.
Proof.
  unfold sgn. pose proof (code_lt c). pose proof (code_lt d). intros E. apply code_inj.
  destruct (Z.leb_spec 128 (Z.of_N (code c))), (Z.leb_spec 128 (Z.of_N (code d))); lia.
Qed.
Lemma sgn_eqb c d : (sgn c =? sgn d) = aeqb c d.
Proof.
  destruct (aeqb c d) eqn:E.
  - apply aeqb_eq in E. subst. apply Z.eqb_refl.
  - apply Z.eqb_neq. intros H. apply sgn_inj in H. apply aeqb_neq in E. contradiction.
Qed.
Lemma toupper_code c : Z.of_N (code (toupper c)) = toupper_z (Z.of_N (code c)).
Proof.
  unfold toupper, toupper_z. cbv zeta. pose proof (code_lt c).
  destruct (N.leb_spec 97 (code c)), (N.leb_spec (code c) 122); cbn [andb];
    destruct (Z.leb_spec 97 (Z.of_N (code c))), (Z.leb_spec (Z.of_N (code c)) 122); cbn [andb]; try lia.
  unfold code at 1. rewrite N_ascii_embedding by lia. lia.
Qed.
Lemma same_char_spec icase c d : same_char icase c (sgn d) = true <-> same icase c d.
Proof.
  unfold same_char, same. destruct icase.
  - rewrite orb_true_iff, !Z.eqb_eq. split.
    + intros H. pose proof (code_lt c). pose proof (code_lt d).
      assert (toupper c = toupper d); [|right; split; [reflexivity|assumption]].
      apply code_inj. apply N2Z.inj. rewrite !toupper_code. revert H. unfold sgn, tolower_z, toupper_z.
      destruct (Z.leb_spec 128 (Z.of_N (code c))), (Z.leb_spec 128 (Z.of_N (code d)));
      repeat match goal with |- context [?a <=? ?b] => destruct (Z.leb_spec a b) end; cbn [andb]; lia.
    + intros [->|[_ H]].
      * unfold tolower_z, toupper_z.
        repeat match goal with |- context [?a <=? ?b] => destruct (Z.leb_spec a b) end; cbn [andb]; lia.
      * assert (E : Z.of_N (code (toupper c)) = Z.of_N (code (toupper d))) by (rewrite H; reflexivity).
        rewrite !toupper_code in E. revert E. pose proof (code_lt c). pose proof (code_lt d).
        unfold sgn, tolower_z, toupper_z.
        destruct (Z.leb_spec 128 (Z.of_N (code c))), (Z.leb_spec 128 (Z.of_N (code d)));
        repeat match goal with |- context [?a <=? ?b] => destruct (Z.leb_spec a b) end; cbn [andb]; lia.
  - rewrite sgn_eqb, aeqb_eq. split; [auto|]. intros [H|[H _]]; [exact H|discriminate].
Qed.

Lemma all_ascii (P : ascii -> bool) : forallb P (map ascii_of_nat (seq 0 256)) = true -> forall c, P c = true.
Proof.
  intros H c. rewrite forallb_forall in H. apply H. rewrite <- (ascii_nat_embedding c). apply in_map. apply in_seq.
  pose proof (nat_ascii_bounded c). lia.
Qed.
Lemma all_ascii_eq (f g : ascii -> bool) : forallb (fun c => Bool.eqb (f c) (g c)) (map ascii_of_nat (seq 0 256)) = true ->
  forall c, f c = g c.
Proof. intros H c. apply eqb_prop. exact (all_ascii (fun c => Bool.eqb (f c) (g c)) H c). Qed.

Lemma matchcclass_spec k c : matchcclass (sgn k) c = kind k c.
Proof.
  unfold matchcclass, kind. rewrite !sgn_eqb.
  repeat match goal with |- context [if aeqb k ?d then _ else _] => destruct (aeqb k d); [revert c; apply all_ascii_eq; vm_compute; reflexivity|] end.
  reflexivity.
Qed.

Lemma sgn_ascii c : (code c < 128)%N -> sgn c = Z.of_N (code c).
Proof. unfold sgn. intros H. destruct (Z.leb_spec 128 (Z.of_N (code c))); lia. Qed.
Ltac cases_leb := repeat match goal with
  | |- context [?a <=? ?b] => destruct (Z.leb_spec a b)
  | H : context [?a <=? ?b] |- _ => destruct (Z.leb_spec a b)
  | |- context [N.leb ?a ?b] => destruct (N.leb_spec a b)
  | H : context [N.leb ?a ?b] |- _ => destruct (N.leb_spec a b) end.

(** A range. *)
Definition range_code (icase : bool) (c : ascii) (a b : Z) : bool :=
  if icase then ((toupper_z a <=? sgn c) && (sgn c <=? toupper_z b)) || ((tolower_z a <=? sgn c) && (sgn c <=? tolower_z b))
  else (a <=? sgn c) && (sgn c <=? b).
Lemma lies_iff a c b : lies a c b = true <-> (a <= c <= b)%N.
Proof. unfold lies. rewrite andb_true_iff, !N.leb_le. tauto. Qed.
Lemma range_plain c a b : (code a < 128)%N -> (code b < 128)%N ->
  range_code false c (sgn a) (sgn b) = true <-> (code a <= code c <= code b)%N.
Proof.
  intros Ha Hb. unfold range_code. rewrite (sgn_ascii a Ha), (sgn_ascii b Hb), andb_true_iff, !Z.leb_le.
  unfold sgn. pose proof (code_lt c). destruct (Z.leb_spec 128 (Z.of_N (code c))); lia.
Qed.
Lemma same_icase c d : same true c d <-> toupper_z (Z.of_N (code c)) = toupper_z (Z.of_N (code d)).
Proof.
  unfold same. rewrite <- !toupper_code. split.
  - intros [->|[_ ->]]; reflexivity.
  - intros H. right. split; [reflexivity|]. apply code_inj. lia.
Qed.
Lemma byte_of z : 0 <= z < 256 -> exists c, Z.of_N (code c) = z.
Proof. intros H. exists (ascii_of_N (Z.to_N z)). unfold code. rewrite N_ascii_embedding by lia. lia. Qed.
Lemma upper_small z : 97 <= z <= 122 -> toupper_z z = z - 32 /\ tolower_z z = z.
Proof. unfold toupper_z, tolower_z. intros H. cases_leb; cbn [andb]; lia. Qed.
Lemma upper_capital z : 65 <= z <= 90 -> toupper_z z = z /\ tolower_z z = z + 32.
Proof. unfold toupper_z, tolower_z. intros H. cases_leb; cbn [andb]; lia. Qed.
Lemma upper_other z : z < 65 \/ 90 < z < 97 \/ 122 < z -> toupper_z z = z /\ tolower_z z = z.
Proof. unfold toupper_z, tolower_z. intros H. cases_leb; cbn [andb]; lia. Qed.
Lemma upper_lower z : toupper_z (tolower_z z) = toupper_z z.
Proof. unfold tolower_z. destruct (Z.leb_spec 65 z), (Z.leb_spec z 90); cbn [andb]; try reflexivity.
  destruct (upper_small (z + 32)) as [-> _]; [lia|]. destruct (upper_capital z) as [-> _]; lia. Qed.
Lemma upper_upper z : toupper_z (toupper_z z) = toupper_z z.
Proof. unfold toupper_z at 2 3. destruct (Z.leb_spec 97 z), (Z.leb_spec z 122); cbn [andb];
  unfold toupper_z; cases_leb; cbn [andb]; lia. Qed.
Lemma case_kinds z : (97 <= z <= 122 \/ 65 <= z <= 90) \/ (z < 65 \/ 90 < z < 97 \/ 122 < z).
Proof. lia. Qed.
Ltac case_of z := destruct (case_kinds z) as [[?Hz|?Hz]|?Hz];
  [destruct (upper_small z Hz) as [?Eu ?El]|destruct (upper_capital z Hz) as [?Eu ?El]|destruct (upper_other z Hz) as [?Eu ?El]].
Lemma sgn_cases c : sgn c = Z.of_N (code c) /\ Z.of_N (code c) < 128 \/ sgn c < 0 /\ 128 <= Z.of_N (code c) < 256.
Proof. unfold sgn. pose proof (code_lt c). destruct (Z.leb_spec 128 (Z.of_N (code c))); lia. Qed.
Lemma range_icase c a b : range_ok true (From_to a b) ->
  range_code true c (sgn a) (sgn b) = true <-> has true (From_to a b) c.
Proof.
  cbn [range_ok has]. intros [[Ha Hb] K]. specialize (K eq_refl). unfold small, capital, digit in K.
  rewrite !orb_true_iff, !andb_true_iff, !lies_iff in K.
  change (code "a") with 97%N in K. change (code "z") with 122%N in K. change (code "A") with 65%N in K. change (code "Z") with 90%N in K.
  change (code "0") with 48%N in K. change (code "9") with 57%N in K.
  unfold range_code. rewrite (sgn_ascii a Ha), (sgn_ascii b Hb), orb_true_iff, !andb_true_iff, !Z.leb_le.
  pose proof (sgn_cases c) as Hc. split.
  - intros H. destruct (byte_of (
      if (97 <=? Z.of_N (code a)) then tolower_z (Z.of_N (code c)) else toupper_z (Z.of_N (code c)))) as [d Ed].
    + pose proof (N2Z.is_nonneg (code c)). destruct (Z.leb_spec 97 (Z.of_N (code a))); case_of (Z.of_N (code c)); lia.
    + exists d. rewrite same_icase.
      assert (A : toupper_z (Z.of_N (code c)) = toupper_z (Z.of_N (code d))).
      { rewrite Ed. destruct (97 <=? Z.of_N (code a)); symmetry; [apply upper_lower|apply upper_upper]. }
      split; [exact A|].
      destruct K as [[[K1 K2]|[K1 K2]]|[K1 K2]].
      * destruct (upper_small (Z.of_N (code a))) as [Ea Fa]; [lia|]. destruct (upper_small (Z.of_N (code b))) as [Eb Fb]; [lia|].
        rewrite Ea, Eb, Fa, Fb in H. rewrite (proj2 (Z.leb_le 97 _)) in Ed by lia. case_of (Z.of_N (code c)); lia.
      * destruct (upper_capital (Z.of_N (code a))) as [Ea Fa]; [lia|]. destruct (upper_capital (Z.of_N (code b))) as [Eb Fb]; [lia|].
        rewrite Ea, Eb, Fa, Fb in H. rewrite (proj2 (Z.leb_gt 97 _)) in Ed by lia. case_of (Z.of_N (code c)); lia.
      * destruct (upper_other (Z.of_N (code a))) as [Ea Fa]; [lia|]. destruct (upper_other (Z.of_N (code b))) as [Eb Fb]; [lia|].
        rewrite Ea, Eb, Fa, Fb in H. rewrite (proj2 (Z.leb_gt 97 _)) in Ed by lia. case_of (Z.of_N (code c)); lia.
  - intros (d & S1 & H). rewrite same_icase in S1. pose proof (sgn_cases d) as Hd.
    destruct K as [[[K1 K2]|[K1 K2]]|[K1 K2]].
    + destruct (upper_small (Z.of_N (code a))) as [Ea Fa]; [lia|]. destruct (upper_small (Z.of_N (code b))) as [Eb Fb]; [lia|].
      destruct (upper_small (Z.of_N (code d))) as [Ed Fd]; [lia|].
      rewrite Ea, Eb, Fa, Fb. case_of (Z.of_N (code c)); lia.
    + destruct (upper_capital (Z.of_N (code a))) as [Ea Fa]; [lia|]. destruct (upper_capital (Z.of_N (code b))) as [Eb Fb]; [lia|].
      destruct (upper_capital (Z.of_N (code d))) as [Ed Fd]; [lia|].
      rewrite Ea, Eb, Fa, Fb. case_of (Z.of_N (code c)); lia.
    + destruct (upper_other (Z.of_N (code a))) as [Ea Fa]; [lia|]. destruct (upper_other (Z.of_N (code b))) as [Eb Fb]; [lia|].
      destruct (upper_other (Z.of_N (code d))) as [Ed Fd]; [lia|].
      rewrite Ea, Eb, Fa, Fb. case_of (Z.of_N (code c)); lia.
Qed.
Lemma range_spec icase c a b : range_ok icase (From_to a b) ->
  range_code icase c (sgn a) (sgn b) = true <-> has icase (From_to a b) c.
Proof.
  destruct icase; [apply range_icase|]. intros [[Ha Hb] _]. rewrite range_plain by assumption. cbn [has]. unfold same. split.
  - intros H. exists c. auto.
  - intros (d & [->|[F _]] & H); [exact H|discriminate].
Qed.
