(** What the constructors make. *)
From Coq Require Import ZArith Bool List Lia ZifyBool.
From Verif.Base Require Import CInt.
From Verif.Model Require Import ArgObject.
From Verif.Spec Require Import ObjectSpec.
From Verif.Proofs Require Import ObjectMem ObjectProofs ObjectUses.
Import ListNotations.
Open Scope Z_scope.

Definition all_fields (K : kind) (h : Z -> Z) (base n m : Z) : list (Z * Z * list Z) :=
  (hdr_fields h base n m ++ own_fields K h base m) ++ (match K with KEnd => [(96, 4, le_bytes 4 0)] | _ => [] end).

Ltac fields K :=
  destruct K; cbn [all_fields hdr_fields own_fields pointer_fields map seq arrays app pointer_at puts put b_byte b_base b_size Z.of_nat Pos.of_succ_nat Pos.succ Z.mul Pos.mul Z.add Pos.add] in *.

Lemma fields_ok K h base n m : 0 <= m -> Forall (field_ok (total K m)) (all_fields K h base n m).
Proof.
  intro H. unfold all_fields, hdr_fields, own_fields, pointer_fields, al_ok.
  destruct K; cbn [map seq arrays app pointer_at total];
    repeat (apply Forall_cons; [unfold field_ok, al_ok; rewrite len_le_bytes; cbn [Z.of_nat Pos.of_succ_nat Pos.succ];
      repeat split; try reflexivity; try lia|]); apply Forall_nil.
Qed.

Ltac look :=
  repeat (rewrite get_put_other by (rewrite len_le_bytes; cbn [Z.of_nat Pos.of_succ_nat Pos.succ Pos.mul Z.mul Z.add Pos.add]; lia)).

Lemma triple (a b x y : Z) (c z : list Z) : (a, b, c) = (x, y, z) -> a = x /\ b = y /\ c = z.
Proof. intro H. split; [|split]; congruence. Qed.
Lemma fields_get K h base n m b x al v :
  0 <= m -> In (x, al, v) (all_fields K h base n m) ->
  get_bytes (b_byte (puts b (all_fields K h base n m))) x (length v) = v.
Proof.
  intros H I. unfold all_fields, hdr_fields, own_fields, pointer_fields in *.
  destruct K; cbn [map seq arrays app pointer_at In] in I;
    repeat (destruct I as [I|I]; [apply triple in I; destruct I as (<- & <- & <-); cbn [map seq arrays app pointer_at puts put b_byte];
       rewrite le_bytes_length; look; apply get_put_same; apply le_bytes_length|]); contradiction.
Qed.

(** Behind the members the memory is as it was. *)
Lemma fields_behind K h base n m b x k :
  0 <= m -> (forall a v w, In (a, v, w) (all_fields K h base n m) -> a + len w <= x) ->
  get_bytes (b_byte (puts b (all_fields K h base n m))) x k = get_bytes (b_byte b) x k.
Proof.
  intros _. generalize (all_fields K h base n m) as l. intro l. revert b.
  induction l as [|[[a v] w] l IH]; intros b F; [reflexivity|]. cbn [puts].
  rewrite IH by (intros; apply (F a0 v0 w0); now right). cbn [put b_byte]. apply get_put_other. left.
  apply (F a v w). now left.
Qed.
Lemma fields_below K h base n m a v w :
  0 <= m -> In (a, v, w) (all_fields K h base n m) -> a + len w <= (match K with KRex => 124 | KEnd => 128 | KFile => 128 | KDate => 120 | KLit => 100 | _ => 112 end).
Proof.
  intros H I. unfold all_fields, hdr_fields, own_fields, pointer_fields in *.
  destruct K; cbn [map seq arrays app pointer_at In] in I;
    repeat (destruct I as [I|I]; [apply triple in I; destruct I as (<- & <- & <-); rewrite len_le_bytes; cbn [Z.of_nat Pos.of_succ_nat Pos.succ]; lia|]); contradiction.
Qed.

Lemma start_ptr K base m j : base mod 16 = 0 -> (j < arrays K)%nat ->
  forall h n, In (pointer_at K j, 8, le_bytes 8 (base + off K m j)) (all_fields K h base n m).
Proof.
  intros Hb Hj h n. rewrite <- start_off by assumption. unfold all_fields. apply in_or_app. left. apply in_or_app. right.
  assert (I : In (pointer_at K j, 8, le_bytes 8 (start K base m j)) (pointer_fields K base m)).
  { unfold pointer_fields. apply in_map_iff. exists j. split; [reflexivity|]. apply in_seq. lia. }
  unfold own_fields. destruct K; try (apply in_or_app; left; exact I); try exact I.
  - cbn [arrays] in Hj. lia.
  - apply in_or_app. right. apply in_or_app. left. exact I.
Qed.
Lemma count_field K h base n m : In (count_at K, 4, le_bytes 4 0) (all_fields K h base n m).
Proof. destruct K; cbn; tauto. Qed.

(** The object as it is found in memory. *)
Definition found (K : kind) (m : Z) (b : block) : object :=
  mkObject 0 (fun j i => get_bytes (b_byte b) (off K m j + i * elem K j) (Z.to_nat (elem K j))).

Lemma fields_rep K h base n m junk :
  0 <= m -> base mod 16 = 0 ->
  let b := puts (mkBlock base (total K m) junk) (all_fields K h base n m) in
  rep K base m n b (found K m b).
Proof.
  intros H Hb b. constructor.
  - apply (puts_base (mkBlock base (total K m) junk) (all_fields K h base n m)).
  - apply (puts_base (mkBlock base (total K m) junk) (all_fields K h base n m)).
  - apply (fields_get K h base n m (mkBlock base (total K m) junk) 40 4 (le_bytes 4 n) H). cbn; tauto.
  - apply (fields_get K h base n m (mkBlock base (total K m) junk) 44 4 (le_bytes 4 m) H). cbn; tauto.
  - apply (fields_get K h base n m (mkBlock base (total K m) junk) (count_at K) 4 (le_bytes 4 0) H), count_field.
  - intros j Hj. apply (fields_get K h base n m (mkBlock base (total K m) junk) (pointer_at K j) 8 (le_bytes 8 (base + off K m j)) H).
    now apply start_ptr.
  - intros j i Hj Hi. reflexivity.
Qed.

(** The loops that make every pointer point to "". *)
Definition texts (K : kind) : bool := match K with KStr | KRex | KFile => true | _ => false end.
Lemma fits_texts K v : texts K = true -> len v = 8 -> fits K (repeat v (arrays K)).
Proof. intros T V. unfold fits. destruct K; try discriminate; cbn; now rewrite V. Qed.
Lemma rep_fill K base m n empty : max_ok K m -> allocated base (total K m) -> texts K = true ->
  forall k b o i,
  rep K base m n b o -> 0 <= i -> i + Z.of_nat k = m ->
  exists b' o', fill K b k i empty = Val b' /\ rep K base m n b' o' /\ o_count o' = o_count o /\ same_header b b' /\
    (forall j x, (j < arrays K)%nat -> i <= x < m -> o_entry o' j x = le_bytes 8 empty) /\
    (forall j x, x < i -> o_entry o' j x = o_entry o j x).
Proof.
  intros Hm Ha T. induction k as [|k IH]; intros b o i R Hi Hk; cbn [fill].
  - exists b, o. split; [reflexivity|]. split; [exact R|]. split; [reflexivity|]. split; [intros x _; reflexivity|]. split; [intros; lia|reflexivity].
  - destruct (rep_entries K base m n Hm Ha b o i (repeat (le_bytes 8 empty) (arrays K)) R ltac:(lia)) as (b1 & E1 & R1 & X1).
    { apply fits_texts; [exact T|apply len_le_bytes]. }
    destruct (IH b1 _ (i + 1) R1 ltac:(lia) ltac:(lia)) as (b2 & o2 & E2 & R2 & C2 & X2 & N2 & O2).
    exists b2, o2. rewrite E1. cbn [cbind]. rewrite E2. split; [reflexivity|]. split; [exact R2|].
    split; [exact C2|]. split; [apply (same_header_trans _ _ _ X1 X2)|]. split.
    + intros j x Hj Hx. destruct (Z.eq_dec x i) as [->|Nx].
      * rewrite O2 by lia. cbn [set_entries o_entry]. rewrite Z.eqb_refl.
        rewrite (nth_indep _ _ (le_bytes 8 empty)) by (rewrite repeat_length; exact Hj). apply nth_repeat.
      * apply N2; [exact Hj|lia].
    + intros j x Hx. rewrite O2 by lia. cbn [set_entries o_entry]. replace (x =? i) with false by lia. reflexivity.
Qed.

(** What a fresh object contains. *)
Definition fresh (K : kind) (empty : Z) (m : Z) (o : object) : Prop :=
  o_count o = 0 /\
  forall j i, (j < arrays K)%nat -> 0 <= i < m ->
    (texts K = true -> o_entry o j i = le_bytes 8 empty) /\ (K = KDate -> o_entry o j i = repeat 0 56).
Definition pointers_kept (h : Z -> Z) (b : block) : Prop :=
  forall x, In x [8; 16; 24; 32; 56; 64; 72; 80] -> get_bytes (b_byte b) x 8 = le_bytes 8 (h x).

Lemma pointers_header h b b' : pointers_kept h b -> same_header b b' -> pointers_kept h b'.
Proof.
  intros P S0 x Hx. rewrite <- (P x Hx). unfold get_bytes. apply map_ext_in. intros i Hi. apply in_seq in Hi.
  apply S0. cbn in Hx. lia.
Qed.
Lemma fields_pointers K h base n m b : 0 <= m -> pointers_kept h (puts b (all_fields K h base n m)).
Proof.
  intros H x Hx. apply (fields_get K h base n m b x 8 (le_bytes 8 (h x)) H). unfold all_fields.
  apply in_or_app. left. apply in_or_app. left. cbn in Hx.
  repeat (destruct Hx as [<-|Hx]; [cbn; tauto|]). contradiction.
Qed.

Lemma real_max_places K mincount maxcount : real_max K mincount maxcount = places K mincount maxcount.
Proof. unfold real_max, places. destruct K; try reflexivity; destruct (Z.ltb_spec maxcount mincount); lia. Qed.

Lemma make_ok K h base junk empty mincount maxcount size :
  K <> KEnd -> good_counts K mincount maxcount ->
  nbytes K (real_max K mincount maxcount) = Val size -> allocated base size ->
  let m := real_max K mincount maxcount in
  exists b o, make K h base junk empty mincount maxcount = Val b /\
    rep K base m mincount b o /\ fresh K empty m o /\ pointers_kept h b /\ size = total K m /\ max_ok K m.
Proof.
  intros NE (G1 & G2 & G3 & G4) Hs Ha m. rewrite <- real_max_places in G2, G3.
  assert (Hm : max_ok K m) by (split; [exact G2|split; [exact G3|intro; contradiction]]).
  fold m in Hs. rewrite (nbytes_total K m G2 G3) in Hs. injection Hs as <-.
  unfold make. fold m. cbv zeta. rewrite (nbytes_total K m G2 G3). cbn [cbind].
  assert (RM : real_min K mincount = mincount) by (destruct K; try reflexivity; contradiction). rewrite RM.
  set (j0 := match K with KDate => fun _ : Z => 0 | _ => junk end).
  assert (AF : hdr_fields h base mincount m ++ own_fields K h base m = all_fields K h base mincount m).
  { unfold all_fields. destruct K; try (now rewrite app_nil_r); contradiction. }
  rewrite AF. rewrite store_all_ok; [|apply Ha|apply fields_ok; lia]. cbn [cbind].
  pose proof (fields_rep K h base mincount m j0 (proj1 G2) (proj1 (proj2 Ha))) as R. cbv zeta in R.
  pose proof (fields_pointers K h base mincount m (mkBlock base (total K m) j0) (proj1 G2)) as P.
  set (b := puts (mkBlock base (total K m) j0) (all_fields K h base mincount m)) in *.
  destruct (texts K) eqn:T.
  - destruct (rep_fill K base m mincount empty Hm Ha T (Z.to_nat m) b _ 0 R ltac:(lia) ltac:(lia)) as (b2 & o2 & E2 & R2 & C2 & X2 & N2 & _).
    exists b2, o2. split; [destruct K; try discriminate; exact E2|]. split; [exact R2|].
    split; [|split; [apply (pointers_header _ _ _ P X2)|split; [reflexivity|exact Hm]]].
    split; [rewrite C2; reflexivity|]. intros j i Hj Hi. split; [intros _; now apply N2|intros ->; discriminate].
  - exists b, (found K m b). split; [destruct K; try discriminate; reflexivity|]. split; [exact R|].
    split; [|split; [exact P|split; [reflexivity|exact Hm]]].
    split; [reflexivity|]. intros j i Hj Hi. split; [congruence|]. intros ->. cbn [found o_entry].
    unfold b. rewrite fields_behind; [|lia|].
    + unfold get_bytes, j0. reflexivity.
    + intros a v w I. pose proof (fields_below KDate h base mincount m a v w (proj1 G2) I) as L. cbn in L.
      destruct j as [|j]; [|cbn in Hj; lia]. cbn [off elem]. lia.
Qed.

(** arg_end, and the reset every parse begins with. *)
Lemma end_ok h base junk empty maxcount size :
  good_counts KEnd 1 maxcount -> nbytes KEnd maxcount = Val size -> allocated base size ->
  exists b b' o, make KEnd h base junk empty 1 maxcount = Val b /\ reset KEnd b = Val b' /\
    rep KEnd base maxcount 1 b' o /\ o_count o = 0 /\ pointers_kept h b' /\ size = total KEnd maxcount /\ max_ok KEnd maxcount.
Proof.
  intros (G1 & G2 & G3 & G4) Hs Ha. cbn [real_max places] in *.
  assert (Hm : max_ok KEnd maxcount) by (split; [exact G2|split; [exact G3|exact G4]]).
  rewrite (nbytes_total KEnd maxcount G2 G3) in Hs. injection Hs as <-.
  unfold make. cbn [real_max real_min]. cbv zeta. rewrite (nbytes_total KEnd maxcount G2 G3). cbn [cbind].
  pose proof (fields_ok KEnd h base 1 maxcount (proj1 G2)) as F. unfold all_fields in F. apply Forall_app in F. destruct F as [F1 F2].
  set (b0 := mkBlock base (total KEnd maxcount) junk). set (l := hdr_fields h base 1 maxcount ++ own_fields KEnd h base maxcount) in *.
  rewrite (store_all_ok b0 l) by (try exact F1; apply Ha). cbn [cbind].
  exists (puts b0 l), (puts b0 (all_fields KEnd h base 1 maxcount)), (found KEnd maxcount (puts b0 (all_fields KEnd h base 1 maxcount))).
  split; [reflexivity|]. split.
  - unfold reset. destruct (puts_base b0 l) as [B1 B2].
    rewrite store_int_ok; [|rewrite B1; apply Ha|reflexivity|cbn; lia|rewrite B2; cbn [b0 b_size total count_at]; lia].
    reflexivity.
  - split; [apply fields_rep; [lia|apply Ha]|]. split; [reflexivity|]. split; [apply fields_pointers; lia|]. split; [reflexivity|exact Hm].
Qed.
