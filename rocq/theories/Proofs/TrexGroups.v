(** The numbers that a compiled pattern gives to its sub-expressions. *)
From Coq Require Import ZArith NArith Bool List Ascii String Lia.
From Verif.Base Require Import CInt CStr CMem.
From Verif.Model Require Import ArgInt Trex.
Import ListNotations.
Open Scope list_scope.
Open Scope nat_scope.

Definition numbered (ns : list node) (nsub : Z) : Prop :=
  forall i n, nth_error ns i = Some n -> n_type n = OP_EXPR -> (n_right n < nsub)%Z.
Record inv (x : trex) : Prop := {
  i_num : numbered (x_nodes x) (x_nsub x);
  i_low : (0 <= x_nsub x)%Z;
  i_count : (x_nsub x <= Z.of_nat (List.length (x_nodes x)))%Z;
  i_size : (Z.of_nat (List.length (x_nodes x)) <= INT_MAX)%Z;
  i_alloc : (x_alloc x <= INT_MAX)%Z }.
(** Nodes stay, with their types. *)
Definition ext (x y : trex) : Prop :=
  (forall i n, nth_error (x_nodes x) i = Some n -> exists n', nth_error (x_nodes y) i = Some n' /\ n_type n' = n_type n /\ (n_type n = OP_EXPR -> n_right n' = n_right n)) /\ (x_nsub x <= x_nsub y)%Z.
Definition ks {A} (m : pm A) (Q : trex -> A -> trex -> Prop) : Prop :=
  forall x, inv x -> match m x with PVal a y => inv y /\ ext x y /\ Q x a y | _ => True end.
Definition any {A} (x : trex) (a : A) (y : trex) : Prop := True.

Lemma ext_refl x : ext x x.
Proof. split; [|lia]. intros i n H. exists n. auto. Qed.
Lemma ext_trans x y z : ext x y -> ext y z -> ext x z.
Proof.
  intros [H1 A1] [H2 A2]. split; [|lia]. intros i n H. destruct (H1 _ _ H) as (n' & E & T & R). destruct (H2 _ _ E) as (n2 & E2 & T2 & R2). exists n2. split; [exact E2|]. split; [congruence|]. intros X. rewrite R2 by congruence. auto.
Qed.
Lemma ks_bind {A B} (m : pm A) (k : A -> pm B) Q (R : trex -> B -> trex -> Prop) :
  ks m Q -> (forall x0 a, ks (k a) (fun y b z => ext x0 y -> Q x0 a y -> R x0 b z)) -> ks (bind m k) R.
Proof.
  intros Hm Hk x Hx. unfold bind. specialize (Hm x Hx). destruct (m x) as [a y| | |]; try exact I.
  destruct Hm as (Iy & Ey & Qy). specialize (Hk x a y Iy). destruct (k a y) as [b z| | |]; try exact I.
  destruct Hk as (Iz & Ez & Rz). split; [exact Iz|]. split; [exact (ext_trans _ _ _ Ey Ez)|]. exact (Rz Ey Qy).
Qed.
Lemma ks_weaken {A} (m : pm A) (Q R : trex -> A -> trex -> Prop) : ks m Q -> (forall x a y, Q x a y -> R x a y) -> ks m R.
Proof. intros H W x Hx. specialize (H x Hx). destruct (m x); auto. destruct H as (? & ? & ?). auto. Qed.
Lemma ks_ret {A} (a : A) : ks (ret a) any.
Proof. intros x Hx. split; [exact Hx|]. split; [apply ext_refl|exact I]. Qed.
Lemma ks_fail {A} Q : ks (@fail A) Q.
Proof. intros x Hx. exact I. Qed.
Lemma ks_of {A} (r : cres A) : ks (of_cres r) any.
Proof. intros x Hx. unfold of_cres. destruct r; [|exact I]. split; [exact Hx|]. split; [apply ext_refl|exact I]. Qed.
Lemma ks_peek pat : ks (peek pat) any.
Proof. intros x Hx. unfold peek. exact (ks_of _ x Hx). Qed.
Lemma ks_skip : ks skip any.
Proof. intros x Hx. split; [|split; [|exact I]]. - destruct Hx; constructor; assumption. - split; [|cbn; lia]. intros i n H. exists n. auto. Qed.
Lemma ks_node i : ks (node_of i) any.
Proof. intros x Hx. unfold node_of. exact (ks_of _ x Hx). Qed.
(** The node that is made. *)
Definition has_type (t : Z) (i : Z) (y : trex) : Prop := exists n, (0 <= i)%Z /\ nth_error (x_nodes y) (Z.to_nat i) = Some n /\ n_type n = t.
Lemma ks_new t : ks (newnode t) (fun _ i y => has_type t i y).
Proof.
  intros x [H1 H2 H3 H4 H5]. unfold newnode. set (al := if (_ <? _)%Z then _ else _).
  assert (Ha : forall a, al = Val a -> (a <= INT_MAX)%Z).
  { unfold al. intros a. destruct (_ <? _)%Z; [|intros [= <-]; exact H5]. unfold int_op. destruct (in_int _) eqn:E; [|discriminate].
    intros [= <-]. unfold in_int in E. apply andb_true_iff in E. apply Z.leb_le. apply E. }
  destruct al as [a|]; [|exact I]. specialize (Ha a eq_refl). destruct (Z.ltb_spec (Z.of_nat (List.length (x_nodes x))) a) as [L|]; [|exact I].
  split; [|split].
  - constructor; cbn [x_nodes x_nsub x_alloc].
    + intros i n Hn Ht. destruct (Nat.lt_ge_cases i (List.length (x_nodes x))) as [L1|L1].
      * rewrite nth_error_app1 in Hn by exact L1. specialize (H1 i n Hn Ht). destruct (t =? OP_EXPR)%Z; lia.
      * rewrite nth_error_app2 in Hn by exact L1. destruct (i - List.length (x_nodes x)) as [|j] eqn:Ej; [|destruct j; discriminate].
        injection Hn as <-. cbn [n_type n_right] in *. rewrite Ht, Z.eqb_refl. lia.
    + destruct (t =? OP_EXPR)%Z; lia.
    + rewrite app_length. cbn [List.length]. destruct (t =? OP_EXPR)%Z; lia.
    + rewrite app_length. cbn [List.length]. lia.
    + exact Ha.
  - split; cbn [x_nodes x_nsub].
    + intros i n Hn. exists n. split; [|auto]. rewrite nth_error_app1; [exact Hn|]. apply nth_error_Some. congruence.
    + destruct (t =? OP_EXPR)%Z; lia.
  - exists (mkN t (-1) (if (t =? OP_EXPR)%Z then x_nsub x else -1) (-1)). cbn [x_nodes]. rewrite Nat2Z.id. split; [lia|]. split; [|reflexivity].
    rewrite nth_error_app2 by apply le_n. rewrite Nat.sub_diag. reflexivity.
Qed.
Lemma nth_update ns i f j : nth_error (update ns i f) j = if j =? i then option_map f (nth_error ns j) else nth_error ns j.
Proof.
  revert i j. induction ns as [|n ns IH]; intros i j; destruct i as [|i], j as [|j]; cbn; auto.
  - destruct (j =? i); reflexivity.
Qed.
Lemma length_update ns i f : List.length (update ns i f) = List.length ns.
Proof. revert i. induction ns as [|n ns IH]; intros [|i]; cbn; auto. Qed.
Lemma ks_set i (f : node -> node) : (forall n, n_type (f n) = n_type n) ->
  forall x, inv x -> (forall n, nth_error (x_nodes x) (Z.to_nat i) = Some n -> n_type n = OP_EXPR -> n_right (f n) = n_right n) ->
  match set i f x with PVal a y => inv y /\ ext x y | _ => True end.
Proof.
  intros Ht x [H1 H2 H3 H4 H5] Hr. unfold set. destruct (get (x_nodes x) i) as [n0|]; [|exact I]. split.
  - constructor; cbn [x_nodes x_nsub x_alloc]; rewrite ?length_update; auto.
    intros j n Hn. rewrite nth_update in Hn. destruct (Nat.eqb_spec j (Z.to_nat i)) as [->|D]; [|apply (H1 j n Hn)].
    destruct (nth_error (x_nodes x) (Z.to_nat i)) as [m|] eqn:E; [|discriminate]. injection Hn as <-. rewrite Ht. intros T.
    rewrite (Hr m eq_refl T). exact (H1 _ _ E T).
  - split; cbn [x_nodes x_nsub]; [|lia]. intros j n Hn. rewrite nth_update. destruct (Nat.eqb_spec j (Z.to_nat i)) as [Ej|]; [|exists n; auto]. rewrite Hn. exists (f n). split; [reflexivity|]. split; [apply Ht|]. apply Hr. subst j. exact Hn.
Qed.
Lemma ks_left i v : ks (set i (with_left v)) any.
Proof.
  intros x Hx. pose proof (ks_set i (with_left v) (fun n => eq_refl) x Hx (fun n _ _ => eq_refl)) as H. destruct (set i (with_left v) x); auto.
  destruct H. split; [assumption|]. split; [assumption|exact I].
Qed.
Lemma ks_next i v : ks (set i (with_next v)) any.
Proof.
  intros x Hx. pose proof (ks_set i (with_next v) (fun n => eq_refl) x Hx (fun n _ _ => eq_refl)) as H. destruct (set i (with_next v) x); auto.
  destruct H. split; [assumption|]. split; [assumption|exact I].
Qed.
Lemma ks_right i v t x : inv x -> has_type t i x -> t <> OP_EXPR ->
  match set i (with_right v) x with PVal a y => inv y /\ ext x y | _ => True end.
Proof.
  intros Hx (n0 & _ & E & T) D. apply ks_set; [reflexivity|exact Hx|]. intros n Hn Ht. congruence.
Qed.
Lemma has_ext t i x y : has_type t i x -> ext x y -> has_type t i y.
Proof. intros (n & L & E & T) [H _]. destruct (H _ _ E) as (n' & E' & T' & _). exists n'. split; [exact L|]. split; [exact E'|congruence]. Qed.

Notation kept m := (ks m any).
Lemma kept_bind {A B} (m : pm A) (k : A -> pm B) : kept m -> (forall a, kept (k a)) -> kept (bind m k).
Proof. intros Hm Hk. apply (ks_bind m k any any Hm). intros x0 a. apply (ks_weaken _ any _ (Hk a)). intros; exact I. Qed.
Lemma kept_new t : kept (newnode t).
Proof. apply (ks_weaken _ _ _ (ks_new t)). intros; exact I. Qed.
(** A node is made; later its right part is set. *)
Lemma kept_new_right {A B} t (m : Z -> pm A) (v : A -> Z) (k : Z -> A -> pm B) : t <> OP_EXPR ->
  (forall i, kept (m i)) -> (forall i a, kept (k i a)) ->
  kept (bind (newnode t) (fun i => bind (m i) (fun a => bind (set i (with_right (v a))) (fun _ => k i a)))).
Proof.
  intros D Hm Hk x Hx. unfold bind at 1. pose proof (ks_new t x Hx) as H1. destruct (newnode t x) as [i y| | |]; auto.
  destruct H1 as (Iy & Ey & Ty). unfold bind at 1. specialize (Hm i y Iy). destruct (m i y) as [a z| | |]; auto. destruct Hm as (Iz & Ez & _).
  unfold bind. pose proof (ks_right i (v a) t z Iz (has_ext _ _ _ _ Ty Ez) D) as H2. destruct (set i (with_right (v a)) z) as [u w| | |]; auto.
  destruct H2 as (Iw & Ew). specialize (Hk i a w Iw). destruct (k i a w) as [b q| | |]; auto. destruct Hk as (Iq & Eq & _). split; [exact Iq|]. split; [|exact I].
  eapply ext_trans; [exact Ey|]. eapply ext_trans; [exact Ez|]. eapply ext_trans; [exact Ew|exact Eq].
Qed.
Lemma kept_eq {A} (m m' : pm A) : (forall x, m x = m' x) -> kept m -> kept m'.
Proof. intros E H x Hx. rewrite <- E. exact (H x Hx). Qed.
Lemma bind_assoc {A B C} (m : pm A) (k : A -> pm B) (l : B -> pm C) x : bind (bind m k) l x = bind m (fun a => bind (k a) l) x.
Proof. unfold bind. destruct (m x); reflexivity. Qed.
Ltac kp := first
  [ simple apply ks_ret | simple apply ks_fail | simple apply ks_of | simple apply ks_peek | simple apply ks_skip | simple apply ks_node | simple apply ks_left
  | simple apply ks_next | simple apply kept_new | assumption
  | match goal with |- kept (if ?b then _ else _) => destruct b | |- kept (match ?o with Some _ => _ | None => _ end) => destruct o
     | |- kept (let '(_, _) := ?p in _) => destruct p end
  | simple apply kept_bind; [|intro] ].

Lemma kept_expect pat c : kept (expect pat c).
Proof. unfold expect. repeat kp. Qed.
Lemma kept_escape pat : kept (escapechar pat).
Proof. unfold escapechar. repeat kp. Qed.
Lemma kept_charnode pat b : kept (charnode pat b).
Proof. unfold charnode. repeat kp. Qed.
Lemma kept_class_loop fuel : forall pat first chain, kept (class_loop fuel pat first chain).
Proof.
  induction fuel as [|fuel IH]; intros pat first chain; [intros x Hx; exact I|]. cbn [class_loop]. kp; [kp|]. kp; [repeat kp|]. kp.
  - kp; [kp|].
    apply (kept_eq (bind (newnode OP_RANGE) (fun r => bind
      (bind (peek pat) (fun d => if (sgn d <? first)%Z then fail else bind (node_of first) (fun n => if (n_type n =? OP_CCLASS)%Z then fail else
         bind (set r (with_left (n_type n))) (fun _ => escapechar pat))))
      (fun t => bind (set r (with_right (sgn t))) (fun _ => bind (set chain (with_next r)) (fun _ => class_loop fuel pat (-1) r)))))).
    + intros x. unfold bind. destruct (newnode OP_RANGE x) as [r y| | |]; auto. destruct (peek pat y) as [d z| | |]; auto.
      destruct (sgn d <? first)%Z; [reflexivity|]. destruct (node_of first z) as [n w| | |]; auto. destruct (n_type n =? OP_CCLASS)%Z; [reflexivity|].
      destruct (set r (with_left (n_type n)) w) as [u v| | |]; auto.
    + apply (kept_new_right OP_RANGE (fun r => bind (peek pat) (fun d => if (sgn d <? first)%Z then fail else bind (node_of first) (fun n => if (n_type n =? OP_CCLASS)%Z then fail else
         bind (set r (with_left (n_type n))) (fun _ => escapechar pat)))) (fun t => sgn t)); [discriminate| |].
      * intros r. repeat (kp || apply kept_escape).
      * intros r t. repeat (kp || apply IH).
  - repeat (kp || apply IH || apply kept_charnode).
Qed.
Lemma kept_class fuel pat : kept (class fuel pat).
Proof. unfold class. repeat (kp || apply kept_class_loop). Qed.
Lemma kept_number fuel : forall pat v p, kept (number_loop fuel pat v p).
Proof. induction fuel as [|fuel IH]; intros pat v p; [intros x Hx; exact I|]. cbn [number_loop]. repeat (kp || apply IH). Qed.
Lemma kept_parsenumber fuel pat : kept (parsenumber fuel pat).
Proof. unfold parsenumber. repeat (kp || apply kept_number). Qed.
Lemma kept_repetition fuel pat : kept (repetition fuel pat).
Proof. unfold repetition. repeat (kp || apply kept_parsenumber || apply kept_expect || (progress cbv zeta)). Qed.
Lemma kept_parse fuel : forall pat, kept (element fuel pat) /\ kept (list_ fuel pat).
Proof.
  induction fuel as [|fuel IH]; intros pat; [split; intros x Hx; exact I|]. destruct (IH pat) as [IHe IHl]. split; cbn [element list_].
  - kp; [kp|]. kp; [repeat (kp || apply kept_class || apply kept_expect || apply kept_charnode)|].
    kp; [apply kept_repetition|]. kp; [|repeat kp].
    destruct a1 as [[p0 p1]|]; [|kp].
    apply (kept_eq (bind (newnode OP_GREEDY) (fun n => bind (bind (set n (with_left a0)) (fun _ => of_cres (pack p0 p1))) (fun b => bind (set n (with_right b)) (fun _ => ret n))))).
    + intros x. unfold bind. destruct (newnode OP_GREEDY x) as [n y| | |]; auto. destruct (set n (with_left a0) y); auto.
    + apply (kept_new_right OP_GREEDY (fun n => bind (set n (with_left a0)) (fun _ => of_cres (pack p0 p1))) (fun b => b)); [discriminate| |]; intros; repeat kp.
  - kp; [kp|]. kp; [repeat kp|]. kp; [kp|]. kp; [|kp]. kp; [kp|].
    apply (kept_eq (bind (newnode OP_OR) (fun t => bind (bind (set t (with_left a0)) (fun _ => list_ fuel pat)) (fun l => bind (set t (with_right l)) (fun _ => ret t))))).
    + intros x. unfold bind. destruct (newnode OP_OR x) as [n y| | |]; auto. destruct (set n (with_left a0) y); auto.
    + apply (kept_new_right OP_OR (fun t => bind (set t (with_left a0)) (fun _ => list_ fuel pat)) (fun b => b)); [discriminate| |]; intros; repeat kp.
Qed.
(** What a compiled pattern is like. *)
Lemma compile_numbered pat ns x : compile pat = PVal ns x ->
  numbered ns (x_nsub x) /\ (1 <= x_nsub x <= INT_MAX)%Z /\ exists n, nth_error ns 0 = Some n /\ n_type n = OP_EXPR /\ n_right n = 0%Z.
Proof.
  unfold compile. set (x0 := mkT [] (cast_int (Z.of_nat (List.length pat))) 0 0). intros H.
  assert (I0 : inv x0). { constructor; cbn; try lia. - intros [|i] n; discriminate. - unfold INT_MAX. lia. - apply cast_int_range. }
  unfold bind at 1 in H. pose proof (ks_new OP_EXPR x0 I0) as H1.
  assert (E : newnode OP_EXPR x0 = PUB \/ exists a, newnode OP_EXPR x0 = PVal 0%Z (mkT [mkN OP_EXPR (-1) 0 (-1)] a 1 0)).
  { unfold newnode. cbn -[cast_int int_op]. set (al := if (_ <? _)%Z then _ else _). destruct al as [a|]; [|left; reflexivity].
    destruct (0 <? a)%Z; [right; exists a; reflexivity|left; reflexivity]. }
  destruct E as [E|(a & E)]; rewrite E in *; [discriminate|]. destruct H1 as (I1 & _ & _).
  set (x1 := mkT [mkN OP_EXPR (-1) 0 (-1)] a 1 0) in *.
  assert (K1 : kept (bind (list_ (2 * List.length pat + 4) pat) (fun l => bind (set 0%Z (with_left l)) (fun _ => bind (peek pat) (fun c => if aeqb c NUL then fun x => PVal (x_nodes x) x else fail))))).
  { kp; [apply kept_parse|]. kp; [kp|]. kp; [kp|]. destruct (aeqb a2 NUL); [|kp]. intros y Hy. split; [exact Hy|]. split; [apply ext_refl|exact I]. }
  pose proof (K1 x1 I1) as K2. cbv beta in H. rewrite H in K2. destruct K2 as (Ix & Ex & _).
  assert (En : ns = x_nodes x).
  { revert H. unfold bind. destruct (list_ _ pat x1) as [l y| | |]; try discriminate. destruct (set 0%Z (with_left l) y) as [u z| | |]; try discriminate.
    destruct (peek pat z) as [c w| | |]; try discriminate. destruct (aeqb c NUL); [|discriminate]. intros [= <- <-]. reflexivity. }
  subst ns. destruct Ix as [A B C D F]. split; [exact A|]. split.
  - destruct Ex as [_ Ex]. cbn in Ex. lia.
  - destruct (proj1 Ex 0 _ eq_refl) as (n & Hn & Ht & Hr). exists n. split; [exact Hn|]. split; [exact Ht|]. exact (Hr eq_refl).
Qed.
