(** Compiling a pattern: what is known when it succeeds, and that it always ends. *)
From Coq Require Import ZArith NArith Bool List Ascii String Lia.
From Verif.Base Require Import CInt CStr CMem.
From Verif.Model Require Import Trex.
From Verif.Spec Require Import RegexSpec.
From Verif.Proofs Require Import TrexChars TrexRep TrexTotal TrexParse.
Import ListNotations.
Open Scope list_scope.
Open Scope nat_scope.

(** ** What compiling builds *)
Lemma compile_inv pat ns x : no_nul pat -> compile pat = PVal ns x ->
  exists r n, writes pat r /\ rep ns false 0 (List.length ns) 0 r /\ nd ns 0 n /\ n_next n = (-1)%Z.
Proof.
  intros Hp H. unfold compile in H. inv_bind H i z E1. destruct (newnode_inv pat _ _ _ _ E1) as (-> & (rt & En) & Er). cbn [size x_nodes List.length app] in En, E1, H.
  inv_bind H l z2 E2.
  destruct (parse_inv pat Hp (2 * List.length pat + 4)) as [_ PI].
  assert (P : parsed pat List_ (lit "^") z z2 l).
  { apply (PI z l z2 (lit "^")); [|exact E2]. intros c s _ D I0. cbn in I0. destruct I0 as [<-|[]]. contradiction. }
  destruct P as (l' & u & r & -> & Eu & Ne & W & K & R).
  inv_bind H q z3 E3. change (size _) with 0 in E3. destruct (set_inv pat _ _ _ _ _ E3) as [C3 R3].
  inv_bind H c z4 E4. destruct (peek_inv _ _ _ _ E4) as (-> & s & R4 & _).
  destruct (aeqb c NUL) eqn:D; [|discriminate]. apply aeqb_eq in D. subst c. injection H as <- <-.
  assert (S1 : size z = 1) by (unfold size; rewrite En; reflexivity). rewrite S1 in *.
  destruct C3 as [(n & N1 & N2) [C3 C4]].
  assert (nd (x_nodes z2) 0 (mkN OP_EXPR (-1) rt (-1))) as N0.
  { unfold nd. rewrite (proj1 K) by lia. rewrite En. reflexivity. }
  assert (n = mkN OP_EXPR (-1) rt (-1)) as -> by (unfold nd in *; congruence).
  exists r, (with_left (zn l') (mkN OP_EXPR (-1) rt (-1))). split; [|split; [|split; [exact N2|reflexivity]]].
  - assert (u = pat) as <-; [|exact W].
    change (rem pat z = u ++ rem pat z2) in Eu. rewrite <- R3, R4 in Eu.
    assert (rem pat z = pat ++ [NUL]) as E0 by (rewrite Er; reflexivity). rewrite E0 in Eu.
    pose proof (rem_no_nul pat Hp z u NUL s) as Nu. rewrite E0 in Nu. specialize (Nu Eu).
    clear -Eu Nu Hp. revert Eu Nu. generalize dependent u. induction pat as [|c p IH]; intros [|d u] E Nu; cbn [app] in E.
    + reflexivity.
    + exfalso. apply Nu. left. congruence.
    + exfalso. injection E as -> _. apply Hp. left. reflexivity.
    + injection E as -> E. f_equal. apply IH; [intros X; apply Hp; right; exact X|exact E|]. intros X. apply Nu. right. exact X.
  - eapply r_group; [exact N2|left; reflexivity|reflexivity|]. rewrite C4. eapply rep_agree; [exact R|]. cbv iota. intros k Hk. apply C3. lia.
Qed.

(** ** Compiling ends *)
Section ends_.
Variable pat : str.
Let len := List.length pat.
Definition adv {A} (m : pm A) (x : trex) (p : nat) : Prop := m x <> POut /\ forall a y, m x = PVal a y -> p <= x_p y.
Lemma adv_bind {A B} (m : pm A) (k : A -> pm B) x p q :
  adv m x p -> (forall a y, p <= x_p y -> adv (k a) y q) -> adv (bind m k) x q.
Proof.
  intros [H1 H2] H. unfold adv, bind in *. destruct (m x) as [a y| | |] eqn:E; [|split; discriminate|split; discriminate|contradiction].
  exact (H a y (H2 a y eq_refl)).
Qed.
Lemma adv_peek {B} (k : ascii -> pm B) x q : (x_p x <= len -> forall c, adv (k c) x q) -> adv (bind (peek pat) k) x q.
Proof.
  intros H. unfold adv, bind, peek, of_cres, load. destruct (nth_error (terminated pat) (x_p x)) as [[c|]|] eqn:E.
  - apply H. assert (X : x_p x < List.length (terminated pat)) by (apply nth_error_Some; congruence).
    unfold terminated, bytes in X. rewrite app_length, map_length in X. cbn [List.length] in X. unfold len, str in *. lia.
  - split; discriminate.
  - split; discriminate.
Qed.
Lemma adv_weaken {A} (m : pm A) x p q : adv m x p -> q <= p -> adv m x q.
Proof. intros [H1 H2] L. split; [exact H1|]. intros a y E. specialize (H2 a y E). lia. Qed.
Lemma adv_ret {A} (a : A) x p : p <= x_p x -> adv (ret a) x p.
Proof. intros L. split; [discriminate|]. intros b y [= _ <-]. exact L. Qed.
Lemma adv_fail {A} x p : adv (@fail A) x p.
Proof. split; discriminate. Qed.
Lemma adv_skip {B} (k : unit -> pm B) x q : (forall y, x_p y = S (x_p x) -> adv (k tt) y q) -> adv (bind skip k) x q.
Proof. intros H. exact (H (next_p x) eq_refl). Qed.
Lemma adv_skip_last x q : q <= S (x_p x) -> adv skip x q.
Proof. intros L. split; [discriminate|]. intros a y [= _ <-]. exact L. Qed.
Lemma adv_new t x q : q <= x_p x -> adv (newnode t) x q.
Proof.
  intros L. unfold adv, newnode. set (al := if (_ <? _)%Z then _ else _). destruct al as [a|]; [|split; discriminate].
  destruct (_ <? a)%Z; [|split; discriminate]. split; [discriminate|]. intros i y [= _ <-]. exact L.
Qed.
Lemma adv_set i f x q : q <= x_p x -> adv (set i f) x q.
Proof. intros L. unfold adv, set. destruct (get _ i) as [n0|]; [|split; discriminate]. split; [discriminate|]. intros a y [= _ <-]. exact L. Qed.
Lemma adv_node i x q : q <= x_p x -> adv (node_of i) x q.
Proof. intros L. unfold adv, node_of, of_cres. destruct (get _ i) as [n0|]; [|split; discriminate]. split; [discriminate|]. intros a y [= _ <-]. exact L. Qed.
Lemma adv_of {A} (r : cres A) x q : q <= x_p x -> adv (of_cres r) x q.
Proof. intros L. unfold adv, of_cres. destruct r as [b0|]; [|split; discriminate]. split; [discriminate|]. intros b y [= _ <-]. exact L. Qed.
Lemma adv_expect c x q : q <= S (x_p x) -> adv (expect pat c) x q.
Proof. intros L. unfold expect. apply adv_peek. intros _ d. destruct (aeqb d c); [apply adv_skip_last; exact L|apply adv_fail]. Qed.
Ltac adv1 := first
  [ simple apply adv_fail | simple apply adv_ret; lia | simple apply adv_peek; intros | simple apply adv_skip; intros | simple apply adv_skip_last; lia
  | simple apply adv_new; lia | simple apply adv_set; lia | simple apply adv_node; lia | simple apply adv_of; lia | simple apply adv_expect; lia
  | simple eapply adv_bind; [simple apply adv_new; simple apply le_n|intros] | simple eapply adv_bind; [simple apply adv_set; simple apply le_n|intros]
  | simple eapply adv_bind; [simple apply adv_node; simple apply le_n|intros] | simple eapply adv_bind; [simple apply adv_of; simple apply le_n|intros]
  | simple eapply adv_bind; [simple apply adv_expect; simple apply le_n|intros]
  | match goal with |- adv (if ?b then _ else _) _ _ => destruct b end
  | match goal with |- adv (match ?b with Some _ => _ | None => _ end) _ _ => destruct b end ].
Ltac advs := repeat adv1.
Lemma adv_escapechar x : adv (escapechar pat) x (S (x_p x)).
Proof. unfold escapechar. advs. Qed.
Lemma adv_charnode cls x : adv (charnode pat cls) x (S (x_p x)).
Proof. unfold charnode. advs. Qed.
Lemma adv_class_loop fuel : forall x first chain, S len - x_p x < fuel -> adv (class_loop fuel pat first chain) x (x_p x).
Proof.
  induction fuel as [|fuel IH]; intros x first chain L; [lia|]. cbn [class_loop]. advs.
  - eapply adv_bind; [apply adv_escapechar|]. intros t z Hz. advs. eapply adv_weaken; [apply IH; lia|lia].
  - eapply adv_bind; [apply adv_charnode|]. intros t z Hz. eapply adv_weaken; [apply IH; lia|lia].
  - eapply adv_bind; [apply adv_charnode|]. intros t z Hz. eapply adv_weaken; [apply IH; lia|lia].
Qed.
Lemma adv_class fuel x : S len - x_p x < fuel -> adv (class fuel pat) x (x_p x).
Proof.
  intros L. unfold class. apply adv_peek. intros _ c. apply adv_bind with (p := x_p x).
  - destruct (aeqb c "^"); advs.
  - intros r y Hy. advs. eapply adv_bind; [apply adv_class_loop; lia|]. intros fc z Hz.
    eapply adv_bind with (p := x_p z); [destruct (fst fc =? -1)%Z; advs|]. intros ? z' Hz'. advs.
Qed.
Lemma adv_number_loop fuel : forall v pos x, S len - x_p x < fuel -> adv (number_loop fuel pat v pos) x (x_p x).
Proof.
  induction fuel as [|fuel IH]; intros v pos x L; [lia|]. cbn [number_loop]. advs.
  eapply adv_weaken; [apply IH; lia|lia].
Qed.
Lemma adv_parsenumber fuel x : S len - x_p x < fuel -> adv (parsenumber fuel pat) x (x_p x).
Proof. intros L. unfold parsenumber. advs. eapply adv_weaken; [apply adv_number_loop; lia|lia]. Qed.
Lemma adv_repetition fuel x : S len - x_p x < fuel -> adv (repetition fuel pat) x (x_p x).
Proof.
  intros L. unfold repetition. advs. eapply adv_bind; [apply adv_parsenumber; lia|]. intros n z Hz. cbv zeta. advs.
  eapply adv_bind with (p := x_p z); [|intros p1 z1 Hz1; advs].
  destruct (isdigit _); advs. eapply adv_bind; [apply adv_parsenumber; lia|]. intros m z2 Hz2. advs.
Qed.
Lemma adv_parse fuel : forall x,
  (2 * (S len - x_p x) < fuel -> adv (element fuel pat) x (S (x_p x))) /\
  (S (2 * (S len - x_p x)) < fuel -> adv (list_ fuel pat) x (x_p x)).
Proof.
  induction fuel as [|fuel IH]; intros x; [split; lia|]. split; intros L; cbn [element list_].
  - apply adv_peek. intros Hx c. apply adv_bind with (p := S (x_p x)).
    + destruct (aeqb c "("); [|destruct (aeqb c "["); [|destruct (aeqb c "$"); [advs|destruct (aeqb c "."); [advs|apply adv_charnode]]]].
      * advs.
        eapply adv_bind with (p := x_p y); [destruct (aeqb c0 "?"); advs|]. intros e z1 Hz1.
        eapply adv_bind; [apply IH; lia|]. intros l z Hz. advs.
      * advs. eapply adv_bind; [apply adv_class; lia|]. intros e z Hz. advs.
    + intros r y Hy. eapply adv_bind; [apply adv_repetition; lia|]. intros p z Hz. apply adv_bind with (p := x_p z).
      * destruct p as [[p0 p1]|]; advs.
      * intros r' z' Hz'. advs. eapply adv_bind; [apply IH; lia|]. intros n w Hw. advs.
  - apply adv_peek. intros Hx c. apply adv_bind with (p := S (x_p x)).
    + destruct (aeqb c "^"); advs.
      * eapply adv_bind; [apply IH; lia|]. intros e z Hz. advs.
      * apply IH. lia.
    + intros r y Hy. advs. eapply adv_bind; [apply IH; lia|]. intros l z Hz. advs.
Qed.
End ends_.
Lemma compile_ends pat : compile pat <> POut.
Proof.
  assert (H : adv (do first <- newnode OP_EXPR; do l <- list_ (2 * List.length pat + 4) pat; do_ set first (with_left l);
      do c <- peek pat; if aeqb c NUL then fun x => PVal (x_nodes x) x else fail) (mkT [] (cast_int (Z.of_nat (List.length pat))) 0 0) 0).
  { eapply adv_bind; [apply adv_new; apply le_n|]. intros f y Hy. eapply adv_bind; [apply adv_parse; lia|]. intros l z Hz.
    eapply adv_bind; [apply adv_set; apply le_n|]. intros ? w Hw. apply adv_peek. intros _ c. destruct (aeqb c NUL); [|apply adv_fail].
    split; [discriminate|]. intros. lia. }
  exact (proj1 H).
Qed.
