(** A program learns nothing of hidden files. *)
From Coq Require Import ZArith Bool List Ascii String Lia.
From Verif.Base Require Import CInt CStr.
From Verif.Model Require Import Config Runner Seccomp Child Names Reading.
From Verif.Spec Require Import RunSpec SandboxSpec Syscalls NamesSpec ReadingSpec.
From Verif.Proofs Require Import ChildClaims NamesProofs NamesUse.
Import ListNotations.
Open Scope list_scope.
Open Scope Z_scope.

Section Twins.
Variable secret : nat -> Prop.
Notation "F ~~ G" := (equal_but secret F G) (at level 70).

(** Two nodes at the same place. *)
Inductive twin (i : nat) : node -> node -> Prop :=
| twin_same n : twin i n n
| twin_file a b uid gid mode : secret i -> List.length a = List.length b ->
    twin i (mkNode (IsFile a) uid gid mode) (mkNode (IsFile b) uid gid mode).
Inductive twins (i : nat) : option node -> option node -> Prop :=
| twins_none : twins i None None
| twins_some m n : twin i m n -> twins i (Some m) (Some n).
Lemma twins_at F G i : F ~~ G -> twins i (nth_error F i) (nth_error G i).
Proof.
  intros E. destruct (E i) as [H|(Se & a & b & A & B & O)].
  - rewrite H. destruct (nth_error G i); constructor. constructor.
  - rewrite A, B. constructor. destruct O. constructor; assumption.
Qed.
Lemma twins_in i m n : twins i m n -> same_in (secret i) m n.
Proof.
  intros [|a b [x|x y uid gid mode Se L]]; [left; reflexivity|left; reflexivity|].
  right. split; [exact Se|]. do 2 eexists. split; [reflexivity|]. split; [reflexivity|]. constructor. exact L.
Qed.
Lemma twin_may i m n bit u : twin i m n -> may bit u m = may bit u n.
Proof. intros [x|]; reflexivity. Qed.
Lemma twins_length F G : F ~~ G -> List.length F = List.length G.
Proof.
  intros E. assert (forall F G, F ~~ G -> (List.length F <= List.length G)%nat) as H.
  { clear. intros F G E. destruct (le_lt_dec (List.length F) (List.length G)) as [H|H]; [exact H|exfalso].
    pose proof (twins_at _ _ (List.length G) E) as T. assert (nth_error G (List.length G) = None) as N by (apply nth_error_None; lia).
    rewrite N in T. inversion T as [A|]; subst. symmetry in A. apply nth_error_None in A. lia. }
  assert (G ~~ F) as E'.
  { intros i. destruct (E i) as [A|(Se & a & b & A & B & O)]; [left; congruence|]. destruct O as [x y uid gid mode L].
    right. split; [exact Se|]. do 2 eexists. split; [exact B|]. split; [exact A|]. constructor. congruence. }
  pose proof (H F G E). pose proof (H G F E'). lia.
Qed.
Lemma twins_upd F G i m n : F ~~ G -> twin i m n -> upd F i m ~~ upd G i n.
Proof.
  intros E T j. destruct (Nat.eq_dec j i) as [->|Ne]; [|rewrite !upd_other by exact Ne; apply E].
  pose proof (twins_at _ _ i E) as Ti. inversion Ti as [A B|a b C A B]; symmetry in A, B.
  - left. assert (List.length F <= i)%nat by (apply nth_error_None; exact A). assert (List.length G <= i)%nat by (apply nth_error_None; exact B).
    transitivity (@None node); [|symmetry]; apply nth_error_None; rewrite upd_length; assumption.
  - rewrite (upd_same _ _ _ _ A), (upd_same _ _ _ _ B). apply twins_in. constructor. exact T.
Qed.
Lemma twins_app F G n : F ~~ G -> F ++ [n] ~~ G ++ [n].
Proof.
  intros E i. pose proof (twins_length _ _ E) as L. destruct (lt_dec i (List.length F)) as [H|H].
  - rewrite !nth_error_app1 by lia. apply E.
  - left. rewrite !nth_error_app2 by lia. rewrite L. reflexivity.
Qed.

(** Paths lead to the same places. *)
Lemma walk_twins u F G fl links : F ~~ G -> forall l d, walk links F u fl d l = walk links G u fl d l.
Proof.
  intros E. induction links as [links IHk] using (well_founded_induction lt_wf).
  induction l as [|x rest IH]; intros d; [rewrite !walk_nil; reflexivity|]. rewrite !walk_cons.
  destruct (twins_at _ _ d E) as [|m n T]; [reflexivity|]. destruct T as [n|]; [|reflexivity].
  destruct (n_kind n) as [|up ents| |]; try reflexivity. destruct (negb (may 0 u n)); [reflexivity|].
  rewrite (IH d), (IH up). destruct (str_eqb x (lit ".")); [reflexivity|]. destruct (str_eqb x (lit "..")); [reflexivity|].
  destruct (entry x ents) as [i|]; [|reflexivity]. rewrite (IH i).
  destruct (twins_at _ _ i E) as [|a b T]; [reflexivity|]. destruct T as [b|]; [|reflexivity].
  destruct (n_kind b) as [| |t|]; try reflexivity. destruct links as [|k]; [reflexivity|]. rewrite (IHk k) by lia. reflexivity.
Qed.
Lemma locate_twins u F G p fl : F ~~ G -> locate u F p fl = locate u G p fl.
Proof. intros E. apply walk_twins. exact E. Qed.

Inductive both : option (fs * list nat) -> option (fs * list nat) -> Prop :=
| both_no : both None None
| both_yes F G h : F ~~ G -> both (Some (F, h)) (Some (G, h)).
Inductive bothf : option fs -> option fs -> Prop :=
| bothf_no : bothf None None
| bothf_yes F G : F ~~ G -> bothf (Some F) (Some G).

Lemma in_dir_twins u F G d f : F ~~ G -> bothf (in_dir u F d f) (in_dir u G d f).
Proof.
  intros E. unfold in_dir. destruct (twins_at _ _ d E) as [|m n T]; [constructor|]. destruct T as [n|]; [|constructor].
  destruct (n_kind n); try constructor. destruct (may 1 u n); constructor. apply twins_upd; [exact E|constructor].
Qed.
Lemma make_twins u F G d x k mode : F ~~ G -> bothf (make u F d x k mode) (make u G d x k mode).
Proof.
  intros E. unfold make. rewrite <- (twins_length _ _ E).
  destruct (in_dir_twins u F G d (add x (List.length F)) E) as [|F' G' E']; constructor. apply twins_app. exact E'.
Qed.
Inductive bothn : option (fs * nat) -> option (fs * nat) -> Prop :=
| bothn_no : bothn None None
| bothn_yes F G i : F ~~ G -> bothn (Some (F, i)) (Some (G, i)).
Lemma open_twins umask u create trunc F G p : F ~~ G -> bothn (open_write umask u create trunc F p) (open_write umask u create trunc G p).
Proof.
  intros E. Local Transparent open_write. unfold open_write. Local Opaque open_write. rewrite (locate_twins u F G p true E).
  assert (forall i, bothn
    match nth_error F i with
    | Some n => match n_kind n with
                | IsFile data => if may 1 u n then Some (if trunc then upd F i (with_kind n (IsFile [])) else F, i) else None
                | IsOther => if may 1 u n then Some (F, i) else None
                | _ => None
                end
    | None => None
    end
    match nth_error G i with
    | Some n => match n_kind n with
                | IsFile data => if may 1 u n then Some (if trunc then upd G i (with_kind n (IsFile [])) else G, i) else None
                | IsOther => if may 1 u n then Some (G, i) else None
                | _ => None
                end
    | None => None
    end) as H.
  { intros i. destruct (twins_at _ _ i E) as [|m n T]; [constructor|]. rewrite (twin_may _ _ _ 1 u T).
    destruct T as [n|a b uid gid mode Se L].
    - destruct (n_kind n); try constructor; destruct (may 1 u n); constructor; try exact E.
      destruct trunc; [apply twins_upd; [exact E|constructor]|exact E].
    - cbn [n_kind with_kind n_uid n_gid n_mode]. destruct (may 1 u _); constructor.
      destruct trunc; [apply twins_upd; [exact E|constructor]|exact E]. }
  destruct (locate u G p true) as [i|d x i|d x|]; [apply H|apply H| |constructor].
  destruct create; [|constructor]. rewrite <- (twins_length _ _ E).
  destruct (make_twins u F G d x (IsFile []) (Z.land 438 (Z.lnot umask)) E) as [|F' G' E']; constructor. exact E'.
Qed.
Lemma may_remove_twins u F G d i : F ~~ G -> may_remove u F d i = may_remove u G d i.
Proof.
  intros E. unfold may_remove. destruct (twins_at _ _ d E) as [|m n T]; [reflexivity|].
  destruct (twins_at _ _ i E) as [|m' n' T']; [reflexivity|].
  destruct T, T'; reflexivity.
Qed.
Lemma does_twins umask u F G held a : F ~~ G -> both (does umask u (F, held) a) (does umask u (G, held) a).
Proof.
  intros E. destruct a as [p create trunc|i data|t p|old new|p mode|p|old new|p mode|p g]; cbn [does]; unfold object;
    rewrite ?(locate_twins u F G _ _ E), ?(may_remove_twins u F G _ _ E).
  - destruct (open_twins umask u create trunc F G p E); constructor. assumption.
  - destruct (existsb (Nat.eqb i) held); [|constructor]. destruct (twins_at _ _ i E) as [|m n T]; [constructor|].
    destruct T as [n|a b uid gid mode Se L]; [destruct (n_kind n)|]; constructor; (apply twins_upd; [exact E|constructor]).
  - destruct (locate u G p false); try constructor. destruct (make_twins u F G d x (IsLink t) 511 E); constructor. assumption.
  - destruct (locate u G old false); try constructor. destruct (locate u G new false); try constructor.
    destruct (twins_at _ _ i E) as [|m n T]; [constructor|].
    pose proof (in_dir_twins u F G d0 (add x0 i) E) as D.
    destruct T as [n|]; [destruct (n_kind n)|cbn [n_kind]]; try constructor; destruct D; constructor; assumption.
  - destruct (locate u G p false); try constructor.
    destruct (make_twins u F G d x (IsDir d []) (Z.land mode (Z.lnot umask)) E); constructor. assumption.
  - destruct (locate u G p false) as [|d x i| |]; try constructor. rewrite (may_remove_twins u F G d i E).
    assert (match nth_error F i with Some n => match n_kind n with IsDir _ (_ :: _) => false | _ => true end | None => false end =
            match nth_error G i with Some n => match n_kind n with IsDir _ (_ :: _) => false | _ => true end | None => false end) as ->
      by (destruct (twins_at _ _ i E) as [|m n T]; [reflexivity|destruct T; reflexivity]).
    destruct (_ && _); [|constructor]. destruct (in_dir_twins u F G d (drop x) E); constructor. assumption.
  - destruct (locate u G old false) as [|d x i| |]; try constructor.
    assert (match locate u G new false with
            | Free d' x' => Some (d', x') | Entry d' x' j => if may_remove u F d' j then Some (d', x') else None | _ => None end =
            match locate u G new false with
            | Free d' x' => Some (d', x') | Entry d' x' j => if may_remove u G d' j then Some (d', x') else None | _ => None end) as ->
      by (destruct (locate u G new false) as [|d1 x1 j| |]; try reflexivity; rewrite (may_remove_twins u F G d1 j E); reflexivity).
    destruct (match locate u G new false with Free d' x' => _ | _ => _ end) as [[d' x']|]; [|constructor].
    rewrite (may_remove_twins u F G d i E). destruct (may_remove u G d i); [|constructor].
    destruct (in_dir_twins u F G d (drop x) E) as [|F1 G1 E1]; [constructor|].
    destruct (in_dir_twins u F1 G1 d' (fun l => add x' i (drop x' l)) E1) as [|F2 G2 E2]; [constructor|].
    destruct (twins_at _ _ i E2) as [|m n T]; [constructor|].
    destruct T as [n|]; [|constructor; exact E2]. destruct (n_kind n); try (constructor; exact E2).
    destruct (Nat.eqb d d'); [constructor; exact E2|]. destruct (may 1 u n); constructor. apply twins_upd; [exact E2|constructor].
  - destruct (locate u G p true) as [i|d x i| |]; try constructor;
      (destruct (twins_at _ _ i E) as [|m n T]; [constructor|]; destruct T as [n|a b uid gid md Se L]; cbn [n_uid n_gid n_mode n_kind];
       destruct (_ || _); constructor; apply twins_upd; [exact E|constructor|exact E|constructor; assumption]).
  - destruct (locate u G p true) as [i|d x i| |]; try constructor;
      (destruct (twins_at _ _ i E) as [|m n T]; [constructor|]; destruct T as [n|a b uid gid md Se L]; cbn [n_uid n_gid n_mode n_kind];
       destruct (_ || _); constructor; apply twins_upd; [exact E|constructor|exact E|constructor; assumption]).
Qed.
End Twins.

(** ** Rights stay *)
Definition rights_kept (u : who) (F F' : fs) : Prop :=
  forall i n, nth_error F i = Some n -> w_uid u <> n_uid n -> w_uid u <> 0 ->
  exists n', nth_error F' i = Some n' /\ n_uid n' = n_uid n /\ n_gid n' = n_gid n /\ n_mode n' = n_mode n.
Lemma kept_refl u F : rights_kept u F F.
Proof. intros i n N _ _. exists n. auto. Qed.
Lemma kept_trans u F G H : rights_kept u F G -> rights_kept u G H -> rights_kept u F H.
Proof.
  intros A B i n N W R. destruct (A i n N W R) as (m & M1 & M2 & M3 & M4).
  destruct (B i m M1) as (o & O1 & O2 & O3 & O4); [congruence|exact R|]. exists o. repeat split; congruence.
Qed.
Lemma kept_app u F l : rights_kept u F (F ++ l).
Proof. intros i n N _ _. exists n. split; [|auto]. rewrite nth_error_app1; [exact N|apply nth_error_Some; congruence]. Qed.
Lemma kept_upd u F i n n' : nth_error F i = Some n ->
  (w_uid u <> n_uid n -> w_uid u <> 0 -> n_uid n' = n_uid n /\ n_gid n' = n_gid n /\ n_mode n' = n_mode n) -> rights_kept u F (upd F i n').
Proof.
  intros N S j m M W R. destruct (Nat.eq_dec j i) as [->|Ne].
  - assert (m = n) as -> by congruence. exists n'. split; [exact (upd_same _ _ _ _ N)|]. exact (S W R).
  - exists m. rewrite upd_other by exact Ne. auto.
Qed.
Lemma kept_in_dir u F d f F' : in_dir u F d f = Some F' -> rights_kept u F F'.
Proof.
  intros H. apply in_dir_inv in H. destruct H as (n & up & l & A & B & C & ->). apply kept_upd with n; [exact A|]. auto.
Qed.
Lemma kept_make u F d x k mode F' : make u F d x k mode = Some F' -> rights_kept u F F'.
Proof.
  unfold make. destruct (in_dir u F d (add x (List.length F))) as [F1|] eqn:D; [|discriminate]. intros H. injection H as <-.
  eapply kept_trans; [exact (kept_in_dir _ _ _ _ _ D)|apply kept_app].
Qed.
Lemma kept_open umask u create trunc F p F' i : open_write umask u create trunc F p = Some (F', i) -> rights_kept u F F'.
Proof.
  Local Transparent open_write. unfold open_write. Local Opaque open_write. intros H.
  assert (forall j n, nth_error F j = Some n -> rights_kept u F (if trunc then upd F j (with_kind n (IsFile [])) else F)) as Ex.
  { intros j n N. destruct trunc; [|apply kept_refl]. apply kept_upd with n; [exact N|]. auto. }
  destruct (locate u F p true) as [j|d x j|d x|]; [| | |discriminate].
  1,2: destruct (nth_error F j) as [n|] eqn:N; [|discriminate]; destruct (n_kind n); try discriminate; destruct (may 1 u n); try discriminate;
    injection H as <- <-; [exact (Ex j n N)|apply kept_refl].
  destruct create; [|discriminate]. destruct (make u F d x (IsFile []) _) as [F1|] eqn:M; [|discriminate]. injection H as <- <-.
  exact (kept_make _ _ _ _ _ _ _ M).
Qed.
Lemma does_kept umask u F held a F' held' : does umask u (F, held) a = Some (F', held') -> rights_kept u F F'.
Proof.
  destruct a as [p create trunc|i data|t p|old new|p mode|p|old new|p mode|p g]; cbn [does]; intros H.
  - destruct (open_write umask u create trunc F p) as [[F1 i]|] eqn:O; [|discriminate]. injection H as <- <-. exact (kept_open _ _ _ _ _ _ _ _ O).
  - destruct (existsb (Nat.eqb i) held); [|discriminate]. destruct (nth_error F i) as [n|] eqn:N; [|discriminate].
    destruct (n_kind n); try discriminate. injection H as <- <-. apply kept_upd with n; [exact N|]. auto.
  - destruct (locate u F p false); try discriminate. destruct (make u F d x (IsLink t) 511) as [F1|] eqn:M; [|discriminate].
    injection H as <- <-. exact (kept_make _ _ _ _ _ _ _ M).
  - destruct (locate u F old false); try discriminate. destruct (locate u F new false); try discriminate.
    destruct (nth_error F i) as [n|]; [|discriminate].
    destruct (in_dir u F d0 (add x0 i)) as [F1|] eqn:D; destruct (n_kind n); try discriminate; injection H as <- <-; exact (kept_in_dir _ _ _ _ _ D).
  - destruct (locate u F p false); try discriminate. destruct (make u F d x _ _) as [F1|] eqn:M; [|discriminate].
    injection H as <- <-. exact (kept_make _ _ _ _ _ _ _ M).
  - destruct (locate u F p false); try discriminate. destruct (_ && _); [|discriminate].
    destruct (in_dir u F d (drop x)) as [F1|] eqn:D; [|discriminate]. injection H as <- <-. exact (kept_in_dir _ _ _ _ _ D).
  - destruct (locate u F old false) as [|d x i| |]; try discriminate.
    destruct (match locate u F new false with Free d' x' => _ | _ => _ end) as [[d' x']|]; [|discriminate].
    destruct (may_remove u F d i); [|discriminate].
    destruct (in_dir u F d (drop x)) as [F1|] eqn:D1; [|discriminate].
    destruct (in_dir u F1 d' (fun l => add x' i (drop x' l))) as [F2|] eqn:D2; [|discriminate].
    assert (rights_kept u F F2) as C2 by (eapply kept_trans; [exact (kept_in_dir _ _ _ _ _ D1)|exact (kept_in_dir _ _ _ _ _ D2)]).
    destruct (nth_error F2 i) as [n|] eqn:N2; [|discriminate].
    destruct (n_kind n) eqn:K; try (injection H as <- <-; exact C2).
    destruct (Nat.eqb d d'); [injection H as <- <-; exact C2|].
    destruct (may 1 u n) eqn:My; [|discriminate]. injection H as <- <-.
    eapply kept_trans; [exact C2|]. apply kept_upd with n; [exact N2|]. auto.
  - destruct (object u F p) as [[i n]|] eqn:O; [|discriminate]. apply object_inv in O.
    destruct ((w_uid u =? 0) || (w_uid u =? n_uid n)) eqn:W; [|discriminate]. injection H as <- <-.
    apply kept_upd with n; [exact O|]. intros. exfalso. lia.
  - destruct (object u F p) as [[i n]|] eqn:O; [|discriminate]. apply object_inv in O.
    destruct ((w_uid u =? 0) || _) eqn:W; [|discriminate]. injection H as <- <-.
    apply kept_upd with n; [exact O|]. intros. exfalso. lia.
Qed.

(** ** All programs *)
Definition closed_to (u : who) (secret : nat -> Prop) (s : state) : Prop :=
  forall i, secret i -> ~ In i (st_seen s) /\ exists n, nth_error (st_fs s) i = Some n /\ hidden u n.
Definition alike (secret : nat -> Prop) (s t : state) : Prop :=
  equal_but secret (st_fs s) (st_fs t) /\ st_held s = st_held t /\ st_seen s = st_seen t.

Lemma found_twins secret u F G p fl : equal_but secret F G ->
  (found u F p fl = None /\ found u G p fl = None) \/
  exists i m n, found u F p fl = Some (i, m) /\ found u G p fl = Some (i, n) /\ twin secret i m n /\ nth_error F i = Some m.
Proof.
  intros E. unfold found. rewrite (locate_twins secret u F G p fl E).
  destruct (locate u G p fl) as [i|d x i| |]; auto;
    (destruct (nth_error F i) as [m|] eqn:A; pose proof (twins_at secret _ _ i E) as T; rewrite A in T; inversion T as [|m' n Tw]; subst;
     [right; exists i, m, n; auto|left; auto]).
Qed.

Lemma respond_twins umask u secret s t q : alike secret s t -> closed_to u secret s ->
  alike secret (fst (respond umask u s q)) (fst (respond umask u t q)) /\ snd (respond umask u s q) = snd (respond umask u t q) /\
  closed_to u secret (fst (respond umask u s q)).
Proof.
  intros (E & Eh & Es) C. destruct s as [F h r], t as [G h' r']. cbn [st_fs st_held st_seen] in *. subst h' r'.
  assert (alike secret (mkSt F h r) (mkSt G h r)) as St by (repeat split; assumption).
  destruct q as [a|p|i|p|p|p fl]; cbn [respond st_fs st_held st_seen].
  - pose proof (does_twins secret umask u F G h a E) as D. destruct (does umask u (F, h) a) as [[F' h1]|] eqn:A; destruct (does umask u (G, h) a) as [[G' h2]|]; try (exfalso; inversion D; fail).
    + assert (equal_but secret F' G' /\ h1 = h2) as (E' & <-) by (inversion D; auto). cbn. split; [split; [exact E'|split; reflexivity]|]. split; [reflexivity|].
      intros i Si. destruct (C i Si) as (N & n & Ni & Hd). split; [exact N|].
      destruct Hd as [H1 H2]. assert (w_uid u <> 0) as H0 by (intros H0; apply H1; apply by_root; exact H0).
      destruct (does_kept _ _ _ _ _ _ _ A i n Ni H2 H0) as (n' & N' & U & Gd & M). exists n'. split; [exact N'|].
      split; [|congruence]. intros R. apply H1. exact (right_same 2 u n' n (eq_sym U) (eq_sym Gd) (eq_sym M) R).
    + cbn. auto.
  - destruct (found_twins secret u F G p true E) as [[A B]|(i & m & n & A & B & T & N)]; rewrite A, B; [cbn; auto|].
    rewrite (twin_may _ _ _ _ 2 u T). destruct (may 2 u n) eqn:My; cbn; [|auto].
    split; [repeat split; assumption|]. split; [reflexivity|]. intros j Sj. destruct (C j Sj) as (Nj & o & No & Hd).
    split; [|exists o; auto]. intros [->|I]; [|exact (Nj I)]. destruct Hd as [H1 _]. apply H1. apply may_right.
    cbn in No. assert (o = m) as -> by congruence. rewrite (twin_may _ _ _ _ 2 u T). exact My.
  - destruct (existsb (Nat.eqb i) r) eqn:Ex; [|cbn; auto].
    assert (~ secret i) as Ns.
    { intros Si. destruct (C i Si) as (Ni & _). apply Ni. apply existsb_exists in Ex. destruct Ex as (j & J & Q). apply Nat.eqb_eq in Q. subst j. exact J. }
    destruct (E i) as [Q|(Si & _)]; [|contradiction]. rewrite Q. destruct (nth_error G i) as [n|]; [destruct (n_kind n)|]; cbn; auto.
  - destruct (found_twins secret u F G p true E) as [[A B]|(i & m & n & A & B & T & N)]; rewrite A, B; [cbn; auto|].
    destruct T as [n|]; [|cbn; auto]. destruct (n_kind n); cbn; auto. destruct (may 2 u n); cbn; auto.
  - destruct (found_twins secret u F G p false E) as [[A B]|(i & m & n & A & B & T & N)]; rewrite A, B; [cbn; auto|].
    destruct T as [n|]; [|cbn; auto]. destruct (n_kind n); cbn; auto.
  - destruct (found_twins secret u F G p fl E) as [[A B]|(i & m & n & A & B & T & N)]; rewrite A, B; [cbn; auto|].
    destruct T as [n|a b uid gid mode Si L]; cbn; [auto|]. rewrite L. auto.
Qed.
Lemma life_twins umask u secret f steps : forall s t past, alike secret s t -> closed_to u secret s ->
  snd (life umask u f steps s past) = snd (life umask u f steps t past) /\
  alike secret (fst (life umask u f steps s past)) (fst (life umask u f steps t past)).
Proof.
  induction steps as [|n IH]; intros s t past A C; cbn [life]; [auto|]. destruct (f past) as [q|]; [|auto].
  pose proof (respond_twins umask u secret s t q A C) as (A' & Q & C').
  destruct (respond umask u s q) as [s' a], (respond umask u t q) as [t' b]. cbn in A', Q, C'. subst b. apply IH; assumption.
Qed.
Lemma secret_kept umask u secret f steps F G held seen past : equal_but secret F G ->
  (forall i, secret i -> ~ In i seen /\ exists n, nth_error F i = Some n /\ hidden u n) ->
  let L := life umask u f steps (mkSt F held seen) past in
  let M := life umask u f steps (mkSt G held seen) past in
  snd L = snd M /\ equal_but secret (st_fs (fst L)) (st_fs (fst M)).
Proof.
  intros E C. destruct (life_twins umask u secret f steps (mkSt F held seen) (mkSt G held seen) past) as (A & B & _).
  - repeat split; assumption.
  - exact C.
  - auto.
Qed.

(** ** The program of the judger *)
Lemma right_groups bit uid g gs cwd n : (forall x, In x gs <-> x = g) ->
  has_right bit (mkWho uid gs cwd) n <-> has_right bit (mkWho uid [g] cwd) n.
Proof.
  intros H. assert (forall x, In x gs <-> In x [g]) as I by (intros x; rewrite H; cbn; intuition congruence).
  split; intros [R|R R1|R R2 R1|R R2 R1]; cbn in *.
  - apply by_root; exact R.
  - apply by_owner; assumption.
  - apply by_group; [exact R|apply I; exact R2|exact R1].
  - apply by_others; [exact R|intros Q; apply R2, I; exact Q|exact R1].
  - apply by_root; exact R.
  - apply by_owner; assumption.
  - apply by_group; [exact R|apply I; exact R2|exact R1].
  - apply by_others; [exact R|intros Q; apply R2, I; exact Q|exact R1].
Qed.
Lemma judged_secret env log c k0 path a v k umask cwd obj secret f steps F G held :
  ready c k0 -> euid (k_cred k0) = 0 -> child_process env log c k0 = CExec path a v k ->
  uid c <> keep_id -> gid c <> keep_id ->
  equal_but secret F G ->
  (forall i, secret i -> exists n, nth_error F i = Some n /\ hidden (mkWho (uid c) [gid c] cwd) n) ->
  (forall n o, descriptor k0 n = Some o -> of_mode o = MRead \/ of_mode o = MOther -> ~ secret (obj o)) ->
  (forall o, input_path c = Some (of_path o) -> of_mode o = MRead -> ~ secret (obj o)) ->
  snd (life umask (person k cwd) f steps (mkSt F held (readable k obj)) []) =
  snd (life umask (person k cwd) f steps (mkSt G held (readable k obj)) []).
Proof.
  intros R Eu E U Gi Eq Hd Inh Inp.
  destruct (c20_privileges _ _ _ _ _ _ _ _ R Eu E) as ((Dg & Du) & _). destruct (Dg Gi) as (_ & Eg & _ & Gs). destruct (Du U) as (_ & Ee & _).
  assert (person k cwd = mkWho (uid c) [gid c; gid c] cwd) as P by (unfold person; rewrite Ee, Eg, Gs; reflexivity).
  rewrite P. apply (secret_kept umask _ secret f steps F G held (readable k obj) []); [exact Eq|].
  intros i Si. split.
  - intros I. unfold readable in I. apply in_flat_map in I. destruct I as (x & Ix & I). destruct x as [o|]; [|destruct I].
    apply In_nth_error in Ix. destruct Ix as (n & N). assert (descriptor k n = Some o) as D by (unfold descriptor; rewrite N; reflexivity).
    destruct (c19_inherited _ _ _ _ _ _ _ _ R E) as (_ & C19). destruct (C19 n o D) as [D0|(_ & [[Ip Mo]|[_ Mo]])].
    + assert ((of_mode o = MRead \/ of_mode o = MOther) /\ obj o = i) as (Mo & Q) by (destruct (of_mode o); cbn in I; intuition).
      apply (Inh n o D0 Mo). rewrite Q. exact Si.
    + rewrite Mo in I. destruct I as [I|[]]. apply (Inp o Ip Mo). rewrite I. exact Si.
    + rewrite Mo in I. destruct I.
  - destruct (Hd i Si) as (n & N & H1 & H2). exists n. split; [exact N|]. split; [|exact H2].
    intros Q. apply H1. apply (right_groups 2 (uid c) (gid c) [gid c; gid c] cwd n); [cbn; intuition congruence|exact Q].
Qed.

(** ** What can be read *)
Lemma reads_file umask u F held seen p k ds pl i n data : path_leads u F p k ds pl -> (k <= 40)%nat -> reaches pl i ->
  nth_error F i = Some n -> n_kind n = IsFile data -> has_right 2 u n ->
  let f := fun past => match past with [] => Some (OpenRead p) | [_] => Some (ReadHeld i) | _ => None end in
  snd (life umask u f 2 (mkSt F held seen) []) = [Contents data; Opened i].
Proof.
  intros L Lk Re N K R f. cbn [life f respond st_fs st_held st_seen].
  assert (locate u F p true = pl) as Q by (apply path_spec; [exact (leads_somewhere _ _ _ _ _ _ _ L)|eauto]).
  assert (found u F p true = Some (i, n)) as Fo.
  { unfold found. rewrite Q. destruct Re as [->|(d & x & ->)]; rewrite N; reflexivity. }
  rewrite Fo. apply may_right in R. rewrite R. cbn [f respond st_fs st_held st_seen existsb]. rewrite Nat.eqb_refl. cbn [orb]. rewrite N, K. reflexivity.
Qed.
Lemma sees_size umask u F held seen p k ds pl i n data : path_leads u F p k ds pl -> (k <= 40)%nat -> reaches pl i ->
  nth_error F i = Some n -> n_kind n = IsFile data ->
  snd (respond umask u (mkSt F held seen) (Stat p true)) = Info i "file" (List.length data) (n_uid n) (n_gid n) (n_mode n).
Proof.
  intros L Lk Re N K. cbn [respond st_fs].
  assert (locate u F p true = pl) as Q by (apply path_spec; [exact (leads_somewhere _ _ _ _ _ _ _ L)|eauto]).
  unfold found. rewrite Q. destruct Re as [->|(d & x & ->)]; rewrite N, K; reflexivity.
Qed.
Lemma reading_allowed env log c k0 path a v k sc :
  ready c k0 -> child_process env log c k0 = CExec path a v k -> sc_native sc = true ->
  (exists fl, open_flags sc = Some fl /\ read_only fl) \/ In (sc_name sc) ["read"; "fstat"; "newfstatat"; "readlink"; "access"]%string ->
  filters_action (k_filter k) sc = ActAllow.
Proof.
  intros R E Na H. destruct (c22_selection _ _ _ _ _ _ _ _ R E) as [Kn Nr].
  assert (forall nm, open_flags sc <> None \/ In (sc_name sc) ["read"; "fstat"; "newfstatat"; "readlink"; "access"]%string ->
          ~ In nm ["open"; "openat"; "read"; "fstat"; "newfstatat"; "readlink"; "access"]%string -> sc_name sc <> nm) as Nm.
  { intros nm Q Nn <-. apply Nn. destruct Q as [Q|Q]; [|cbn in *; intuition]. unfold open_flags in Q.
    destruct (String.eqb_spec (sc_name sc) "open") as [->|_]; [cbn; auto|].
    destruct (String.eqb_spec (sc_name sc) "openat") as [->|_]; [cbn; auto|]. congruence. }
  assert (open_flags sc <> None \/ In (sc_name sc) ["read"; "fstat"; "newfstatat"; "readlink"; "access"]%string) as Q.
  { destruct H as [(fl & F & _)|H]; [left; congruence|right; exact H]. }
  assert (forall fl, open_flags sc = Some fl -> read_only fl) as Ro.
  { intros fl F. destruct H as [(fl' & F' & Rf)|H]; [congruence|]. exfalso. revert F. unfold open_flags. cbn in H.
    repeat destruct H as [<-|H]; try discriminate; contradiction. }
  assert (forall nm, ~ In nm ["open"; "openat"; "read"; "fstat"; "newfstatat"; "readlink"; "access"]%string -> sc_name sc <> nm) as Nm' by (intros; apply Nm; assumption).
  assert (forall l, (forall x, In x l -> ~ In x ["open"; "openat"; "read"; "fstat"; "newfstatat"; "readlink"; "access"]%string) -> ~ In (sc_name sc) l) as Nin.
  { intros l Hl J. exact (Nm' _ (Hl _ J) eq_refl). }
  destruct (seccomp_rule_name c) as [nm|] eqn:N; [|apply Nr; reflexivity].
  unfold known_rule in Kn. cbn [In] in Kn. destruct Kn as [<-|[<-|[<-|[<-|[<-|[]]]]]].
  - apply (c24_c_cpp _ _ _ _ _ _ _ _ R E N). split; [exact Na|]. destruct H as [H|H]; [auto|]. left. cbn in H |- *. intuition.
  - apply (c24_c_cpp_file_io _ _ _ _ _ _ _ _ R E N). split; [exact Na|]. destruct H as [(fl & F & _)|H]; [|left; cbn in H |- *; intuition].
    right. right. unfold open_flags in F.
    destruct (String.eqb_spec (sc_name sc) "open") as [->|_]; [cbn; auto|].
    destruct (String.eqb_spec (sc_name sc) "openat") as [->|_]; [cbn; auto|]. discriminate.
  - apply (c26_general _ _ _ _ _ _ _ _ R E N). split; [|apply Nm'; cbn; intuition discriminate].
    unfold general_kills, is_execveat. intros [Y|[Y|[[_ Y]|[[Y _]|(fl & Y & W)]]]]; [congruence| | | |exact (W (Ro fl Y))].
    + revert Y. apply Nin. intros x X. cbn in X |- *. intuition (subst; discriminate).
    + revert Y. apply Nm'. cbn. intuition discriminate.
    + revert Y. apply Nm'. cbn. intuition discriminate.
  - apply (c27_golang _ _ _ _ _ _ _ _ R E N). unfold golang_kills, is_execveat. intros [Y|[Y|[[_ Y]|(fl & Y & W)]]]; [congruence| | |exact (W (Ro fl Y))].
    + revert Y. apply Nin. intros x X. cbn in X |- *. intuition (subst; discriminate).
    + revert Y. apply Nm'. cbn. intuition discriminate.
  - apply (c27_node _ _ _ _ _ _ _ _ R E N). unfold node_kills, is_execveat. intros [Y|[Y|[_ Y]]]; [congruence| |].
    + revert Y. apply Nin. intros x X. cbn in X |- *. intuition (subst; discriminate).
    + revert Y. apply Nm'. cbn. intuition discriminate.
Qed.

Lemma lists_dir umask u F held seen p l :
  snd (respond umask u (mkSt F held seen) (ListDir p)) = Listing l <->
  exists k ds pl i n up, (k <= 40)%nat /\ path_leads u F p k ds pl /\ reaches pl i /\ nth_error F i = Some n /\
                         n_kind n = IsDir up l /\ has_right 2 u n.
Proof.
  cbn [respond st_fs]. split.
  - intros H. unfold found in H. destruct (locate u F p true) as [i|d x i|d x|] eqn:L; try discriminate.
    1,2: destruct (nth_error F i) as [n|] eqn:N; [|discriminate]; destruct (n_kind n) as [|up l0| |] eqn:K; try discriminate;
      destruct (may 2 u n) eqn:My; [|discriminate]; injection H as <-; apply path_spec in L; [|discriminate]; destruct L as (k & ds & Lk & L);
      exists k, ds; eexists; exists i, n, up; (split; [exact Lk|]; split; [exact L|]; split; [|split; [exact N|split; [exact K|apply may_right; exact My]]]).
    + left. reflexivity.
    + right. eauto.
  - intros (k & ds & pl & i & n & up & Lk & L & Re & N & K & R).
    assert (locate u F p true = pl) as Q by (apply path_spec; [exact (leads_somewhere _ _ _ _ _ _ _ L)|eauto]).
    apply may_right in R. unfold found. rewrite Q. destruct Re as [->|(d & x & ->)]; rewrite N, K, R; reflexivity.
Qed.

(** ** Several programs *)
Definition all_closed (secret : nat -> Prop) (w : fs * list prog) : Prop :=
  forall i, secret i -> exists n, nth_error (fst w) i = Some n /\
                        forall g, In g (snd w) -> ~ In i (g_seen g) /\ hidden (g_who g) n.
Lemma hidden_same u n n' : n_uid n' = n_uid n -> n_gid n' = n_gid n -> n_mode n' = n_mode n -> hidden u n -> hidden u n'.
Proof.
  intros U G M [H1 H2]. split; [|congruence]. intros R. apply H1. exact (right_same 2 u n' n (eq_sym U) (eq_sym G) (eq_sym M) R).
Qed.
Lemma put_in l : forall i g h, In h (put l i g) -> h = g \/ In h l.
Proof.
  induction l as [|x l IH]; intros i g h H; [destruct H|]. destruct i as [|i]; cbn in H.
  - destruct H as [H|H]; [left; congruence|right; right; exact H].
  - destruct H as [H|H]; [right; left; exact H|]. destruct (IH i g h H); [left|right; right]; assumption.
Qed.
Lemma open_rights umask u create trunc F p F' i : open_write umask u create trunc F p = Some (F', i) ->
  forall j n, nth_error F j = Some n -> exists n', nth_error F' j = Some n' /\ n_uid n' = n_uid n /\ n_gid n' = n_gid n /\ n_mode n' = n_mode n.
Proof.
  Local Transparent open_write. unfold open_write. Local Opaque open_write. intros H j n N.
  assert (forall e m k, nth_error F e = Some m ->
    exists n', nth_error (upd F e (with_kind m k)) j = Some n' /\ n_uid n' = n_uid n /\ n_gid n' = n_gid n /\ n_mode n' = n_mode n) as Up.
  { intros e m k M. destruct (Nat.eq_dec j e) as [->|Ne].
    - assert (m = n) as -> by congruence. eexists. split; [exact (upd_same _ _ _ _ N)|]. repeat split.
    - exists n. rewrite upd_other by exact Ne. auto. }
  destruct (locate u F p true) as [e|d x e|d x|]; [| | |discriminate].
  1,2: destruct (nth_error F e) as [m|] eqn:M; [|discriminate]; destruct (n_kind m); try discriminate; destruct (may 1 u m); try discriminate;
    injection H as <- <-; [destruct trunc; [exact (Up e m _ M)|exists n; auto]|exists n; auto].
  destruct create; [|discriminate]. unfold make in H. destruct (in_dir u F d (add x (List.length F))) as [F1|] eqn:D; [|discriminate].
  injection H as <- <-. apply in_dir_inv in D. destruct D as (m & up & l & A & B & C & ->).
  destruct (Up d m (IsDir up (add x (List.length F) l)) A) as (n' & N' & Q). exists n'. split; [|exact Q].
  rewrite nth_error_app1; [exact N'|apply nth_error_Some; congruence].
Qed.
Lemma moves_twins secret F G l m : equal_but secret F G -> all_closed secret (F, l) ->
  snd (moves (F, l) m) = snd (moves (G, l) m) /\ equal_but secret (fst (moves (F, l) m)) (fst (moves (G, l) m)) /\
  all_closed secret (moves (F, l) m).
Proof.
  intros E C. destruct m as [i|umask judge q]; cbn [moves].
  - destruct (nth_error l i) as [g|] eqn:Ng; [|auto]. destruct (g_next g (g_past g)) as [q|]; [|auto].
    pose proof (nth_error_In _ _ Ng) as Ig.
    pose proof (respond_twins (g_umask g) (g_who g) secret (mkSt F (g_held g) (g_seen g)) (mkSt G (g_held g) (g_seen g)) q) as R.
    destruct R as (A & Q & Cl); [repeat split; assumption| |].
    { intros j Sj. destruct (C j Sj) as (n & N & H). destruct (H g Ig). split; [assumption|]. exists n. auto. }
    assert (rights_kept (g_who g) F (st_fs (fst (respond (g_umask g) (g_who g) (mkSt F (g_held g) (g_seen g)) q)))) as K.
    { destruct q as [a|p|j|p|p|p fl]; cbn [respond st_fs st_held st_seen].
      - destruct (does (g_umask g) (g_who g) (F, g_held g) a) as [[F' h']|] eqn:D; [exact (does_kept _ _ _ _ _ _ _ D)|apply kept_refl].
      - destruct (found (g_who g) F p true) as [[j n]|]; [destruct (may 2 (g_who g) n)|]; apply kept_refl.
      - destruct (existsb (Nat.eqb j) (g_seen g)); [|apply kept_refl]. destruct (nth_error F j) as [n|]; [destruct (n_kind n)|]; apply kept_refl.
      - destruct (found (g_who g) F p true) as [[j n]|]; [destruct (n_kind n); try apply kept_refl; destruct (may 2 (g_who g) n)|]; apply kept_refl.
      - destruct (found (g_who g) F p false) as [[j n]|]; [destruct (n_kind n)|]; apply kept_refl.
      - destruct (found (g_who g) F p fl) as [[j n]|]; apply kept_refl. }
    destruct (respond (g_umask g) (g_who g) (mkSt F (g_held g) (g_seen g)) q) as [s a],
             (respond (g_umask g) (g_who g) (mkSt G (g_held g) (g_seen g)) q) as [t b]. cbn [fst snd] in *. subst b.
    destruct A as (A1 & A2 & A3). rewrite A2, A3. split; [reflexivity|]. split; [exact A1|].
    intros j Sj. destruct (C j Sj) as (n & N & H). destruct (H g Ig) as (_ & H1 & H2).
    assert (w_uid (g_who g) <> 0) as H0 by (intros H0; apply H1; apply by_root; exact H0).
    destruct (K j n N H2 H0) as (n' & N' & U & Gd & M). exists n'. split; [exact N'|]. cbn [snd]. intros h Ih.
    apply put_in in Ih. destruct Ih as [->|Ih].
    + cbn [g_seen g_who]. destruct (Cl j Sj) as (Ns & _). split; [rewrite <- A3; exact Ns|]. exact (hidden_same _ _ _ U Gd M (conj H1 H2)).
    + destruct (H h Ih) as (Ns & Hh). split; [exact Ns|exact (hidden_same _ _ _ U Gd M Hh)].
  - pose proof (open_twins secret umask judge true true F G q E) as O.
    destruct (open_write umask judge true true F q) as [[F' j]|] eqn:A; destruct (open_write umask judge true true G q) as [[G' j']|];
      try (exfalso; inversion O; fail); [|auto].
    assert (equal_but secret F' G') as E' by (inversion O; assumption). cbn [fst snd]. split; [reflexivity|]. split; [exact E'|].
    intros i Si. destruct (C i Si) as (n & N & H). destruct (open_rights _ _ _ _ _ _ _ _ A i n N) as (n' & N' & U & Gd & M).
    exists n'. split; [exact N'|]. intros g Ig. destruct (H g Ig) as (Ns & Hh). split; [exact Ns|exact (hidden_same _ _ _ U Gd M Hh)].
Qed.
Lemma together_secret secret ms : forall F G l, equal_but secret F G ->
  (forall i, secret i -> exists n, nth_error F i = Some n /\ forall g, In g l -> ~ In i (g_seen g) /\ hidden (g_who g) n) ->
  snd (together (F, l) ms) = snd (together (G, l) ms) /\ equal_but secret (fst (together (F, l) ms)) (fst (together (G, l) ms)).
Proof.
  induction ms as [|m ms IH]; intros F G l E C; [split; [reflexivity|exact E]|].
  unfold together in *. cbn [fold_left].
  destruct (moves_twins secret F G l m E C) as (A & B & D).
  destruct (moves (F, l) m) as [F' l'], (moves (G, l) m) as [G' l'']. cbn [fst snd] in A, B. subst l''. apply IH; [exact B|exact D].
Qed.
