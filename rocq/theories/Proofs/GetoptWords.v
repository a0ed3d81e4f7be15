(** The words of argv: getopt only exchanges them, and only when it collects those that are no options. *)
From Coq Require Import ZArith Bool List Ascii String Arith Lia Permutation FinFun.
From Verif.Base Require Import CInt CStr.
From Verif.Model Require Import Permute Getopt GetoptFull.
From Verif.Spec Require Import CmdLine GetoptSpec GetoptAnswer.
From Verif.Proofs Require Import PermuteProofs GetoptSteps.
Import ListNotations.
Open Scope list_scope.
Open Scope nat_scope.

Lemma swap_perm {A} p c (l l' : list A) : swap_at p c l = Val l' -> Permutation l l'.
Proof.
  intros E. assert (p < List.length l /\ c < List.length l) as (Lp & Lc).
  { unfold swap_at in E. destruct (nth_error l p) eqn:Ep; [|discriminate]. destruct (nth_error l c) eqn:Ec; [|discriminate].
    split; apply nth_error_Some; congruence. }
  destruct (swap_at_ok p c l Lp Lc) as (l'' & E' & L & N). assert (l'' = l') by congruence. subst l''.
  apply Permutation_nth_error. split; [symmetry; exact L|].
  exists (fun i => if i =? c then p else if i =? p then c else i). split.
  - intros x y. destruct (Nat.eqb_spec x c), (Nat.eqb_spec y c), (Nat.eqb_spec x p), (Nat.eqb_spec y p); congruence.
  - intros i. rewrite N. destruct (i =? c); [reflexivity|]. destruct (i =? p); reflexivity.
Qed.
Lemma cycle_perm {A} n m e cs : forall j pos (l l' : list A), cycle j n m e cs pos l = Val l' -> Permutation l l'.
Proof.
  induction j as [|j IH]; intros pos l l' E; cbn [cycle] in E; [injection E as <-; reflexivity|].
  match type of E with cbind (swap_at ?a ?b ?x) _ = _ => destruct (swap_at a b x) as [l1|] eqn:E1; [|discriminate] end.
  cbn [cbind] in E. rewrite (swap_perm _ _ _ _ E1). exact (IH _ _ _ E).
Qed.
Lemma cycles_perm {A} cl n m e : forall k i (l l' : list A), cycles k i cl n m e l = Val l' -> Permutation l l'.
Proof.
  induction k as [|k IH]; intros i l l' E; cbn [cycles] in E; [injection E as <-; reflexivity|].
  match type of E with cbind ?x _ = _ => destruct x as [l1|] eqn:E1; [|discriminate] end.
  cbn [cbind] in E. rewrite (cycle_perm _ _ _ _ _ _ _ _ E1). exact (IH _ _ _ E).
Qed.
Lemma permute_perm {A} a b c (l l' : list A) : permute_args a b c l = Val l' -> Permutation l l'.
Proof. unfold permute_args. intros E. destruct (gcd (b - a) (c - b)) as [k|]; [|discriminate]. cbn [cbind] in E. exact (cycles_perm _ _ _ _ _ _ _ _ E). Qed.

Definition state_of (x : found) : gopt := match x with FEnd g | FWord _ g | FOption g => g end.
Lemma find_perm allargs permute : forall fuel g x, find_any fuel allargs permute g = Val x -> Permutation (g_argv g) (g_argv (state_of x)).
Proof.
  induction fuel as [|fuel IH]; intros g x E; cbn [find_any] in E.
  - destruct (negb (g_reset g) && _); [injection E as <-; reflexivity|].
    destruct (nth_error (g_argv g) (g_optind g)) as [[|c [|c1 place2]]|].
    + destruct allargs; [injection E as <-; reflexivity|]. destruct permute; [discriminate|]. injection E as <-. reflexivity.
    + destruct allargs; [injection E as <-; reflexivity|]. destruct permute; [discriminate|]. injection E as <-. reflexivity.
    + destruct (aeqb c "-").
      * destruct (aeqb c1 "-" && _); [|injection E as <-; reflexivity].
        destruct (match g_nstart g, g_nend g with Some _, None => Some (g_optind g) | _, ne => ne end); [|injection E as <-; reflexivity].
        destruct (g_nstart g); [|discriminate]. destruct (permute_args _ _ _ _) as [l|] eqn:Ep; [|discriminate]. cbn [cbind] in E. injection E as <-. cbn. exact (permute_perm _ _ _ _ _ Ep).
      * destruct allargs; [injection E as <-; reflexivity|]. destruct permute; [discriminate|]. injection E as <-. reflexivity.
    + destruct (g_nend g), (g_nstart g); try discriminate; try (injection E as <-; reflexivity).
      destruct (permute_args _ _ _ _) as [l|] eqn:Ep; [|discriminate]. cbn [cbind] in E. injection E as <-. cbn. exact (permute_perm _ _ _ _ _ Ep).
  - assert (forall x, cbind (match g_nstart g, g_nend g with
                 | None, ne => Val (g_argv g, Some (g_optind g), ne)
                 | Some ns, Some ne =>
                     cbind (permute_args ns ne (g_optind g) (g_argv g)) (fun argv =>
                     Val (argv, Some (g_optind g - (ne - ns)), None))
                 | Some ns, None => Val (g_argv g, Some ns, None)
                 end) (fun '(argv, ns, ne) =>
          find_any fuel allargs permute (mkG argv (S (g_optind g)) [] ns ne false)) = Val x -> Permutation (g_argv g) (g_argv (state_of x))) as Go.
    { intros y Ey. destruct (g_nstart g) as [a|]; [destruct (g_nend g) as [b|]|].
      - destruct (permute_args _ _ _ _) as [l|] eqn:Ep; [|discriminate]. cbn [cbind] in Ey. rewrite (permute_perm _ _ _ _ _ Ep). exact (IH _ _ Ey).
      - cbn [cbind] in Ey. exact (IH _ _ Ey).
      - cbn [cbind] in Ey. exact (IH _ _ Ey). }
    destruct (negb (g_reset g) && _); [injection E as <-; reflexivity|].
    destruct (nth_error (g_argv g) (g_optind g)) as [[|c [|c1 place2]]|].
    + destruct allargs; [injection E as <-; reflexivity|]. destruct permute; [apply Go; exact E|]. injection E as <-. reflexivity.
    + destruct allargs; [injection E as <-; reflexivity|]. destruct permute; [apply Go; exact E|]. injection E as <-. reflexivity.
    + destruct (aeqb c "-").
      * destruct (aeqb c1 "-" && _); [|injection E as <-; reflexivity].
        destruct (match g_nstart g, g_nend g with Some _, None => Some (g_optind g) | _, ne => ne end); [|injection E as <-; reflexivity].
        destruct (g_nstart g); [|discriminate]. destruct (permute_args _ _ _ _) as [l|] eqn:Ep; [|discriminate]. cbn [cbind] in E. injection E as <-. cbn. exact (permute_perm _ _ _ _ _ Ep).
      * destruct allargs; [injection E as <-; reflexivity|]. destruct permute; [apply Go; exact E|]. injection E as <-. reflexivity.
    + destruct (g_nend g), (g_nstart g); try discriminate; try (injection E as <-; reflexivity).
      destruct (permute_args _ _ _ _) as [l|] eqn:Ep; [|discriminate]. cbn [cbind] in E. injection E as <-. cbn. exact (permute_perm _ _ _ _ _ Ep).
Qed.

(** Reading an option leaves argv as it is. *)
Definition kept (g g' : gopt) : Prop := g_argv g' = g_argv g /\ g_nstart g' = g_nstart g /\ g_nend g' = g_nend g.
Lemma letter_kept a b c o los g r g' : parse_letter a b c o los g = Val (r, g') -> kept g g'.
Proof.
  unfold parse_letter. intros E. destruct (g_place g) as [|x p]; [discriminate|].
  repeat match type of E with
  | Val _ = Val _ => injection E as _ <-; repeat split; fail
  | (if ?b then _ else _) = _ => destruct b
  | match ?y with _ => _ end = _ => destruct y
  | cbind ?y _ = Val _ => destruct y as [[? ?]|]; [cbn [cbind] in E|discriminate]
  end.
Qed.
Lemma option_kept a b c o los g r g' : at_option a b c o los g = Val (r, g') -> kept g g'.
Proof.
  unfold at_option. intros E. destruct (nth_error _ _) as [w|]; [|discriminate]. destruct los as [los|]; [|exact (letter_kept _ _ _ _ _ _ _ _ E)].
  destruct (g_place g) as [|x p] eqn:P; [exact (letter_kept _ _ _ _ _ _ _ _ E)|].
  repeat match type of E with
  | parse_letter _ _ _ _ _ (mkG _ _ _ _ _ _) = _ => apply letter_kept in E; destruct E as (E1 & E2 & E3); repeat split; assumption
  | parse_letter _ _ _ _ _ _ = _ => exact (letter_kept _ _ _ _ _ _ _ _ E)
  | Val _ = Val _ => injection E as _ <-; repeat split; fail
  | (if ?b then _ else _) = _ => destruct b
  | match ?y with _ => _ end = _ => destruct y
  | cbind ?y _ = Val _ => destruct y as [[? ?]|]; [cbn [cbind] in E|discriminate]
  end.
Qed.

Lemma internal_perm a b c d o los g r g' : getopt_internal a b c d o los g = Val (r, g') -> Permutation (g_argv g) (g_argv g').
Proof.
  unfold getopt_internal. set (g1 := if g_optind g =? 0 then _ else g). set (g2 := if g_reset g1 then _ else g1).
  assert (g_argv g2 = g_argv g) as <- by (unfold g2, g1; destruct (g_optind g =? 0); destruct (g_reset _); reflexivity).
  intros E. destruct (find_any _ _ _ g2) as [x|] eqn:F; [|discriminate]. cbn [cbind] in E. apply find_perm in F. rewrite F.
  destruct x; [injection E as _ <-; reflexivity|injection E as _ <-; reflexivity|]. apply option_kept in E. destruct E as (-> & _). reflexivity.
Qed.

Lemma until_keep (I : gopt -> Prop) get : (forall g r g', I g -> get g = Val (r, g') -> I g') ->
  forall fuel g rs g', I g -> until_done get fuel g = Some (Val (rs, g')) -> I g'.
Proof.
  intros K. induction fuel as [|fuel IH]; intros g rs g' H E; [discriminate|]. cbn [until_done] in E.
  destruct (get g) as [[r g1]|] eqn:G; [|discriminate]. pose proof (K _ _ _ H G) as H1. destruct (r_value r =? DONE)%Z; [injection E as _ <-; exact H1|].
  destruct (until_done get fuel g1) as [[[rs1 g2]|]|] eqn:U; try discriminate. cbn in E. injection E as _ <-. exact (IH _ _ _ H1 U).
Qed.

Lemma ends_perm a b c d o los argv rs rest argv' : ends_with (getopt_internal a b c d o los) argv rs rest argv' -> Permutation argv argv'.
Proof.
  intros (fuel & g & U & <- & _). apply (until_keep (fun g => Permutation argv (g_argv g)) _) in U; [exact U| |reflexivity].
  intros g0 r g1 H E. rewrite H. exact (internal_perm _ _ _ _ _ _ _ _ _ E).
Qed.

(** ** Nothing moves unless words are collected *)
Lemma find_keep fuel allargs permute g x : (allargs = true \/ permute = false) -> g_nstart g = None -> g_nend g = None ->
  find_any fuel allargs permute g = Val x -> g_argv (state_of x) = g_argv g /\ g_nstart (state_of x) = None /\ g_nend (state_of x) = None.
Proof.
  intros H Ns Ne E. destruct fuel; cbn [find_any] in E; rewrite Ns, Ne in E.
  - destruct (negb (g_reset g) && _); [injection E as <-; repeat split; assumption|].
    destruct (nth_error (g_argv g) (g_optind g)) as [[|c [|c1 place2]]|]; try (injection E as <-; repeat split; fail);
      try (destruct (aeqb c "-"); [destruct (aeqb c1 "-" && _); injection E as <-; repeat split; fail|]);
      (destruct allargs; [injection E as <-; repeat split|destruct permute; [destruct H; discriminate|injection E as <-; repeat split]]).
  - destruct (negb (g_reset g) && _); [injection E as <-; repeat split; assumption|].
    destruct (nth_error (g_argv g) (g_optind g)) as [[|c [|c1 place2]]|]; try (injection E as <-; repeat split; fail);
      try (destruct (aeqb c "-"); [destruct (aeqb c1 "-" && _); injection E as <-; repeat split; fail|]);
      (destruct allargs; [injection E as <-; repeat split|destruct permute; [destruct H; discriminate|injection E as <-; repeat split]]).
Qed.

Lemma ends_kept opterr posix q get argv rs rest argv' : fine q -> asked opterr posix q get -> q_style q <> Collect ->
  ends_with get argv rs rest argv' -> argv' = argv.
Proof.
  intros FQ AQ St (fuel & g & U & <- & _).
  apply (until_keep (fun g => g_argv g = argv /\ g_nstart g = None /\ g_nend g = None) get) in U; [apply U| |repeat split].
  intros g0 r g1 (<- & Ns & Ne) E. rewrite (asked_core opterr posix q FQ get AQ) in E. unfold core in E.
  set (ga := if g_optind g0 =? 0 then _ else g0) in E. set (gb := if g_reset ga then _ else ga) in E.
  assert (g_argv gb = g_argv g0 /\ g_nstart gb = None /\ g_nend gb = None) as (Ea & Eb & Ec)
    by (unfold gb, ga; destruct (g_optind g0 =? 0); destruct (g_reset _); repeat split; assumption).
  destruct (find_any _ _ _ gb) as [x|] eqn:F; [|discriminate]. cbn [cbind] in E.
  destruct (find_keep (List.length (g_argv gb)) (allargs q) (permute q) gb x) as (E1 & E2 & E3);
    [unfold allargs, permute; destruct (q_style q); [congruence|right; reflexivity|left; reflexivity]|exact Eb|exact Ec|exact F|].
  rewrite Ea in E1. destruct x; cbn [state_of] in *; [injection E as _ <-; auto|injection E as _ <-; auto|].
  destruct (option_kept _ _ _ _ _ _ _ _ E) as (A1 & A2 & A3). rewrite A1, A2, A3. auto.
Qed.
