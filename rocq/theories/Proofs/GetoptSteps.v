(** One call of getopt, getopt_long or getopt_long_only does what [call] and [done] of Spec/GetoptSpec.v say. *)
From Coq Require Import ZArith Bool List Ascii String Arith Lia.
From Verif.Base Require Import CInt CStr.
From Verif.Model Require Import Permute Getopt GetoptFull.
From Verif.Spec Require Import CmdLine GetoptSpec GetoptAnswer.
From Verif.Proofs Require Import PermuteProofs GetoptLong GetoptProofs GetoptNames.
Import ListNotations.
Open Scope list_scope.
Open Scope nat_scope.

(** The search without FLAG_ALLARGS is that of Model/Getopt.v. *)
Definition as_found (x : gopt + gopt) : found := match x with inl g => FEnd g | inr g => FOption g end.
Lemma find_any_plain permute : forall fuel g, find_any fuel false permute g = cbind (find_option fuel permute g) (fun x => Val (as_found x)).
Proof.
  intros fuel. induction fuel as [|fuel IH]; intros g.
  - cbn [find_any find_option].
    destruct (negb (g_reset g) && match g_place g with [] => false | _ :: _ => true end); [reflexivity|].
    destruct (nth_error (g_argv g) (g_optind g)) as [[|c [|c1 place2]]|].
    + destruct permute; reflexivity.
    + destruct permute; reflexivity.
    + destruct (aeqb c "-"); [|destruct permute; reflexivity].
      destruct (aeqb c1 "-" && match place2 with [] => true | _ :: _ => false end); [|reflexivity].
      destruct (match g_nstart g, g_nend g with Some _, None => Some (g_optind g) | _, ne => ne end) as [ne|]; [|reflexivity].
      destruct (g_nstart g) as [ns|]; [|reflexivity]. destruct (permute_args ns ne (S (g_optind g)) (g_argv g)); reflexivity.
    + destruct (g_nend g) as [ne|], (g_nstart g) as [ns|]; try reflexivity. destruct (permute_args ns ne (g_optind g) (g_argv g)); reflexivity.
  - assert (forall g', find_any fuel false permute g' = cbind (find_option fuel permute g') (fun x => Val (as_found x))) as IH' by exact IH. clear IH.
    cbn [find_any find_option].
    destruct (negb (g_reset g) && match g_place g with [] => false | _ :: _ => true end); [reflexivity|].
    assert (forall X : cres (list str * option nat * option nat),
      cbind X (fun '(argv, ns, ne) => find_any fuel false permute (mkG argv (S (g_optind g)) [] ns ne false)) =
      cbind (cbind X (fun '(argv, ns, ne) => find_option fuel permute (mkG argv (S (g_optind g)) [] ns ne false))) (fun x => Val (as_found x))) as Go.
    { intros [[[argv ns] ne]|]; [cbn [cbind]; apply IH'|reflexivity]. }
    destruct (nth_error (g_argv g) (g_optind g)) as [[|c [|c1 place2]]|].
    + destruct permute; [cbn [negb]; apply Go|reflexivity].
    + destruct permute; [cbn [negb]; apply Go|reflexivity].
    + destruct (aeqb c "-"); [|destruct permute; [cbn [negb]; apply Go|reflexivity]].
      destruct (aeqb c1 "-" && match place2 with [] => true | _ :: _ => false end); [|reflexivity].
      destruct (match g_nstart g, g_nend g with Some _, None => Some (g_optind g) | _, ne => ne end) as [ne|]; [|reflexivity].
      destruct (g_nstart g) as [ns|]; [|reflexivity]. destruct (permute_args ns ne (S (g_optind g)) (g_argv g)); reflexivity.
    + destruct (g_nend g) as [ne|], (g_nstart g) as [ns|]; try reflexivity. destruct (permute_args ns ne (g_optind g) (g_argv g)); reflexivity.
Qed.

Lemma find_any_word fuel permute g : g_place g = [] -> forall w, nth_error (g_argv g) (g_optind g) = Some w -> ~ option_word w ->
  find_any fuel true permute g = Val (FWord w (mkG (g_argv g) (S (g_optind g)) [] (g_nstart g) (g_nend g) false)).
Proof.
  intros P w Nth Nw. destruct fuel; cbn [find_any]; rewrite P, andb_false_r, Nth; (destruct w as [|c [|c1 r]]; [reflexivity|reflexivity|]);
    (replace (aeqb c "-"%char) with false; [reflexivity|]; symmetry; apply aeqb_neq; intros ->; apply Nw; exists c1, r; reflexivity).
Qed.
(** With it: the same, unless there is a word that is no option. *)
Lemma find_any_other fuel permute p2 g : match nth_error (g_argv g) (g_optind g) with Some w => option_word w | None => True end ->
  find_any fuel true permute g = cbind (find_option fuel p2 g) (fun x => Val (as_found x)).
Proof.
  intros H. destruct fuel; cbn [find_any find_option];
  (destruct (negb (g_reset g) && match g_place g with [] => false | _ :: _ => true end); [reflexivity|]);
  (destruct (nth_error (g_argv g) (g_optind g)) as [w|] eqn:Nth;
    [destruct H as (c1 & place2 & ->); cbn [aeqb]; change (aeqb "-" "-") with true; cbv iota;
      destruct (aeqb c1 "-" && match place2 with [] => true | _ :: _ => false end); [|reflexivity];
      destruct (match g_nstart g, g_nend g with Some _, None => Some (g_optind g) | _, ne => ne end) as [ne|]; [|reflexivity];
      destruct (g_nstart g) as [ns|]; [|reflexivity]; destruct (permute_args ns ne (S (g_optind g)) (g_argv g)); reflexivity
    |destruct (g_nend g) as [ne|], (g_nstart g) as [ns|]; try reflexivity; destruct (permute_args ns ne (g_optind g) (g_argv g)); reflexivity]).
Qed.

Section Steps.
Variables (opterr posix : bool) (q : request).
Hypothesis FQ : fine q.
Local Notation opts := (option_string q).
Local Notation los := (option_map (map as_long) (q_names q)).
Local Notation answer_ := (answer opterr posix q).

Definition allargs : bool := match q_style q with InOrder => true | _ => false end.
Definition permute : bool := match q_style q with Collect => true | _ => false end.

(** The call after the option string has been looked at. *)
Definition core (g : gopt) : cres (out * gopt) :=
  let g := if g_optind g =? 0 then mkG (g_argv g) 1 (g_place g) (g_nstart g) (g_nend g) true else g in
  let g := if g_reset g then mkG (g_argv g) (g_optind g) (g_place g) None None true else g in
  cbind (find_any (len (g_argv g)) allargs permute g) (fun x =>
  match x with
  | FEnd g => Val (mkOut DONE None None None None None, g)
  | FWord w g => Val (mkOut INORDER (Some w) None None None None, g)
  | FOption g => at_option opterr posix (q_only q) opts los g
  end).

Lemma find_any_permute fuel p1 p2 : forall g, find_any fuel true p1 g = find_any fuel true p2 g.
Proof. destruct fuel; intros g; reflexivity. Qed.

Lemma opts_head : colon_first opts = q_colon q /\ forall c, In c ["+"; "-"]%char -> match opts with x :: _ => aeqb x c | [] => false end = false.
Proof.
  unfold option_string. destruct (q_colon q).
  - split; [reflexivity|]. intros c H. cbn in H. destruct H as [<-|[<-|[]]]; reflexivity.
  - cbn [app]. destruct FQ as (F & _). destruct F as [|[c0 t0] l (Fc & _) _]; [split; [reflexivity|intros; reflexivity]|].
    cbn in Fc. cbn [flat_map letter_text fst app colon_first]. split.
    + apply aeqb_neq. intros ->. apply Fc. tauto.
    + intros c H. apply aeqb_neq. intros ->. apply Fc. cbn in H. tauto.
Qed.

Lemma asked_core get : asked opterr posix q get -> forall g, get g = core g.
Proof.
  intros (m & A) g. destruct opts_head as (_ & Hd). pose proof (Hd "+"%char (or_introl eq_refl)) as H1. pose proof (Hd "-"%char (or_intror (or_introl eq_refl))) as H2. clear Hd.
  assert (forall pm lo los', mark posix pm (q_style q) m -> lo = q_only q -> los' = los -> getopt_internal opterr posix pm lo (m ++ opts) los' g = core g) as X.
  { intros pm lo los' M E1 E2. rewrite E1, E2. clear E1 E2. unfold getopt_internal, core. destruct M as [(-> & S)|[(-> & S)|(-> & S)]].
    - cbn [app]. rewrite H1, H2. cbn [negb andb orb]. assert (allargs = false) as -> by (unfold allargs; rewrite S; destruct (pm && negb posix); reflexivity).
      assert (permute = if posix || false then false else pm) as -> by (unfold permute; rewrite S; destruct pm, posix; reflexivity). reflexivity.
    - change (lit "+") with ["+"%char]. cbn [app]. change (aeqb "+" "-") with false. change (aeqb "+" "+") with true. cbn [negb andb orb tl].
      rewrite orb_true_r. unfold allargs, permute. rewrite S. reflexivity.
    - change (lit "-") with ["-"%char]. cbn [app]. change (aeqb "-" "-") with true. change (aeqb "-" "+") with false. cbn [negb andb orb tl].
      unfold allargs, permute. rewrite S. rewrite (find_any_permute _ pm false). reflexivity. }
  destruct (q_names q) as [ns|] eqn:Qn.
  - destruct A as (M & ->). destruct (q_only q) eqn:O; apply X; auto.
  - destruct A as (O & M & ->). apply X; auto.
Qed.

(** ** The parts *)
Lemma said_ok text : print_error opterr opts text = if opterr && negb (q_colon q) then Some text else None.
Proof. unfold print_error. rewrite (proj1 opts_head). reflexivity. Qed.
Lemma badarg_ok : badarg opts = if q_colon q then 58%Z else 63%Z.
Proof. unfold badarg. rewrite (proj1 opts_head). reflexivity. Qed.
Lemma letter_code_schar c : schar c = letter_code c.
Proof. unfold schar, letter_code, code. rewrite <- (N_nat_Z (N_of_ascii c)). reflexivity. Qed.

Lemma parse_ok ns short dash s ws e ws' argv i : q_names q = Some ns -> by_name q short dash s ws e ws' ->
  skipn (S i) argv = ws -> S i <= len argv ->
  GetoptFull.parse_long opterr (q_only q) opts (map as_long ns) dash short argv i s = Val (answer_ e, S i + (len ws - len ws')) /\
  r_value (answer_ e) <> DONE /\ exists used, ws = used ++ ws' /\ len used = len ws - len ws'.
Proof.
  intros Qn B Sk L. assert (Forall fine_name ns) as Fn by (destruct FQ as (_ & F); exact (F ns Qn)).
  pose proof (name_case q ns Qn Fn short) as NC.
  assert (forall k n, nth_error ns k = Some n -> nth_error (names q) k = Some n) as Nn by (unfold names; rewrite Qn; auto).
  assert (forall k t, name_takes q k t -> forall n, nth_error ns k = Some n -> m_takes n = t) as Nt.
  { intros k t (n & In_ & T) n' E. unfold is_name in In_. rewrite (Nn _ _ E) in In_. congruence. }
  assert (forall k n, nth_error ns k = Some n -> m_takes n <> LongName /\ (m_flag n = None -> m_value n <> (-1)%Z)) as Fn'.
  { intros k n E. rewrite Forall_forall in Fn. pose proof (Fn n (nth_error_In _ _ E)) as (_ & A & C). auto. }
  assert (DONE = (-1)%Z) as Dn by reflexivity.
  assert (forall k n v, nth_error ns k = Some n -> answer_ (Name k v) = match m_flag n with None => mkOut (m_value n) v None (Some k) None None | Some f => mkOut 0 v None (Some k) (Some (f, m_value n)) None end) as An.
  { intros k n v E. unfold answer. rewrite (Nn _ _ E). reflexivity. }
  assert (forall k n v, nth_error ns k = Some n -> r_value (answer_ (Name k v)) <> DONE) as Av.
  { intros k n v E. rewrite (An _ _ _ E). destruct (m_flag n) eqn:Mf; cbn [r_value]; [discriminate|]. apply (Fn' _ _ E). exact Mf. }
  revert Sk. inversion B as [w k t Sp St Tk Nv|w a v k t Sp St Tk Nv|v w k Sp St Tk|k Sp St Tk|w a v k Sp St Tk|w a v Sp St|w a v Sp St Sh]; subst; intros H; unfold GetoptFull.parse_long;
    rewrite (splits_unique _ _ _ Sp).
  - destruct (NC s) as [(k' & n & ex & sec & St' & En & Ef & Ee)|[(Sv & _)|(Sn & _)]]; [|destruct (stands_not_several _ _ _ _ St Sv)|destruct (stands_not_none _ _ _ _ St Sn)].
    rewrite (stands_unique _ _ _ _ _ St' St) in En, Ef. rewrite Ef, Ee, (An _ _ _ En). pose proof (Nt _ _ Tk _ En) as Tn. destruct (Fn' _ _ En) as (NL & _).
    split; [|split; [rewrite <- (An _ _ None En); exact (Av _ _ _ En)|exists []; rewrite Nat.sub_diag; auto]]. rewrite Nat.sub_diag, Nat.add_0_r.
    unfold as_long. cbn [l_has_arg l_flag l_val]. destruct (m_takes n); try congruence; cbn [Z.eqb Pos.eqb andb orb cbind]; destruct (m_flag n); reflexivity.
  - destruct (NC a) as [(k' & n & ex & sec & St' & En & Ef & Ee)|[(Sv & _)|(Sn & _)]]; [|destruct (stands_not_several _ _ _ _ St Sv)|destruct (stands_not_none _ _ _ _ St Sn)].
    rewrite (stands_unique _ _ _ _ _ St' St) in En, Ef. rewrite Ef, Ee, (An _ _ _ En). pose proof (Nt _ _ Tk _ En) as Tn. destruct (Fn' _ _ En) as (NL & _).
    split; [|split; [rewrite <- (An _ _ (Some v) En); exact (Av _ _ _ En)|exists []; rewrite Nat.sub_diag; auto]]. rewrite Nat.sub_diag, Nat.add_0_r.
    unfold as_long. cbn [l_has_arg l_flag l_val]. destruct (m_takes n); try congruence; cbn [Z.eqb Pos.eqb andb orb cbind]; destruct (m_flag n); reflexivity.
  - destruct (NC s) as [(k' & n & ex & sec & St' & En & Ef & Ee)|[(Sv & _)|(Sn & _)]]; [|destruct (stands_not_several _ _ _ _ St Sv)|destruct (stands_not_none _ _ _ _ St Sn)].
    rewrite (stands_unique _ _ _ _ _ St' St) in En, Ef. rewrite Ef, Ee, (An _ _ _ En). pose proof (Nt _ _ Tk _ En) as Tn.
    split; [|split; [rewrite <- (An _ _ (Some v) En); exact (Av _ _ _ En)|exists [v]; cbn [len app]; split; [reflexivity|lia]]].
    assert (nth_error argv (S i) = Some v) as Nv.
    { rewrite <- (firstn_skipn (S i) argv), H. rewrite nth_error_app2 by (rewrite firstn_length; lia). rewrite firstn_length, Nat.min_l, Nat.sub_diag by lia. reflexivity. }
    unfold as_long. cbn [l_has_arg l_flag l_val]. rewrite Tn. cbn [Z.eqb Pos.eqb andb orb cbind]. unfold argv_at. rewrite Nv. cbn [cbind].
    replace (S i + (len (v :: ws') - len ws')) with (S (S i)) by (cbn [len]; lia). destruct (m_flag n); reflexivity.
  - destruct (NC s) as [(k' & n & ex & sec & St' & En & Ef & Ee)|[(Sv & _)|(Sn & _)]]; [|destruct (stands_not_several _ _ _ _ St Sv)|destruct (stands_not_none _ _ _ _ St Sn)].
    rewrite (stands_unique _ _ _ _ _ St' St) in En, Ef. rewrite Ef, Ee. pose proof (Nt _ _ Tk _ En) as Tn.
    assert (S i = len argv) as Li.
    { assert (len (skipn (S i) argv) = 0) as X by (rewrite H; reflexivity). rewrite skipn_length in X. lia. }
    assert (nth_error argv (S i) = None) as Nv by (apply nth_error_None; lia).
    unfold answer. rewrite (Nn _ _ En). split; [|split; [destruct (q_colon q); discriminate|exists []; auto]].
    unfold as_long. cbn [l_has_arg l_flag l_val]. rewrite Tn. cbn [Z.eqb Pos.eqb andb orb cbind]. unfold argv_at. rewrite Nv, Li, Nat.eqb_refl. cbn [cbind].
    rewrite said_ok, badarg_ok. unfold recargstring. cbn [len Nat.sub]. rewrite Nat.add_0_r, ?Nat.sub_0_r. reflexivity.
  - destruct (NC a) as [(k' & n & ex & sec & St' & En & Ef & Ee)|[(Sv & _)|(Sn & _)]]; [|destruct (stands_not_several _ _ _ _ St Sv)|destruct (stands_not_none _ _ _ _ St Sn)].
    rewrite (stands_unique _ _ _ _ _ St' St) in En, Ef. rewrite Ef, Ee. pose proof (Nt _ _ Tk _ En) as Tn.
    unfold answer. rewrite (Nn _ _ En). split; [|split; [discriminate|exists []; rewrite Nat.sub_diag; auto]]. rewrite Nat.sub_diag, Nat.add_0_r.
    unfold as_long. cbn [l_has_arg l_flag l_val]. rewrite Tn. cbn [Z.eqb Pos.eqb andb orb cbind]. rewrite said_ok. unfold noarg. reflexivity.
  - destruct (NC a) as [(k' & n & ex & sec & St' & En & Ef & Ee)|[(Sv & m & Ef)|(Sn & _)]]; [destruct (stands_not_several _ _ _ _ St' St)| |destruct (several_not_none _ _ _ St Sn)].
    rewrite Ef. cbn [negb andb]. rewrite said_ok. split; [|split; [discriminate|exists []; rewrite Nat.sub_diag; auto]]. rewrite Nat.sub_diag, Nat.add_0_r. reflexivity.
  - destruct (NC a) as [(k' & n & ex & sec & St' & En & Ef & Ee)|[(Sv & m & Ef)|(Sn & Ef)]]; [destruct (stands_not_none _ _ _ _ St' St)|destruct (several_not_none _ _ _ Sv St)|].
    rewrite Ef. cbn [negb andb]. rewrite said_ok. split; [|split; [discriminate|exists []; rewrite Nat.sub_diag; auto]]. rewrite Nat.sub_diag, Nat.add_0_r. reflexivity.
Qed.

Lemma parse_not ns dash s a v argv i : q_names q = Some ns -> splits s a v -> stands_for_none q true a ->
  GetoptFull.parse_long opterr (q_only q) opts (map as_long ns) dash true argv i s = Val (mkOut DONE None None None None None, i).
Proof.
  intros Qn Sp St. assert (Forall fine_name ns) as Fn by (destruct FQ as (_ & F); exact (F ns Qn)).
  unfold GetoptFull.parse_long. rewrite (splits_unique _ _ _ Sp).
  destruct (name_case q ns Qn Fn true a) as [(k' & n & ex & sec & St' & En & Ef & Ee)|[(Sv & m & Ef)|(Sn & Ef)]]; [destruct (stands_not_none _ _ _ _ St' St)|destruct (several_not_none _ _ _ Sv St)|].
  rewrite Ef. reflexivity.
Qed.
End Steps.
