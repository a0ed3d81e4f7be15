(** arg_parse computes [occurs]. *)
From Coq Require Import ZArith Bool List Ascii String Arith Lia.
From Verif.Base Require Import CInt CStr.
From Verif.Model Require Import Config ArgInt Permute Getopt Argtable Main.
From Verif.Spec Require Import IntText CmdLine Invocation.
From Verif.Proofs Require Import ArgIntClaims PermuteProofs GetoptLong GetoptProofs ParseSim.
Import ListNotations.
Open Scope list_scope.
Open Scope nat_scope.

Definition los : list lopt := alloc_longoptions 0 arg_table.

Lemma los_fine : los_ok los.
Proof.
  let l := eval vm_compute in los in assert (los = l) as E by (vm_compute; reflexivity).
  unfold los_ok. rewrite E. clear E. split; [|split].
  - cbn [map lo_name]. repeat constructor; cbn [In]; intuition discriminate.
  - cbn [map lo_val]. repeat constructor; cbn [In]; intuition discriminate.
  - cbn [In]. intros o H. repeat (destruct H as [<-|H]; [cbn; auto|]). destruct H.
Qed.

Lemma los_options : options_of los = judger_names.
Proof. vm_compute. reflexivity. Qed.

Lemma shortopts : alloc_shortoptions arg_table = lit ":".
Proof. reflexivity. Qed.

(** ** Errors *)
Definition bounded (m : nat) (l : list perror) : list perror :=
  if len l <=? m then l else firstn (m - 1) l ++ [mkErr None ARG_ELIMIT None].

Lemma upd_end {A} (l : list A) x y : upd (len l) y (l ++ [x]) = l ++ [y].
Proof. induction l as [|a l IH]; cbn; [reflexivity|]. f_equal. exact IH. Qed.

Lemma register_bounded m l e : 0 < m -> register_error m (bounded m l) e = bounded m (l ++ [e]).
Proof.
  intros M. unfold register_error, bounded. rewrite app_length. cbn [List.length].
  destruct (Nat.leb_spec (len l) m) as [L|L].
  - destruct (Nat.ltb_spec (len l) m) as [L1|L1].
    + rewrite (proj2 (Nat.leb_le (len l + 1) m)) by lia. reflexivity.
    + rewrite (proj2 (Nat.leb_gt (len l + 1) m)) by lia.
      assert (len l = m) as Em by lia. destruct (rev l) as [|x r] eqn:Er.
      * apply (f_equal (@List.length _)) in Er. rewrite rev_length in Er. cbn in Er. lia.
      * assert (l = rev r ++ [x]) as -> by (rewrite <- (rev_involutive l), Er; reflexivity).
        rewrite app_length in Em. cbn in Em. replace (m - 1) with (len (rev r)) by lia.
        rewrite upd_end, <- app_assoc, firstn_app, firstn_all, Nat.sub_diag. cbn. rewrite app_nil_r. reflexivity.
  - rewrite (proj2 (Nat.leb_gt (len l + 1) m)) by lia.
    rewrite app_length, firstn_length, Nat.min_l by lia. cbn [List.length].
    rewrite (proj2 (Nat.ltb_ge (m - 1 + 1) m)) by lia.
    replace (m - 1) with (len (firstn (m - 1) l)) at 1 by (rewrite firstn_length; lia).
    rewrite upd_end, firstn_app. replace (m - 1 - len l) with 0 by lia. cbn. rewrite app_nil_r. reflexivity.
Qed.

Lemma register_all m (l : list perror) more : 0 < m ->
  fold_left (register_error m) more (bounded m l) = bounded m (l ++ more).
Proof.
  intros M. revert l. induction more as [|e more IH]; intros l; [rewrite app_nil_r; reflexivity|].
  cbn [fold_left]. rewrite register_bounded by exact M. rewrite IH, <- app_assoc. reflexivity.
Qed.

(** ** The table *)
Definition store (v : value) : aval :=
  match v with VFlag => VNone | VNumber z => VInt z | VText s => VStr s end.
Definition e_name (e : entry) : str := match e_long e with Some n => n | None => [] end.
Definition put (acc : accepted) (e : entry) : entry :=
  mkEntry (e_kind e) (e_short e) (e_long e) (e_min e) (e_max e) (map store (taken (e_name e) acc)).
Definition table_of (acc : accepted) : list entry := map (put acc) arg_table.

Lemma taken_app n a b : taken n (a ++ b) = taken n a ++ taken n b.
Proof.
  induction a as [|[m v] a IH]; [reflexivity|]. cbn [app taken]. destruct (str_eqb m n); [cbn [app]; f_equal|]; exact IH.
Qed.

Lemma taken_other n m v : m <> n -> taken n [(m, v)] = [].
Proof. intros H. cbn. rewrite (proj2 (str_eqb_neq m n) H). reflexivity. Qed.
Lemma taken_self n v : taken n [(n, v)] = [v].
Proof. cbn. rewrite str_eqb_refl. reflexivity. Qed.

Lemma set_put T : NoDup (map e_name T) -> forall i e acc v, nth_error T i = Some e ->
  set_entry i (add_val (put acc e) (store v)) (map (put acc) T) = map (put (acc ++ [(e_name e, v)])) T.
Proof.
  induction T as [|x T IH]; intros ND i e acc v Hn; [destruct i; discriminate|].
  cbn [map] in ND. inversion ND as [|? ? N1 N2]; subst. destruct i as [|i]; cbn [nth_error] in Hn.
  - injection Hn as ->. cbn [map set_entry]. f_equal.
    + unfold put, add_val. cbn [e_kind e_short e_long e_min e_max e_vals].
      rewrite taken_app, taken_self, map_app. reflexivity.
    + apply map_ext_in. intros y Hy. unfold put. rewrite taken_app, taken_other, app_nil_r; [reflexivity|].
      intros E. apply N1. rewrite E. apply in_map. exact Hy.
  - cbn [map set_entry]. f_equal; [|apply IH; assumption].
    unfold put. rewrite taken_app, taken_other, app_nil_r; [reflexivity|].
    intros E. apply N1. rewrite <- E. apply in_map. apply (nth_error_In T i). exact Hn.
Qed.

Lemma set_same T : forall i (e : entry), nth_error T i = Some e -> set_entry i e T = T.
Proof.
  induction T as [|x T IH]; intros [|i] e H; try discriminate; cbn in *.
  - injection H as ->. reflexivity.
  - f_equal. apply IH. exact H.
Qed.

Lemma names_distinct : NoDup (map e_name arg_table).
Proof. pose proof (proj1 los_fine) as H. exact H. Qed.

(** The option table, three views of it. *)
Definition akind_of (k : kind) : akind := match k with Flag => ALit | Number => AInt | Text => AStr end.

Lemma option_entry n k m : In (mkOpt n k m) judger_options ->
  exists i e, nth_error arg_table i = Some e /\ e_name e = n /\ e_kind e = akind_of k /\ e_max e = m /\
              find (fun o => str_eqb (lo_name o) n) los = Some (mkLopt n (if takes_value k then 1 else 0) i) /\ 0 < m.
Proof.
  intros H. cbn [judger_options In] in H.
  repeat (destruct H as [H|H]; [injection H as <- <- <-;
    match goal with |- exists i e, _ /\ e_name e = ?n /\ _ =>
      let o := eval vm_compute in (find (fun o => str_eqb (lo_name o) n) los) in
      match o with Some (mkLopt _ _ ?i) => exists i end end;
    eexists; split; [reflexivity|]; repeat split; try reflexivity; lia|]).
  destruct H.
Qed.

Lemma option_unique n k m k' m' : In (mkOpt n k m) judger_options -> In (mkOpt n k' m') judger_options -> k = k' /\ m = m'.
Proof.
  intros H H'. destruct (option_entry n k m H) as (i & e & E1 & E2 & E3 & E4 & E5 & _).
  destruct (option_entry n k' m' H') as (i' & e' & E1' & E2' & E3' & E4' & E5' & _).
  rewrite E5 in E5'. injection E5' as Ek Ei. rewrite <- Ei in E1'. rewrite E1 in E1'. injection E1' as <-.
  split; [|congruence]. rewrite E3 in E3'. destruct k, k'; cbn in E3'; congruence.
Qed.

(** The position of an option in the table. *)
Definition place_of (n : str) : option nat := option_map lo_val (find (fun o => str_eqb (lo_name o) n) los).

(** How the faults are recorded. *)
Definition coded (f : fault) : perror :=
  match f with
  | UnknownOption w => mkErr None ARG_ELONGOPT (Some w)
  | MissingValue w => mkErr None ARG_EMISSARG (Some w)
  | NoSuchLetter c => mkErr None (schar c) None
  | TooMany n v => mkErr (place_of n) ARG_ERR_MAXCOUNT v
  | NotANumber n v => mkErr (place_of n) ARG_ERR_BADINT (Some v)
  | OutOfRange n v => mkErr (place_of n) ARG_ERR_OVERFLOW (Some v)
  | Stray w => mkErr None ARG_ENOMATCH (Some w)
  | Required n => mkErr (place_of n) ARG_ERR_MINCOUNT None
  | MoreFaults => mkErr None ARG_ELIMIT None
  end.

(** ** One event *)
Definition good_event (e : event) : Prop :=
  match e with
  | Given n None _ => is_flag judger_names n
  | Given n (Some _) _ => is_valued judger_names n
  | _ => True
  end.

Definition within_limits (acc : accepted) : Prop :=
  (forall n k m, In (mkOpt n k m) judger_options -> len (taken n acc) <= m) /\
  (forall n v, In (n, v) acc -> exists k m, In (mkOpt n k m) judger_options /\
     match k, v with Flag, VFlag => True | Number, VNumber z => is_int z | Text, VText _ => True | _, _ => False end).

Lemma flag_option n : is_flag judger_names n -> exists m, In (mkOpt n Flag m) judger_options.
Proof.
  unfold is_flag, judger_names. intros H. apply in_map_iff in H. destruct H as ([n' k m] & E & I).
  cbn in E. injection E as -> E. exists m. destruct k; try discriminate. exact I.
Qed.
Lemma valued_option n : is_valued judger_names n ->
  exists k m, In (mkOpt n k m) judger_options /\ (k = Number \/ k = Text).
Proof.
  unfold is_valued, judger_names. intros H. apply in_map_iff in H. destruct H as ([n' k m] & E & I).
  cbn in E. injection E as -> E. exists k, m. destruct k; try discriminate; auto.
Qed.

Lemma nth_put i acc : nth_error (table_of acc) i = option_map (put acc) (nth_error arg_table i).
Proof. apply nth_error_map. Qed.

Lemma within_add acc n k m v : within_limits acc -> In (mkOpt n k m) judger_options -> len (taken n acc) < m ->
  match k, v with Flag, VFlag => True | Number, VNumber z => is_int z | Text, VText _ => True | _, _ => False end ->
  within_limits (acc ++ [(n, v)]).
Proof.
  intros [W1 W2] I L T. split.
  - intros n' k' m' I'. rewrite taken_app, app_length.
    destruct (list_eq_dec ascii_dec n n') as [<-|Nn].
    + rewrite taken_self. destruct (option_unique _ _ _ _ _ I I') as [_ <-]. cbn. lia.
    + rewrite taken_other by exact Nn. cbn. rewrite Nat.add_0_r. apply (W1 _ _ _ I').
  - intros n' v' H. apply in_app_or in H. destruct H as [H|[H|[]]]; [apply W2; exact H|].
    injection H as <- <-. exists k, m. auto.
Qed.

Definition EM := 10.

Lemma scan_put acc n k m v errs : In (mkOpt n k m) judger_options ->
  forall i e, nth_error arg_table i = Some e -> e_name e = n -> e_kind e = akind_of k -> e_max e = m ->
  scan_entry EM i v (table_of acc) errs =
  cbind (scanfn (put acc e) v) (fun '(code, e') =>
     Val (set_entry i e' (table_of acc), if (code =? 0)%Z then errs else register_error EM errs (mkErr (Some i) code v))).
Proof. intros I i e E1 E2 E3 E4. unfold scan_entry. rewrite nth_put, E1. reflexivity. Qed.

Lemma int_text_nonempty v z : int_text v z -> v <> [].
Proof.
  intros H -> . assert (scan_int [] = Val (Failed ARG_ERR_BADINT)) as E by reflexivity.
  apply scan_bad in E. apply (proj1 E z). exact H.
Qed.

Theorem event_step acc e l : good_event e -> within_limits acc ->
  (forall n m v w, e = Given n (Some v) w -> In (mkOpt n Number m) judger_options -> len (taken n acc) < m -> ~ negated_min v) ->
  exists new fs, one acc e new fs /\ within_limits (acc ++ new) /\
    apply_event los EM e (table_of acc, bounded EM l) = Val (table_of (acc ++ new), bounded EM (l ++ map coded fs)).
Proof.
  intros G W Hn. destruct e as [n v w|w|w|c]; cbn [good_event] in G.
  2:{ exists [], [UnknownOption w]. rewrite app_nil_r. split; [constructor|]. split; [exact W|].
      cbn [apply_event map coded]. rewrite register_bounded by (unfold EM; lia). reflexivity. }
  2:{ exists [], [MissingValue w]. rewrite app_nil_r. split; [constructor|]. split; [exact W|].
      cbn [apply_event map coded]. rewrite register_bounded by (unfold EM; lia). reflexivity. }
  2:{ exists [], [NoSuchLetter c]. rewrite app_nil_r. split; [constructor|]. split; [exact W|].
      cbn [apply_event map coded]. rewrite register_bounded by (unfold EM; lia). reflexivity. }
  assert (exists k m, In (mkOpt n k m) judger_options /\
          match v with None => k = Flag | Some _ => k = Number \/ k = Text end) as (k & m & I & Kv).
  { destruct v as [v|]; [apply valued_option; exact G|]. destruct (flag_option n G) as (m & I). exists Flag, m. auto. }
  destruct (option_entry n k m I) as (i & e & E1 & E2 & E3 & E4 & E5 & M0).
  assert (place_of n = Some i) as Pl by (unfold place_of; rewrite E5; reflexivity).
  cbn [apply_event]. rewrite E5. cbn [lo_val]. rewrite nth_put, E1. cbn [option_map].
  assert (forall errs, scan_entry EM i v (table_of acc) errs =
    cbind (scanfn (put acc e) v) (fun '(code, e') =>
     Val (set_entry i e' (table_of acc), if (code =? 0)%Z then errs else register_error EM errs (mkErr (Some i) code v)))) as Sc.
  { intros errs. apply (scan_put acc n k m v errs I i e E1 E2 E3 E4). }
  rewrite Sc. clear Sc.
  (* the errors so far, with the complaint about an empty value *)
  assert (match v with
          | Some [] => if has_value (put acc e) then register_error EM (bounded EM l) (mkErr None ARG_EMISSARG (Some w)) else bounded EM l
          | _ => bounded EM l
          end = bounded EM (l ++ map coded (empty_value v w))) as ->.
  { destruct v as [[|x v]|]; cbn [empty_value map]; rewrite ?app_nil_r; auto.
    unfold has_value, put. cbn [e_kind]. rewrite E3. destruct Kv as [-> | ->]; cbn [akind_of]; apply register_bounded; unfold EM; lia. }
  assert (e_count (put acc e) = len (taken n acc)) as Cn.
  { unfold e_count, put. cbn [e_vals]. rewrite map_length, E2. reflexivity. }
  assert (e_max (put acc e) = m) as Mx by exact E4.
  assert (forall z, set_entry i (add_val (put acc e) (store z)) (table_of acc) = table_of (acc ++ [(n, z)])) as Add.
  { intros z. unfold table_of. rewrite (set_put arg_table names_distinct i e acc z E1), E2. reflexivity. }
  assert (set_entry i (put acc e) (table_of acc) = table_of acc) as Same.
  { apply set_same. rewrite nth_put, E1. reflexivity. }
  pose proof (proj1 W n k m I) as Le.
  destruct (Nat.eq_dec (len (taken n acc)) m) as [Full|Room].
  - exists [], (empty_value v w ++ [TooMany n v]). rewrite app_nil_r.
    split; [apply (one_excess acc n k m v w I Full)|]. split; [exact W|].
    assert (scanfn (put acc e) v = Val (ARG_ERR_MAXCOUNT, put acc e)) as ->.
    { unfold scanfn. rewrite Cn, Mx. unfold put at 1. cbn [e_kind]. rewrite E3, Full, Nat.eqb_refl, Nat.ltb_irrefl.
      destruct k; reflexivity. }
    cbn [cbind]. rewrite Same. change (ARG_ERR_MAXCOUNT =? 0)%Z with false. cbv iota.
    rewrite register_bounded by (unfold EM; lia). rewrite map_app, app_assoc. cbn [map coded]. rewrite Pl. reflexivity.
  - assert (len (taken n acc) < m) as Lt by lia.
    assert ((len (taken n acc) =? m) = false) as Eq by (apply Nat.eqb_neq; exact Room).
    destruct v as [v|].
    + destruct Kv as [-> | ->].
      * (* a number *)
        pose proof (Hn n m v w eq_refl I Lt) as Nm.
        assert (scanfn (put acc e) (Some v) = cbind (scan_int v) (fun r =>
               match r with
               | Stored z => Val (0%Z, add_val (put acc e) (VInt z))
               | Failed code => Val (code, put acc e)
               end)) as ->.
        { unfold scanfn. rewrite Cn, Mx. unfold put at 1. cbn [e_kind]. rewrite E3, Eq. reflexivity. }
        destruct (scan_cases v) as [U|[(z & St)|[Ov|Bd]]].
        -- exfalso. apply Nm. apply scan_UB. exact U.
        -- rewrite St. cbn [cbind]. apply scan_stored in St. destruct St as [It Ii].
           exists [(n, VNumber z)], []. split; [exact (one_number acc n m v w z I Lt It Ii)|].
           split; [apply (within_add acc n Number m); auto|].
           rewrite <- Add. cbn [map store]. rewrite app_nil_r.
           change (0 =? 0)%Z with true. cbv iota.
           pose proof (int_text_nonempty v z It) as Ne. destruct v as [|x v]; [congruence|].
           cbn [empty_value map]. rewrite app_nil_r. reflexivity.
        -- rewrite Ov. cbn [cbind]. apply scan_overflow in Ov. destruct Ov as [(z & It & Ni) _].
           exists [], [OutOfRange n v]. rewrite app_nil_r.
           split; [exact (one_out_of_range acc n m v w z I Lt It Ni)|]. split; [exact W|].
           rewrite Same. change (ARG_ERR_OVERFLOW =? 0)%Z with false. cbv iota.
           pose proof (int_text_nonempty v z It) as Ne. destruct v as [|x v]; [congruence|].
           cbn [empty_value map]. rewrite app_nil_r, register_bounded by (unfold EM; lia).
           cbn [coded]. rewrite Pl. reflexivity.
        -- rewrite Bd. cbn [cbind]. apply scan_bad in Bd. destruct Bd as [Bd _].
           exists [], (empty_value (Some v) w ++ [NotANumber n v]). rewrite app_nil_r.
           split; [exact (one_no_number acc n m v w I Lt Bd)|]. split; [exact W|].
           rewrite Same. change (ARG_ERR_BADINT =? 0)%Z with false. cbv iota.
           rewrite register_bounded by (unfold EM; lia). rewrite map_app, app_assoc. cbn [map coded]. rewrite Pl. reflexivity.
      * assert (scanfn (put acc e) (Some v) = Val (0%Z, add_val (put acc e) (VStr v))) as ->.
        { unfold scanfn. rewrite Cn, Mx. unfold put at 1. cbn [e_kind]. rewrite E3, Eq. reflexivity. }
        cbn [cbind]. exists [(n, VText v)], (empty_value (Some v) w).
        split; [exact (one_text acc n m v w I Lt)|]. split; [apply (within_add acc n Text m); auto|].
        rewrite <- Add. reflexivity.
    + subst k.
      assert (scanfn (put acc e) None = Val (0%Z, add_val (put acc e) VNone)) as ->.
      { unfold scanfn. rewrite Cn, Mx. unfold put at 1. cbn [e_kind]. rewrite E3. cbn [akind_of].
        rewrite (proj2 (Nat.ltb_lt _ _) Lt). reflexivity. }
      cbn [cbind]. exists [(n, VFlag)], []. split; [exact (one_flag acc n m w I Lt)|].
      split; [apply (within_add acc n Flag m); auto|].
      rewrite <- Add. reflexivity.
Qed.

(** [one] and [occurs] are functions. *)
Lemma one_unique acc e new fs new' fs' : one acc e new fs -> one acc e new' fs' -> new = new' /\ fs = fs'.
Proof.
  intros H H'.
  assert (forall v z, int_text v z -> is_int z -> (forall z', int_text v z' -> is_int z' -> z' = z) /\
     (forall z', int_text v z' -> ~ is_int z' -> False)) as Num.
  { intros v z It Ii. pose proof (proj2 (scan_stored v z) (conj It Ii)) as St. split.
    - intros z' It' Ii'. pose proof (proj2 (scan_stored v z') (conj It' Ii')) as St'. congruence.
    - intros z' It' Ni'. assert (~ negated_min v) as Nm by (rewrite <- scan_UB, St; discriminate).
      assert (scan_int v = Val (Failed ARG_ERR_OVERFLOW)) as Ov by (apply scan_overflow; split; [eauto|exact Nm]). congruence. }
  inversion H; subst; inversion H'; subst; auto;
    repeat match goal with
    | A : In (mkOpt ?n ?k ?m) _, B : In (mkOpt ?n ?k' ?m') _ |- _ =>
        lazymatch A with B => fail | _ =>
        let X := fresh in let Y := fresh in
        destruct (option_unique _ _ _ _ _ A B) as [X Y]; clear B; subst end
    end; try discriminate; try lia; auto.
  all: try (exfalso; match goal with A : forall z, ~ int_text ?v z, B : int_text ?v ?z |- _ => exact (A z B) end).
  all: try match goal with A : int_text ?v ?z, B : is_int ?z, A' : int_text ?v ?z', B' : ~ is_int ?z' |- _ =>
         exfalso; exact (proj2 (Num v z A B) z' A' B') end.
  match goal with A : int_text ?v ?z, B : is_int ?z, A' : int_text ?v ?z', B' : is_int ?z' |- (_, _ ?z) :: _ = _ /\ _ =>
    rewrite (proj1 (Num v z A B) z' A' B') end. auto.
Qed.
