(** Command lines without faults, and what the options given mean. *)
From Coq Require Import ZArith Bool List Ascii String Arith Lia.
From Verif.Base Require Import CInt CStr.
From Verif.Model Require Import Config ArgInt Permute Getopt Argtable Main.
From Verif.Spec Require Import IntText CmdLine Invocation.
From Verif.Proofs Require Import ArgIntClaims PermuteProofs GetoptLong GetoptProofs ParseSim InvocationProofs MainProofs.
Import ListNotations.
Open Scope list_scope.
Open Scope nat_scope.

Lemma Forall2_length {A B} (P : A -> B -> Prop) l l' : Forall2 P l l' -> len l = len l'.
Proof. intros F. induction F; cbn; congruence. Qed.

Lemma one_event_taken acc e new fs n : one acc e new fs -> taken n new <> [] -> given n [e] <> [].
Proof.
  intros O T. destruct O; cbn [taken given] in *; try congruence;
    destruct (str_eqb n0 n); congruence.
Qed.

Lemma given_cons n e es : given n (e :: es) = given n [e] ++ given n es.
Proof. destruct e as [m v w|w|w|c]; cbn [given app]; try reflexivity. destruct (str_eqb m n); reflexivity. Qed.

Lemma given_In n es : given n es <> [] <-> exists v w, In (Given n v w) es.
Proof.
  induction es as [|e es IH]; [split; [intros X; contradiction X; reflexivity|intros (v & w & [])]|].
  rewrite given_cons. destruct e as [m v w|w|w|c]; cbn [given app].
  2-4: rewrite IH; split; intros (v & w' & H); exists v, w'; [right; exact H|destruct H as [H|H]; [discriminate|exact H]].
  destruct (str_eqb m n) eqn:E.
  - apply str_eqb_eq in E. subst. split; [intros _; exists v, w; left; reflexivity|cbn; congruence].
  - apply str_eqb_neq in E. cbn [app]. rewrite IH.
    split; intros (v' & w' & H); exists v', w'; [right; exact H|destruct H as [H|H]; [congruence|exact H]].
Qed.

Lemma occurs_taken acc es acc' fs n : occurs acc es acc' fs -> taken n acc' <> [] -> taken n acc <> [] \/ given n es <> [].
Proof.
  intros O. induction O as [|acc e es new fs acc' fs' O1 O IH]; [auto|]. intros T.
  destruct (IH T) as [H|H].
  - rewrite taken_app in H. destruct (taken n acc); [|left; discriminate]. right.
    rewrite given_cons. pose proof (one_event_taken _ _ _ _ n O1 H). destruct (given n [e]); [congruence|discriminate].
  - right. rewrite given_cons. destruct (given n [e]); [exact H|discriminate].
Qed.

Lemma occurs_grow acc es acc' fs n : occurs acc es acc' fs -> taken n acc <> [] -> taken n acc' <> [].
Proof.
  intros O. induction O as [|acc e es new fs acc' fs' O1 O IH]; [auto|]. intros T. apply IH.
  rewrite taken_app. destruct (taken n acc); [congruence|discriminate].
Qed.

Lemma occurs_flag acc es acc' fs n m : occurs acc es acc' fs -> In (mkOpt n Flag m) judger_options ->
  given n es <> [] -> taken n acc' <> [].
Proof.
  intros O I. induction O as [|acc e es new fs acc' fs' O1 O IH]; [cbn; congruence|]. rewrite given_cons. intros G.
  destruct (given n [e]) as [|x l] eqn:E; [apply IH; exact G|]. apply (occurs_grow _ _ _ _ n O).
  destruct O1 as [w|w|c|n' k' m' v w I' L|n' m' w I' L|n' m' v w z I' L|n' m' v w I' L|n' m' v w z I' L|n' m' v w I' L];
    cbn [given] in E; try discriminate;
    destruct (str_eqb n' n) eqn:En; try discriminate; apply str_eqb_eq in En; subst n';
    try (destruct (option_unique _ _ _ _ _ I I') as [X _]; discriminate).
  - rewrite app_nil_r. destruct (option_unique _ _ _ _ _ I I') as [<- <-].
    destruct (option_entry _ _ _ I) as (? & ? & _ & _ & _ & _ & _ & M0).
    intros T. rewrite T in L. cbn in L. lia.
  - rewrite taken_app, taken_self. destruct (taken n acc); discriminate.
Qed.

Theorem flag_given es acc fs n m : occurs [] es acc fs -> In (mkOpt (lit n) Flag m) judger_options ->
  (has n acc = true <-> exists v w, In (Given (lit n) v w) es).
Proof.
  intros O I. unfold has. rewrite <- given_In. split.
  - intros H. destruct (occurs_taken _ _ _ _ (lit n) O) as [X|X]; [destruct (taken (lit n) acc); congruence|cbn in X; congruence|exact X].
  - intros G. pose proof (occurs_flag _ _ _ _ _ _ O I G). destruct (taken (lit n) acc); congruence.
Qed.

(** ** Without faults *)
Definition fine_event (e : event) : Prop :=
  exists n v w, e = Given n v w /\ v <> Some [] /\
    (forall m x, v = Some x -> In (mkOpt n Number m) judger_options -> exists z, int_text x z /\ is_int z).

Lemma one_clean acc e new : one acc e new [] ->
  fine_event e /\ forall n k m, In (mkOpt n k m) judger_options -> Forall2 (meaning k) (given n [e]) (taken n new).
Proof.
  intros O.
  assert (forall n0 v w k0 m0 x, e = Given n0 v w -> new = [(n0, x)] -> In (mkOpt n0 k0 m0) judger_options -> meaning k0 v x ->
          forall n k m, In (mkOpt n k m) judger_options -> Forall2 (meaning k) (given n [e]) (taken n new)) as Sub.
  { intros n0 v w k0 m0 x -> -> I0 Hm n k m I. cbn [given taken]. destruct (str_eqb n0 n) eqn:E; [|constructor].
    apply str_eqb_eq in E. subst. destruct (option_unique _ _ _ _ _ I I0) as [-> _]. repeat constructor. exact Hm. }
  inversion O as [ | | |n' k' m' v w I' L|n' m' w I' L|n' m' v w z I' L It Ii|n' m' v w I' L|n' m' v w z I' L|n' m' v w I' L]; subst.
  - destruct (empty_value v w); discriminate.
  - split; [exists n', None, w; repeat split; congruence|].
    eapply Sub; eauto. exact Logic.I.
  - split; [exists n', (Some v), w; split; [reflexivity|]; split|].
    + pose proof (int_text_nonempty v z It). congruence.
    + intros m x E _. injection E as <-. eauto.
    + eapply Sub; eauto. cbn. auto.
  - destruct v; discriminate.
  - assert (v <> []) as Ne by (intros ->; discriminate).
    split; [exists n', (Some v), w; split; [reflexivity|]; split; [congruence|]|].
    + intros m x _ I2. destruct (option_unique _ _ _ _ _ I' I2) as [X _]. discriminate.
    + eapply Sub; eauto. reflexivity.
Qed.

Lemma occurs_clean acc es acc' : occurs acc es acc' [] ->
  Forall fine_event es /\
  forall n k m, In (mkOpt n k m) judger_options -> exists vs, taken n acc' = taken n acc ++ vs /\ Forall2 (meaning k) (given n es) vs.
Proof.
  intros O. remember [] as fs0 eqn:E. induction O as [acc|acc e es new fs acc' fs' O1 O IH].
  - split; [constructor|]. intros n k m _. exists []. rewrite app_nil_r. split; [reflexivity|constructor].
  - apply app_eq_nil in E. destruct E as [-> ->]. destruct (IH eq_refl) as [IH1 IH2].
    destruct (one_clean _ _ _ O1) as [F1 F2]. split; [constructor; assumption|].
    intros n k m I. destruct (IH2 n k m I) as (vs & E & F). exists (taken n new ++ vs).
    rewrite E, taken_app, app_assoc. split; [reflexivity|]. rewrite given_cons. apply Forall2_app; eauto.
Qed.

Lemma one_no_fault acc e new fs : one acc e new fs -> fine_event e ->
  (forall n k m, In (mkOpt n k m) judger_options -> len (taken n acc) + len (given n [e]) <= m) ->
  fs = [] /\ forall n, len (taken n new) = len (given n [e]).
Proof.
  intros O (n0 & v0 & w0 & E0 & Ne & Num) L.
  inversion O as [ | | |n' k' m' v w I' Lt|n' m' w I' Lt|n' m' v w z I' Lt It Ii|n' m' v w I' Lt Bd|n' m' v w z I' Lt It Ni|n' m' v w I' Lt]; subst;
    try discriminate; match goal with X : Given _ _ _ = Given _ _ _ |- _ => injection X as <- <- <- end.
  - exfalso. specialize (L _ _ _ I'). cbn [given] in L. rewrite str_eqb_refl in L. cbn in L. lia.
  - split; [reflexivity|]. intros n. cbn. destruct (str_eqb n' n); reflexivity.
  - split; [reflexivity|]. intros n. cbn. destruct (str_eqb n' n); reflexivity.
  - exfalso. destruct (Num _ _ eq_refl I') as (z & It & _). exact (Bd z It).
  - exfalso. destruct (Num _ _ eq_refl I') as (z' & It' & Ii').
    assert (In (mkOpt n' Number m') judger_options) as I2 by exact I'.
    destruct (one_unique acc (Given n' (Some v) w) _ _ _ _ (one_number acc n' m' v w z' I' Lt It' Ii')
              (one_out_of_range acc n' m' v w z I' Lt It Ni)) as [X _]. discriminate.
  - split; [destruct v; [contradiction Ne; reflexivity|reflexivity]|]. intros n. cbn. destruct (str_eqb n' n); reflexivity.
Qed.

Lemma occurs_no_fault acc es acc' fs : occurs acc es acc' fs -> Forall fine_event es ->
  (forall n k m, In (mkOpt n k m) judger_options -> len (taken n acc) + len (given n es) <= m) -> fs = [].
Proof.
  intros O. induction O as [acc|acc e es new fs acc' fs' O1 O IH]; [auto|]. intros F L.
  inversion F as [|? ? F1 F2]; subst.
  destruct (one_no_fault _ _ _ _ O1 F1) as [-> Ln].
  { intros n k m I. specialize (L n k m I). rewrite given_cons, app_length in L. lia. }
  cbn. apply IH; [exact F2|]. intros n k m I. specialize (L n k m I).
  rewrite given_cons, app_length in L. rewrite taken_app, app_length, Ln. lia.
Qed.

Lemma In_given n es v : In v (given n es) <-> exists w, In (Given n v w) es.
Proof.
  induction es as [|e es IH]; [split; [intros []|intros (w & [])]|].
  rewrite given_cons, in_app_iff, IH. destruct e as [m x w|w|w|c]; cbn [given].
  2-4: split; [intros [[]|(w' & H)]; exists w'; right; exact H|intros (w' & [H|H]); [discriminate|right; eauto]].
  destruct (str_eqb m n) eqn:E.
  - apply str_eqb_eq in E. subst. split.
    + intros [[->|[]]|(w' & H)]; [exists w; left; reflexivity|exists w'; right; exact H].
    + intros (w' & [H|H]); [injection H as -> ->; left; left; reflexivity|right; eauto].
  - apply str_eqb_neq in E. split.
    + intros [[]|(w' & H)]. exists w'. right. exact H.
    + intros (w' & [H|H]); [congruence|right; eauto].
Qed.

Theorem faultless_iff es acc fs r : within_limits acc -> occurs [] es acc fs ->
  (faultless es r <-> all_faults acc fs r = []).
Proof.
  intros W O. assert (In (mkOpt (lit "exe_path") Text 1) judger_options) as Ie by in_options. split.
  - intros (-> & F & N & L & E). unfold all_faults. cbn [map]. rewrite app_nil_r.
    assert (Forall fine_event es) as Fe.
    { apply Forall_forall. intros e He. destruct (F e He) as (n & v & w & -> & Ne). exists n, v, w.
      split; [reflexivity|]. split; [exact Ne|]. intros m x -> I. apply (N n m x I). apply In_given. eauto. }
    assert (fs = []) as ->.
    { apply (occurs_no_fault _ _ _ _ O Fe). intros n k m I. cbn. apply (L n k m I). }
    destruct (occurs_clean _ _ _ O) as [_ Cl]. destruct (Cl _ _ _ Ie) as (vs & Et & F2). cbn [taken app] in Et.
    apply Forall2_length in F2. rewrite Et. destruct vs; [cbn [List.length] in F2; lia|reflexivity].
  - unfold all_faults. destruct (fs ++ map Stray r) eqn:Ef; [|discriminate].
    apply app_eq_nil in Ef. destruct Ef as [-> Er]. destruct r; [|discriminate]. intros T.
    destruct (occurs_clean _ _ _ O) as [Fe Cl].
    split; [reflexivity|]. split; [|split; [|split]].
    + intros e He. rewrite Forall_forall in Fe. destruct (Fe e He) as (n & v & w & -> & Ne & _). eauto.
    + intros n m v I J. apply In_given in J. destruct J as (w & J). rewrite Forall_forall in Fe.
      destruct (Fe _ J) as (n' & v' & w' & E & _ & Nu). injection E as <- <- <-. apply (Nu m v eq_refl I).
    + intros n k m I. destruct (Cl n k m I) as (vs & Et & F2). cbn [taken app] in Et. apply Forall2_length in F2.
      rewrite F2, <- Et. apply (proj1 W n k m I).
    + destruct (Cl _ _ _ Ie) as (vs & Et & F2). cbn [taken app] in Et. apply Forall2_length in F2. rewrite F2, <- Et.
      pose proof (proj1 W _ _ _ Ie). destruct (taken (lit "exe_path") acc) as [|x [|y l]]; [discriminate|reflexivity|cbn in *; lia].
Qed.

Lemma faultless_meaning es acc : occurs [] es acc [] ->
  forall n k m, In (mkOpt n k m) judger_options -> Forall2 (meaning k) (given n es) (taken n acc).
Proof.
  intros O n k m I. destruct (occurs_clean _ _ _ O) as [_ Cl]. destruct (Cl n k m I) as (vs & -> & F). exact F.
Qed.

Lemma all_faults_nil acc fs r : all_faults acc fs r = [] -> fs = [] /\ r = [].
Proof.
  unfold all_faults. destruct (fs ++ map Stray r) eqn:E; [|discriminate]. intros _.
  apply app_eq_nil in E. destruct E as [-> E]. destruct r; [auto|discriminate].
Qed.

Lemma faultless_harmless es r : faultless es r -> harmless es.
Proof.
  intros (_ & _ & N & _) (es1 & n & v & w & es2 & acc & fs & m & -> & _ & I & _ & Nm).
  destruct (N n m v I) as (z & It & Ii); [apply In_given; exists w; apply in_or_app; right; left; reflexivity|].
  apply scan_UB in Nm. rewrite (proj2 (scan_stored v z) (conj It Ii)) in Nm. discriminate.
Qed.

(** ** What main does, in terms of what was given *)
Lemma main_cases posix prog ws es r : Forall c_string ws -> reads judger_names posix ws es r -> harmless es ->
  exists n a, (forall fuel, n <= fuel -> main_ fuel posix (prog :: ws) = Some a) /\
    (mentions es "help" -> a = Val Usage) /\
    (~ mentions es "help" -> mentions es "version" -> a = Val Version) /\
    (~ mentions es "help" -> ~ mentions es "version" ->
       (~ faultless es r -> exists errs, a = Val (Errors errs) /\ errs <> [] /\ len errs <= 10) /\
       (faultless es r -> len (given (lit "args") es) <= 254 -> exists c, a = Val (Run c) /\ configured_by es c) /\
       (faultless es r -> len (given (lit "args") es) = 255 -> a = UB)).
Proof.
  intros C R H. destruct (occurs_exists _ _ _ _ R H) as (acc & fs & O).
  destruct (main_reads posix prog ws es r acc fs C R H O) as (n & a & M & A).
  destruct (good_occurs es acc fs (reads_good _ _ _ _ R) H O) as [W _].
  exists n, a. split; [exact M|]. unfold acts in A.
  assert (In (mkOpt (lit "help") Flag 1) judger_options) as Ih by in_options.
  assert (In (mkOpt (lit "version") Flag 1) judger_options) as Iv by in_options.
  pose proof (flag_given es acc fs "help" 1 O Ih) as Hh. pose proof (flag_given es acc fs "version" 1 O Iv) as Hv.
  fold (mentions es "help") in Hh. fold (mentions es "version") in Hv.
  split; [|split].
  - intros X. apply Hh in X. rewrite X in A. exact A.
  - intros X Y. apply Hv in Y. rewrite Y in A. destruct (has "help" acc); [exfalso; apply X; apply Hh; reflexivity|exact A].
  - intros X Y. destruct (has "help" acc); [exfalso; apply X; apply Hh; reflexivity|].
    destruct (has "version" acc); [exfalso; apply Y; apply Hv; reflexivity|].
    pose proof (faultless_iff es acc fs r W O) as Fi.
    assert (In (mkOpt (lit "args") Text 255) judger_options) as Ia by in_options.
    split; [|split].
    + intros Nf. destruct (all_faults acc fs r) as [|f l] eqn:Ea; [exfalso; apply Nf; apply Fi; reflexivity|].
      exists (map coded (first_ten (f :: l))). split; [exact A|]. unfold first_ten.
      destruct (Nat.leb_spec (len (f :: l)) 10) as [L|L].
      * split; [discriminate|]. rewrite map_length. exact L.
      * split; [cbn [firstn app map]; discriminate|]. rewrite map_length, app_length, firstn_length. cbn [List.length]. lia.
    + intros F L. pose proof (proj1 Fi F) as E. rewrite E in A. destruct (all_faults_nil _ _ _ E) as [-> ->].
      pose proof (faultless_meaning es acc O) as Me. pose proof (Forall2_length _ _ _ (Me _ _ _ Ia)) as Ln.
      destruct (Nat.eqb_spec (len (taken (lit "args") acc)) 255) as [E5|_]; [lia|].
      destruct A as (c & -> & Cf). exists c. split; [reflexivity|]. exists acc. auto.
    + intros F L. pose proof (proj1 Fi F) as E. rewrite E in A. destruct (all_faults_nil _ _ _ E) as [-> ->].
      pose proof (Forall2_length _ _ _ (faultless_meaning es acc O _ _ _ Ia)) as Ln.
      destruct (Nat.eqb_spec (len (taken (lit "args") acc)) 255) as [_|E5]; [exact A|lia].
Qed.

(** The exact list of errors. *)
Lemma main_errors posix prog ws es r acc fs : Forall c_string ws -> reads judger_names posix ws es r -> harmless es ->
  occurs [] es acc fs -> ~ mentions es "help" -> ~ mentions es "version" -> all_faults acc fs r <> [] ->
  exists n, forall fuel, n <= fuel ->
    main_ fuel posix (prog :: ws) = Some (Val (Errors (map coded (first_ten (all_faults acc fs r))))).
Proof.
  intros C R H O X Y F. destruct (main_reads posix prog ws es r acc fs C R H O) as (n & a & M & A).
  exists n. intros fuel L. rewrite (M fuel L). f_equal. unfold acts in A.
  assert (In (mkOpt (lit "help") Flag 1) judger_options) as Ih by in_options.
  assert (In (mkOpt (lit "version") Flag 1) judger_options) as Iv by in_options.
  pose proof (flag_given es acc fs "help" 1 O Ih) as Hh. pose proof (flag_given es acc fs "version" 1 O Iv) as Hv.
  destruct (has "help" acc); [exfalso; apply X; apply Hh; reflexivity|].
  destruct (has "version" acc); [exfalso; apply Y; apply Hv; reflexivity|].
  destruct (all_faults acc fs r); [congruence|exact A].
Qed.

(** ** Settings written as --name=value *)
Lemma no_equal_names n b : In (n, b) judger_names -> no_char "="%char n /\ c_string n /\ n <> [].
Proof.
  unfold no_char, c_string, no_char. intros H. vm_compute in H.
  repeat (destruct H as [H|H]; [injection H as <- _; cbn [In]; (split; [intuition discriminate|split; [intuition discriminate|discriminate]])|]).
  destruct H.
Qed.

Lemma setting_reads posix n v ws es r : is_valued judger_names n -> reads judger_names posix ws es r ->
  reads judger_names posix (setting_word (n, v) :: ws) (setting_event (n, v) :: es) r.
Proof.
  intros I R. unfold setting_word, setting_event. cbn [fst snd].
  change (lit "--" ++ n ++ lit "=" ++ v) with (lit "-" ++ [] ++ lit "-" ++ (n ++ lit "=" ++ v)).
  change (Given n (Some v) (setting_word (n, v)) :: es) with (map Letter [] ++ Given n (Some v) (lit "-" ++ [] ++ lit "-" ++ n ++ lit "=" ++ v) :: es).
  destruct (no_equal_names n true I) as (Ne & _ & Nn).
  apply (reads_long judger_names posix [] (n ++ lit "=" ++ v) ws _ ws es r).
  - intros [].
  - destruct n; [congruence|discriminate].
  - apply (long_value_here judger_names _ _ ws n v n).
    + split; [exact Ne|reflexivity].
    + split; [|left; reflexivity]. unfold names. apply in_map_iff. exists (n, true). auto.
    + exact I.
  - exact R.
Qed.

Theorem settings_read posix ss : Forall (fun s => is_valued judger_names (fst s)) ss ->
  reads judger_names posix (map setting_word ss) (map setting_event ss) [].
Proof.
  induction ss as [|[n v] ss IH]; intros F; [constructor|]. inversion F; subst. cbn [map].
  apply setting_reads; auto.
Qed.
